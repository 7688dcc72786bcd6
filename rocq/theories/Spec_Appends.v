(** * Vocabulary of the statements about recipes with several bbappends

    Definitions only. *)

From Verif Require Import PyStr PyPath Res Item Lines Stash Spec_Parse Spec_Recipe Props_Lines.

(** The files [ps] are added one after another; each of them has items. *)
Inductive added (e : env) : stash -> list str -> stash -> Prop :=
| added_none : forall s, added e s [] s
| added_next : forall n p l s s1 ps s2, add_file n e p 0 None s = (Ok l, s1) -> l <> [] ->
    added e s1 ps s2 -> added e s (p :: ps) s2.

(** [k] has the members of all lists [ls], those of each list in their order. *)
Inductive merged {A} : list (list A) -> list A -> Prop :=
| merged_none : forall ls, Forall (eq []) ls -> merged ls []
| merged_next : forall a x l b k, merged (a ++ l :: b) k -> merged (a ++ (x :: l) :: b) (x :: k).

(** A file and its statements. *)
Definition part := (str * list (list str * stmt))%type.

(** A file that can be read and does not add others. *)
Definition readable (e : env) (neg : bool) (p : part) : Prop :=
  (exists t, fs_read (e_fs e) (file_of e (fst p)) = RdText t /\ coded neg (snd p) (universal_newlines t)) /\
  forall c, In c (snd p) -> ~ brings (snd c).

(** No two assignments or unset statements have the same line. *)
Definition own_lines (l : list item) : Prop :=
  forall i j, In i l -> In j l -> (classifier i = "Variable" \/ classifier i = "Unset") ->
    (classifier j = "Variable" \/ classifier j = "Unset") -> it_line i = it_line j -> i = j.
