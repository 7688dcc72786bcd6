(** * Which variables an expansion depends on: specification *)

From Verif Require Import PyStr Res Const Item Lines Stash Spec_Query Spec_Parse Spec_Expand.
From Coq Require Import Sorted.

(** The text refers to the name, in braces behind a dollar sign; or it calls
    getVar and the name is somewhere in it. *)
Definition refers (v n : str) : Prop :=
  n <> [] /\ (occurs ("${" ++ n ++ "}") v \/ (occurs "getVar(" v /\ occurs n v)).

(** The names that matter for a text: those it refers to, and those that the
    definitions of names that matter refer to. *)
Inductive matters (s : stash) (file v : str) : str -> Prop :=
| matters_here : forall n, refers v n -> matters s file v n
| matters_next : forall m c n, matters s file v m -> stands_for s file m (Some c) -> refers c n -> matters s file v n.

(** The name stands for one and the same text in both stashes, or for none. *)
Definition agree (s s' : stash) (file n : str) : Prop :=
  forall c c', stands_for s file n c -> stands_for s' file n c' -> c = c'.

(** The name has the same definitions and the same preset value in both, and no
    two definitions are on the same line. *)
Definition same_definitions (s s' : stash) (file n : str) : Prop :=
  (forall i, definition s file n i <-> definition s' file n i) /\
  (forall i j, definition s file n i -> definition s file n j -> it_line i = it_line j -> i = j) /\
  dget n (sets_base (st_const s)) = dget n (sets_base (st_const s')).

(** The assignments and unset statements that ExpandVar looks at, in the order
    of their lines. *)
Definition statements (s : stash) (file : str) (nolink : bool) (l : list item) : Prop :=
  (forall i, In i l <-> In i (st_list s) /\
     (selected s (MkQuery (Some file) (AOne "Variable") ANone ANone nolink) i \/
      selected s (MkQuery (Some file) (AOne "Unset") ANone ANone false) i)) /\
  NoDup (map it_id l) /\ StronglySorted by_line l.
