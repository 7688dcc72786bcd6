(** * Vocabulary of the statements about the fingerprint

    Definitions only. *)

From Verif Require Import PyStr Regex PyPath Res Const Item Stash Repr.

(** The texts of items are those of Python, with [pr] as str.isprintable and
    sets in the order of this run. *)
Definition prints (e : env) (pr : N -> bool) : Prop := forall i, e_repr e i = item_repr pr (e_sset e) i.

(** A stash made with these settings and filled by AddFile calls, whatever they
    give, with changes of the constants in between. *)
Inductive filled (e : env) (new neg : bool) : stash -> Prop :=
| filled_new : forall db, filled e new neg (new_stash new neg db)
| filled_add : forall n path off forced s r s',
    filled e new neg s -> add_file n e path off forced s = (r, s') -> filled e new neg s'
| filled_const : forall db s, filled e new neg s -> filled e new neg (with_const db s).

(** Same class and same properties of the class. *)
Definition same_kind (p q : payload) : Prop :=
  match p, q with
  | PInherit c st l, PInherit c' st' l' => c = c' /\ st = st' /\ forall x, In x l <-> In x l'
  | _, _ => p = q
  end.
(** Items that show the same, except for the place of a bbappend behind its
    recipe. *)
Definition alike (i j : item) : Prop :=
  it_infile i = it_infile j /\ it_raw i = it_raw j /\ it_realraw i = it_realraw j /\
  it_origin i = it_origin j /\ it_blocks i = it_blocks j /\ it_new i = it_new j /\
  same_kind (it_pay i) (it_pay j) /\
  ((forall d, it_origin i <> d ++ ".bbappend") -> it_line i = it_line j).

(** Environments of two runs on the same files: only the order of sets
    differs. *)
Definition same_world (e e' : env) : Prop := e_fs e = e_fs e' /\ e_url e = e_url e'.

(** Items that show the same texts, numbers and sets. *)
Definition shown_same (i j : item) : Prop :=
  it_line i = it_line j /\ it_infile i = it_infile j /\ it_raw i = it_raw j /\ it_realraw i = it_realraw j /\
  it_origin i = it_origin j /\ it_blocks i = it_blocks j /\ it_new i = it_new j /\ it_pay i = it_pay j /\
  it_incfrom i = it_incfrom j.
(** An inherit that found at most one class. *)
Definition one_path (p : payload) : Prop :=
  match p with PInherit _ _ l => forall x y, In x l -> In y l -> x = y | _ => True end.
