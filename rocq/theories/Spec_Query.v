(** * Vocabulary of the statements about queries and updates

    Definitions only.  They describe what a caller means, not how the code
    computes it; of the model they use the items, their properties
    ([classifier], [attributes]) and the links between files ([st_map]). *)

From Verif Require Import PyStr Regex PyPath Res Const Item Stash ReachFacts.
From Coq Require Import Permutation Sorted.

(** Files linked to a file (cls_stash.py:133, the values of the map). *)
Definition linked (s : stash) (f x : str) : Prop := exists l, dget f (st_map s) = Some l /\ In x l.

(** The item belongs to the file, or to a linked one. *)
Definition of_file (s : stash) (q : query) (i : item) : Prop :=
  match q_file q with
  | None => True
  | Some f => f = [] \/ it_origin i = f \/ (q_nolink q = false /\ linked s f (it_origin i))
  end.

(** The item has one of the given classes. *)
Definition of_class (q : query) (i : item) : Prop :=
  match q_class q with
  | ANone => True
  | AOne c => c = [] \/ classifier i = c
  | AMany l => l = [] \/ In (classifier i) l
  end.

(** Python's equality of the values that occur. *)
Definition number (v : pyval) : option Z :=
  match v with VInt z => Some z | VBool b => Some (if b then 1 else 0)%Z | _ => None end.
Definition same_value (w v : pyval) : Prop :=
  (exists t, w = VStr t /\ v = VStr t) \/ (exists z, number w = Some z /\ number v = Some z).
Definition falsy (w : pyval) : Prop := w = VStr [] \/ w = VInt 0 \/ w = VBool false.

(** The value is one of the given ones; a single empty, zero or false value
    counts as not given. *)
Definition value_ok (a : arg pyval) (v : pyval) : Prop :=
  match a with
  | ANone => True
  | AOne w => falsy w \/ same_value w v
  | AMany l => l = [] \/ exists w, In w l /\ same_value w v
  end.
Definition has_attr (q : query) (i : item) (a : str) : Prop :=
  exists v, dget a (attributes i) = Some v /\ value_ok (q_val q) v.
Definition of_attr (q : query) (i : item) : Prop :=
  match q_attr q with
  | ANone => True
  | AOne a => a = [] \/ has_attr q i a
  | AMany l => l = [] \/ exists a, In a l /\ has_attr q i a
  end.

(** What a query asks for. *)
Definition selected (s : stash) (q : query) (i : item) : Prop :=
  of_file s q i /\ of_class q i /\ of_attr q i.

(** Order by Line; strict order of texts. *)
Definition by_line (a b : item) : Prop := (it_line a <= it_line b)%Z.
Definition before (a b : str) : Prop := str_leb a b = true /\ a <> b.

(** An existing item after AddFile. *)
Definition only_line_raised (i j : item) : Prop :=
  it_id j = it_id i /\ it_infile j = it_infile i /\ it_raw j = it_raw i /\ it_realraw j = it_realraw i /\
  it_origin j = it_origin i /\ it_incfrom j = it_incfrom i /\ it_blocks j = it_blocks i /\
  it_new j = it_new i /\ it_pay j = it_pay i /\ (it_line i <= it_line j)%Z /\
  ((forall d, it_origin i <> d ++ ".bbappend") -> it_line j = it_line i).

(** Removing the first occurrence of each given object, in turn. *)
Inductive removed : list item -> list item -> list item -> Prop :=
| removed_nil : forall l, removed [] l l
| removed_cons : forall x r a y b l', it_id y = it_id x -> ~ In (it_id x) (map it_id a) ->
    removed r (a ++ b) l' -> removed (x :: r) (a ++ y :: b) l'.

(** How often an object is in a list. *)
Definition times (x : item) (l : list item) : nat := count_occ Nat.eq_dec (map it_id l) (it_id x).

(** Everything but the items. *)
Definition same_rest (s s' : stash) : Prop := s' = with_list (st_list s') s.
