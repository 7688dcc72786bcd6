(** * Theorems about the list class of query results *)

From Verif Require Import PyStr Res Item Stash StashList Spec_Query Proofs_StashList.

(** ** C59 *)

(** insert behaves like on a list: positions from the end count backwards,
    positions outside are those of the ends. *)
Theorem C59_insert : forall l idx i, exists a b, l = a ++ b /\
  sl_insert (map EItem l) idx i = map EItem (a ++ i :: b) /\
  ((0 <= idx)%Z -> Z.of_nat (length a) = Z.min idx (Z.of_nat (length l))) /\
  ((idx < 0)%Z -> Z.of_nat (length b) = Z.min (- idx) (Z.of_nat (length l))).
Proof. exact C59_insert_lemma. Qed.
Print Assumptions C59_insert.

(** An assignment to a position replaces the item there, and only that one;
    positions outside raise. *)
Theorem C59_set : forall l idx i d, sl_set (map EItem l) idx i = Some d <->
  exists a x b, l = a ++ x :: b /\ d = map EItem (a ++ i :: b) /\
    (idx = Z.of_nat (length a) \/ idx = - Z.of_nat (S (length b)))%Z.
Proof. exact C59_set_lemma. Qed.
Print Assumptions C59_set.

(** remove of a list or tuple takes the first occurrence of each member. *)
Theorem C59_remove : forall r l d, sl_remove (map EItem l) (SList r) = (Ok tt, d) ->
  exists l', d = map EItem l' /\ removed r l l'.
Proof. exact C59_remove_lemma. Qed.
Print Assumptions C59_remove.

Theorem C59_remove_iff : forall r l, (exists d, sl_remove (map EItem l) (SList r) = (Ok tt, d)) <->
  forall x, In x r -> times x r <= times x l.
Proof. exact C59_remove_iff_lemma. Qed.
Print Assumptions C59_remove_iff.

(** append puts an item, or the items of a list or tuple, at the end in their
    order; += does so with lists and StashLists, although the name is then bound
    to a plain list (C59_refuted). *)
Theorem C59_ends : forall l r i,
  sl_append (map EItem l) (SItem i) = map EItem (l ++ [i]) /\
  sl_append (map EItem l) (SList r) = map EItem (l ++ r) /\
  forall y, y = SList r \/ y = SStash (map EItem r) ->
    exists b, sl_iadd (map EItem l) y = Ok b /\ (b = BList (map EItem (l ++ r)) \/ b = BStash (map EItem (l ++ r))).
Proof. exact C59_ends_lemma. Qed.
Print Assumptions C59_ends.

Definition sl_it (n : nat) : item := mk_item (MkParam n 0 0 [] [] [] [] false) false PItem.
Example C59_case : exists d,
  sl_remove (map EItem [sl_it 1; sl_it 2; sl_it 1; sl_it 3]) (SList [sl_it 3; sl_it 1]) = (Ok tt, d) /\
  d = map EItem [sl_it 2; sl_it 1].
Proof. eexists. split; vm_compute; reflexivity. Qed.

Example C59_set_case : sl_set (map EItem [sl_it 1; sl_it 2; sl_it 3]) (-1) (sl_it 4) =
  Some (map EItem [sl_it 1; sl_it 2; sl_it 4]).
Proof. vm_compute. reflexivity. Qed.

(** extend has no effect for any argument, append of a StashList adds no item,
    and an augmented assignment leaves no StashList behind. *)
Theorem C59_refuted :
  (forall d a, sl_extend d a = Ok d) /\
  (forall d l, exists x, sl_append d (SStash l) = d ++ [x] /\ forall i, x <> EItem i) /\
  (forall d a b, sl_iadd d a = Ok b -> forall l, b <> BStash l) /\
  exists d l b, l <> [] /\ sl_iadd d (SStash l) = Ok b.
Proof.
  split; [now intros d [i|l|l]|]. split; [intros d l; eexists; split; [reflexivity|discriminate]|]. split.
  - intros d [i|l|l] b H; try discriminate; injection H as <-; discriminate.
  - exists [], [EItem (sl_it 1)]. eexists. split; [discriminate|reflexivity].
Qed.
Print Assumptions C59_refuted.

(** ** C103 *)

(** Indexing works as on a list, also from the end. *)
Theorem C103_get_partial : forall l idx x, sl_get (map EItem l) idx = Some x <->
  exists a i b, l = a ++ i :: b /\ x = EItem i /\ (idx = Z.of_nat (length a) \/ idx = - Z.of_nat (S (length b)))%Z.
Proof. exact C103_get_lemma. Qed.
Print Assumptions C103_get_partial.
Example C103_case : sl_get (map EItem [sl_it 1; sl_it 2; sl_it 3]) (-2) = Some (EItem (sl_it 2)).
Proof. vm_compute. reflexivity. Qed.

(** Slices, sums, products and copies always raise TypeError: the methods of
    UserList call the constructor with one argument. *)
Theorem C103_refuted :
  (forall d a b, sl_slice d a b = Raise TypeError) /\ (forall d a, sl_add d a = Raise TypeError) /\
  (forall d a, sl_radd d a = Raise TypeError) /\ (forall d n, sl_mul d n = Raise TypeError) /\
  (forall d, sl_copy d = Raise TypeError).
Proof. repeat split; try (intros d [i|l|l]; reflexivity). Qed.
Print Assumptions C103_refuted.
