(** * Lists of items that a caller holds (cls_stash.py:30-42, 91-120, 390-451) *)

From Verif Require Import PyStr Res Item Stash.

(** What the caller does: ask the stash, narrow a list it has, or have a narrower
    copy made.  The numbers are the objects. (cls_stash.py:91-120, 390-451.) *)
Inductive list_call := LGet (o : nat) (q : query) | LReduce (o : nat) (q : query) | LCopy (o o' : nat) (q : query).

(** The data of the lists (cls_stash.py:42). *)
Definition lists := nat -> option (list item).
(** [self.data = ...] (cls_stash.py:42, 114). *)
Definition put_list (o : nat) (l : list item) (h : lists) : lists := fun x => if Nat.eqb x o then Some l else h x.

(** One call: GetItemsFor (cls_stash.py:427-451), StashList.reduce
    (cls_stash.py:91-120) and Stash.Reduce (cls_stash.py:390-425).  Calls on
    objects that there are not do nothing. *)
Definition list_step (e : env) (s : stash) (c : list_call) (h : lists) : lists :=
  match c with
  | LGet o q => put_list o (get_items_for e s q) h
  | LReduce o q => match h o with Some l => put_list o (reduce_ e s l q) h | None => h end
  | LCopy o o' q => match h o with Some l => put_list o' (reduce_ e s l q) h | None => h end
  end.
(** Some calls, one after the other. (cls_stash.py:91-120, 390-451.) *)
Definition list_steps (e : env) (s : stash) (cs : list list_call) (h : lists) : lists :=
  fold_left (fun h c => list_step e s c h) cs h.
