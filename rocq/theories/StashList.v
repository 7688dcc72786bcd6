(** * The list class of query results (cls_stash.py:30-90)

    StashList derives from collections.UserList (CPython 3.11), whose methods
    are used where the class defines none.  The methods that only pass on to the
    inner list (pop, index, count, reverse, sort, clear) are not modelled. *)

From Verif Require Import PyStr Res Item Stash.

(** What the list holds: items, or other StashLists (put there by append). (cls_stash.py:59-69.) *)
Inductive elem := EItem (i : item) | EStash (l : list elem).

(** Arguments: an item, a list or tuple of items, a StashList. (cls_stash.py:59, 71, 80.) *)
Inductive sarg := SItem (i : item) | SList (l : list item) | SStash (l : list elem).

(** Elements of an argument when iterated; an item cannot be iterated. (cls_stash.py:48, 66, 87.) *)
Definition sarg_iter (a : sarg) : Res.res (list elem) :=
  match a with
  | SItem _ => Raise TypeError
  | SList l => Ok (map EItem l)
  | SStash l => Ok l
  end.

(** append (cls_stash.py:59-69); a StashList is neither list nor tuple. *)
Definition sl_append (d : list elem) (a : sarg) : list elem :=
  match a with
  | SItem i => d ++ [EItem i]
  | SList l => d ++ map EItem l
  | SStash l => d ++ [EStash l]
  end.

(** The type of an argument, and the type of the class StashList itself: as
    UserList derives from MutableSequence, that is the metaclass ABCMeta
    (cls_stash.py:30, 77). *)
Inductive pytype := TItem | TList | TStashList | TABCMeta.
(** type() of a value (cls_stash.py:77). *)
Definition type_of (a : sarg) : pytype :=
  match a with SItem _ => TItem | SList _ => TList | SStash _ => TStashList end.
(** type() of the class itself (cls_stash.py:77). *)
Definition type_of_class : pytype := TABCMeta.
(** isinstance among these types, none of which derives from another
    (cls_stash.py:77). *)
Definition pytype_eqb (x y : pytype) : bool :=
  match x, y with
  | TItem, TItem | TList, TList | TStashList, TStashList | TABCMeta, TABCMeta => true
  | _, _ => false
  end.
(** extend (cls_stash.py:71-78); only a StashList has an attribute data. *)
Definition sl_extend (d : list elem) (a : sarg) : Res.res (list elem) :=
  if pytype_eqb (type_of a) type_of_class
  then match a with SStash l => Ok (d ++ l) | _ => Raise AttributeError end
  else Ok d.

(** [x[k] = item] (cls_stash.py:44-45); [None] is IndexError. *)
Definition sl_set (d : list elem) (idx : Z) (i : item) : option (list elem) :=
  let n := Z.of_nat (length d) in
  let k := if (idx <? 0)%Z then (idx + n)%Z else idx in
  if ((k <? 0) || (n <=? k))%Z then None
  else Some (firstn (Z.to_nat k) d ++ EItem i :: skipn (S (Z.to_nat k)) d).

(** list.insert as used in cls_stash.py:57: negative positions count from the
    end, and positions are clamped. *)
Definition sl_insert (d : list elem) (idx : Z) (i : item) : list elem :=
  let n := Z.of_nat (length d) in
  let k := Z.to_nat (if (idx <? 0)%Z then Z.max 0 (idx + n) else Z.min idx n) in
  firstn k d ++ EItem i :: skipn k d.

(** list.remove as used in cls_stash.py:88, 90: the first element that is the
    same item. *)
Fixpoint drop_item (i : item) (d : list elem) : option (list elem) :=
  match d with
  | [] => None
  | EItem j :: r => if Nat.eqb (it_id j) (it_id i) then Some r
                    else match drop_item i r with Some r' => Some (EItem j :: r') | None => None end
  | x :: r => match drop_item i r with Some r' => Some (x :: r') | None => None end
  end.
(** The loop of cls_stash.py:87-88. *)
Fixpoint drop_items (l : list item) (d : list elem) : Res.res unit * list elem :=
  match l with
  | [] => (Ok tt, d)
  | i :: r => match drop_item i d with Some d' => drop_items r d' | None => (Raise ValueError, d) end
  end.
(** remove (cls_stash.py:80-90).  Simplification: a StashList is found by
    [==] of UserList only if it was appended; here it is never found. *)
Definition sl_remove (d : list elem) (a : sarg) : Res.res unit * list elem :=
  match a with
  | SItem i => drop_items [i] d
  | SList l => drop_items l d
  | SStash _ => (Raise ValueError, d)
  end.

(** What a name refers to after an augmented assignment. (cls_stash.py:47-48.) *)
Inductive bound := BStash (l : list elem) | BList (l : list elem).
(** [x += y] (cls_stash.py:47-48): the name is bound to what __iadd__ of the
    inner list returns, which is that list. *)
Definition sl_iadd (d : list elem) (a : sarg) : Res.res bound :=
  do l <- sarg_iter a; Ok (BList (d ++ l)).

(** The constructor has two parameters besides the object (cls_stash.py:33). *)
Definition sl_params : nat := 2.
(** [self.__class__(...)] of UserList with [n] arguments (cls_stash.py:33-42). *)
Definition sl_construct (n : nat) (d : list elem) : Res.res (list elem) :=
  if Nat.eqb n sl_params then Ok d else Raise TypeError.

(** Positions of a slice without step as Python counts them (cls_stash.py:30,
    list.__getitem__). *)
Definition sl_pos (n idx : Z) : nat := Z.to_nat (if (idx <? 0)%Z then Z.max 0 (idx + n) else Z.min idx n).
(** Slices of the data (cls_stash.py:30, UserList). *)
Definition cut (d : list elem) (a b : Z) : list elem :=
  let n := Z.of_nat (length d) in
  firstn (sl_pos n b - sl_pos n a) (skipn (sl_pos n a) d).
(** [x[k]] (UserList.__getitem__, inherited in cls_stash.py:30); [None] is
    IndexError. *)
Definition sl_get (d : list elem) (idx : Z) : option elem :=
  let n := Z.of_nat (length d) in
  let k := if (idx <? 0)%Z then (idx + n)%Z else idx in
  if (k <? 0)%Z then None else nth_error d (Z.to_nat k).
(** [x[a:b]] (UserList.__getitem__, inherited in cls_stash.py:30). *)
Definition sl_slice (d : list elem) (a b : Z) : Res.res (list elem) := sl_construct 1 (cut d a b).
(** [x + y] (UserList.__add__, inherited in cls_stash.py:30). *)
Definition sl_add (d : list elem) (a : sarg) : Res.res (list elem) := do l <- sarg_iter a; sl_construct 1 (d ++ l).
(** [y + x] (UserList.__radd__, inherited in cls_stash.py:30). *)
Definition sl_radd (d : list elem) (a : sarg) : Res.res (list elem) := do l <- sarg_iter a; sl_construct 1 (l ++ d).
(** [x * n] (UserList.__mul__, inherited in cls_stash.py:30). *)
Definition sl_mul (d : list elem) (n : Z) : Res.res (list elem) := sl_construct 1 (concat (repeat d (Z.to_nat n))).
(** [x.copy()] (UserList.copy, inherited in cls_stash.py:30). *)
Definition sl_copy (d : list elem) : Res.res (list elem) := sl_construct 1 d.
