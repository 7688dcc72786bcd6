(** * Items changed by a caller (the setters of cls_item.py)

    The setters that Item, Variable and Function offer, used between the calls
    of Cache.v.  Simplification: a setter that the class of the item lacks,
    which would make a new attribute (and GetAttributes raise thereafter, as
    cls_item.py:254 finds no such attribute of the class), changes nothing. *)

From Verif Require Import PyStr Regex Patterns PyPath Res Inline Const Item Lines Stash Cache.

(** The setters (cls_item.py:61, 74, 105, 149, 331, 698). *)
Inductive setter :=
| SLine (v : Z) | SRaw (v : str) | SRealRaw (v : str) | SIncludedFrom (v : list str)
| SVarValue (v : str) | SFuncBody (v : str).

(** Setter of Raw (cls_item.py:74-76). *)
Definition set_raw (v : str) (i : item) : item :=
  MkItem (it_id i) (it_line i) (it_infile i) v (it_realraw i) (it_origin i)
         (it_incfrom i) (it_blocks i) (it_new i) (it_pay i).
(** Setter of RealRaw (cls_item.py:105-107). *)
Definition set_realraw (v : str) (i : item) : item :=
  MkItem (it_id i) (it_line i) (it_infile i) (it_raw i) v (it_origin i)
         (it_incfrom i) (it_blocks i) (it_new i) (it_pay i).
(** Setters of VarValue and FuncBody (cls_item.py:331-333, 698-700). *)
Definition set_pay (p : payload) (i : item) : item :=
  MkItem (it_id i) (it_line i) (it_infile i) (it_raw i) (it_realraw i) (it_origin i)
         (it_incfrom i) (it_blocks i) (it_new i) p.
(** Setters of VarValue and FuncBody (cls_item.py:331-333, 698-700). *)
Definition new_pay (x : setter) (p : payload) : payload :=
  match x, p with
  | SVarValue v, PVariable n sub subs _ op rawn => PVariable n sub subs v op rawn
  | SFuncBody v, PFunction py fr n sub subs _ raw => PFunction py fr n sub subs v raw
  | _, _ => p
  end.
(** One assignment (cls_item.py:61-63, 74-76, 105-107, 149-151, 331-333, 698-700). *)
Definition set_attr (x : setter) (i : item) : item :=
  match x with
  | SLine v => set_line v i
  | SRaw v => set_raw v i
  | SRealRaw v => set_realraw v i
  | SIncludedFrom v => add_incfrom v i
  | SVarValue _ | SFuncBody _ => set_pay (new_pay x (it_pay i)) i
  end.
(** The assignment to the object with identity [n], which the stash holds (cls_stash.py:126). *)
Definition set_on (n : nat) (x : setter) (s : stash) : stash :=
  with_list (map (fun i => if Nat.eqb (it_id i) n then set_attr x i else i) (st_list s)) s.

(** What a caller does: a call of the API, or an assignment to an item.
    (cls_stash.py:157-451, cls_item.py:61-63, 331-333.) *)
Inductive act := ADo (c : call) | ASet (n : nat) (x : setter).

(** The answers of a sequence of calls and assignments; an assignment clears no
    table. (cls_stash.py:157-451, cls_item.py:331-333.) *)
Fixpoint acts_c (e : env) (l : list act) (x : stash * tables) : list answer * (stash * tables) :=
  match l with
  | [] => ([], x)
  | ADo c :: r => let '(a, x1) := call_c e c x in let '(l', x2) := acts_c e r x1 in (a :: l', x2)
  | ASet n y :: r => acts_c e r (set_on n y (fst x), snd x)
  end.
