(** * Sharing of constants: specification *)

From Verif Require Import PyStr Res Const ConstHeap Spec_Const.

(** [reads h r v F]: the reference reads as the value [v], and the objects
    looked at are those at the addresses [F]. *)
Inductive reads (h : heap) : ref -> cval -> list nat -> Prop :=
| reads_str : forall s, reads h (RStr s) (CStr s) []
| reads_list : forall p l, h p = Some (NList l) -> reads h (RPtr p) (CList l) [p]
| reads_dict : forall p es d F, h p = Some (NDict es) -> reads_all h es d F -> reads h (RPtr p) (CDict d) (p :: F)
with reads_all (h : heap) : list (str * ref) -> list (str * cval) -> list nat -> Prop :=
| reads_none : reads_all h [] [] []
| reads_more : forall k r v F es d G, reads h r v F -> reads_all h es d G ->
    reads_all h ((k, r) :: es) ((k, v) :: d) (F ++ G).

(** How deep dictionaries are nested. *)
Fixpoint nesting (v : cval) : nat :=
  match v with
  | CDict d => S ((fix go (d : list (str * cval)) : nat :=
                     match d with [] => 0 | (_, x) :: r => Nat.max (nesting x) (go r) end) d)
  | _ => 0
  end.

(** Every leaf of [b] is at a path that the database has already. *)
Definition nothing_new (b db : cval) : Prop :=
  forall p x, at_path p b = Some x -> exists y, at_path p db = Some y.

(** The addresses of [F] and of [G] have none in common. *)
Definition separate (F G : list nat) : Prop := forall x, In x F -> In x G -> False.

(** The database after adding dictionaries one after another, as values. *)
Fixpoint added (db : cval) (ds : list cval) : cval :=
  match ds with [] => db | d :: r => added (fst (add_constants db d)) r end.

(** [b] is a dictionary of the caller that shares no object with the database
    and gives no path that the database does not have. *)
Definition given (n : nat) (h : heap) (db : cval) (A : list nat) (b : nat) (dict : cval) : Prop :=
  exists B, reads h (RPtr b) dict B /\ is_dict dict /\ keys_once dict /\ NoDup B /\ separate A B /\
    nesting dict <= n /\ nothing_new dict db.
