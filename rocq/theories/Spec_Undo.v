(** * Changing constants and taking the change back: specification *)

From Verif Require Import PyStr Res Const Spec_Const.

(** Only lists are given, at places where the database has a list, and nothing that
    is on the list already. *)
Definition new_entries (b db : cval) : Prop :=
  (forall p l, at_path p b = Some (CList l) -> exists old, at_path p db = Some (CList old) /\ forall x, In x l -> ~ In x old) /\
  (forall p s, at_path p b <> Some (CStr s)) /\
  (forall p d, at_path p b = Some (CDict d) -> exists d', at_path p db = Some (CDict d')).
