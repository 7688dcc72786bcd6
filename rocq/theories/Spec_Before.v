(** * What the general form of C39 and property C123 say *)

From Verif Require Import PyStr Regex PyPath Res Const Item Stash Spec_Expand.

(** A statement about the variable [nm]. *)
Definition tells (nm : str) (i : item) : Prop :=
  about nm i /\ (classifier i = "Variable" \/ classifier i = "Unset").
(** A statement whose effect does not wait for the others. *)
Definition at_its_place (nm : str) (i : item) : Prop :=
  exists x, does nm i x /\ forall v, x <> LateAdds v /\ x <> LateLeads v /\ x <> LateRemoves v.
