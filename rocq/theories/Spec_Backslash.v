(** * Backslashes in values *)

From Verif Require Import PyStr Item Spec_Parse.

(** A text with every backslash shown as an escape character. *)
Inductive disguised : str -> str -> Prop :=
| disguised_end : disguised [] []
| disguised_bsl : forall s t, disguised s t -> disguised (92%N :: s) (27%N :: t)
| disguised_char : forall c s t, c <> 92%N -> disguised s t -> disguised (c :: s) (c :: t).

(** An assignment that stands on one line. *)
Definition assigned_on_a_line (name op value : str) (i : item) : Prop :=
  exists text, (it_raw i = text \/ it_raw i = text ++ [10%N]) /\ ~ In 10%N text /\ assignment name op value text.
