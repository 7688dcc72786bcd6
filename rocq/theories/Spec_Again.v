(** * Names that are to stay unexpanded: specification *)

From Verif Require Import PyStr Spec_Expand.

(** As if the names in [sp] had no meaning. *)
Definition hide (sp : list str) (f : str -> option str) (n : str) : option str := if mem_str n sp then None else f n.
(** A text that refers to none of the names. *)
Definition free_of (sp : list str) (c : str) : Prop := forall m a b, In m sp -> c <> a ++ reference m ++ b.
