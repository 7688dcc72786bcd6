(** * The words of a value, each replaced on its own

    Definitions only. *)

From Verif Require Import PyStr Props_Items.

(** [rewords f v ws w us]: [ws] are the words of [v] (see C18), [f] gives [us] for them, and [w]
    is [v] with every word replaced by what [f] gives for it. *)
Inductive rewords (f : str -> str -> Prop) : str -> list str -> str -> list str -> Prop :=
| rw_nil : rewords f [] [] [] []
| rw_sep : forall c v ws w us, separator c v -> rewords f v ws w us -> rewords f (c :: v) ws (c :: w) us
| rw_run : forall y u v ws w us, y <> [] -> (forall a c b, y = a ++ c :: b -> ~ separator c (b ++ v)) ->
    (forall c r, v = c :: r -> separator c r) -> f y u ->
    rewords f v ws w us -> rewords f (y ++ v) (y :: ws) (u ++ w) (u :: us).
