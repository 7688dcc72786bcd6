(** * Statements that are complete on their line: specification *)

From Verif Require Import PyStr Regex Spec_Parse Spec_Group.

(** Functions whose braces are closed on the line, comments, and assignments of
    a text in quotes; none of them ends with a backslash. *)
Inductive complete : str -> Prop :=
| complete_function : forall name body, name <> [] -> (forall c, In c name -> letter c \/ c = 95%N) ->
    ~ In cNL body -> depth [body] = 0%Z -> complete (name ++ "() {" ++ body ++ "}" ++ [cNL])
| complete_comment : forall t, ~ In cNL t -> ~ In cBSL t -> complete ("#" ++ t ++ [cNL])
| complete_assign : forall name v, name <> [] -> (forall c, In c name -> letter c \/ c = 95%N) ->
    ~ In cNL v -> ~ In cBSL v -> complete (name ++ " = """ ++ v ++ """" ++ [cNL]).
