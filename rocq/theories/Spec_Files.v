(** * Vocabulary of the statements about links between files

    Definitions only. *)

From Verif Require Import PyStr Regex PyPath Res Const Item Stash ReachFacts Spec_Query.

(** Files known to the stash (the keys of the map of cls_stash.py:133). *)
Definition file_known (s : stash) (f : str) : Prop := exists l, dget f (st_map s) = Some l.

(** Histories of AddFile, Remove and Finalize calls, with changes of the
    constants and Append of items of known files in between. *)
Inductive parsing (e : env) : stash -> Prop :=
| parsing_new : forall new neg db, parsing e (new_stash new neg db)
| parsing_add : forall n path off forced s r s',
    parsing e s -> add_file n e path off forced s = (r, s') -> parsing e s'
| parsing_create : forall n s, parsing e s -> st_next s <= n -> parsing e (with_next n s)
| parsing_append : forall l s, parsing e s ->
    (forall i, In i l -> it_id i < st_next s /\ file_known s (it_origin i)) ->
    (forall i j, In i (st_list s ++ l) -> In j (st_list s ++ l) -> it_id i = it_id j -> i = j) ->
    parsing e (append_items l s)
| parsing_remove : forall l s r s', parsing e s -> remove_items l s = (r, s') -> parsing e s'
| parsing_finalize : forall s r s', parsing e s -> finalize e s = (r, s') -> parsing e s'
| parsing_const : forall db s, parsing e s -> parsing e (with_const db s).

(** [chain s n f x]: [x] is reached from [f] over [n] links. *)
Inductive chain (s : stash) : nat -> str -> str -> Prop :=
| chain_here : forall f, chain s 0 f f
| chain_step : forall n f y x, linked s f y -> chain s n y x -> chain s (S n) f x.

(** Every link goes to a file that became known earlier. *)
Definition links_back (s : stash) : Prop :=
  forall a k b x, dkeys (st_map s) = a ++ k :: b -> linked s k x -> In x a.

(** Repeated Finalize. *)
Inductive finalized (e : env) : nat -> stash -> stash -> Prop :=
| finalized_0 : forall s, finalized e 0 s s
| finalized_S : forall n s s1 s2, finalized e n s s1 -> finalize e s1 = (Ok tt, s2) -> finalized e (S n) s s2.

(** Names without characters that are special in patterns or paths. *)
Definition plain (n : str) : Prop :=
  (forall c, In c n -> ~ In c "^$\()[]{}|*+?%/" /\ c <> cNL) /\ (forall a b, n <> a ++ ".bb" ++ b).

(** When BitBake applies a bbappend to a recipe: same name, or a percent sign
    at the end of the name of the bbappend as wildcard. *)
Inductive applies : str -> str -> Prop :=
| applies_same : forall d d' n, plain n ->
    applies (d ++ "/" ++ n ++ ".bbappend") (d' ++ "/" ++ n ++ ".bb")
| applies_any : forall d d' n t, plain n -> plain t -> plain (n ++ t) ->
    applies (d ++ "/" ++ n ++ "%.bbappend") (d' ++ "/" ++ (n ++ t) ++ ".bb").
