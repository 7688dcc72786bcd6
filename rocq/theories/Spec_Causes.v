(** * What property C126 says

    Definitions only. *)

From Verif Require Import PyStr Regex PyPath Res Const Item Stash ReachFacts Spec_Query Spec_Load.

(** A stash that was filled by calls of AddFile without a forced link, none of
    which raised; Finalize and changes of the constants may have happened. *)
Inductive filled (e : env) : stash -> Prop :=
| filled_new : forall new neg db, filled e (new_stash new neg db)
| filled_add : forall n path off s l s',
    filled e s -> add_file n e path off None s = (Ok l, s') -> filled e s'
| filled_finalize : forall s s', filled e s -> finalize e s = (Ok tt, s') -> filled e s'
| filled_const : forall db s, filled e s -> filled e (with_const db s).

(** The name [n] fits the pattern [p]: a dot stands for one character, a percent
    sign for any text, every other character for itself. *)
Inductive like : str -> str -> Prop :=
| like_end : like [] []
| like_char : forall c p n, like p n -> like (c :: p) (c :: n)
| like_dot : forall c p n, like p n -> like (46%N :: p) (c :: n)
| like_any : forall t p n, like p n -> like (37%N :: p) (t ++ n).

(** Names without characters that are special in patterns (the dot and the
    percent sign apart) and without a second suffix. *)
Definition tame (n : str) : Prop :=
  (forall c, In c n -> ~ In c ("^$\()[]{}|*+?" : str)) /\ forall a b, n <> a ++ ".bbappend" ++ b.
Definition one_bb (n : str) : Prop := forall a b, n <> a ++ ".bb" ++ b.

(** The bbappend [x] is taken for the recipe [k]: the name of the recipe fits
    that of the bbappend as a whole, or its begin does. *)
Definition whole (n name : str) : Prop :=
  exists u c z, name = u ++ c :: "bb" ++ z /\ like n u /\ (z = [] \/ z = [cNL]).
Definition begins (n name : str) : Prop :=
  exists v, name = v ++ ".bb" /\ (one_bb v -> exists u t, v = u ++ t /\ like n u).
Definition answers (x k : str) : Prop :=
  exists n, basename x = n ++ ".bbappend" /\ (tame n -> whole n (basename k) \/ begins n (basename k)).

(** Why a file comes with another one: a statement of the latter names it, or it
    is a bbappend for it. *)
Inductive cause (e : env) (s : stash) : str -> str -> Prop :=
| cause_named : forall i p, In i (st_list s) -> names_file i p ->
    cause e s (it_origin i) (abspath (fs_cwd (e_fs e)) p)
| cause_append : forall x k, answers x k -> cause e s k x.
Inductive belongs (e : env) (s : stash) : str -> str -> Prop :=
| belongs_self : forall f, belongs e s f f
| belongs_step : forall f y x, cause e s f y -> belongs e s y x -> belongs e s f x.
