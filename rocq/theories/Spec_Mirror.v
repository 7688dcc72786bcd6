(** * The known mirrors: specification *)

From Verif Require Import PyStr Res Const Spec_Const.

(** [stands d x y]: [y] is [x], read from left to right, with every name of a
    mirror replaced by what it stands for. *)
Inductive stands (d : list (str * str)) : str -> str -> Prop :=
| stands_end : stands d [] []
| stands_name : forall k v x y, In (k, v) d -> stands d x y -> stands d (k ++ x) (v ++ y)
| stands_char : forall c x y, (forall k v t, In (k, v) d -> c :: x <> k ++ t) -> stands d x y -> stands d (c :: x) (c :: y).

(** A name is a reference. *)
Definition is_reference (k : str) : Prop :=
  exists n, k = 36%N :: 123%N :: n ++ [125%N] /\ ~ In 36%N n /\ ~ In 123%N n /\ ~ In 125%N n.
(** A character that no name has. *)
Definition foreign (d : list (str * str)) (c : N) : Prop := forall k v, In (k, v) d -> ~ In c k.
(** What a mirror stands for has a character that no name has, before any closing
    brace and after any dollar sign (unless a reference within it was closed): so
    it never becomes a part of a name, whatever is around it. *)
Definition solid (d : list (str * str)) (v : str) : Prop :=
  (exists p c q, v = p ++ c :: q /\ ~ In 125%N p /\ foreign d c) /\
  (exists p c q, v = p ++ c :: q /\ ~ In 36%N q /\ (c = 125%N \/ foreign d c)).
Definition mirrors_ok (d : list (str * str)) : Prop :=
  NoDup (map fst d) /\
  forall k v, In (k, v) d -> is_reference k /\ solid d v /\ forall k' v' a b, In (k', v') d -> v <> a ++ k' ++ b.
