(** * Statements in front of a text: specification *)

From Verif Require Import PyStr Res Const Item Spec_Alike.

(** The same statement, [d] lines further down. *)
Definition moved (d : Z) (i j : item) : Prop :=
  it_realraw i = it_realraw j /\ it_infile i = (it_infile j + d)%Z /\ it_raw i = it_raw j /\ it_blocks i = it_blocks j /\
  (it_new i = it_new j -> (an_include i <-> an_include j) -> alike (it_pay i) (it_pay j)).
