(** * What Finalize does: specification *)

From Verif Require Import PyStr Res Item Stash Spec_Query.

(** An existing item after Finalize: IncludedFrom may have grown. *)
Definition only_included (i j : item) : Prop :=
  it_id j = it_id i /\ it_line j = it_line i /\ it_infile j = it_infile i /\ it_raw j = it_raw i /\ it_realraw j = it_realraw i /\
  it_origin j = it_origin i /\ it_blocks j = it_blocks i /\ it_new j = it_new i /\ it_pay j = it_pay i /\
  incl (it_incfrom i) (it_incfrom j).

(** Queries that do not follow links. *)
Definition without_links (q : query) : Prop := q_file q = None \/ q_nolink q = true.
