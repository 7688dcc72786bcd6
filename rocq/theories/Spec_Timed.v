(** * What parsing with time limits is compared with *)

From Verif Require Import PyStr Regex Res Item Lines Stash Timed.

(** The item carries text, place and syntax of the line it was made for. *)
Definition carries (q : iparam) (i : item) : Prop :=
  it_raw i = ip_raw q /\ (ip_realraw q <> [] -> it_realraw i = ip_realraw q)
  /\ it_blocks i = ip_blocks q /\ it_origin i = ip_origin q /\ it_incfrom i = []
  /\ it_infile i = ip_infile q /\ it_line i = ip_line q /\ (ip_new q = true -> it_new i = true).

(** A handler that makes its item for the line it is given and does not move
    the lines behind it upwards, provided that included files have no line
    before their first one. *)
Definition handler_ok (hd : handler) : Prop :=
  forall (addf : addfile_tt) p file line kd mt,
  (forall path off link w l w', addf path off link w = (Ok l, w') ->
     Forall (fun i => (1 <= it_infile i)%Z) l) ->
  forall w i d w', hd addf p file line kd mt w = (Ok (Some (i, d)), w') ->
  (exists n, carries (p n) i) /\ (0 <= d)%Z.

(** No search runs into the limit. *)
Definition in_time : clock := fun _ => false.
(** Only the search with this number does. *)
Definition late (n : nat) : clock := fun k => Nat.eqb k n.
