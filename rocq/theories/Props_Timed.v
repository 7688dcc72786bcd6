(** * Properties C114 and C115: regular expressions that run into the time limit *)

From Verif Require Import PyStr Regex Patterns PyPath Res Inline Const Item Lines Stash
  StrFacts LinesFacts ParseFacts Demo Props_Lines Timed Spec_Timed Proofs_Timed.

(** ** C114 *)

Lemma C114_lossless_lemma : forall clk hd n e path off forced k s l w',
  handler_ok hd ->
  add_file_t clk hd n e path off forced (k, s) = (Ok l, w') -> considered e path s ->
  match fs_read (e_fs e) (file_of e path) with
  | RdText t => concat (map it_realraw l) = universal_newlines t
  | _ => l = []
  end.
Proof.
  intros clk hd n e path off forced k s l w' Hhd H Hc. apply (add_file_t_inv clk hd Hhd) in H. cbn [fst snd] in H.
  rewrite (considered_skipped _ _ _ Hc) in H. destruct H as [cs [k' [l0 [mx [Hp [Hck [Hpa ->]]]]]]].
  apply prepare_file_t_ok in Hp. destruct Hp as [_ Hp]. unfold file_of.
  destruct (parsed_text_t _ _ _ _ _ _ _ Hck Hpa) as [Hr _].
  assert (E : map it_realraw (map (fun i => set_line (it_line i + mx) i) l0) = map it_realraw l0)
    by (rewrite map_map; now apply map_ext).
  destruct Hp as [[t [Et Hcat]]|[Et ->]]; rewrite Et.
  - rewrite E, Hr. exact Hcat.
  - destruct l0; [reflexivity|contradiction].
Qed.

Lemma C114_positions_lemma : forall clk hd n e path off forced w l w',
  handler_ok hd ->
  add_file_t clk hd n e path off forced w = (Ok l, w') ->
  (forall pre i post, l = pre ++ i :: post ->
     it_infile i = (1 + newlines (concat (map it_realraw pre)))%Z
     /\ it_origin i = file_of e path /\ it_realraw i <> []
     /\ ~ exists a b, it_raw i = a ++ "${@" ++ b) /\
  (forall pre a mid b post, l = pre ++ a :: mid ++ b :: post ->
     (it_line a < it_line b)%Z /\ (it_infile a < it_infile b)%Z).
Proof.
  intros clk hd n e path off forced w l w' Hhd H. apply (add_file_t_inv clk hd Hhd) in H.
  destruct (skipped e path (snd w)).
  { destruct H as [-> _]. split; intros pre; intros; destruct pre; discriminate. }
  destruct H as [cs [k' [l0 [mx [Hp [Hck [Hpa E]]]]]]].
  destruct (parsed_text_t _ _ _ _ _ _ _ Hck Hpa) as [_ [Hl Hall]].
  destruct (parsed_lines_t _ _ _ _ _ _ _ Hck Hpa) as [Hinc [Hinf _]].
  split.
  - intros pre i post El. subst l. apply map_eq_app in El. destruct El as [pre0 [r [-> [<- Er]]]].
    apply map_eq_cons in Er. destruct Er as [i0 [post0 [-> [<- <-]]]].
    split; [|].
    + rewrite map_map. simpl. symmetry in Hl. now apply (lines_before_spec _ _ _ _ (it_infile i0)) in Hl.
    + rewrite Forall_forall in Hall. destruct (Hall i0) as [H1 [H2 [_ H3]]]; [apply in_elt|].
      simpl. split; [exact H2|]. split; [exact H1|]. intro Hx. apply (contains_spec "${@") in Hx. congruence.
  - intros pre a mid b post El.
    assert (E1 : map it_line l = map (fun z => (z + mx)%Z) (map it_line l0))
      by (subst l; rewrite !map_map; reflexivity).
    assert (E2 : map it_infile l = map it_infile l0) by (subst l; rewrite map_map; reflexivity).
    rewrite El in E1, E2. rewrite !map_app in E1, E2. simpl in E1, E2. rewrite map_app in E1, E2. simpl in E1, E2.
    split.
    + eapply (increasing_lt _ (increasing_shift mx _ Hinc)). symmetry. exact E1.
    + eapply (increasing_lt _ Hinf). symmetry. exact E2.
Qed.

Lemma C114_division_lemma : forall clk off neg text k,
  exists x k', prepare_text_t clk off neg text k = (x, k') /\
  (x = Raise StopIteration \/ exists cs, x = Ok cs /\ concat (map ck_realraw cs) = text).
Proof.
  intros clk off neg text k. destruct (prepare_text_t clk off neg text k) as [x k'] eqn:E.
  exists x, k'. split; [reflexivity|]. destruct (prepare_text_t_bad _ _ _ _ _ _ _ E) as [[cs ->]| ->]; [|auto].
  right. exists cs. split; [reflexivity|]. now apply prepare_text_t_ok in E.
Qed.

Lemma C114_in_time_lemma : forall n e path off forced k s,
  exists k', add_file_t in_time (plain_handler e) n e path off forced (k, s)
             = (fst (add_file n e path off forced s), (k', snd (add_file n e path off forced s))).
Proof. intros. apply add_file_no. Qed.

(** Whatever searches run into the time limit and whatever is done with the
    lines that match, the texts of the items are the text of the file. *)
Theorem C114_lossless : forall clk hd n e path off forced k s l w',
  handler_ok hd ->
  add_file_t clk hd n e path off forced (k, s) = (Ok l, w') -> considered e path s ->
  match fs_read (e_fs e) (file_of e path) with
  | RdText t => concat (map it_realraw l) = universal_newlines t
  | _ => l = []
  end.
Proof. exact C114_lossless_lemma. Qed.
Print Assumptions C114_lossless.

(** Their positions are right, they are in order, and no inline marker is left. *)
Theorem C114_positions : forall clk hd n e path off forced w l w',
  handler_ok hd ->
  add_file_t clk hd n e path off forced w = (Ok l, w') ->
  (forall pre i post, l = pre ++ i :: post ->
     it_infile i = (1 + newlines (concat (map it_realraw pre)))%Z
     /\ it_origin i = file_of e path /\ it_realraw i <> []
     /\ ~ exists a b, it_raw i = a ++ "${@" ++ b) /\
  (forall pre a mid b post, l = pre ++ a :: mid ++ b :: post ->
     (it_line a < it_line b)%Z /\ (it_infile a < it_infile b)%Z).
Proof. exact C114_positions_lemma. Qed.
Print Assumptions C114_positions.

(** Dividing a text comes to an end, with all of the text or StopIteration. *)
Theorem C114_division : forall clk off neg text k,
  exists x k', prepare_text_t clk off neg text k = (x, k') /\
  (x = Raise StopIteration \/ exists cs, x = Ok cs /\ concat (map ck_realraw cs) = text).
Proof. exact C114_division_lemma. Qed.
Print Assumptions C114_division.

(** The handler of the model is one of those, and if no search runs into the
    limit the result is that of the model without limits. *)
Theorem C114_handler : forall e, handler_ok (plain_handler e).
Proof. exact plain_handler_ok. Qed.
Print Assumptions C114_handler.

Theorem C114_in_time : forall n e path off forced k s,
  exists k', add_file_t in_time (plain_handler e) n e path off forced (k, s)
             = (fst (add_file n e path off forced s), (k', snd (add_file n e path off forced s))).
Proof. exact C114_in_time_lemma. Qed.
Print Assumptions C114_in_time.

Definition t_items (x : Res.res (list item) * (nat * stash)) : list item :=
  match fst x with Ok l => l | _ => [] end.

(** The demo file with a search that is too slow: the one for the line
    continuation.  The first assignment falls apart, nothing is lost. *)
Definition t_run (clk : clock) := add_file_t clk (plain_handler demo_e) 2 demo_e "a.bb" 0 None (0, demo_stash).

Example C114_case :
  length (t_items (t_run in_time)) = 4 /\ length (t_items (t_run (late 0))) = 5
  /\ concat (map it_realraw (t_items (t_run (late 0)))) = demo_text
  /\ map it_infile (t_items (t_run (late 0))) = [1; 2; 3; 5; 8]%Z
  /\ considered demo_e "a.bb" demo_stash.
Proof. split; [|split; [|split; [|split; [|exact demo_considered]]]]; vm_compute; reflexivity. Qed.

(** ** C115 *)

Definition t_slow : env :=
  demo_env [("/w/b.bb", "A = ""1""" ++ nl); ("/w/c.bb", "# x" ++ nl ++ "# f() {" ++ nl)] ["/w"; "/"].
Definition s_run (clk : clock) (path : str) :=
  add_file_t clk (plain_handler t_slow) 2 t_slow path 0 None (0, demo_stash).

(** A slow search is taken for one without a match, so the items depend on
    the time it takes: an assignment becomes a line without meaning, and
    AddFile reports nothing ... *)
Theorem C115_refuted : exists e path clk l l' w w',
  add_file_t in_time (plain_handler e) 2 e path 0 None (0, demo_stash) = (Ok l, w) /\
  add_file_t clk (plain_handler e) 2 e path 0 None (0, demo_stash) = (Ok l', w') /\
  map it_pay l <> map it_pay l' /\ map it_pay l' = [PItem].
Proof.
  exists t_slow, "b.bb", (late 19), (t_items (s_run in_time "b.bb")), (t_items (s_run (late 19) "b.bb")),
    (snd (s_run in_time "b.bb")), (snd (s_run (late 19) "b.bb")).
  split; [vm_compute; reflexivity|]. split; [vm_compute; reflexivity|].
  split; [|vm_compute; reflexivity]. vm_compute. discriminate.
Qed.
Print Assumptions C115_refuted.

(** ... or the file cannot be read any more. *)
Theorem C115_raises_refuted : exists e path clk l w w',
  add_file_t in_time (plain_handler e) 2 e path 0 None (0, demo_stash) = (Ok l, w) /\
  add_file_t clk (plain_handler e) 2 e path 0 None (0, demo_stash) = (Raise StopIteration, w').
Proof.
  exists t_slow, "c.bb", (late 2), (t_items (s_run in_time "c.bb")),
    (snd (s_run in_time "c.bb")), (snd (s_run (late 2) "c.bb")).
  split; vm_compute; reflexivity.
Qed.
Print Assumptions C115_raises_refuted.

Lemma C115_text_lemma : forall clk clk' hd hd' n n' e path off off' forced forced' k k' s s' l l' w w',
  handler_ok hd -> handler_ok hd' -> considered e path s -> considered e path s' ->
  add_file_t clk hd n e path off forced (k, s) = (Ok l, w) ->
  add_file_t clk' hd' n' e path off' forced' (k', s') = (Ok l', w') ->
  concat (map it_realraw l) = concat (map it_realraw l').
Proof.
  intros clk clk' hd hd' n n' e path off off' forced forced' k k' s s' l l' w w' Hh Hh' Hc Hc' H H'.
  pose proof (C114_lossless_lemma _ _ _ _ _ _ _ _ _ _ _ Hh H Hc) as E.
  pose proof (C114_lossless_lemma _ _ _ _ _ _ _ _ _ _ _ Hh' H' Hc') as E'.
  destruct (fs_read (e_fs e) (file_of e path)); [congruence| | |]; subst; reflexivity.
Qed.

(** What does not depend on it is the text of the items together.  Missing:
    where one item ends, and what it is. *)
Theorem C115_text_partial : forall clk clk' hd hd' n n' e path off off' forced forced' k k' s s' l l' w w',
  handler_ok hd -> handler_ok hd' -> considered e path s -> considered e path s' ->
  add_file_t clk hd n e path off forced (k, s) = (Ok l, w) ->
  add_file_t clk' hd' n' e path off' forced' (k', s') = (Ok l', w') ->
  concat (map it_realraw l) = concat (map it_realraw l').
Proof. exact C115_text_lemma. Qed.
Print Assumptions C115_text_partial.

Example C115_case :
  length (t_items (t_run (late 0))) <> length (t_items (t_run in_time))
  /\ concat (map it_realraw (t_items (t_run (late 0)))) = concat (map it_realraw (t_items (t_run in_time))).
Proof. split; [vm_compute; discriminate|vm_compute; reflexivity]. Qed.
