(** * Properties C01-C08 and C61: text and positions of parsed files *)

From Verif Require Import PyStr Regex Patterns PyPath Res Inline Const Item Lines Stash
  StrFacts ReFacts LinesFacts ParseFacts ExnFacts OffsetFacts Demo.

(** ** Vocabulary of the statements *)

(** The file a path names. *)
Definition file_of (e : env) (path : str) : str := abspath (fs_cwd (e_fs e)) path.

(** The call is not one of the repetitions that AddFile ignores: the file is
    new, or it is a recipe, include or conf file. *)
Definition considered (e : env) (path : str) (s : stash) : Prop :=
  ~ In (file_of e path) (st_seenc s) /\
  (In (file_of e path) (st_seen s) -> In (snd (splitext (file_of e path))) [".inc"; ".bb"; ".conf"; ".bbclass"]).

(** Number of newlines. *)
Definition newlines (s : str) : Z := Z.of_nat (count_occ N.eq_dec s cNL).

Lemma newlines_count : forall s, newlines s = Z.of_nat (count_char cNL s).
Proof.
  intro s. unfold newlines. f_equal. induction s as [|c s IH]; [reflexivity|]. simpl.
  destruct (N.eq_dec c cNL) as [->|Hn]; rewrite IH.
  - rewrite N.eqb_refl. reflexivity.
  - destruct (N.eqb_spec c cNL); [congruence|]. reflexivity.
Qed.

Lemma considered_skipped : forall e path s, considered e path s -> skipped e path s = false.
Proof.
  intros e path s [H1 H2]. unfold skipped, file_of in *.
  destruct (mem_str (abspath _ path) (st_seenc s)) eqn:E; [apply mem_str_In in E; contradiction|].
  rewrite Bool.orb_false_r. destruct (mem_str (abspath _ path) (st_seen s)) eqn:Es; [|reflexivity].
  apply mem_str_In in Es. apply H2 in Es. apply mem_str_In in Es. unfold multi_exts. now rewrite Es.
Qed.

Definition demo_text : str :=
  "A = ""1" ++ [cBSL; cNL] ++ "2""" ++ nl ++ "# c" ++ nl ++ "# d" ++ nl ++ "do_x() {" ++ nl ++ "  y" ++ nl ++ "}" ++ nl ++ "B:x = ""3""".
Definition demo_e : env := demo_env [("/w/a.bb", demo_text)] ["/w"; "/"].
Definition demo_run := add_file 2 demo_e "a.bb" 0 None demo_stash.

Lemma demo_considered : considered demo_e "a.bb" demo_stash.
Proof. split; intros []. Qed.

(** ** C01 *)

Lemma C01_lemma : forall n e path off forced s l s',
  add_file n e path off forced s = (Ok l, s') -> considered e path s ->
  match fs_read (e_fs e) (file_of e path) with
  | RdText t => concat (map it_realraw l) = universal_newlines t
  | _ => l = []
  end.
Proof.
  intros n e path off forced s l s' H Hc. apply add_file_inv in H.
  rewrite (considered_skipped _ _ _ Hc) in H. destruct H as [cs [l0 [mx [Hp [Hck [Hpa [-> _]]]]]]].
  apply prepare_file_ok in Hp. destruct Hp as [_ Hp]. unfold file_of.
  destruct (parsed_text _ _ _ _ _ _ _ _ Hck Hpa) as [Hr _].
  assert (E : map it_realraw (map (fun i => set_line (it_line i + mx) i) l0) = map it_realraw l0)
    by (rewrite map_map; now apply map_ext).
  destruct Hp as [[t [Et Hcat]]|[Et ->]]; rewrite Et.
  - rewrite E, Hr. exact Hcat.
  - destruct l0; [reflexivity|contradiction].
Qed.

(** Parsing is lossless. *)
Theorem C01_lossless : forall n e path off forced s l s',
  add_file n e path off forced s = (Ok l, s') -> considered e path s ->
  match fs_read (e_fs e) (file_of e path) with
  | RdText t => concat (map it_realraw l) = universal_newlines t
  | _ => l = []
  end.
Proof. exact C01_lemma. Qed.
Print Assumptions C01_lossless.

(** Five chunks: a continued assignment, two comments in one, a function, the
    newline behind it belongs to the function, a last line without newline. *)
Example C01_case : is_ok (fst demo_run) = true /\ length (ok_items demo_run) = 4
  /\ concat (map it_realraw (ok_items demo_run)) = demo_text.
Proof. vm_compute. auto. Qed.

(** ** C02 *)

Lemma lines_before_spec : forall pre i post n z,
  lines_before n (pre ++ i :: post) = map it_infile (pre ++ i :: post) ->
  z = it_infile i -> z = (n + newlines (concat (map it_realraw pre)))%Z.
Proof.
  induction pre as [|j pre IH]; intros i post n z H Hz.
  - simpl in H. inversion H as [[H1 H2]]. subst. unfold newlines. simpl. lia.
  - simpl in H. inversion H as [[H1 H2]]. specialize (IH i post _ z H2 Hz). rewrite IH.
    rewrite !newlines_count in *. simpl. rewrite count_char_app. lia.
Qed.

Lemma C02_lemma : forall n e path off forced s l s' pre i post,
  add_file n e path off forced s = (Ok l, s') -> l = pre ++ i :: post ->
  it_infile i = (1 + newlines (concat (map it_realraw pre)))%Z.
Proof.
  intros n e path off forced s l s' pre i post H El. apply add_file_inv in H.
  destruct (skipped e path s).
  { destruct H as [-> _]. destruct pre; discriminate. }
  destruct H as [cs [l0 [mx [Hp [Hck [Hpa [E _]]]]]]].
  destruct (parsed_text _ _ _ _ _ _ _ _ Hck Hpa) as [_ [Hl _]].
  subst l. apply map_eq_app in El. destruct El as [pre0 [r [-> [<- Er]]]].
  apply map_eq_cons in Er. destruct Er as [i0 [post0 [-> [<- <-]]]].
  rewrite map_map. simpl. symmetry in Hl.
  now apply (lines_before_spec _ _ _ _ (it_infile i0)) in Hl.
Qed.

(** InFileLine counts the newlines of the text in front of the item. *)
Theorem C02_infileline : forall n e path off forced s l s' pre i post,
  add_file n e path off forced s = (Ok l, s') -> l = pre ++ i :: post ->
  it_infile i = (1 + newlines (concat (map it_realraw pre)))%Z.
Proof. exact C02_lemma. Qed.
Print Assumptions C02_infileline.

Example C02_case : map it_infile (ok_items demo_run) = [1; 3; 5; 8]%Z.
Proof. vm_compute. auto. Qed.

(** ** C03 *)

Lemma increasing_shift : forall mx l, increasing l -> increasing (map (fun z => (z + mx)%Z) l).
Proof. intros mx l H. induction H; simpl; constructor; [lia|assumption]. Qed.

Lemma increasing_lt : forall l, increasing l ->
  forall a b pre mid post, l = pre ++ a :: mid ++ b :: post -> (a < b)%Z.
Proof.
  intros l H. induction H as [|x|x y l Hxy Hl IH]; intros a b pre mid post E.
  - destruct pre; discriminate.
  - destruct pre as [|z pre]; [destruct mid; discriminate|]. inversion E. destruct pre; discriminate.
  - destruct pre as [|z pre].
    + simpl in E. inversion E; subst. destruct mid as [|w mid].
      * inversion H1; subst. lia.
      * inversion H1; subst. assert (w < b)%Z by now apply (IH w b [] mid post). lia.
    + inversion E; subst. eapply IH. eassumption.
Qed.

Lemma C03_lemma : forall n e path off forced s l s',
  add_file n e path off forced s = (Ok l, s') ->
  forall pre a mid b post, l = pre ++ a :: mid ++ b :: post ->
  (it_line a < it_line b)%Z /\ (it_infile a < it_infile b)%Z.
Proof.
  intros n e path off forced s l s' H pre a mid b post El. apply add_file_inv in H.
  destruct (skipped e path s).
  { destruct H as [-> _]. destruct pre; discriminate. }
  destruct H as [cs [l0 [mx [Hp [Hck [Hpa [E _]]]]]]].
  destruct (parsed_lines _ _ _ _ _ _ _ _ Hck Hpa) as [Hl [Hi _]].
  assert (E1 : map it_line l = map (fun z => (z + mx)%Z) (map it_line l0)).
  { subst l. rewrite !map_map. reflexivity. }
  assert (E2 : map it_infile l = map it_infile l0) by (subst l; rewrite map_map; reflexivity).
  rewrite El in E1, E2. rewrite !map_app in E1, E2. simpl in E1, E2. rewrite map_app in E1, E2. simpl in E1, E2.
  split.
  - eapply (increasing_lt _ (increasing_shift mx _ Hl)). symmetry. exact E1.
  - eapply (increasing_lt _ Hi). symmetry. exact E2.
Qed.

(** Items come back in file order, also with includes. *)
Theorem C03_order : forall n e path off forced s l s',
  add_file n e path off forced s = (Ok l, s') ->
  forall pre a mid b post, l = pre ++ a :: mid ++ b :: post ->
  (it_line a < it_line b)%Z /\ (it_infile a < it_infile b)%Z.
Proof. exact C03_lemma. Qed.
Print Assumptions C03_order.

(** Two includes; the second one is found, too, and shifts the last line. *)
Example C03_case :
  map it_line (ok_items (add_file 3 (demo_env
     [("/w/a.bb", "require b.inc" ++ nl ++ "require b.inc" ++ nl ++ "A = ""1""" ++ nl);
      ("/w/b.inc", "B = ""1""" ++ nl ++ "C = ""1""" ++ nl)] ["/w"; "/"]) "a.bb" 0 None demo_stash))
  = [1; 4; 7]%Z.
Proof. vm_compute. auto. Qed.

(** ** C04 *)

Lemma C04_lemma : forall n e path off forced s l s',
  add_file n e path off forced s = (Ok l, s') ->
  Forall (fun i => it_origin i = file_of e path /\ it_realraw i <> [] /\ it_incfrom i = []) l.
Proof.
  intros n e path off forced s l s' H. apply add_file_inv in H. destruct (skipped e path s).
  { destruct H as [-> _]. constructor. }
  destruct H as [cs [l0 [mx [Hp [Hck [Hpa [-> _]]]]]]].
  destruct (parsed_text _ _ _ _ _ _ _ _ Hck Hpa) as [_ [_ Hf]]. rewrite Forall_map.
  eapply Forall_impl; [|exact Hf]. intros i [H1 [H2 H3]]. auto.
Qed.

(** Every item names its file and carries text. *)
Theorem C04_origin : forall n e path off forced s l s',
  add_file n e path off forced s = (Ok l, s') ->
  Forall (fun i => it_origin i = file_of e path /\ it_realraw i <> [] /\ it_incfrom i = []) l.
Proof. exact C04_lemma. Qed.
Print Assumptions C04_origin.

Example C04_case : map it_origin (ok_items (add_file 2 demo_e "x/.././a.bb" 0 None demo_stash))
                   = repeat "/w/a.bb" 4.
Proof. vm_compute. auto. Qed.

(** ** C05 *)

Definition inline_next (neg : bool) (t' t : str) : Prop :=
  exists b, inline_step neg t = Some (t', b).

Lemma inline_wf : forall neg, well_founded (inline_next neg).
Proof.
  intros neg t.
  assert (H : forall d l t, count_char 36 t <= d -> length t <= l -> Acc (inline_next neg) t).
  { clear t. induction d as [d IHd] using lt_wf_ind. induction l as [l IHl] using lt_wf_ind.
    intros t Hd Hl. constructor. intros t' [b Hb]. apply inline_step_measure in Hb.
    destruct Hb as [Hb|[Hb1 Hb2]].
    - apply (IHd (count_char 36 t') ltac:(lia) (length t')); lia.
    - apply (IHl (length t') ltac:(lia)); lia. }
  apply (H (count_char 36 t) (length t)); lia.
Qed.

Lemma C05_lemma1 : forall neg t,
  Acc (inline_next neg) t /\
  exists raw blocks, inline_blocks_of neg t = Some (raw, blocks)
    /\ ~ exists a b, raw = a ++ "${@" ++ b.
Proof.
  intros neg t. split; [apply inline_wf|].
  destruct (inline_blocks_total neg t) as [raw [bs [H Hc]]]. exists raw, bs. split; [exact H|].
  intros Hx. apply contains_spec in Hx. congruence.
Qed.

Lemma C05_lemma2 : forall n e path off forced s l s' i,
  add_file n e path off forced s = (Ok l, s') -> In i l ->
  ~ exists a b, it_raw i = a ++ "${@" ++ b.
Proof.
  intros n e path off forced s l s' i H Hi. apply add_file_inv in H. destruct (skipped e path s).
  { destruct H as [-> _]. contradiction. }
  destruct H as [cs [l0 [mx [Hp [Hck [Hpa [-> _]]]]]]].
  apply in_map_iff in Hi. destruct Hi as [i0 [<- Hi]]. simpl.
  clear Hp. revert Hck Hpa Hi. generalize 0%Z (st_new s) 1%Z. intros inc new num. revert inc new num l0.
  induction cs as [|c cs IH]; intros inc new num l0 Hck Hpa Hi; destruct l0 as [|j l0];
    simpl in Hpa; try contradiction.
  destruct Hck as [[_ [_ [Hb _]]] [_ Hck]].
  destruct Hpa as [Hraw [_ [_ [_ [_ [_ [_ [_ [d [_ Hpa]]]]]]]]]].
  destruct Hi as [->|Hi]; [|eapply IH; eassumption].
  rewrite Hraw. destruct (inline_blocks_total (st_neg s) (ck_realraw c)) as [raw [bs [E Hc]]].
  rewrite Hb in E. inversion E; subst. intros Hx. apply (contains_spec "${@") in Hx. congruence.
Qed.

(** Inline preprocessing terminates ... *)
Theorem C05_terminates : forall neg t,
  Acc (inline_next neg) t /\
  exists raw blocks, inline_blocks_of neg t = Some (raw, blocks)
    /\ ~ exists a b, raw = a ++ "${@" ++ b.
Proof. exact C05_lemma1. Qed.
Print Assumptions C05_terminates.

(** ... and no item has an inline marker left in Raw. *)
Theorem C05_no_marker : forall n e path off forced s l s' i,
  add_file n e path off forced s = (Ok l, s') -> In i l ->
  ~ exists a b, it_raw i = a ++ "${@" ++ b.
Proof. exact C05_lemma2. Qed.
Print Assumptions C05_no_marker.

(** One block becomes a reference, the other one stays as a marker. *)
Example C05_case :
  inline_blocks_of false "A = ""${@d.getVar('B')} ${@foo()}""" =
  Some ("A = ""${B} !!!inlineblock!!!""",
        [("${@d.getVar('B')}", "${B}"); ("${@foo()}", "!!!inlineblock!!!")]).
Proof. vm_compute. auto. Qed.

(** ** C06 *)

Lemma C06_lemma1 : forall off neg text,
  (forall ex, prepare_text off neg text = Raise ex -> ex = StopIteration) /\
  (prepare_text off neg text = Raise StopIteration <->
   exists u, starts (readlines text) u /\ stuck u) /\
  (prepare_text off neg text = Raise StopIteration ->
   exists p l, readlines text = p ++ [l] /\ (continues l \/ header l)).
Proof.
  intros off neg text. split; [intros ex H; eapply prepare_loop_exn; exact H|].
  split; [apply prepare_text_stuck|]. intro H. apply prepare_text_stuck in H.
  destruct H as [u [Hs Hu]]. eapply stuck_last; [apply readlines_ok|eassumption|assumption].
Qed.

(** Chunking fails exactly if a chunk starts at lines of which each waits for
    the next one, up to the end of the file; in particular the last line is a
    continuation line or a function header. *)
Theorem C06_stop_iff : forall off neg text,
  (forall ex, prepare_text off neg text = Raise ex -> ex = StopIteration) /\
  (prepare_text off neg text = Raise StopIteration <->
   exists u, starts (readlines text) u /\ stuck u) /\
  (prepare_text off neg text = Raise StopIteration ->
   exists p l, readlines text = p ++ [l] /\ (continues l \/ header l)).
Proof. exact C06_lemma1. Qed.
Print Assumptions C06_stop_iff.

Lemma C06_lemma2 : forall n e path off forced s s',
  (forall file t p l, fs_read (e_fs e) file = RdText t ->
     readlines (universal_newlines t) = p ++ [l] -> ~ continues l /\ ~ header l) ->
  add_file n e path off forced s <> (Raise StopIteration, s').
Proof.
  intros n e path off forced s s' Hno H. apply add_file_exns in H.
  destruct (H eq_refl) as [file [t [Hr [p [l [Hl Hw]]]]]].
  destruct (Hno file t p l Hr Hl) as [H1 H2]. destruct Hw; contradiction.
Qed.

(** AddFile does not leak StopIteration if no file ends in such a line. *)
Theorem C06_no_stop : forall n e path off forced s s',
  (forall file t p l, fs_read (e_fs e) file = RdText t ->
     readlines (universal_newlines t) = p ++ [l] -> ~ continues l /\ ~ header l) ->
  add_file n e path off forced s <> (Raise StopIteration, s').
Proof. exact C06_lemma2. Qed.
Print Assumptions C06_no_stop.

(** The demo file satisfies the hypothesis, and it is parsed. *)
Example C06_case : forall file t p l, fs_read (e_fs demo_e) file = RdText t ->
  readlines (universal_newlines t) = p ++ [l] -> ~ continues l /\ ~ header l.
Proof.
  intros file t p l H Hl.
  assert (Et : universal_newlines t = demo_text).
  { cbn in H. destruct (str_eqb file "/w/a.bb"); [|discriminate]. inversion H. vm_compute. reflexivity. }
  rewrite Et in Hl. clear H Et t.
  assert (E : readlines demo_text = removelast (readlines demo_text) ++ ["B:x = ""3"""])
    by (vm_compute; reflexivity).
  rewrite E in Hl. apply app_inj_tail in Hl. destruct Hl as [_ <-]. split.
  - intro H. apply is_next_line_iff in H. vm_compute in H. discriminate.
  - intro H. apply header_is_func_start in H; [vm_compute in H; discriminate|].
    right. intro Hi. repeat (destruct Hi as [Hi|Hi]; [discriminate|]). exact Hi.
Qed.

(** AddFile leaks StopIteration for a file that ends in a continuation line
    and for one that ends in a function header. *)
Theorem C06_refuted : exists e1 e2,
  fst (add_file 2 e1 "a.bb" 0 None demo_stash) = Raise StopIteration /\
  fst (add_file 2 e2 "a.bb" 0 None demo_stash) = Raise StopIteration.
Proof.
  exists (demo_env [("/w/a.bb", "A = ""1 " ++ [cBSL; cNL])] ["/w"; "/"]),
         (demo_env [("/w/a.bb", "do_x() {" ++ nl)] ["/w"; "/"]).
  vm_compute. auto.
Qed.
Print Assumptions C06_refuted.

(** ** C07 *)

Lemma C07_lemma : forall n e path off forced s l s',
  add_file n e path off forced s = (Ok l, s') ->
  (st_new s = true -> Forall (fun i => it_new i = true) l) /\
  (forall pre a mid b post, l = pre ++ a :: mid ++ b :: post -> it_new a = true -> it_new b = true).
Proof.
  intros n e path off forced s l s' H. apply add_file_inv in H. destruct (skipped e path s).
  { destruct H as [-> _]. split; [constructor|]. intros [|x pre] a mid b post E; discriminate. }
  destruct H as [cs [l0 [mx [_ [_ [Hpa [-> _]]]]]]].
  assert (G1 : forall cs l0 inc new, parsed (abspath (fs_cwd (e_fs e)) path) off inc new cs l0 ->
              new = true -> Forall (fun i => it_new i = true) l0).
  { clear. induction cs as [|c cs IH]; intros [|i l0] inc new Hp Hn; simpl in Hp; try contradiction; constructor.
    - destruct Hp as [_ [_ [_ [_ [_ [_ [_ [Hnew _]]]]]]]]. auto.
    - destruct Hp as [_ [_ [_ [_ [_ [_ [_ [Hnew [d [_ Hp]]]]]]]]]].
      eapply IH; [exact Hp|]. now rewrite Hn. }
  assert (G2 : forall cs l0 inc new, parsed (abspath (fs_cwd (e_fs e)) path) off inc new cs l0 ->
              forall pre a mid b post, l0 = pre ++ a :: mid ++ b :: post -> it_new a = true -> it_new b = true).
  { clear -G1. induction cs as [|c cs IH]; intros [|i l0] inc new Hp pre a mid b post E Ha; simpl in Hp;
      try contradiction; [destruct pre; discriminate|].
    destruct Hp as [_ [_ [_ [_ [_ [_ [_ [Hnew [d [_ Hp]]]]]]]]]].
    destruct pre as [|x pre]; simpl in E; inversion E; subst.
    - assert (Hf : Forall (fun i => it_new i = true) (mid ++ b :: post)).
      { eapply G1; [exact Hp|]. rewrite Ha. apply Bool.orb_true_r. }
      apply Forall_app in Hf. destruct Hf as [_ Hf]. now inversion Hf.
    - eapply IH; [exact Hp|reflexivity|exact Ha]. }
  split.
  - intro Hn. rewrite Forall_map. eapply Forall_impl; [|eapply G1; eassumption]. intros i Hi. exact Hi.
  - intros pre a mid b post E Ha. apply map_eq_app in E. destruct E as [pre0 [r [-> [<- Er]]]].
    apply map_eq_cons in Er. destruct Er as [a0 [r2 [-> [<- Er]]]].
    apply map_eq_app in Er. destruct Er as [mid0 [r3 [-> [<- Er]]]].
    apply map_eq_cons in Er. destruct Er as [b0 [post0 [-> [<- <-]]]].
    simpl in *. eapply G2; [exact Hpa|reflexivity|exact Ha].
Qed.

(** The new override syntax is sticky within a file. *)
Theorem C07_sticky : forall n e path off forced s l s',
  add_file n e path off forced s = (Ok l, s') ->
  (st_new s = true -> Forall (fun i => it_new i = true) l) /\
  (forall pre a mid b post, l = pre ++ a :: mid ++ b :: post -> it_new a = true -> it_new b = true).
Proof. exact C07_lemma. Qed.
Print Assumptions C07_sticky.

Example C07_case :
  map it_new (ok_items (add_file 2 (demo_env [("/w/a.bb",
     "A_x = ""1""" ++ nl ++ "B:x = ""1""" ++ nl ++ "C_x = ""1""" ++ nl)] ["/w"; "/"]) "a.bb" 0 None demo_stash))
  = [false; true; true].
Proof. vm_compute. auto. Qed.

(** ** C08 *)

Lemma C08_lemma : forall n1 n2 e1 e2 path1 path2 off1 off2 forced1 forced2 s1 s2 l1 l2 s1' s2',
  add_file n1 e1 path1 off1 forced1 s1 = (Ok l1, s1') -> considered e1 path1 s1 ->
  add_file n2 e2 path2 off2 forced2 s2 = (Ok l2, s2') -> considered e2 path2 s2 ->
  fs_read (e_fs e1) (file_of e1 path1) = fs_read (e_fs e2) (file_of e2 path2) ->
  map (fun i => (it_realraw i, it_infile i)) l1 = map (fun i => (it_realraw i, it_infile i)) l2.
Proof.
  intros n1 n2 e1 e2 path1 path2 off1 off2 forced1 forced2 s1 s2 l1 l2 s1' s2' H1 C1 H2 C2 Hr.
  apply add_file_inv in H1, H2. rewrite (considered_skipped _ _ _ C1) in H1.
  rewrite (considered_skipped _ _ _ C2) in H2. cbv zeta in H1, H2.
  fold (file_of e1 path1) in H1. fold (file_of e2 path2) in H2.
  destruct H1 as [cs1 [k1 [mx1 [P1 [K1 [Q1 [-> _]]]]]]], H2 as [cs2 [k2 [mx2 [P2 [K2 [Q2 [-> _]]]]]]].
  rewrite !map_map. simpl.
  assert (G : forall file off neg cs inc new l, chunks_ok off neg 1 cs -> parsed file off inc new cs l ->
            map (fun i => (it_realraw i, it_infile i)) l =
            map (fun c => (ck_realraw c, (ck_line c - off)%Z)) cs).
  { clear. intros file off neg cs inc new l. generalize 1%Z. revert inc new l.
    induction cs as [|c cs IH]; intros inc new [|i l] num Hc Hp; simpl in Hp; try contradiction; [reflexivity|].
    destruct Hp as [_ [Hrr [_ [_ [_ [Hinf [_ [_ [d [_ Hp]]]]]]]]]].
    destruct Hc as [[_ [Hne _]] [_ Hc]]. simpl. rewrite (Hrr Hne), Hinf. f_equal. eapply IH; eassumption. }
  rewrite (G _ _ _ _ _ _ _ K1 Q1), (G _ _ _ _ _ _ _ K2 Q2).
  unfold prepare_file in P1, P2. rewrite Hr in P1.
  destruct (fs_read (e_fs e2) (file_of e2 path2)) as [t| | |]; try discriminate.
  - apply (prepare_text_config off1 off2 (st_neg s1) (st_neg s2)) in P1. destruct P1 as [cs' [P1 Hf]].
    rewrite P1 in P2. inversion P2; subst. clear -Hf.
    induction Hf as [|c c' cs cs' [E1 E2] Hf IH]; [reflexivity|]. simpl. rewrite IH, E1, E2. reflexivity.
  - inversion P1; inversion P2; subst. reflexivity.
Qed.

(** Text and positions depend on the text of the file only: not on negative
    inline, not on the override syntax, not on offset, forced link, the rest
    of the stash, the rest of the file system or the name of the file. *)
Theorem C08_config : forall n1 n2 e1 e2 path1 path2 off1 off2 forced1 forced2 s1 s2 l1 l2 s1' s2',
  add_file n1 e1 path1 off1 forced1 s1 = (Ok l1, s1') -> considered e1 path1 s1 ->
  add_file n2 e2 path2 off2 forced2 s2 = (Ok l2, s2') -> considered e2 path2 s2 ->
  fs_read (e_fs e1) (file_of e1 path1) = fs_read (e_fs e2) (file_of e2 path2) ->
  map (fun i => (it_realraw i, it_infile i)) l1 = map (fun i => (it_realraw i, it_infile i)) l2.
Proof. exact C08_lemma. Qed.
Print Assumptions C08_config.

(** Two runs with different Raw. *)
Example C08_case :
  let e := demo_env [("/w/a.bb", "A = ""${@bb.utils.contains('a', 'b', 'c', 'd', d)}""" ++ nl ++ "B = ""1""" ++ nl)]
                    ["/w"; "/"] in
  let r1 := ok_items (add_file 2 e "a.bb" 0 None (new_stash false false no_const)) in
  let r2 := ok_items (add_file 2 e "a.bb" 7 None (new_stash true true no_const)) in
  map it_raw r1 <> map it_raw r2 /\ map it_infile r1 = [1; 2]%Z /\ map it_infile r2 = [1; 2]%Z.
Proof. vm_compute. split; [discriminate|auto]. Qed.

(** ** C61 *)

Lemma C61_lemma : forall n e path off1 off2 forced s l s',
  add_file n e path off1 forced s = (Ok l, s') ->
  Forall (fun i => match it_pay i with PInclude _ _ f => f = [] | PInherit _ _ ps => ps = [] | _ => True end) l ->
  exists s2, add_file n e path off2 forced s =
             (Ok (map (fun i => set_line (it_line i + (off2 - off1)) i) l), s2).
Proof.
  intros n e path off1 off2 forced s l s' H Hno. eapply add_file_offset; [exact H|exact Hno].
Qed.

(** If no file was included or inherited, another line offset gives the same
    items with Line shifted. *)
Theorem C61_offset : forall n e path off1 off2 forced s l s',
  add_file n e path off1 forced s = (Ok l, s') ->
  Forall (fun i => match it_pay i with PInclude _ _ f => f = [] | PInherit _ _ ps => ps = [] | _ => True end) l ->
  exists s2, add_file n e path off2 forced s =
             (Ok (map (fun i => set_line (it_line i + (off2 - off1)) i) l), s2).
Proof. exact C61_lemma. Qed.
Print Assumptions C61_offset.

Example C61_case : map it_line (ok_items (add_file 2 demo_e "a.bb" 10 None demo_stash)) = [11; 13; 15; 18]%Z
  /\ Forall (fun i => match it_pay i with PInclude _ _ f => f = [] | PInherit _ _ ps => ps = [] | _ => True end)
            (ok_items demo_run).
Proof. vm_compute. repeat constructor. Qed.
