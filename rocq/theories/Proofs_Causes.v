(** * Why files are linked: proofs *)

From Verif Require Import PyStr Regex Patterns PyPath Res Inline Const Item Lines Stash
  StrFacts ReFacts NameFacts LinesFacts ParseFacts HistFacts ReachFacts MapFacts AppendFacts
  Spec_Query Spec_Files Proofs_Files Proofs_Query Spec_Load Spec_Causes.

(** ** The patterns *)

Lemma percent_cons : forall c n, replace "%" ".*" (c :: n) = (if N.eqb c 37 then ".*" else [c]) ++ replace "%" ".*" n.
Proof.
  intros c n. change (c :: n) with ([c] ++ n) at 1. rewrite replace_char_app. f_equal.
  destruct (N.eqb c 37) eqn:E.
  - apply N.eqb_eq in E. subst. reflexivity.
  - apply replace_char_none. intros [->|[]]. discriminate E.
Qed.
Lemma take_quant_star : forall s, no_quant s -> take_quant (42%N :: s) = (QStar true false, s).
Proof.
  intros s H. unfold take_quant. destruct s as [|c s]; [reflexivity|]. simpl in H.
  assert (H2 : N.eqb c 43 = false) by (apply N.eqb_neq; intros ->; apply H; auto).
  assert (H3 : N.eqb c 63 = false) by (apply N.eqb_neq; intros ->; apply H; auto).
  now rewrite H2, H3.
Qed.
Definition calm (n : str) : Prop := forall c, In c n -> ~ In c ("^$\()[]{}|*+?" : str).
Lemma calm_no_quant : forall n rest, calm n -> no_quant rest -> no_quant (replace "%" ".*" n ++ rest).
Proof.
  intros [|c n] rest Hn Hr; [exact Hr|]. rewrite percent_cons. destruct (N.eqb c 37); cbn; [intuition discriminate|].
  intro H. apply (Hn c); [now left|]. vm_compute. intuition.
Qed.

Lemma compile_like : forall n rest f rx b s g s', calm n -> no_quant rest ->
  compile_pat f (replace "%" ".*" n ++ rest) = Some rx -> mt rx (MS b s g) s' ->
  exists u t f' r' b' g', s = u ++ t /\ like n u /\ compile_pat f' rest = Some r' /\ mt r' (MS b' t g') s'.
Proof.
  induction n as [|c n IH]; intros rest f rx b s g s' Hn Hq Hc Hm.
  - exists [], s, f, rx, b, g. repeat split; auto. constructor.
  - assert (Hn' : calm n) by (intros x Hx; apply Hn; now right).
    assert (Hq' : no_quant (replace "%" ".*" n ++ rest)) by now apply calm_no_quant.
    rewrite percent_cons, <- app_assoc in Hc. destruct f as [|f]; [discriminate|].
    destruct (N.eqb c 37) eqn:E37.
    + apply N.eqb_eq in E37. subst c. cbn [List.app] in Hc. cbn [compile_pat] in Hc.
      change (N.eqb 46 94) with false in Hc. change (N.eqb 46 36) with false in Hc. change (N.eqb 46 46) with true in Hc.
      cbv beta iota zeta in Hc. rewrite take_quant_star in Hc by exact Hq'.
      destruct (compile_pat f (replace "%" ".*" n ++ rest)) as [r|] eqn:Er; [|discriminate].
      injection Hc as <-. apply mt_seq_iff in Hm. destruct Hm as [s1 [H1 H2]]. cbn [quantify] in H1.
      apply mt_star_chr_iff in H1. destruct H1 as [w [t [E1 [_ ->]]]]. cbn in E1. subst s.
      assert (Ha : exists b', after b w t g = MS b' t g) by (destruct w; eexists; reflexivity).
      cbn [m_bol m_grp] in H2. destruct Ha as [b' Ha]. rewrite Ha in H2.
      destruct (IH _ _ _ _ _ _ _ Hn' Hq Er H2) as (u & t' & f' & r' & b2 & g2 & -> & Hl & Hc' & Hm').
      exists (w ++ u), t', f', r', b2, g2. rewrite <- app_assoc. repeat split; auto. now constructor.
    + cbn [List.app] in Hc. cbn [compile_pat] in Hc.
      assert (Hne : forall x, In x special -> N.eqb c x = false).
      { intros x Hx. apply N.eqb_neq. intros ->. apply (Hn x); [now left|exact Hx]. }
      rewrite (Hne 94%N) in Hc by (vm_compute; tauto). rewrite (Hne 36%N) in Hc by (vm_compute; tauto).
      rewrite (Hne cBSL) in Hc by (vm_compute; tauto). cbv beta iota zeta in Hc.
      assert (Hu : in_chars unsupported_chars c = false).
      { destruct (in_chars unsupported_chars c) eqn:E; [|reflexivity]. apply in_chars_In in E. exfalso. apply (Hn c); [now left|].
        unfold unsupported_chars in E. vm_compute in E. vm_compute. tauto. }
      rewrite Hu in Hc. rewrite take_quant_none in Hc by exact Hq'.
      destruct (compile_pat f (replace "%" ".*" n ++ rest)) as [r|] eqn:Er;
        [|destruct (N.eqb c 46); discriminate].
      assert (Hx : exists d t, s = d :: t /\ (d = c \/ c = 46%N) /\ mt r (MS false t g) s').
      { destruct (N.eqb c 46) eqn:E46; injection Hc as <-; apply mt_seq_iff in Hm; destruct Hm as [s1 [H1 H2]];
          cbn [quantify] in H1; apply mt_chr_iff in H1; destruct H1 as [d [t [E1 [E2 ->]]]]; cbn in E1, H2; exists d, t; repeat split; auto.
        - right. now apply N.eqb_eq.
        - left. unfold ch in E2. now apply N.eqb_eq. }
      destruct Hx as [d [t [-> [Hd H2]]]].
      destruct (IH _ _ _ _ _ _ _ Hn' Hq Er H2) as (u & t' & f' & r' & b2 & g2 & -> & Hl & Hc' & Hm').
      exists (d :: u), t', f', r', b2, g2. repeat split; auto. destruct Hd as [->| ->]; now constructor.
Qed.

Lemma no_border : forall o a1 a2, ~ In 46%N o -> (forall a b, a1 ++ a2 <> a ++ (46%N :: o) ++ b) -> a2 <> [] ->
  startswith (46%N :: o) (a2 ++ (46%N :: o) ++ []) = false.
Proof.
  intros o a1 a2 Ho Hc Hn. destruct (startswith _ _) eqn:E; [|reflexivity]. exfalso.
  apply startswith_spec in E. destruct E as [t E]. rewrite app_nil_r in E.
  apply app_eq_app in E. destruct E as [l [[E1 E2]|[E1 E2]]].
  - apply (Hc a1 l). now rewrite E1.
  - destruct l as [|c l].
    + rewrite app_nil_r in E1. apply (Hc a1 []). now rewrite app_nil_r, E1.
    + destruct a2 as [|d a2]; [congruence|]. injection E1 as E0 E1. injection E2 as E3 E2. subst c. apply Ho. rewrite E1.
      apply in_or_app. right. now left.
Qed.
Lemma replace_suffix : forall o new n, ~ In 46%N o -> (forall a b, n <> a ++ (46%N :: o) ++ b) ->
  replace (46%N :: o) new (n ++ 46%N :: o) = n ++ new.
Proof.
  intros o new n Ho Hc. pose proof (replace_hit (46%N :: o) new n [] ltac:(discriminate)) as R.
  assert (Hr : replace (46%N :: o) new [] = []) by reflexivity.
  rewrite Hr, !app_nil_r in R. apply R. intros a1 a2 -> Hn.
  pose proof (no_border o a1 a2 Ho Hc Hn) as B. now rewrite app_nil_r in B.
Qed.

(** Endings without a slash are those of the base name. *)
Lemma last_slash : forall s : str, ~ In cSL s \/ exists d b, s = d ++ [cSL] ++ b /\ ~ In cSL b.
Proof.
  induction s as [|c s IH]; [now left|]. destruct IH as [H|(d & b & -> & Hb)].
  - destruct (N.eq_dec c cSL) as [->|Hc].
    + right. exists [], s. auto.
    + left. intros [E|E]; auto.
  - right. exists (c :: d), b. auto.
Qed.
Lemma basename_end : forall suf x, ~ In cSL suf -> endswith suf x = true -> exists n, basename x = n ++ suf.
Proof.
  intros suf x Hs E. apply endswith_spec in E. destruct E as [t ->]. destruct (last_slash t) as [H|(d & b & -> & Hb)].
  - exists t. unfold basename. rewrite rsplit_slash_no; [reflexivity|]. intro Hi. apply in_app_or in Hi. tauto.
  - exists b. rewrite <- !app_assoc. apply (basename_app d (b ++ suf)). intro Hi. apply in_app_or in Hi. tauto.
Qed.

Lemma append_answers : forall x k, endswith ".bbappend" x = true -> append_matches x k -> answers x k.
Proof.
  intros x k Hx [rx [Hd Hm]]. apply (basename_end ".bbappend") in Hx; [|cbv; intuition discriminate].
  destruct Hx as [n Hx]. exists n. split; [exact Hx|]. intros [T1 T2]. left.
  unfold append_pattern in Hd. rewrite Hx in Hd.
  assert (R : replace ".bbappend" ".bb$" (n ++ ".bbappend") = n ++ ".bb$").
  { apply (replace_suffix "bbappend" ".bb$" n); [cbv; intuition discriminate|exact T2]. }
  rewrite R, replace_char_app, (replace_char_none _ _ ".bb$") in Hd by (vm_compute; intuition discriminate).
  unfold re_match in Hm. apply matched_iff in Hm. destruct Hm as [s' Hm].
  unfold dyn_pattern in Hd. eapply compile_like in Hm; [|exact T1| |exact Hd]; [|vm_compute; intuition discriminate].
  destruct Hm as (u & t & f' & r' & b' & g' & -> & Hl & Hc & Hm).
  pose proof (compile_more _ _ _ Hc (f' + 5) ltac:(lia)) as Hc'.
  assert (Hc5 : compile_pat (f' + 5) ".bb$" = Some (RSeq RDot (RSeq (RChr (ch 98%N)) (RSeq (RChr (ch 98%N)) (RSeq REol REps))))).
  { apply (compile_more 5); [vm_compute; reflexivity|lia]. }
  rewrite Hc' in Hc5. injection Hc5 as ->.
  apply mt_seq_iff in Hm. destruct Hm as [s1 [M1 Hm]]. apply mt_chr_iff in M1. destruct M1 as (c & t1 & E1 & _ & ->). cbn in E1. subst t.
  apply mt_seq_iff in Hm. destruct Hm as [s1 [M1 Hm]]. apply mt_chr_iff in M1. destruct M1 as (c2 & t2 & E1 & P2 & ->). cbn in E1. subst t1.
  apply mt_seq_iff in Hm. destruct Hm as [s1 [M1 Hm]]. apply mt_chr_iff in M1. destruct M1 as (c3 & t3 & E1 & P3 & ->). cbn in E1. subst t2.
  apply mt_seq_iff in Hm. destruct Hm as [s1 [M1 Hm]]. apply mt_eol_iff in M1. destruct M1 as [_ M1]. cbn in M1.
  unfold ch in P2, P3. apply N.eqb_eq in P2, P3. subst c2 c3.
  exists u, c, t3. auto.
Qed.
Lemma recipe_answers : forall x k, endswith ".bbappend" x = true -> endswith ".bb" k = true -> recipe_matches k x -> answers x k.
Proof.
  intros x k Hx Hk [rx [Hd Hm]]. apply (basename_end ".bbappend") in Hx; [|cbv; intuition discriminate].
  destruct Hx as [n Hx]. exists n. split; [exact Hx|]. intros [T1 T2]. right.
  apply (basename_end ".bb") in Hk; [|cbv; intuition discriminate]. destruct Hk as [v Hk]. exists v. split; [exact Hk|].
  intro Hv. unfold recipe_pattern in Hd. rewrite Hx in Hd.
  assert (R : replace ".bbappend" [] (n ++ ".bbappend") = n ++ []).
  { apply (replace_suffix "bbappend" [] n); [cbv; intuition discriminate|exact T2]. }
  assert (R2 : replace ".bb" [] (v ++ ".bb") = v ++ []).
  { apply (replace_suffix "bb" [] v); [cbv; intuition discriminate|exact Hv]. }
  rewrite R, app_nil_r in Hd. rewrite Hk, R2, app_nil_r in Hm.
  unfold re_match in Hm. apply matched_iff in Hm. destruct Hm as [s' Hm]. unfold dyn_pattern in Hd.
  rewrite <- (app_nil_r (replace "%" ".*" n)) in Hd at 2.
  eapply compile_like in Hm; [|exact T1| |exact Hd]; [|exact I].
  destruct Hm as (u & t & _ & _ & _ & _ & -> & Hl & _). exists u, t. auto.
Qed.

(** ** The links *)

Section Causes.
Context (e : env) (direct : bool).
Notation file_at p := (abspath (fs_cwd (e_fs e)) p).

Definition from_item (i : item) (f x : str) : Prop := it_origin i = f /\ exists p, names_file i p /\ x = file_at p.
Definition from_items (l : list item) (f x : str) : Prop := exists i, In i l /\ from_item i f x.
Definition stepR (L : str -> str -> Prop) (l : list item) (f x : str) : Prop := L f x \/ from_items l f x \/ answers x f.
Inductive reaches (R : str -> str -> Prop) : str -> str -> Prop :=
| reaches_self : forall f, reaches R f f
| reaches_step : forall f y x, R f y -> reaches R y x -> reaches R f x.
Lemma reaches_mono : forall (R R' : str -> str -> Prop) f x, (forall a b, R a b -> R' a b) -> reaches R f x -> reaches R' f x.
Proof. intros R R' f x H Hr. induction Hr; [constructor|econstructor; eauto]. Qed.
Lemma reaches_trans : forall R f y x, reaches R f y -> reaches R y x -> reaches R f x.
Proof. intros R f y x H H2. induction H; [exact H2|econstructor; eauto]. Qed.
Lemma reaches_one : forall (R : str -> str -> Prop) f x, R f x -> reaches R f x.
Proof. intros R f x H. econstructor; [exact H|constructor]. Qed.

(** Finalize makes links over several steps, AddFile only direct ones. *)
Definition span (R : str -> str -> Prop) : str -> str -> Prop := if direct then R else reaches R.
Lemma span_mono : forall (R R' : str -> str -> Prop) f x, (forall a b, R a b -> R' a b) -> span R f x -> span R' f x.
Proof. intros R R' f x H. unfold span. destruct direct; [apply H|now apply reaches_mono]. Qed.
Lemma span_one : forall (R : str -> str -> Prop) f x, R f x -> span R f x.
Proof. intros R f x H. unfold span. destruct direct; [exact H|now apply reaches_one]. Qed.
Definition caused (L : str -> str -> Prop) (s : stash) : Prop := forall f x, linked s f x -> span (stepR L (st_list s)) f x.
Definition ok {A} (x : M A) (pre : str -> str -> Prop) (Q : A -> str -> str -> Prop) : Prop :=
  forall L s a s', x s = (Ok a, s') -> caused (fun f y => L f y \/ pre f y) s -> caused (fun f y => L f y \/ Q a f y) s'.
Definition noL (f x : str) : Prop := False.

Lemma caused_weak : forall (L L' : str -> str -> Prop) s s', st_list s' = st_list s -> st_map s' = st_map s ->
  (forall f x, L f x -> L' f x) -> caused L s -> caused L' s'.
Proof.
  intros L L' s s' El Em H Hc f x Hl. unfold linked in Hl. rewrite Em in Hl. apply Hc in Hl. rewrite El.
  eapply span_mono; [|exact Hl]. intros a b [H1|H1]; [left; auto|now right].
Qed.
Lemma ok_same : forall A (x : M A) (pre : str -> str -> Prop) (Q : A -> str -> str -> Prop),
  (forall s r s', x s = (r, s') -> st_list s' = st_list s /\ st_map s' = st_map s) ->
  (forall a f y, pre f y -> Q a f y) -> ok x pre Q.
Proof.
  intros A x pre Q H HQ L s a s' E Hc. destruct (H _ _ _ E) as [E1 E2].
  eapply caused_weak; [exact E1|exact E2| |exact Hc]. intros f y [Hl|Hl]; auto.
Qed.
Lemma ok_ret : forall A (a : A) (pre : str -> str -> Prop) (Q : A -> str -> str -> Prop), (forall f y, pre f y -> Q a f y) -> ok (ret a) pre Q.
Proof.
  intros A a pre Q HQ L s b s' E Hc. inversion E; subst. eapply caused_weak; [reflexivity|reflexivity| |exact Hc].
  intros f y [Hl|Hl]; auto.
Qed.
Lemma ok_bind : forall A B (x : M A) (f : A -> M B) pre P Q, ok x pre P -> (forall a, ok (f a) (P a) Q) -> ok (bindM x f) pre Q.
Proof.
  intros A B x f pre P Q Hx Hf L s b s' E Hc. unfold bindM in E. destruct (x s) as [[a|ex|] s1] eqn:Ex; try discriminate.
  eapply Hf; [exact E|]. eapply Hx; eassumption.
Qed.
Lemma ok_weak : forall A (x : M A) (pre pre' : str -> str -> Prop) (Q Q' : A -> str -> str -> Prop),
  (forall f y, pre' f y -> pre f y) -> (forall a f y, Q a f y -> Q' a f y) -> ok x pre Q -> ok x pre' Q'.
Proof.
  intros A x pre pre' Q Q' H1 H2 H L s a s' E Hc.
  eapply (caused_weak (fun f y => L f y \/ Q a f y)); [reflexivity|reflexivity| |].
  - intros f y [Hl|Hl]; auto.
  - eapply H; [exact E|]. eapply caused_weak; [reflexivity|reflexivity| |exact Hc]. intros f y [Hl|Hl]; auto.
Qed.
Lemma lift_same : forall A (f : stash -> Res.res A) s r s', liftR f s = (r, s') -> st_list s' = st_list s /\ st_map s' = st_map s.
Proof. intros A f s r s' E. unfold liftR in E. inversion E; subst. auto. Qed.
Lemma find_same : forall n d s r s', find_m e n d s = (r, s') -> st_list s' = st_list s /\ st_map s' = st_map s.
Proof. intros n d s r s' E. unfold find_m in E. destruct (find_local_or_layer _ _ _ _); inversion E; subst; auto. Qed.
Lemma find_class_same : forall locs w d s r s', find_class e locs w d s = (r, s') -> st_list s' = st_list s /\ st_map s' = st_map s.
Proof.
  induction locs as [|l locs IH]; intros w d s r s' E; simpl in E; [inversion E; subst; auto|].
  unfold bindM in E. destruct (find_m e _ d s) as [[[|c p]|ex|] s1] eqn:Ef; apply find_same in Ef; destruct Ef as [F1 F2].
  - apply IH in E. destruct E as [E1 E2]. split; congruence.
  - inversion E; subst. auto.
  - inversion E; subst. auto.
  - inversion E; subst. auto.
Qed.
Lemma new_same : forall mk s r s', new_item mk s = (r, s') -> st_list s' = st_list s /\ st_map s' = st_map s.
Proof. intros mk s r s' E. unfold new_item, fresh, bindM, ret in E. inversion E; subst. auto. Qed.

(** [addf] links the file it is given. *)
Definition links_from (file : str) (ps : list str) (f x : str) : Prop := f = file /\ exists p, In p ps /\ x = file_at p.
Definition ok_addf (addf : addfile_t) : Prop :=
  forall p o f pre, ok (addf p o f) pre (fun _ g y => pre g y \/ (g = f /\ y = file_at p)).

Lemma ok_inherit : forall addf locs file text line l paths off, ok_addf addf ->
  ok (inherit_loop e addf locs file text line l paths off) (links_from file paths) (fun r => links_from file (fst r)).
Proof.
  intros addf locs file text line l. induction l as [|x l IH]; intros paths off Ha; simpl.
  - apply ok_ret. auto.
  - eapply ok_bind; [apply (ok_same _ _ _ (fun _ => links_from file paths) (find_class_same _ _ _)); auto|].
    intros [|c p]; [now apply IH|].
    eapply ok_bind; [apply (ok_same _ _ _ (fun _ => links_from file paths) (lift_same _ _)); auto|].
    intros [|]; [now apply IH|].
    eapply ok_bind; [apply Ha|]. intro tmp. cbn beta. eapply ok_weak; [| |now apply IH]; [|auto].
    intros f y [[-> [q [Hq ->]]]|[-> ->]]; (split; [reflexivity|]); eexists; (split; [apply add_set_In|reflexivity]); auto.
Qed.

Definition opt_from (o : option (item * Z)) (f x : str) : Prop :=
  match o with Some (i, _) => from_item i f x | None => False end.
Lemma ok_new : forall C mk (g : item -> C) (pre : str -> str -> Prop) (Q : C -> str -> str -> Prop),
  (forall n f x, pre f x -> Q (g (mk n)) f x) -> ok (dom i <- new_item mk; ret (g i)) pre Q.
Proof.
  intros C mk g pre Q HQ L s a s' E Hc. unfold new_item, fresh, bindM, ret in E. inversion E; subst.
  eapply caused_weak; [| | |exact Hc]; [reflexivity|reflexivity|]. intros f x [H|H]; auto.
Qed.
Lemma ok_handle : forall addf p file line k mt, ok_addf addf -> (forall n, ip_origin (p n) = file) ->
  ok (handle e addf p file line k mt) noL opt_from.
Proof.
  intros addf p file line k mt Ha Hpo.
  assert (Hd : forall mk, ok (dom i <- new_item (fun n => mk (p n)); ret (Some (i, 0%Z))) noL opt_from).
  { intro mk. apply (ok_new _ (fun n => mk (p n)) (fun i => Some (i, 0%Z))). intros n f x []. }
  assert (Hinh : forall locs a st, ok
      (dom inhname <- liftR (fun s => expand_term e s file a);
       dom r <- inherit_loop e addf locs file inhname line (keep_nonempty (split_char cSP inhname)) [] 0%Z;
       dom i <- new_item (fun n => mk_item (p n) (ip_new (p n)) (PInherit a st (fst r)));
       ret (Some (i, snd r))) noL opt_from).
  { intros locs a st. eapply ok_bind; [apply (ok_same _ _ _ (fun _ => noL) (lift_same _ _)); auto|]. intro text.
    eapply ok_bind; [eapply ok_weak; [| |apply ok_inherit; exact Ha]; [intros f y []|intros r f y H; exact H]|].
    intro r. apply (ok_new _ (fun n => mk_item (p n) (ip_new (p n)) (PInherit a st (fst r))) (fun i => Some (i, snd r))).
    intros n f x [-> [q [Hq ->]]]. cbn [opt_from]. split; [cbn; apply Hpo|]. exists q. split; [exact Hq|reflexivity]. }
  destruct k; unfold handle;
    try (match goal with |- ok (bindM (new_item (fun n => mk_item (p n) (ip_new (p n)) ?pay)) _) _ _ =>
           apply (Hd (fun q => mk_item q (ip_new q) pay)) end).
  - eapply ok_bind; [apply (ok_same _ _ _ (fun _ => noL) (lift_same _ _)); auto|]. intro known.
    apply (Hd (fun q => mk_function known q (group "func" mt) (group_str "funcbody" mt)
                                 (matched (group "py" mt)) (matched (group "fr" mt)))).
  - apply Hinh.
  - apply Hinh.
  - eapply ok_bind; [apply (ok_same _ _ _ (fun _ => noL) (lift_same _ _)); auto|]. intro text.
    eapply ok_bind; [apply (ok_same _ _ _ (fun _ => noL) (find_same _ _)); auto|]. intro path.
    assert (Hfin : forall (off : Z) (pre : str -> str -> Prop), (forall f y, pre f y -> path <> [] /\ f = file /\ y = file_at path) -> ok
       (dom i <- new_item (fun n => mk_item (p n) (ip_new (p n))
                   (PInclude (group_str "incname" mt) (group_str "statement" mt) path));
        ret (Some (i, off))) pre opt_from).
    { intros off pre Hp. apply (ok_new _ (fun n => mk_item (p n) (ip_new (p n))
                   (PInclude (group_str "incname" mt) (group_str "statement" mt) path)) (fun i => Some (i, off))).
      intros n f x H. apply Hp in H. destruct H as [H1 [-> ->]]. cbn [opt_from]. split; [cbn; apply Hpo|].
      exists path. split; [split; [reflexivity|exact H1]|reflexivity]. }
    destruct path as [|c path]; [apply Hfin; intros f y []|].
    eapply ok_bind; [apply (ok_same _ _ _ (fun _ => noL) (lift_same _ _)); auto|]. intros [|]; [apply ok_ret; intros f y []|].
    eapply ok_bind; [apply Ha|]. intro tmp. apply Hfin. intros f y [[]|[-> ->]]. split; [discriminate|auto].
  - destruct (existsb _ pkg_prefixes); [apply ok_ret; intros f y []|].
    apply (Hd (fun q => mk_taskadd q (group_str "func" mt) (group_str "before" mt)
                                     (group_str "after" mt) (group_str "comment" mt))).
  - apply (Hd (fun q => mk_variable q (group_str "varname" mt) (group_str "varval" mt)
                                        (group_str "varop" mt))).
Qed.

Lemma ok_try : forall addf p file line cnt l, ok_addf addf -> (forall n, ip_origin (p n) = file) ->
  ok (try_kinds e addf p file line cnt l) noL (fun x => from_item (fst x)).
Proof.
  intros addf p file line cnt l Ha Hpo. induction l as [|[k r] l IH]; cbn [try_kinds].
  - apply (ok_new _ (fun n => mk_item (p n) (ip_new (p n)) PItem) (fun i => (i, 0%Z))). intros n f x [].
  - destruct (re_match r cnt) as [mt|]; [|exact IH].
    eapply ok_bind; [eapply ok_handle; eauto|].
    intros [[i z]|]; [apply ok_ret; auto|exact IH].
Qed.

Lemma ok_chunks : forall addf file off cs inc new, ok_addf addf ->
  ok (parse_chunks e addf file off inc new cs) noL from_items.
Proof.
  intros addf file off cs. induction cs as [|c cs IH]; intros inc new Ha; cbn [parse_chunks].
  - apply ok_ret. intros f y [].
  - eapply ok_bind; [apply ok_try; [exact Ha|reflexivity]|]. intro x.
    intros L s a s' E Hc. unfold bindM in E. destruct (parse_chunks _ _ _ _ _ _ _ s) as [[l|ex|] s1] eqn:Ep; try discriminate.
    inversion E; subst.
    assert (Hc' : caused (fun f y => (L f y \/ from_item (fst x) f y) \/ noL f y) s).
    { eapply caused_weak; [reflexivity|reflexivity| |exact Hc]. cbn beta. auto. }
    eapply (IH _ _ Ha _ _ _ _ Ep) in Hc'. eapply caused_weak; [reflexivity|reflexivity| |exact Hc']. cbn beta.
    intros f y [[H|H]|[i [Hi H]]]; [now left|right; exists (fst x); split; [now left|exact H]|].
    right. exists i. split; [now right|exact H].
Qed.

Lemma extends_linked : forall K a b k x, extends K a b -> (exists l, dget k b = Some l /\ In x l) ->
  (exists l, dget k a = Some l /\ In x l) \/ K k x.
Proof.
  intros K a b k x H. induction H as [|mp' k' H IH Hk|mp' k' l x' H IH Hk HK]; intros [l0 [E Hx]].
  - left. now exists l0.
  - rewrite dget_dset in E. destruct (str_eqb k k') eqn:Ek; [injection E as <-; destruct Hx|]. apply IH. now exists l0.
  - rewrite dget_dset in E. destruct (str_eqb k k') eqn:Ek.
    + injection E as <-. apply str_eqb_eq in Ek. subst k'. apply in_app_or in Hx. destruct Hx as [Hx|[<-|[]]]; [|now right].
      apply IH. now exists l.
    + apply IH. now exists l0.
Qed.

Lemma ok_add_file : forall n path off forced pre,
  ok (add_file n e path off forced) pre (fun _ g y => pre g y \/ (forced = Some g /\ y = file_at path)).
Proof.
  induction n as [|n IH]; intros path off forced pre L s l s' E Hc; [discriminate|].
  rewrite add_file_eq in E. cbv zeta in E.
  destruct (skipped e path s).
  { inversion E; subst. eapply caused_weak; [reflexivity|reflexivity| |exact Hc]. cbn beta. tauto. }
  set (file := file_at path) in *. unfold bindM in E.
  destruct (get_items e _ file off (enter file s)) as [[items|ex|] s1] eqn:Eg; try discriminate.
  set (L0 := fun f y => L f y \/ pre f y) in *.
  assert (H1 : caused (fun f y => L0 f y \/ from_items items f y) s1).
  { unfold get_items, bindM, liftR in Eg. destruct (prepare_file _ _ _ _) as [cs|ex|]; try discriminate.
    eapply ok_chunks; [|exact Eg|].
    - intros p o f pre'. eapply ok_weak; [| |apply (IH p o (Some f) pre')]; [auto|]. cbn beta.
      intros a g y [H|[H ->]]; [now left|]. right. injection H as ->. auto.
    - eapply caused_weak; [| | |exact Hc]; [reflexivity|reflexivity|]. auto. }
  pose proof (leave_map _ _ _ _ _ _ _ E) as [Hm _].
  apply leave_cases in E. destruct E as (f & l1 & Hf & EL & _ & _ & _ & _ & _ & _ & _ & Hr).
  destruct (Hr l eq_refl) as [<- [mx El]]. clear Hr.
  assert (Hstep : forall a b, stepR (fun f y => L0 f y \/ from_items items f y) (st_list s1) a b ->
    stepR (fun f y => L f y \/ (pre f y \/ (forced = Some f /\ y = file))) (st_list s') a b).
  { intros a b [[[H|H]|[i [Hi H]]]|[[i [Hi H]]|H]].
    - left. now left.
    - left. right. now left.
    - right. left. rewrite EL. exists (set_line (it_line i + mx) i). split; [|exact H].
      apply in_or_app. right. rewrite El. apply in_map_iff. exists i. auto.
    - right. left. rewrite EL. exists (f i). split.
      + apply in_or_app. left. now apply in_map.
      + pose proof (proj1 (Hf i)) as F. unfold from_item, names_file in *. rewrite F. exact H.
    - right. now right. }
  intros k x Hl. unfold linked in Hl. destruct (extends_linked _ _ _ _ _ Hm Hl) as [Hl1|Hl1].
  - apply H1 in Hl1. eapply span_mono; [exact Hstep|exact Hl1].
  - apply span_one. destruct Hl1 as [[-> ->]|[[Ha [-> Hk]]|[Hb [-> [Ha [Hk _]]]]]].
    + left. right. right. auto.
    + right. right. now apply append_answers.
    + right. right. now apply recipe_answers.
Qed.
End Causes.

Lemma filled_parsing : forall e s, filled e s -> parsing e s.
Proof. intros e s H. induction H; [apply parsing_new|eapply parsing_add; eauto|eapply parsing_finalize; eauto|now apply parsing_const]. Qed.
Lemma filled_reach : forall e s, filled e s -> reach e s.
Proof.
  intros e s H. induction H as [a b c|n path off s l s' H IH E|s s' H IH E|db s H IH]; [exists a, b, c; apply steps_refl| | |];
    destruct IH as (a & b & c & IH); exists a, b, c.
  - eapply steps_add; eauto.
  - eapply steps_finalize; eauto.
  - now apply steps_const.
Qed.

Lemma filled_caused : forall e s, env_ok e -> filled e s -> caused e false noL s.
Proof.
  intros e s He H. induction H as [a b c|n path off s l s' H IH E|s s' H IH E|db s H IH].
  - intros f x [l [E _]]. discriminate E.
  - eapply (caused_weak e false (fun f y => noL f y \/ (noL f y \/ (None = Some f /\ y = abspath (fs_cwd (e_fs e)) path))));
      [reflexivity|reflexivity| |].
    + intros f x [[]|[[]|[D _]]]. discriminate D.
    + eapply ok_add_file; [exact E|]. eapply caused_weak; [reflexivity|reflexivity| |exact IH]. intros f x [].
  - intros f x Hl. destruct (C41_sound_lemma e s s' He (filled_parsing e s H) E f x Hl) as [n Hc].
    apply finalize_shape in E. destruct E as [g [mp [Hg [-> _]]]]. clear Hl.
    assert (Hs : forall a b, stepR e noL (st_list s) a b -> stepR e noL (st_list (with_map mp (with_list (map g (st_list s)) s))) a b).
    { intros a b [[]|[[i [Hi H1]]|H1]]; [|right; now right]. right. left. exists (g i). split; [cbn; now apply in_map|].
      destruct (Hg i) as [v ->]. exact H1. }
    induction Hc as [f|n f y x Hl Hc IHc]; [constructor|]. eapply reaches_trans; [|exact IHc].
    eapply reaches_mono; [exact Hs|]. now apply IH.
  - exact IH.
Qed.
Lemma C126_links_lemma : forall e s f x, env_ok e -> filled e s -> linked s f x -> belongs e s f x.
Proof.
  intros e s f x He H Hl. apply (filled_caused e s He H) in Hl. induction Hl as [f|f y x Hs Hl IH]; [constructor|].
  econstructor; [|exact IH]. destruct Hs as [[]|[[i [Hi [<- [p [Hp ->]]]]]|Hs]].
  - now apply cause_named.
  - now apply cause_append.
Qed.
Lemma C126_lemma : forall e s q f i, env_ok e -> filled e s -> q_file q = Some f -> f <> [] ->
  In i (get_items_for e s q) -> belongs e s f (it_origin i).
Proof.
  intros e s q f i He H Hq Hf Hi. apply (proj1 (C28_lemma e s q He (filled_reach e s H))) in Hi.
  destruct Hi as [_ [Hi _]]. unfold of_file in Hi. rewrite Hq in Hi. destruct Hi as [Hi|[<-|[_ Hi]]]; [now elim Hf|constructor|].
  now apply C126_links_lemma.
Qed.
