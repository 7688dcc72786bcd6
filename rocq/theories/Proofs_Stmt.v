(** * Proofs about the items of statements: flags and keywords *)

From Verif Require Import PyStr Regex UniTable Patterns PyPath Res Inline Const Item Lines Stash
  StrFacts ReFacts LinesFacts ParseFacts HistFacts ReachFacts Spec_Parse ClassFacts MatchFacts ShapeFacts Proofs_Parse.

(** ** C11 *)

Definition re_flagass_n : re :=
  RSeq RBol (RSeq blanks0 (RSeq (RGrp "name" (RPlus false (RChr name_c))) (RSeq (RC "[")
    (RSeq (RGrp "ident" (RPlus true (RChr flag_c))) (RSeq (RC "]") (RSeq varop_n (RGrp "varval" dot_star))))))).
Lemma req_flagass : req re_flagass re_flagass_n.
Proof.
  unfold re_flagass, re_flagass_n. cbn [RCat]. apply req_seq; [apply req_refl|]. apply req_seq; [apply req_refl|].
  apply req_seq; [apply req_grp; apply req_plus; apply req_name|]. apply req_seq; [apply req_refl|].
  apply req_seq; [apply req_grp; apply req_plus; apply req_flag|]. apply req_seq; [apply req_refl|].
  apply req_seq; [apply req_varop|apply req_refl].
Qed.

Lemma name_not_space : forall n, forallb name_c n = true -> stops re_space n.
Proof.
  intros n Hn c t ->. cbn [forallb] in Hn. apply andb_prop in Hn. destruct Hn as [Hc _].
  destruct (re_space c) eqn:Es; [|reflexivity]. rewrite (space_not_name c Es) in Hc. discriminate.
Qed.

Lemma first_blanks0_nil : forall b t g, stops re_space t -> first blanks0 (MS b t g) (MS b t g).
Proof.
  intros b t g H. apply first_altl.
  assert (X : first (RStar true (RChr re_space)) (MS b ([] ++ t) g) (after b [] t g)) by (apply first_star; [reflexivity|exact H]).
  exact X.
Qed.

Lemma fails_chr : forall p b c t g r, p c = false -> fails (RSeq (RChr p) r) (MS b (c :: t) g).
Proof. intros p b c t g r H A k. cbn [m m_rest]. now rewrite H. Qed.

Lemma first_varval : forall b value g, oneline value -> exists b2,
  first (RGrp "varval" dot_star) (MS b value g) (MS b2 [] (("varval", value) :: g)).
Proof.
  intros b value g Hv. eexists (m_bol (after b value [] g)).
  assert (G : first (RGrp "varval" dot_star) (MS b (value ++ []) g) (MS (m_bol (after b value [] g)) [] (("varval", value) :: g))).
  { apply first_grp_app. rewrite app_nil_r. exact (first_dots value b g Hv). }
  rewrite app_nil_r in G. exact G.
Qed.

Lemma match_flagass : forall name flag op value w1, forallb name_c name = true -> name <> [] ->
  forallb flag_c flag = true -> flag <> [] -> op_value op value w1 -> oneline value ->
  exists mt, re_match re_flagass (name ++ "[" ++ flag ++ "]" ++ op ++ value) = Some mt /\
    group_str "name" mt = name /\ group_str "ident" mt = flag /\
    group_str "varop" mt = op /\ group_str "varval" mt = value.
Proof.
  intros name flag op value w1 Hn Hn0 Hf Hf0 Hop Hv.
  destruct (op_value_first op value w1 false [("ident", flag); ("name", name)] Hop) as [_ [_ [Hvo _]]].
  destruct (first_varval false value [("varop", op); ("ident", flag); ("name", name)] Hv) as [b2 Hvv].
  assert (F : first re_flagass (MS true (name ++ "[" ++ flag ++ "]" ++ op ++ value) [])
               (MS b2 [] [("varval", value); ("varop", op); ("ident", flag); ("name", name)])).
  { apply (first_req _ _ _ _ req_flagass). unfold re_flagass_n. eapply first_seq; [apply first_bol|].
    eapply first_seq.
    { apply first_blanks0_nil. intros c t E. destruct name as [|x name]; [congruence|]. inversion E; subst.
      apply (name_not_space (c :: name) Hn c name eq_refl). }
    apply first_lazy_grp; [exact Hn|exact Hn0| |].
    - cbn [app]. eapply first_seq; [apply first_chr; reflexivity|].
      eapply first_seq.
      { apply first_grp_app. apply first_plus; [exact Hf|exact Hf0|]. intros c t E. inversion E; subst. reflexivity. }
      eapply first_seq; [apply first_chr; reflexivity|]. eapply first_seq; [exact Hvo|exact Hvv].
    - intros u v E Hu Hv0. destruct v as [|c v]; [congruence|]. cbn [app]. apply fails_chr.
      rewrite E, forallb_app in Hn. cbn [forallb] in Hn. apply andb_prop in Hn. destruct Hn as [_ Hn].
      apply andb_prop in Hn. destruct Hn as [Hc _]. unfold oneof, in_chars. simpl. rewrite orb_false_r.
      destruct (N.eqb_spec c 91) as [->|]; [discriminate|reflexivity]. }
  apply first_match in F. eexists. split; [exact F|]. unfold group_str, group. cbn. auto.
Qed.

Lemma C11_lemma : forall e i name flag op value, parsed_item e i ->
  flag_assignment name flag op value (one_line i) -> it_pay i = PFlagAssignment name flag value op.
Proof.
  intros e i name flag op value Hi [Et [Hn [Hf0 [Hf [w1 Hop]]]]]. apply var_name_iff in Hn. destruct Hn as [Hn0 Hn].
  pose proof (one_line_dots i) as Hdots. rewrite Et in Hdots.
  assert (Hv : oneline value) by (intros c Hc; apply Hdots; rewrite !in_app_iff; auto 10).
  assert (Hfc : forallb flag_c flag = true) by (apply forallb_forall; intros c Hc; apply flag_char_imp; now apply Hf).
  apply parsed_classified in Hi. destruct Hi as [new Ho]. rewrite Et in Ho.
  apply reach_unset in Ho.
  - destruct (match_flagass name flag op value w1 Hn Hn0 Hfc Hf0 Hop Hv) as [mt [Em [G1 [G2 [G3 G4]]]]].
    change (skipn 12 order) with ((KFlagassign, re_flagass) :: skipn 13 order) in Ho.
    apply (outcome_hit KFlagassign _ _ _ _ _ _ mt Em) in Ho; [|intros [H|[H _]]; discriminate].
    cbn [made_of] in Ho. rewrite G1, G2, G3, G4 in Ho. now inversion Ho.
  - destruct name as [|c name]; [congruence|]. cbn [app]. apply no_hashed; [now apply (name_not_space (c :: name) Hn c name)|].
    intros ->. discriminate.
  - apply no_parens; [|reflexivity|discriminate]. intro Hin. rewrite forallb_forall in Hn. apply Hn in Hin. discriminate.
  - intro Hk. apply (keyed_name any_key name ("[" ++ flag ++ "]" ++ op ++ value) any_key_K) in Hk; auto.
    + destruct Hk as [_ [b [t [E Hb]]]]. inversion E; subst. discriminate.
    + intros c t E. inversion E; subst. reflexivity.
    + discriminate.
  - intros [w [pre [t3 [E [Hw Hp]]]]].
    assert (E' : name ++ 91%N :: flag ++ "]" ++ op ++ value = ("INHERIT" ++ w ++ pre) ++ 61%N :: t3).
    { rewrite <- !app_assoc. exact E. }
    destruct (app_cases _ _ _ _ _ _ _ E') as [[_ [X _]]|[[z [X _]]|[z [X _]]]].
    + discriminate.
    + assert (I : In 91%N ("INHERIT" ++ w ++ pre)) by (rewrite X; apply in_mid). rewrite !in_app_iff in I.
      rewrite forallb_forall in Hp. destruct I as [I|[I|I]].
      * cbn in I. intuition discriminate.
      * apply Hw in I. discriminate.
      * apply Hp in I. discriminate.
    + assert (I : In 61%N name) by (rewrite X; apply in_mid). rewrite forallb_forall in Hn. apply Hn in I. discriminate.
Qed.

(** ** Keyword statements *)

Definition fchar : N -> bool := por re_word (oneof ".-+{}:$").
(** What a function header looks like. *)
Definition func_head (s : str) : Prop :=
  startswith "python" s = true \/ startswith "fakeroot" s = true \/
  exists u w t, s = u ++ w ++ "(" ++ t /\ forallb fchar u = true /\ blank w.
Lemma eats_fopt : eats fchar (ROpt true (RGrp "func" (RPlus true (RChr fchar)))).
Proof.
  apply eats_alt; [|apply eats_eps]. apply eats_grp. apply eats_seq; [|apply eats_star]; apply eats_chr; auto.
Qed.
Lemma shape_func_head : forall s x, re_match re_func s = Some x -> func_head s.
Proof.
  intros s x H. apply some_match in H. destruct H as [s' H]. apply bol_seq in H. cbn [RCat] in H.
  rewrite mt_seq_iff in H. destruct H as [s1 [H1 H]].
  assert (X : s1 = MS true s [] \/ startswith "python" s = true \/ startswith "fakeroot" s = true).
  { inversion H1; subst; [now left|right].
    match goal with H : mt (RAlt _ _) _ _ |- _ => rename H into Ha end.
    rewrite mt_alt_iff in Ha. destruct Ha as [Ha|Ha].
    - left. rewrite mt_seq_iff in Ha. destruct Ha as [s3 [Ha _]]. rewrite mt_grp_iff in Ha. destruct Ha as [s4 [Ha _]].
      apply (lit_key "python") in Ha. destruct Ha as [k [E ->]]. cbn [m_rest] in E. rewrite E. apply startswith_app.
    - right. rewrite mt_grp_iff in Ha. destruct Ha as [s3 [Ha _]].
      change (mt (RSeq (RLit "fakeroot") sp_star) (MS true s []) s3) in Ha.
      rewrite mt_seq_iff in Ha. destruct Ha as [s4 [Ha _]].
      apply (lit_key "fakeroot") in Ha. destruct Ha as [k [E ->]]. cbn [m_rest] in E. rewrite E. apply startswith_app. }
  destruct X as [->|[X|X]]; [|left; exact X|right; left; exact X].
  right. right. rewrite mt_seq_iff in H. destruct H as [s2 [H2 H]]. rewrite mt_seq_iff in H. destruct H as [s3 [H3 H]].
  rewrite mt_seq_iff in H. destruct H as [s4 [H4 _]].
  apply eats_fopt in H2. apply eats_sp_star in H3. destruct H2 as [u [E2 F2]]. destruct H3 as [w [E3 F3]].
  unfold RC in H4. rewrite mt_chr_iff in H4. destruct H4 as [c [t [E4 [Hc _]]]]. cbn [m_rest] in E2.
  exists u, w, t. split; [|split; [exact F2|now apply blank_forallb]]. rewrite E2, E3, E4.
  unfold oneof, in_chars in Hc. simpl in Hc. rewrite orb_false_r in Hc. apply N.eqb_eq in Hc. now subst c.
Qed.

Lemma space_not_fchar : forall c, re_space c = true -> fchar c = false.
Proof. intros c. apply space_not. vm_compute. reflexivity. Qed.
Lemma K_not_space : forall c, K_c c = true -> re_space c = false.
Proof.
  intros c H. destruct (re_space c) eqn:E; [|reflexivity]. apply K_name in H. rewrite (space_not_name c E) in H. discriminate.
Qed.

(** The first letter decides against python and fakeroot. *)
Lemma no_func_head : forall w kw b arg, blank w -> kw <> [] -> forallb K_c kw = true -> blanks b ->
  not_indented arg -> (forall t, arg <> "(" ++ t) ->
  (w = [] -> startswith "python" (kw ++ b ++ arg) = false /\ startswith "fakeroot" (kw ++ b ++ arg) = false) ->
  ~ func_head (w ++ kw ++ b ++ arg).
Proof.
  intros w kw b arg Hw Hk0 Hk [Hb0 Hb] Ha Hp Hpf H.
  destruct w as [|x w].
  - destruct (Hpf eq_refl) as [P1 P2]. cbn [app] in H.
    destruct H as [H|[H|[u [v [t [E [Hu Hv]]]]]]]; [congruence|congruence|].
    destruct b as [|y b]; [congruence|]. assert (Hy : re_space y = true) by (apply Hb; now left).
    destruct v as [|z v].
    + cbn [app] in E. destruct (app_cases _ _ _ _ _ _ _ E) as [[_ [X _]]|[[z [X _]]|[z [X _]]]].
      * subst y. discriminate.
      * rewrite X, forallb_app in Hu. cbn [forallb] in Hu. rewrite (space_not_fchar y Hy), andb_false_r in Hu. discriminate.
      * rewrite X, forallb_app in Hk. cbn [forallb] in Hk. change (K_c 40) with false in Hk. rewrite andb_false_r in Hk. discriminate.
    + cbn [app] in E. assert (Hz : re_space z = true) by (apply Hv; now left).
      destruct (app_cases _ _ _ _ _ _ _ E) as [[_ [_ X]]|[[z2 [X _]]|[z2 [X _]]]].
      * destruct arg as [|a arg]; [rewrite app_nil_r in X; assert (I : In 40%N b) by (rewrite X; apply in_mid); assert (re_space 40 = true) by (apply Hb; now right); discriminate|].
        destruct (app_cases _ _ _ _ _ _ _ X) as [[_ [X2 X3]]|[[z2 [X2 _]]|[z2 [X2 _]]]].
        -- apply (Hp arg). now rewrite X2.
        -- assert (re_space a = true) by (apply Hv; right; rewrite X2; apply in_mid). rewrite (Ha a arg eq_refl) in *. discriminate.
        -- assert (re_space 40 = true) by (apply Hb; right; rewrite X2; apply in_mid). discriminate.
      * rewrite X, forallb_app in Hu. cbn [forallb] in Hu. rewrite (space_not_fchar y Hy), andb_false_r in Hu. discriminate.
      * rewrite X, forallb_app in Hk. cbn [forallb] in Hk.
        destruct (K_c z) eqn:Ez; [apply K_not_space in Ez; congruence|]. rewrite andb_false_r in Hk. discriminate.
  - assert (Hx : re_space x = true) by (apply Hw; now left). cbn [app] in H.
    destruct H as [H|[H|[u [v [t [E [Hu Hv]]]]]]].
    + apply startswith_spec in H. destruct H as [r H]. inversion H; subst. discriminate.
    + apply startswith_spec in H. destruct H as [r H]. inversion H; subst. discriminate.
    + destruct u as [|y u].
      * cbn [app] in E. destruct kw as [|k kw]; [congruence|]. cbn [forallb] in Hk. apply andb_prop in Hk. destruct Hk as [Hkk _].
        change (x :: w ++ (k :: kw) ++ b ++ arg) with ((x :: w) ++ k :: kw ++ b ++ arg) in E.
        destruct (app_cases _ _ _ _ _ _ _ E) as [[_ [X _]]|[[z [X _]]|[z [X _]]]].
        -- subst k. discriminate.
        -- apply K_not_space in Hkk. rewrite (Hv k) in Hkk; [discriminate|]. rewrite X. apply in_mid.
        -- assert (Y : re_space 40 = true) by (apply Hw; rewrite X; apply in_mid). discriminate.
      * cbn [app] in E. inversion E; subst. cbn [forallb] in Hu. rewrite (space_not_fchar y Hx) in Hu. discriminate.
Qed.

(** The keyword of a text is unique. *)
Lemma keyed_unique : forall (K : str -> Prop) w kw b t, (forall k, K k -> forallb K_c k = true /\ k <> []) ->
  blank w -> kw <> [] -> forallb K_c kw = true -> re_space b = true ->
  keyed K (w ++ kw ++ b :: t) -> K kw.
Proof.
  intros K w kw b t HK Hw Hk0 Hk Hb [w2 [k2 [b2 [t2 [E [Hw2 [Hk2 Hb2]]]]]]].
  destruct (HK k2 Hk2) as [Hkc Hkn]. destruct kw as [|x kw]; [congruence|]. destruct k2 as [|y k2]; [congruence|].
  pose proof Hk as Hk'. pose proof Hkc as Hkc'. cbn [forallb] in Hk', Hkc'.
  apply andb_prop in Hk'. apply andb_prop in Hkc'. destruct Hk' as [Hx _]. destruct Hkc' as [Hy _].
  cbn [app] in E.
  assert (W : w = w2).
  { destruct (app_cases _ _ _ _ _ _ _ E) as [[-> _]|[[z [-> _]]|[z [-> _]]]]; [reflexivity| |].
    - apply K_not_space in Hx. rewrite (Hw2 x) in Hx; [discriminate|apply in_mid].
    - apply K_not_space in Hy. rewrite (Hw y) in Hy; [discriminate|apply in_mid]. }
  subst w2. apply app_inv_head in E.
  change ((x :: kw) ++ b :: t = (y :: k2) ++ b2 :: t2) in E.
  destruct (app_cases _ _ _ _ _ _ _ E) as [[-> _]|[[z [X _]]|[z [X _]]]]; [exact Hk2| |].
  - rewrite X, forallb_app in Hkc. cbn [forallb] in Hkc. destruct (K_c b) eqn:Eb; [apply K_not_space in Eb; congruence|].
    rewrite andb_false_r in Hkc. discriminate.
  - rewrite X, forallb_app in Hk. cbn [forallb] in Hk. destruct (K_c b2) eqn:Eb; [apply K_not_space in Eb; congruence|].
    rewrite andb_false_r in Hk. discriminate.
Qed.

Definition kind_key (k : kind) (kw : str) : Prop :=
  match k with
  | KComment | KFunc | KInheritGlob | KFlagassign => False
  | KInherit => is_inherit kw
  | KExport | KExportNoval => "export" = kw
  | KPython => "def" = kw
  | KInclude => is_include kw
  | KIncludeAll => "include_all" = kw
  | KAddtask => "addtask" = kw
  | KDeltask => "deltask" = kw
  | KUnset => "unset" = kw
  | KExportfunc => "EXPORT_FUNCTIONS" = kw
  | KAddpylib => "addpylib" = kw
  | KAddfragments => "addfragments" = kw
  | KVars => True
  end.

Lemma kind_key_K : forall k, k <> KVars -> forall kw, kind_key k kw -> forallb K_c kw = true /\ kw <> [].
Proof.
  intros k Hk kw H.
  assert (G : In kw (tl statement_words) \/ is_inherit kw -> forallb K_c kw = true /\ kw <> []) by (intro X; now apply any_key_K).
  apply G. destruct k; cbn [kind_key] in H; try contradiction; try congruence; try (right; exact H);
    left; unfold is_include in H; cbn [statement_words tl In]; intuition.
Qed.

Lemma kind_shape : forall k r s x, In (k, r) order -> k <> KVars -> k <> KComment -> k <> KFunc -> k <> KInheritGlob ->
  k <> KFlagassign -> re_match r s = Some x -> keyed (kind_key k) s.
Proof.
  intros k r s x Hin H1 H2 H3 H4 H5 Hm. unfold order in Hin. cbn [In] in Hin.
  repeat (destruct Hin as [Hin|Hin]; [inversion Hin; subst; clear Hin; try congruence|]).
  - exact (shape_inherit _ _ Hm).
  - exact (shape_export_wval _ _ Hm).
  - exact (shape_export_woval _ _ Hm).
  - exact (shape_python _ _ Hm).
  - exact (shape_include _ _ Hm).
  - exact (shape_includeall _ _ Hm).
  - exact (shape_addtask _ _ Hm).
  - exact (shape_deltask _ _ Hm).
  - exact (shape_unset _ _ Hm).
  - exact (shape_export_func _ _ Hm).
  - exact (shape_addpylib _ _ Hm).
  - exact (shape_addfragments _ _ Hm).
  - destruct Hin.
Qed.

Section Statement.
Context (w kw b arg : str).
Context (Hw : blank w) (Hk0 : kw <> []) (Hk : forallb K_c kw = true) (Hb : blanks b)
        (Ha : not_indented arg) (Hp : forall t, arg <> "(" ++ t)
        (Hpy : startswith "python" (kw ++ b ++ arg) = false) (Hfr : startswith "fakeroot" (kw ++ b ++ arg) = false)
        (Hih : kw <> "INHERIT").
Let text : str := w ++ kw ++ b ++ arg.

Lemma stmt_key : forall k r mt, In (k, r) order -> ~ kind_key k kw -> k <> KVars -> k <> KComment -> k <> KFunc ->
  k <> KInheritGlob -> k <> KFlagassign -> re_match r text = Some mt -> False.
Proof.
  intros k r mt Hin Hkk H1 H2 H3 H4 H5 Em. apply Hkk. apply (kind_shape _ _ _ _ Hin) in Em; auto.
  destruct b as [|y b'] eqn:Eb; [destruct Hb; congruence|]. assert (Hy : re_space y = true) by (apply Hb; now left).
  apply (keyed_unique (kind_key k) w kw y (b' ++ arg)); auto. now apply kind_key_K.
Qed.

Lemma stmt_none : forall k r, In (k, r) order -> ~ kind_key k kw -> re_match r text = None.
Proof.
  intros k r Hin Hkk.
  destruct (re_match r text) as [mt|] eqn:Em; [exfalso|reflexivity].
  destruct k eqn:Ekind;
    try (rewrite <- Ekind in Hkk, Hin; exact (stmt_key k r mt Hin Hkk
           ltac:(rewrite Ekind; discriminate) ltac:(rewrite Ekind; discriminate) ltac:(rewrite Ekind; discriminate)
           ltac:(rewrite Ekind; discriminate) ltac:(rewrite Ekind; discriminate) Em)).
  all: destruct b as [|y b'] eqn:Eb; [destruct Hb; congruence|]; assert (Hy : re_space y = true) by (apply Hb; now left);
    destruct kw as [|x kw'] eqn:Ek; [congruence|];
    assert (Hx : K_c x = true) by (cbn [forallb] in Hk; now apply andb_prop in Hk);
    unfold order in Hin; cbn [In] in Hin;
    repeat (destruct Hin as [Hin|Hin]; [inversion Hin; subst; clear Hin|]); try (now destruct Hin).
  - apply shape_comments in Em. destruct Em as [w2 [t2 [E Hw2]]]. unfold text in E. cbn [app] in E.
    destruct (app_cases _ _ _ _ _ _ _ E) as [[_ [X _]]|[[z [X _]]|[z [X _]]]].
    + subst x. discriminate.
    + apply K_not_space in Hx. rewrite (Hw2 x) in Hx; [discriminate|rewrite X; apply in_mid].
    + assert (Y : re_space 35 = true) by (apply Hw; rewrite X; apply in_mid). discriminate.
  - apply shape_func_head in Em. revert Em. unfold text. apply no_func_head; auto.
  - apply shape_inherit_glob in Em. destruct Em as [w2 [pre [t3 [E [Hw2 Hpre]]]]]. unfold text in E.
    destruct w as [|z w']; [|cbn in E; inversion E; subst; assert (Y : re_space 73 = true) by (apply Hw; now left); discriminate].
    assert (Hx2 : exists y2 s2, w2 ++ pre ++ "=" ++ t3 = y2 :: s2 /\ K_c y2 = false).
    { destruct w2 as [|c w2].
      - destruct pre as [|c pre]; [exists 61%N, t3; auto|]. exists c, (pre ++ "=" ++ t3). split; [reflexivity|].
        cbn [forallb] in Hpre. apply andb_prop in Hpre. destruct Hpre as [Hpre _]. apply ops_cases in Hpre. cbn [In] in Hpre.
        destruct Hpre as [<-|[<-|[<-|[<-|[]]]]]; reflexivity.
      - exists c, (w2 ++ pre ++ "=" ++ t3). split; [reflexivity|]. destruct (K_c c) eqn:Ec; [|reflexivity].
        apply K_not_space in Ec. rewrite (Hw2 c) in Ec; [discriminate|now left]. }
    destruct Hx2 as [y2 [s2 [Es2 Hy2]]]. rewrite Es2 in E. change ([] ++ (x :: kw') ++ (y :: b') ++ arg) with ((x :: kw') ++ y :: b' ++ arg) in E.
    destruct (app_cases _ _ _ _ _ _ _ E) as [[X _]|[[z [X _]]|[z [X _]]]].
    + apply Hih. exact X.
    + assert (Y : forallb K_c "INHERIT" = true) by reflexivity. rewrite X, forallb_app in Y. cbn [forallb] in Y.
      destruct (K_c y) eqn:Ey; [apply K_not_space in Ey; congruence|]. rewrite andb_false_r in Y. discriminate.
    + rewrite X, forallb_app in Hk. cbn [forallb] in Hk. rewrite Hy2, andb_false_r in Hk. discriminate.
  - apply shape_flagass in Em. revert Em. unfold text. cbn [app]. change (x :: kw' ++ y :: b' ++ arg) with ((x :: kw') ++ y :: b' ++ arg).
    apply no_bracketed; auto.
    + apply forallb_forall. intros c Hc. rewrite forallb_forall in Hk. apply K_name. now apply Hk.
    + now apply space_not_name.
    + intros ->. discriminate.
  - exfalso. apply Hkk. exact I.
Qed.

Lemma stmt_reach : forall l0 l1 raw new o, order = l0 ++ l1 -> (forall k r, In (k, r) l0 -> ~ kind_key k kw) ->
  outcome order text raw new o -> outcome l1 text raw new o.
Proof.
  intros l0 l1 raw new o E H Ho. rewrite E in Ho.
  assert (Hin : forall k r, In (k, r) l0 -> In (k, r) order) by (intros k r X; rewrite E; apply in_app_iff; now left).
  clear E. induction l0 as [|[k r] l0 IH]; [exact Ho|]. apply IH.
  - intros k0 r0 H0. apply (H k0 r0). now right.
  - cbn [app] in Ho. apply outcome_skip in Ho; [exact Ho|]. apply (stmt_none k r); [apply Hin; now left|apply (H k r); now left].
  - intros k0 r0 H0. apply Hin. now right.
Qed.

End Statement.
