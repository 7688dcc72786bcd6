(** * The helpers of inline code: results *)

From Verif Require Import PyStr Regex UniTable Patterns Inline Item Lines Stash
  StrFacts ReFacts LinesFacts Spec_Parse MatchFacts ShapeFacts Proofs_Parse StmtFacts Spec_Inline InlineFacts.

Lemma arguments_plain : forall l s, arguments l s -> Forall plain_arg l.
Proof. induction 1; constructor; auto. Qed.
Lemma arguments_paren : forall l s, arguments l s -> ~ In 40%N s.
Proof.
  induction 1 as [a Ha|a w l s Ha Hw Hn H IH].
  - apply Ha. cbn. auto.
  - intro X. rewrite !in_app_iff in X. destruct X as [X|[X|[X|X]]].
    + revert X. apply Ha. cbn. auto.
    + destruct X as [X|[]]. discriminate.
    + apply Hw in X. discriminate.
    + contradiction.
Qed.
Lemma args_end : forall l s, arguments l s -> ~ In 40%N (s ++ ")").
Proof.
  intros l s H X. apply in_app_iff in X. destruct X as [X|[X|[]]]; [now apply arguments_paren in H|discriminate].
Qed.

Lemma last_arg : forall a s, arguments [a] s -> s = a /\ plain_arg a.
Proof. intros a s H. inversion H as [? P|? ? ? ? ? ? ? X]; subst; [auto|inversion X]. Qed.

Definition spaces (w : str) : Prop := forall c, In c w -> c = cSP.
Lemma spaces_nl : forall w, spaces w -> ~ In cNL w.
Proof. intros w H X. apply H in X. discriminate. Qed.
Lemma spaces_paren : forall w, spaces w -> ~ In 40%N w.
Proof. intros w H X. apply H in X. discriminate. Qed.

(** ** The first way to match *)
  Lemma inner_blank : forall c u a, In c ("()," : str) -> blank u -> ~ In cNL u -> plain_arg a -> inner_arg c (u ++ a).
  Proof.
    intros c u a Hc Hu Hn Ha. apply inner_app; [|now apply plain_inner].
    intros x Hx. split; [|intro E; subst x; contradiction]. intro E. subst x. apply Hu in Hx.
    destruct Hc as [<-|[<-|[<-|[]]]]; discriminate.
  Qed.

Ltac chars := cbn; tauto.
(** One argument with a comma and blanks behind it. *)
Ltac arg_c H := apply (lazy_to 44%N); [apply plain_inner; [exact H|chars]|apply opens_comma|].
Ltac grp_c H := apply (lazy_grp_to _ 44%N); [apply plain_inner; [exact H|chars]|apply opens_comma|].
Ltac sep Hb H := apply first_comma_sp; [exact Hb|first [now apply plain_then | now apply ends_paren]|].

Ltac norm := repeat rewrite <- app_assoc; cbn [app].

Lemma first_contains : forall n r w var item a f d s,
  r = lit_call n (RCat [dot_star_lazy; comma_sp; dot_star_lazy; comma_sp; arg_grp "trueval"; comma_sp;
                        arg_grp "falseval"; comma_sp; RDot; RC ")"]) -> ~ In 40%N n ->
  spaces w -> arguments [var; item; a; f; [d]] s ->
  first r (MS true (w ++ n ++ 40%N :: s ++ ")") [])
    (MS false [] [("falseval" : str, f); ("trueval" : str, a)]).
Proof.
  intros n r w var item a f d s -> Hn Hw Ha. apply first_call; [exact Hn|exact (args_end _ _ Ha)|now apply spaces_nl|].
  inversion Ha as [|? w1 ? s1 P1 B1 N1 A1]; subst. inversion A1 as [|? w2 ? s2 P2 B2 N2 A2]; subst.
  inversion A2 as [|? w3 ? s3 P3 B3 N3 A3]; subst. inversion A3 as [|? w4 ? s4 P4 B4 N4 A4]; subst.
  destruct (last_arg _ _ A4) as [-> P5]. norm. cbn [RCat].
  arg_c P1. sep B1 P2. arg_c P2. sep B2 P3. grp_c P3. sep B3 P4. grp_c P4.
  apply first_comma_sp; [exact B4|apply (plain_then [d] 41%N []); [exact P5|reflexivity]|].
  eapply first_seq; [apply first_chr|now apply first_chr]. unfold dotp.
  destruct (N.eqb_spec d cNL) as [->|]; [|reflexivity]. exfalso. apply (proj2 P5 cNL); [|now left]. chars.
Qed.

Lemma first_conditional : forall n r w var item a f d s,
  r = lit_call n (RCat [dot_star_lazy; comma_sp; dot_star_lazy; comma_sp; arg_grp "trueval"; comma_sp;
                        arg_grp "falseval"; comma_sp; dot_star_lazy; RC ")"]) -> ~ In 40%N n ->
  spaces w -> arguments [var; item; a; f; d] s ->
  first r (MS true (w ++ n ++ 40%N :: s ++ ")") [])
    (MS false [] [("falseval" : str, f); ("trueval" : str, a)]).
Proof.
  intros n r w var item a f d s -> Hn Hw Ha. apply first_call; [exact Hn|exact (args_end _ _ Ha)|now apply spaces_nl|].
  inversion Ha as [|? w1 ? s1 P1 B1 N1 A1]; subst. inversion A1 as [|? w2 ? s2 P2 B2 N2 A2]; subst.
  inversion A2 as [|? w3 ? s3 P3 B3 N3 A3]; subst. inversion A3 as [|? w4 ? s4 P4 B4 N4 A4]; subst.
  destruct (last_arg _ _ A4) as [-> P5]. norm. cbn [RCat].
  arg_c P1. sep B1 P2. arg_c P2. sep B2 P3. grp_c P3. sep B3 P4. grp_c P4.
  apply first_comma_sp; [exact B4|now apply ends_paren|].
  apply (lazy_to 41%N); [apply plain_inner; [exact P5|chars]|apply (opens_rc 41%N)|now apply first_chr].
Qed.

Lemma first_loe : forall n r w var item a f d s,
  r = lit_call n (RCat [dot_star_lazy; comma_sp; dot_star_lazy; comma_sp; arg_grp "trueval"; comma_sp;
                        arg_grp "falseval"; RC ","; dot_star_lazy; RC ")"]) -> ~ In 40%N n ->
  spaces w -> arguments [var; item; a; f; d] s ->
  first r (MS true (w ++ n ++ 40%N :: s ++ ")") [])
    (MS false [] [("falseval" : str, f); ("trueval" : str, a)]).
Proof.
  intros n r w var item a f d s -> Hn Hw Ha. apply first_call; [exact Hn|exact (args_end _ _ Ha)|now apply spaces_nl|].
  inversion Ha as [|? w1 ? s1 P1 B1 N1 A1]; subst. inversion A1 as [|? w2 ? s2 P2 B2 N2 A2]; subst.
  inversion A2 as [|? w3 ? s3 P3 B3 N3 A3]; subst. inversion A3 as [|? w4 ? s4 P4 B4 N4 A4]; subst.
  destruct (last_arg _ _ A4) as [-> P5]. norm. cbn [RCat].
  arg_c P1. sep B1 P2. arg_c P2. sep B2 P3. grp_c P3. sep B3 P4.
  apply (lazy_grp_to _ 44%N); [apply plain_inner; [exact P4|chars]|apply opens_seq, (opens_rc 44%N)|].
  apply first_comma. rewrite app_assoc.
  apply (lazy_to 41%N); [apply inner_blank; [chars|assumption..]|apply (opens_rc 41%N)|now apply first_chr].
Qed.

Lemma first_vartrue : forall n r w var a f d s,
  r = lit_call n (RCat [dot_star_lazy; comma_sp; arg_grp "trueval"; comma_sp;
                        arg_grp "falseval"; RC ","; dot_star_lazy; RC ")"]) -> ~ In 40%N n ->
  spaces w -> arguments [var; a; f; d] s ->
  first r (MS true (w ++ n ++ 40%N :: s ++ ")") [])
    (MS false [] [("falseval" : str, f); ("trueval" : str, a)]).
Proof.
  intros n r w var a f d s -> Hn Hw Ha. apply first_call; [exact Hn|exact (args_end _ _ Ha)|now apply spaces_nl|].
  inversion Ha as [|? w2 ? s2 P2 B2 N2 A2]; subst.
  inversion A2 as [|? w3 ? s3 P3 B3 N3 A3]; subst. inversion A3 as [|? w4 ? s4 P4 B4 N4 A4]; subst.
  destruct (last_arg _ _ A4) as [-> P5]. norm. cbn [RCat].
  arg_c P2. sep B2 P3. grp_c P3. sep B3 P4.
  apply (lazy_grp_to _ 44%N); [apply plain_inner; [exact P4|chars]|apply opens_seq, (opens_rc 44%N)|].
  apply first_comma. rewrite app_assoc.
  apply (lazy_to 41%N); [apply inner_blank; [chars|assumption..]|apply (opens_rc 41%N)|now apply first_chr].
Qed.

Lemma first_both : forall n r w v1 v2 a d s,
  r = lit_call n (RCat [dot_star_lazy; comma_sp; dot_star_lazy; comma_sp;
                        arg_grp "trueval"; RC ","; dot_star_lazy; RC ")"]) -> ~ In 40%N n ->
  spaces w -> arguments [v1; v2; a; d] s ->
  first r (MS true (w ++ n ++ 40%N :: s ++ ")") []) (MS false [] [("trueval" : str, a)]).
Proof.
  intros n r w v1 v2 a d s -> Hn Hw Ha. apply first_call; [exact Hn|exact (args_end _ _ Ha)|now apply spaces_nl|].
  inversion Ha as [|? w2 ? s2 P2 B2 N2 A2]; subst.
  inversion A2 as [|? w3 ? s3 P3 B3 N3 A3]; subst. inversion A3 as [|? w4 ? s4 P4 B4 N4 A4]; subst.
  destruct (last_arg _ _ A4) as [-> P5]. norm. cbn [RCat].
  arg_c P2. sep B2 P3. arg_c P3. sep B3 P4.
  apply (lazy_grp_to _ 44%N); [apply plain_inner; [exact P4|chars]|apply opens_seq, (opens_rc 44%N)|].
  apply first_comma. rewrite app_assoc.
  apply (lazy_to 41%N); [apply inner_blank; [chars|assumption..]|apply (opens_rc 41%N)|now apply first_chr].
Qed.

Lemma first_filter : forall n r w a x d s,
  r = lit_call n (RCat [sp_star; arg_grp "trueval"; RC ",";
                        dot_star_lazy; RC ","; dot_star_lazy; RC ")"]) -> ~ In 40%N n ->
  spaces w -> arguments [a; x; d] s ->
  first r (MS true (w ++ n ++ 40%N :: s ++ ")") []) (MS false [] [("trueval" : str, a)]).
Proof.
  intros n r w a x d s -> Hn Hw Ha. apply first_call; [exact Hn|exact (args_end _ _ Ha)|now apply spaces_nl|].
  inversion Ha as [|? w3 ? s3 P3 B3 N3 A3]; subst. inversion A3 as [|? w4 ? s4 P4 B4 N4 A4]; subst.
  destruct (last_arg _ _ A4) as [-> P5]. norm. cbn [RCat].
  eapply first_seq; [apply (first_sp_star []); [intros ? []|now apply plain_then]|].
  apply (lazy_grp_to _ 44%N); [apply plain_inner; [exact P3|chars]|apply opens_seq, (opens_rc 44%N)|].
  apply first_comma. rewrite app_assoc.
  apply (lazy_to 44%N); [apply inner_blank; [chars|assumption..]|apply opens_seq, (opens_rc 44%N)|].
  apply first_comma. rewrite app_assoc.
  apply (lazy_to 41%N); [apply inner_blank; [chars|assumption..]|apply (opens_rc 41%N)|now apply first_chr].
Qed.

Lemma first_ifelse : forall n r w c a f s,
  r = lit_call n (RCat [dot_star_lazy; comma_sp; arg_grp "trueval"; comma_sp; arg_grp "falseval"; RC ")"]) -> ~ In 40%N n ->
  spaces w -> arguments [c; a; f] s ->
  first r (MS true (w ++ n ++ 40%N :: s ++ ")") []) (MS false [] [("falseval" : str, f); ("trueval" : str, a)]).
Proof.
  intros n r w c a f s -> Hn Hw Ha. apply first_call; [exact Hn|exact (args_end _ _ Ha)|now apply spaces_nl|].
  inversion Ha as [|? w3 ? s3 P3 B3 N3 A3]; subst. inversion A3 as [|? w4 ? s4 P4 B4 N4 A4]; subst.
  destruct (last_arg _ _ A4) as [-> P5]. norm. cbn [RCat].
  arg_c P3. sep B3 P4. grp_c P4. apply first_comma_sp; [exact B4|now apply ends_paren|].
  apply (lazy_grp_to _ 41%N); [apply plain_inner; [exact P5|chars]|apply (opens_rc 41%N)|now apply first_chr].
Qed.

Definition distro_rest : re := RCat [dot_star_lazy; comma_sp; arg_grp "feature"; RStar true d_true; RC ")"].
Lemma first_distro2 : forall n r w d x s, r = lit_call n distro_rest -> ~ In 40%N n -> spaces w -> arguments [d; x] s ->
  first r (MS true (w ++ n ++ 40%N :: s ++ ")") []) (MS false [] [("feature" : str, x)]).
Proof.
  intros n r w d x s -> Hn Hw Ha. apply first_call; [exact Hn|exact (args_end _ _ Ha)|now apply spaces_nl|].
  inversion Ha as [|? w4 ? s4 P4 B4 N4 A4]; subst.
  destruct (last_arg _ _ A4) as [-> P5]. norm. unfold distro_rest. cbn [RCat].
  arg_c P4. apply first_comma_sp; [exact B4|now apply ends_paren|].
  apply (feature_first x 41%N []); [exact P5|chars|apply d_end0].
Qed.
Lemma first_distro3 : forall n r w d x a s, r = lit_call n distro_rest -> ~ In 40%N n -> spaces w -> arguments [d; x; a] s ->
  first r (MS true (w ++ n ++ 40%N :: s ++ ")") []) (MS false [] [("trueval" : str, a); ("feature" : str, x)]).
Proof.
  intros n r w d x a s -> Hn Hw Ha. apply first_call; [exact Hn|exact (args_end _ _ Ha)|now apply spaces_nl|].
  inversion Ha as [|? w3 ? s3 P3 B3 N3 A3]; subst. inversion A3 as [|? w4 ? s4 P4 B4 N4 A4]; subst.
  destruct (last_arg _ _ A4) as [-> P5]. norm. unfold distro_rest. cbn [RCat].
  arg_c P3. apply first_comma_sp; [exact B3|now apply plain_then|].
  apply (feature_first x 44%N); [exact P4|chars|]. now apply d_end1.
Qed.
Lemma first_distro4 : forall n r w d x a f s, r = lit_call n distro_rest -> ~ In 40%N n -> spaces w -> arguments [d; x; a; f] s ->
  first r (MS true (w ++ n ++ 40%N :: s ++ ")") [])
    (MS false [] [("falseval" : str, f); ("trueval" : str, a); ("feature" : str, x)]).
Proof.
  intros n r w d x a f s -> Hn Hw Ha. apply first_call; [exact Hn|exact (args_end _ _ Ha)|now apply spaces_nl|].
  inversion Ha as [|? w2 ? s2 P2 B2 N2 A2]; subst.
  inversion A2 as [|? w3 ? s3 P3 B3 N3 A3]; subst. inversion A3 as [|? w4 ? s4 P4 B4 N4 A4]; subst.
  destruct (last_arg _ _ A4) as [-> P5]. norm. unfold distro_rest. cbn [RCat].
  arg_c P2. apply first_comma_sp; [exact B2|now apply plain_then|].
  apply (feature_first x 44%N); [exact P3|chars|]. now apply d_end2.
Qed.

(** ** One evaluator *)
Lemma needle_call : forall n w t, contains n (w ++ n ++ 40%N :: t) = true.
Proof. intros n w t. apply contains_spec. exists w, (40%N :: t). reflexivity. Qed.

Lemma two_eval : forall n r neg w t f a g tv fv, first r (MS true (w ++ n ++ 40%N :: t) []) (MS false [] g) ->
  lookup_group "falseval" g = Some f -> lookup_group "trueval" g = Some a -> quoted tv a -> quoted fv f ->
  eval_two n r neg (w ++ n ++ 40%N :: t) = Some (if neg then fv else tv).
Proof.
  intros n r neg w t f a g tv fv F Hf Ht Qt Qf. unfold eval_two. rewrite needle_call.
  rewrite (first_match _ _ _ F). unfold group_str, group. cbn [g_all m_grp].
  destruct neg; [rewrite Hf|rewrite Ht]; f_equal; now apply strip_quoted.
Qed.
Lemma one_eval : forall n r neg w t a g tv, first r (MS true (w ++ n ++ 40%N :: t) []) (MS false [] g) ->
  lookup_group "trueval" g = Some a -> quoted tv a ->
  eval_one n r neg (w ++ n ++ 40%N :: t) = Some (if neg then [] else tv).
Proof.
  intros n r neg w t a g tv F Ht Qt. unfold eval_one. rewrite needle_call.
  rewrite (first_match _ _ _ F). unfold group_str, group. cbn [g_all m_grp].
  destruct neg; [reflexivity|rewrite Ht]; f_equal; now apply strip_quoted.
Qed.
Lemma distro_eval : forall n r neg w t g, first r (MS true (w ++ n ++ 40%N :: t) []) (MS false [] g) ->
  eval_distro n r neg (w ++ n ++ 40%N :: t) =
    Some (strip_quotes (if neg then match lookup_group "falseval" g with Some v => v | None => [] end
                        else match lookup_group "trueval" g with Some (c :: v) => c :: v | _ => "1" end)).
Proof.
  intros n r neg w t g F. unfold eval_distro. rewrite needle_call.
  rewrite (first_match _ _ _ F). unfold group_str, group. cbn [g_all m_grp].
  destruct (lookup_group "trueval" g) as [[|c v]|]; reflexivity.
Qed.

Lemma two_none : forall n n' r neg s, r = lit_call n' (match r with RSeq _ (RSeq _ q) => q | _ => REps end) ->
  ~ occurs (n' ++ "(") s -> eval_two n r neg s = None.
Proof. intros n n' r neg s E H. unfold eval_two. rewrite E, call_occurs by exact H. now destruct contains. Qed.
Lemma one_none : forall n n' r neg s, r = lit_call n' (match r with RSeq _ (RSeq _ q) => q | _ => REps end) ->
  ~ occurs (n' ++ "(") s -> eval_one n r neg s = None.
Proof. intros n n' r neg s E H. unfold eval_one. rewrite E, call_occurs by exact H. now destruct contains. Qed.
Lemma distro_none : forall n n' r neg s, r = lit_call n' (match r with RSeq _ (RSeq _ q) => q | _ => REps end) ->
  ~ occurs (n' ++ "(") s -> eval_distro n r neg s = None.
Proof. intros n n' r neg s E H. unfold eval_distro. rewrite E, call_occurs by exact H. now destruct contains. Qed.

(** ** The evaluators in turn *)
Lemma bb_utils_contains_no : forall neg s, ~ occurs ("bb.utils.contains" ++ "(") s -> bb_utils_contains neg s = None.
Proof. intros neg s H. apply (two_none _ "bb.utils.contains"); [reflexivity|exact H]. Qed.
Lemma bb_utils_contains_any_no : forall neg s, ~ occurs ("bb.utils.contains_any" ++ "(") s -> bb_utils_contains_any neg s = None.
Proof. intros neg s H. apply (two_none _ "bb.utils.contains_any"); [reflexivity|exact H]. Qed.
Lemma bb_utils_filter_no : forall neg s, ~ occurs ("bb.utils.filter" ++ "(") s -> bb_utils_filter neg s = None.
Proof. intros neg s H. apply (one_none _ "bb.utils.filter"); [reflexivity|exact H]. Qed.
Lemma oe_utils_all_distro_features_no : forall neg s, ~ occurs ("oe.utils.all_distro_features" ++ "(") s -> oe_utils_all_distro_features neg s = None.
Proof. intros neg s H. apply (distro_none _ "oe.utils.all_distro_features"); [reflexivity|exact H]. Qed.
Lemma oe_utils_any_distro_features_no : forall neg s, ~ occurs ("oe.utils.any_distro_features" ++ "(") s -> oe_utils_any_distro_features neg s = None.
Proof. intros neg s H. apply (distro_none _ "oe.utils.any_distro_features"); [reflexivity|exact H]. Qed.
Lemma oe_utils_both_contain_no : forall neg s, ~ occurs ("oe.utils.both_contain" ++ "(") s -> oe_utils_both_contain neg s = None.
Proof. intros neg s H. apply (one_none _ "oe.utils.both_contain"); [reflexivity|exact H]. Qed.
Lemma oe_utils_conditional_no : forall neg s, ~ occurs ("oe.utils.conditional" ++ "(") s -> oe_utils_conditional neg s = None.
Proof. intros neg s H. apply (two_none _ "oe.utils.conditional"); [reflexivity|exact H]. Qed.
Lemma oe_utils_ifelse_no : forall neg s, ~ occurs ("oe.utils.ifelse" ++ "(") s -> oe_utils_ifelse neg s = None.
Proof. intros neg s H. apply (two_none _ "oe.utils.ifelse"); [reflexivity|exact H]. Qed.
Lemma oe_utils_less_or_equal_no : forall neg s, ~ occurs ("oe.utils.less_or_equal" ++ "(") s -> oe_utils_less_or_equal neg s = None.
Proof. intros neg s H. apply (two_none _ "oe.utils.less_or_equal"); [reflexivity|exact H]. Qed.
Lemma oe_utils_vartrue_no : forall neg s, ~ occurs ("oe.utils.vartrue" ++ "(") s -> oe_utils_vartrue neg s = None.
Proof. intros neg s H. apply (two_none _ "oe.utils.vartrue"); [reflexivity|exact H]. Qed.
Lemma oe_utils_version_less_or_equal_no : forall neg s, ~ occurs ("oe.utils.version_less_or_equal" ++ "(") s -> oe_utils_version_less_or_equal neg s = None.
Proof. intros neg s H. apply (two_none _ "oe.utils.version_less_or_equal"); [reflexivity|exact H]. Qed.

Lemma eval_skip : forall f l s v, f s = None -> first_eval l s = v -> first_eval (f :: l) s = v.
Proof. intros f l s v H H2. cbn [first_eval]. now rewrite H. Qed.
Lemma eval_hit : forall f l s v, f s = Some v -> first_eval (f :: l) s = Some v.
Proof. intros f l s v H. cbn [first_eval]. now rewrite H. Qed.

Ltac one_no := match goal with
  | |- bb_utils_contains _ _ = None => apply bb_utils_contains_no
  | |- bb_utils_contains_any _ _ = None => apply bb_utils_contains_any_no
  | |- bb_utils_filter _ _ = None => apply bb_utils_filter_no
  | |- oe_utils_all_distro_features _ _ = None => apply oe_utils_all_distro_features_no
  | |- oe_utils_any_distro_features _ _ = None => apply oe_utils_any_distro_features_no
  | |- oe_utils_both_contain _ _ = None => apply oe_utils_both_contain_no
  | |- oe_utils_conditional _ _ = None => apply oe_utils_conditional_no
  | |- oe_utils_ifelse _ _ = None => apply oe_utils_ifelse_no
  | |- oe_utils_less_or_equal _ _ = None => apply oe_utils_less_or_equal_no
  | |- oe_utils_vartrue _ _ = None => apply oe_utils_vartrue_no
  | |- oe_utils_version_less_or_equal _ _ = None => apply oe_utils_version_less_or_equal_no
  end.
Ltac skips Hw Ht := repeat (apply eval_skip;
  [one_no; apply not_called; [exact Hw|cbn; intuition discriminate|cbn; intuition discriminate|exact Ht|reflexivity]|]).

Ltac hit := unfold bb_utils_contains, bb_utils_contains_any, bb_utils_filter, oe_utils_all_distro_features, oe_utils_any_distro_features, oe_utils_both_contain, oe_utils_conditional, oe_utils_ifelse, oe_utils_less_or_equal, oe_utils_vartrue, oe_utils_version_less_or_equal.

Lemma helper_eval : forall neg name args v, helper neg name args v -> forall w s, spaces w -> arguments args s ->
  first_eval (inline_evals neg) (w ++ name ++ 40%N :: s ++ ")") = Some v.
Proof.
  intros neg name args v H w s Hw Ha. pose proof (args_end _ _ Ha) as Ht. unfold inline_evals.
  destruct H as [var item at_ af t f d Qt Qf|var item at_ af t f d Qt Qf|at_ t x d Qt|var val at_ af t f d Qt Qf|cond at_ af t f Qt Qf
    |var at_ af t f d Qt Qf|var val at_ af t f d Qt Qf|var val at_ af t f d Qt Qf|v1 v2 at_ t d Qt
    |name d x [<-|[<-|[]]]|name d x at_ t [<-|[<-|[]]] Qt|name d x at_ af t f [<-|[<-|[]]] Qt Qf].
  - skips Hw Ht. apply eval_hit. hit. eapply two_eval; [eapply first_contains; [reflexivity|cbn; intuition discriminate|exact Hw|exact Ha]|reflexivity|reflexivity|exact Qt|exact Qf].
  - skips Hw Ht. apply eval_hit. hit. eapply two_eval; [eapply first_contains; [reflexivity|cbn; intuition discriminate|exact Hw|exact Ha]|reflexivity|reflexivity|exact Qt|exact Qf].
  - skips Hw Ht. apply eval_hit. hit. eapply one_eval; [eapply first_filter; [reflexivity|cbn; intuition discriminate|exact Hw|exact Ha]|reflexivity|exact Qt].
  - skips Hw Ht. apply eval_hit. hit. eapply two_eval; [eapply first_conditional; [reflexivity|cbn; intuition discriminate|exact Hw|exact Ha]|reflexivity|reflexivity|exact Qt|exact Qf].
  - skips Hw Ht. apply eval_hit. hit. eapply two_eval; [eapply first_ifelse; [reflexivity|cbn; intuition discriminate|exact Hw|exact Ha]|reflexivity|reflexivity|exact Qt|exact Qf].
  - skips Hw Ht. apply eval_hit. hit. eapply two_eval; [eapply first_vartrue; [reflexivity|cbn; intuition discriminate|exact Hw|exact Ha]|reflexivity|reflexivity|exact Qt|exact Qf].
  - skips Hw Ht. apply eval_hit. hit. eapply two_eval; [eapply first_loe; [reflexivity|cbn; intuition discriminate|exact Hw|exact Ha]|reflexivity|reflexivity|exact Qt|exact Qf].
  - skips Hw Ht. apply eval_hit. hit. eapply two_eval; [eapply first_loe; [reflexivity|cbn; intuition discriminate|exact Hw|exact Ha]|reflexivity|reflexivity|exact Qt|exact Qf].
  - skips Hw Ht. apply eval_hit. hit. eapply one_eval; [eapply first_both; [reflexivity|cbn; intuition discriminate|exact Hw|exact Ha]|reflexivity|exact Qt].
  - skips Hw Ht. apply eval_hit. hit. eapply eq_trans; [eapply distro_eval; eapply first_distro2;
      [reflexivity|cbn; intuition discriminate|exact Hw|exact Ha]|]. now destruct neg.
  - skips Hw Ht. apply eval_hit. hit. eapply eq_trans; [eapply distro_eval; eapply first_distro2;
      [reflexivity|cbn; intuition discriminate|exact Hw|exact Ha]|]. now destruct neg.
  - skips Hw Ht. apply eval_hit. hit. eapply eq_trans; [eapply distro_eval; eapply first_distro3;
      [reflexivity|cbn; intuition discriminate|exact Hw|exact Ha]|]. destruct neg; [reflexivity|]. f_equal.
    cbn [lookup_group]. change (str_eqb "trueval" "trueval") with true. cbn iota.
    destruct at_ as [|c l]; [now apply quoted_ne in Qt|]. now apply strip_quoted.
  - skips Hw Ht. apply eval_hit. hit. eapply eq_trans; [eapply distro_eval; eapply first_distro3;
      [reflexivity|cbn; intuition discriminate|exact Hw|exact Ha]|]. destruct neg; [reflexivity|]. f_equal.
    cbn [lookup_group]. change (str_eqb "trueval" "trueval") with true. cbn iota.
    destruct at_ as [|c l]; [now apply quoted_ne in Qt|]. now apply strip_quoted.
  - skips Hw Ht. apply eval_hit. hit. eapply eq_trans; [eapply distro_eval; eapply first_distro4;
      [reflexivity|cbn; intuition discriminate|exact Hw|exact Ha]|]. f_equal.
    destruct neg; [now apply (strip_quoted f af)|].
    cbn [lookup_group]. change (str_eqb "trueval" "falseval") with false. change (str_eqb "trueval" "trueval") with true. cbn iota.
    destruct at_ as [|c l]; [now apply quoted_ne in Qt|]. now apply strip_quoted.
  - skips Hw Ht. apply eval_hit. hit. eapply eq_trans; [eapply distro_eval; eapply first_distro4;
      [reflexivity|cbn; intuition discriminate|exact Hw|exact Ha]|]. f_equal.
    destruct neg; [now apply (strip_quoted f af)|].
    cbn [lookup_group]. change (str_eqb "trueval" "falseval") with false. change (str_eqb "trueval" "trueval") with true. cbn iota.
    destruct at_ as [|c l]; [now apply quoted_ne in Qt|]. now apply strip_quoted.
Qed.

(** ** Reading variables, unknown code *)
Lemma sub_clean : forall b, exists u v, b = u ++ inline_clean b ++ v.
Proof.
  intro b. unfold inline_clean, lstrip, rstrip.
  assert (L : forall p s, exists u, s = u ++ lstrip_p p s).
  { intros p s. induction s as [|c s [u IH]]; [now exists []|]. cbn [lstrip_p]. destruct (p c); [|now exists []].
    exists (c :: u). cbn [app]. now f_equal. }
  destruct (L (in_chars "${@") b) as [u Hu]. destruct (L (in_chars "}") (rev (lstrip_p (in_chars "${@") b))) as [v Hv].
  exists u, (rev v). rewrite Hu at 1. f_equal. unfold rstrip_p.
  rewrite <- (rev_involutive (lstrip_p (in_chars "${@") b)) at 1. rewrite Hv at 1. now rewrite rev_app_distr.
Qed.
Lemma not_in_clean : forall n b, ~ occurs n b -> contains n (inline_clean b) = false.
Proof.
  intros n b H. apply contains_false. intros x y E. apply H. destruct (sub_clean b) as [u [v Hb]].
  exists (u ++ x), (y ++ v). rewrite Hb, E, <- !app_assoc. reflexivity.
Qed.

Lemma unknown_eval : forall neg b, unknown b -> inlinerep b neg = None.
Proof.
  intros neg b H. unfold inlinerep, inline_evals.
  assert (X : forall n, In n helper_names -> contains n (inline_clean b) = false) by (intros; now apply not_in_clean, H).
  assert (Y : contains "bb.utils.contains_any" (inline_clean b) = false).
  { apply contains_false. intros x y E. apply (contains_false ("bb.utils.contains" : str) (inline_clean b)) with (a := x) (b := "_any" ++ y).
    - apply X. cbn. tauto.
    - rewrite E. reflexivity. }
  repeat (apply eval_skip; [hit; unfold d_getvar, eval_two, eval_one, eval_distro;
    first [rewrite Y|rewrite X by (cbn; tauto)]; reflexivity|]). reflexivity.
Qed.

Lemma name_char_quote : forall c, name_char c -> c <> cDQ /\ c <> cSQ /\ c <> cNL /\ c <> 40%N /\ c <> 41%N /\ c <> 64%N /\ re_space c = false.
Proof.
  intros c H. apply name_char_iff in H.
  assert (S : re_space c = false).
  { destruct (re_space c) eqn:E; [|reflexivity]. apply space_not_name in E. congruence. }
  repeat split; [..|exact S]; intro E; subst c; vm_compute in H; discriminate.
Qed.

Lemma getvar_eval : forall n q, In q [cDQ; cSQ] -> n <> [] -> (forall c, In c n -> name_char c) ->
  d_getvar ("d.getVar(" ++ [q] ++ n ++ [q] ++ ")") = Some ("${" ++ n ++ "}").
Proof.
  intros n q Hq Hn Hc. unfold d_getvar.
  replace (contains "d.getVar" ("d.getVar(" ++ [q] ++ n ++ [q] ++ ")")) with true by reflexivity.
  assert (Q : forall y, In y ([q] ++ n ++ [q]) -> y <> 41%N /\ y <> cNL /\ re_space y = false).
  { intros y Hy. rewrite !in_app_iff in Hy. destruct Hy as [[<-|[]]|[Hy|[<-|[]]]].
    - destruct Hq as [<-|[<-|[]]]; repeat split; discriminate.
    - apply Hc in Hy. apply name_char_quote in Hy. tauto.
    - destruct Hq as [<-|[<-|[]]]; repeat split; discriminate. }
  assert (F : first re_d_getvar (MS true ("d.getVar(" ++ ([q] ++ n ++ [q]) ++ ")") []) (MS false [] [("val" : str, [q] ++ n ++ [q])])).
  { unfold re_d_getvar. cbn [RCat].
    eapply first_seq; [apply (first_star re_space [] true); [reflexivity|intros c r E; inversion E; reflexivity]|].
    unfold after. eapply first_seq; [exact (first_lit "d.getVar(" true (([q] ++ n ++ [q]) ++ ")") [])|]. rewrite after_ne by discriminate.
    eapply first_seq; [apply (first_sp_star []); [intros ? []|]|].
    { intros c r E. inversion E; subst. apply (Q c). now left. }
    intros A k x Hk.
    change (m (arg_grp "val") A (m (RSeq sp_star (RC ")")) A k) (MS false (([q] ++ n ++ [q]) ++ ")") []) = Some x).
    apply (grp_eq "val" ([q] ++ n ++ [q]) A _ 41%N []).
    - intros y Hy. specialize (Q y Hy). tauto.
    - apply (first_seq sp_star (RC ")") _ (MS false ")" [("val" : str, [q] ++ n ++ [q])]) (MS false [] [("val" : str, [q] ++ n ++ [q])])); [|now apply first_chr|exact Hk].
      apply (first_sp_star [] ")"); [intros ? []|intros c r E; inversion E; reflexivity].
    - intros y r g' Hy _. destruct (Q y Hy) as [Q1 [_ Q3]].
      change (m sp_star A (m (RC ")") A k) (MS false (y :: r) g') = None).
      unfold sp_star. rewrite star_skip; [now apply (opens_rc 41%N)|].
      intros A' k'. cbn [m RSp]. unfold RSp. cbn [m m_rest]. now rewrite Q3. }
  replace ("d.getVar(" ++ [q] ++ n ++ [q] ++ ")") with (("d.getVar(" : str) ++ ([q] ++ n ++ [q]) ++ ")") by (now rewrite <- !app_assoc).
  rewrite (first_match _ _ _ F). unfold group_str, group. cbn [g_all m_grp lookup_group].
  change (str_eqb "val" "val") with true. cbn iota. do 2 f_equal. f_equal. apply strip_quoted. exists q.
  split; [exact Hq|]. split; [reflexivity|]. split; intro X; apply Hc in X; apply name_char_quote in X; intuition congruence.
Qed.

Lemma reads_eval : forall neg n b, reads n b -> inlinerep b neg = Some ("${" ++ n ++ "}").
Proof.
  intros neg n b [q [Hq [-> [Hn Hc]]]]. unfold inlinerep.
  assert (E : inline_clean ("${@d.getVar(" ++ [q] ++ n ++ [q] ++ ")}") = "d.getVar(" ++ [q] ++ n ++ [q] ++ ")").
  { pose proof (clean_call [] "d.getVar" ("(" ++ [q] ++ n ++ [q])) as X. cbn [app] in X. rewrite <- !app_assoc in X.
    cbn [app] in X. cbn [app]. apply X; [intros ? []|intros c r E; inversion E; reflexivity|discriminate]. }
  rewrite E. unfold inline_evals.
  assert (Ht : ~ In 40%N ([q] ++ n ++ [q] ++ ")")).
  { intro X. rewrite !in_app_iff in X. destruct X as [[X|[]]|[X|[[X|[]]|[X|[]]]]].
    - subst q. destruct Hq as [X|[X|[]]]; discriminate.
    - apply Hc in X. apply name_char_quote in X. intuition.
    - subst q. destruct Hq as [X|[X|[]]]; discriminate.
    - discriminate. }
  assert (Hw : spaces []) by (intros ? []).
  change ("d.getVar(" ++ [q] ++ n ++ [q] ++ ")") with (([] : str) ++ "d.getVar" ++ 40%N :: ([q] ++ n ++ [q] ++ ")")).
  skips Hw Ht. apply eval_hit. now apply getvar_eval.
Qed.

Lemma call_eval : forall neg name args v b, calls name args b -> helper neg name args v -> inlinerep b neg = Some v.
Proof.
  intros neg name args v b [w [s [-> [Hw Ha]]]] H. unfold inlinerep.
  replace ("${@" ++ w ++ name ++ "(" ++ s ++ ")}") with ("${@" ++ w ++ name ++ ("(" ++ s) ++ ")}") by (now rewrite <- !app_assoc).
  rewrite (clean_call w name ("(" ++ s)).
  - rewrite <- !app_assoc. now apply (helper_eval neg name args v).
  - exact Hw.
  - intros c r E. destruct H; try (inversion E; reflexivity);
      match goal with X : In _ _ |- _ => destruct X as [<-|[<-|[]]]; inversion E; reflexivity end.
  - destruct H; try discriminate; match goal with X : In _ _ |- _ => destruct X as [<-|[<-|[]]]; discriminate end.
Qed.

(** ** All blocks *)
Definition shows (neg : bool) (b : str) : str := match inlinerep b neg with Some v => v | None => INLINE_BLOCK end.
Lemma evaluates_shows : forall neg b v, evaluates neg b v -> shows neg b = v.
Proof.
  intros neg b v [name args v' Hc Hh|n Hr|Hu]; unfold shows.
  - now rewrite (call_eval _ _ _ _ _ Hc Hh).
  - now rewrite (reads_eval _ _ _ Hr).
  - now rewrite unknown_eval.
Qed.
