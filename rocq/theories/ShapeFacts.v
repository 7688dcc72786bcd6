(** * What a text must look like to be matched by the patterns of the parser *)

From Verif Require Import PyStr Regex UniTable Patterns PyPath Res Const Item Lines Stash StrFacts ReFacts LinesFacts
  Spec_Parse MatchFacts.

(** ** Patterns that only take characters of a class *)

Definition eats (p : N -> bool) (r : re) : Prop := forall s s', mt r s s' ->
  exists w, m_rest s = w ++ m_rest s' /\ forallb p w = true.

Lemma eats_eps : forall p, eats p REps.
Proof. intros p s s' H. rewrite mt_eps_iff in H. subst. exists []. auto. Qed.
Lemma eats_chr : forall (p q : N -> bool), (forall c, q c = true -> p c = true) -> eats p (RChr q).
Proof.
  intros p q H s s' Hm. rewrite mt_chr_iff in Hm. destruct Hm as [c [t [E [Hc ->]]]]. exists [c].
  cbn. rewrite E, (H _ Hc). auto.
Qed.
Lemma eats_seq : forall p a b, eats p a -> eats p b -> eats p (RSeq a b).
Proof.
  intros p a b Ha Hb s s' H. rewrite mt_seq_iff in H. destruct H as [s1 [H1 H2]].
  apply Ha in H1. apply Hb in H2. destruct H1 as [u [E1 F1]]. destruct H2 as [v [E2 F2]].
  exists (u ++ v). rewrite E1, E2, app_assoc, forallb_app, F1, F2. auto.
Qed.
Lemma eats_alt : forall p a b, eats p a -> eats p b -> eats p (RAlt a b).
Proof. intros p a b Ha Hb s s' H. rewrite mt_alt_iff in H. destruct H as [H|H]; auto. Qed.
Lemma eats_grp : forall p n r, eats p r -> eats p (RGrp n r).
Proof.
  intros p n r Hr s s' H. rewrite mt_grp_iff in H. destruct H as [s1 [H ->]]. apply Hr in H. exact H.
Qed.
Lemma eats_star : forall p g r, eats p r -> eats p (RStar g r).
Proof.
  intros p g r Hr s s' H. remember (RStar g r) as rr eqn:Er. induction H; inversion Er; subst.
  - exists []. auto.
  - apply Hr in H. destruct H as [u [E1 F1]]. destruct (IHmt2 eq_refl) as [v [E2 F2]].
    exists (u ++ v). rewrite E1, E2, app_assoc, forallb_app, F1, F2. auto.
Qed.
Lemma eats_lit : forall p l, forallb p l = true -> eats p (RLit l).
Proof.
  intros p l H s s' Hm. rewrite mt_lit_iff in Hm. destruct Hm as [t [E ->]]. exists l. cbn. auto.
Qed.

Lemma sub_sp : forall c, re_space c = true -> re_space c = true.
Proof. auto. Qed.
Lemma sub_tab : forall c, ch cTAB c = true -> re_space c = true.
Proof. intros c H. unfold ch in H. apply N.eqb_eq in H. now subst c. Qed.
Lemma eats_sp_star : eats re_space sp_star.
Proof. apply eats_star. apply eats_chr. apply sub_sp. Qed.
Lemma eats_tab_star : eats re_space tab_star.
Proof. apply eats_star. apply eats_chr. apply sub_tab. Qed.
Lemma eats_sp_plus : eats re_space sp_plus.
Proof. apply eats_seq; [apply eats_chr; apply sub_sp|apply eats_sp_star]. Qed.
Lemma eats_tab_plus : eats re_space tab_plus.
Proof. apply eats_seq; [apply eats_chr; apply sub_tab|apply eats_tab_star]. Qed.
Lemma eats_blanks0 : eats re_space blanks0.
Proof. apply eats_alt; [apply eats_sp_star|apply eats_tab_star]. Qed.
Lemma eats_blanks1 : eats re_space blanks1.
Proof. apply eats_alt; [apply eats_sp_plus|apply eats_tab_plus]. Qed.
Lemma eats_sp_tab : eats re_space sp_tab_star.
Proof. apply eats_star. apply eats_alt; apply eats_chr; [apply sub_sp|apply sub_tab]. Qed.

(** At least one blank first. *)
Definition blank_first (r : re) : Prop := forall s s', mt r s s' ->
  exists b t, m_rest s = b :: t /\ re_space b = true.
Lemma bf_chr : forall (q : N -> bool), (forall c, q c = true -> re_space c = true) -> blank_first (RChr q).
Proof. intros q H s s' Hm. rewrite mt_chr_iff in Hm. destruct Hm as [c [t [E [Hc _]]]]. exists c, t. auto. Qed.
Lemma bf_seq : forall a b, blank_first a -> blank_first (RSeq a b).
Proof. intros a b Ha s s' H. rewrite mt_seq_iff in H. destruct H as [s1 [H _]]. now apply Ha in H. Qed.
Lemma bf_alt : forall a b, blank_first a -> blank_first b -> blank_first (RAlt a b).
Proof. intros a b Ha Hb s s' H. rewrite mt_alt_iff in H. destruct H as [H|H]; [now apply Ha in H|now apply Hb in H]. Qed.
Lemma bf_sp_plus : blank_first sp_plus.
Proof. apply bf_seq. apply bf_chr. apply sub_sp. Qed.
Lemma bf_blanks1 : blank_first blanks1.
Proof. apply bf_alt; [apply bf_sp_plus|]. apply bf_seq. apply bf_chr. apply sub_tab. Qed.
Lemma bf_plus_blanks1 : blank_first (RPlus true blanks1).
Proof. apply bf_seq. apply bf_blanks1. Qed.

(** ** Statements: blanks, a keyword, a blank *)

Definition keyed (K : str -> Prop) (s : str) : Prop := exists w k b t,
  s = w ++ k ++ b :: t /\ blank w /\ K k /\ re_space b = true.

Lemma keyed_shape : forall (K : str -> Prop) ind kw sep rest s,
  eats re_space ind -> (forall s s', mt kw s s' -> exists k, m_rest s = k ++ m_rest s' /\ K k) ->
  blank_first sep ->
  (exists s', mt (RSeq ind (RSeq kw (RSeq sep rest))) s s') -> keyed K (m_rest s).
Proof.
  intros K ind kw sep rest s Hi Hk Hs [s' H]. rewrite mt_seq_iff in H. destruct H as [s1 [H1 H]].
  rewrite mt_seq_iff in H. destruct H as [s2 [H2 H]]. rewrite mt_seq_iff in H. destruct H as [s3 [H3 _]].
  apply Hi in H1. apply Hk in H2. apply Hs in H3. destruct H1 as [w [E1 F1]]. destruct H2 as [k [E2 F2]].
  destruct H3 as [b [t [E3 F3]]]. exists w, k, b, t. rewrite E1, E2, E3.
  split; [reflexivity|]. split; [now apply blank_forallb|]. auto.
Qed.

Lemma bol_seq : forall r s s', mt (RSeq RBol r) s s' -> mt r s s'.
Proof.
  intros r s s' H. rewrite mt_seq_iff in H. destruct H as [s1 [H1 H2]]. rewrite mt_bol_iff in H1.
  destruct H1 as [-> _]. exact H2.
Qed.
Lemma lit_key : forall l s s', mt (RLit l) s s' -> exists k, m_rest s = k ++ m_rest s' /\ k = l.
Proof. intros l s s' H. rewrite mt_lit_iff in H. destruct H as [t [E ->]]. exists l. cbn. auto. Qed.

Definition is_inherit (k : str) : Prop := exists n, k = "inherit" ++ concat (repeat ("_defer" : str) n).

Lemma star_lit_rep : forall l s s', mt (RStar true (RLit l)) s s' ->
  exists n, m_rest s = concat (repeat l n) ++ m_rest s'.
Proof.
  intros l s s' H. remember (RStar true (RLit l)) as rr eqn:Er. induction H; inversion Er; subst.
  - now exists 0.
  - rewrite mt_lit_iff in H. destruct H as [t [E ->]]. destruct (IHmt2 eq_refl) as [n En].
    exists (S n). cbn [repeat concat]. rewrite <- app_assoc, <- En. cbn. exact E.
Qed.

Ltac shape := intros s x H; apply some_match in H; destruct H as [s' H].

Lemma shape_inherit : forall s x, re_match re_inherit s = Some x -> keyed is_inherit s.
Proof.
  shape. apply bol_seq in H.
  apply (keyed_shape is_inherit sp_tab_star (RGrp "statement" (RSeq (RLit "inherit") (RStar true (RLit "_defer"))))
           blanks1 (RGrp "inhname" dot_plus) (MS true s [])); [apply eats_sp_tab| |apply bf_blanks1|now exists s'].
  clear. intros s s' H. rewrite mt_grp_iff in H. destruct H as [s1 [H ->]]. rewrite mt_seq_iff in H.
  destruct H as [s2 [H1 H2]]. apply lit_key in H1. destruct H1 as [k [E ->]]. apply star_lit_rep in H2.
  destruct H2 as [n En]. exists ("inherit" ++ concat (repeat ("_defer" : str) n)). split; [|now exists n].
  rewrite E, En. cbn [m_rest]. now rewrite app_assoc.
Qed.

Lemma shape_export_wval : forall s x, re_match re_export_wval s = Some x -> keyed (eq "export") s.
Proof.
  shape. apply bol_seq in H. eapply (keyed_shape (eq "export") (RStar false RSp) (RLit "export") blanks1 _ (MS true s []));
    [apply eats_star; apply eats_chr; apply sub_sp| |apply bf_blanks1|exists s'; exact H].
  intros s0 s1 H0. apply lit_key in H0. destruct H0 as [k [E ->]]. eauto.
Qed.
Lemma shape_export_woval : forall s x, re_match re_export_woval s = Some x -> keyed (eq "export") s.
Proof.
  shape. apply bol_seq in H. eapply (keyed_shape (eq "export") (RStar false RSp) (RLit "export") blanks1 _ (MS true s []));
    [apply eats_star; apply eats_chr; apply sub_sp| |apply bf_blanks1|exists s'; exact H].
  intros s0 s1 H0. apply lit_key in H0. destruct H0 as [k [E ->]]. eauto.
Qed.
Lemma shape_python : forall s x, re_match re_python s = Some x -> keyed (eq "def") s.
Proof.
  shape. apply bol_seq in H. eapply (keyed_shape (eq "def") blanks0 (RLit "def") blanks1 _ (MS true s []));
    [apply eats_blanks0| |apply bf_blanks1|exists s'; exact H].
  intros s0 s1 H0. apply lit_key in H0. destruct H0 as [k [E ->]]. eauto.
Qed.
Definition is_include (k : str) : Prop := k = "include" \/ k = "require".
Lemma shape_include : forall s x, re_match re_include s = Some x -> keyed is_include s.
Proof.
  shape. apply bol_seq in H.
  eapply (keyed_shape is_include blanks0 (RGrp "statement" (RAlt (RLit "include") (RLit "require"))) blanks1 _ (MS true s []));
    [apply eats_blanks0| |apply bf_blanks1|exists s'; exact H].
  intros s0 s1 H0. rewrite mt_grp_iff in H0. destruct H0 as [s2 [H0 ->]]. rewrite mt_alt_iff in H0.
  destruct H0 as [H0|H0]; apply lit_key in H0; destruct H0 as [k [E ->]]; eexists; (split; [exact E|]); [now left|now right].
Qed.
Lemma shape_addtask : forall s x, re_match re_addtask s = Some x -> keyed (eq "addtask") s.
Proof.
  shape. apply bol_seq in H. eapply (keyed_shape (eq "addtask") blanks0 (RLit "addtask") sp_plus _ (MS true s []));
    [apply eats_blanks0| |apply bf_sp_plus|exists s'; exact H].
  intros s0 s1 H0. apply lit_key in H0. destruct H0 as [k [E ->]]. eauto.
Qed.
Lemma shape_deltask : forall s x, re_match re_deltask s = Some x -> keyed (eq "deltask") s.
Proof.
  shape. apply bol_seq in H. eapply (keyed_shape (eq "deltask") blanks0 (RLit "deltask") sp_plus _ (MS true s []));
    [apply eats_blanks0| |apply bf_sp_plus|exists s'; exact H].
  intros s0 s1 H0. apply lit_key in H0. destruct H0 as [k [E ->]]. eauto.
Qed.
Lemma shape_unset : forall s x, re_match re_unset s = Some x -> keyed (eq "unset") s.
Proof.
  shape. apply bol_seq in H.
  eapply (keyed_shape (eq "unset") (RStar true blanks1) (RLit "unset") (RPlus true blanks1) _ (MS true s []));
    [apply eats_star; apply eats_blanks1| |apply bf_plus_blanks1|exists s'; exact H].
  intros s0 s1 H0. apply lit_key in H0. destruct H0 as [k [E ->]]. eauto.
Qed.
Lemma shape_addpylib : forall s x, re_match re_addpylib s = Some x -> keyed (eq "addpylib") s.
Proof.
  shape. apply bol_seq in H.
  eapply (keyed_shape (eq "addpylib") (RAlt sp_plus tab_star) (RLit "addpylib") blanks1 _ (MS true s []));
    [apply eats_alt; [apply eats_sp_plus|apply eats_tab_star]| |apply bf_blanks1|exists s'; exact H].
  intros s0 s1 H0. apply lit_key in H0. destruct H0 as [k [E ->]]. eauto.
Qed.
Lemma eps_seq : forall r s s', mt r s s' -> mt (RSeq REps r) s s'.
Proof. intros r s s' H. rewrite mt_seq_iff. exists s. split; [constructor|exact H]. Qed.
Lemma shape_export_func : forall s x, re_match re_export_func s = Some x -> keyed (eq "EXPORT_FUNCTIONS") s.
Proof.
  shape. apply bol_seq, eps_seq in H.
  eapply (keyed_shape (eq "EXPORT_FUNCTIONS") REps (RLit "EXPORT_FUNCTIONS") sp_plus _ (MS true s []));
    [apply eats_eps| |apply bf_sp_plus|exists s'; exact H].
  intros s0 s1 H0. apply lit_key in H0. destruct H0 as [k [E ->]]. eauto.
Qed.
Lemma shape_addfragments : forall s x, re_match re_addfragments s = Some x -> keyed (eq "addfragments") s.
Proof.
  shape. apply eps_seq in H.
  eapply (keyed_shape (eq "addfragments") REps (RLit "addfragments") sp_plus _ (MS true s []));
    [apply eats_eps| |apply bf_sp_plus|exists s'; exact H].
  intros s0 s1 H0. apply lit_key in H0. destruct H0 as [k [E ->]]. eauto.
Qed.
Lemma shape_includeall : forall s x, re_match re_includeall s = Some x -> keyed (eq "include_all") s.
Proof.
  shape. apply eps_seq in H.
  eapply (keyed_shape (eq "include_all") REps (RLit "include_all") sp_plus _ (MS true s []));
    [apply eats_eps| |apply bf_sp_plus|exists s'; exact H].
  intros s0 s1 H0. apply lit_key in H0. destruct H0 as [k [E ->]]. eauto.
Qed.

(** ** The other shapes *)

Definition hashed (s : str) : Prop := exists w t, s = w ++ "#" ++ t /\ blank w.
Lemma shape_comments : forall s x, re_match re_comments s = Some x -> hashed s.
Proof.
  shape. apply bol_seq in H. cbn [RCat] in H. rewrite mt_seq_iff in H. destruct H as [s1 [H1 H]].
  apply eats_sp_tab in H1. destruct H1 as [w [E1 F1]]. cbn in E1. unfold RPlus in H. rewrite mt_seq_iff in H.
  destruct H as [s2 [H2 _]]. rewrite mt_seq_iff in H2. destruct H2 as [s3 [H2 _]].
  unfold RC in H2. rewrite mt_chr_iff in H2. destruct H2 as [c [t [E2 [Hc _]]]].
  exists w, t. split; [|now apply blank_forallb]. rewrite E1, E2.
  unfold oneof, in_chars in Hc. simpl in Hc. rewrite orb_false_r in Hc. apply N.eqb_eq in Hc. now subst c.
Qed.

(** Names of functions with their markers and blanks. *)
Definition func_c : N -> bool := por re_space (por re_word (oneof ".-+{}:$")).
Definition parens (s : str) : Prop := exists u t, s = u ++ "(" ++ t /\ forallb func_c u = true.
Lemma shape_func : forall s x, re_match re_func s = Some x -> parens s.
Proof.
  shape. apply bol_seq in H. cbn [RCat] in H.
  rewrite mt_seq_iff in H. destruct H as [s1 [H1 H]]. rewrite mt_seq_iff in H. destruct H as [s2 [H2 H]].
  rewrite mt_seq_iff in H. destruct H as [s3 [H3 H]]. rewrite mt_seq_iff in H. destruct H as [s4 [H4 _]].
  assert (Hsp : forall c, re_space c = true -> func_c c = true) by (intros c Hc; unfold func_c, por; now rewrite Hc).
  assert (G1 : eats func_c sp_star) by (apply eats_star; apply eats_chr; exact Hsp).
  assert (G2 : eats func_c (RStar true (RAlt (RSeq (RGrp "py" (RLit "python")) sp_star) (RGrp "fr" (RSeq (RLit "fakeroot") sp_star))))).
  { apply eats_star. apply eats_alt.
    - apply eats_seq; [apply eats_grp; apply eats_lit; reflexivity|exact G1].
    - apply eats_grp. apply eats_seq; [apply eats_lit; reflexivity|exact G1]. }
  assert (G3 : eats func_c (ROpt true (RGrp "func" (RPlus true (RChr (por re_word (oneof ".-+{}:$"))))))).
  { assert (Hw : forall c, por re_word (oneof ".-+{}:$") c = true -> func_c c = true).
    { intros c Hc. unfold func_c. unfold por in Hc |- *. rewrite Hc. apply orb_true_r. }
    apply eats_alt; [|apply eats_eps]. apply eats_grp. apply eats_seq; [|apply eats_star]; apply eats_chr; exact Hw. }
  apply G2 in H1. apply G3 in H2. apply G1 in H3. destruct H1 as [a [E1 F1]]. destruct H2 as [b [E2 F2]].
  destruct H3 as [d [E3 F3]]. unfold RC in H4. rewrite mt_chr_iff in H4. destruct H4 as [c [t [E4 [Hc _]]]].
  cbn in E1. exists (a ++ b ++ d), t. split.
  - rewrite E1, E2, E3, E4. unfold oneof, in_chars in Hc. simpl in Hc. rewrite orb_false_r in Hc.
    apply N.eqb_eq in Hc. subst c. now rewrite <- !app_assoc.
  - now rewrite !forallb_app, F1, F2, F3.
Qed.

Definition operated (n s : str) : Prop := exists w pre t, s = n ++ w ++ pre ++ "=" ++ t /\ blank w /\ forallb ops_c pre = true.
Lemma shape_inherit_glob : forall s x, re_match re_inherit_glob s = Some x -> operated "INHERIT" s.
Proof.
  shape. apply bol_seq in H. unfold RCat in H. rewrite mt_seq_iff in H. destruct H as [s1 [H1 H]].
  apply lit_key in H1. destruct H1 as [k [E1 ->]]. rewrite mt_seq_iff in H. destruct H as [s2 [H2 _]].
  apply mt_varop in H2. destruct H2 as [w [pre [t [E2 [Hw Hp]]]]]. cbn [m_rest] in E1.
  exists w, pre, t. rewrite E1, E2. auto.
Qed.

Lemma mt_name_plus : forall g s s', mt (RPlus g name_alt) s s' -> exists n,
  m_rest s = n ++ m_rest s' /\ forallb name_c n = true /\ n <> [].
Proof.
  intros g s s' H.
  assert (G : eats name_c name_alt).
  { unfold name_alt, alts, RC. cbn [fold_left].
    assert (X : forall x, name_c x = true -> eats name_c (RChr (oneof [x]))).
    { intros x Hx. apply eats_chr. intros c Hc. unfold oneof, in_chars in Hc. simpl in Hc.
      rewrite orb_false_r in Hc. apply N.eqb_eq in Hc. now subst c. }
    repeat apply eats_alt; try (apply X; reflexivity). apply eats_chr. intros c Hc. unfold name_c.
    unfold por at 1. now rewrite Hc. }
  unfold RPlus in H. rewrite mt_seq_iff in H. destruct H as [s1 [H1 H2]].
  assert (L : length (m_rest s1) < length (m_rest s)).
  { unfold name_alt, alts, RC in H1. cbn [fold_left] in H1. rewrite !mt_alt_iff, !mt_chr_iff in H1.
    assert (X : exists c t, m_rest s = c :: t /\ s1 = MS false t (m_grp s)).
    { destruct H1 as [[[[H1|H1]|H1]|H1]|H1]; destruct H1 as [c [t [E [_ ->]]]]; eauto. }
    destruct X as [c [t [E ->]]]. rewrite E. cbn. lia. }
  apply G in H1. apply (eats_star _ g _ G) in H2. destruct H1 as [a [E1 F1]]. destruct H2 as [b [E2 F2]].
  exists (a ++ b). split; [now rewrite E1, E2, app_assoc|]. split; [now rewrite forallb_app, F1, F2|].
  intro E. apply app_eq_nil in E. destruct E as [-> ->]. cbn in *. rewrite E1 in L. lia.
Qed.

Definition bracketed (s : str) : Prop := exists w n t, s = w ++ n ++ "[" ++ t /\ blank w /\ forallb name_c n = true /\ n <> [].
Lemma shape_flagass : forall s x, re_match re_flagass s = Some x -> bracketed s.
Proof.
  shape. apply bol_seq in H. unfold RCat in H. rewrite mt_seq_iff in H. destruct H as [s1 [H1 H]].
  apply eats_blanks0 in H1. destruct H1 as [w [E1 F1]]. cbn in E1.
  rewrite mt_seq_iff in H. destruct H as [s2 [H2 H]]. rewrite mt_grp_iff in H2. destruct H2 as [s3 [H2 ->]].
  apply mt_name_plus in H2. destruct H2 as [n [E2 [F2 Hn]]].
  rewrite mt_seq_iff in H. destruct H as [s4 [H4 _]]. unfold RC in H4. rewrite mt_chr_iff in H4.
  destruct H4 as [c [t [E4 [Hc _]]]]. cbn [m_rest] in E4. exists w, n, t. rewrite E1, E2, E4.
  split; [|split; [now apply blank_forallb|auto]].
  unfold oneof, in_chars in Hc. simpl in Hc. rewrite orb_false_r in Hc. apply N.eqb_eq in Hc. now subst c.
Qed.

Lemma shape_var : forall s x, re_match re_var s = Some x -> exists n, operated n s /\ forallb name_c n = true /\ n <> [].
Proof.
  shape. apply bol_seq in H. unfold RCat in H. rewrite mt_seq_iff in H. destruct H as [s1 [H1 H]].
  rewrite mt_grp_iff in H1. destruct H1 as [s2 [H1 ->]]. apply mt_name_plus in H1. destruct H1 as [n [E1 [F1 Hn]]].
  rewrite mt_seq_iff in H. destruct H as [s3 [H3 _]]. apply mt_varop in H3.
  destruct H3 as [w [pre [t [E3 [Hw Hp]]]]]. cbn [m_rest] in E1, E3.
  exists n. split; [|auto]. exists w, pre, t. rewrite E1, E3. auto.
Qed.
