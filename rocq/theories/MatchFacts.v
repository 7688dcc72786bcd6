(** * The preferred way to match *)

From Verif Require Import PyStr Regex UniTable Patterns StrFacts ReFacts LinesFacts Spec_Parse.
From Coq Require Import Btauto.

(** No way to match; the first way to match. *)
Definition fails (r : re) (s : mstate) : Prop := forall A (k : mstate -> option A), m r A k s = None.
Definition first (r : re) (s s' : mstate) : Prop :=
  forall A (k : mstate -> option A) x, k s' = Some x -> m r A k s = Some x.

Lemma fails_mt : forall r s, (forall s', ~ mt r s s') -> fails r s.
Proof.
  intros r s H A k. destruct (m r A k s) as [x|] eqn:E; [|reflexivity].
  apply m_sound in E. destruct E as [s' [E _]]. now apply H in E.
Qed.
Lemma match_fails : forall r s, fails r (MS true s []) -> re_match r s = None.
Proof. intros r s H. unfold re_match, match_at. now rewrite H. Qed.
Lemma no_match : forall r s, (forall s', ~ mt r (MS true s []) s') -> re_match r s = None.
Proof. intros r s H. apply match_fails. now apply fails_mt. Qed.
Lemma some_match : forall r s x, re_match r s = Some x -> exists s', mt r (MS true s []) s'.
Proof. intros r s x H. apply match_at_some in H. destruct H as [s' [H _]]. now exists s'. Qed.

Lemma first_match : forall r s s', first r (MS true s []) s' ->
  re_match r s = Some (RM (consumed (MS true s []) s') (m_grp s')).
Proof. intros r s s' H. unfold re_match, match_at. now rewrite (H _ (fun x => Some x) s' eq_refl). Qed.

Lemma first_req : forall r r' s s', req r r' -> first r' s s' -> first r s s'.
Proof. intros r r' s s' E H A k x Hk. rewrite E. now apply H. Qed.
Lemma fails_req : forall r r' s, req r r' -> fails r' s -> fails r s.
Proof. intros r r' s E H A k. rewrite E. apply H. Qed.

Lemma first_eps : forall s, first REps s s.
Proof. intros s A k x H. exact H. Qed.
Lemma first_bol : forall t g, first RBol (MS true t g) (MS true t g).
Proof. intros t g A k x H. exact H. Qed.
Lemma first_chr : forall p b c t g, p c = true -> first (RChr p) (MS b (c :: t) g) (MS false t g).
Proof. intros p b c t g Hp A k x H. now rewrite m_chr. Qed.
Lemma first_seq : forall a b s s1 s2, first a s s1 -> first b s1 s2 -> first (RSeq a b) s s2.
Proof. intros a b s s1 s2 Ha Hb A k x H. cbn [m]. apply Ha. now apply Hb. Qed.
Lemma first_altl : forall a b s s', first a s s' -> first (RAlt a b) s s'.
Proof. intros a b s s' Ha A k x H. cbn [m]. now rewrite (Ha _ _ _ H). Qed.
Lemma first_altr : forall a b s s', fails a s -> first b s s' -> first (RAlt a b) s s'.
Proof. intros a b s s' Ha Hb A k x H. cbn [m]. rewrite Ha. now apply Hb. Qed.
Lemma first_grp : forall n r s s', first r s s' ->
  first (RGrp n r) s (MS (m_bol s') (m_rest s') ((n, consumed s s') :: m_grp s')).
Proof. intros n r s s' Hr A k x H. cbn [m]. now apply Hr. Qed.
Lemma first_grp_app : forall n r b w t g b' g', first r (MS b (w ++ t) g) (MS b' t g') ->
  first (RGrp n r) (MS b (w ++ t) g) (MS b' t ((n, w) :: g')).
Proof.
  intros n r b w t g b' g' H. apply (first_grp n) in H.
  rewrite (consumed_app b w t g (MS b' t g') eq_refl) in H. exact H.
Qed.

(** The rest does not start with a character of the class. *)
Definition stops (p : N -> bool) (t : str) : Prop := forall c r, t = c :: r -> p c = false.

Lemma first_star : forall p w b t g, forallb p w = true -> stops p t ->
  first (RStar true (RChr p)) (MS b (w ++ t) g) (after b w t g).
Proof.
  intros p w b t g Hw Ht A k x H. apply star_class_stop; [exact Hw| |exact H].
  destruct t as [|c t]; [exact I|]. now apply (Ht c t).
Qed.
Lemma first_plus : forall p w b t g, forallb p w = true -> w <> [] -> stops p t ->
  first (RPlus true (RChr p)) (MS b (w ++ t) g) (MS false t g).
Proof.
  intros p w b t g Hw Hn Ht. destruct w as [|c w]; [congruence|]. cbn [forallb] in Hw.
  apply andb_prop in Hw. destruct Hw as [Hc Hw]. unfold RPlus.
  eapply first_seq; [apply first_chr; exact Hc|].
  assert (E : MS false t g = after false w t g) by (unfold after; now destruct w).
  rewrite E. now apply first_star.
Qed.
Lemma first_lit : forall l b t g, first (RLit l) (MS b (l ++ t) g) (after b l t g).
Proof. intros l b t g A k x H. now rewrite m_lit. Qed.
Lemma after_ne : forall b w t g, w <> [] -> after b w t g = MS false t g.
Proof. intros b [|c w] t g H; [congruence|reflexivity]. Qed.
Lemma after_false : forall w t g, after false w t g = MS false t g.
Proof. intros [|c w] t g; reflexivity. Qed.

(** ".*" and ".+" take everything on a line. *)
Definition oneline (s : str) : Prop := forall c, In c s -> dotp c = true.
Lemma oneline_forallb : forall s, oneline s -> forallb dotp s = true.
Proof. intros s H. apply forallb_forall. exact H. Qed.
Lemma first_dots : forall s b g, oneline s -> first dot_star (MS b s g) (after b s [] g).
Proof.
  intros s b g H. rewrite <- (app_nil_r s) at 1. apply first_star; [now apply oneline_forallb|].
  intros c r E. discriminate.
Qed.
Lemma first_dots1 : forall s b g, oneline s -> s <> [] -> first dot_plus (MS b s g) (MS false [] g).
Proof.
  intros s b g H Hn. rewrite <- (app_nil_r s). apply first_plus; [now apply oneline_forallb|exact Hn|].
  intros c r E. discriminate.
Qed.

(** A star that cannot make one round. *)
Lemma first_star_none : forall r s, fails r s -> first (RStar true r) s s.
Proof.
  intros r s H A k x Hk. rewrite m_star. destruct (length (m_rest s)); simpl; [exact Hk|]. now rewrite H.
Qed.

(** Lazy repetition in a group: the shorter runs fail. *)
Lemma first_lazy_grp : forall n p w rest b t g s2,
  forallb p w = true -> w <> [] ->
  first rest (MS false t ((n, w) :: g)) s2 ->
  (forall u v, w = u ++ v -> u <> [] -> v <> [] -> fails rest (MS false (v ++ t) ((n, u) :: g))) ->
  first (RSeq (RGrp n (RPlus false (RChr p))) rest) (MS b (w ++ t) g) s2.
Proof.
  intros n p w rest b t g s2 Hw Hn Hr Hf A k x Hk. destruct w as [|c w]; [congruence|].
  cbn [forallb] in Hw. apply andb_prop in Hw. destruct Hw as [Hc Hw].
  change (m (RPlus false (RChr p)) A
            (fun s' => m rest A k (MS (m_bol s') (m_rest s')
               ((n, consumed (MS b ((c :: w) ++ t) g) s') :: m_grp s'))) (MS b ((c :: w) ++ t) g) = Some x).
  unfold RPlus. cbn [m]. cbn [app m_rest]. rewrite Hc. cbn [m_grp].
  change (m (RStar false (RChr p)) A
            (fun s' => m rest A k (MS (m_bol s') (m_rest s')
               ((n, consumed (MS b ((c :: w) ++ t) g) s') :: m_grp s'))) (MS false (w ++ t) g) = Some x).
  apply star_class_lazy; [exact Hw| |].
  - rewrite after_false. cbn [m_bol m_rest m_grp]. rewrite (consumed_app b (c :: w) t g) by reflexivity.
    now apply Hr.
  - intros u v E Hv. rewrite after_false. cbn [m_bol m_rest m_grp]. subst w.
    change ((c :: u ++ v) ++ t) with (((c :: u) ++ v) ++ t). rewrite <- app_assoc.
    rewrite (consumed_app b (c :: u) (v ++ t) g) by reflexivity.
    apply (Hf (c :: u) v); [reflexivity|discriminate|exact Hv].
Qed.

(** ** The classes of the patterns *)

Definition ops_c : N -> bool := oneof "+?:.".
Definition post_c : N -> bool := oneof "+.".
Definition name_c : N -> bool := por name_cls (oneof "${}:").
Definition flag_c : N -> bool := por re_word (oneof "-./@_").

Lemma sp_tab : forall c, por re_space (ch cTAB) c = re_space c.
Proof.
  intro c. unfold por, ch. destruct (N.eqb_spec c cTAB) as [->|]; [reflexivity|]. now rewrite orb_false_r.
Qed.
Lemma req_sp_tab : req sp_tab_star (RStar true RSp).
Proof.
  unfold sp_tab_star, RSp, tab. apply req_star. eapply req_trans; [apply req_alt_chr|].
  apply req_chr_ext. apply sp_tab.
Qed.
Lemma req_alts4 : forall p q r s, req (RAlt (RAlt (RAlt (RChr p) (RChr q)) (RChr r)) (RChr s))
  (RChr (por (por (por p q) r) s)).
Proof.
  intros p q r s. eapply req_trans; [apply req_alt; [|apply req_refl]|apply req_alt_chr].
  eapply req_trans; [apply req_alt; [|apply req_refl]|apply req_alt_chr]. apply req_alt_chr.
Qed.
Lemma req_ops : req (alts [RC "+"; RC "?"; RC ":"; RC "."]) (RChr ops_c).
Proof.
  unfold alts, RC. cbn [fold_left]. eapply req_trans; [apply req_alts4|]. apply req_chr_ext. intro c.
  unfold por, ops_c, oneof, in_chars. simpl. btauto.
Qed.
Lemma req_post : req (alts [RC "+"; RC "."]) (RChr post_c).
Proof.
  unfold alts, RC. cbn [fold_left]. eapply req_trans; [apply req_alt_chr|]. apply req_chr_ext. intro c.
  unfold por, post_c, oneof, in_chars. simpl. btauto.
Qed.
Lemma req_name : req name_alt (RChr name_c).
Proof.
  unfold name_alt, alts, RC. cbn [fold_left]. eapply req_trans.
  { apply req_alt; [apply req_alts4|apply req_refl]. }
  eapply req_trans; [apply req_alt_chr|]. apply req_chr_ext. intro c.
  unfold por, name_c, por, oneof, in_chars. simpl. btauto.
Qed.
Lemma req_flag : req (alts [RChr re_word; RC "-"; RC "."; RC "/"; RC "@"; RC "_"]) (RChr flag_c).
Proof.
  unfold alts, RC. cbn [fold_left]. eapply req_trans.
  { apply req_alt; [apply req_alt; [apply req_alts4|apply req_refl]|apply req_refl]. }
  eapply req_trans; [apply req_alt; [apply req_alt_chr|apply req_refl]|].
  eapply req_trans; [apply req_alt_chr|]. apply req_chr_ext. intro c.
  unfold por, flag_c, por, oneof, in_chars. simpl. btauto.
Qed.
Lemma req_plus : forall g r r', req r r' -> req (RPlus g r) (RPlus g r').
Proof. intros g r r' H. apply req_seq; [exact H|now apply req_star]. Qed.

Definition varop_n : re :=
  RGrp "varop" (RCat [ RStar true RSp; RStar true (RChr ops_c); RC "="; RStar true (RChr post_c); RStar true RSp ]).
Lemma req_varop : req varop_re varop_n.
Proof.
  unfold varop_re, varop_n. apply req_grp. cbn [RCat].
  apply req_seq; [apply req_sp_tab|]. apply req_seq; [apply req_star; apply req_ops|].
  apply req_seq; [apply req_refl|]. apply req_seq; [apply req_star; apply req_post|apply req_sp_tab].
Qed.

Lemma req_mt : forall r r' s s1, req r r' -> mt r s s1 -> exists s2, mt r' s s2.
Proof.
  intros r r' s s1 E H. destruct (m r' mstate (fun x => Some x) s) as [x|] eqn:E2.
  - apply m_sound in E2. destruct E2 as [s2 [E2 _]]. now exists s2.
  - rewrite <- E in E2. pose proof (m_complete _ _ _ _ E2 _ H). discriminate.
Qed.

(** ** Operators *)

Lemma blank_forallb : forall w, blank w <-> forallb re_space w = true.
Proof. intro w. unfold blank. rewrite forallb_forall. reflexivity. Qed.

Lemma first_varop : forall b w1 pre post w2 t g,
  blank w1 -> forallb ops_c pre = true -> forallb post_c post = true -> blank w2 ->
  stops re_space t -> (w2 = [] -> stops post_c t) ->
  first varop_n (MS b ((w1 ++ pre ++ "=" ++ post ++ w2) ++ t) g)
        (MS false t (("varop", w1 ++ pre ++ "=" ++ post ++ w2) :: g)).
Proof.
  intros b w1 pre post w2 t g H1 Hp Hq H2 Ht Hw2. unfold varop_n. apply first_grp_app. cbn [RCat].
  rewrite <- !app_assoc. apply blank_forallb in H1. apply blank_forallb in H2.
  eapply first_seq.
  { apply first_star; [exact H1|]. intros c r E. destruct pre as [|x pre].
    - cbn in E. inversion E; subst. reflexivity.
    - cbn in E. inversion E; subst. cbn [forallb] in Hp. apply andb_prop in Hp. destruct Hp as [Hp _].
      destruct (re_space c) eqn:Es; [|reflexivity]. exfalso. clear -Hp Es. unfold ops_c, oneof, in_chars in Hp.
      simpl in Hp. repeat (apply orb_prop in Hp; destruct Hp as [Hp|Hp]);
        try (apply N.eqb_eq in Hp; subst; discriminate); discriminate. }
  eapply first_seq.
  { apply first_star; [exact Hp|]. intros c r E. cbn in E. inversion E; subst. reflexivity. }
  cbn [app]. eapply first_seq.
  { apply first_chr. reflexivity. }
  eapply first_seq.
  { apply first_star; [exact Hq|]. intros c r E. destruct w2 as [|x w2].
    - apply (Hw2 eq_refl c r E).
    - cbn in E. inversion E; subst. cbn [forallb] in H2. apply andb_prop in H2. destruct H2 as [H2 _].
      destruct (post_c c) eqn:Es; [|reflexivity]. exfalso. clear -H2 Es. unfold post_c, oneof, in_chars in Es.
      simpl in Es. repeat (apply orb_prop in Es; destruct Es as [Es|Es]);
        try (apply N.eqb_eq in Es; subst; discriminate); discriminate. }
  rewrite after_false. rewrite <- (after_false w2 t g). now apply first_star.
Qed.

Lemma mt_varop : forall s s', mt varop_re s s' -> exists w pre t,
  m_rest s = w ++ pre ++ "=" ++ t /\ blank w /\ forallb ops_c pre = true.
Proof.
  intros s s' H. apply (req_mt _ _ _ _ req_varop) in H. destruct H as [s2 H]. unfold varop_n in H.
  rewrite mt_grp_iff in H. destruct H as [s3 [H _]]. cbn [RCat] in H.
  rewrite mt_seq_iff in H. destruct H as [s4 [H1 H]]. unfold RSp in H1. rewrite mt_star_chr_iff in H1.
  destruct H1 as [w [t [E1 [Hw ->]]]].
  rewrite mt_seq_iff in H. destruct H as [s5 [H1 H]]. rewrite mt_star_chr_iff in H1.
  destruct H1 as [pre [t2 [E2 [Hp ->]]]].
  rewrite mt_seq_iff in H. destruct H as [s6 [H1 H]]. unfold RC in H1. rewrite mt_chr_iff in H1.
  destruct H1 as [c [t3 [E3 [Hc ->]]]]. cbn in E2, E3. subst t t2.
  exists w, pre, t3. split; [|split; [now apply blank_forallb|exact Hp]].
  rewrite E1. unfold oneof, in_chars in Hc. simpl in Hc. rewrite orb_false_r in Hc. apply N.eqb_eq in Hc.
  now subst c.
Qed.
