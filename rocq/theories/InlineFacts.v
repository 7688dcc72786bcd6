(** * The evaluation of inline code: facts *)

From Verif Require Import PyStr Regex UniTable Patterns Inline Item Lines Stash
  StrFacts ReFacts LinesFacts Spec_Parse MatchFacts ShapeFacts Proofs_Parse StmtFacts Spec_Inline.

(** ** Arguments in patterns *)

(** A pattern that only matches texts beginning with [c]. *)
Definition opens (c : N) (r : re) : Prop := forall b x t g, x <> c -> fails r (MS b (x :: t) g).

Lemma opens_rc : forall c, opens c (RC [c]).
Proof.
  intros c b x t g H A k. cbn [m RC m_rest]. unfold RC. cbn [m m_rest]. unfold oneof, in_chars. cbn [existsb].
  destruct (N.eqb_spec c x) as [E|E]; [congruence|]. destruct (N.eqb_spec x c) as [E2|E2]; [congruence|reflexivity].
Qed.
Lemma opens_seq : forall c r r', opens c r -> opens c (RSeq r r').
Proof. intros c r r' H b x t g Hx A k. cbn [m]. now apply H. Qed.
Lemma opens_comma : forall r, opens 44%N (RSeq comma_sp r).
Proof. intro r. apply opens_seq. apply opens_seq. apply (opens_rc 44%N). Qed.

Definition inner_arg (c : N) (a : str) : Prop := forall x, In x a -> x <> c /\ x <> cNL.
Lemma inner_dot : forall c a, inner_arg c a -> forallb dotp a = true.
Proof.
  intros c a H. apply forallb_forall. intros x Hx. destruct (H x Hx) as [_ Hn]. unfold dotp.
  destruct (N.eqb_spec x cNL); [congruence|reflexivity].
Qed.

Lemma lazy_to : forall c rest a t g s2, inner_arg c a -> opens c rest ->
  first rest (MS false (c :: t) g) s2 ->
  first (RSeq dot_star_lazy rest) (MS false (a ++ c :: t) g) s2.
Proof.
  intros c rest a t g s2 Ha Ho Hr. apply first_lazy.
  - now apply (inner_dot c).
  - now rewrite after_false.
  - intros u v E Hv. rewrite after_false. destruct v as [|x v]; [congruence|]. cbn [app]. apply Ho.
    apply (Ha x). rewrite E. apply in_app_iff. right. now left.
Qed.

Lemma lazy_grp_to : forall n c rest a t g s2, inner_arg c a -> opens c rest ->
  first rest (MS false (c :: t) ((n, a) :: g)) s2 ->
  first (RSeq (arg_grp n) rest) (MS false (a ++ c :: t) g) s2.
Proof.
  intros n c rest a t g s2 Ha Ho Hr A k x Hk. unfold arg_grp.
  change (m (RStar false (RChr dotp)) A
            (fun s' => m rest A k (MS (m_bol s') (m_rest s')
               ((n, consumed (MS false (a ++ c :: t) g) s') :: m_grp s'))) (MS false (a ++ c :: t) g) = Some x).
  apply star_class_lazy.
  - now apply (inner_dot c).
  - rewrite after_false. cbn [m_bol m_rest m_grp]. rewrite (consumed_app false a (c :: t) g) by reflexivity.
    now apply Hr.
  - intros u v E Hv. rewrite after_false. cbn [m_bol m_rest m_grp]. destruct v as [|y v]; [congruence|].
    cbn [app]. apply Ho. apply (Ha y). rewrite E. apply in_app_iff. right. now left.
Qed.

Lemma first_comma_sp : forall rest w t g s2, blank w -> not_indented t -> first rest (MS false t g) s2 ->
  first (RSeq comma_sp rest) (MS false (44%N :: w ++ t) g) s2.
Proof.
  intros rest w t g s2 Hw Ht Hr. eapply first_seq; [|exact Hr]. unfold comma_sp.
  eapply first_seq; [apply first_chr; reflexivity|]. now apply first_sp_star.
Qed.
Lemma first_comma : forall rest t g s2, first rest (MS false t g) s2 ->
  first (RSeq (RC ",") rest) (MS false (44%N :: t) g) s2.
Proof. intros rest t g s2 Hr. eapply first_seq; [apply first_chr; reflexivity|exact Hr]. Qed.

Lemma plain_inner : forall a c, plain_arg a -> In c ("()," : str) -> inner_arg c a.
Proof.
  intros a c [_ H] Hc x Hx. split; intro E; subst x.
  - apply (H c); [apply in_app_iff; now left|exact Hx].
  - apply (H cNL); [apply in_app_iff; right; now left|exact Hx].
Qed.
Lemma inner_app : forall c a b, inner_arg c a -> inner_arg c b -> inner_arg c (a ++ b).
Proof. intros c a b Ha Hb x Hx. apply in_app_iff in Hx. destruct Hx; [now apply Ha|now apply Hb]. Qed.

(** ** The call *)

Lemma paren_unique : forall a b c d, a ++ 40%N :: b = c ++ 40%N :: d -> ~ In 40%N a -> ~ In 40%N b -> a = c /\ b = d.
Proof.
  induction a as [|x a IH]; intros b c d E Ha Hb.
  - destruct c as [|y c]; inversion E; subst; [auto|]. exfalso. apply Hb. apply in_app_iff. right. now left.
  - destruct c as [|y c]; inversion E; subst; [exfalso; apply Ha; now left|].
    destruct (IH b c d) as [-> ->]; auto. intro H. apply Ha. now right.
Qed.

Definition lit_call (n : str) (rest : re) : re := RSeq dot_star (RSeq (RLit (n ++ "(")) rest).

Lemma first_call : forall n rest w t s2, ~ In 40%N n -> ~ In 40%N t -> ~ In cNL w ->
  first rest (MS false t []) s2 -> first (lit_call n rest) (MS true (w ++ n ++ 40%N :: t) []) s2.
Proof.
  intros n rest w t s2 Hn Ht Hw Hr. unfold lit_call. apply first_greedy.
  - apply forallb_forall. intros x Hx. unfold dotp. destruct (N.eqb_spec x cNL) as [->|]; [contradiction|reflexivity].
  - replace (n ++ 40%N :: t) with ((n ++ "(") ++ t) by (now rewrite <- app_assoc).
    eapply first_seq.
    + unfold after at 1. apply first_lit.
    + unfold after. destruct (n ++ "(") as [|y l] eqn:E; [destruct n; discriminate|exact Hr].
  - intros u v E Hu Hp. apply fails_mt. intros s' H. apply mt_seq_iff in H. destruct H as [s1 [H _]].
    apply mt_lit_iff in H. destruct H as [z [Ez _]]. cbn [m_rest] in Ez. subst v. rewrite <- app_assoc in E.
    assert (E2 : n ++ 40%N :: t = (u ++ n) ++ 40%N :: z) by (rewrite <- app_assoc; exact E).
    apply paren_unique in E2; [|exact Hn|exact Ht]. destruct E2 as [E2 _].
    apply (f_equal (@length N)) in E2. rewrite app_length in E2. destruct u; [congruence|]. cbn in E2. lia.
Qed.

Lemma call_occurs : forall n rest s, ~ occurs (n ++ "(") s -> re_match (lit_call n rest) s = None.
Proof.
  intros n rest s H. apply no_match. intros s' Hm. apply mt_seq_iff in Hm. destruct Hm as [s1 [H1 Hm]].
  apply mt_seq_iff in Hm. destruct Hm as [s2 [H2 _]]. apply mt_lit_iff in H2. destruct H2 as [t [E2 _]].
  unfold dot_star, RDot in H1. apply mt_star_chr_iff in H1. destruct H1 as [u [v [E1 [_ ->]]]]. cbn in E1, E2.
  apply H. exists u, t. rewrite E1. now f_equal.
Qed.

(** The other helpers are not called. *)
Lemma not_called : forall n' n w t, (forall c, In c w -> c = cSP) -> ~ In cSP n' -> ~ In 40%N n -> ~ In 40%N t ->
  endswith n' n = false -> ~ occurs (n' ++ "(") (w ++ n ++ 40%N :: t).
Proof.
  intros n' n w t Hw Hs Hn Ht He [a [z E]].
  assert (E2 : (w ++ n) ++ 40%N :: t = (a ++ n') ++ 40%N :: z).
  { rewrite <- !app_assoc. rewrite E, <- !app_assoc. reflexivity. }
  apply paren_unique in E2; [|intro H; apply in_app_iff in H; destruct H as [H|H]; [|contradiction];
    apply Hw in H; discriminate|exact Ht].
  destruct E2 as [E2 _].
  assert (X : endswith n' n = true); [|congruence]. apply endswith_spec.
  apply app_eq_app in E2. destruct E2 as [l [[E1 E2]|[E1 E2]]].
  - destruct l as [|x l]; [exists []; now rewrite E2|]. exfalso. apply Hs. rewrite E2.
    rewrite (Hw x) by (rewrite E1; apply in_app_iff; right; now left). now left.
  - exists l. exact E2.
Qed.

(** ** Quotes *)
Lemma strip_quoted : forall t a, quoted t a -> strip_quotes a = t.
Proof.
  intros t a [q [Hq [-> [H1 H2]]]]. unfold strip_quotes, strip.
  assert (Q : in_chars [cDQ; cSQ] q = true) by (destruct Hq as [<-|[<-|[]]]; reflexivity).
  assert (L : forall x, In x t -> in_chars [cDQ; cSQ] x = false).
  { intros x Hx. unfold in_chars. cbn [existsb]. destruct (N.eqb_spec x cDQ) as [->|]; [contradiction|].
    destruct (N.eqb_spec x cSQ) as [->|]; [contradiction|]. reflexivity. }
  unfold strip_p. rewrite lstrip_p_app by (cbn [forallb]; now rewrite Q).
  destruct t as [|x t].
  - cbn [app lstrip_p]. rewrite Q. reflexivity.
  - rewrite lstrip_p_id by (apply L; now left). rewrite rstrip_p_app by (cbn [forallb]; now rewrite Q).
    destruct (exists_last (l := x :: t)) as [t' [y E]]; [discriminate|]. rewrite E. apply rstrip_p_id.
    apply L. rewrite E. apply in_app_iff. right. now left.
Qed.
Lemma quoted_ne : forall t a, quoted t a -> a <> [].
Proof. intros t a [q [_ [-> _]]]. discriminate. Qed.

(** ** Cleaning *)
Lemma clean_call : forall w n x, (forall c, In c w -> c = cSP) -> (forall c r, n = c :: r -> in_chars "${@" c = false) -> n <> [] ->
  inline_clean ("${@" ++ w ++ n ++ x ++ ")}") = w ++ n ++ x ++ ")".
Proof.
  intros w n x Hw Hn Hn0. unfold inline_clean, lstrip, rstrip.
  change ("${@" ++ w ++ n ++ x ++ ")}") with (("${@" : str) ++ (w ++ n ++ x ++ ")}")).
  rewrite lstrip_p_app by reflexivity. rewrite lstrip_p_id.
  - replace (w ++ n ++ x ++ ")}") with ((w ++ n ++ x ++ ")") ++ "}") by (rewrite <- !app_assoc; reflexivity).
    rewrite rstrip_p_app by reflexivity.
    replace (w ++ n ++ x ++ ")") with ((w ++ n ++ x) ++ ")") by (rewrite <- !app_assoc; reflexivity).
    apply rstrip_p_id. reflexivity.
  - destruct w as [|c w]; cbn [app].
    + destruct n as [|c n]; [congruence|]. now apply (Hn c n).
    + rewrite (Hw c) by now left. reflexivity.
Qed.

(** ** Stars around groups *)
Lemma star_skip : forall r A (k : mstate -> option A) s, fails r s -> m (RStar true r) A k s = k s.
Proof. intros r A k s H. rewrite m_star. destruct (length (m_rest s)); simpl; [reflexivity|]. now rewrite H. Qed.
Lemma star_round : forall r A (k : mstate -> option A) s x, m_rest s <> [] ->
  (forall K, (forall s', length (m_rest s') < length (m_rest s) -> K s' = m (RStar true r) A k s') -> m r A K s = Some x) ->
  m (RStar true r) A k s = Some x.
Proof.
  intros r A k s x Hs H. rewrite m_star. destruct (length (m_rest s)) as [|n] eqn:En; [destruct (m_rest s); [congruence|discriminate]|].
  simpl. rewrite En. rewrite (H (fun s' => if length (m_rest s') <? S n then star true r A k n s' else None)); [reflexivity|].
  intros s' Hl. destruct (Nat.ltb_spec (length (m_rest s')) (S n)) as [_|]; [|lia].
  rewrite m_star. apply star_fuel; lia.
Qed.

Lemma comma_sp_eq : forall A (K : mstate -> option A) w t g x, blank w -> not_indented t ->
  K (MS false t g) = Some x -> m comma_sp A K (MS false (44%N :: w ++ t) g) = Some x.
Proof.
  intros A K w t g x Hw Ht HK.
  assert (F : first comma_sp (MS false (44%N :: w ++ t) g) (MS false t g)).
  { unfold comma_sp. eapply first_seq; [apply first_chr; reflexivity|]. now apply first_sp_star. }
  now apply F.
Qed.

(** The branch in a group at the end of a call. *)
Lemma grp_eq : forall n a A (K : mstate -> option A) c t g x, inner_arg c a ->
  K (MS false (c :: t) ((n, a) :: g)) = Some x ->
  (forall y r g', In y a -> length r < length (a ++ c :: t) -> K (MS false (y :: r) g') = None) ->
  m (arg_grp n) A K (MS false (a ++ c :: t) g) = Some x.
Proof.
  intros n a A K c t g x Ha HK Hf. unfold arg_grp.
  change (m (RStar false (RChr dotp)) A
            (fun s' => K (MS (m_bol s') (m_rest s') ((n, consumed (MS false (a ++ c :: t) g) s') :: m_grp s')))
            (MS false (a ++ c :: t) g) = Some x).
  apply star_class_lazy.
  - now apply (inner_dot c).
  - rewrite after_false. cbn [m_bol m_rest m_grp]. now rewrite (consumed_app false a (c :: t) g) by reflexivity.
  - intros u v E Hv. rewrite after_false. cbn [m_bol m_rest m_grp]. destruct v as [|y v]; [congruence|].
    cbn [app]. apply Hf; [rewrite E; apply in_app_iff; right; now left|].
    rewrite E, !app_length. cbn [length]. rewrite ?app_length. cbn [length]. lia.
Qed.

Definition d_false : re := RSeq comma_sp (arg_grp "falseval").
Definition d_true : re := RCat [comma_sp; arg_grp "trueval"; RStar true d_false].
Definition d_end : re := RSeq (RStar true d_true) (RC ")").

Lemma d_false_opens : opens 44%N d_false.
Proof. apply opens_comma. Qed.
Lemma d_true_opens : opens 44%N d_true.
Proof. apply opens_comma. Qed.

Lemma d_end_none : forall b y r g, y <> 44%N -> y <> 41%N -> fails d_end (MS b (y :: r) g).
Proof.
  intros b y r g H1 H2 A k. unfold d_end. change (m (RStar true d_true) A (m (RC ")") A k) (MS b (y :: r) g) = None).
  rewrite star_skip by now apply d_true_opens. now apply (opens_rc 41%N).
Qed.

Lemma plain_chars : forall a y, plain_arg a -> In y a -> y <> 44%N /\ y <> 41%N.
Proof.
  intros a y [_ H] Hy. split; intro E; subst y; (eapply H; [|exact Hy]); cbn; auto.
Qed.

Lemma d_end0 : forall g, first d_end (MS false ")" g) (MS false [] g).
Proof.
  intro g. unfold d_end. eapply first_seq; [apply first_star_none, d_true_opens; discriminate|]. now apply first_chr.
Qed.

Lemma d_end1 : forall w a g, blank w -> plain_arg a ->
  first d_end (MS false ("," ++ w ++ a ++ ")") g) (MS false [] (("trueval" : str, a) :: g)).
Proof.
  intros w a g Hw Ha A k x Hk. unfold d_end.
  change (m (RStar true d_true) A (m (RC ")") A k) (MS false ("," ++ w ++ a ++ ")") g) = Some x).
  apply star_round; [discriminate|]. intros K HK. cbn [m_rest] in HK.
  change (m comma_sp A (m (arg_grp "trueval") A (m (RStar true d_false) A K)) (MS false (44%N :: w ++ a ++ ")") g) = Some x).
  apply comma_sp_eq; [exact Hw|destruct a; [intros c r E; inversion E; reflexivity|intros c r E; inversion E; subst; now apply (proj1 Ha c a)]|].
  apply (grp_eq "trueval" a A _ 41%N []).
  - apply plain_inner; [exact Ha|cbn; auto].
  - rewrite star_skip by (apply d_false_opens; discriminate). rewrite HK.
    + rewrite star_skip by (apply d_true_opens; discriminate). exact Hk.
    + cbn [m_rest app length]. rewrite !app_length. cbn [length]. lia.
  - intros y r g' Hy Hl. destruct (plain_chars _ _ Ha Hy) as [H1 H2].
    rewrite star_skip by now apply d_false_opens. rewrite HK.
    + rewrite star_skip by now apply d_true_opens. now apply (opens_rc 41%N).
    + cbn [m_rest app length]. rewrite app_length in *. rewrite app_length. cbn [length] in *. lia.
Qed.

Lemma ends_paren : forall a, plain_arg a -> not_indented (a ++ ")").
Proof.
  intros a Ha. destruct a; intros c r E; inversion E; subst; [reflexivity|]. now apply (proj1 Ha c a).
Qed.
Lemma plain_then : forall a c t, plain_arg a -> re_space c = false -> not_indented (a ++ c :: t).
Proof.
  intros a c t Ha Hc. destruct a as [|y a]; intros z r E; inversion E; subst; [exact Hc|]. now apply (proj1 Ha z a).
Qed.

Lemma d_end2 : forall w a w2 f g, blank w -> plain_arg a -> blank w2 -> plain_arg f ->
  first d_end (MS false ("," ++ w ++ a ++ "," ++ w2 ++ f ++ ")") g)
    (MS false [] (("falseval" : str, f) :: ("trueval" : str, a) :: g)).
Proof.
  intros w a w2 f g Hw Ha Hw2 Hf A k x Hk. unfold d_end.
  change (m (RStar true d_true) A (m (RC ")") A k) (MS false ("," ++ w ++ a ++ "," ++ w2 ++ f ++ ")") g) = Some x).
  apply star_round; [discriminate|]. intros K HK. cbn [m_rest] in HK.
  change (m comma_sp A (m (arg_grp "trueval") A (m (RStar true d_false) A K))
            (MS false (44%N :: w ++ a ++ 44%N :: w2 ++ f ++ ")") g) = Some x).
  apply comma_sp_eq; [exact Hw|now apply plain_then|].
  apply (grp_eq "trueval" a A _ 44%N).
  - apply plain_inner; [exact Ha|cbn; auto].
  - apply star_round; [discriminate|]. intros K' HK'. cbn [m_rest] in HK'.
    change (m comma_sp A (m (arg_grp "falseval") A K') (MS false (44%N :: w2 ++ f ++ ")") (("trueval" : str, a) :: g)) = Some x).
    apply comma_sp_eq; [exact Hw2|now apply ends_paren|].
    apply (grp_eq "falseval" f A _ 41%N []).
    + apply plain_inner; [exact Hf|cbn; auto].
    + rewrite HK' by (cbn [m_rest app length]; rewrite !app_length; cbn [length]; lia).
      rewrite star_skip by (apply d_false_opens; discriminate). rewrite HK.
      * rewrite star_skip by (apply d_true_opens; discriminate). exact Hk.
      * cbn [m_rest app length]. rewrite !app_length. cbn [length]. lia.
    + intros y r g' Hy Hl. destruct (plain_chars _ _ Hf Hy) as [H1 H2].
      rewrite app_length in Hl. cbn [length] in Hl.
      rewrite HK' by (cbn [m_rest app length]; rewrite !app_length; cbn [length]; lia).
      rewrite star_skip by now apply d_false_opens. rewrite HK.
      * rewrite star_skip by now apply d_true_opens. now apply (opens_rc 41%N).
      * cbn [m_rest app length]. rewrite !app_length. cbn [length]. rewrite !app_length. cbn [length]. lia.
  - intros y r g' Hy Hl. destruct (plain_chars _ _ Ha Hy) as [H1 H2].
    rewrite star_skip by now apply d_false_opens. rewrite HK.
    + rewrite star_skip by now apply d_true_opens. now apply (opens_rc 41%N).
    + cbn [m_rest app length] in *. rewrite !app_length in *. cbn [length] in *. lia.
Qed.

(** The feature group before the end. *)
Lemma feature_first : forall a c t g s2, plain_arg a -> In c ("),":str) -> first d_end (MS false (c :: t) (("feature" : str, a) :: g)) s2 ->
  first (RSeq (arg_grp "feature") d_end) (MS false (a ++ c :: t) g) s2.
Proof.
  intros a c t g s2 Ha Hc Hr A k x Hk.
  change (m (arg_grp "feature") A (m d_end A k) (MS false (a ++ c :: t) g) = Some x).
  apply (grp_eq "feature" a A _ c t).
  - apply plain_inner; [exact Ha|]. cbn in *. tauto.
  - now apply Hr.
  - intros y r g' Hy _. destruct (plain_chars _ _ Ha Hy) as [H1 H2]. now apply d_end_none.
Qed.
