(** * Proofs about patterns of PACKAGES_DYNAMIC *)

From Verif Require Import PyStr Regex Patterns PyPath Res Const Item Lines Stash ReFacts NameFacts StrFacts
  ReachFacts QueryFacts Spec_Query Spec_Expand Spec_Pkg Proofs_Pkg Spec_Pattern.

Definition sign_pred (x : sign) : N -> bool :=
  match x with Plain c => ch c | Quoted c => ch c | Dot => dotp end.
Definition times_re (n : times) (greedy : bool) (r : re) : re :=
  match n with Once => r | Maybe => ROpt greedy r | Many => RStar greedy r | Repeated => RPlus greedy r end.
Definition piece_re (p : piece) : re := times_re (p_times p) (negb (lazily p)) (RChr (sign_pred (p_sign p))).
Fixpoint pieces_re (ps : list piece) (r : re) : re :=
  match ps with [] => r | p :: l => RSeq (piece_re p) (pieces_re l r) end.

Lemma sign_pred_iff : forall x c, sign_pred x c = true <-> stands_for x c.
Proof.
  intros [d|d|] c; cbn [sign_pred stands_for].
  - unfold ch. rewrite N.eqb_eq. intuition congruence.
  - unfold ch. rewrite N.eqb_eq. intuition congruence.
  - unfold dotp. rewrite Bool.negb_true_iff, N.eqb_neq. reflexivity.
Qed.

(** A piece matches the texts it stands for. *)
Lemma mt_piece : forall p s s', mt (piece_re p) s s' <->
  exists w t, m_rest s = w ++ t /\ fits p w /\ s' = after (m_bol s) w t (m_grp s).
Proof.
  intros [x n z] s s'. unfold piece_re, fits. cbn [p_sign p_times lazily].
  assert (Hf : forall w, forallb (sign_pred x) w = true <-> forall c, In c w -> stands_for x c).
  { intro w. rewrite forallb_forall. split; intros H c Hc; apply sign_pred_iff, H, Hc. }
  assert (H1 : forall s s', mt (RChr (sign_pred x)) s s' <->
     exists w t, m_rest s = w ++ t /\ ((forall c, In c w -> stands_for x c) /\ length w = 1) /\ s' = after (m_bol s) w t (m_grp s)).
  { clear s s'. intros s s'. rewrite mt_chr_iff. split.
    - intros [c [t [E1 [E2 E3]]]]. exists [c], t. split; [exact E1|]. split; [|exact E3]. split; [|reflexivity].
      intros d [<-|[]]. now apply sign_pred_iff.
    - intros [w [t [E1 [[E2 E4] E3]]]]. destruct w as [|c [|d w]]; try discriminate. exists c, t. split; [exact E1|].
      split; [apply sign_pred_iff, E2; now left|exact E3]. }
  assert (HS : forall s, after (m_bol s) [] (m_rest s) (m_grp s) = s) by (intros [b r g]; reflexivity).
  destruct n; cbn [times_re].
  - apply H1.
  - assert (Ho : mt (ROpt (negb z) (RChr (sign_pred x))) s s' <-> mt (RChr (sign_pred x)) s s' \/ s' = s).
    { unfold ROpt. destruct (negb z); rewrite mt_alt_iff, mt_eps_iff; tauto. }
    rewrite Ho, H1. split.
    + intros [[w [t [E1 [[E2 E3] E4]]]]| ->].
      * exists w, t. split; [exact E1|]. split; [split; [exact E2|lia]|exact E4].
      * exists [], (m_rest s). split; [reflexivity|]. split; [split; [intros c []|cbn; lia]|]. symmetry. apply HS.
    + intros [w [t [E1 [[E2 E3] E4]]]]. destruct w as [|c w].
      * right. cbn in E1. subst t. rewrite E4. apply HS.
      * left. exists (c :: w), t. split; [exact E1|]. split; [split; [exact E2|cbn in *; lia]|exact E4].
  - rewrite mt_star_chr_iff. split; intros [w [t [E1 [E2 E3]]]]; exists w, t.
    + pose proof (proj1 (Hf w) E2). tauto.
    + pose proof (proj2 (Hf w)). tauto.
  - unfold RPlus. rewrite mt_seq_iff. split.
    + intros [s1 [E1 E2]]. apply H1 in E1. destruct E1 as [w1 [t1 [F1 [[F2 F3] ->]]]].
      apply mt_star_chr_iff in E2. destruct E2 as [w2 [t2 [G1 [G2 ->]]]]. pose proof (proj1 (Hf w2) G2) as G3.
      destruct w1 as [|c [|d w1]]; try discriminate. cbn in G1. subst t1.
      exists (c :: w2), t2. split; [exact F1|]. split; [|destruct w2; reflexivity]. split; [|cbn; lia].
      intros d [<-|Hd]; [apply F2; now left|now apply G3].
    + intros [w [t [E1 [[E2 E3] ->]]]]. destruct w as [|c w]; [cbn in E3; lia|].
      exists (MS false (w ++ t) (m_grp s)). split.
      * apply H1. exists [c], (w ++ t). split; [exact E1|]. split; [|reflexivity]. split; [|reflexivity].
        intros d [<-|[]]. apply E2. now left.
      * apply mt_star_chr_iff. exists w, t. split; [reflexivity|]. split; [|destruct w; reflexivity].
        apply (proj2 (Hf w)). intros d Hd. apply E2. now right.
Qed.

Lemma after_after : forall b w w' t t' g, after (m_bol (after b w t g)) w' t' (m_grp (after b w t g)) = after b (w ++ w') t' g.
Proof. intros b [|c w] [|d w'] t t' g; reflexivity. Qed.

Lemma mt_pieces : forall ps r s s', mt (pieces_re ps r) s s' <->
  exists ws t, m_rest s = concat ws ++ t /\ Forall2 fits ps ws /\ mt r (after (m_bol s) (concat ws) t (m_grp s)) s'.
Proof.
  induction ps as [|p ps IH]; intros r s s'; cbn [pieces_re].
  - split.
    + intro H. exists [], (m_rest s). split; [reflexivity|]. split; [constructor|]. destruct s; exact H.
    + intros [ws [t [E [F H]]]]. inversion F; subst. cbn in E. subst t. destruct s; exact H.
  - rewrite mt_seq_iff. split.
    + intros [s1 [H1 H2]]. apply mt_piece in H1. destruct H1 as [w [t [E1 [E2 ->]]]]. apply IH in H2.
      destruct H2 as [ws [t' [F1 [F2 F3]]]]. exists (w :: ws), t'. cbn [concat]. rewrite <- app_assoc.
      split; [rewrite E1; f_equal; destruct w; exact F1|]. split; [now constructor|]. rewrite <- after_after with (t := t). exact F3.
    + intros [ws [t [E1 [E2 E3]]]]. inversion E2 as [|? w ? ws' H1 H2]; subst. cbn [concat] in *. rewrite <- app_assoc in E1.
      exists (after (m_bol s) w (concat ws' ++ t) (m_grp s)). split.
      * apply mt_piece. now exists w, (concat ws' ++ t).
      * apply IH. exists ws', t. split; [destruct w; reflexivity|]. split; [exact H2|]. now rewrite after_after.
Qed.

(** ** Reading patterns *)

(** A text that does not go on with a number of times. *)
Definition no_times (t : str) : Prop := match t with c :: _ => ~ In c "*+?" | [] => True end.

Lemma no_times_quant : forall t, no_times t -> take_quant t = (QNone, t).
Proof.
  intros [|c t] H; [reflexivity|]. unfold take_quant. cbn [no_times] in H.
  assert (H1 : N.eqb c 42 = false) by (apply N.eqb_neq; intros ->; apply H; vm_compute; tauto).
  assert (H2 : N.eqb c 43 = false) by (apply N.eqb_neq; intros ->; apply H; vm_compute; tauto).
  assert (H3 : N.eqb c 63 = false) by (apply N.eqb_neq; intros ->; apply H; vm_compute; tauto).
  rewrite H1, H2, H3. cbv zeta beta. destruct t as [|d t]; [reflexivity|].
  destruct (N.eqb d 63); [reflexivity|]. destruct (N.eqb d 43); reflexivity.
Qed.

Definition quant_of (p : piece) : quant :=
  match p_times p with
  | Once => QNone
  | Maybe => QOpt (negb (lazily p)) false
  | Many => QStar (negb (lazily p)) false
  | Repeated => QPlus (negb (lazily p)) false
  end.

Lemma take_times : forall p t, written p -> no_times t ->
  take_quant (times_text (p_times p) ++ (if lazily p then "?" else []) ++ t) = (quant_of p, t).
Proof.
  intros [x n z] t [_ Hw] Ht. unfold quant_of. cbn [p_times lazily p_sign] in *.
  destruct n; cbn [times_text List.app].
  - rewrite (Hw eq_refl). cbn [List.app]. now apply no_times_quant.
  - destruct z; [reflexivity|]. cbn [List.app negb]. destruct t as [|c t]; [reflexivity|]. cbn [no_times] in Ht.
    unfold take_quant.
    assert (H2 : N.eqb c 43 = false) by (apply N.eqb_neq; intros ->; apply Ht; vm_compute; tauto).
    assert (H3 : N.eqb c 63 = false) by (apply N.eqb_neq; intros ->; apply Ht; vm_compute; tauto).
    now rewrite H3, H2.
  - destruct z; [reflexivity|]. cbn [List.app negb]. destruct t as [|c t]; [reflexivity|]. cbn [no_times] in Ht.
    unfold take_quant.
    assert (H2 : N.eqb c 43 = false) by (apply N.eqb_neq; intros ->; apply Ht; vm_compute; tauto).
    assert (H3 : N.eqb c 63 = false) by (apply N.eqb_neq; intros ->; apply Ht; vm_compute; tauto).
    now rewrite H3, H2.
  - destruct z; [reflexivity|]. cbn [List.app negb]. destruct t as [|c t]; [reflexivity|]. cbn [no_times] in Ht.
    unfold take_quant.
    assert (H2 : N.eqb c 43 = false) by (apply N.eqb_neq; intros ->; apply Ht; vm_compute; tauto).
    assert (H3 : N.eqb c 63 = false) by (apply N.eqb_neq; intros ->; apply Ht; vm_compute; tauto).
    now rewrite H3, H2.
Qed.

Lemma quantify_piece : forall p, quantify (quant_of p) (RChr (sign_pred (p_sign p))) = piece_re p.
Proof. intros [x n z]. destruct n; reflexivity. Qed.

Lemma compile_piece : forall p t f r, written p -> no_times t -> compile_pat f t = Some r ->
  compile_pat (S f) (piece_text p ++ t) = Some (RSeq (piece_re p) r).
Proof.
  intros p t f r Hw Ht Hr. pose proof (take_times p t Hw Ht) as Hq. pose proof (quantify_piece p) as Hp.
  unfold piece_text. rewrite <- !app_assoc.
  remember (times_text (p_times p) ++ (if lazily p then "?" else []) ++ t) as u eqn:Eu. clear Eu.
  destruct Hw as [Hw _]. rewrite <- Hp. clear Hp.
  destruct (p_sign p) as [c|c|]; cbn [sign_text List.app compile_pat sign_pred].
  - assert (H1 : forall k, In k "^$\()[]{}|*+?." -> N.eqb c k = false).
    { intros k Hk. apply N.eqb_neq. intros ->. now apply Hw. }
    rewrite (H1 94%N) by (vm_compute; tauto). rewrite (H1 36%N) by (vm_compute; tauto). rewrite (H1 46%N) by (vm_compute; tauto).
    rewrite (H1 cBSL) by (vm_compute; tauto).
    assert (H2 : in_chars unsupported_chars c = false).
    { destruct (in_chars unsupported_chars c) eqn:E; [|reflexivity]. exfalso. apply Hw.
      unfold in_chars in E. apply existsb_exists in E. destruct E as [k [Hk E]]. apply N.eqb_eq in E. subst k.
      vm_compute in Hk. vm_compute. tauto. }
    rewrite H2. cbv beta zeta. rewrite Hq, Hr. reflexivity.
  - change (N.eqb 92 94) with false. change (N.eqb 92 36) with false. change (N.eqb 92 46) with false.
    change (N.eqb 92 cBSL) with true. cbv iota.
    assert (H2 : is_alnum_ascii c = false).
    { destruct Hw as [Ha [Hb Hc]]. unfold is_alnum_ascii, por, up_c, low_c, dig_c, range.
      rewrite !Bool.orb_false_iff, !Bool.andb_false_iff, !N.leb_gt. lia. }
    rewrite H2. cbv beta zeta. rewrite Hq, Hr. reflexivity.
  - change (N.eqb 46 94) with false. change (N.eqb 46 36) with false. change (N.eqb 46 46) with true. cbv beta iota zeta.
    rewrite Hq, Hr. reflexivity.
Qed.

Lemma piece_no_times : forall p t, written p -> no_times (piece_text p ++ t).
Proof.
  intros p t [Hw _]. unfold piece_text. destruct (p_sign p) as [c|c|]; cbn [sign_text List.app no_times].
  - intro H. apply Hw. vm_compute in H. vm_compute. tauto.
  - vm_compute. intuition discriminate.
  - vm_compute. intuition discriminate.
Qed.

Lemma compile_more : forall f t r, compile_pat f t = Some r -> compile_pat (S f) t = Some r.
Proof.
  induction f as [|f IH]; intros t r H; [discriminate|].
  destruct t as [|c t]; [exact H|]. cbn [compile_pat] in H. remember (S f) as g eqn:Eg. cbn [compile_pat].
  assert (Ha : forall q u x, (let '(q0, t') := take_quant u in match compile_pat f t' with Some r' => Some (RSeq (quantify q0 q) r') | None => None end) = Some x ->
     (let '(q0, t') := take_quant u in match compile_pat g t' with Some r' => Some (RSeq (quantify q0 q) r') | None => None end) = Some x).
  { intros q u x Hx. destruct (take_quant u) as [q0 t']. destruct (compile_pat f t') as [r'|] eqn:E; [|discriminate].
    subst g. rewrite (IH _ _ E). exact Hx. }
  assert (Hb : forall q u x, (match take_quant u with (QNone, t') => match compile_pat f t' with Some r' => Some (RSeq q r') | None => None end | _ => None end) = Some x ->
     (match take_quant u with (QNone, t') => match compile_pat g t' with Some r' => Some (RSeq q r') | None => None end | _ => None end) = Some x).
  { intros q u x Hx. destruct (take_quant u) as [q0 t']. destruct q0; try discriminate.
    destruct (compile_pat f t') as [r'|] eqn:E; [|discriminate]. subst g. rewrite (IH _ _ E). exact Hx. }
  destruct (N.eqb c 94); [now apply Hb|]. destruct (N.eqb c 36); [now apply Hb|]. destruct (N.eqb c 46); [now apply Ha|].
  destruct (N.eqb c cBSL).
  - destruct t as [|d t]; [discriminate|]. destruct (is_alnum_ascii d); [discriminate|]. now apply Ha.
  - destruct (in_chars unsupported_chars c); [discriminate|]. now apply Ha.
Qed.
Lemma compile_enough : forall f g t r, f <= g -> compile_pat f t = Some r -> compile_pat g t = Some r.
Proof. intros f g t r H. induction H; [auto|]. intro E. apply compile_more. now apply IHle. Qed.

Lemma compile_pieces : forall ps t f r, Forall written ps -> no_times t -> compile_pat f t = Some r ->
  compile_pat (length ps + f) (concat (map piece_text ps) ++ t) = Some (pieces_re ps r) /\
  no_times (concat (map piece_text ps) ++ t) /\ length ps <= length (concat (map piece_text ps)).
Proof.
  intros ps t f r H. induction H as [|p ps Hp H IH]; intros Ht Hr; cbn [map concat length pieces_re Nat.add List.app].
  - auto.
  - destruct (IH Ht Hr) as [E1 [E2 E3]]. rewrite <- app_assoc. split; [now apply compile_piece|]. split.
    + now apply piece_no_times.
    + rewrite app_length. unfold piece_text at 1. rewrite app_length. destruct (p_sign p); cbn [sign_text length]; lia.
Qed.

Definition end_re (dollar : bool) : re := if dollar then RSeq REol REps else REps.
Definition pattern_re (caret : bool) (ps : list piece) (dollar : bool) : re :=
  let r := pieces_re ps (end_re dollar) in if caret then RSeq RBol r else r.

Lemma dyn_caret : forall u r, no_times u -> dyn_pattern u = Some r -> dyn_pattern ("^" ++ u) = Some (RSeq RBol r).
Proof.
  intros u r Hq H. unfold dyn_pattern in *. change ("^" ++ u) with (94%N :: u). cbn [length].
  remember (S (length u)) as g eqn:Eg. clear Eg. cbn [compile_pat]. change (N.eqb 94 94) with true. cbv beta iota zeta.
  rewrite no_times_quant by exact Hq. now rewrite H.
Qed.

Lemma dyn_pattern_text : forall caret ps dollar, Forall written ps ->
  dyn_pattern (pattern_text caret ps dollar) = Some (pattern_re caret ps dollar).
Proof.
  intros caret ps dollar H. unfold pattern_text, pattern_re.
  set (t := (if dollar then "$" else []) : str).
  assert (He : compile_pat (S (length t)) t = Some (end_re dollar)) by (subst t; destruct dollar; reflexivity).
  assert (Hn : no_times t) by (subst t; destruct dollar; [vm_compute; intuition discriminate|exact I]).
  destruct (compile_pieces ps t (S (length t)) _ H Hn He) as [E1 [E2 E3]].
  set (u := concat (map piece_text ps) ++ t) in *.
  assert (E4 : compile_pat (S (length u)) u = Some (pieces_re ps (end_re dollar))).
  { refine (compile_enough _ _ _ _ _ E1). subst u. rewrite app_length. lia. }
  destruct caret; [|exact E4]. exact (dyn_caret u _ E2 E4).
Qed.

Lemma pattern_agrees : forall caret ps dollar n,
  matched (re_match (pattern_re caret ps dollar) n) = true <-> agrees ps dollar n.
Proof.
  intros caret ps dollar n. unfold re_match. rewrite matched_iff. unfold pattern_re, agrees.
  assert (He : forall s, (exists s', mt (end_re dollar) s s') <-> (dollar = true -> m_rest s = [] \/ m_rest s = [10%N])).
  { intro s. unfold end_re. destruct dollar.
    - split.
      + intros [s' H] _. apply mt_seq_iff in H. destruct H as [s1 [H _]]. apply mt_eol_iff in H. exact (proj2 H).
      + intro H. exists s. apply mt_seq_iff. exists s. split; [|now apply mt_eps_iff]. apply mt_eol_iff. split; [reflexivity|now apply H].
    - split; [discriminate|]. intros _. exists s. now apply mt_eps_iff. }
  assert (Hp : (exists s', mt (pieces_re ps (end_re dollar)) (MS true n []) s') <->
     exists ws t, n = concat ws ++ t /\ Forall2 fits ps ws /\ (dollar = true -> t = [] \/ t = [10%N])).
  { split.
    - intros [s' H]. apply mt_pieces in H. destruct H as [ws [t [E1 [E2 E3]]]]. exists ws, t. split; [exact E1|]. split; [exact E2|].
      assert (E4 : exists s', mt (end_re dollar) (after true (concat ws) t []) s') by now exists s'.
      pose proof (proj1 (He _) E4) as E5. unfold after in E5. destruct (concat ws); exact E5.
    - intros [ws [t [E1 [E2 E3]]]]. assert (E4 : exists s', mt (end_re dollar) (after true (concat ws) t []) s').
      { apply (proj2 (He _)). unfold after. destruct (concat ws); exact E3. }
      destruct E4 as [s' E4]. exists s'. apply mt_pieces. exists ws, t. auto. }
  destruct caret; [|exact Hp]. rewrite <- Hp. split.
  - intros [s' H]. apply mt_seq_iff in H. destruct H as [s1 [E H]]. apply mt_bol_iff in E. destruct E as [-> _]. now exists s'.
  - intros [s' H]. exists s'. apply mt_seq_iff. exists (MS true n []). split; [now apply mt_bol_iff|exact H].
Qed.

Lemma C66_pattern_lemma : forall e s file name, env_ok e -> reach e s ->
  (forall i v l p, shown s file "PACKAGES_DYNAMIC" i -> expand_term e s file (stripped i) = Ok v -> cuts blank v l -> In p l ->
     exists caret ps dollar, Forall written ps /\ p = pattern_text caret ps dollar) ->
  forall b, is_dynamic_package e s file name = Ok b ->
  (b = true <-> exists n i v l caret ps dollar, expand_term e s file name = Ok n /\
     shown s file "PACKAGES_DYNAMIC" i /\ expand_term e s file (stripped i) = Ok v /\ cuts blank v l /\
     In (pattern_text caret ps dollar) l /\ Forall written ps /\ agrees ps dollar n).
Proof.
  intros e s file name He Hr Hall b Hb. rewrite (C66_lemma e s file name b He Hr Hb). split.
  - intros [n [i [v [l [p [rx [H0 [H1 [H2 [H3 [H4 [H5 H6]]]]]]]]]]]].
    destruct (Hall i v l p H1 H2 H3 H4) as [caret [ps [dollar [Hw ->]]]].
    rewrite (dyn_pattern_text caret ps dollar Hw) in H5. inversion H5; subst rx. apply pattern_agrees in H6.
    exists n, i, v, l, caret, ps, dollar. tauto.
  - intros [n [i [v [l [caret [ps [dollar [H0 [H1 [H2 [H3 [H4 [H5 H6]]]]]]]]]]]]].
    exists n, i, v, l, (pattern_text caret ps dollar), (pattern_re caret ps dollar).
    do 5 (split; [assumption|]). split; [now apply dyn_pattern_text|now apply pattern_agrees].
Qed.

(** ** Entries that are no pattern *)

Lemma compile_bad : forall f c t, In c "*+?" -> compile_pat f (c :: t) = None.
Proof. intros [|f] c t H; [reflexivity|]. vm_compute in H. destruct H as [<-|[<-|[<-|[]]]]; reflexivity. Qed.

Lemma dynamic_loop_bad : forall n l, (exists p, In p l /\ dyn_pattern p = None) ->
  (fix go (l : list str) : Res.res bool :=
     match l with
     | [] => Ok false
     | p :: r => match dyn_pattern p with
                 | None => Raise RegexUnsupported
                 | Some rx => if matched (re_match rx n) then Ok true else go r
                 end
     end) l <> Ok false.
Proof.
  intros n l [p [Hp E]]. induction l as [|q l IH]; [destruct Hp|]. destruct (dyn_pattern q) as [rx|] eqn:Eq.
  - destruct (matched (re_match rx n)); [discriminate|]. apply IH. destruct Hp as [->|Hp]; [congruence|exact Hp].
  - discriminate.
Qed.

Lemma C66_unread_lemma : forall e s file name i v l c t, env_ok e -> reach e s ->
  shown s file "PACKAGES_DYNAMIC" i -> expand_term e s file (stripped i) = Ok v -> cuts blank v l ->
  In c "*+?" -> In (c :: t) l \/ In ("^" ++ c :: t) l -> is_dynamic_package e s file name <> Ok false.
Proof.
  intros e s file name i v l c t He Hr H1 H2 H3 Hc Hl H.
  assert (Hbad : exists p, In p l /\ dyn_pattern p = None).
  { destruct Hl as [Hl|Hl].
    - exists (c :: t). split; [exact Hl|now apply compile_bad].
    - exists ("^" ++ c :: t). split; [exact Hl|]. unfold dyn_pattern. change ("^" ++ c :: t) with (94%N :: c :: t). cbn [length].
      remember (S (length t)) as g eqn:Eg. clear Eg. cbn [compile_pat]. change (N.eqb 94 94) with true. cbv beta iota zeta.
      assert (Hq : fst (take_quant (c :: t)) <> QNone).
      { vm_compute in Hc. destruct Hc as [<-|[<-|[<-|[]]]]; (destruct t as [|d t]; [discriminate|]); unfold take_quant;
          (destruct (N.eqb d 63); [discriminate|]); (destruct (N.eqb d 43); discriminate). }
      destruct (take_quant (c :: t)) as [q t']. cbn [fst] in Hq. now destruct q. }
  destruct Hbad as [p [Hp Hb]].
  unfold is_dynamic_package in H.
  destruct (expand_term e s file name) as [n|ex|] eqn:En; try discriminate. cbn [Res.bind] in H.
  destruct (packages_dynamic e s file) as [ps|ex|] eqn:Ep; try discriminate. cbn [Res.bind] in H.
  refine (dynamic_loop_bad n (e_sset e ps) _ H). exists p. split; [|exact Hb].
  assert (Hs : In p ps) by (apply (packages_dynamic_iff e s file ps He Hr Ep); exists i, v, l; auto).
  destruct He as [_ He]. apply (Permutation.Permutation_in p (Permutation.Permutation_sym (He ps))). now apply dedup_str_In.
Qed.
