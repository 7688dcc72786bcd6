(** * Preferred matches of greedy groups, optional blanks and general stars *)

From Verif Require Import PyStr Regex UniTable Patterns
  StrFacts ReFacts LinesFacts Spec_Parse MatchFacts ShapeFacts Proofs_Parse.

(** ** Greedy runs that have to give back *)

Lemma first_greedy : forall p w rest b t g s2,
  forallb p w = true ->
  first rest (after b w t g) s2 ->
  (forall u v, t = u ++ v -> u <> [] -> forallb p u = true -> fails rest (MS false v g)) ->
  first (RSeq (RStar true (RChr p)) rest) (MS b (w ++ t) g) s2.
Proof.
  intros p w rest b t g s2 Hw Hr Hf A k x Hk. change (m (RStar true (RChr p)) A (fun s' => m rest A k s') (MS b (w ++ t) g) = Some x).
  apply star_class_greedy; [exact Hw|now apply Hr|]. intros u v E Hu Hp. now apply (Hf u v).
Qed.

Lemma first_greedy_grp : forall n p w rest b t g s2,
  forallb p w = true -> w <> [] ->
  first rest (MS false t ((n, w) :: g)) s2 ->
  (forall u v, t = u ++ v -> u <> [] -> forallb p u = true -> fails rest (MS false v ((n, w ++ u) :: g))) ->
  first (RSeq (RGrp n (RPlus true (RChr p))) rest) (MS b (w ++ t) g) s2.
Proof.
  intros n p w rest b t g s2 Hw Hn Hr Hf A k x Hk. destruct w as [|c w]; [congruence|].
  cbn [forallb] in Hw. apply andb_prop in Hw. destruct Hw as [Hc Hw].
  change (m (RPlus true (RChr p)) A
            (fun s' => m rest A k (MS (m_bol s') (m_rest s')
               ((n, consumed (MS b ((c :: w) ++ t) g) s') :: m_grp s'))) (MS b ((c :: w) ++ t) g) = Some x).
  unfold RPlus. cbn [m]. cbn [app m_rest]. rewrite Hc. cbn [m_grp].
  change (m (RStar true (RChr p)) A
            (fun s' => m rest A k (MS (m_bol s') (m_rest s')
               ((n, consumed (MS b ((c :: w) ++ t) g) s') :: m_grp s'))) (MS false (w ++ t) g) = Some x).
  apply star_class_greedy; [exact Hw| |].
  - rewrite after_false. cbn [m_bol m_rest m_grp]. rewrite (consumed_app b (c :: w) t g) by reflexivity.
    now apply Hr.
  - intros u v E Hu Hp. cbn [m_bol m_rest m_grp]. subst t.
    replace ((c :: w) ++ u ++ v) with (((c :: w) ++ u) ++ v) by (now rewrite <- !app_assoc).
    rewrite (consumed_app b ((c :: w) ++ u) v g) by reflexivity.
    now apply (Hf u v).
Qed.

(** A greedy group of any length (possibly empty). *)
Lemma first_greedy_grp0 : forall n p w rest t g s2,
  forallb p w = true ->
  first rest (MS false t ((n, w) :: g)) s2 ->
  (forall u v, t = u ++ v -> u <> [] -> forallb p u = true -> fails rest (MS false v ((n, w ++ u) :: g))) ->
  first (RSeq (RGrp n (RStar true (RChr p))) rest) (MS false (w ++ t) g) s2.
Proof.
  intros n p w rest t g s2 Hw Hr Hf A k x Hk.
  change (m (RStar true (RChr p)) A
            (fun s' => m rest A k (MS (m_bol s') (m_rest s')
               ((n, consumed (MS false (w ++ t) g) s') :: m_grp s'))) (MS false (w ++ t) g) = Some x).
  apply star_class_greedy; [exact Hw| |].
  - rewrite after_false. cbn [m_bol m_rest m_grp]. rewrite (consumed_app false w t g) by reflexivity. now apply Hr.
  - intros u v E Hu Hp. cbn [m_bol m_rest m_grp]. subst t.
    replace (w ++ u ++ v) with ((w ++ u) ++ v) by (now rewrite <- !app_assoc).
    rewrite (consumed_app false (w ++ u) v g) by reflexivity. now apply (Hf u v).
Qed.

(** Lazy run. *)
Lemma first_lazy : forall p w rest b t g s2,
  forallb p w = true ->
  first rest (after b w t g) s2 ->
  (forall u v, w = u ++ v -> v <> [] -> fails rest (after b u (v ++ t) g)) ->
  first (RSeq (RStar false (RChr p)) rest) (MS b (w ++ t) g) s2.
Proof.
  intros p w rest b t g s2 Hw Hr Hf A k x Hk. change (m (RStar false (RChr p)) A (fun s' => m rest A k s') (MS b (w ++ t) g) = Some x).
  apply star_class_lazy; [exact Hw|now apply Hr|]. intros u v E Hv. now apply (Hf u v).
Qed.

(** ** Stars of general patterns *)

Lemma star_fuel : forall r A (k : mstate -> option A) n n' s, length (m_rest s) <= n -> length (m_rest s) <= n' ->
  star true r A k n s = star true r A k n' s.
Proof.
  intros r A k. induction n as [|n IH]; intros n' s H H'.
  - destruct n' as [|n']; [reflexivity|]. simpl.
    rewrite (m_ext r A (fun s' => if length (m_rest s') <? length (m_rest s) then star true r A k n' s' else None)
               (fun _ => None)); [|intro s'; destruct (Nat.ltb_spec (length (m_rest s')) (length (m_rest s))); [lia|reflexivity]].
    assert (X : m r A (fun _ => None) s = None).
    { destruct (m r A (fun _ => None) s) eqn:E; [|reflexivity]. apply m_sound in E. destruct E as [s' [_ E]]. discriminate. }
    now rewrite X.
  - destruct n' as [|n'].
    + simpl.
      rewrite (m_ext r A (fun s' => if length (m_rest s') <? length (m_rest s) then star true r A k n s' else None)
               (fun _ => None)); [|intro s'; destruct (Nat.ltb_spec (length (m_rest s')) (length (m_rest s))); [lia|reflexivity]].
      assert (X : m r A (fun _ => None) s = None).
      { destruct (m r A (fun _ => None) s) eqn:E; [|reflexivity]. apply m_sound in E. destruct E as [s' [_ E]]. discriminate. }
      now rewrite X.
    + simpl.
      rewrite (m_ext r A (fun s' => if length (m_rest s') <? length (m_rest s) then star true r A k n s' else None)
               (fun s' => if length (m_rest s') <? length (m_rest s) then star true r A k n' s' else None)); [reflexivity|].
      intro s'. destruct (Nat.ltb_spec (length (m_rest s')) (length (m_rest s))); [|reflexivity]. apply IH; lia.
Qed.

Lemma first_star_step : forall r s s1 s2, first r s s1 -> length (m_rest s1) < length (m_rest s) ->
  first (RStar true r) s1 s2 -> first (RStar true r) s s2.
Proof.
  intros r s s1 s2 Hr Hl Hs A k x Hk. rewrite m_star. destruct (length (m_rest s)) as [|n] eqn:En; [lia|].
  simpl. rewrite En.
  assert (X : m r A (fun s' => if length (m_rest s') <? S n then star true r A k n s' else None) s = Some x).
  { apply Hr. destruct (Nat.ltb_spec (length (m_rest s1)) (S n)) as [_|]; [|lia].
    rewrite (star_fuel r A k n (length (m_rest s1)) s1); [|lia|lia]. rewrite <- m_star. now apply Hs. }
  now rewrite X.
Qed.

(** ** Blanks in front of a keyword *)

Lemma space_forallb : forall w, blank w -> forallb re_space w = true.
Proof. intros w H. now apply blank_forallb. Qed.

Lemma lit_fails_space : forall kw rest w t b g, (forall c k, kw = c :: k -> re_space c = false) -> kw <> [] ->
  blank w -> w <> [] -> fails (RSeq (RLit kw) rest) (MS b (w ++ t) g).
Proof.
  intros kw rest w t b g Hk Hk0 Hw Hw0 A k. change (m (RLit kw) A (fun s' => m rest A k s') (MS b (w ++ t) g) = None).
  apply m_lit_no. destruct kw as [|c kw]; [congruence|]. destruct w as [|x w]; [congruence|].
  destruct (startswith (c :: kw) ((x :: w) ++ t)) eqn:E; [|reflexivity].
  apply startswith_spec in E. destruct E as [r E]. inversion E; subst.
  assert (X : re_space c = true) by (apply Hw; now left). rewrite (Hk c kw eq_refl) in X. discriminate.
Qed.

Section Lead.
Context (kw : str) (rest : re) (w t : str) (s2 : mstate).
Context (Hk0 : kw <> []) (Hk : forall c k, kw = c :: k -> re_space c = false) (Hw : blank w).
Context (Hr : first rest (MS false t []) s2).

Lemma lead_kw : forall b, first (RSeq (RLit kw) rest) (MS b (kw ++ t) []) s2.
Proof. intro b. eapply first_seq; [apply first_lit|]. rewrite after_ne by exact Hk0. exact Hr. Qed.

Lemma kw_stops : stops re_space (kw ++ t).
Proof. intros c r E. destruct kw as [|x k]; [congruence|]. inversion E; subst. now apply (Hk c k). Qed.

Lemma lead_blanks0 : first (RSeq RBol (RSeq blanks0 (RSeq (RLit kw) rest))) (MS true (w ++ kw ++ t) []) s2.
Proof.
  eapply first_seq; [apply first_bol|]. eapply first_seq.
  - apply first_altl. apply first_star; [now apply space_forallb|apply kw_stops].
  - apply lead_kw.
Qed.

Lemma lead_star : first (RSeq RBol (RSeq (RStar true RSp) (RSeq (RLit kw) rest))) (MS true (w ++ kw ++ t) []) s2.
Proof.
  eapply first_seq; [apply first_bol|]. eapply first_seq.
  - apply first_star; [now apply space_forallb|apply kw_stops].
  - apply lead_kw.
Qed.

Lemma lead_lazy : first (RSeq RBol (RSeq (RStar false RSp) (RSeq (RLit kw) rest))) (MS true (w ++ kw ++ t) []) s2.
Proof.
  eapply first_seq; [apply first_bol|]. apply first_lazy.
  - now apply space_forallb.
  - apply lead_kw.
  - intros u v E Hv. unfold after. apply lit_fails_space; auto. intros c Hc. apply Hw. rewrite E. apply in_app_iff. now right.
Qed.

Lemma lead_plus_tab : first (RSeq RBol (RSeq (RAlt sp_plus tab_star) (RSeq (RLit kw) rest))) (MS true (w ++ kw ++ t) []) s2.
Proof.
  eapply first_seq; [apply first_bol|].
  destruct w as [|x w'] eqn:Ew.
  - cbn [app]. eapply first_seq; [|apply lead_kw]. apply first_altr.
    + intros A k. unfold sp_plus, RPlus. cbn [m]. unfold RSp. cbn [m m_rest].
      destruct (kw ++ t) as [|c r] eqn:E; [reflexivity|]. now rewrite (kw_stops c r E).
    + assert (X : first (RStar true (RChr (ch cTAB))) (MS true ([] ++ kw ++ t) []) (after true [] (kw ++ t) [])).
      { apply first_star; [reflexivity|]. intros c r E. pose proof (kw_stops c r E) as Hc. unfold ch.
        destruct (N.eqb_spec c cTAB) as [->|]; [discriminate|reflexivity]. }
      exact X.
  - eapply first_seq; [|apply lead_kw]. apply first_altl. apply first_plus; [now apply space_forallb|discriminate|apply kw_stops].
Qed.

Lemma lead_many : first (RSeq RBol (RSeq (RStar true blanks1) (RSeq (RLit kw) rest))) (MS true (w ++ kw ++ t) []) s2.
Proof.
  eapply first_seq; [apply first_bol|].
  assert (F : forall b, fails blanks1 (MS b (kw ++ t) [])).
  { intros b A k. unfold blanks1, sp_plus, tab_plus, RPlus. cbn [m]. unfold RSp, tab. cbn [m m_rest].
    destruct (kw ++ t) as [|c r] eqn:E; [reflexivity|]. pose proof (kw_stops c r E) as Hc. rewrite Hc. unfold ch.
    destruct (N.eqb_spec c cTAB) as [->|]; [discriminate|reflexivity]. }
  destruct w as [|x w'] eqn:Ew; [cbn [app]; eapply first_seq; [apply first_star_none; apply F|apply lead_kw]|].
  eapply first_seq; [|apply (lead_kw false)].
  eapply first_star_step; [apply first_altl; apply first_plus; [now apply space_forallb|discriminate|apply kw_stops]| |].
  - cbn [m_rest app length]. rewrite !app_length. lia.
  - apply first_star_none. apply F.
Qed.
End Lead.

(** Blanks behind the keyword. *)
Lemma first_blanks1 : forall b t g b0, blanks b -> not_indented t -> first blanks1 (MS b0 (b ++ t) g) (MS false t g).
Proof.
  intros b t g b0 [Hb0 Hb] Ht. apply first_altl. apply first_plus; [now apply space_forallb|exact Hb0|].
  intros c r E. now apply (Ht c r).
Qed.
Lemma first_sp_plus : forall b t g b0, blanks b -> not_indented t -> first sp_plus (MS b0 (b ++ t) g) (MS false t g).
Proof.
  intros b t g b0 [Hb0 Hb] Ht. apply first_plus; [now apply space_forallb|exact Hb0|].
  intros c r E. now apply (Ht c r).
Qed.
Lemma first_sp_star : forall w t g, blank w -> stops re_space t -> first sp_star (MS false (w ++ t) g) (MS false t g).
Proof.
  intros w t g Hw Ht. pose proof (first_star re_space w false t g (space_forallb w Hw) Ht) as X.
  rewrite after_false in X. exact X.
Qed.

(** ** Words *)
Lemma words_split : forall l s, words l s -> filter nonempty (split_char cSP s) = l.
Proof.
  intros l s H. induction H as [|l s H IH|w l s Hw0 Hw Hs H IH].
  - reflexivity.
  - change (cSP :: s) with ([] ++ cSP :: s). rewrite split_char_app by (intros []). cbn [filter nonempty]. exact IH.
  - destruct s as [|c s].
    + rewrite app_nil_r, split_char_none by exact Hw. inversion H; subst; [|destruct w0; discriminate].
      destruct w as [|x w]; [congruence|]. reflexivity.
    + rewrite (Hs c s eq_refl) in *. rewrite split_char_app by exact Hw.
      change (cSP :: s) with ([] ++ cSP :: s) in IH. rewrite split_char_app in IH by (intros []). cbn [filter nonempty] in IH.
      destruct w as [|x w]; [congruence|]. cbn [filter nonempty]. now rewrite IH.
Qed.
