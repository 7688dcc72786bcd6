(** * Facts about the regular expression matcher *)

From Verif Require Import PyStr Regex StrFacts.

(** ** Extensionality in the continuation *)

Lemma m_ext : forall r A (k k' : mstate -> option A) s,
  (forall s, k s = k' s) -> m r A k s = m r A k' s.
Proof.
  induction r as [|p|a IHa b IHb|a IHa b IHb|g r IH|n r IH| | |b r IH|r IH];
    intros A k k' s H; simpl.
  - apply H.
  - destruct (m_rest s); [reflexivity|]. destruct (p n); [apply H|reflexivity].
  - apply IHa. intro s'. now apply IHb.
  - rewrite (IHa _ _ _ s H). destruct (m a A k' s); [reflexivity|]. now apply IHb.
  - generalize (length (m_rest s)) as n. intro n. revert s.
    induction n as [|n IHn]; intro s; [apply H|].
    assert (E : m r A (fun s' => if length (m_rest s') <? length (m_rest s)
                                 then (fix star (n : nat) (s : mstate) {struct n} : option A :=
         match n with
         | O => k s
         | S n' =>
             if g then
               match m r A (fun s' => if Nat.ltb (length (m_rest s')) (length (m_rest s))
                                      then star n' s' else None) s with
               | Some x => Some x
               | None => k s
               end
             else
               match k s with
               | Some x => Some x
               | None => m r A (fun s' => if Nat.ltb (length (m_rest s')) (length (m_rest s))
                                          then star n' s' else None) s
               end
         end) n s' else None) s
      = m r A (fun s' => if length (m_rest s') <? length (m_rest s)
                                 then (fix star (n : nat) (s : mstate) {struct n} : option A :=
         match n with
         | O => k' s
         | S n' =>
             if g then
               match m r A (fun s' => if Nat.ltb (length (m_rest s')) (length (m_rest s))
                                      then star n' s' else None) s with
               | Some x => Some x
               | None => k' s
               end
             else
               match k' s with
               | Some x => Some x
               | None => m r A (fun s' => if Nat.ltb (length (m_rest s')) (length (m_rest s))
                                          then star n' s' else None) s
               end
         end) n s' else None) s).
    { apply IH. intro s'. destruct (length (m_rest s') <? length (m_rest s)); [apply IHn|reflexivity]. }
    rewrite E, (H s). reflexivity.
  - apply IH. intro s'. apply H.
  - destruct (m_bol s); [apply H|reflexivity].
  - destruct (m_rest s) as [|c [|d t]]; [apply H| |reflexivity].
    destruct (N.eqb c cNL); [apply H|reflexivity].
  - destruct (m r mstate (fun x => Some x) s); destruct b; try reflexivity; apply H.
  - destruct (m r mstate (fun x => Some x) s); [apply H|reflexivity].
Qed.

(** ** The star as a function of its own *)

Fixpoint star (g : bool) (r : re) (A : Type) (k : mstate -> option A) (n : nat) (s : mstate) : option A :=
  match n with
  | O => k s
  | S n' =>
      let more := m r A (fun s' => if Nat.ltb (length (m_rest s')) (length (m_rest s))
                                   then star g r A k n' s' else None) s in
      if g then match more with Some x => Some x | None => k s end
      else match k s with Some x => Some x | None => more end
  end.

Lemma m_star : forall g r A k s, m (RStar g r) A k s = star g r A k (length (m_rest s)) s.
Proof.
  intros g r A k s. simpl. generalize (length (m_rest s)) as n. intro n. revert s.
  induction n as [|n IH]; intro s; [reflexivity|]. simpl.
  match goal with
  | |- (if g then match ?x with _ => _ end else _) = _ =>
      assert (E : x = m r A (fun s' => if length (m_rest s') <? length (m_rest s)
                                       then star g r A k n s' else None) s)
  end.
  { apply m_ext. intro s'. destruct (length (m_rest s') <? length (m_rest s)); [apply IH|reflexivity]. }
  rewrite E. reflexivity.
Qed.

Lemma star_ext : forall g r r' A k k' n s,
  (forall A k s, m r A k s = m r' A k s) -> (forall s, k s = k' s) ->
  star g r A k n s = star g r' A k' n s.
Proof.
  intros g r r' A k k' n s Hr Hk. revert s. induction n as [|n IH]; intro s; simpl; [apply Hk|].
  rewrite Hr, (Hk s).
  rewrite (m_ext r' A (fun s' => if length (m_rest s') <? length (m_rest s)
                                 then star g r A k n s' else None)
                 (fun s' => if length (m_rest s') <? length (m_rest s)
                            then star g r' A k' n s' else None)); [reflexivity|].
  intro s'. destruct (length (m_rest s') <? length (m_rest s)); [apply IH|reflexivity].
Qed.

(** ** Equivalence of patterns *)

Definition req (r r' : re) : Prop := forall A k s, m r A k s = m r' A k s.

Lemma req_refl : forall r, req r r.
Proof. intros r A k s. reflexivity. Qed.
Lemma req_sym : forall r r', req r r' -> req r' r.
Proof. intros r r' H A k s. symmetry. apply H. Qed.
Lemma req_trans : forall a b c, req a b -> req b c -> req a c.
Proof. intros a b c H1 H2 A k s. rewrite H1. apply H2. Qed.

Lemma req_seq : forall a a' b b', req a a' -> req b b' -> req (RSeq a b) (RSeq a' b').
Proof.
  intros a a' b b' Ha Hb A k s. simpl. rewrite Ha. apply m_ext. intro s'. apply Hb.
Qed.
Lemma req_alt : forall a a' b b', req a a' -> req b b' -> req (RAlt a b) (RAlt a' b').
Proof. intros a a' b b' Ha Hb A k s. simpl. now rewrite Ha, Hb. Qed.
Lemma req_grp : forall n r r', req r r' -> req (RGrp n r) (RGrp n r').
Proof. intros n r r' H A k s. simpl. apply H. Qed.
Lemma req_star : forall g r r', req r r' -> req (RStar g r) (RStar g r').
Proof. intros g r r' H A k s. rewrite !m_star. now apply star_ext. Qed.
Lemma req_look : forall b r r', req r r' -> req (RLook b r) (RLook b r').
Proof. intros b r r' H A k s. simpl. now rewrite H. Qed.

Lemma req_chr_ext : forall p q, (forall c, p c = q c) -> req (RChr p) (RChr q).
Proof. intros p q H A k s. simpl. destruct (m_rest s); [reflexivity|]. now rewrite H. Qed.

(** Alternatives of single characters are one class. *)
Lemma req_alt_chr : forall p q, req (RAlt (RChr p) (RChr q)) (RChr (por p q)).
Proof.
  intros p q A k s. simpl. destruct (m_rest s) as [|c t]; [reflexivity|].
  unfold por. destruct (p c), (q c); simpl; try reflexivity.
  - destruct (k _); reflexivity.
  - destruct (k _); reflexivity.
Qed.

Lemma req_match_at : forall r r', req r r' -> forall b s, match_at r b s = match_at r' b s.
Proof. intros r r' H b s. unfold match_at. now rewrite H. Qed.

(** ** Relational semantics *)

Inductive mt : re -> mstate -> mstate -> Prop :=
| mt_eps : forall s, mt REps s s
| mt_chr : forall (p : N -> bool) s c t, m_rest s = c :: t -> p c = true ->
    mt (RChr p) s (MS false t (m_grp s))
| mt_seq : forall a b s s1 s2, mt a s s1 -> mt b s1 s2 -> mt (RSeq a b) s s2
| mt_altl : forall a b s s1, mt a s s1 -> mt (RAlt a b) s s1
| mt_altr : forall a b s s1, mt b s s1 -> mt (RAlt a b) s s1
| mt_star0 : forall g r s, mt (RStar g r) s s
| mt_star1 : forall g r s s1 s2, mt r s s1 -> length (m_rest s1) < length (m_rest s) ->
    mt (RStar g r) s1 s2 -> mt (RStar g r) s s2
| mt_grp : forall n r s s1, mt r s s1 ->
    mt (RGrp n r) s (MS (m_bol s1) (m_rest s1) ((n, consumed s s1) :: m_grp s1))
| mt_bol : forall s, m_bol s = true -> mt RBol s s
| mt_eol : forall s, (m_rest s = [] \/ m_rest s = [cNL]) -> mt REol s s
| mt_look : forall b r s, matched (m r mstate (fun x => Some x) s) = b -> mt (RLook b r) s s
| mt_atom : forall r s s1, m r mstate (fun x => Some x) s = Some s1 -> mt (RAtom r) s s1.

(** A success comes from a reachable state ... *)
Lemma m_sound : forall r A (k : mstate -> option A) s x,
  m r A k s = Some x -> exists s', mt r s s' /\ k s' = Some x.
Proof.
  induction r as [|p|a IHa b IHb|a IHa b IHb|g r IH|n r IH| | |b r IH|r IH]; intros A k s x H.
  - exists s. split; [constructor|exact H].
  - simpl in H. destruct (m_rest s) as [|c t] eqn:E; [discriminate|].
    destruct (p c) eqn:Ep; [|discriminate].
    eexists. split; [eapply mt_chr; eassumption|exact H].
  - simpl in H. apply IHa in H. destruct H as [s1 [H1 H2]]. apply IHb in H2.
    destruct H2 as [s2 [H2 H3]]. exists s2. split; [econstructor; eassumption|assumption].
  - simpl in H. destruct (m a A k s) as [y|] eqn:E.
    + inversion H; subst. apply IHa in E. destruct E as [s1 [H1 H2]].
      exists s1. split; [now apply mt_altl|assumption].
    + apply IHb in H. destruct H as [s1 [H1 H2]]. exists s1. split; [now apply mt_altr|assumption].
  - rewrite m_star in H. revert H. generalize (length (m_rest s)) as n. intro n. revert s.
    induction n as [|n IHn]; intros s H; simpl in H.
    + exists s. split; [constructor|assumption].
    + assert (Hk : k s = Some x -> exists s', mt (RStar g r) s s' /\ k s' = Some x).
      { intro H'. exists s. split; [constructor|assumption]. }
      assert (Hm : m r A (fun s' => if length (m_rest s') <? length (m_rest s)
                                    then star g r A k n s' else None) s = Some x ->
                   exists s', mt (RStar g r) s s' /\ k s' = Some x).
      { intro H'. apply IH in H'. destruct H' as [s1 [H1 H2]].
        destruct (Nat.ltb_spec (length (m_rest s1)) (length (m_rest s))) as [Hl|]; [|discriminate].
        apply IHn in H2. destruct H2 as [s2 [H2 H3]]. exists s2.
        split; [eapply mt_star1; eassumption|assumption]. }
      destruct g.
      * destruct (m r A _ s) as [y|] eqn:E; [|auto]. inversion H; subst. auto.
      * destruct (k s) as [y|] eqn:E; [|auto]. inversion H; subst. auto.
  - simpl in H. apply IH in H. destruct H as [s1 [H1 H2]].
    eexists. split; [apply mt_grp; eassumption|exact H2].
  - simpl in H. destruct (m_bol s) eqn:E; [|discriminate]. exists s. split; [now constructor|assumption].
  - simpl in H. destruct (m_rest s) as [|c [|d t]] eqn:E; [| |discriminate].
    + exists s. split; [constructor; auto|assumption].
    + destruct (N.eqb_spec c cNL) as [->|]; [|discriminate].
      exists s. split; [constructor; auto|assumption].
  - simpl in H. exists s. destruct (m r mstate (fun x => Some x) s) eqn:E; destruct b; try discriminate.
    + split; [constructor; now rewrite E|assumption].
    + split; [constructor; now rewrite E|assumption].
  - simpl in H. destruct (m r mstate (fun x => Some x) s) as [s1|] eqn:E; [|discriminate].
    exists s1. split; [now constructor|assumption].
Qed.

Lemma mt_le : forall r s s', mt r s s' -> length (m_rest s') <= length (m_rest s).
Proof.
  induction r as [|p|a IHa b IHb|a IHa b IHb|g r IH|n r IH| | |b r IH|r IH]; intros s s1 H.
  - inversion H; subst. lia.
  - inversion H as [|p0 s0 c t Hr Hp| | | | | | | | | | ]; subst. simpl. rewrite Hr. simpl. lia.
  - inversion H as [| |a0 b0 s0 s2 s3 Hs1 Hs2| | | | | | | | | ]; subst. apply IHa in Hs1. apply IHb in Hs2. lia.
  - inversion H; subst; [now apply IHa|now apply IHb].
  - remember (RStar g r) as rr eqn:Er. revert Er.
    induction H; intro Er; try discriminate; [lia|].
    inversion Er; subst. specialize (IHmt2 eq_refl). lia.
  - inversion H as [| | | | | | |n0 r0 s0 s2 Hs| | | | ]; subst. simpl. now apply IH.
  - inversion H; subst. lia.
  - inversion H; subst. lia.
  - inversion H; subst. lia.
  - inversion H as [| | | | | | | | | | |r0 s0 s2 Hs]; subst. apply m_sound in Hs. destruct Hs as [s' [H1 H2]].
    inversion H2; subst. now apply IH.
Qed.

(** ... and a failure means that every reachable state fails. *)
Lemma m_complete : forall r A (k : mstate -> option A) s,
  m r A k s = None -> forall s', mt r s s' -> k s' = None.
Proof.
  induction r as [|p|a IHa b IHb|a IHa b IHb|g r IH|n r IH| | |b r IH|r IH]; intros A k s H s' Hm.
  - inversion Hm; subst. exact H.
  - inversion Hm as [ |p0 s0 c t Hr Hp| | | | | | | | | | ]; subst. simpl in H. rewrite Hr, Hp in H. exact H.
  - inversion Hm as [| |a0 b0 s0 s1 s2 Hs1 Hs2| | | | | | | | | ]; subst. simpl in H.
    assert (E : m b A k s1 = None) by (eapply IHa; [exact H|assumption]).
    eapply IHb; [exact E|assumption].
  - simpl in H. destruct (m a A k s) eqn:E; [discriminate|].
    inversion Hm; subst; [eapply IHa; eassumption|eapply IHb; eassumption].
  - rewrite m_star in H.
    assert (Hg : forall n s, length (m_rest s) <= n -> star g r A k n s = None ->
                             forall s', mt (RStar g r) s s' -> k s' = None).
    { clear s s' H Hm. induction n as [|n IHn]; intros s Hn H s' Hm; simpl in H.
      - inversion Hm as [| | | | |g0 r0 s0|g0 r0 s0 s1 s2 H1 H2 H3| | | | | ]; subst; [assumption|].
        lia.
      - assert (Hk : k s = None /\ m r A (fun s' => if length (m_rest s') <? length (m_rest s)
                                    then star g r A k n s' else None) s = None).
        { destruct g.
          - destruct (m r A _ s) eqn:E; [discriminate|]. auto.
          - destruct (k s) eqn:E; [discriminate|]. auto. }
        destruct Hk as [Hk Hmore].
        inversion Hm as [| | | | |g0 r0 s0|g0 r0 s0 s1 s2 H1 H2 H3| | | | | ]; subst; [assumption|].
        pose proof (IH _ _ _ Hmore _ H1) as E. simpl in E.
        destruct (Nat.ltb_spec (length (m_rest s1)) (length (m_rest s))) as [Hl|]; [|lia].
        apply (IHn s1); [lia|assumption|assumption]. }
    apply (Hg (length (m_rest s)) s); [lia|assumption|assumption].
  - inversion Hm as [| | | | | | |n0 r0 s0 s2 Hs| | | | ]; subst. simpl in H.
    pose proof (IH _ _ _ H _ Hs) as E. exact E.
  - inversion Hm as [| | | | | | | |s0 Hb| | | ]; subst. simpl in H. now rewrite Hb in H.
  - inversion Hm as [| | | | | | | | |s0 Hb| | ]; subst. simpl in H.
    destruct Hb as [E|E]; rewrite E in H; exact H.
  - inversion Hm as [| | | | | | | | | |b0 r0 s0 Hb| ]; subst. simpl in H.
    destruct (m r mstate (fun x => Some x) s'); exact H.
  - inversion Hm as [| | | | | | | | | | |r0 s0 s2 Hs]; subst. simpl in H. rewrite Hs in H. exact H.
Qed.

Lemma match_at_none : forall r b s, match_at r b s = None <-> forall s', ~ mt r (MS b s []) s'.
Proof.
  intros r b s. unfold match_at. destruct (m r mstate (fun x => Some x) (MS b s [])) eqn:E.
  - split; [discriminate|]. intro H. apply m_sound in E. destruct E as [s' [H1 _]]. exfalso. eapply H. eassumption.
  - split; [|reflexivity]. intros _ s' H. pose proof (m_complete _ _ _ _ E _ H). discriminate.
Qed.

Lemma match_at_some : forall r b s x, match_at r b s = Some x ->
  exists s', mt r (MS b s []) s' /\ x = RM (consumed (MS b s []) s') (m_grp s').
Proof.
  intros r b s x H. unfold match_at in H.
  destruct (m r mstate (fun x => Some x) (MS b s [])) as [s1|] eqn:E; [|discriminate].
  inversion H; subst. apply m_sound in E. destruct E as [s' [H1 H2]]. inversion H2; subst.
  now exists s1.
Qed.

Lemma matched_iff : forall r b s, matched (match_at r b s) = true <-> exists s', mt r (MS b s []) s'.
Proof.
  intros r b s. destruct (match_at r b s) as [x|] eqn:E; simpl.
  - apply match_at_some in E. destruct E as [s' [H _]]. split; [|reflexivity]. intros _. now exists s'.
  - split; [discriminate|]. intros [s' H]. rewrite match_at_none in E. exfalso. now apply (E s').
Qed.

(** ** Reachable states: suffixes, captures are substrings *)

Definition suffix_of (t s : str) : Prop := exists a, s = a ++ t.
Definition substr_of (t s : str) : Prop := exists a b, s = a ++ t ++ b.

Lemma suffix_refl : forall s, suffix_of s s.
Proof. intro s. now exists []. Qed.
Lemma suffix_trans : forall a b c, suffix_of a b -> suffix_of b c -> suffix_of a c.
Proof. intros a b c [x ->] [y ->]. exists (y ++ x). now rewrite app_assoc. Qed.
Lemma substr_suffix : forall t a b, substr_of t a -> suffix_of a b -> substr_of t b.
Proof.
  intros t a b [x [y ->]] [z ->]. exists (z ++ x), y. now rewrite app_assoc.
Qed.

Lemma consumed_suffix : forall s s', suffix_of (m_rest s') (m_rest s) ->
  m_rest s = consumed s s' ++ m_rest s'.
Proof.
  intros s s' [a E]. unfold consumed. rewrite E, app_length.
  replace (length a + length (m_rest s') - length (m_rest s')) with (length a) by lia.
  rewrite firstn_app, firstn_all, Nat.sub_diag. simpl. now rewrite app_nil_r.
Qed.

Definition grp_ok (s s' : mstate) : Prop :=
  suffix_of (m_rest s') (m_rest s) /\
  exists new, m_grp s' = new ++ m_grp s /\ forall n v, In (n, v) new -> substr_of v (m_rest s).

Lemma grp_ok_refl : forall s, grp_ok s s.
Proof. intro s. split; [apply suffix_refl|]. exists []. split; [reflexivity|]. intros n v []. Qed.

Lemma grp_ok_trans : forall a b c, grp_ok a b -> grp_ok b c -> grp_ok a c.
Proof.
  intros a b c [H1 [n1 [E1 G1]]] [H2 [n2 [E2 G2]]]. split; [eapply suffix_trans; eassumption|].
  exists (n2 ++ n1). split; [now rewrite E2, E1, app_assoc|].
  intros n v H. apply in_app_iff in H. destruct H as [H|H]; [|now apply (G1 n)].
  eapply substr_suffix; [now apply (G2 n)|assumption].
Qed.

Lemma m_grp_ok : forall r A (k : mstate -> option A) s x,
  m r A k s = Some x -> exists s', grp_ok s s' /\ k s' = Some x.
Proof.
  induction r as [|p|a IHa b IHb|a IHa b IHb|g r IH|n r IH| | |b r IH|r IH]; intros A k s x H.
  - exists s. split; [apply grp_ok_refl|exact H].
  - simpl in H. destruct (m_rest s) as [|c t] eqn:E; [discriminate|].
    destruct (p c) eqn:Ep; [|discriminate]. eexists. split; [|exact H]. split; simpl.
    + exists [c]. exact E.
    + exists []. split; [reflexivity|]. intros n v [].
  - simpl in H. apply IHa in H. destruct H as [s1 [H1 H2]]. apply IHb in H2.
    destruct H2 as [s2 [H2 H3]]. exists s2. split; [eapply grp_ok_trans; eassumption|assumption].
  - simpl in H. destruct (m a A k s) as [y|] eqn:E.
    + inversion H; subst. now apply IHa.
    + now apply IHb.
  - rewrite m_star in H. revert H. generalize (length (m_rest s)) as n. intro n. revert s.
    induction n as [|n IHn]; intros s H; simpl in H.
    + exists s. split; [apply grp_ok_refl|assumption].
    + assert (Hk : k s = Some x -> exists s', grp_ok s s' /\ k s' = Some x).
      { intro H'. exists s. split; [apply grp_ok_refl|assumption]. }
      assert (Hm : m r A (fun s' => if length (m_rest s') <? length (m_rest s)
                                    then star g r A k n s' else None) s = Some x ->
                   exists s', grp_ok s s' /\ k s' = Some x).
      { intro H'. apply IH in H'. destruct H' as [s1 [H1 H2]].
        destruct (Nat.ltb_spec (length (m_rest s1)) (length (m_rest s))) as [Hl|]; [|discriminate].
        apply IHn in H2. destruct H2 as [s2 [H2 H3]]. exists s2.
        split; [eapply grp_ok_trans; eassumption|assumption]. }
      destruct g.
      * destruct (m r A _ s) as [y|] eqn:E; [|auto]. inversion H; subst. auto.
      * destruct (k s) as [y|] eqn:E; [|auto]. inversion H; subst. auto.
  - simpl in H. apply IH in H. destruct H as [s1 [H1 H2]].
    eexists. split; [|exact H2]. destruct H1 as [Hs [new [En Gn]]]. split; [exact Hs|]. simpl.
    exists ((n, consumed s s1) :: new). split; [now rewrite En|].
    intros n' v [Heq|Hin]; [|now apply (Gn n')]. inversion Heq; subst.
    pose proof (consumed_suffix _ _ Hs) as Hc. exists [], (m_rest s1). exact Hc.
  - simpl in H. destruct (m_bol s); [|discriminate]. exists s. split; [apply grp_ok_refl|assumption].
  - simpl in H. exists s. split; [apply grp_ok_refl|].
    destruct (m_rest s) as [|c [|d t]]; [exact H| |discriminate]. destruct (N.eqb c cNL); [exact H|discriminate].
  - simpl in H. exists s. split; [apply grp_ok_refl|].
    destruct (m r mstate (fun x => Some x) s); destruct b; try discriminate; exact H.
  - simpl in H. destruct (m r mstate (fun x => Some x) s) as [s1|] eqn:E; [|discriminate].
    apply IH in E. destruct E as [s' [H1 H2]]. inversion H2; subst. now exists s1.
Qed.

Lemma match_at_groups : forall r b s x, match_at r b s = Some x ->
  (exists t, s = g0 x ++ t) /\ forall n v, group n x = Some v -> substr_of v s.
Proof.
  intros r b s x H. unfold match_at in H.
  destruct (m r mstate (fun x => Some x) (MS b s [])) as [s1|] eqn:E; [|discriminate].
  inversion H; subst. apply m_grp_ok in E. destruct E as [s' [[H1 [new [E2 G]]] H2]].
  inversion H2; subst. simpl in *. rewrite app_nil_r in E2. split.
  - exists (m_rest s1). pose proof (consumed_suffix (MS b s []) s1 H1) as Hc. exact Hc.
  - unfold group. simpl. rewrite E2. intros n v. clear -G. induction new as [|[n' v'] new IH]; simpl; [discriminate|].
    destruct (str_eqb n n') eqn:E.
    + intro Heq. inversion Heq; subst. apply (G n'). now left.
    + intro Heq. apply IH; [|assumption]. intros n0 v0 Hi. apply (G n0). now right.
Qed.

(** ** Runs of one class *)

(** The state after consuming [w]. *)
Definition after (b : bool) (w t : str) (g : groups) : mstate :=
  MS (match w with [] => b | _ => false end) t g.

Lemma m_chr : forall p A k b c t g, p c = true ->
  m (RChr p) A k (MS b (c :: t) g) = k (MS false t g).
Proof. intros. simpl. now rewrite H. Qed.
Lemma m_chr_no : forall p A k b c t g, p c = false -> m (RChr p) A k (MS b (c :: t) g) = None.
Proof. intros. simpl. now rewrite H. Qed.
Lemma m_chr_nil : forall p A k b g, m (RChr p) A k (MS b [] g) = None.
Proof. reflexivity. Qed.

(** Greedy run: take [w], provided the continuation fails after any longer run. *)
Lemma star_class_greedy : forall p A (k : mstate -> option A) w b t g x,
  forallb p w = true ->
  k (after b w t g) = Some x ->
  (forall u v, t = u ++ v -> u <> [] -> forallb p u = true -> k (MS false v g) = None) ->
  m (RStar true (RChr p)) A k (MS b (w ++ t) g) = Some x.
Proof.
  intros p A k w b t g x Hw Hk Hf. rewrite m_star. simpl m_rest.
  assert (Hn : length (w ++ t) <= length (w ++ t)) by lia. revert Hn.
  generalize (length (w ++ t)) at 2 3 as n. intro n. revert w b Hw Hk.
  induction n as [|n IHn]; intros w b Hw Hk Hn.
  - destruct w; [|simpl in Hn; lia]. simpl in *. exact Hk.
  - destruct w as [|c w].
    + (* no more of w: every longer run fails *)
      clear IHn. simpl app. cbn [after] in Hk.
      enough (Hmore : m (RChr p) A (fun s' => if length (m_rest s') <? length t
                 then star true (RChr p) A k n s' else None) (MS b t g) = None).
      { simpl. simpl in Hmore. rewrite Hmore. exact Hk. }
      destruct t as [|d t]; [reflexivity|]. simpl. destruct (p d) eqn:Ed; [|reflexivity].
      destruct (length t <? S (length t)); [|reflexivity].
      assert (Hf' : forall u v, t = u ++ v -> forallb p u = true -> k (MS false v g) = None).
      { intros u v Eu Hu. apply (Hf (d :: u) v); [now rewrite Eu|discriminate|simpl; now rewrite Ed]. }
      clear -Hf'. revert t Hf'. induction n as [|n IHn]; intros t Hf'.
      * simpl. now apply (Hf' [] t).
      * simpl. destruct t as [|d t]; [now apply (Hf' [] [])|].
        destruct (p d) eqn:Ed; [|now apply (Hf' [] (d :: t))].
        simpl. destruct (length t <? S (length t)).
        -- rewrite IHn; [now apply (Hf' [] (d :: t))|]. intros u v Eu Hu.
           apply (Hf' (d :: u) v); [now rewrite Eu|simpl; now rewrite Ed].
        -- now apply (Hf' [] (d :: t)).
    + simpl in Hw. apply andb_prop in Hw. destruct Hw as [Hc Hw]. simpl.
      rewrite Hc. simpl.
      assert (E : length (w ++ t) <? S (length (w ++ t)) = true) by (apply Nat.ltb_lt; lia).
      rewrite E. rewrite (IHn w false Hw); [reflexivity| |simpl in Hn; lia].
      destruct w; exact Hk.
Qed.

(** Greedy run whose continuation fails everywhere. *)
Lemma star_class_fail : forall g0 p A (k : mstate -> option A) b t g,
  (forall u v, t = u ++ v -> forallb p u = true -> k (after b u v g) = None) ->
  m (RStar g0 (RChr p)) A k (MS b t g) = None.
Proof.
  intros g0 p A k b t g Hf. rewrite m_star. simpl m_rest. generalize (length t) as n. intro n.
  revert b t Hf. induction n as [|n IHn]; intros b t Hf.
  - simpl. apply (Hf [] t); reflexivity.
  - simpl. assert (Hk : k (MS b t g) = None) by (apply (Hf [] t); reflexivity). rewrite Hk.
    assert (Hmore : match t with
                    | [] => None
                    | c :: t0 => if p c then if length t0 <? length t then star g0 (RChr p) A k n (MS false t0 g) else None else None
                    end = None).
    { destruct t as [|c t]; [reflexivity|]. destruct (p c) eqn:Ec; [|reflexivity].
      destruct (length t <? length (c :: t)); [|reflexivity]. apply IHn.
      intros u v Eu Hu. specialize (Hf (c :: u) v). simpl in Hf.
      destruct u; simpl; apply Hf; try (now rewrite Eu); simpl in *; now rewrite ?Ec, ?Hu. }
    rewrite Hmore. destruct g0; reflexivity.
Qed.

(** Greedy run up to a character outside of the class. *)
Lemma star_class_stop : forall p A (k : mstate -> option A) w b t g,
  forallb p w = true ->
  match t with [] => True | c :: _ => p c = false end ->
  (forall x, k (after b w t g) = Some x -> m (RStar true (RChr p)) A k (MS b (w ++ t) g) = Some x).
Proof.
  intros p A k w b t g Hw Ht x Hk. apply star_class_greedy; try assumption.
  intros u v Eu Hu Hp. destruct u as [|c u]; [congruence|]. subst t. simpl in *.
  rewrite Ht in Hp. discriminate.
Qed.

(** Lazy run: take [w], provided the continuation fails after any shorter run. *)
Lemma star_class_lazy : forall p A (k : mstate -> option A) w b t g x,
  forallb p w = true ->
  k (after b w t g) = Some x ->
  (forall u v, w = u ++ v -> v <> [] -> k (after b u (v ++ t) g) = None) ->
  m (RStar false (RChr p)) A k (MS b (w ++ t) g) = Some x.
Proof.
  intros p A k w b t g x Hw Hk Hf. rewrite m_star. simpl m_rest.
  assert (Hn : length w <= length (w ++ t)) by (rewrite app_length; lia). revert Hn.
  generalize (length (w ++ t)) at 1 2 as n. intro n. revert w b Hw Hk Hf.
  induction n as [|n IHn]; intros w b Hw Hk Hf Hn.
  - destruct w; [|simpl in Hn; lia]. exact Hk.
  - destruct w as [|c w].
    + simpl. unfold after in Hk. now rewrite Hk.
    + simpl in Hw. apply andb_prop in Hw. destruct Hw as [Hc Hw]. simpl.
      assert (E0 : k (MS b (c :: w ++ t) g) = None) by (apply (Hf [] (c :: w)); [reflexivity|discriminate]).
      rewrite E0, Hc. simpl.
      assert (E : length (w ++ t) <? S (length (w ++ t)) = true) by (apply Nat.ltb_lt; lia).
      rewrite E. apply IHn; try assumption.
      * destruct w; exact Hk.
      * intros u v Eu Hv. specialize (Hf (c :: u) v). simpl in Hf. destruct u; simpl; apply Hf; congruence.
      * simpl in Hn. lia.
Qed.

(** ** Literals *)

Lemma m_lit : forall l A (k : mstate -> option A) b t g,
  m (RLit l) A k (MS b (l ++ t) g) = k (after b l t g).
Proof.
  induction l as [|c l IH]; intros A k b t g; [reflexivity|].
  destruct l as [|d l].
  - simpl. unfold ch. now rewrite N.eqb_refl.
  - change (RLit (c :: d :: l)) with (RSeq (RChr (ch c)) (RLit (d :: l))). cbn [m app m_rest].
    unfold ch at 1. rewrite N.eqb_refl. change (d :: (l ++ t)) with ((d :: l) ++ t). rewrite IH. reflexivity.
Qed.

Lemma m_lit_no : forall l A (k : mstate -> option A) b s g,
  startswith l s = false -> m (RLit l) A k (MS b s g) = None.
Proof.
  induction l as [|c l IH]; intros A k b s g H; [discriminate|].
  destruct s as [|x s]; [destruct l; reflexivity|]. simpl in H.
  destruct l as [|d l].
  - simpl. unfold ch. rewrite N.eqb_sym. destruct (N.eqb c x); [destruct s; discriminate|reflexivity].
  - change (RLit (c :: d :: l)) with (RSeq (RChr (ch c)) (RLit (d :: l))). cbn [m m_rest].
    unfold ch at 1. rewrite N.eqb_sym. destruct (N.eqb c x); [|reflexivity]. now apply IH.
Qed.

Lemma consumed_app : forall b w t g s', m_rest s' = t -> consumed (MS b (w ++ t) g) s' = w.
Proof.
  intros b w t g s' H. unfold consumed. simpl. rewrite H, app_length.
  replace (length w + length t - length t) with (length w) by lia.
  rewrite firstn_app, firstn_all, Nat.sub_diag. simpl. now rewrite app_nil_r.
Qed.

(** ** Reading off a match *)

Lemma mt_eps_iff : forall s s', mt REps s s' <-> s' = s.
Proof.
  intros s s'. split; intro H; [inversion H; subst; reflexivity|subst; constructor].
Qed.
Lemma mt_seq_iff : forall a b s s2, mt (RSeq a b) s s2 <-> exists s1, mt a s s1 /\ mt b s1 s2.
Proof.
  intros a b s s2. split.
  - intro H. inversion H as [| |a0 b0 s0 s1 s3 H1 H2| | | | | | | | | ]; subst. now exists s1.
  - intros [s1 [H1 H2]]. eapply mt_seq; eassumption.
Qed.
Lemma mt_alt_iff : forall a b s s', mt (RAlt a b) s s' <-> mt a s s' \/ mt b s s'.
Proof.
  intros a b s s'. split.
  - intro H. inversion H; subst; auto.
  - intros [H|H]; [now apply mt_altl|now apply mt_altr].
Qed.
Lemma mt_chr_iff : forall p s s', mt (RChr p) s s' <->
  exists c t, m_rest s = c :: t /\ p c = true /\ s' = MS false t (m_grp s).
Proof.
  intros p s s'. split.
  - intro H. inversion H as [|p0 s0 c t Hr Hp| | | | | | | | | | ]; subst. now exists c, t.
  - intros [c [t [H1 [H2 ->]]]]. eapply mt_chr; eassumption.
Qed.
Lemma mt_grp_iff : forall n r s s', mt (RGrp n r) s s' <->
  exists s1, mt r s s1 /\ s' = MS (m_bol s1) (m_rest s1) ((n, consumed s s1) :: m_grp s1).
Proof.
  intros n r s s'. split.
  - intro H. inversion H as [| | | | | | |n0 r0 s0 s1 Hs| | | | ]; subst. now exists s1.
  - intros [s1 [H ->]]. now apply mt_grp.
Qed.
Lemma mt_bol_iff : forall s s', mt RBol s s' <-> s' = s /\ m_bol s = true.
Proof.
  intros s s'. split.
  - intro H. inversion H; subst. auto.
  - intros [-> H]. now constructor.
Qed.
Lemma mt_eol_iff : forall s s', mt REol s s' <-> s' = s /\ (m_rest s = [] \/ m_rest s = [cNL]).
Proof.
  intros s s'. split.
  - intro H. inversion H; subst. auto.
  - intros [-> H]. now constructor.
Qed.

Lemma mt_star_chr_iff : forall g p s s', mt (RStar g (RChr p)) s s' <->
  exists w t, m_rest s = w ++ t /\ forallb p w = true /\ s' = after (m_bol s) w t (m_grp s).
Proof.
  intros g p s s'. split.
  - intro H. remember (RStar g (RChr p)) as rr eqn:Er.
    induction H as [| | | | |g0 r s|g0 r s s1 s2 H1 _ Hl H2 IH2| | | | | ]; try discriminate.
    + inversion Er; subst. exists [], (m_rest s). split; [reflexivity|]. split; [reflexivity|].
      unfold after. now destruct s.
    + inversion Er; subst. specialize (IH2 eq_refl). destruct IH2 as [w [t [E1 [E2 ->]]]].
      apply mt_chr_iff in H1. destruct H1 as [c [t1 [F1 [F2 ->]]]]. simpl in *. subst t1.
      exists (c :: w), t. split; [assumption|]. split; [simpl; now rewrite F2|].
      unfold after. destruct w; reflexivity.
  - intros [w [t [E1 [E2 ->]]]]. revert s E1. induction w as [|c w IH]; intros s E1.
    + simpl in E1. subst. unfold after. destruct s. apply mt_star0.
    + simpl in E2. apply andb_prop in E2. destruct E2 as [Ec Ew].
      apply mt_star1 with (s1 := MS false (w ++ t) (m_grp s)).
      * eapply mt_chr; eassumption.
      * simpl. rewrite E1. simpl. lia.
      * specialize (IH Ew (MS false (w ++ t) (m_grp s)) eq_refl). unfold after in *. simpl in IH.
        destruct w; exact IH.
Qed.

Lemma mt_lit_iff : forall l s s', mt (RLit l) s s' <->
  exists t, m_rest s = l ++ t /\ s' = after (m_bol s) l t (m_grp s).
Proof.
  induction l as [|c l IH]; intros s s'.
  - simpl. rewrite mt_eps_iff. split.
    + intros ->. exists (m_rest s). split; [reflexivity|]. unfold after. now destruct s.
    + intros [t [E ->]]. simpl in E. subst t. unfold after. now destruct s.
  - destruct l as [|d l].
    + simpl. rewrite mt_chr_iff. split.
      * intros [x [t [E [Ex ->]]]]. unfold ch in Ex. apply N.eqb_eq in Ex. subst. exists t. auto.
      * intros [t [E ->]]. exists c, t. unfold ch. rewrite N.eqb_refl. auto.
    + change (RLit (c :: d :: l)) with (RSeq (RChr (ch c)) (RLit (d :: l))). rewrite mt_seq_iff. split.
      * intros [s1 [H1 H2]]. apply mt_chr_iff in H1. destruct H1 as [x [t [E [Ex ->]]]].
        unfold ch in Ex. apply N.eqb_eq in Ex. subst. apply IH in H2. destruct H2 as [t2 [E2 ->]].
        simpl in E2. subst. exists t2. split; [exact E|]. reflexivity.
      * intros [t [E ->]]. exists (MS false ((d :: l) ++ t) (m_grp s)). split.
        -- apply mt_chr_iff. exists c, ((d :: l) ++ t). unfold ch. rewrite N.eqb_refl. auto.
        -- apply IH. exists t. auto.
Qed.

(** Searching succeeds iff a match starts somewhere; the start of the text
    is known to the match. *)
Lemma search_iff : forall r b s, matched (search_from r b s) = true <->
  exists a t s', s = a ++ t /\ mt r (after b a t []) s'.
Proof.
  intros r b s. revert b. induction s as [|c s IH]; intro b; simpl.
  - split.
    + intro H. destruct (match_at r b []) as [x|] eqn:E; [|discriminate].
      apply match_at_some in E. destruct E as [s' [H1 _]]. exists [], [], s'. auto.
    + intros [a [t [s' [E H]]]]. symmetry in E. apply app_eq_nil in E. destruct E as [-> ->].
      destruct (match_at r b []) eqn:E; [reflexivity|]. rewrite match_at_none in E. exfalso. eapply E. exact H.
  - split.
    + intro H. destruct (match_at r b (c :: s)) as [x|] eqn:E.
      * apply match_at_some in E. destruct E as [s' [H1 _]]. exists [], (c :: s), s'. auto.
      * apply IH in H. destruct H as [a [t [s' [E' H]]]]. exists (c :: a), t, s'. subst. split; [reflexivity|].
        unfold after in *. destruct a; exact H.
    + intros [a [t [s' [E H]]]]. destruct (match_at r b (c :: s)) eqn:Em; [reflexivity|].
      destruct a as [|d a].
      * simpl in E. subst. rewrite match_at_none in Em. exfalso. eapply Em. exact H.
      * inversion E; subst. apply IH. exists a, t, s'. split; [reflexivity|]. unfold after in *. destruct a; exact H.
Qed.
