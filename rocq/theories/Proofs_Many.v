(** * Proofs for C99 *)

From Verif Require Import PyStr Regex Patterns PyPath Res Inline Const Item Lines Stash ReachFacts Cache Spec_Cache
  Proofs_Cache Many Spec_Many.

(** The invariant of one stash: its tables are right, and empty where they must be. *)
Definition sound (e : env) (b : bool) (x : stash * tables) : Prop :=
  (exists nw neg db, steps e (new_stash nw neg db) (fst x)) /\ fresh e (fst x) (snd x) /\ (b = true -> clean (snd x)).

Lemma sound_clear : forall e b x, sound e b x -> sound e b (fst x, clear_cached (snd x)).
Proof. intros e b x (H1 & _ & _). split; [exact H1|]. split; [apply cleared|]. intros _. now exists (snd x). Qed.

(** One call that is served is answered from the state alone. *)
Lemma served_step : forall e b x c cs, env_ok e -> served e b (fst x) (c :: cs) -> sound e b x ->
  exists b' x', call_c e c x = (fst (plain e c (fst x)), x') /\ fst x' = snd (plain e c (fst x)) /\
    served e b' (fst x') cs /\ sound e b' x'.
Proof.
  intros e b [s t] c cs He H (N & F & B). cbn [fst snd] in *.
  assert (Ids : ids_ok (st_list s)) by (apply (reach_ids e); exact N). destruct N as (nw & neg & db & Hs).
  inversion H as [|b1 s1 cs1 n path off forced l s' E K H1|b1 s1 cs1 n path off forced l s' E K H1
                 |b1 s1 cs1 l Hl Hd H1|b1 s1 cs1 l s' E H1|s1 cs1 s' E H1|b1 s1 cs1 c1 Hq Hc H1]; subst.
  - assert (Ke : returns_early e path s = false) by (apply Bool.not_true_iff_false; now rewrite early_iff).
    exists true, (s', clear_cached t). cbn [call_c plain]. rewrite E, Ke. cbn [fst snd].
    split; [reflexivity|]. split; [reflexivity|]. split; [exact H1|].
    split; [exists nw, neg, db; now apply (steps_add e _ n path off forced s (Ok l))|]. split; [apply cleared|now exists t].
  - pose proof (proj2 (early_iff e path s) K) as Ke. pose proof (early_same _ _ _ _ _ _ _ _ E Ke). subst s'.
    exists b, (s, t). cbn [call_c plain]. rewrite E, Ke. cbn [fst snd].
    split; [reflexivity|]. split; [reflexivity|]. split; [exact H1|]. split; [now exists nw, neg, db|]. now split.
  - exists true, (append_items l s, clear_cached t). cbn [call_c plain fst snd].
    split; [reflexivity|]. split; [reflexivity|]. split; [exact H1|].
    split; [exists nw, neg, db; now apply steps_append|]. split; [apply cleared|now exists t].
  - exists true, (s', clear_cached t). cbn [call_c plain]. rewrite E. cbn [fst snd].
    split; [reflexivity|]. split; [reflexivity|]. split; [exact H1|].
    split; [exists nw, neg, db; now apply (steps_remove e _ l s (Ok tt))|]. split; [apply cleared|now exists t].
  - destruct (finalize_c e s t) as [r x] eqn:Ef.
    destruct (finalize_same e s t Ids (B eq_refl) _ _ Ef) as [E1 E2]. rewrite E in E1. injection E1 as <- E3.
    destruct (E2 eq_refl) as [t0 Et].
    exists true, x. cbn [call_c plain]. rewrite E, Ef. cbn [fst snd]. rewrite <- E3.
    split; [reflexivity|]. split; [reflexivity|]. split; [exact H1|].
    split; [exists nw, neg, db; apply (steps_finalize e _ s (Ok tt)); [exact Hs|rewrite E; f_equal; congruence]|]. rewrite Et. split; [apply cleared|now exists t0].
  - destruct (query_ok e c s t He Ids F Hq Hc) as [t' [E1 [E2 F']]].
    exists false, (s, t'). cbn [fst snd]. rewrite E1, E2. split; [reflexivity|]. split; [reflexivity|]. split; [exact H1|].
    split; [now exists nw, neg, db|]. split; [exact F'|discriminate].
Qed.

(** ** The list of stashes *)

Lemma nth_put_same : forall k x st, k < length st -> nth_error (put k x st) k = Some x.
Proof.
  intros k x st H. unfold put. rewrite nth_error_app2 by (rewrite firstn_length; lia).
  rewrite firstn_length. replace (k - Nat.min k (length st)) with 0 by lia. reflexivity.
Qed.
Lemma nth_put_other : forall k j x st, k < length st -> j <> k -> nth_error (put k x st) j = nth_error st j.
Proof.
  induction k as [|k IH]; intros j x st H Hj; (destruct st as [|y st]; [cbn in H; lia|]).
  - destruct j; [congruence|]. reflexivity.
  - destruct j as [|j]; [reflexivity|]. cbn in H. specialize (IH j x st (proj2 (Nat.succ_lt_mono _ _) H)).
    unfold put in *. cbn. apply IH. lia.
Qed.
Lemma put_length : forall k x st, k < length st -> length (put k x st) = length st.
Proof. intros k x st H. unfold put. rewrite app_length. cbn [length]. rewrite firstn_length, skipn_length. lia. Qed.
Lemma nth_clear : forall st j, nth_error (clear_all st) j = option_map (fun x => (fst x, clear_cached (snd x))) (nth_error st j).
Proof. intros st j. unfold clear_all. now rewrite nth_error_map. Qed.
Lemma clear_length : forall st, length (clear_all st) = length st.
Proof. intro st. apply map_length. Qed.

(** Calls on other stashes keep the invariant of this one. *)
Lemma other_call : forall e db m st k b x, (forall c z, m <> MOn k c z) -> nth_error st k = Some x -> sound e b x ->
  exists t', nth_error (snd (mcall_c e db m st)) k = Some (fst x, t') /\ sound e b (fst x, t') /\
    answers_on k (fst (mcall_c e db m st)) = [].
Proof.
  intros e db m st k b x Hm Hx Hs. assert (Hk : k < length st) by (apply nth_error_Some; congruence).
  destruct m as [nw neg|j c z]; cbn [mcall_c].
  - exists (clear_cached (snd x)). cbn [fst snd]. split; [|split; [now apply sound_clear|reflexivity]].
    rewrite nth_error_app1 by (rewrite clear_length; exact Hk). rewrite nth_clear, Hx. reflexivity.
  - assert (Hj : j <> k) by (intros ->; now apply (Hm c z)).
    destruct (nth_error st j) as [y|] eqn:Ej.
    + assert (Lj : j < length st) by (apply nth_error_Some; congruence).
      destruct (call_c e c y) as [a y']. cbn [fst snd]. destruct (clears e c z (fst y)).
      * exists (clear_cached (snd x)). rewrite nth_put_other by (rewrite ?clear_length; auto). rewrite nth_clear, Hx.
        split; [reflexivity|]. split; [now apply sound_clear|]. unfold answers_on. cbn. apply Nat.eqb_neq in Hj. now rewrite Hj.
      * exists (snd x). rewrite nth_put_other by auto. rewrite Hx. destruct x. split; [reflexivity|]. split; [exact Hs|].
        unfold answers_on. cbn. apply Nat.eqb_neq in Hj. now rewrite Hj.
    + exists (snd x). cbn [fst snd]. rewrite Hx. destruct x. split; [reflexivity|]. split; [exact Hs|reflexivity].
Qed.

Lemma answers_app : forall k a b, answers_on k (a ++ b) = answers_on k a ++ answers_on k b.
Proof. intros k a b. unfold answers_on. now rewrite filter_app, map_app. Qed.

Lemma run_sound : forall e db k ms st b x, env_ok e -> nth_error st k = Some x -> sound e b x ->
  served e b (fst x) (calls_on k ms) ->
  answers_on k (fst (mcalls_c e db ms st)) = fst (plain_calls e (calls_on k ms) (fst x)).
Proof.
  intros e db k ms. induction ms as [|m ms IH]; intros st b x He Hx Hs Hv; [reflexivity|].
  cbn [mcalls_c]. destruct (mcall_c e db m st) as [a st1] eqn:Em. destruct (mcalls_c e db ms st1) as [l st2] eqn:El.
  cbn [fst]. rewrite answers_app.
  assert (C : (exists c z, m = MOn k c z) \/ (forall c z, m <> MOn k c z)).
  { destruct m as [nw neg|j c z]; [right; discriminate|]. destruct (Nat.eq_dec j k) as [->|Hj]; [left; eauto|].
    right. intros c' z' E. injection E as -> _ _. congruence. }
  destruct C as [(c & z & ->)|C].
  - cbn [calls_on flat_map] in *. rewrite Nat.eqb_refl in *. cbn [app] in *. fold (calls_on k ms) in *.
    destruct (served_step e b x c _ He Hv Hs) as (b' & x' & E1 & E2 & E3 & E4).
    assert (Hk : k < length st) by (apply nth_error_Some; congruence).
    cbn [mcall_c] in Em. rewrite Hx, E1 in Em. injection Em as <- <-.
    cbn [plain_calls]. specialize (IH _ b' x' He (nth_put_same k x' _ (eq_ind_r (fun n => k < n) Hk
      (match clears e c z (fst x) as q return length (if q then clear_all st else st) = length st with
       | true => clear_length st | false => eq_refl end))) E4 E3).
    rewrite El in IH. cbn [fst] in IH. rewrite IH, E2. destruct (plain e c (fst x)) as [a1 s1]. cbn [fst snd].
    destruct (plain_calls e (calls_on k ms) s1). unfold answers_on. cbn. now rewrite Nat.eqb_refl.
  - destruct (other_call e db m st k b x C Hx Hs) as (t' & T1 & T2 & T3). rewrite Em in T1, T3. cbn [fst snd] in T1, T3.
    rewrite T3. cbn [app]. assert (Ec : calls_on k (m :: ms) = calls_on k ms).
    { cbn [calls_on flat_map]. destruct m as [nw neg|j c z]; [reflexivity|].
      destruct (Nat.eqb j k) eqn:Ej; [|reflexivity]. apply Nat.eqb_eq in Ej. subst j. now elim (C c z). }
    rewrite Ec in *. specialize (IH st1 b (fst x, t') He T1 T2 Hv). rewrite El in IH. exact IH.
Qed.

(** Before the stash is made nobody can call it. *)
Lemma mcall_length : forall e db m st, length (snd (mcall_c e db m st)) = made [m] + length st.
Proof.
  intros e db m st. destruct m as [nw neg|j c z]; cbn [mcall_c made filter length].
  - cbn [snd]. rewrite app_length, clear_length. cbn. lia.
  - destruct (nth_error st j) as [x|] eqn:E; [|reflexivity]. assert (H : j < length st) by (apply nth_error_Some; congruence).
    destruct (call_c e c x). cbn [snd]. destruct (clears e c z (fst x)); rewrite put_length; rewrite ?clear_length; auto.
Qed.
Lemma made_app : forall a b, made (a ++ b) = made a + made b.
Proof. intros a b. unfold made. now rewrite filter_app, app_length. Qed.
Lemma before_made : forall e db k ms st, made ms + length st <= k ->
  answers_on k (fst (mcalls_c e db ms st)) = [] /\ length (snd (mcalls_c e db ms st)) = made ms + length st.
Proof.
  intros e db k ms. induction ms as [|m ms IH]; intros st H; [now split|].
  change (m :: ms) with ([m] ++ ms) in H |- *. rewrite made_app in *. cbn [mcalls_c app].
  pose proof (mcall_length e db m st) as L. destruct (mcall_c e db m st) as [a st1] eqn:Em. cbn [snd] in L.
  specialize (IH st1). rewrite L in IH. destruct (mcalls_c e db ms st1) as [l st2]. cbn [fst snd] in *.
  destruct IH as [I1 I2]; [lia|]. split; [|lia]. rewrite answers_app, I1, app_nil_r.
  destruct m as [nw neg|j c z]; cbn [mcall_c] in Em; [now injection Em as <- _|].
  destruct (nth_error st j) as [x|] eqn:E; [|now injection Em as <- _].
  assert (Hj : j < length st) by (apply nth_error_Some; congruence).
  destruct (call_c e c x). injection Em as <- _. unfold answers_on. cbn.
  replace (Nat.eqb j k) with false; [reflexivity|]. symmetry. apply Nat.eqb_neq. lia.
Qed.

Lemma mcalls_app : forall e db a b st, mcalls_c e db (a ++ b) st =
  (fst (mcalls_c e db a st) ++ fst (mcalls_c e db b (snd (mcalls_c e db a st))), snd (mcalls_c e db b (snd (mcalls_c e db a st)))).
Proof.
  intros e db a b. induction a as [|m a IH]; intro st.
  - cbn [app mcalls_c fst snd]. apply surjective_pairing.
  - cbn [app mcalls_c]. destruct (mcall_c e db m st) as [x st1]. rewrite IH. destruct (mcalls_c e db a st1) as [l st2].
    cbn [fst snd]. now rewrite app_assoc.
Qed.

Lemma C99_lemma : forall e db nw neg before after, env_ok e ->
  served e true (new_stash nw neg db) (calls_on (made before) after) ->
  answers_on (made before) (fst (mcalls_c e db (before ++ MNew nw neg :: after) [])) =
  fst (plain_calls e (calls_on (made before) after) (new_stash nw neg db)).
Proof.
  intros e db nw neg before after He H. rewrite mcalls_app. cbn [fst]. rewrite answers_app.
  destruct (before_made e db (made before) before []) as [B1 B2]; [cbn; lia|]. rewrite B1. cbn [app].
  cbn [mcalls_c mcall_c]. set (st := snd (mcalls_c e db before [])) in *.
  assert (Hn : nth_error (clear_all st ++ [(new_stash nw neg db, no_tables)]) (made before) = Some (new_stash nw neg db, no_tables)).
  { rewrite nth_error_app2 by (rewrite clear_length; cbn in B2; lia). rewrite clear_length, B2. cbn [length].
    replace (made before - (made before + 0)) with 0 by lia. reflexivity. }
  pose proof (run_sound e db (made before) after _ true _ He Hn) as R.
  destruct (mcalls_c e db after (clear_all st ++ [(new_stash nw neg db, no_tables)])) as [l st2]. cbn [fst] in R |- *.
  cbn [app]. apply R; [|exact H]. split; [exists nw, neg, db; apply steps_refl|].
  split; [apply (cleared e _ no_tables)|]. intros _. now exists no_tables.
Qed.
