(** * Lookups of files: proofs *)

From Verif Require Import PyStr PyPath StrFacts Cache Proofs_Cache Memo Spec_Memo.

Lemma key_lookup_iff : forall a b, key_lookup a b = true <-> a = b.
Proof.
  intros [o n d|o n] [o' n' d'|o' n']; cbn; try (split; discriminate).
  - rewrite !Bool.andb_true_iff, Nat.eqb_eq, !str_eqb_eq. split; [intros [[-> ->] ->]; reflexivity|now injection 1].
  - rewrite !Bool.andb_true_iff, Nat.eqb_eq, str_eqb_eq. split; [intros [-> ->]; reflexivity|now injection 1].
Qed.
Lemma look_in : forall q (t : memo) p, In (q, p) t -> look key_lookup q t <> None.
Proof.
  intros q t p. induction t as [|[q' p'] t IH]; [intros []|]. cbn. intros [E|E].
  - injection E as -> ->. now rewrite (proj2 (key_lookup_iff q q) eq_refl).
  - destruct (key_lookup q' q); [discriminate|now apply IH].
Qed.

(** The table after [a]: the answers of the bodies at the first calls. *)
Definition recorded (l : list event) (w : fs) (t : memo) : Prop :=
  (forall q p, In (q, p) t -> exists a, first_after l a q /\ body (world a w) q = Some p) /\
  (forall q, In q (asks l) -> exists p, In (q, p) t).

Lemma asks_app : forall a b, asks (a ++ b) = asks a ++ asks b.
Proof. intros a b. induction a as [|[w|o|q] a IH]; cbn; now rewrite ?IH. Qed.
Lemma world_app : forall a b w, world (a ++ b) w = world b (world a w).
Proof. intros a b. induction a as [|[w'|o|q] a IH]; intro w; cbn; auto. Qed.
Lemma first_more : forall l a q e, first_after l a q -> first_after (l ++ [e]) a q.
Proof. intros l a q e [[b ->] H]. split; [|exact H]. exists (b ++ [e]). now rewrite <- app_assoc. Qed.

Lemma lookups_go : forall l pre w t, recorded pre w t ->
  forall k p, nth_error (lookups l (world pre w) t) k = Some p ->
  exists a q b, l = a ++ Asks q :: b /\ length (asks a) = k /\
    exists c, first_after (pre ++ l) c q /\ p = body (world c w) q.
Proof.
  induction l as [|[w'|o|q] l IH]; intros pre w t H k p E; cbn [lookups] in E.
  - destruct k; discriminate.
  - assert (W : w' = world (pre ++ [Changes w']) w) by now rewrite world_app.
    rewrite W in E. apply IH in E.
    + destruct E as (a & q & b & -> & Ek & c & Hc & Ep). exists (Changes w' :: a), q, b. split; [reflexivity|]. split; [exact Ek|].
      exists c. rewrite <- app_assoc in Hc. auto.
    + destruct H as [H1 H2]. split.
      * intros x y Hx. destruct (H1 x y Hx) as [a [Ha Hb]]. exists a. split; [now apply first_more|exact Hb].
      * intros x Hx. rewrite asks_app, app_nil_r in Hx. now apply H2.
  - assert (W : world pre w = world (pre ++ [Clears o]) w) by now rewrite world_app.
    rewrite W in E. apply IH in E.
    + destruct E as (a & q & b & -> & Ek & c & Hc & Ep). exists (Clears o :: a), q, b. split; [reflexivity|]. split; [exact Ek|].
      exists c. rewrite <- app_assoc in Hc. auto.
    + destruct H as [H1 H2]. split.
      * intros x y Hx. destruct (H1 x y Hx) as [a [Ha Hb]]. exists a. split; [now apply first_more|exact Hb].
      * intros x Hx. rewrite asks_app, app_nil_r in Hx. now apply H2.
  - assert (W : world pre w = world (pre ++ [Asks q]) w) by now rewrite world_app.
    assert (Old : forall y, look key_lookup q t = Some y -> exists a, first_after pre a q /\ body (world a w) q = Some y).
    { intros y Hy. apply look_some in Hy. destruct Hy as [q' [Hq Hy]]. apply key_lookup_iff in Hq. subst q'. now apply H. }
    assert (New : look key_lookup q t = None -> first_after (pre ++ Asks q :: l) pre q).
    { intro Hn. split; [now exists l|]. intro Hq. destruct H as [_ H]. destruct (H q Hq) as [y Hy]. now apply look_in in Hy. }
    destruct (look key_lookup q t) as [y|] eqn:El.
    + destruct (Old y eq_refl) as [a [Ha Hb]]. destruct k as [|k]; cbn [nth_error] in E.
      * injection E as <-. exists [], q, l. split; [reflexivity|]. split; [reflexivity|]. exists a. split; [|now rewrite Hb].
        destruct Ha as [[b ->] Ha]. split; [|exact Ha]. exists (b ++ Asks q :: l). now rewrite <- app_assoc.
      * rewrite W in E. apply IH in E.
        -- destruct E as (a' & q' & b' & -> & Ek & c & Hc & Ep). exists (Asks q :: a'), q', b'. split; [reflexivity|].
           split; [cbn; now rewrite Ek|]. exists c. rewrite <- app_assoc in Hc. auto.
        -- destruct H as [H1 H2]. split.
           ++ intros x z Hx. destruct (H1 x z Hx) as [a' [Ha' Hb']]. exists a'. split; [now apply first_more|exact Hb'].
           ++ intros x Hx. rewrite asks_app in Hx. apply in_app_or in Hx. destruct Hx as [Hx|[<-|[]]]; [now apply H2|].
              apply look_some in El. destruct El as [q' [Hq Hy]]. apply key_lookup_iff in Hq. subst q'. now exists y.
    + specialize (New eq_refl). destruct (body (world pre w) q) as [y|] eqn:Eb.
      * destruct k as [|k]; cbn [nth_error] in E.
        -- injection E as <-. exists [], q, l. split; [reflexivity|]. split; [reflexivity|]. exists pre. now rewrite Eb.
        -- rewrite W in E. apply IH in E.
           ++ destruct E as (a' & q' & b' & -> & Ek & c & Hc & Ep). exists (Asks q :: a'), q', b'. split; [reflexivity|].
              split; [cbn; now rewrite Ek|]. exists c. rewrite <- app_assoc in Hc. auto.
           ++ destruct H as [H1 H2]. split.
              ** intros x z [Hx|Hx].
                 --- injection Hx as <- <-. exists pre. split; [|exact Eb]. split; [now exists []|apply New].
                 --- destruct (H1 x z Hx) as [a' [Ha' Hb']]. exists a'. split; [now apply first_more|exact Hb'].
              ** intros x Hx. rewrite asks_app in Hx. apply in_app_or in Hx. destruct Hx as [Hx|[<-|[]]].
                 --- destruct (H2 x Hx) as [z Hz]. exists z. now right.
                 --- exists y. now left.
      * destruct k as [|k]; [|destruct k; discriminate]. cbn [nth_error] in E. injection E as <-.
        exists [], q, l. split; [reflexivity|]. split; [reflexivity|]. exists pre. now rewrite Eb.
Qed.

Lemma asks_unique : forall a q b a' q' b', a ++ Asks q :: b = a' ++ Asks q' :: b' ->
  length (asks a) = length (asks a') -> a = a' /\ q = q'.
Proof.
  induction a as [|e a IH]; intros q b [|e' a'] q' b' E L; cbn in E.
  - injection E as -> _. now split.
  - injection E as <- E. discriminate L.
  - injection E as -> E. discriminate L.
  - injection E as <- E. assert (L' : length (asks a) = length (asks a')) by (destruct e; cbn in L; congruence).
    destruct (IH _ _ _ _ _ E L') as [-> ->]. now split.
Qed.

Lemma C116_first_lemma : forall w l a q b p, l = a ++ Asks q :: b ->
  nth_error (lookups l w []) (length (asks a)) = Some p ->
  exists c, first_after l c q /\ p = body (world c w) q.
Proof.
  intros w l a q b p El E. change w with (world [] w) in E at 1. apply (lookups_go l []) in E.
  - destruct E as (a' & q' & b' & El' & Ek & c & Hc & Ep). exists c. rewrite El' in El.
    destruct (asks_unique _ _ _ _ _ _ El Ek) as [_ ->]. now split.
  - split; [intros x y []|intros x []].
Qed.

Lemma world_still : forall l w, (forall w', ~ In (Changes w') l) -> world l w = w.
Proof.
  induction l as [|[w'|o|q] l IH]; intros w H; cbn; [reflexivity| | |].
  - exfalso. apply (H w'). now left.
  - apply IH. intros w' Hw. apply (H w'). now right.
  - apply IH. intros w' Hw. apply (H w'). now right.
Qed.
Lemma C116_still_lemma : forall w l a q b p, (forall w', ~ In (Changes w') l) -> l = a ++ Asks q :: b ->
  nth_error (lookups l w []) (length (asks a)) = Some p -> p = body w q.
Proof.
  intros w l a q b p H El E. destruct (C116_first_lemma w l a q b p El E) as [c [[[d Ec] _] ->]].
  rewrite world_still; [reflexivity|]. intros w' Hw. apply (H w'). rewrite Ec. apply in_or_app. now left.
Qed.

Lemma C116_all_lemma : forall w l, (forall a q b c, l = a ++ Asks q :: b -> first_after l c q -> body (world c w) q <> None) ->
  length (lookups l w []) = length (asks l).
Proof.
  intros w l. change w with (world [] w) at 2.
  assert (G : forall l pre t, recorded pre w t ->
    (forall a q b c, l = a ++ Asks q :: b -> first_after (pre ++ l) c q -> body (world c w) q <> None) ->
    length (lookups l (world pre w) t) = length (asks l)).
  { clear l. induction l as [|e l IH]; intros pre t H N; [reflexivity|].
    assert (Next : forall t', recorded (pre ++ [e]) w t' -> length (lookups l (world (pre ++ [e]) w) t') = length (asks l)).
    { intros t' Ht. apply IH; [exact Ht|]. intros a q b c El Hc. rewrite <- app_assoc in Hc.
      apply (N (e :: a) q b c); [now rewrite El|exact Hc]. }
    rewrite world_app in Next.
    assert (Same : (forall q, e <> Asks q) -> recorded (pre ++ [e]) w t).
    { intro Hq. destruct H as [H1 H2]. split.
      - intros x y Hx. destruct (H1 x y Hx) as [a [Ha Hb]]. exists a. split; [now apply first_more|exact Hb].
      - intros x Hx. rewrite asks_app in Hx. destruct e as [w'|o|q]; [| |now contradiction (Hq q)];
          cbn in Hx; rewrite app_nil_r in Hx; now apply H2. }
    destruct e as [w'|o|q]; cbn [lookups asks length].
    - apply Next, Same. discriminate.
    - apply Next, Same. discriminate.
    - destruct (look key_lookup q t) as [y|] eqn:El.
      + cbn [length]. f_equal. apply Next. destruct H as [H1 H2]. split.
        * intros x z Hx. destruct (H1 x z Hx) as [a [Ha Hb]]. exists a. split; [now apply first_more|exact Hb].
        * intros x Hx. rewrite asks_app in Hx. apply in_app_or in Hx. destruct Hx as [Hx|[<-|[]]]; [now apply H2|].
          apply look_some in El. destruct El as [q' [Hq Hy]]. apply key_lookup_iff in Hq. subst q'. now exists y.
      + assert (New : ~ In q (asks pre)).
        { intro Hq. destruct H as [_ H]. destruct (H q Hq) as [y Hy]. now apply look_in in Hy. }
        destruct (body (world pre w) q) as [y|] eqn:Eb.
        * cbn [length]. f_equal. apply Next. destruct H as [H1 H2]. split.
          -- intros x z [Hx|Hx].
             ++ injection Hx as <- <-. exists pre. split; [|exact Eb]. split; [now exists []|exact New].
             ++ destruct (H1 x z Hx) as [a' [Ha' Hb']]. exists a'. split; [now apply first_more|exact Hb'].
          -- intros x Hx. rewrite asks_app in Hx. apply in_app_or in Hx. destruct Hx as [Hx|[<-|[]]].
             ++ destruct (H2 x Hx) as [z Hz]. exists z. now right.
             ++ exists y. now left.
        * exfalso. apply (N [] q l pre); [reflexivity|split; [now exists l|exact New]|exact Eb]. }
  intro N. apply G; [split; [intros x y []|intros x []]|exact N].
Qed.

Lemma asks_nth : forall l k q, nth_error (asks l) k = Some q -> exists a b, l = a ++ Asks q :: b /\ length (asks a) = k.
Proof.
  induction l as [|e l IH]; intros k q E; [destruct k; discriminate|].
  destruct e as [w'|o|q']; cbn [asks] in E.
  - destruct (IH k q E) as (a & b & -> & L). exists (Changes w' :: a), b. now split.
  - destruct (IH k q E) as (a & b & -> & L). exists (Clears o :: a), b. now split.
  - destruct k as [|k]; cbn [nth_error] in E.
    + injection E as ->. exists [], l. now split.
    + destruct (IH k q E) as (a & b & -> & L). exists (Asks q' :: a), b. split; [reflexivity|]. cbn. now rewrite L.
Qed.
Lemma nth_same : forall (A : Type) (a b : list A), length a = length b ->
  (forall k x y, nth_error a k = Some x -> nth_error b k = Some y -> x = y) -> a = b.
Proof.
  intros A a. induction a as [|x a IH]; intros [|y b] L H; try discriminate; [reflexivity|].
  rewrite (H 0 x y eq_refl eq_refl). f_equal. apply IH; [now injection L|]. intros k u v. apply (H (S k)).
Qed.
Lemma C116_same_lemma : forall w l, (forall w', ~ In (Changes w') l) -> (forall q, In q (asks l) -> body w q <> None) ->
  lookups l w [] = map (body w) (asks l).
Proof.
  intros w l H N. apply nth_same.
  - rewrite map_length. apply C116_all_lemma. intros a q b c El [[d Ec] _]. rewrite world_still.
    + apply N. rewrite El, asks_app. apply in_or_app. right. now left.
    + intros w' Hw. apply (H w'). rewrite Ec. apply in_or_app. now left.
  - intros k x y Hx Hy. rewrite nth_error_map in Hy. destruct (nth_error (asks l) k) as [q|] eqn:E; [|discriminate].
    cbn in Hy. injection Hy as <-. destruct (asks_nth _ _ _ E) as (a & b & El & L). rewrite <- L in Hx.
    exact (C116_still_lemma w l a q b x H El Hx).
Qed.
