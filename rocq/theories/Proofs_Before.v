(** * Proofs for the general form of C39 and for C123 *)

From Verif Require Import PyStr Regex Patterns PyPath Res Inline Const Item Lines Stash
  StrFacts ReFacts LinesFacts ParseFacts OffsetFacts HistFacts ReachFacts IncludeFacts
  Spec_Query Spec_Expand VarFacts Spec_Include Proofs_Include Spec_Compose Proofs_Values Proofs_Compose Spec_Before.
From Coq Require Import Sorted.

(** ** Any number of statements that add files *)

Lemma chunks_many : forall e n file off cs inc new s l s',
  parse_chunks e (fun p o f => add_file n e p o (Some f)) file off inc new cs s = (Ok l, s') ->
  quiet_from (st_next s) None s' ->
  exists f nw, raises f /\ st_list s' = map f (st_list s) ++ nw /\
    Forall (fun z => (it_infile z + off + inc <= it_line z)%Z) l /\
    (forall a z b, l = a ++ z :: b -> Forall adds_no_file a -> it_line z = (it_infile z + off + inc)%Z) /\
    forall y, In y nw -> exists a x b mx, l = a ++ x :: b /\ ~ adds_no_file x /\ beside (it_infile x + off) mx y /\
      Forall (fun z => (it_infile z + off + inc + mx <= it_line z)%Z) b.
Proof.
  intros e n file off cs. induction cs as [|c cs IH]; intros inc new s l s' H Hq; cbn [parse_chunks] in H.
  - inversion H; subst. exists (fun i => i), []. rewrite map_id, app_nil_r. split; [apply raises_id|]. split; [reflexivity|].
    split; [constructor|]. split; [intros [|? ?] z b E; discriminate|]. intros y [].
  - unfold bindM at 1 in H.
    match type of H with match ?t with _ => _ end = _ => destruct t as [[w|ex|] s1] eqn:E; try discriminate end.
    unfold bindM, ret in H.
    match type of H with match ?t with _ => _ end = _ => destruct t as [[l0|ex|] s2] eqn:E2; try discriminate end.
    cbn in H. inversion H; subst. clear H.
    pose proof (chunks_grows _ _ _ _ _ _ _ _ _ _ E2) as G2. apply grows_drop in G2.
    pose proof E as G1. apply step_grows in G1; [|intro k; reflexivity].
    pose proof (grows_next _ _ _ G1) as N1.
    pose proof E as Em. apply try_kinds_sat in Em; [|apply add_file_addf_ok]. destruct Em as [[i0 [new' [pay [Ex _]]]] Hw].
    pose proof E2 as E3. apply IH in E3; [|eapply quiet_mono; eassumption].
    destruct E3 as [f2 [nw2 [Hf2 [L2 [B2 [X2 Y2]]]]]].
    assert (Hx : (ck_line c = it_infile (fst w) + off)%Z) by (rewrite Ex; cbn; lia).
    assert (Hlx : it_line (fst w) = (it_infile (fst w) + off + inc)%Z) by (rewrite Ex; cbn; lia).
    pose proof E as Ep. apply try_puts in Ep; [|eapply quiet_back; eassumption].
    destruct Ep as [f1 [nw1 [Hf1 [L1 P1]]]].
    assert (Hq1 : forall y, In y nw1 -> quiet y /\ f2 y = y).
    { intros y Hy. assert (Hin : In (f2 y) (st_list s')).
      { rewrite L2, L1, map_app. apply in_or_app. left. apply in_or_app. right. now apply in_map. }
      assert (Hr : st_next s <= it_id y).
      { destruct G1 as [f1' [nw1' [_ [L1' [_ [R1 _]]]]]]. rewrite L1 in L1'.
        apply app_inv_len in L1'; [|now rewrite !map_length]. destruct L1' as [_ <-]. rewrite Forall_forall in R1.
        assert (Hy' : In y (nw1 ++ [fst w])) by (apply in_or_app; now left). apply R1 in Hy'. unfold in_range in Hy'. lia. }
      assert (Hid : st_next s <= it_id (f2 y)) by now rewrite raises_it_id.
      specialize (Hq _ Hin Hid ltac:(discriminate)). rename Hq into Hqy.
      destruct (Hf2 y) as [Ey [_ Eb]]. rewrite Ey in Hqy. split; [exact Hqy|]. apply Eb. exact (proj2 Hqy). }
    exists (fun i => f2 (f1 i)), (nw1 ++ nw2). split; [now apply raises_comp|]. split.
    { rewrite L2, L1, map_app, map_map, <- app_assoc. f_equal. f_equal. rewrite <- (map_id nw1) at 2. apply map_ext_in.
      intros y Hy. now apply Hq1. }
    split; [constructor; [lia|]; eapply Forall_impl; [|exact B2]; intros z Hz; cbn in Hz; lia|]. split.
    + intros [|z0 a] z b El Ha; inversion El; subst; [exact Hlx|]. inversion Ha as [|? ? Ha1 Ha2]; subst.
      apply try_quiet in E; [|exact Ha1]. rewrite (X2 a z b eq_refl Ha2). destruct E as [_ ->]. lia.
    + intros y Hy. apply in_app_or in Hy. destruct Hy as [Hy|Hy].
      * exists [], (fst w), l0, (snd w). split; [reflexivity|]. split.
        { intro Hn. apply try_quiet in E; [|exact Hn]. destruct E as [E _]. rewrite L1 in E.
          assert (Hl : length nw1 = 0) by (apply (f_equal (@length _)) in E; rewrite app_length, map_length in E; lia).
          destruct nw1; [destruct Hy|discriminate]. }
        split.
        { rewrite Forall_forall in P1. rewrite <- Hx. apply P1; [exact Hy|]. now apply Hq1. }
        eapply Forall_impl; [|exact B2]. intros z Hz. cbn in Hz. lia.
      * destruct (Y2 y Hy) as [a [x [b [mx [-> [Hnx [Hb Hz]]]]]]]. exists (fst w :: a), x, b, mx. split; [reflexivity|].
        split; [exact Hnx|]. split; [exact Hb|]. eapply Forall_impl; [|exact Hz]. intros z Hz'. cbn in Hz'. lia.
Qed.

(** ** The whole file *)

Lemma adds_no_file_dec : forall i, adds_no_file i \/ ~ adds_no_file i.
Proof.
  intro i. unfold adds_no_file. destruct (it_pay i) as [| | |a b p| | | | | | | | | | | |a b p| ]; try (left; exact I);
    (destruct p; [left; reflexivity|right; discriminate]).
Qed.

Lemma before : forall n e path off forced s l s',
  add_file n e path off forced s = (Ok l, s') -> l <> [] ->
  (forall y, In y (st_list s') -> st_next s <= it_id y -> endswith ".bbappend" (it_origin y) = false) ->
  (forall y, In y (st_list s') -> st_next s <= it_id y -> ~ adds_no_file y -> exists x, In x l /\ it_id y = it_id x) ->
  Forall (fun i => it_id i < st_next s) (st_list s) ->
  exists f nw, raises f /\ st_list s' = map f (st_list s) ++ nw ++ l /\
    Forall (fun y => st_next s <= it_id y) (nw ++ l) /\ NoDup (map it_id (nw ++ l)) /\
    Forall (fun i => it_origin i = abspath (fs_cwd (e_fs e)) path) l /\
    increasing (map it_line l) /\ Forall (fun z => (it_infile z + off <= it_line z)%Z) l /\
    (forall a z b, l = a ++ z :: b -> Forall adds_no_file a -> it_line z = (it_infile z + off)%Z) /\
    forall y, In y nw -> exists a x b, l = a ++ x :: b /\ ~ adds_no_file x /\
      it_line y = (off + it_infile x + it_infile y)%Z /\ (1 <= it_infile y)%Z /\ Forall (fun z => (it_line y < it_line z)%Z) b.
Proof.
  intros n e path off forced s l s' H Hnil Hbb Hld Hold. destruct n as [|n]; [discriminate|]. rewrite add_file_eq in H. cbv zeta in H.
  destruct (skipped e path s) eqn:Es; [inversion H; subst; now destruct Hnil|].
  set (file := abspath (fs_cwd (e_fs e)) path) in *. unfold bindM in H.
  destruct (get_items e _ file off (enter file s)) as [[items|ex|] s1] eqn:Eg; try discriminate.
  pose proof H as Hle. apply leave_cases in H. destruct H as [f [l' [Hf [L [_ [_ [_ [_ [_ [_ [_ Hl]]]]]]]]]]].
  destruct (Hl _ eq_refl) as [El [mx Emx]]. subst l'. clear Hl.
  pose proof Eg as Ec. apply get_items_sat in Ec; [|apply add_file_addf_ok]. destruct Ec as [cs [Ec1 Ec2]].
  pose proof (parsed_origin _ _ _ _ _ _ Ec2) as Ho.
  assert (Ei : items = l).
  { destruct items as [|i0 items0] eqn:Eit; [rewrite Emx in Hnil; now destruct Hnil|]. rewrite <- Eit in *.
    assert (Hfile : endswith ".bbappend" file = false).
    { rewrite Forall_forall in Ho. assert (Hi0 : In i0 items) by (rewrite Eit; now left).
      rewrite <- (Ho _ Hi0).
      assert (Hin : In (set_line (it_line i0 + mx) i0) (st_list s')).
      { rewrite L. apply in_or_app. right. rewrite Emx. apply in_map_iff. exists i0. split; [reflexivity|exact Hi0]. }
      apply Hbb in Hin; [exact Hin|]. cbn.
      unfold get_items, bindM, liftR in Eg. destruct (prepare_file _ _ _ _) as [cs'|ex|]; try discriminate.
      apply chunks_grows in Eg. destruct Eg as [_ [n1 [_ [_ [_ [R1 _]]]]]]. rewrite Forall_forall in R1.
      assert (Hr : In i0 (n1 ++ items)) by (apply in_or_app; now right). apply R1 in Hr. unfold in_range in Hr. cbn in Hr. lia. }
    unfold leave in Hle. unfold bindM at 1 in Hle. unfold bindM at 1 in Hle.
    match type of Hle with match ?t with _ => _ end = _ => destruct t as [[it2|ex|] s2] eqn:Em; try discriminate end.
    unfold bindM at 1 in Hle. destruct (add_distro_machine e file s2) as [[u|ex|] s3]; try discriminate.
    unfold bindM, ret in Hle. inversion Hle; subst it2. apply match_appends_shift in Em. destruct Em as [mx' [Em Hm']].
    rewrite (Hm' Hfile) in Em. rewrite Em. rewrite <- (map_id items) at 1. apply map_ext. intro i. destruct i. cbn. now rewrite Z.add_0_r. }
  subst items. clear Emx Hle.
  apply prepare_file_ok in Ec1. destruct Ec1 as [Ec1 _].
  pose proof (parsed_lines _ _ _ _ _ _ _ _ Ec1 Ec2) as Hord.
  unfold get_items, bindM, liftR in Eg. destruct (prepare_file _ _ _ _) as [cs'|ex|]; try discriminate.
  pose proof (chunks_grows _ _ _ _ _ _ _ _ _ _ Eg) as G1. destruct G1 as [f1 [n1 [F1 [L1 [D1 [R1 [N1 _]]]]]]].
  change (st_list (enter file s)) with (st_list s) in L1. change (st_next (enter file s)) with (st_next s) in R1.
  assert (Hfn : forall t, In t n1 -> quiet t /\ f t = t).
  { intros t Ht.
    assert (Hin : In (f t) (st_list s')).
    { rewrite L, L1, map_app. apply in_or_app. left. apply in_or_app. right. now apply in_map. }
    assert (Hid : st_next s <= it_id (f t)).
    { rewrite raises_it_id by exact Hf. rewrite Forall_forall in R1.
      assert (Hr : In t (n1 ++ l)) by (apply in_or_app; now left). apply R1 in Hr. unfold in_range in Hr. lia. }
    destruct (Hf t) as [Et [_ Eb]].
    assert (Hqt : quiet (f t)).
    { split; [|now apply Hbb].
      destruct (adds_no_file_dec (f t)) as [Hd|Hd]; [exact Hd|]. exfalso.
      destruct (Hld _ Hin Hid Hd) as [x [Hx Ex]]. rewrite raises_it_id in Ex by exact Hf. rewrite map_app in D1.
      apply (NoDup_app_disj _ _ _ _ D1 (in_map it_id _ _ Ht)). rewrite Ex. now apply in_map. }
    rewrite Et in Hqt. split; [exact Hqt|]. apply Eb. exact (proj2 Hqt). }
  assert (Hn1 : map f n1 = n1).
  { rewrite <- (map_id n1) at 2. apply map_ext_in. intros t Ht. now apply Hfn. }
  exists (fun i => f (f1 i)), n1. split; [now apply raises_comp|].
  split; [rewrite L, L1, map_app, map_map, Hn1, <- app_assoc; reflexivity|].
  split; [eapply Forall_impl; [|exact R1]; intros y Hy; unfold in_range in Hy; lia|]. split; [exact D1|]. split; [exact Ho|].
  split; [exact (proj1 Hord)|].
  apply chunks_many in Eg.
  - destruct Eg as [f2 [n2 [_ [L2 [B2 [X2 P2]]]]]]. change (st_list (enter file s)) with (st_list s) in L2.
    assert (En : n2 = n1).
    { rewrite L1 in L2. apply app_inv_len in L2; [|now rewrite !map_length]. symmetry. apply L2. }
    subst n2. split; [eapply Forall_impl; [|exact B2]; intros z Hz; cbn in Hz; lia|].
    split; [intros a z b E Ha; rewrite (X2 a z b E Ha); lia|]. intros y Hy.
    destruct (P2 y Hy) as [a [x [b [mx' [-> [Hnx [[B1 B3] Hz]]]]]]]. exists a, x, b. split; [reflexivity|]. split; [exact Hnx|].
    split; [lia|]. split; [lia|].
    destruct Hord as [_ [Hinf _]]. rewrite map_app in Hinf. cbn [map] in Hinf. apply increasing_mid in Hinf. destruct Hinf as [_ I2].
    rewrite Forall_map in I2. rewrite Forall_forall in Hz, I2. apply Forall_forall. intros z Hzb.
    specialize (Hz _ Hzb). specialize (I2 _ Hzb). cbn in *. lia.
  - intros t Ht Hk _. rewrite L1 in Ht. apply in_app_or in Ht. destruct Ht as [Ht|Ht].
    + exfalso. apply in_map_iff in Ht. destruct Ht as [t0 [<- Ht]]. rewrite raises_it_id in Hk by exact F1.
      rewrite Forall_forall in Hold. apply Hold in Ht. cbn in Hk. lia.
    + now apply Hfn.
Qed.

Lemma C39_before_lemma : forall n e path off forced s l s', reach e s ->
  add_file n e path off forced s = (Ok l, s') -> l <> [] ->
  (forall y, added s s' y -> endswith ".bbappend" (it_origin y) = false) ->
  (forall y, added s s' y -> loads y -> exists x, In x l /\ it_id y = it_id x) ->
  (forall a z b, l = a ++ z :: b -> (it_infile z + off <= it_line z)%Z /\
     ((forall x, In x a -> ~ loads x) -> it_line z = (it_infile z + off)%Z)) /\
  forall y, added s s' y -> ~ In y l ->
  exists a x b, l = a ++ x :: b /\ loads x /\ it_line y = (off + it_infile x + it_infile y)%Z /\ (1 <= it_infile y)%Z /\
    (forall z, In z b -> (it_line y < it_line z)%Z).
Proof.
  intros n e path off forced s l s' Hr H Hnil Hbb Hl. apply reach_ids in Hr. destruct Hr as [_ Hold].
  destruct (before n e path off forced s l s' H Hnil) as [f [nw [Hf [L [_ [_ [_ [_ [B [X Hb]]]]]]]]]].
  - intros y H1 H2. apply Hbb. now split.
  - intros y H1 H2 H3. apply Hl; [now split|]. destruct (loads_iff y) as [H4 _]. unfold loads.
    unfold adds_no_file in H3. destruct (it_pay y) as [| | |a b p| | | | | | | | | | | |a b p| ]; try (now apply H3); exact H3.
  - exact Hold.
  - split.
    + intros a z b E. split.
      * rewrite Forall_forall in B. apply B. rewrite E. apply in_or_app. right. now left.
      * intro Ha. apply (X a z b E). apply Forall_forall. intros x Hx. apply loads_iff. now apply Ha.
    + intros y [Hy1 Hy2] Hy.
      assert (Hn : In y nw).
      { rewrite L in Hy1. apply in_app_or in Hy1. destruct Hy1 as [Ho|Hn].
        - exfalso. apply in_map_iff in Ho. destruct Ho as [t [<- Ht]]. rewrite raises_it_id in Hy2 by exact Hf.
          rewrite Forall_forall in Hold. apply Hold in Ht. lia.
        - apply in_app_or in Hn. destruct Hn as [Hn|Hn]; [exact Hn|contradiction]. }
      destruct (Hb y Hn) as [a [x [b [E [Hx [B1 [B2 B3]]]]]]]. exists a, x, b. split; [exact E|]. split.
      * unfold loads. unfold adds_no_file in Hx. destruct (it_pay x) as [| | |? ? p| | | | | | | | | | | |? ? p| ]; try (now apply Hx); exact Hx.
      * split; [exact B1|]. split; [exact B2|]. now rewrite Forall_forall in B3.
Qed.

(** ** C123 *)

Lemma history_of : forall nm l, (forall y, In y l -> tells nm y -> at_its_place nm y) ->
  (forall y, In y l -> classifier y = "Variable" \/ classifier y = "Unset") ->
  exists evs, history nm l evs /\ forall x, In x evs -> forall v, x <> LateAdds v /\ x <> LateLeads v /\ x <> LateRemoves v.
Proof.
  intros nm l. induction l as [|i l IH]; intros H Hc; [exists []; split; [constructor|intros x []]|].
  destruct IH as [evs [H1 H2]]; [intros y Hy; apply H; now right|intros y Hy; apply Hc; now right|].
  assert (Hd : about nm i \/ ~ about nm i).
  { unfold about. destruct (it_pay i); try (destruct (list_eq_dec N.eq_dec (item_name_nomod i) nm); [left|right]; assumption).
    destruct (list_eq_dec N.eq_dec name nm) as [->|Hn]; [|right; intros [E _]; exact (Hn E)].
    destruct flag; [left; now split|right; intros [_ E]; discriminate]. }
  destruct Hd as [Hd|Hd].
  - destruct (H i (or_introl eq_refl)) as [x [Hx Hp]]; [split; [exact Hd|apply Hc; now left]|].
    exists (x :: evs). split; [now apply hist_does|]. intros z [<-|Hz]; [exact Hp|now apply H2].
  - exists evs. split; [now apply hist_other|exact H2].
Qed.

Lemma late_none : forall evs, (forall x, In x evs -> forall v, x <> LateAdds v /\ x <> LateLeads v /\ x <> LateRemoves v) ->
  forall c, fold_left late_add evs c = c /\ fold_left late_remove evs c = c.
Proof.
  induction evs as [|x evs IH]; intros H c; [split; reflexivity|]. cbn [fold_left].
  assert (Hx : late_add c x = c /\ late_remove c x = c).
  { destruct x; try (split; reflexivity); exfalso;
      destruct (H _ (or_introl eq_refl) v) as [H1 [H2 H3]]; congruence. }
  destruct Hx as [-> ->]. apply IH. intros z Hz. apply H. now right.
Qed.

Lemma history_before : forall nm a i b evs x, history nm a evs -> does nm i x -> (forall z, In z b -> ~ about nm z) ->
  history nm (a ++ i :: b) (evs ++ [x]).
Proof.
  intros nm a i b evs x H Hd Hb. induction H as [|y a evs Hn H IH|y a w evs Hw H IH]; cbn [List.app].
  - apply hist_does; [exact Hd|]. induction b as [|z b IH]; [constructor|].
    apply hist_other; [apply Hb; now left|]. apply IH. intros w Hw. apply Hb. now right.
  - now apply hist_other.
  - now apply hist_does.
Qed.

Lemma does_about : forall nm i x, does nm i x -> tells nm i.
Proof.
  intros nm i x H. unfold tells, about, classifier.
  destruct H as [H|? ? ? ? ? ? ? H|? ? ? ? ? ? H|? ? ? ? ? ? H|? ? ? ? ? ? H|? ? ? ? ? ? H|? ? ? ? ? ? H]; rewrite H; auto.
Qed.

Lemma sorted_after : forall (a : list item) i b, StronglySorted by_line (a ++ i :: b) -> forall z, In z b -> by_line i z.
Proof.
  intros a i b. induction a as [|y a IH]; intros H z Hz; cbn [List.app] in H; inversion H as [|? ? H1 H2]; subst.
  - rewrite Forall_forall in H2. now apply H2.
  - now apply IH.
Qed.

Lemma C123_lemma : forall n e path off forced new neg db a i b s' nm v d, env_ok e -> plain_base db ->
  add_file n e path off forced (new_stash new neg db) = (Ok (a ++ i :: b), s') ->
  (forall y, In y (st_list s') -> endswith ".bbappend" (it_origin y) = false) ->
  (forall y, In y (st_list s') -> loads y -> In y a) ->
  (forall y, In y (st_list s') -> tells nm y -> at_its_place nm y) ->
  (forall y, In y (st_list s') -> plain_text (item_name_nomod y)) ->
  does nm i (Sets v) -> (forall z, In z b -> ~ tells nm z) ->
  expand_var e s' (Some (abspath (fs_cwd (e_fs e)) path)) ANone ANone false = Ok d ->
  exists w, expand_term e s' (abspath (fs_cwd (e_fs e)) path) v = Ok w /\ dget nm d = Some (safe_linesplit w).
Proof.
  intros n e path off forced new neg db a i b s' nm v d He [Hn [Hb1 Hb2]] H Hbb Hld Hpl Hnm Hi Hb Hx.
  set (file := abspath (fs_cwd (e_fs e)) path) in *.
  assert (Hre : reach e s').
  { exists new, neg, db. eapply steps_add; [apply steps_refl|exact H]. }
  pose proof (base_kept n e path off forced (new_stash new neg db) _ s' Hn H) as EB.
  change (sets_base (st_const (new_stash new neg db))) with (sets_base db) in EB.
  assert (Hnil : a ++ i :: b <> []) by (destruct a; discriminate).
  destruct (before n e path off forced _ _ s' H Hnil) as [f [nw [_ [L [_ [D [O [Inc [_ [_ Hy]]]]]]]]]].
  { intros y H1 _. now apply Hbb. }
  { intros y H1 _ H3. exists y. split; [|reflexivity]. apply in_or_app. left. apply Hld; [exact H1|].
    unfold loads. unfold adds_no_file in H3. destruct (it_pay y) as [| | |? ? p| | | | | | | | | | | |? ? p| ]; try (now apply H3); exact H3. }
  { constructor. }
  cbn [new_stash st_list map List.app] in L.
  assert (Hin : In i (st_list s')) by (rewrite L; apply in_or_app; right; apply in_or_app; right; now left).
  destruct (does_about _ _ _ Hi) as [Hab Hcl].
  assert (Hni : ~ loads i).
  { unfold loads. unfold classifier in Hcl. destruct (it_pay i); try tauto; destruct Hcl as [E|E]; discriminate E. }
  pose proof (C46_lemma e s' file ANone ANone false d He Hre) as G. rewrite EB in G. specialize (G Hb1 Hb2 Hx).
  destruct G as [l [Hl [Hdl [Hs G]]]].
  assert (Hcls : forall y, In y l -> In y (st_list s') /\ (classifier y = "Variable" \/ classifier y = "Unset")).
  { intros y Hyl. apply Hl in Hyl. destruct Hyl as [H1 H2]. split; [exact H1|].
    destruct H2 as [[_ [H2 _]]|[_ [H2 _]]]; cbn in H2; (destruct H2 as [H2|H2]; [discriminate|]); [now left|now right]. }
  assert (Hil : In i l).
  { apply Hl. split; [exact Hin|].
    assert (Hof : forall q, q_file q = Some file -> of_file s' q i).
    { intros q Eq. unfold of_file. rewrite Eq. right. left. rewrite Forall_forall in O. apply O. apply in_or_app. right. now left. }
    destruct Hcl as [Hc|Hc]; [left|right]; (split; [now apply Hof|]; split; [right; exact Hc|exact I]). }
  apply in_split in Hil. destruct Hil as [p [q ->]].
  assert (Hafter : forall z, In z q -> ~ about nm z).
  { intros z Hz Hza. pose proof (sorted_after _ _ _ Hs z Hz) as Hle. unfold by_line in Hle.
    destruct (Hcls z) as [Hzs Hzc]; [apply in_or_app; right; now right|].
    assert (Hzt : tells nm z) by (split; assumption).
    rewrite L in Hzs. apply in_app_or in Hzs. destruct Hzs as [Hzs|Hzs].
    - destruct (Hy z Hzs) as [a0 [x0 [b0 [E0 [Hx0 [_ [_ Hlt]]]]]]]. rewrite Forall_forall in Hlt.
      assert (Hx0a : In x0 a).
      { apply Hld.
        - rewrite L. apply in_or_app. right. rewrite E0. apply in_or_app. right. now left.
        - unfold loads. unfold adds_no_file in Hx0. destruct (it_pay x0) as [| | |? ? w| | | | | | | | | | | |? ? w| ]; try (now apply Hx0); exact Hx0. }
      assert (Hib : In i b0).
      { pose proof (NoDup_app_r _ (map it_id nw) (map it_id (a ++ i :: b))) as D'. rewrite <- map_app in D'. specialize (D' D).
        apply in_split in Hx0a. destruct Hx0a as [a1 [a2 ->]]. rewrite <- app_assoc in E0. cbn [List.app] in E0.
        assert (Ea : a1 = a0 /\ a2 ++ i :: b = b0).
        { clear - E0 D'. rewrite <- app_assoc in D'. cbn [List.app] in D'. revert a0 E0 D'.
          induction a1 as [|t a1 IH]; intros [|u a0] E0 D'; cbn [List.app] in E0.
          - inversion E0. auto.
          - exfalso. inversion E0; subst. cbn [List.app map] in D'. inversion D' as [|? ? D1 _]; subst. apply D1.
            rewrite H1. rewrite map_app. apply in_or_app. right. now left.
          - exfalso. inversion E0; subst. cbn [List.app map] in D'. inversion D' as [|? ? D1 _]; subst. apply D1.
            rewrite map_app. apply in_or_app. right. now left.
          - inversion E0; subst. cbn [List.app map] in D'. inversion D' as [|? ? _ D2]; subst.
            destruct (IH a0 H1 D2) as [-> ->]. auto. }
        destruct Ea as [_ <-]. apply in_or_app. right. now left. }
      specialize (Hlt _ Hib). lia.
    - apply in_app_or in Hzs. destruct Hzs as [Hzs|[<-|Hzs]].
      + rewrite map_app in Inc. cbn [map] in Inc. apply increasing_mid in Inc. destruct Inc as [I1 _].
        rewrite Forall_map, Forall_forall in I1. specialize (I1 _ Hzs). cbn in I1. lia.
      + rewrite map_app in Hdl. cbn [map] in Hdl. apply NoDup_remove_2 in Hdl. apply Hdl. apply in_or_app. right. now apply in_map.
      + now apply (Hb z). }
  destruct (history_of nm p) as [evs [Hh Hlate]].
  { intros y Hyp Ht. apply Hpl; [|exact Ht]. apply Hcls. apply in_or_app. now left. }
  { intros y Hyp. apply Hcls. apply in_or_app. now left. }
  specialize (G (fun y Hyl => Hnm y (proj1 (Hcls y Hyl))) nm (evs ++ [Sets v]) (history_before _ _ _ _ _ _ Hh Hi Hafter)).
  assert (Hlate' : forall x, In x (evs ++ [Sets v]) -> forall u, x <> LateAdds u /\ x <> LateLeads u /\ x <> LateRemoves u).
  { intros x Hxe u. apply in_app_or in Hxe. destruct Hxe as [Hxe|[<-|[]]]; [now apply Hlate|]. repeat split; discriminate. }
  unfold assigned in G. rewrite !(proj1 (late_none _ Hlate' _)), !(proj2 (late_none _ Hlate' _)) in G.
  rewrite fold_left_app in G. cbn [fold_left at_once] in G. apply G. discriminate.
Qed.
