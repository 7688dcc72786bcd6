(** * Changing constants and taking the change back: proofs *)

From Verif Require Import PyStr Res Const StrFacts Spec_Const ConstFacts Proofs_Const Spec_Undo.

Lemma dict_ext : forall (a a' : list (str * cval)), NoDup (dkeys a) -> dkeys a' = dkeys a -> (forall k, dget k a' = dget k a) -> a' = a.
Proof.
  induction a as [|[k v] a IH]; intros [|[k' v'] a'] N E H; try discriminate; [reflexivity|].
  cbn [dkeys map fst] in E. injection E as -> E. inversion N as [|? ? Hn N']; subst.
  pose proof (H k) as Hk. cbn [dget] in Hk. rewrite str_eqb_refl in Hk. injection Hk as ->. f_equal.
  apply IH; [exact N'|exact E|]. intro j. specialize (H j). cbn [dget] in H. destruct (str_eqb j k) eqn:Ej; [|exact H].
  apply str_eqb_eq in Ej. subst j.
  assert (Hn' : ~ In k (dkeys a')) by (change (map fst a') with (dkeys a') in E; rewrite E; exact Hn).
  apply dget_None in Hn. apply dget_None in Hn'. congruence.
Qed.

Section Keys.
Context (absent : bool) (leaf : cval -> cval -> cval * option exn) (clash : cval -> list (str * cval) -> bool).
Notation gm := (gmerge absent leaf clash).
Notation on := (one absent leaf clash).

Lemma gm_keys : forall bd a a', gm (CDict bd) a = (a', None) -> NoDup (dkeys a) ->
  NoDup (dkeys a') /\ ((absent = true -> forall k, In k (dkeys bd) -> In k (dkeys a)) -> dkeys a' = dkeys a).
Proof.
  induction bd as [|[k0 v0] bd IH]; intros a a' H N; [inversion H; subst; now split|].
  rewrite gmerge_cons in H.
  assert (G : forall a1, gm (CDict bd) a1 = (a', None) -> NoDup (dkeys a1) -> (dhas k0 a = true \/ absent = false -> dkeys a1 = dkeys a) ->
    NoDup (dkeys a') /\ ((absent = true -> forall k, In k (dkeys ((k0, v0) :: bd)) -> In k (dkeys a)) -> dkeys a' = dkeys a)).
  { intros a1 H1 N1 E1. destruct (IH a1 a' H1 N1) as [I1 I2]. split; [exact I1|]. intro K.
    assert (E : dkeys a1 = dkeys a).
    { apply E1. destruct absent; [left|now right]. apply dhas_key. apply K; [reflexivity|now left]. }
    rewrite I2; [exact E|]. intros Ea k Hk. rewrite E. apply K; [exact Ea|now right]. }
  assert (S : forall x, dget k0 a <> None -> gm (CDict bd) (dset k0 x a) = (a', None) ->
    NoDup (dkeys a') /\ ((absent = true -> forall k, In k (dkeys ((k0, v0) :: bd)) -> In k (dkeys a)) -> dkeys a' = dkeys a)).
  { intros x Hx H1. apply (G _ H1); [now apply NoDup_dset|]. intros _. rewrite dkeys_dset.
    unfold dhas. destruct (dget k0 a); [reflexivity|congruence]. }
  destruct (dget k0 a) as [av|] eqn:Ea.
  - destruct v0 as [s0|l0|vd].
    + destruct (leaf av (CStr s0)) as [x [e|]]; [discriminate|]. apply (S x); [discriminate|exact H].
    + destruct (leaf av (CList l0)) as [x [e|]]; [discriminate|]. apply (S x); [discriminate|exact H].
    + destruct av as [s1|l1|ad].
      * destruct (clash (CStr s1) vd); [discriminate|]. now apply (G a H N).
      * destruct (clash (CList l1) vd); [discriminate|]. now apply (G a H N).
      * destruct (gm (CDict vd) ad) as [ad' [e|]]; [discriminate|]. apply (S (CDict ad')); [discriminate|exact H].
  - destruct absent eqn:Eb.
    + apply (G _ H); [now apply NoDup_dset|]. intros [K|K]; [|discriminate]. unfold dhas in K. rewrite Ea in K. discriminate.
    + now apply (G a H N).
Qed.

(** ** A second time *)

Context (Hleaf : forall av v x, is_leaf v -> leaf av v = (x, None) -> leaf x v = (x, None)).
Context (Hself : forall v, absent = true -> is_leaf v -> leaf v v = (v, None)).

Lemma In_dget : forall (d : list (str * cval)) k v, NoDup (dkeys d) -> In (k, v) d -> dget k d = Some v.
Proof.
  induction d as [|[k0 v0] d IH]; intros k v N H; [destruct H|]. inversion N as [|? ? Hn N']; subst. cbn [dget].
  destruct H as [E|H]; [injection E as -> ->; now rewrite str_eqb_refl|].
  destruct (str_eqb k k0) eqn:E; [|now apply IH]. apply str_eqb_eq in E. subst. exfalso. apply Hn.
  apply in_map_iff. now exists (k0, v).
Qed.
Lemma gm_again : forall b, keys_once b ->
  (forall v v1, keys_once v -> on b v = (v1, None) -> on b v1 = (v1, None)) /\ (absent = true -> on b b = (b, None)).
Proof.
  apply (cval_rec2 (fun b => keys_once b -> (forall v v1, keys_once v -> on b v = (v1, None) -> on b v1 = (v1, None)) /\
    (absent = true -> on b b = (b, None)))).
  - intros s _. split; [intros v v1 _ H; now apply (Hleaf v)|intro; now apply Hself].
  - intros l _. split; [intros v v1 _ H; now apply (Hleaf v)|intro; now apply Hself].
  - intros d IH K. apply keys_once_dict in K. destruct K as [N K].
    assert (IHd : forall k x, dget k d = Some x ->
      (forall v v1, keys_once v -> on x v = (v1, None) -> on x v1 = (v1, None)) /\ (absent = true -> on x x = (x, None))).
    { intros k x Hx. apply dget_In in Hx. apply (IH k x Hx). now apply (K k). }
    assert (R : forall a, NoDup (dkeys a) -> (absent = true -> forall k, In k (dkeys d) -> In k (dkeys a)) ->
      (forall k x y, dget k d = Some x -> dget k a = Some y -> on x y = (y, None)) -> on (CDict d) (CDict a) = (CDict a, None)).
    { intros a Na Ka Ha. cbn [one]. assert (O : snd (gm (CDict d) a) = None).
      { apply gmerge_ok; [exact N|]. intros k x y Hx Hy. now rewrite (Ha k x y Hx Hy). }
      destruct (gm (CDict d) a) as [a2 e2] eqn:E2. cbn [snd] in O. subst e2. cbn [fst snd]. f_equal. f_equal.
      destruct (gm_keys d a a2 E2 Na) as [_ Hk]. apply dict_ext; [exact Na|now apply Hk|]. intro k.
      rewrite (gmerge_get _ _ _ d a a2 N E2 k). destruct (dget k d) as [x|] eqn:Ex; [|reflexivity].
      destruct (dget k a) as [y|] eqn:Ey; [now rewrite (Ha k x y Ex Ey)|].
      destruct absent; [|reflexivity]. exfalso. apply dget_None in Ey. apply Ey. apply Ka; [reflexivity|]. eapply dget_Some_key. exact Ex. }
    split.
    + intros v v1 Hv H. destruct v as [s|l|ad].
      * cbn [one] in H |- *. destruct (clash (CStr s) d) eqn:Ec; [discriminate|]. injection H as <-. now rewrite Ec.
      * cbn [one] in H |- *. destruct (clash (CList l) d) eqn:Ec; [discriminate|]. injection H as <-. now rewrite Ec.
      * cbn [one] in H. destruct (gm (CDict d) ad) as [a1 e1] eqn:E1. cbn [fst snd] in H. injection H as <- ->.
        apply keys_once_dict in Hv. destruct Hv as [Na Kv].
        destruct (gm_keys d ad a1 E1 Na) as [N1 _].
        assert (O : forall k x y, dget k d = Some x -> dget k ad = Some y -> snd (on x y) = None) by
          (apply (proj1 (gmerge_ok absent leaf clash d ad N)); now rewrite E1).
        pose proof (gmerge_get _ _ _ d ad a1 N E1) as G. apply R.
        -- exact N1.
        -- intros Ea k Hk. destruct (dget k a1) as [y|] eqn:Ey; [eapply dget_Some_key; exact Ey|]. exfalso.
           rewrite G in Ey. destruct (dget k d) as [x|] eqn:Ex; [|apply dget_None in Ex; now apply Ex].
           destruct (dget k ad); [discriminate|]. rewrite Ea in Ey. discriminate.
        -- intros k x y Hx Hy. rewrite G, Hx in Hy. destruct (dget k ad) as [z|] eqn:Ez.
           ++ injection Hy as <-. specialize (O k x z Hx Ez). apply (proj1 (IHd k x Hx) z); [apply (Kv k); now apply dget_In|].
              destruct (on x z) as [z1 e1]. cbn [snd fst] in *. now subst.
           ++ destruct absent eqn:Ea; [|discriminate]. injection Hy as <-. now apply (proj2 (IHd k x Hx)).
    + intro Ea. apply R; [exact N|auto|]. intros k x y Hx Hy. rewrite Hx in Hy. injection Hy as <-. now apply (proj2 (IHd k x Hx)).
Qed.
End Keys.

Lemma override_again : forall db b db1, keys_once b -> keys_once db -> override_constants db b = (db1, None) ->
  override_constants db1 b = (db1, None).
Proof.
  intros db b db1 Kb Kd H. apply lift_dict in H; [|now left]. destruct H as (a & a1 & -> & -> & H).
  destruct b as [s|l|bd]; try discriminate H. rewrite override_gmerge in H.
  destruct (gm_again true (fun _ v => (v, None)) non_empty) with (b := CDict bd) as [G _].
  - intros av v x _ E. exact E.
  - reflexivity.
  - exact Kb.
  - specialize (G (CDict a) (CDict a1) Kd). cbn [one] in G. rewrite H in G. specialize (G eq_refl).
    unfold override_constants, lift_upd. rewrite override_gmerge.
    destruct (gmerge true _ non_empty (CDict bd) a1) as [a2 e2]. cbn [fst snd] in G. injection G as -> ->. reflexivity.
Qed.
Lemma minus_again : forall x v, cval_minus (cval_minus x v) v = cval_minus x v.
Proof.
  intros x v. unfold cval_minus at 1. cbn [cval_minus cval_iter]. unfold cval_minus. cbn [cval_iter]. f_equal.
  generalize (cval_iter x) as l. intro l. induction l as [|y l IH]; [reflexivity|]. cbn [filter].
  destruct (cval_contains y v) eqn:E; cbn [negb]; [exact IH|]. cbn [filter]. rewrite E. cbn [negb]. now rewrite IH.
Qed.
Lemma remove_again : forall db b db1, keys_once b -> keys_once db -> remove_constants db b = (db1, None) ->
  remove_constants db1 b = (db1, None).
Proof.
  intros db b db1 Kb Kd H. apply lift_dict in H; [|now left]. destruct H as (a & a1 & -> & -> & H).
  destruct b as [s|l|bd]; try discriminate H. rewrite remove_gmerge in H.
  destruct (gm_again false (fun x v => (cval_minus x v, None)) some_key) with (b := CDict bd) as [G _].
  - intros av v x _ E. injection E as <-. now rewrite minus_again.
  - discriminate.
  - exact Kb.
  - specialize (G (CDict a) (CDict a1) Kd). cbn [one] in G. rewrite H in G. specialize (G eq_refl).
    unfold remove_constants, lift_upd. rewrite remove_gmerge.
    destruct (gmerge false _ some_key (CDict bd) a1) as [a2 e2]. cbn [fst snd] in G. injection G as -> ->. reflexivity.
Qed.

(** ** Taking back *)

Notation oa := (one true cval_iadd non_empty).
Notation orm := (one false (fun x v => (cval_minus x v, None)) some_key).
Lemma entries_below : forall bd ad k x, NoDup (dkeys bd) -> new_entries (CDict bd) (CDict ad) -> dget k bd = Some x ->
  exists y, dget k ad = Some y /\ new_entries x y.
Proof.
  intros bd ad k x N (H1 & H2 & H3) Hx.
  assert (L : forall p, at_path (k :: p) (CDict bd) = at_path p x) by (intro p; cbn [at_path]; now rewrite Hx).
  assert (Y : exists y, dget k ad = Some y).
  { destruct x as [s|l|d].
    - destruct (H2 [k] s). rewrite L. reflexivity.
    - destruct (H1 [k] l) as (old & E & _); [now rewrite L|]. cbn [at_path] in E. destruct (dget k ad) as [y|]; [now exists y|discriminate].
    - destruct (H3 [k] d) as (d' & E); [now rewrite L|]. cbn [at_path] in E. destruct (dget k ad) as [y|]; [now exists y|discriminate]. }
  destruct Y as [y Hy]. exists y. split; [exact Hy|].
  assert (R : forall p, at_path (k :: p) (CDict ad) = at_path p y) by (intro p; cbn [at_path]; now rewrite Hy).
  split; [|split].
  - intros p l E. rewrite <- R. apply H1. now rewrite L.
  - intros p s E. apply (H2 (k :: p) s). now rewrite L.
  - intros p d E. rewrite <- R. apply (H3 (k :: p) d). now rewrite L.
Qed.
Lemma filter_new : forall l old, (forall x, In x l -> ~ In x old) -> filter (fun y => negb (mem_str y l)) (old ++ l) = old.
Proof.
  intros l old H. rewrite filter_app.
  assert (A : filter (fun y => negb (mem_str y l)) old = old).
  { clear -H. induction old as [|y old IH]; [reflexivity|]. cbn [filter]. destruct (mem_str y l) eqn:E.
    - apply mem_str_In in E. destruct (H y E). now left.
    - cbn [negb]. f_equal. apply IH. intros x Hx K. apply (H x Hx). now right. }
  assert (B : forall m, (forall y, In y m -> In y l) -> filter (fun y => negb (mem_str y l)) m = []).
  { induction m as [|y m IH]; intro Hm; [reflexivity|]. cbn [filter].
    assert (E : mem_str y l = true) by (apply mem_str_In, Hm; now left). rewrite E. cbn [negb]. apply IH. intros z Hz. apply Hm. now right. }
  rewrite A, B by auto. apply app_nil_r.
Qed.
Lemma undo : forall b, keys_once b -> forall v, keys_once v -> new_entries b v ->
  exists v1, oa b v = (v1, None) /\ orm b v1 = (v, None).
Proof.
  apply (cval_rec2 (fun b => keys_once b -> forall v, keys_once v -> new_entries b v -> exists v1, oa b v = (v1, None) /\ orm b v1 = (v, None))).
  - intros s _ v _ (_ & H & _). destruct (H [] s eq_refl).
  - intros l _ v _ (H & _ & _). destruct (H [] l eq_refl) as (old & E & K). cbn [at_path] in E. injection E as ->.
    exists (CList (old ++ l)). split; [reflexivity|]. cbn [one]. unfold cval_minus. cbn [cval_iter cval_contains].
    rewrite filter_new by exact K. reflexivity.
  - intros d IH K v Hv Hn. apply keys_once_dict in K. destruct K as [N K].
    destruct (proj2 (proj2 Hn) [] d eq_refl) as [ad E]. cbn [at_path] in E. injection E as ->.
    apply keys_once_dict in Hv. destruct Hv as [Na Kv].
    assert (U : forall k x y, dget k d = Some x -> dget k ad = Some y -> exists v1, oa x y = (v1, None) /\ orm x v1 = (y, None)).
    { intros k x y Hx Hy. destruct (entries_below d ad k x N Hn Hx) as (y' & Hy' & Hn'). rewrite Hy in Hy'. injection Hy' as <-.
      pose proof (dget_In _ _ _ Hx) as Ix. apply (IH k x Ix); [now apply (K k)|apply (Kv k); now apply dget_In|exact Hn']. }
    assert (A : forall k, In k (dkeys d) -> In k (dkeys ad)).
    { intros k Hk. destruct (dget k d) as [x|] eqn:Ex; [|apply dget_None in Ex; now destruct Ex].
      destruct (entries_below d ad k x N Hn Ex) as (y & Hy & _). eapply dget_Some_key. exact Hy. }
    assert (O1 : snd (gmerge true cval_iadd non_empty (CDict d) ad) = None).
    { apply gmerge_ok; [exact N|]. intros k x y Hx Hy. destruct (U k x y Hx Hy) as (v1 & E1 & _). now rewrite E1. }
    destruct (gmerge true cval_iadd non_empty (CDict d) ad) as [a1 e1] eqn:E1. cbn [snd] in O1. subst e1.
    pose proof (gmerge_get _ _ _ d ad a1 N E1) as G1. destruct (gm_keys _ _ _ d ad a1 E1 Na) as [N1 Q1].
    assert (Q : dkeys a1 = dkeys ad) by (apply Q1; intros _; exact A).
    assert (V : forall k x y, dget k d = Some x -> dget k a1 = Some y -> exists z, dget k ad = Some z /\ orm x y = (z, None)).
    { intros k x y Hx Hy. rewrite G1, Hx in Hy. destruct (dget k ad) as [z|] eqn:Ez.
      - destruct (U k x z Hx Ez) as (v1 & F1 & F2). rewrite F1 in Hy. injection Hy as <-. now exists z.
      - exfalso. apply dget_None in Ez. apply Ez, A. eapply dget_Some_key. exact Hx. }
    assert (O2 : snd (gmerge false (fun x v => (cval_minus x v, None)) some_key (CDict d) a1) = None).
    { apply gmerge_ok; [exact N|]. intros k x y Hx Hy. destruct (V k x y Hx Hy) as (z & _ & F). now rewrite F. }
    destruct (gmerge false (fun x v => (cval_minus x v, None)) some_key (CDict d) a1) as [a2 e2] eqn:E2. cbn [snd] in O2. subst e2.
    pose proof (gmerge_get _ _ _ d a1 a2 N E2) as G2. destruct (gm_keys _ _ _ d a1 a2 E2 N1) as [_ Q2].
    exists (CDict a1). cbn [one]. rewrite E1, E2. cbn [fst snd]. split; [reflexivity|]. f_equal. f_equal.
    apply dict_ext; [exact Na|rewrite Q2 by discriminate; exact Q|]. intro k. rewrite G2.
    destruct (dget k d) as [x|] eqn:Ex.
    + destruct (dget k a1) as [y|] eqn:Ey.
      * destruct (V k x y Ex Ey) as (z & Hz & F). now rewrite F, Hz.
      * symmetry. apply dget_None. rewrite <- Q. now apply dget_None.
    + rewrite G1, Ex. reflexivity.
Qed.
Lemma C135_back_lemma : forall db b, keys_once b -> keys_once db -> is_dict b -> new_entries b db ->
  exists db1, add_constants db b = (db1, None) /\ remove_constants db1 b = (db, None).
Proof.
  intros db b Kb Kd [bd ->] H. destruct (proj2 (proj2 H) [] bd eq_refl) as [a E]. cbn [at_path] in E. injection E as ->.
  destruct (undo (CDict bd) Kb (CDict a) Kd H) as (v1 & E1 & E2). cbn [one] in E1.
  destruct (gmerge true cval_iadd non_empty (CDict bd) a) as [a1 e1] eqn:F1. cbn [fst snd] in E1. injection E1 as <- ->.
  exists (CDict a1). unfold add_constants, remove_constants, lift_upd. rewrite add_gmerge, F1, remove_gmerge. split; [reflexivity|].
  cbn [one] in E2. destruct (gmerge false _ some_key (CDict bd) a1) as [a2 e2]. cbn [fst snd] in E2. injection E2 as -> ->. reflexivity.
Qed.
Lemma filter_none : forall l m : list str, (forall y, In y m -> In y l) -> filter (fun y => negb (mem_str y l)) m = [].
Proof.
  intro l. induction m as [|y m IH]; intro Hm; [reflexivity|]. cbn [filter].
  assert (E : mem_str y l = true) by (apply mem_str_In, Hm; now left). rewrite E. cbn [negb]. apply IH. intros z Hz. apply Hm. now right.
Qed.
Lemma C135_left_lemma : forall db b db1 db2, keys_once b -> add_constants db b = (db1, None) -> remove_constants db1 b = (db2, None) ->
  (forall p l old, at_path p b = Some (CList l) -> at_path p db = Some (CList old) ->
     at_path p db2 = Some (CList (filter (fun x => negb (mem_str x l)) old))) /\
  (forall p l, at_path p b = Some (CList l) -> at_path p db = None -> at_path p db2 = Some (CList [])) /\
  (forall p, apart p b -> at_path p db2 = at_path p db).
Proof.
  intros db b db1 db2 K H1 H2. destruct (C54_lemma db b db1 H1 K) as (A1 & A2 & _ & _ & A5).
  destruct (C55_lemma db1 b db2 H2 K) as (B1 & _ & B3). split; [|split].
  - intros p l old Hb Hd. rewrite (B1 p l (old ++ l) Hb (A2 p l old Hb Hd)). rewrite filter_app, (filter_none l l) by auto.
    now rewrite app_nil_r.
  - intros p l Hb Hd. rewrite (B1 p l l Hb (A1 p (CList l) Hb I Hd)). now rewrite filter_none.
  - intros p Hp. rewrite (B3 p Hp). now apply A5.
Qed.
