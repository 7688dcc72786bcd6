(** * Sharing of constants: proofs *)

From Coq Require Import Lia.
From Verif Require Import PyStr Res Const ConstHeap StrFacts Spec_Const ConstFacts Spec_ConstHeap.

Scheme reads_mut := Induction for reads Sort Prop
with reads_all_mut := Induction for reads_all Sort Prop.
Combined Scheme reads_both from reads_mut, reads_all_mut.

Lemma frame : forall h h',
  (forall r v F, reads h r v F -> (forall x, In x F -> h' x = h x) -> reads h' r v F) /\
  (forall es d F, reads_all h es d F -> (forall x, In x F -> h' x = h x) -> reads_all h' es d F).
Proof.
  intros h h'. apply reads_both; intros.
  - constructor.
  - constructor. rewrite H; [assumption|now left].
  - apply reads_dict with es; [rewrite H0; [assumption|now left]|]. apply H. intros x Hx. apply H0. now right.
  - constructor.
  - constructor; [apply H|apply H0]; intros x Hx; apply H1; apply in_app_iff; tauto.
Qed.

Lemma det : forall h,
  (forall r v F, reads h r v F -> forall v' F', reads h r v' F' -> v = v' /\ F = F') /\
  (forall es d F, reads_all h es d F -> forall d' F', reads_all h es d' F' -> d = d' /\ F = F').
Proof.
  intro h. apply reads_both.
  - intros s v' F' H. inversion H; subst; auto.
  - intros p l E v' F' H. inversion H; subst; [|congruence]. split; congruence.
  - intros p es d F E Ha IH v' F' H. inversion H as [|p0 l0 E0|p0 es0 d0 F0 E0 Ha0]; subst; [congruence|].
    assert (es0 = es) by congruence. subst es0. destruct (IH _ _ Ha0) as [-> ->]. auto.
  - intros d' F' H. inversion H; subst; auto.
  - intros k r v F es d G Hr IHr Ha IHa d' F' H.
    inversion H as [|k1 r1 v1 F1 es1 d1 G1 Hr1 Ha1]; subst.
    destruct (IHr _ _ Hr1) as [-> ->]. destruct (IHa _ _ Ha1) as [-> ->]. auto.
Qed.

Lemma reads_keys : forall h es d F, reads_all h es d F -> dkeys es = dkeys d.
Proof. intros h es d F H. induction H; [reflexivity|]. unfold dkeys in *. simpl. now f_equal. Qed.

Lemma reads_app : forall h e1 d1 F1 e2 d2 F2, reads_all h e1 d1 F1 -> reads_all h e2 d2 F2 ->
  reads_all h (e1 ++ e2) (d1 ++ d2) (F1 ++ F2).
Proof.
  intros h e1 d1 F1 e2 d2 F2 H H2. induction H; simpl; [assumption|]. rewrite <- app_assoc. now constructor.
Qed.

Lemma reads_at : forall h es d F k x, reads_all h es d F -> dget k es = Some x ->
  exists e1 e2 d1 d2 F1 F2 v f, es = e1 ++ (k, x) :: e2 /\ d = d1 ++ (k, v) :: d2 /\ F = F1 ++ f ++ F2 /\
    reads_all h e1 d1 F1 /\ reads h x v f /\ reads_all h e2 d2 F2 /\ ~ In k (dkeys e1) /\ ~ In k (dkeys d1).
Proof.
  intros h es d F k x H. induction H as [|k0 r v F es d G Hr Ha IH]; intro E; [discriminate|].
  simpl in E. destruct (str_eqb k k0) eqn:Ek.
  - apply str_eqb_eq in Ek. subst k0. injection E as ->.
    exists [], es, [], d, [], G, v, F. repeat split; auto; constructor.
  - destruct (IH E) as (e1 & e2 & d1 & d2 & F1 & F2 & v0 & f & -> & -> & -> & H1 & H2 & H3 & N1 & N2).
    exists ((k0, r) :: e1), e2, ((k0, v) :: d1), d2, (F ++ F1), F2, v0, f.
    assert (k0 <> k) by (intros ->; rewrite str_eqb_refl in Ek; discriminate).
    repeat split; auto; try (rewrite <- app_assoc; reflexivity).
    + now constructor.
    + intros [Hi|Hi]; [contradiction|exact (N1 Hi)].
    + intros [Hi|Hi]; [contradiction|exact (N2 Hi)].
Qed.

Lemma dset_mid : forall V k (x y : V) e1 e2, ~ In k (dkeys e1) ->
  dset k y (e1 ++ (k, x) :: e2) = e1 ++ (k, y) :: e2.
Proof.
  intros V k x y e1 e2. induction e1 as [|[k0 z] e1 IH]; intro N; simpl.
  - now rewrite str_eqb_refl.
  - destruct (str_eqb k k0) eqn:E; [apply str_eqb_eq in E; subst; exfalso; apply N; now left|].
    f_equal. apply IH. intro H. apply N. now right.
Qed.
Lemma dget_mid : forall V k (x : V) e1 e2, ~ In k (dkeys e1) -> dget k (e1 ++ (k, x) :: e2) = Some x.
Proof.
  intros V k x e1 e2. induction e1 as [|[k0 z] e1 IH]; intro N; simpl.
  - now rewrite str_eqb_refl.
  - destruct (str_eqb k k0) eqn:E; [apply str_eqb_eq in E; subst; exfalso; apply N; now left|].
    apply IH. intro H. apply N. now right.
Qed.
Lemma dset_new : forall V k (y : V) es, ~ In k (dkeys es) -> dset k y es = es ++ [(k, y)].
Proof.
  intros V k y es. induction es as [|[k0 z] es IH]; intro N; simpl; [reflexivity|].
  destruct (str_eqb k k0) eqn:E; [apply str_eqb_eq in E; subst; exfalso; apply N; now left|].
  f_equal. apply IH. intro H. apply N. now right.
Qed.

Lemma nodup_app : forall A (l m : list A), NoDup (l ++ m) <->
  NoDup l /\ NoDup m /\ forall x, In x l -> In x m -> False.
Proof.
  intros A l m. induction l as [|x l IH]; simpl.
  - split; [intro H; repeat split; auto; constructor|tauto].
  - rewrite !NoDup_cons_iff, IH, in_app_iff. split.
    + intros (N & H1 & H2 & H3). repeat split; auto. intros y [<-|Hy] Hm; eauto.
    + intros ((N & H1) & H2 & H3). repeat split; auto; [|intros y Hy; apply H3; now right].
      intros [Hx|Hx]; [auto|]. apply (H3 x); auto.
Qed.

(** The entries loop of [h_add]. *)
Definition hloop (n a : nat) :=
  fix go (bd : list (str * ref)) (h : heap) {struct bd} : Res.res unit * heap :=
             match bd with
             | [] => (Ok tt, h)
             | (k, v) :: r =>
                 match h a with
                 | Some (NDict ad) =>
                     match dget k ad with
                     | None => go r (put a (NDict (dset k v ad)) h)
                     | Some x =>
                         match dict_at h v, x with
                         | Some p, RPtr q =>
                             match h_add n q p h with
                             | (Ok _, h') => go r h'
                             | y => y
                             end
                         | Some p, RStr _ =>
                             match h p with
                             | Some (NDict []) => go r h
                             | _ => (Raise TypeError, h)
                             end
                         | None, _ =>
                             match h_iadd a ad k x v h with
                             | (Ok _, h') => go r h'
                             | y => y
                             end
                         end
                     end
                 | _ => (Raise TypeError, h)
                 end
             end.
Lemma h_add_S : forall n a b h, h_add (S n) a b h =
  match h b with Some (NDict bd) => hloop n a bd h | _ => (Raise AttributeError, h) end.
Proof. reflexivity. Qed.

Definition res_of (e : option exn) : Res.res unit := match e with None => Ok tt | Some x => Raise x end.

Lemma nesting_in : forall d k v, In (k, v) d -> nesting v < nesting (CDict d).
Proof.
  intros d k v H. cbn [nesting]. induction d as [|[k0 v0] d IH]; [destruct H|].
  destruct H as [E|H]; [inversion E; subst; lia|]. specialize (IH H). lia.
Qed.

Lemma new_in : forall bd ad, NoDup (dkeys bd) -> nothing_new (CDict bd) (CDict ad) ->
  forall k v, In (k, v) bd -> exists w, dget k ad = Some w /\ nothing_new v w.
Proof.
  intros bd ad N H k v Hi.
  assert (E : dget k bd = Some v).
  { clear H. induction bd as [|[k0 v0] bd IH]; [destruct Hi|]. simpl. inversion N; subst.
    destruct Hi as [E|Hi]; [inversion E; subst; now rewrite str_eqb_refl|].
    destruct (str_eqb k k0) eqn:Ek; [|auto]. apply str_eqb_eq in Ek. subst. exfalso. apply H1.
    apply (in_map fst) in Hi. exact Hi. }
  destruct (dget k ad) as [w|] eqn:Ew.
  - exists w. split; [reflexivity|]. intros p x Hp. specialize (H (k :: p) x). simpl in H. rewrite E, Ew in H. auto.
  - destruct (H [k] v) as [y Hy]; [simpl; now rewrite E|]. simpl in Hy. rewrite Ew in Hy. discriminate.
Qed.
Lemma new_out : forall bd ad, (forall k v, In (k, v) bd -> exists w, dget k ad = Some w /\ nothing_new v w) ->
  nothing_new (CDict bd) (CDict ad).
Proof.
  intros bd ad H [|k p] x Hp; [eexists; reflexivity|]. simpl in *.
  destruct (dget k bd) as [v|] eqn:E; [|discriminate]. destruct (H k v (dget_In _ _ _ E)) as (w & -> & Hn).
  now apply Hn with x.
Qed.

Definition safe (h : heap) (es : list (str * ref)) (ks : list str) (x : nat) : Prop :=
  forall k r v f, In k ks -> dget k es = Some r -> reads h r v f -> ~ In x f.

Definition merged (h : heap) a aes ad FA (bd : list (str * cval)) FB (out : Res.res unit * heap) : Prop :=
  exists h' aes' ad' FA' e, out = (res_of e, h') /\ add_merge (CDict bd) ad = (ad', e) /\
    h' a = Some (NDict aes') /\ reads_all h' aes' ad' FA' /\ NoDup (a :: FA') /\ incl FA' (FA ++ FB) /\
    (nothing_new (CDict bd) (CDict ad) -> incl FA' FA) /\
    forall x, x <> a -> safe h aes (dkeys bd) x -> h' x = h x.

Lemma put_same : forall p n h, put p n h p = Some n.
Proof. intros. unfold put. now rewrite Nat.eqb_refl. Qed.
Lemma put_other : forall p n h x, x <> p -> put p n h x = h x.
Proof. intros. unfold put. destruct (Nat.eqb x p) eqn:E; [apply Nat.eqb_eq in E; contradiction|reflexivity]. Qed.

(** One entry done, the others by induction. *)
Lemma next_entry : forall n a k v r vr FV FR bes h aes ad FA h1 aes1 ad1 FA1 fx,
  (forall h aes ad FA FB, h a = Some (NDict aes) -> reads_all h aes ad FA -> reads_all h bes r FB ->
     NoDup (a :: FA ++ FB) -> merged h a aes ad FA r FB (hloop n a bes h)) ->
  NoDup (dkeys ((k, v) :: r)) ->
  h a = Some (NDict aes) -> reads_all h aes ad FA -> reads h vr v FV -> reads_all h bes r FR ->
  NoDup (a :: FA ++ FV ++ FR) ->
  incl fx FA ->
  (forall x w f, dget k aes = Some x -> reads h x w f -> f = fx) ->
  (forall k2 x w f y, k2 <> k -> dget k2 aes = Some x -> reads h x w f -> In y f -> ~ In y fx) ->
  (forall x, x <> a -> ~ In x fx -> h1 x = h x) ->
  (dget k aes = None -> fx = []) ->
  h1 a = Some (NDict aes1) -> reads_all h1 aes1 ad1 FA1 -> NoDup (a :: FA1) -> incl FA1 (FA ++ FV) ->
  (nothing_new (CDict ((k, v) :: r)) (CDict ad) -> incl FA1 FA) ->
  (forall k2, k2 <> k -> dget k2 aes1 = dget k2 aes) ->
  (forall k2, k2 <> k -> dget k2 ad1 = dget k2 ad) ->
  add_merge (CDict ((k, v) :: r)) ad = add_merge (CDict r) ad1 ->
  merged h a aes ad FA ((k, v) :: r) (FV ++ FR) (hloop n a bes h1).
Proof.
  intros n a k v r vr FV FR bes h aes ad FA h1 aes1 ad1 FA1 fx IH Nk Ha Hd Hv Hr N Ifx Hfx Hdis Hfr Hnone Ha1 Hd1 N1 I1 J1 G1 G2 E.
  change (dkeys ((k, v) :: r)) with (k :: dkeys r) in Nk. apply NoDup_cons_iff in Nk. destruct Nk as [Nk0 Nk].
  rewrite NoDup_cons_iff, !nodup_app, !in_app_iff in N. destruct N as (Na & NFA & (NV & NR & DVR) & DA).
  assert (DA' : forall x, In x FA -> In x FV \/ In x FR -> False) by (intros x H1 H2; apply (DA x H1); now apply in_app_iff).
  apply NoDup_cons_iff in N1. destruct N1 as [Na1 N1].
  assert (I1' : forall x, In x FA1 -> In x FA \/ In x FV) by (intros x H; apply in_app_iff, I1, H).
  assert (Hr1 : reads_all h1 bes r FR).
  { apply (proj2 (frame h h1) _ _ _ Hr). intros x Hx. apply Hfr; [intros ->; tauto|].
    intro Hf. apply (DA' x); [now apply Ifx|now right]. }
  destruct (IH h1 aes1 ad1 FA1 FR Ha1 Hd1 Hr1) as (h' & aes' & ad' & FA' & e & E1 & E2 & E3 & E4 & E5 & E6 & E7 & E8).
  { rewrite NoDup_cons_iff, nodup_app, in_app_iff. repeat split; auto; [tauto|].
    intros x H1 H2. destruct (I1' x H1) as [H|H]; [apply (DA' x H); now right|exact (DVR x H H2)]. }
  exists h', aes', ad', FA', e. split; [exact E1|]. split; [now rewrite E|]. split; [exact E3|]. split; [exact E4|].
  split; [exact E5|]. split; [|split].
  - intros x Hx. apply E6, in_app_iff in Hx. rewrite !in_app_iff. destruct Hx as [Hx|Hx]; [destruct (I1' x Hx)|]; tauto.
  - intros Hn x Hx. apply (J1 Hn). apply E7; [|exact Hx]. apply new_out. intros k2 v2 H2.
    assert (D : k2 <> k) by (intros ->; apply Nk0; apply (in_map fst) in H2; exact H2).
    rewrite G2 by exact D. apply (new_in ((k, v) :: r)); [|exact Hn|now right].
    change (NoDup (k :: dkeys r)). now constructor.
  - intros x Hx Hs.
    assert (Nf : ~ In x fx).
    { destruct (dget k aes) as [y|] eqn:Ey; [|rewrite Hnone by reflexivity; auto].
      destruct (reads_at _ _ _ _ _ _ Hd Ey) as (e1 & e2 & d1 & d2 & F1 & F2 & w & f & _ & _ & _ & _ & Rw & _).
      rewrite <- (Hfx _ _ _ eq_refl Rw). apply (Hs k y w f); auto. now left. }
    rewrite E8; [now apply Hfr|exact Hx|].
    intros k2 y w f Hk Hy Rw.
    assert (D : k2 <> k) by (intros ->; contradiction).
    rewrite G1 in Hy by exact D.
    destruct (reads_at _ _ _ _ _ _ Hd Hy) as (e1 & e2 & d1 & d2 & F1 & F2 & w0 & f0 & _ & _ & EF & _ & Rw0 & _).
    assert (R1 : reads h1 y w0 f0).
    { apply (proj1 (frame h h1) _ _ _ Rw0). intros z Hz. apply Hfr.
      - intros ->. apply Na. left. rewrite EF, !in_app_iff. tauto.
      - now apply (Hdis k2 y w0 f0). }
    destruct (proj1 (det h1) _ _ _ R1 _ _ Rw) as [-> ->]. apply (Hs k2 y w f); auto. now right.
Qed.

Lemma entry_incl : forall h es d F k x v f, reads_all h es d F -> dget k es = Some x -> reads h x v f -> incl f F.
Proof.
  intros h es d F k x v f H E R.
  destruct (reads_at _ _ _ _ _ _ H E) as (e1 & e2 & d1 & d2 & F1 & F2 & w & g & _ & _ & -> & _ & Rw & _).
  destruct (proj1 (det h) _ _ _ R _ _ Rw) as [_ ->]. intros y Hy. rewrite !in_app_iff. tauto.
Qed.

Lemma entries_apart : forall h es d F k x v f k2 x2 v2 f2 y, reads_all h es d F -> NoDup F ->
  dget k es = Some x -> reads h x v f -> k2 <> k -> dget k2 es = Some x2 -> reads h x2 v2 f2 ->
  In y f2 -> ~ In y f.
Proof.
  intros h es d F k x v f k2 x2 v2 f2 y H. induction H as [|k0 r v0 F es d G Hr Ha IH]; intros N E R D E2 R2 Hy Hf;
    [discriminate|].
  apply nodup_app in N. destruct N as (N1 & N2 & N3). simpl in E, E2.
  destruct (str_eqb k k0) eqn:Ek; destruct (str_eqb k2 k0) eqn:Ek2.
  - apply str_eqb_eq in Ek, Ek2. congruence.
  - injection E as ->. destruct (proj1 (det h) _ _ _ R _ _ Hr) as [_ ->].
    apply (N3 y Hf). exact (entry_incl _ _ _ _ _ _ _ _ Ha E2 R2 y Hy).
  - injection E2 as ->. destruct (proj1 (det h) _ _ _ R2 _ _ Hr) as [_ ->].
    apply (N3 y Hy). exact (entry_incl _ _ _ _ _ _ _ _ Ha E R y Hf).
  - exact (IH N2 E R D E2 R2 Hy Hf).
Qed.

Lemma hloop_cons : forall n a k v r h, hloop n a ((k, v) :: r) h =
  match h a with
  | Some (NDict ad) =>
      match dget k ad with
      | None => hloop n a r (put a (NDict (dset k v ad)) h)
      | Some x =>
          match dict_at h v, x with
          | Some p, RPtr q => match h_add n q p h with (Ok _, h') => hloop n a r h' | y => y end
          | Some p, RStr _ => match h p with Some (NDict []) => hloop n a r h | _ => (Raise TypeError, h) end
          | None, _ => match h_iadd a ad k x v h with (Ok _, h') => hloop n a r h' | y => y end
          end
      end
  | _ => (Raise TypeError, h)
  end.
Proof. reflexivity. Qed.

Lemma stop_same : forall h a aes ad FA bd FB e, h a = Some (NDict aes) -> reads_all h aes ad FA ->
  NoDup (a :: FA ++ FB) -> add_merge (CDict bd) ad = (ad, e) ->
  merged h a aes ad FA bd FB (res_of e, h).
Proof.
  intros h a aes ad FA bd FB e Ha Hd N E. exists h, aes, ad, FA, e.
  rewrite NoDup_cons_iff, nodup_app, in_app_iff in N.
  repeat split; auto; [constructor; tauto| |intros _; apply incl_refl].
  intros x Hx. apply in_app_iff. now left.
Qed.

Lemma merge_ok : forall n bes bd a h aes ad FA FB,
  (forall k v, In (k, v) bd -> nesting v <= n /\ keys_once v) -> NoDup (dkeys bd) ->
  h a = Some (NDict aes) -> reads_all h aes ad FA -> reads_all h bes bd FB -> NoDup (a :: FA ++ FB) ->
  merged h a aes ad FA bd FB (hloop n a bes h).
Proof.
  induction n as [n IHn] using lt_wf_ind.
  induction bes as [|[k vr] bes IH]; intros bd a h aes ad FA FB Hn Nk Ha Hd Hb N.
  { inversion Hb; subst. apply (stop_same h a aes ad FA [] [] None); auto. }
  inversion Hb as [|k1 r1 v FV es1 r FR Hv Hr]; subst k1 r1 es1 bd FB.
  assert (Nk' := Nk). change (NoDup (k :: dkeys r)) in Nk'. apply NoDup_cons_iff in Nk'. destruct Nk' as [Nk0 Nkr].
  assert (IHr : forall h aes ad FA FB, h a = Some (NDict aes) -> reads_all h aes ad FA -> reads_all h bes r FB ->
     NoDup (a :: FA ++ FB) -> merged h a aes ad FA r FB (hloop n a bes h)).
  { intros h0 aes0 ad0 FA0 FB0 A1 A2 A3 A4. apply IH; auto. intros k0 v0 Hi. apply (Hn k0). now right. }
  destruct (Hn k v (or_introl eq_refl)) as [Hnv Hkv].
  assert (Nall := N). rewrite NoDup_cons_iff, !nodup_app, !in_app_iff in Nall.
  destruct Nall as (Na & NFA & (NV & NR & DVR) & DA).
  assert (DA' : forall x, In x FA -> In x FV \/ In x FR -> False)
    by (intros x H1 H2; apply (DA x H1); now apply in_app_iff).
  rewrite hloop_cons, Ha.
  destruct (dget k aes) as [x|] eqn:Ex.
  2:{ (* a new key: the value is shared *)
      assert (Ka : ~ In k (dkeys aes)) by now apply dget_None.
      assert (Kd : ~ In k (dkeys ad)) by (rewrite <- (reads_keys _ _ _ _ Hd); exact Ka).
      apply (next_entry n a k v r vr FV FR bes h aes ad FA _ (dset k vr aes) (dset k v ad) (FA ++ FV) []); auto.
      - intros y [].
      - intros y w f E. congruence.
      - intros y Hy _. now apply put_other.
      - apply put_same.
      - assert (R : reads_all h (dset k vr aes) (dset k v ad) (FA ++ FV)).
        { rewrite !dset_new by assumption. apply reads_app; [exact Hd|].
          rewrite <- (app_nil_r FV). constructor; [exact Hv|constructor]. }
        apply (proj2 (frame h _) _ _ _ R). intros y Hy. apply put_other. intros ->. apply in_app_iff in Hy. tauto.
      - rewrite NoDup_cons_iff, nodup_app, in_app_iff. repeat split; auto; [tauto|]. intros y H1 H2. apply (DA' y H1). auto.
      - apply incl_refl.
      - intro Hnn. destruct (new_in _ _ Nk Hnn k v (or_introl eq_refl)) as (w & Ew & _).
        apply dget_None in Kd. congruence.
      - intros k2 D. now apply dget_dset_other.
      - intros k2 D. now apply dget_dset_other.
      - rewrite add_cons. apply dget_None in Kd. now rewrite Kd. }
  (* the key is there *)
  destruct (reads_at _ _ _ _ _ _ Hd Ex) as (e1 & e2 & d1 & d2 & F1 & F2 & w & fx & Ee & Ed & EF & R1 & Rx & R2 & K1 & K2).
  assert (Ew : dget k ad = Some w) by (rewrite Ed; now apply dget_mid).
  assert (Ifx : incl fx FA) by (exact (entry_incl _ _ _ _ _ _ _ _ Hd Ex Rx)).
  assert (Hfx : forall y w' f, Some x = Some y -> reads h y w' f -> f = fx).
  { intros y w' f E Ry. injection E as <-. exact (proj2 (proj1 (det h) _ _ _ Ry _ _ Rx)). }
  assert (Hdis : forall k2 y w' f z, k2 <> k -> dget k2 aes = Some y -> reads h y w' f -> In z f -> ~ In z fx).
  { intros k2 y w' f z D Ey Ry Hz. exact (entries_apart _ _ _ _ _ _ _ _ _ _ _ _ _ Hd NFA Ex Rx D Ey Ry Hz). }
  rewrite <- Ex in Hfx.
  (* the entry changes to [w'] within its objects *)
  assert (Step : forall h1 x' w' fx', (forall y, y <> a -> ~ In y fx -> h1 y = h y) ->
    h1 a = Some (NDict (dset k x' aes)) -> reads h1 x' w' fx' -> NoDup fx' -> incl fx' (fx ++ FV) ->
    (nothing_new v w -> incl fx' fx) ->
    reads_all h1 (dset k x' aes) (dset k w' ad) (F1 ++ fx' ++ F2) /\ NoDup (a :: F1 ++ fx' ++ F2) /\
    incl (F1 ++ fx' ++ F2) (FA ++ FV) /\
    (nothing_new (CDict ((k, v) :: r)) (CDict ad) -> incl (F1 ++ fx' ++ F2) FA)).
  { intros h1 x' w' fx' Hfr Ha1 Rx' Nx' Ix' Jx'.
    rewrite EF in NFA. rewrite !nodup_app in NFA. destruct NFA as (NF1 & (Nfx & NF2 & Dx2) & D1).
    assert (D1' : forall y, In y F1 -> In y fx \/ In y F2 -> False) by (intros y H1 H2; apply (D1 y H1); now apply in_app_iff).
    assert (Iff : forall y, In y FA <-> In y F1 \/ In y fx \/ In y F2) by (intro y; rewrite EF, !in_app_iff; tauto).
    assert (Ix : forall y, In y fx' -> In y fx \/ In y FV) by (intros y Hy; apply in_app_iff, Ix', Hy).
    assert (Fr : forall y, In y F1 \/ In y F2 -> h1 y = h y).
    { intros y Hy. apply Hfr; [intros ->; apply Na; left; apply Iff; tauto|]. intro Hf.
      destruct Hy as [Hy|Hy]; [apply (D1' y Hy); now left|exact (Dx2 y Hf Hy)]. }
    split; [|split; [|split]].
    - rewrite Ee, Ed, !dset_mid by assumption. apply reads_app.
      + apply (proj2 (frame h h1) _ _ _ R1). auto.
      + constructor; [exact Rx'|]. apply (proj2 (frame h h1) _ _ _ R2). auto.
    - rewrite NoDup_cons_iff, !nodup_app, !in_app_iff. split; [|split; [exact NF1|split; [split; [exact Nx'|split; [exact NF2|]]|]]].
      + intros [H|[H|H]]; [apply Na; left; apply Iff; auto| |apply Na; left; apply Iff; auto].
        destruct (Ix _ H) as [H'|H']; apply Na; [left; apply Iff; auto|auto].
      + intros y H1 H2. destruct (Ix y H1) as [H|H]; [exact (Dx2 y H H2)|]. apply (DA' y); [apply Iff; auto|auto].
      + intros y H1 H2. apply in_app_iff in H2. destruct H2 as [H2|H2]; [|apply (D1' y H1); auto].
        destruct (Ix y H2) as [H|H]; [apply (D1' y H1); auto|]. apply (DA' y); [apply Iff; auto|auto].
    - intros y. rewrite !in_app_iff, Iff. intros [H|[H|H]]; [tauto| |tauto]. destruct (Ix y H); tauto.
    - intros Hnn y. rewrite !in_app_iff, Iff. intros [H|[H|H]]; [tauto| |tauto]. right. left. apply Jx'; [|exact H].
      destruct (new_in _ _ Nk Hnn k v (or_introl eq_refl)) as (w0 & E0 & Hw). replace w with w0 by congruence. exact Hw. }
  assert (Go : forall h1 x' w' fx', (forall y, y <> a -> ~ In y fx -> h1 y = h y) ->
    h1 a = Some (NDict (dset k x' aes)) -> reads h1 x' w' fx' -> NoDup fx' -> incl fx' (fx ++ FV) ->
    (nothing_new v w -> incl fx' fx) ->
    add_merge (CDict ((k, v) :: r)) ad = add_merge (CDict r) (dset k w' ad) ->
    merged h a aes ad FA ((k, v) :: r) (FV ++ FR) (hloop n a bes h1)).
  { intros h1 x' w' fx' Hfr Ha1 Rx' Nx' Ix' Jx' E. destruct (Step h1 x' w' fx' Hfr Ha1 Rx' Nx' Ix' Jx') as (S1 & S2 & S3 & S4).
    apply (next_entry n a k v r vr FV FR bes h aes ad FA h1 (dset k x' aes) (dset k w' ad) (F1 ++ fx' ++ F2) fx); auto.
    - congruence.
    - intros k2 D. now apply dget_dset_other.
    - intros k2 D. now apply dget_dset_other. }
  assert (Sx : dset k x aes = aes) by (rewrite Ee; now apply dset_mid).
  assert (Sw : dset k w ad = ad) by (rewrite Ed; now apply dset_mid).
  assert (Nfx : NoDup fx) by (rewrite EF, !nodup_app in NFA; tauto).
  assert (Nafx : ~ In a fx) by (intro H; apply Na; left; now apply Ifx).
  assert (Ax : add_merge (CDict ((k, v) :: r)) ad = match v with
      | CDict vd =>
          match w with
          | CDict ad' =>
              match add_merge v ad' with
              | (ad', None) => add_merge (CDict r) (dset k (CDict ad') ad)
              | (ad', Some e) => (dset k (CDict ad') ad, Some e)
              end
          | _ => match vd with [] => add_merge (CDict r) ad | _ => (ad, Some TypeError) end
          end
      | _ =>
          match cval_iadd w v with
          | (x, None) => add_merge (CDict r) (dset k x ad)
          | (_, Some e) => (ad, Some e)
          end
      end) by (rewrite add_cons, Ew; reflexivity).
  assert (Stay : add_merge (CDict ((k, v) :: r)) ad = add_merge (CDict r) ad ->
    merged h a aes ad FA ((k, v) :: r) (FV ++ FR) (hloop n a bes h)).
  { intro E. apply (Go h x w fx); auto; [now rewrite Sx|intros y Hy; apply in_app_iff; now left|intros _; apply incl_refl|].
    now rewrite Sw. }
  assert (Stop : add_merge (CDict ((k, v) :: r)) ad = (ad, Some TypeError) ->
    merged h a aes ad FA ((k, v) :: r) (FV ++ FR) (Raise TypeError, h)).
  { intro E. exact (stop_same h a aes ad FA _ _ (Some TypeError) Ha Hd N E). }
  assert (Extend : forall q l m, x = RPtr q -> w = CList l -> fx = [q] -> h q = Some (NList l) ->
    add_merge (CDict ((k, v) :: r)) ad = add_merge (CDict r) (dset k (CList (l ++ m)) ad) ->
    merged h a aes ad FA ((k, v) :: r) (FV ++ FR) (hloop n a bes (put q (NList (l ++ m)) h))).
  { intros q l m -> -> -> Eq E. apply (Go _ (RPtr q) (CList (l ++ m)) [q]); auto.
    - intros y _ Hy. apply put_other. intros ->. apply Hy. now left.
    - rewrite put_other; [now rewrite Sx|]. intros ->. apply Nafx. now left.
    - constructor. apply put_same.
    - intros y Hy. apply in_app_iff. now left.
    - intros _. apply incl_refl. }
  destruct Hv as [s|p l Ep|p es d F Ep Hes].
  - (* a string *)
    cbn [dict_at]. destruct Rx as [s0|q l0 Eq|q qes qd Fq Eq Hq]; cbn [h_iadd].
    + apply (Go _ (RStr (s0 ++ s)) (CStr (s0 ++ s)) []);
        [intros y Hy _; now apply put_other|apply put_same|constructor|constructor|intros y []|intros _ y []|exact Ax].
    + rewrite Eq. now apply Extend.
    + rewrite Eq. now apply Stop.
  - (* a list *)
    cbn [dict_at]. rewrite Ep. destruct Rx as [s0|q l0 Eq|q qes qd Fq Eq Hq]; cbn [h_iadd].
    + now apply Stop.
    + rewrite Eq, Ep. now apply Extend.
    + rewrite Eq. now apply Stop.
  - (* a dictionary *)
    cbn [dict_at]. rewrite Ep. destruct n as [|m]; [cbn [nesting] in Hnv; lia|].
    destruct Rx as [s0|q l0 Eq|q qes qd Fq Eq Hq].
    + rewrite Ep. destruct Hes; [now apply Stay|now apply Stop].
    + rewrite h_add_S, Ep. destruct Hes as [|k3 r3 v3 F3 es3 d3 G3 H3 Hes]; [now apply Stay|].
      rewrite hloop_cons, Eq. now apply Stop.
    + rewrite h_add_S, Ep. apply keys_once_dict in Hkv. destruct Hkv as [Kd Kv].
      assert (Nq : NoDup (q :: Fq ++ F)).
      { inversion Nfx; subst. inversion NV; subst. rewrite NoDup_cons_iff, nodup_app, in_app_iff. repeat split; auto.
        - intros [H|H]; [contradiction|]. apply (DA' q); [apply Ifx; now left|left; now right].
        - intros y Ha4 Ha5. apply (DA' y); [apply Ifx; now right|left; now right]. }
      destruct (IHn m (Nat.lt_succ_diag_r m) es d q h qes qd Fq F) as
        (h1 & qes' & qd' & Fq' & e & E1 & E2 & E3 & E4 & E5 & E6 & E7 & E8); auto.
      { intros k3 v3 H3. split; [|exact (Kv _ _ H3)]. apply nesting_in in H3. lia. }
      rewrite E1. rewrite E2 in Ax.
      assert (Hfr : forall y, y <> a -> ~ In y (q :: Fq) -> h1 y = h y).
      { intros y _ Hy. apply E8; [intros ->; apply Hy; now left|]. intros k3 y3 v3 f3 _ E9 R9 H9. apply Hy. right.
        exact (entry_incl _ _ _ _ _ _ _ _ Hq E9 R9 y H9). }
      assert (Ha1 : h1 a = Some (NDict (dset k (RPtr q) aes))).
      { rewrite Sx, <- Ha. apply E8; [intros ->; apply Nafx; now left|]. intros k3 y3 v3 f3 _ E9 R9 H9. apply Nafx. right.
        exact (entry_incl _ _ _ _ _ _ _ _ Hq E9 R9 a H9). }
      assert (Rq : reads h1 (RPtr q) (CDict qd') (q :: Fq')) by (now apply reads_dict with qes').
      assert (Iq : incl (q :: Fq') ((q :: Fq) ++ p :: F)).
      { intros y [<-|Hy]; [now left|]. apply E6, in_app_iff in Hy. simpl. rewrite in_app_iff. simpl. tauto. }
      assert (Jq : nothing_new (CDict d) (CDict qd) -> incl (q :: Fq') (q :: Fq)).
      { intros H y [<-|Hy]; [now left|]. right. now apply E7. }
      destruct e as [e|]; cbn [res_of].
      * destruct (Step h1 (RPtr q) (CDict qd') (q :: Fq') Hfr Ha1 Rq E5 Iq Jq) as (S1 & S2 & S3 & S4).
        exists h1, (dset k (RPtr q) aes), (dset k (CDict qd') ad), (F1 ++ (q :: Fq') ++ F2), (Some e).
        split; [reflexivity|]. split; [exact Ax|]. split; [exact Ha1|]. split; [exact S1|]. split; [exact S2|].
        split; [intros y Hy; apply S3 in Hy; rewrite !in_app_iff in *; tauto|]. split; [exact S4|].
        intros y Hy Hs. apply Hfr; [exact Hy|].
        apply (Hs k (RPtr q) (CDict qd)); [now left|exact Ex|now apply reads_dict with qes].
      * now apply (Go h1 (RPtr q) (CDict qd') (q :: Fq')).
Qed.

(** ** Whole calls *)

Lemma add_one : forall n h a b db dict A B,
  reads h (RPtr a) db A -> is_dict db -> reads h (RPtr b) dict B -> is_dict dict -> keys_once dict ->
  NoDup A -> NoDup B -> separate A B -> nesting dict <= n ->
  exists h' A', h_add n a b h = (res_of (snd (add_constants db dict)), h') /\
    reads h' (RPtr a) (fst (add_constants db dict)) A' /\ NoDup A' /\ incl A' (A ++ B) /\
    (nothing_new dict db -> incl A' A) /\
    forall x, ~ In x A -> h' x = h x.
Proof.
  intros n h a b db dict A B Ra [ad ->] Rb [bd ->] K NA NB S L.
  inversion Ra as [| |a0 aes ad0 FA Ea Ha]; subst. inversion Rb as [| |b0 bes bd0 FB Eb Hb]; subst.
  destruct n as [|n]; [cbn [nesting] in L; lia|]. apply keys_once_dict in K. destruct K as [K1 K2].
  assert (N : NoDup (a :: FA ++ FB)).
  { inversion NA; subst. inversion NB; subst. rewrite NoDup_cons_iff, nodup_app, in_app_iff. repeat split; auto.
    - intros [H|H]; [contradiction|]. apply (S a); [now left|now right].
    - intros y Hy Hz. apply (S y); now right. }
  destruct (merge_ok n bes bd a h aes ad FA FB) as (h' & aes' & ad' & FA' & e & E1 & E2 & E3 & E4 & E5 & E6 & E7 & E8); auto.
  { intros k v Hi. split; [apply nesting_in in Hi; lia|exact (K2 _ _ Hi)]. }
  exists h', (a :: FA'). rewrite h_add_S, Eb. unfold add_constants, lift_upd. rewrite E2. cbn [fst snd].
  split; [exact E1|]. split; [now apply reads_dict with aes'|]. split; [exact E5|].
  split; [intros x [<-|Hx]; [now left|]; right; apply E6, in_app_iff in Hx; rewrite in_app_iff; simpl; tauto|].
  split; [intros H x [<-|Hx]; [now left|right; now apply E7]|].
  intros x Hx. apply E8; [intros ->; apply Hx; now left|]. intros k y v f _ Ey Ry Hf. apply Hx. right.
  exact (entry_incl _ _ _ _ _ _ _ _ Ha Ey Ry x Hf).
Qed.

Lemma iadd_leaf : forall w v x, cval_iadd w v = (x, None) -> is_leaf w /\ is_leaf x.
Proof. intros [s|l|d] [s'|l'|d'] x E; try discriminate E; injection E as <-; split; exact I. Qed.

Lemma dset_grows : forall k v w d, dget k d = Some w ->
  (forall p x, at_path p w = Some x -> exists y, at_path p v = Some y) ->
  forall p x, at_path p (CDict d) = Some x -> exists y, at_path p (CDict (dset k v d)) = Some y.
Proof.
  intros k v w d E H [|k2 p] x Hp; [eexists; reflexivity|]. cbn [at_path] in *. rewrite dget_dset.
  destruct (str_eqb k2 k) eqn:Ek; [|eauto]. apply str_eqb_eq in Ek. subst. rewrite E in Hp. eauto.
Qed.

Lemma add_grows : forall b a p x, at_path p (CDict a) = Some x ->
  exists y, at_path p (CDict (fst (add_merge b a))) = Some y.
Proof.
  apply (cval_rec2 (fun b => forall a p x, at_path p (CDict a) = Some x ->
    exists y, at_path p (CDict (fst (add_merge b a))) = Some y)); [intros s a p x H; now exists x|intros l a p x H; now exists x|].
  intros d. induction d as [|[k v] d IH]; intros Hv a p x Hp; [now exists x|].
  assert (IHd : forall a p x, at_path p (CDict a) = Some x ->
    exists y, at_path p (CDict (fst (add_merge (CDict d) a))) = Some y).
  { apply IH. intros k0 v0 H0. apply (Hv k0). now right. }
  rewrite add_cons. destruct (dget k a) as [w|] eqn:Ew.
  - assert (Leaf : forall u, is_leaf w -> is_leaf u -> exists y, at_path p (CDict (dset k u a)) = Some y).
    { intros u Hw Hu. apply (dset_grows k u w a Ew) with x; [|exact Hp]. intros [|k3 q] z Hz; [eexists; reflexivity|].
      destruct w; [discriminate Hz|discriminate Hz|destruct Hw]. }
    assert (Add : exists y, at_path p (CDict (fst match cval_iadd w v with
        | (x, None) => add_merge (CDict d) (dset k x a) | (_, Some e) => (a, Some e) end)) = Some y).
    { destruct (cval_iadd w v) as [u [e|]] eqn:Eu; [now exists x|]. apply iadd_leaf in Eu. destruct Eu as [U1 U2].
      destruct (Leaf u U1 U2) as [y Hy]. eauto. }
    destruct v as [s|l|vd]; [exact Add|exact Add|].
    destruct w as [s|l|ad]; [destruct vd; [eauto|now exists x]|destruct vd; [eauto|now exists x]|].
    assert (G := dset_grows k (CDict (fst (add_merge (CDict vd) ad))) (CDict ad) a Ew
                   (Hv k (CDict vd) (or_introl eq_refl) ad) p x Hp).
    destruct (add_merge (CDict vd) ad) as [ad' [e|]]; cbn [fst] in *; [exact G|]. destruct G as [y Hy]. eauto.
  - destruct p as [|k2 p]; [eexists; reflexivity|]. apply IHd with x. cbn [at_path] in *. rewrite dget_dset_other; [exact Hp|].
    intros ->. now rewrite Ew in Hp.
Qed.

Lemma new_kept : forall d db c, nothing_new d db -> nothing_new d (fst (add_constants db c)).
Proof.
  intros d db c H p x Hp. destruct (H p x Hp) as [y Hy]. destruct db as [s|l|a]; [now exists y|now exists y|].
  unfold add_constants, lift_upd. destruct (add_grows c a p y Hy) as [z Hz]. destruct (add_merge c a). now exists z.
Qed.

Lemma add_dict : forall db c, is_dict db -> is_dict (fst (add_constants db c)).
Proof. intros db c [d ->]. unfold add_constants, lift_upd. destruct (add_merge c d). eexists. reflexivity. Qed.

Lemma given_kept : forall n h h' db db' A A' b dict, given n h db A b dict -> incl A' A ->
  (forall x, ~ In x A -> h' x = h x) -> (nothing_new dict db -> nothing_new dict db') -> given n h' db' A' b dict.
Proof.
  intros n h h' db db' A A' b dict (B & R & D & K & N & S & L & W) I F G. exists B. repeat split; auto.
  - apply (proj1 (frame h h') _ _ _ R). intros x Hx. apply F. intro Ha. exact (S x Ha Hx).
  - intros x Hx. apply S. now apply I.
Qed.

Lemma adds_ok : forall n bs ds h a db A, reads h (RPtr a) db A -> is_dict db -> NoDup A ->
  Forall2 (given n h db A) bs ds ->
  forall h', h_adds n a bs h = (Ok tt, h') ->
  exists A', reads h' (RPtr a) (added db ds) A' /\ incl A' A /\ NoDup A' /\ forall x, ~ In x A -> h' x = h x.
Proof.
  intros n bs. induction bs as [|b bs IH]; intros ds h a db A R D N G h' E; inversion G as [|b0 d bs0 ds' G1 G2]; subst.
  - injection E as <-. exists A. repeat split; auto. apply incl_refl.
  - assert (G1' := G1). destruct G1' as (B & Rb & Db & Kb & Nb & Sb & Lb & Wb).
    destruct (add_one n h a b db d A B R D Rb Db Kb N Nb Sb Lb) as (h1 & A1 & E1 & R1 & N1 & I1 & J1 & F1).
    cbn [h_adds] in E. rewrite E1 in E. destruct (snd (add_constants db d)); cbn [res_of] in E; [discriminate|].
    destruct (IH ds' h1 a (fst (add_constants db d)) A1) with (h' := h') as (A2 & R2 & I2 & N2 & F2); auto using add_dict.
    + clear - G2 J1 Wb F1. induction G2 as [|b0 d0 bs ds Hg Hgs IHg]; constructor; [|exact IHg].
      apply (given_kept n h h1 db _ A); auto. apply new_kept.
    + exists A2. repeat split; auto.
      * intros x Hx. apply (J1 Wb). now apply I2.
      * intros x Hx. rewrite F2; [now apply F1|]. intro H. apply Hx. now apply (J1 Wb).
Qed.

Lemma C56_call_lemma : forall n h a b db dict A B,
  reads h (RPtr a) db A -> is_dict db -> reads h (RPtr b) dict B -> is_dict dict -> keys_once dict ->
  NoDup A -> NoDup B -> separate A B -> nesting dict <= n ->
  exists h' A', fst (h_add n a b h) = match snd (add_constants db dict) with None => Ok tt | Some e => Raise e end /\
    snd (h_add n a b h) = h' /\
    reads h' (RPtr a) (fst (add_constants db dict)) A' /\ reads h' (RPtr b) dict B /\
    forall x, ~ In x A -> h' x = h x.
Proof.
  intros n h a b db dict A B Ra Da Rb Db K NA NB S L.
  destruct (add_one n h a b db dict A B Ra Da Rb Db K NA NB S L) as (h' & A' & E & R & _ & _ & _ & F).
  exists h', A'. rewrite E. cbn [fst snd]. repeat split; auto.
  apply (proj1 (frame h h') _ _ _ Rb). intros x Hx. apply F. intro H. exact (S x H Hx).
Qed.

Lemma C56_separate_lemma : forall n bs ds h a db A, reads h (RPtr a) db A -> is_dict db -> NoDup A ->
  Forall2 (given n h db A) bs ds ->
  forall h', h_adds n a bs h = (Ok tt, h') ->
  Forall2 (fun b d => exists B, reads h' (RPtr b) d B) bs ds /\
  forall h'', (forall x, In x A -> h'' x = h' x) -> exists A', reads h'' (RPtr a) (added db ds) A'.
Proof.
  intros n bs ds h a db A R D N G h' E.
  destruct (adds_ok n bs ds h a db A R D N G h' E) as (A' & R' & I & _ & F). split.
  - clear E. induction G as [|b d bs ds Hg Hgs IH]; constructor.
    + destruct Hg as (B & Rb & _ & _ & _ & S & _). exists B.
      apply (proj1 (frame h h') _ _ _ Rb). intros x Hx. apply F. intro H. exact (S x H Hx).
    + clear - Hgs F. induction Hgs as [|b d bs ds Hg Hgs IH]; constructor; [|exact IH].
      destruct Hg as (B & Rb & _ & _ & _ & S & _). exists B.
      apply (proj1 (frame h h') _ _ _ Rb). intros x Hx. apply F. intro H. exact (S x H Hx).
  - intros h'' H. exists A'. apply (proj1 (frame h' h'') _ _ _ R'). intros x Hx. apply H. now apply I.
Qed.
