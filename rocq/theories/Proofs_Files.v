(** * Proofs of the properties about links between files *)

From Verif Require Import PyStr Regex Patterns PyPath Res Inline Const Item Lines Stash
  StrFacts ReFacts LinesFacts ParseFacts HistFacts ReachFacts MapFacts QueryFacts LinkFacts NameFacts
  Spec_Query Spec_Files AppendFacts Proofs_Query.
From Coq Require Import Permutation.

Lemma file_known_key : forall s f, file_known s f <-> In f (dkeys (st_map s)).
Proof.
  intros s f. split.
  - intros [l H]. eapply dget_Some_key. exact H.
  - apply dkey_get.
Qed.
Lemma linked_links : forall s f x, linked s f x <-> links (st_map s) f x.
Proof. intros. reflexivity. Qed.

(** ** C35 *)

Lemma parsing_inv : forall e s, env_ok e -> parsing e s -> closed s /\ NoDup (dkeys (st_map s)).
Proof.
  intros e s He H. induction H as [nw neg db|n path off forced s r s' _ IH E|n s _ IH Hn|l s _ IH Hl Hd
                               |l s r s' _ IH E|s r s' _ IH E|db s _ IH].
  - split; [split|]; simpl; [intros i []|intros k l x Hx; discriminate|constructor].
  - destruct IH as [I1 I2]. split; [eapply add_file_closed|eapply add_file_NoDup]; eassumption.
  - exact IH.
  - destruct IH as [[I1 I2] I3]. split; [|exact I3]. split; [|exact I2]. simpl. intros i Hi.
    apply in_app_iff in Hi. destruct Hi as [Hi|Hi]; [now apply I1|]. apply file_known_key. now apply Hl.
  - apply remove_items_shape in E. destruct E as [Hi ->]. destruct IH as [[I1 I2] I3]. split; [|exact I3].
    split; [|exact I2]. intros i H. apply I1. now apply Hi.
  - destruct IH as [I1 I3]. split; [eapply finalize_closed; eassumption|].
    pose proof (finalize_links _ _ _ _ He E I3 (proj2 I1)) as [_ [Ek _]]. now rewrite Ek.
  - exact IH.
Qed.

Lemma key_split : forall (k : str) ks, In k ks -> exists a b, ks = a ++ k :: b.
Proof. intros k ks H. apply in_split. exact H. Qed.

Lemma C35_lemma : forall e s, env_ok e -> parsing e s ->
  exists s', finalize e s = (Ok tt, s') /\ forall f, file_known s f -> linked s' f f.
Proof.
  intros e s He H. apply parsing_inv in H; [|exact He]. destruct H as [[_ C] N].
  destruct (finalize e s) as [r s'] eqn:E. pose proof (finalize_links _ _ _ _ He E N C) as [-> [_ [_ H]]].
  exists s'. split; [reflexivity|]. intros f Hf. apply file_known_key in Hf.
  apply key_split in Hf. destruct Hf as [a [b Eq]]. apply (H a f b f Eq). now left.
Qed.

(** ** C41 *)

Lemma chain_app : forall s n m f y x, chain s n f y -> chain s m y x -> chain s (n + m) f x.
Proof.
  intros s n m f y x H1 H2. induction H1 as [f|n f z y Hl H1 IH]; [exact H2|].
  simpl. eapply chain_step; [exact Hl|]. now apply IH.
Qed.

Lemma C41_sound_lemma : forall e s s', env_ok e -> parsing e s -> finalize e s = (Ok tt, s') ->
  forall f x, linked s' f x -> exists n, chain s n f x.
Proof.
  intros e s s' He Hp E. apply parsing_inv in Hp; [|exact He]. destruct Hp as [[_ C] N].
  pose proof (finalize_links _ _ _ _ He E N C) as [_ [Ek [_ H]]].
  assert (G : forall len a f b x, length a <= len -> dkeys (st_map s) = a ++ f :: b -> linked s' f x ->
                exists n, chain s n f x).
  { induction len as [|len IH]; intros a f b x Hlen Eq Hl; apply (H a f b x Eq) in Hl;
      destruct Hl as [->|[Hl|[i [Hi Hor]]]].
    1, 4: exists 0; constructor.
    1, 3: exists 1; eapply chain_step; [exact Hl|constructor].
    - destruct a; [|simpl in Hlen; lia]. destruct Hor as [[[] _]|[_ Hl]].
      exists 2. eapply chain_step; [exact Hi|]. eapply chain_step; [exact Hl|constructor].
    - destruct Hor as [[Ha Hl]|[_ Hl]].
      + apply in_split in Ha. destruct Ha as [a1 [a2 ->]].
        destruct (IH a1 i (a2 ++ f :: b) x) as [n Hc].
        * rewrite app_length in Hlen. simpl in Hlen. lia.
        * rewrite Eq, <- app_assoc. reflexivity.
        * exact Hl.
        * exists (S n). eapply chain_step; eassumption.
      + exists 2. eapply chain_step; [exact Hi|]. eapply chain_step; [exact Hl|constructor]. }
  intros f x Hl. assert (Hf : In f (dkeys (st_map s))).
  { rewrite <- Ek. destruct Hl as [l [El _]]. eapply dget_Some_key. exact El. }
  apply in_split in Hf. destruct Hf as [a [b Eq]]. exact (G (length a) a f b x (le_n _) Eq Hl).
Qed.

(** Links stay, and two steps become one. *)
Lemma finalize_grows : forall e s s', env_ok e -> NoDup (dkeys (st_map s)) -> links_known (st_map s) ->
  finalize e s = (Ok tt, s') ->
  (forall f, In f (dkeys (st_map s)) -> linked s' f f) /\
  (forall f x, linked s f x -> linked s' f x) /\
  (forall f y x, linked s f y -> linked s y x -> linked s' f x).
Proof.
  intros e s s' He N C E. pose proof (finalize_links _ _ _ _ He E N C) as [_ [_ [_ H]]].
  assert (Hk : forall f x, linked s f x -> exists a b, dkeys (st_map s) = a ++ f :: b).
  { intros f x [l [El _]]. apply in_split. eapply dget_Some_key. exact El. }
  assert (H1 : forall f x, linked s f x -> linked s' f x).
  { intros f x Hl. destruct (Hk f x Hl) as [a [b Eq]]. apply (H a f b x Eq). auto. }
  split; [|split; [exact H1|]].
  - intros f Hf. apply in_split in Hf. destruct Hf as [a [b Eq]]. apply (H a f b f Eq). now left.
  - intros f y x H2 H3. destruct (Hk f y H2) as [a [b Eq]]. apply (H a f b x Eq). right. right.
    exists y. split; [exact H2|]. destruct (in_dec str_eq_dec y a) as [Ha|Ha].
    + left. split; [exact Ha|]. now apply H1.
    + right. auto.
Qed.

Lemma C41_two_lemma : forall e s s', env_ok e -> parsing e s -> finalize e s = (Ok tt, s') ->
  forall n f x, n <= 2 -> file_known s f -> chain s n f x -> linked s' f x.
Proof.
  intros e s s' He Hp E n f x Hn Hf Hc. apply parsing_inv in Hp; [|exact He]. destruct Hp as [[_ C] N].
  destruct (finalize_grows _ _ _ He N C E) as [G0 [G1 G2]].
  inversion Hc as [f0|n1 f1 y x1 Hl Hc1]; subst.
  - apply G0. now apply file_known_key.
  - inversion Hc1 as [f0|n2 f2 z x2 Hl2 Hc2]; subst.
    + now apply G1.
    + inversion Hc2; subst; [|lia]. now apply (G2 f y x).
Qed.

Lemma C41_back_lemma : forall e s s', env_ok e -> parsing e s -> links_back s ->
  finalize e s = (Ok tt, s') ->
  forall f x, file_known s f -> (linked s' f x <-> exists n, chain s n f x).
Proof.
  intros e s s' He Hp Hb E f x Hf. split.
  - eapply C41_sound_lemma; eassumption.
  - intros [n Hc]. apply parsing_inv in Hp; [|exact He]. destruct Hp as [[_ C] N].
    pose proof (finalize_links _ _ _ _ He E N C) as [_ [_ [_ H]]].
    destruct (finalize_grows _ _ _ He N C E) as [G0 [G1 G2]].
    revert Hf. induction Hc as [f|n f y x Hl Hc IH]; intro Hf.
    + apply G0. now apply file_known_key.
    + apply file_known_key in Hf. apply in_split in Hf. destruct Hf as [a [b Eq]].
      apply (H a f b x Eq). right. right. exists y. split; [exact Hl|]. left.
      assert (Ha : In y a) by (eapply Hb; eassumption). split; [exact Ha|]. apply IH.
      apply file_known_key. rewrite Eq. apply in_or_app. now left.
Qed.

Lemma finalized_inv : forall e n s s', env_ok e -> finalized e n s s' ->
  NoDup (dkeys (st_map s)) -> links_known (st_map s) ->
  dkeys (st_map s') = dkeys (st_map s) /\ links_known (st_map s').
Proof.
  intros e n s s' He H N C. induction H as [s|n s s1 s2 H IH E]; [auto|].
  destruct (IH N C) as [I1 I2]. assert (N1 : NoDup (dkeys (st_map s1))) by now rewrite I1.
  pose proof (finalize_links _ _ _ _ He E N1 I2) as [_ [Ek [C2 _]]]. split; [congruence|exact C2].
Qed.

Lemma chain_split : forall s n m f x, chain s (n + m) f x -> exists y, chain s n f y /\ chain s m y x.
Proof.
  intros s n. induction n as [|n IH]; intros m f x H.
  - exists f. split; [constructor|exact H].
  - simpl in H. inversion H as [|n0 f0 y x0 Hl Hc]; subst. destruct (IH m y x Hc) as [z [H1 H2]].
    exists z. split; [|exact H2]. eapply chain_step; eassumption.
Qed.

Lemma chain_known : forall s n f x, links_known (st_map s) -> In f (dkeys (st_map s)) -> chain s n f x ->
  In x (dkeys (st_map s)).
Proof.
  intros s n f x C Hf H. induction H as [f|n f y x [l [El Hy]] H IH]; [exact Hf|]. apply IH.
  eapply C; eassumption.
Qed.

Lemma C41_repeat_lemma : forall e n s s', env_ok e -> parsing e s -> finalized e n s s' ->
  forall m f x, 1 <= m <= 2 ^ n -> chain s m f x -> linked s' f x.
Proof.
  intros e n s s' He Hp H. apply parsing_inv in Hp; [|exact He]. destruct Hp as [[_ C] N].
  induction H as [s|n s s1 s2 H IH E]; intros m f x Hm Hc.
  - simpl in Hm. inversion Hc as [|m0 f0 y x0 Hl Hc0]; subst; [lia|]. inversion Hc0; subst; [exact Hl|lia].
  - destruct (finalized_inv _ _ _ _ He H N C) as [Ek C1].
    assert (N1 : NoDup (dkeys (st_map s1))) by now rewrite Ek.
    destruct (finalize_grows _ _ _ He N1 C1 E) as [_ [G1 G2]].
    specialize (IH C N). destruct (Nat.le_gt_cases m (2 ^ n)) as [Hle|Hgt].
    + apply G1. eapply IH; [|exact Hc]. lia.
    + replace m with (2 ^ n + (m - 2 ^ n)) in Hc by lia. apply chain_split in Hc.
      destruct Hc as [y [Hc1 Hc2]]. simpl in Hm. apply (G2 f y x).
      * eapply IH; [|exact Hc1]. lia.
      * eapply IH; [|exact Hc2]. lia.
Qed.

(** ** C37, C38 *)

Lemma parsed_lines : forall file off neg cs inc new num l,
  chunks_ok off neg num cs -> parsed file off inc new cs l -> (1 <= num)%Z -> (0 <= off)%Z -> (0 <= inc)%Z ->
  Forall (fun i => (1 <= it_line i)%Z) l.
Proof.
  intros file off neg cs. induction cs as [|c cs IH]; intros inc new num [|i l] Hc Hp Hn Ho Hi; simpl in Hp;
    try contradiction; constructor.
  - simpl in Hc. destruct Hc as [Hc _]. unfold chunk_ok in Hc.
    destruct Hp as [_ [_ [_ [_ [_ [_ [E _]]]]]]]. rewrite E. lia.
  - simpl in Hc. destruct Hp as [_ [_ [_ [_ [_ [_ [_ [_ [d [Hd Hp]]]]]]]]]].
    eapply (IH (inc + d)%Z); [|exact Hp| | |]; [apply Hc|lia|lia|lia].
Qed.

Lemma skipped_nil : forall n e path off forced s l s', add_file n e path off forced s = (Ok l, s') ->
  l <> [] -> skipped e path s = false.
Proof.
  intros n e path off forced s l s' H Hl. apply add_file_inv in H. destruct (skipped e path s); [|reflexivity].
  destruct H as [-> _]. congruence.
Qed.

Lemma get_items_keys : forall n e file off s r s',
  get_items e (fun p o f => add_file n e p o (Some f)) file off s = (r, s') ->
  exists ks, dkeys (st_map s') = dkeys (st_map s) ++ ks.
Proof.
  intros n e file off s r s' H.
  assert (G : (fun (_ : list item) s s' => exists ks, dkeys (st_map s') = dkeys (st_map s) ++ ks)
                (pend (fun l => l) r) s s'); [|exact G].
  eapply (rel_get_items e (fun _ s s' => exists ks, dkeys (st_map s') = dkeys (st_map s) ++ ks)); try exact H; clear.
  - intro s. exists []. now rewrite app_nil_r.
  - intros _ _ s1 s2 s3 [a H1] [b H2]. exists (a ++ b). now rewrite H2, H1, app_assoc.
  - auto.
  - intros s i _ _. exists []. simpl. now rewrite app_nil_r.
  - intros s path _. exists []. simpl. now rewrite app_nil_r.
  - intros s0 s1 path forced items r s' file _ _ [a H1] E. apply leave_map in E. destruct E as [E _].
    apply extends_keys in E. destruct E as [b E]. exists (a ++ b). rewrite E, H1. simpl. now rewrite app_assoc.
Qed.
Lemma get_items_grows : forall n e file off s r s',
  get_items e (fun p o f => add_file n e p o (Some f)) file off s = (r, s') ->
  exists f new, raises f /\ st_list s' = map f (st_list s) ++ new.
Proof.
  intros n e file off s r s' H.
  assert (G : grows (pend (fun l => l) r) s s').
  { eapply (rel_get_items e grows); try exact H; clear.
    - apply grows_refl.
    - apply grows_trans.
    - apply grows_drop.
    - intros s i Hi _. now apply grows_new.
    - intros s path _. now apply grows_same.
    - intros s0 s1 path forced items r s' file _ _ Hg E.
      assert (Hg' : grows items s0 s1).
      { pose proof (grows_trans [] items s0 (enter file s0) s1) as T. apply T; [now apply grows_same|exact Hg]. }
      eapply grows_leave; [exact Hg'|exact E]. }
  destruct G as [f [new [Hf [E _]]]]. eauto.
Qed.

Lemma C37_recipe_first_lemma : forall n e path off forced s l s' recipe,
  add_file n e path off forced s = (Ok l, s') -> l <> [] -> (0 <= off)%Z ->
  applies (abspath (fs_cwd (e_fs e)) path) recipe -> file_known s recipe ->
  linked s' recipe (abspath (fs_cwd (e_fs e)) path) /\
  forall i j, In i (st_list s') -> it_origin i = recipe -> In j l -> (it_line i < it_line j)%Z.
Proof.
  intros n e path off forced s l s' recipe H Hl Ho Ha Hk. set (file := abspath (fs_cwd (e_fs e)) path) in *.
  pose proof (skipped_nil _ _ _ _ _ _ _ _ H Hl) as Hs.
  destruct (add_file_parts _ _ _ _ _ _ _ _ H Hs) as [m [cs [items [s1 [_ [Hg [Hv [_ [Hc Hp]]]]]]]]]. fold file in Hg, Hv, Hp.
  destruct (leave_parts _ _ _ _ _ _ _ Hv) as [s2 [Hm [EL EM]]].
  destruct (applies_append _ _ Ha) as [A1 [_ [A3 [A4 A5]]]].
  assert (Hk1 : In recipe (dkeys (link_file file forced (st_map s1)))).
  { destruct (get_items_keys _ _ _ _ _ _ _ Hg) as [ks Eks]. simpl in Eks.
    destruct (extends_keys _ _ _ (link_file_ext file forced (st_map s1))) as [ks2 E2].
    rewrite E2, Eks. apply in_or_app. left. apply in_or_app. left. now apply file_known_key. }
  destruct (append_links _ _ _ _ _ recipe A3 Hm Hk1 A1) as [H1 [H2 [mx [H3 [H4 H5]]]]]. simpl in H2, H5.
  split; [unfold linked; rewrite EM; exact H1|].
  intros i j Hi Hio Hj. rewrite EL, H2 in Hi. apply in_app_iff in Hi.
  assert (Hj' : (mx + 1 <= it_line j)%Z).
  { rewrite H3 in Hj. apply in_map_iff in Hj. destruct Hj as [j0 [<- Hj]]. simpl.
    pose proof (parsed_lines _ _ _ _ _ _ _ _ Hc Hp ltac:(lia) Ho ltac:(lia)) as F.
    rewrite Forall_forall in F. specialize (F _ Hj). lia. }
  destruct Hi as [Hi|Hi].
  - specialize (H5 i Hi Hio). lia.
  - exfalso. rewrite H3 in Hi. apply in_map_iff in Hi. destruct Hi as [i0 [<- Hi]]. simpl in Hio.
    apply parsed_origin in Hp. rewrite Forall_forall in Hp. rewrite (Hp _ Hi) in Hio. congruence.
Qed.

Lemma C37_append_first_lemma : forall n e path off forced s l s' app,
  add_file n e path off forced s = (Ok l, s') -> l <> [] ->
  applies app (abspath (fs_cwd (e_fs e)) path) -> (exists i, In i (st_list s) /\ it_origin i = app) ->
  linked s' (abspath (fs_cwd (e_fs e)) path) app /\
  forall i j, In i (st_list s') -> it_origin i = app -> (1 <= it_infile i)%Z -> In j l ->
    (it_line j < it_line i)%Z.
Proof.
  intros n e path off forced s l s' app H Hl Ha [i0 [Hi0 Eo0]]. set (file := abspath (fs_cwd (e_fs e)) path) in *.
  pose proof (skipped_nil _ _ _ _ _ _ _ _ H Hl) as Hs.
  destruct (add_file_parts _ _ _ _ _ _ _ _ H Hs) as [m [cs [items [s1 [_ [Hg [Hv [_ [Hc Hp]]]]]]]]]. fold file in Hg, Hv, Hp.
  destruct (leave_parts _ _ _ _ _ _ _ Hv) as [s2 [Hm [EL EM]]].
  destruct (applies_append _ _ Ha) as [_ [A2 [A3 [A4 A5]]]].
  assert (Hk1 : In file (dkeys (link_file file forced (st_map s1)))).
  { destruct (link_file_key file forced (st_map s1)) as [l0 E0]. eapply dget_Some_key. exact E0. }
  destruct (recipe_links _ _ _ _ _ A5 A4 Hm Hk1) as [H1 [H2 H3]].
  cbn [st_list with_map] in H2, H3. subst items.
  destruct (get_items_grows _ _ _ _ _ _ _ Hg) as [f [new [Hf EL1]]]. simpl in EL1.
  split.
  - unfold linked. rewrite EM. specialize (H3 (f i0)). rewrite (raises_it_origin f i0 Hf), Eo0 in H3.
    apply H3; auto. rewrite EL1. apply in_or_app. left. now apply in_map.
  - intros i j Hi Hio Hinf Hj. rewrite EL, H2 in Hi. apply in_app_iff in Hi. destruct Hi as [Hi|Hi].
    + apply in_map_iff in Hi. destruct Hi as [i1 [<- Hi]].
      assert (Eo : it_origin i1 = app).
      { rewrite <- Hio. symmetry. apply raises_it_origin. apply recipe_raise_raises. }
      clear Hio. destruct A2 as [rx [Hrx Hmt]]. unfold recipe_raise in Hinf |- *.
      rewrite Eo, A3, Hrx, Hmt in Hinf. rewrite Eo, A3, Hrx, Hmt. simpl in *. pose proof (max_line_ge l j Hj). lia.
    + exfalso. apply parsed_origin in Hp. rewrite Forall_forall in Hp. rewrite (Hp _ Hi) in Hio. congruence.
Qed.

(** ** C57 *)

Lemma olr_refl : forall i, only_line_raised i i.
Proof. intro i. unfold only_line_raised. repeat split; auto. lia. Qed.
Lemma olr_trans : forall i j k, only_line_raised i j -> only_line_raised j k -> only_line_raised i k.
Proof.
  intros i j k [A1 [A2 [A3 [A4 [A5 [A6 [A7 [A8 [A9 [A10 A11]]]]]]]]]] [B1 [B2 [B3 [B4 [B5 [B6 [B7 [B8 [B9 [B10 B11]]]]]]]]]].
  unfold only_line_raised. repeat (split; [congruence|]). split; [lia|].
  intro H. rewrite B11, A11; auto. now rewrite A5.
Qed.
Lemma olr_map : forall f l, raises f -> Forall2 only_line_raised l (map f l).
Proof.
  intros f l Hf. induction l as [|i l IH]; simpl; constructor; [now apply raises_only_line|exact IH].
Qed.
Lemma olr_map_r : forall f l l', raises f -> Forall2 only_line_raised l l' -> Forall2 only_line_raised l (map f l').
Proof.
  intros f l l' Hf H. induction H as [|i j l l' H _ IH]; simpl; constructor; [|exact IH].
  eapply olr_trans; [exact H|now apply raises_only_line].
Qed.

(** The texts fed into the fingerprint. *)
Definition fed (e : env) (p : list item) (s s' : stash) : Prop :=
  exists f new l, raises f /\ st_list s' = map f (st_list s) ++ new /\ Forall2 only_line_raised l new /\
    st_fp s' = st_fp s ++ map (e_repr e) l.
Lemma fed_same : forall e p s s', st_list s' = st_list s -> st_fp s' = st_fp s -> fed e p s s'.
Proof.
  intros e p s s' H1 H2. exists (fun i => i), [], []. split; [apply raises_id|].
  rewrite map_id, !app_nil_r. repeat split; auto.
Qed.
Lemma fed_trans : forall e p q r s1 s2 s3, fed e p s1 s2 -> fed e q s2 s3 -> fed e r s1 s3.
Proof.
  intros e p q r s1 s2 s3 [f [n1 [l1 [F1 [L1 [O1 P1]]]]]] [g [n2 [l2 [F2 [L2 [O2 P2]]]]]].
  exists (fun i => g (f i)), (map g n1 ++ n2), (l1 ++ l2). split; [now apply raises_comp|].
  rewrite L2, L1, P2, P1, !map_app, map_map, <- !app_assoc. repeat split.
  apply Forall2_app; [now apply olr_map_r|exact O2].
Qed.
Lemma fed_leave : forall e file forced items s r s', leave e file forced items s = (r, s') -> fed e [] s s'.
Proof.
  intros e file forced items s r s' H. apply leave_cases in H. destruct H as [f [l [Hf [EL [EF _]]]]].
  exists f, l, l. repeat (split; [assumption|]). split; [|exact EF].
  rewrite <- (map_id l) at 2. apply olr_map. apply raises_id.
Qed.
Lemma add_file_fed : forall n e path off forced s r s', add_file n e path off forced s = (r, s') -> fed e [] s s'.
Proof.
  intros n e path off forced s r s' H. assert (G : fed e (pend none r) s s').
  { eapply (rel_add_file e (fed e)); try exact H; clear.
    - intro s. now apply fed_same.
    - intros p q s1 s2 s3. apply fed_trans.
    - auto.
    - intros s i _ _. now apply fed_same.
    - intros s path _. now apply fed_same.
    - intros s0 s1 path forced items r s' file _ _ Hg E. apply fed_leave in E.
      assert (H0 : fed e [] s0 (enter file s0)) by now apply fed_same.
      pose proof (fed_trans e [] items [] _ _ _ H0 Hg) as H1. eapply fed_trans; [exact H1|exact E]. }
  destruct r; exact G.
Qed.

Lemma C57_add_lemma : forall n e path off forced s r s', add_file n e path off forced s = (r, s') ->
  exists old new parsed, st_list s' = old ++ new /\ Forall2 only_line_raised (st_list s) old /\
    Forall2 only_line_raised parsed new /\ st_fp s' = st_fp s ++ map (e_repr e) parsed.
Proof.
  intros n e path off forced s r s' H. apply add_file_fed in H.
  destruct H as [f [new [l [Hf [EL [HO EF]]]]]]. exists (map f (st_list s)), new, l.
  repeat split; auto. now apply olr_map.
Qed.
Lemma C57_other_lemma : forall e s,
  (forall l, st_fp (append_items l s) = st_fp s) /\
  (forall l r s', remove_items l s = (r, s') -> st_fp s' = st_fp s) /\
  (forall r s', finalize e s = (r, s') -> st_fp s' = st_fp s).
Proof.
  intros e s. split; [|split].
  - reflexivity.
  - intros l r s' H. apply remove_items_shape in H. destruct H as [_ ->]. reflexivity.
  - intros r s' H. apply finalize_shape in H. destruct H as [g [mp [_ [-> _]]]]. reflexivity.
Qed.

(** ** C69 *)

Lemma fold_add_set_In : forall v l x, In x (fold_left (fun acc y => add_set y acc) v l) <-> In x l \/ In x v.
Proof.
  induction v as [|y v IH]; intros l x; simpl; [tauto|]. rewrite IH.
  assert (H : In x (add_set y l) <-> In x l \/ y = x).
  { unfold add_set. destruct (mem_str y l) eqn:E.
    - apply mem_str_In in E. split; [auto|]. intros [H|<-]; auto.
    - rewrite in_app_iff. simpl. tauto. }
  rewrite H. tauto.
Qed.
Lemma existsb_id : forall (l : list item) n, existsb (Nat.eqb n) (map it_id l) = true <-> exists i, In i l /\ it_id i = n.
Proof.
  intros l n. rewrite existsb_exists. split.
  - intros [x [H E]]. apply in_map_iff in H. destruct H as [i [<- Hi]]. apply Nat.eqb_eq in E. eauto.
  - intros [i [Hi <-]]. exists (it_id i). split; [now apply in_map|apply Nat.eqb_refl].
Qed.

(** Selected for the entry of file [k]. *)
Definition of_entry (mp : lmap) (k : str) (i : item) : Prop := k = [] \/ it_origin i = k \/ links mp k (it_origin i).

Lemma file_query_In : forall e s k i, env_ok e -> ids_ok (st_list s) ->
  In i (get_items_for e s (file_query k)) <-> In i (st_list s) /\ of_entry (st_map s) k i.
Proof.
  intros e s k i He Hid.
  destruct (C28_reduce_lemma e s (st_list s) (file_query k) He Hid) as [H _].
  unfold get_items_for. rewrite H. unfold selected, of_file, of_class, of_attr, of_entry, file_query, linked, links. simpl.
  split; intros [H1 H2]; (split; [exact H1|]); tauto.
Qed.

Lemma mark_files : forall e kvs s, env_ok e -> ids_ok (st_list s) -> exists g,
  fold_left (mark_file e) kvs s = with_list (map g (st_list s)) s /\
  (forall i, exists v, g i = add_incfrom v i) /\
  (forall i x, In i (st_list s) -> (In x (it_incfrom (g i)) <->
     In x (it_incfrom i) \/ exists k v, In (k, v) kvs /\ of_entry (st_map s) k i /\ In x v)).
Proof.
  intros e kvs. induction kvs as [|[k v] kvs IH]; intros s He Hid; cbn [fold_left].
  - exists (fun i => i). rewrite map_id. split; [now destruct s|]. split.
    + intro i. exists []. now rewrite add_incfrom_nil.
    + intros i x _. split; [auto|]. intros [H|[k [v [[] _]]]]. exact H.
  - set (h := fun i => if existsb (Nat.eqb (it_id i)) (map it_id (get_items_for e s (file_query k)))
                       then add_incfrom v i else i).
    assert (Hs : mark_file e s (k, v) = with_list (map h (st_list s)) s) by reflexivity.
    rewrite Hs. assert (Hh : forall i, exists w, h i = add_incfrom w i).
    { intro i. unfold h. destruct (existsb _ _); [now exists v|]. exists []. now rewrite add_incfrom_nil. }
    assert (Hhid : forall i, it_id (h i) = it_id i) by (intro i; destruct (Hh i) as [w ->]; reflexivity).
    assert (Hho : forall i, it_origin (h i) = it_origin i) by (intro i; destruct (Hh i) as [w ->]; reflexivity).
    destruct (IH (with_list (map h (st_list s)) s) He) as [g [Eg [Hg Hx]]].
    { simpl. now apply ids_ok_map. }
    exists (fun i => g (h i)). split; [|split].
    + rewrite Eg. simpl. rewrite map_map. now destruct s.
    + intro i. destruct (Hh i) as [w1 E1]. destruct (Hg (h i)) as [w2 E2]. exists (w1 ++ w2).
      rewrite E2, E1. apply add_incfrom_app.
    + intros i x Hi. simpl in Hx. rewrite Hx by (now apply in_map).
      assert (Hone : In x (it_incfrom (h i)) <-> In x (it_incfrom i) \/ (of_entry (st_map s) k i /\ In x v)).
      { unfold h. destruct (existsb _ _) eqn:E.
        - apply existsb_id in E. destruct E as [j [Hj Ej]]. apply file_query_In in Hj; auto.
          assert (j = i) by (apply Hid; tauto). subst j. simpl. rewrite fold_add_set_In. tauto.
        - split; [auto|]. intros [H|[H _]]; [exact H|]. exfalso.
          assert (Ht : existsb (Nat.eqb (it_id i)) (map it_id (get_items_for e s (file_query k))) = true).
          { apply existsb_id. exists i. split; [|reflexivity]. apply file_query_In; auto. }
          congruence. }
      rewrite Hone. unfold of_entry. rewrite Hho. simpl. split.
      * intros [[H|[H1 H2]]|[k2 [v2 [H1 [H2 H3]]]]]; auto; right.
        -- exists k, v. auto.
        -- exists k2, v2. auto.
      * intros [H|[k2 [v2 [[E|H1] [H2 H3]]]]]; auto.
        -- inversion E; subst. left. right. auto.
        -- right. exists k2, v2. auto.
Qed.

Lemma In_dget : forall (mp : lmap) k v, NoDup (dkeys mp) -> In (k, v) mp -> dget k mp = Some v.
Proof.
  intros mp k v. induction mp as [|[k0 v0] mp IH]; intros N H; [destruct H|]. simpl in *.
  inversion N as [|? ? Hn N']; subst. destruct H as [E|H].
  - inversion E; subst. now rewrite str_eqb_refl.
  - destruct (str_eqb k k0) eqn:E; [|now apply IH]. apply str_eqb_eq in E. subst. exfalso. apply Hn.
    change (In k0 (dkeys mp)). apply in_map_iff. exists (k0, v). auto.
Qed.

Lemma parsing_reach : forall e s, parsing e s -> reach e s.
Proof.
  intros e s H. induction H as [nw neg db|n path off forced s r s' _ IH E|n s _ IH Hn|l s _ IH Hl Hd
                               |l s r s' _ IH E|s r s' _ IH E|db s _ IH].
  - exists nw, neg, db. apply steps_refl.
  - destruct IH as [a [b [c IH]]]. exists a, b, c. eapply steps_add; eassumption.
  - destruct IH as [a [b [c IH]]]. exists a, b, c. now apply steps_create.
  - destruct IH as [a [b [c IH]]]. exists a, b, c. apply steps_append; auto. intros i Hi. now apply Hl.
  - destruct IH as [a [b [c IH]]]. exists a, b, c. eapply steps_remove; eassumption.
  - destruct IH as [a [b [c IH]]]. exists a, b, c. eapply steps_finalize; eassumption.
  - destruct IH as [a [b [c IH]]]. exists a, b, c. now apply steps_const.
Qed.

Lemma Forall2_map_In : forall (P : item -> item -> Prop) g l, (forall i, In i l -> P i (g i)) -> Forall2 P l (map g l).
Proof.
  intros P g l. induction l as [|i l IH]; intro H; simpl; constructor; [apply H; now left|].
  apply IH. intros j Hj. apply H. now right.
Qed.

Lemma C69_lemma : forall e s s', env_ok e -> parsing e s -> ~ file_known s [] -> finalize e s = (Ok tt, s') ->
  Forall2 (fun i j => (exists v, j = add_incfrom v i) /\
             forall x, In x (it_incfrom j) <-> In x (it_incfrom i) \/
                       exists k, linked s' k (it_origin i) /\ linked s' k x)
          (st_list s) (st_list s').
Proof.
  intros e s s' He Hp Hne E. pose proof (parsing_reach _ _ Hp) as Hr. apply reach_ids in Hr. destruct Hr as [Hid _].
  apply parsing_inv in Hp; [|exact He]. destruct Hp as [[_ C] N].
  pose proof (finalize_links _ _ _ _ He E N C) as [_ [Ek [_ Hl]]].
  destruct (finalize_grows _ _ _ He N C E) as [Hself _].
  unfold finalize in E. destruct (link_all e _ _) as [[[]|ex|] mp]; inversion E as [E1]; subst.
  destruct (mark_files e mp (with_map mp s) He Hid) as [g [Eg [Hg Hx]]]. rewrite Eg in *. simpl in *.
  clear E Eg. assert (Hall : forall i, In i (st_list s) -> (exists v, g i = add_incfrom v i) /\
    forall x, In x (it_incfrom (g i)) <-> In x (it_incfrom i) \/
       exists k, linked (with_list (map g (st_list s)) (with_map mp s)) k (it_origin i) /\
                 linked (with_list (map g (st_list s)) (with_map mp s)) k x).
  { intros i Hi. split; [apply Hg|]. intro x. rewrite (Hx i x Hi). unfold linked. simpl.
    split; (intros [H|H]; [auto|right]).
    - destruct H as [k [v [H1 [H2 H3]]]]. exists k.
      assert (Hk : In k (dkeys (st_map s))) by (rewrite <- Ek; apply in_map_iff; exists (k, v); auto).
      assert (Hd : dget k mp = Some v) by (apply In_dget; [now rewrite Ek|exact H1]).
      split; [|exists v; auto]. destruct H2 as [->|[->|[v2 [H2 H4]]]].
      + exfalso. apply Hne. now apply file_known_key.
      + destruct (Hself _ Hk) as [v2 [H5 H6]]. simpl in H5. eauto.
      + eauto.
    - destruct H as [k [[v1 [H1 H2]] [v [H3 H4]]]]. exists k, v. split; [now apply dget_In|].
      split; [|exact H4]. right. right. exists v1. auto. }
  now apply Forall2_map_In.
Qed.

Lemma C69_complete_lemma : forall e s s' f j, env_ok e -> parsing e s -> ~ file_known s [] ->
  finalize e s = (Ok tt, s') -> In j (st_list s') -> file_known s f -> linked s f (it_origin j) ->
  In f (it_incfrom j).
Proof.
  intros e s s' f j He Hp Hn E Hj Hf Hl. pose proof (C69_lemma _ _ _ He Hp Hn E) as H.
  assert (H2 : exists i, it_origin j = it_origin i /\ forall x, In x (it_incfrom j) <-> In x (it_incfrom i) \/
                       exists k, linked s' k (it_origin i) /\ linked s' k x).
  { clear -H Hj. induction H as [|i j0 l l' [[v Hv] Hx] _ IH]; [destruct Hj|].
    destruct Hj as [->|Hj]; [|now apply IH]. exists i. split; [now rewrite Hv|exact Hx]. }
  destruct H2 as [i [Eo H2]]. apply H2. right. exists f. split.
  - apply (C41_two_lemma e s s' He Hp E 1); [lia|exact Hf|]. eapply chain_step; [|apply chain_here].
    now rewrite <- Eo.
  - apply (C41_two_lemma e s s' He Hp E 0); [lia|exact Hf|apply chain_here].
Qed.

(** ** C38 *)

Lemma C38_lemma : forall e app recipe,
  let file := abspath (fs_cwd (e_fs e)) in
  applies (file app) (file recipe) ->
  (forall n1 n2 s l1 s1 l2 s2, add_file n1 e recipe 0 None s = (Ok l1, s1) -> l1 <> [] ->
     add_file n2 e app 0 None s1 = (Ok l2, s2) -> l2 <> [] -> linked s2 (file recipe) (file app)) /\
  (forall n1 n2 s l1 s1 l2 s2, add_file n1 e app 0 None s = (Ok l1, s1) -> l1 <> [] ->
     add_file n2 e recipe 0 None s1 = (Ok l2, s2) -> l2 <> [] -> linked s2 (file recipe) (file app)).
Proof.
  intros e app recipe file Ha.
  assert (K : forall n path s l s', add_file n e path 0 None s = (Ok l, s') -> l <> [] ->
            file_known s' (file path) /\ exists i, In i (st_list s') /\ it_origin i = file path).
  { intros n path s l s' E Hl. pose proof (skipped_nil _ _ _ _ _ _ _ _ E Hl) as Hs.
    destruct (add_file_parts _ _ _ _ _ _ _ _ E Hs) as [m [cs [items [s1 [_ [Hg [Hv [_ [Hc Hp]]]]]]]]]. fold file in Hg, Hv, Hp.
    pose proof (leave_map _ _ _ _ _ _ _ Hv) as [_ Hk]. split; [now apply file_known_key|].
    apply leave_cases in Hv. destruct Hv as [f [l0 [_ [EL [_ [_ [_ [_ [_ [_ [_ Hr]]]]]]]]]]].
    destruct (Hr _ eq_refl) as [<- [mx El]]. destruct items as [|i items]; [now subst|].
    simpl in El. exists (set_line (it_line i + mx) i). split.
    - rewrite EL, El. apply in_or_app. right. now left.
    - apply parsed_origin in Hp. now inversion Hp. }
  split; intros n1 n2 s l1 s1 l2 s2 E1 N1 E2 N2; destruct (K _ _ _ _ _ E1 N1) as [K1 K2].
  - exact (proj1 (C37_recipe_first_lemma _ _ _ _ _ _ _ _ (file recipe) E2 N2 (Z.le_refl 0) Ha K1)).
  - exact (proj1 (C37_append_first_lemma _ _ _ _ _ _ _ _ (file app) E2 N2 Ha K2)).
Qed.

(** ** Deciding concrete cases *)

Definition links_of (s : stash) (f : str) : list str := match dget f (st_map s) with Some l => l | None => [] end.
Lemma linked_links_of : forall s f x, linked s f x <-> In x (links_of s f).
Proof.
  intros s f x. unfold linked, links_of. split.
  - intros [l [E H]]. now rewrite E.
  - destruct (dget f (st_map s)) as [l|]; [|intros []]. intro H. exists l. auto.
Qed.
Lemma plain_by_compute : forall n,
  forallb (fun c => negb (existsb (N.eqb c) (cNL :: "^$\()[]{}|*+?%/"))) n = true ->
  contains ".bb" n = false -> plain n.
Proof.
  intros n H1 H2. split.
  - intros c Hc. rewrite forallb_forall in H1. apply H1 in Hc. apply negb_true_iff in Hc. split.
    + intro Hi. assert (Ht : existsb (N.eqb c) (cNL :: "^$\()[]{}|*+?%/") = true); [|congruence].
      apply existsb_exists. exists c. split; [now right|apply N.eqb_refl].
    + intros ->. assert (Ht : existsb (N.eqb cNL) (cNL :: "^$\()[]{}|*+?%/") = true); [|congruence].
      apply existsb_exists. exists cNL. split; [now left|apply N.eqb_refl].
  - intros a b ->. rewrite contains_false in H2. now apply (H2 a b).
Qed.
