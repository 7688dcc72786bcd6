(** * Proofs about the order of recipes and bbappends *)

From Verif Require Import PyStr Regex Patterns PyPath Res Inline Const Item Lines Stash
  StrFacts LinesFacts ParseFacts HistFacts ReachFacts MapFacts AppendFacts Spec_Query Spec_Files QueryFacts Proofs_Query Spec_After.
From Coq Require Import Sorting.Sorted.

(** ** Files are only added with the line of the statement as offset *)

Definition clip (addf : addfile_t) : addfile_t :=
  fun p o f => if (0 <=? o)%Z then addf p o f else ret [].

Lemma clip_pos : forall addf p o f, (0 <= o)%Z -> clip addf p o f = addf p o f.
Proof. intros addf p o f H. unfold clip. destruct (Z.leb_spec 0 o); [reflexivity|lia]. Qed.

Lemma bindM_same : forall {A B} (m m' : M A) (f g : A -> M B) s, m s = m' s -> (forall x t, f x t = g x t) ->
  bindM m f s = bindM m' g s.
Proof. intros A B m m' f g s H1 H2. unfold bindM. rewrite H1. destruct (m' s) as [[x|ex|] t]; auto. Qed.

Lemma inherit_clip : forall e addf locs file inhname line l paths off s, (0 <= line)%Z ->
  inherit_loop e addf locs file inhname line l paths off s = inherit_loop e (clip addf) locs file inhname line l paths off s.
Proof.
  intros e addf locs file inhname line l. induction l as [|x l IH]; intros paths off s Hl; cbn [inherit_loop]; [reflexivity|].
  apply bindM_same; [reflexivity|]. intros p t. destruct p as [|c p]; [now apply IH|].
  apply bindM_same; [reflexivity|]. intros q u. destruct q; [now apply IH|].
  apply bindM_same; [now rewrite clip_pos by exact Hl|]. intros r v. now apply IH.
Qed.

Lemma handle_clip : forall e addf p file line k mt s, (0 <= line)%Z ->
  handle e addf p file line k mt s = handle e (clip addf) p file line k mt s.
Proof.
  intros e addf p file line k mt s Hl. destruct k; try reflexivity; cbn [handle].
  - apply bindM_same; [reflexivity|]. intros x t. apply bindM_same; [now apply inherit_clip|]. reflexivity.
  - apply bindM_same; [reflexivity|]. intros x t. apply bindM_same; [now apply inherit_clip|]. reflexivity.
  - apply bindM_same; [reflexivity|]. intros x t. apply bindM_same; [reflexivity|]. intros path u.
    destruct path as [|c path]; [reflexivity|]. apply bindM_same; [reflexivity|]. intros ign v.
    destruct ign; [reflexivity|]. apply bindM_same; [now rewrite clip_pos by exact Hl|]. reflexivity.
Qed.

Lemma try_clip : forall e addf p file line cnt l s, (0 <= line)%Z ->
  try_kinds e addf p file line cnt l s = try_kinds e (clip addf) p file line cnt l s.
Proof.
  intros e addf p file line cnt l. induction l as [|[k r] l IH]; intros s Hl; cbn [try_kinds]; [reflexivity|].
  destruct (re_match r cnt) as [mt|]; [|now apply IH]. unfold bindM. rewrite handle_clip by exact Hl.
  destruct (handle e (clip addf) p file line k mt s) as [[[x|]|ex|] s1]; try reflexivity. now apply IH.
Qed.

Lemma chunks_clip : forall e addf file off cs inc new s, Forall (fun c => (0 <= ck_line c)%Z) cs ->
  parse_chunks e addf file off inc new cs s = parse_chunks e (clip addf) file off inc new cs s.
Proof.
  intros e addf file off cs. induction cs as [|c cs IH]; intros inc new s H; cbn [parse_chunks]; [reflexivity|].
  inversion H as [|? ? H1 H2]; subst. unfold bindM. rewrite try_clip by exact H1.
  destruct (try_kinds e (clip addf) _ _ _ _ _ s) as [[x|ex|] s1]; [|reflexivity|reflexivity]. now rewrite IH.
Qed.

Lemma chunks_pos : forall off neg cs num, (0 <= off)%Z -> (1 <= num)%Z -> chunks_ok off neg num cs ->
  Forall (fun c => (1 + off <= ck_line c)%Z) cs.
Proof.
  intros off neg cs. induction cs as [|c cs IH]; intros num Ho Hn H; constructor.
  - destruct H as [[H _] _]. lia.
  - destruct H as [_ [_ H]]. eapply IH; [exact Ho| |exact H]. lia.
Qed.

Lemma prepared_pos : forall e file off neg cs, (0 <= off)%Z -> prepare_file e file off neg = Ok cs ->
  Forall (fun c => (1 + off <= ck_line c)%Z) cs.
Proof.
  intros e file off neg cs Ho H. unfold prepare_file in H. destruct (fs_read (e_fs e) file) as [t| | |]; try discriminate.
  - apply prepare_text_ok in H. destruct H as [_ H]. exact (chunks_pos off neg cs 1 Ho ltac:(lia) H).
  - inversion H; subst. constructor.
Qed.

Lemma parsed_pos : forall file off cs inc new l, (0 <= inc)%Z -> (0 <= off)%Z -> Forall (fun c => (1 + off <= ck_line c)%Z) cs ->
  parsed file off inc new cs l -> Forall (fun i => (1 <= it_line i)%Z /\ (1 <= it_infile i)%Z /\ it_origin i = file) l.
Proof.
  intros file off cs. induction cs as [|c cs IH]; intros inc new [|i l] Hi Ho Hc H; cbn [parsed] in H; try contradiction; constructor.
  - inversion Hc; subst. destruct H as [_ [_ [_ [E1 [_ [E2 [E3 _]]]]]]]. repeat split; [lia|lia|exact E1].
  - inversion Hc; subst. destruct H as [_ [_ [_ [_ [_ [_ [_ [_ [d [Hd H]]]]]]]]]]. eapply IH; [|exact Ho|eassumption|exact H]. lia.
Qed.

(** ** The invariant *)

Definition inv (s : stash) : Prop :=
  (forall i j, In i (st_list s) -> In j (st_list s) -> applies (it_origin i) (it_origin j) -> (it_line j < it_line i)%Z) /\
  (forall i, In i (st_list s) -> In (it_origin i) (dkeys (st_map s)) /\ (1 <= it_infile i)%Z).

Definition kept (_ : list item) (s s' : stash) : Prop := inv s -> inv s'.

Lemma inv_same : forall s s', st_list s' = st_list s -> (forall k, In k (dkeys (st_map s)) -> In k (dkeys (st_map s'))) ->
  inv s -> inv s'.
Proof.
  intros s s' El Hk [H1 H2]. split; rewrite El; [exact H1|]. intros i Hi. destruct (H2 i Hi) as [H3 H4]. split; [now apply Hk|exact H4].
Qed.

Lemma applies_ends : forall x k, applies x k -> endswith ".bbappend" x = true /\ endswith ".bb" k = true /\
  endswith ".bbappend" k = false /\ endswith ".bb" x = false.
Proof.
  intros x k H. destruct (applies_append x k H) as [_ [_ [A [B C]]]]. repeat split; auto.
  destruct (endswith ".bb" x) eqn:E; [|reflexivity]. apply endswith_spec in E. apply endswith_spec in A.
  destruct A as [a ->]. destruct E as [b E]. apply (f_equal (@rev N)) in E. rewrite !rev_app_distr in E. discriminate.
Qed.

Lemma raise_line : forall bn mx i, (it_line i <= it_line (recipe_raise bn mx i))%Z /\
  (endswith ".bbappend" (it_origin i) = false -> recipe_raise bn mx i = i) /\
  it_origin (recipe_raise bn mx i) = it_origin i /\ it_infile (recipe_raise bn mx i) = it_infile i.
Proof.
  intros bn mx i. unfold recipe_raise. destruct (endswith ".bbappend" (it_origin i)).
  - destruct (dyn_pattern _) as [rx|]; [destruct (matched _)|]; cbn; repeat split; try lia; discriminate.
  - repeat split; lia.
Qed.
Lemma raise_matched : forall file mx i, endswith ".bbappend" (it_origin i) = true -> recipe_matches file (it_origin i) ->
  (it_infile i + mx <= it_line (recipe_raise (replace ".bb" [] (basename file)) mx i))%Z.
Proof.
  intros file mx i Ha [rx [H1 H2]]. unfold recipe_raise. rewrite Ha, H1, H2. cbn. lia.
Qed.

Lemma inv_leave : forall e file forced items s r s',
  Forall (fun i => (1 <= it_line i)%Z /\ (1 <= it_infile i)%Z /\ it_origin i = file) items ->
  inv s -> leave e file forced items s = (r, s') -> inv s'.
Proof.
  intros e file forced items s r s' Hit Hs H. destruct (leave_map e file forced items s r s' H) as [Hx Hf].
  assert (Hk : forall k, In k (dkeys (st_map s)) -> In k (dkeys (st_map s'))).
  { destruct (extends_keys _ _ _ Hx) as [ks E]. intros k Hin. rewrite E. apply in_or_app. now left. }
  rewrite Forall_forall in Hit.
  unfold leave in H. unfold bindM at 1 in H. unfold bindM at 1 in H.
  set (s0 := with_map (link_file file forced (st_map s)) s) in *.
  assert (H0 : inv s0).
  { apply (inv_same s); [reflexivity| |exact Hs]. intros k Hin. subst s0. change (In k (dkeys (link_file file forced (st_map s)))).
    destruct (extends_keys _ _ _ (link_file_ext file forced (st_map s))) as [ks E]. rewrite E. apply in_or_app. now left. }
  clear Hx. destruct (match_appends file items s0) as [[items2|ex|] s1] eqn:Em.
  2,3: (inversion H; subst r s'; assert (El : st_list s1 = st_list s);
    [unfold match_appends in Em; destruct (endswith ".bbappend" file);
      [destruct (dyn_pattern _); [destruct (fold_left _ _ _); discriminate|inversion Em; reflexivity]
      |destruct (endswith ".bb" file); [destruct (link_recipe _ _ _ _ _) as [[l0 mp]|ex0|]; inversion Em; reflexivity|discriminate]]
    |exact (inv_same s s1 El Hk Hs)]).
  (* the list at the end *)
  assert (Hend : st_list s' = st_list s1 \/ st_list s' = st_list s1 ++ items2).
  { unfold bindM at 1 in H. destruct (add_distro_machine e file s1) as [[u|ex|] s2] eqn:Ed; apply add_distro_machine_only in Ed.
    - right. unfold bindM, ret in H. inversion H; subst. cbn. rewrite Ed. reflexivity.
    - left. inversion H; subst. rewrite Ed. reflexivity.
    - left. inversion H; subst. rewrite Ed. reflexivity. }
  destruct H0 as [I1 I2].
  assert (Goal2 : forall l1, (forall i, In i l1 -> exists j, In j (st_list s) /\ it_origin i = it_origin j /\ it_infile i = it_infile j) ->
     (forall i, In i items2 -> it_origin i = file /\ (1 <= it_infile i)%Z) -> st_list s1 = l1 ->
     (forall i j, In i (l1 ++ items2) -> In j (l1 ++ items2) -> applies (it_origin i) (it_origin j) -> (it_line j < it_line i)%Z) -> inv s').
  { intros l1 A B C D. assert (Hsub : forall i, In i (st_list s') -> In i (l1 ++ items2)).
    { intros i Hi. destruct Hend as [E|E]; rewrite E, C in Hi; [apply in_or_app; now left|exact Hi]. }
    split; [intros i j Hi Hj; apply D; now apply Hsub|]. intros i Hi. apply Hsub in Hi. apply in_app_or in Hi. destruct Hi as [Hi|Hi].
    - destruct (A i Hi) as [j [Hj [E1 E2]]]. destruct (proj2 Hs j Hj) as [H3 H4]. rewrite E1, E2. split; [now apply Hk|exact H4].
    - destruct (B i Hi) as [E1 E2]. rewrite E1. now split. }
  unfold match_appends in Em. destruct (endswith ".bbappend" file) eqn:Ea.
  - destruct (dyn_pattern (append_pattern file)) as [rx|] eqn:Erx; [|discriminate].
    destruct (fold_left _ (dkeys (st_map s0)) (st_map s0, 0%Z)) as [mp mx] eqn:El. inversion Em; subst items2 s1. clear Em.
    apply (Goal2 (st_list s)); [intros i Hi; now exists i| |reflexivity|].
    + intros i Hi. apply in_map_iff in Hi. destruct Hi as [j [<- Hj]]. destruct (Hit j Hj) as [_ [H3 H4]]. now split.
    + destruct (link_append_max _ _ _ _ _ _ _ _ El) as [M1 M2]. intros i j Hi Hj Hap.
      destruct (applies_ends _ _ Hap) as [_ [_ [Hb _]]]. apply in_app_or in Hj. destruct Hj as [Hj|Hj].
      2:{ apply in_map_iff in Hj. destruct Hj as [j0 [<- Hj]]. destruct (Hit j0 Hj) as [_ [_ H4]]. cbn in Hb. rewrite H4 in Hb. congruence. }
      apply in_app_or in Hi. destruct Hi as [Hi|Hi]; [now apply I1|].
      apply in_map_iff in Hi. destruct Hi as [i0 [<- Hi]]. destruct (Hit i0 Hi) as [P1 [_ P3]]. cbn [it_line set_line].
      assert (it_line j <= mx)%Z; [|lia]. cbn in Hap. rewrite P3 in Hap.
      destruct (applies_append _ _ Hap) as [[rx' [Q1 Q2]] _]. rewrite Erx in Q1. inversion Q1; subst rx'.
      apply (M2 (it_origin j) j); [|exact Q2|exact Hj|reflexivity]. exact (proj1 (I2 j Hj)).
  - destruct (endswith ".bb" file) eqn:Eb.
    + destruct (link_recipe _ _ _ _ _) as [[l0 mp]|ex|] eqn:El; inversion Em; subst items2 s1. clear Em.
      apply link_recipe_list in El. change (st_list s0) with (st_list s) in El.
      apply (Goal2 l0); [| |reflexivity|].
      * intros i Hi. rewrite El in Hi. apply in_map_iff in Hi. destruct Hi as [j [<- Hj]]. exists j. split; [exact Hj|].
        destruct (raise_line (replace ".bb" [] (basename file)) (max_line items) j) as [_ [_ [R1 R2]]]. now split.
      * intros i Hi. destruct (Hit i Hi) as [_ [H3 H4]]. now split.
      * intros i j Hi Hj Hap. destruct (applies_ends _ _ Hap) as [Ha [_ [Hb Hc]]]. apply in_app_or in Hi. destruct Hi as [Hi|Hi].
        2:{ destruct (Hit i Hi) as [_ [_ H4]]. rewrite H4 in Ha. congruence. }
        rewrite El in Hi, Hj. apply in_map_iff in Hi. destruct Hi as [i0 [<- Hi]].
        destruct (raise_line (replace ".bb" [] (basename file)) (max_line items) i0) as [L1 [L2 [L3 L4]]]. rewrite L3 in Hap, Ha.
        apply in_app_or in Hj. destruct Hj as [Hj|Hj].
        -- apply in_map_iff in Hj. destruct Hj as [j0 [<- Hj]].
           destruct (raise_line (replace ".bb" [] (basename file)) (max_line items) j0) as [_ [K2 [K3 _]]].
           rewrite K3 in Hap, Hb. rewrite (K2 Hb). pose proof (I1 i0 j0 Hi Hj Hap). lia.
        -- destruct (Hit j Hj) as [_ [_ H4]]. rewrite H4 in Hap. destruct (applies_append _ _ Hap) as [_ [Hm _]].
           pose proof (raise_matched file (max_line items) i0 Ha Hm). pose proof (max_line_ge items j Hj).
           pose proof (proj2 (I2 i0 Hi)). lia.
    + inversion Em; subst items2 s1. apply (Goal2 (st_list s)); [intros i Hi; now exists i| |reflexivity|].
      * intros i Hi. destruct (Hit i Hi) as [_ [H3 H4]]. now split.
      * intros i j Hi Hj Hap. destruct (applies_ends _ _ Hap) as [Ha [Hb [_ _]]].
        apply in_app_or in Hi. destruct Hi as [Hi|Hi]; [|destruct (Hit i Hi) as [_ [_ H4]]; rewrite H4 in Ha; congruence].
        apply in_app_or in Hj. destruct Hj as [Hj|Hj]; [|destruct (Hit j Hj) as [_ [_ H4]]; rewrite H4 in Hb; congruence].
        now apply I1.
Qed.

Lemma inv_add_file : forall n e path off forced s r s', (0 <= off)%Z ->
  add_file n e path off forced s = (r, s') -> inv s -> inv s'.
Proof.
  induction n as [|n IH]; intros e path off forced s r s' Ho H Hs; [inversion H; now subst|].
  rewrite add_file_eq in H. cbv zeta in H. destruct (skipped e path s); [inversion H; now subst|].
  set (file := abspath (fs_cwd (e_fs e)) path) in *.
  assert (He : inv (enter file s)) by (apply (inv_same s); auto).
  unfold bindM at 1 in H.
  destruct (get_items e (fun p o f => add_file n e p o (Some f)) file off (enter file s)) as [rg s1] eqn:Eg.
  assert (H1 : inv s1).
  { pose proof Eg as Eg1. unfold get_items in Eg1. unfold bindM, liftR in Eg1.
    destruct (prepare_file e file off (st_neg (enter file s))) as [cs|ex|] eqn:Ep.
    2,3: (inversion Eg1; now subst).
    pose proof (prepared_pos _ _ _ _ _ Ho Ep) as Hp. rewrite chunks_clip in Eg1.
    2:{ eapply Forall_impl; [|exact Hp]. cbv beta. intros c Hc. lia. }
    refine (rel_chunks e kept _ _ _ _ (clip (fun p o f => add_file n e p o (Some f))) file off cs 0 _ _ _ _ _ Eg1 He).
    - intros x Hx. exact Hx.
    - intros p q s2 s3 s4 A B C. now apply B, A.
    - intros p s2 s3 A. exact A.
    - intros s2 i h1 h2. exact (inv_same s2 (with_next (S (st_next s2)) s2) eq_refl (fun k h => h)).
    - intros p o f s2 r2 s3 E. unfold clip in E. destruct (Z.leb_spec 0 o).
      + intro Hi. eapply IH; eassumption.
      + inversion E; subst. intro Hi. exact Hi. }
  destruct rg as [items|ex|].
  - pose proof Eg as Eg2. apply get_items_sat in Eg2; [|apply add_file_addf_ok]. destruct Eg2 as [cs [Ep Hps]].
    eapply inv_leave; [|exact H1|exact H]. eapply parsed_pos; [| | |exact Hps]; [lia|exact Ho|].
    exact (prepared_pos _ _ _ _ _ Ho Ep).
  - inversion H; now subst.
  - inversion H; now subst.
Qed.

Lemma loaded_reach : forall e s, loaded e s -> reach e s.
Proof.
  intros e s H. induction H as [nw neg db|n path off forced s r s' Ho H IH E|l s r s' H IH E|s r s' H IH E|db s H IH].
  - exists nw, neg, db. apply steps_refl.
  - destruct IH as (nw & neg & db & IH). exists nw, neg, db. eapply steps_add; eassumption.
  - destruct IH as (nw & neg & db & IH). exists nw, neg, db. eapply steps_remove; eassumption.
  - destruct IH as (nw & neg & db & IH). exists nw, neg, db. eapply steps_finalize; eassumption.
  - destruct IH as (nw & neg & db0 & IH). exists nw, neg, db0. now apply steps_const.
Qed.

Lemma loaded_inv : forall e s, loaded e s -> inv s.
Proof.
  intros e s H. induction H as [nw neg db|n path off forced s r s' Ho H IH E|l s r s' H IH E|s r s' H IH E|db s H IH].
  - split; [intros i j []|intros i []].
  - eapply inv_add_file; eassumption.
  - apply remove_items_shape in E. destruct E as [Hi ->]. destruct IH as [I1 I2]. split.
    + cbn. intros i j Hin Hjn. apply I1; now apply Hi.
    + cbn. intros i Hin. apply I2. now apply Hi.
  - pose proof (reach_map_NoDup e s (loaded_reach e s H)) as Hn.
    apply finalize_shape in E. destruct E as (g & mp & Hg & -> & El). apply link_all_keys in El; [|exact Hn].
    destruct IH as [I1 I2]. split.
    + intros i j Hin Hjn. apply in_map_iff in Hin. destruct Hin as [i0 [<- Hin]]. apply in_map_iff in Hjn. destruct Hjn as [j0 [<- Hjn]].
      destruct (Hg i0) as [v ->]. destruct (Hg j0) as [w ->]. cbn. now apply I1.
    + intros i Hin. apply in_map_iff in Hin. destruct Hin as [i0 [<- Hin]]. destruct (Hg i0) as [v ->].
      change (In (it_origin i0) (dkeys mp) /\ (1 <= it_infile i0)%Z). rewrite El. now apply I2.
  - exact IH.
Qed.

Lemma C37_always_lemma : forall e s i j, loaded e s -> In i (st_list s) -> In j (st_list s) -> applies (it_origin i) (it_origin j) ->
  (it_line j < it_line i)%Z.
Proof. intros e s i j H. exact (proj1 (loaded_inv e s H) i j). Qed.

Lemma C37_order_lemma : forall e s q a i b j, env_ok e -> loaded e s -> get_items_for e s q = a ++ i :: b ->
  applies (it_origin i) (it_origin j) -> ~ In j b.
Proof.
  intros e s q a i b j He Hs E Hap Hj. destruct (C28_lemma e s q He (loaded_reach e s Hs)) as [H1 [_ H3]]. rewrite E in H1, H3.
  assert (Hi : In i (st_list s)) by (apply H1; apply in_or_app; right; now left).
  assert (Hjl : In j (st_list s)) by (apply H1; apply in_or_app; right; now right).
  pose proof (C37_always_lemma e s i j Hs Hi Hjl Hap) as Hl. clear H1 E.
  induction a as [|x a IH]; cbn [List.app] in H3; inversion H3 as [|? ? S F]; subst; [|now apply IH].
  rewrite Forall_forall in F. specialize (F j Hj). unfold by_line in F. lia.
Qed.
