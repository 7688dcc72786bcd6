(** * Facts about ExpandVar *)

From Verif Require Import PyStr Regex Patterns PyPath Res Const Item Lines Stash StrFacts ReFacts LinesFacts NameFacts ExnFacts
  ReachFacts QueryFacts ExpandFacts ExpandText Spec_Query Proofs_Query Spec_Expand Proofs_Expand.
From Coq Require Import Permutation Sorted.

Lemma is_immediate_iff : forall subs, is_immediate subs = true <-> forall x, In x ["append"; "prepend"; "remove"] -> ~ In x subs.
Proof.
  intro subs. unfold is_immediate. rewrite negb_true_iff. split.
  - intros H x Hx Hi. assert (E : existsb (fun x => mem_str x modifiers) subs = true); [|congruence].
    apply existsb_exists. exists x. split; [exact Hi|]. destruct Hx as [<-|[<-|[<-|[]]]]; reflexivity.
  - intro H. destruct (existsb _ subs) eqn:E; [|reflexivity]. exfalso. apply existsb_exists in E. destruct E as [x [Hx E]].
    apply mem_str_In in E. apply (H x); [|exact Hx].
    unfold modifiers in E. simpl in *. tauto.
Qed.
Lemma not_immediate : forall subs x, In x ["append"; "prepend"; "remove"] -> In x subs -> is_immediate subs = false.
Proof.
  intros subs x Hx Hi. destruct (is_immediate subs) eqn:E; [|reflexivity]. exfalso. pose proof (proj1 (is_immediate_iff subs) E) as E2. now apply (E2 x).
Qed.
Lemma mem_str_false : forall (x : str) l, ~ In x l -> mem_str x l = false.
Proof. intros x l H. destruct (mem_str x l) eqn:E; [|reflexivity]. apply mem_str_In in E. contradiction. Qed.
Lemma mem_str_true : forall (x : str) l, In x l -> mem_str x l = true.
Proof. intros x l H. now apply mem_str_In. Qed.

(** *** Statements about another variable change nothing *)

Lemma dget_touch : forall n m (x : exp_t), dget n (if dhas m x then x else dset m None x) = dget n x \/ n = m.
Proof.
  intros n m x. destruct (str_eqb n m) eqn:E; [right; now apply str_eqb_eq|]. left. destruct (dhas m x); [reflexivity|].
  apply dget_dset_other. intro; subst. now rewrite str_eqb_refl in E.
Qed.
Lemma pass1_other : forall n i (x : exp_t), ~ about n i -> dget n (exp_pass1 x i) = dget n x.
Proof.
  intros n i x H. unfold about in H. unfold exp_pass1. destruct (it_pay i) eqn:Ep;
  try (destruct (is_immediate (var_subs i)); [|reflexivity];
       assert (Hn : n <> item_name_nomod i) by congruence;
       assert (Ht : forall b : bool, dget n (if b then x else dset (item_name_nomod i) None x) = dget n x)
         by (intros [|]; [reflexivity|now apply dget_dset_other]);
       repeat match goal with |- context [if ?c then dset _ _ _ else _] => destruct c end;
       rewrite ?dget_dset_other by exact Hn; apply Ht).
  destruct flag as [|c f]; [|reflexivity]. apply dget_ddel_other. intro E. apply H. now split.
Qed.

Lemma pass2_other : forall n i (x : exp_t), ~ about n i -> dget n (exp_pass2 x i) = dget n x.
Proof.
  intros n i x H. unfold about in H. unfold exp_pass2. destruct (it_pay i) eqn:Ep; try reflexivity;
  (destruct (is_immediate (var_subs i)); [reflexivity|];
   assert (Hn : n <> item_name_nomod i) by congruence;
   repeat match goal with |- context [if ?c then dset _ _ _ else _] => destruct c end;
   rewrite ?dget_dset_other by exact Hn; reflexivity).
Qed.
Lemma pass3_other : forall n i (x : exp_t), ~ about n i -> dget n (exp_pass3 x i) = dget n x.
Proof.
  intros n i x H. unfold about in H. unfold exp_pass3. destruct (it_pay i) eqn:Ep; try reflexivity;
  (destruct (is_immediate (var_subs i)); [reflexivity|];
   assert (Hn : n <> item_name_nomod i) by congruence;
   assert (Ht : forall b : bool, dget n (if b then x else dset (item_name_nomod i) None x) = dget n x)
     by (intros [|]; [reflexivity|now apply dget_dset_other]);
   destruct (mem_str "remove" (var_subs i)); rewrite ?dget_dset_other by exact Hn; apply Ht).
Qed.

(** *** Keys stay different *)

Lemma nodup_touch : forall n (b : bool) (x : exp_t), NoDup (dkeys x) -> NoDup (dkeys (if b then x else dset n None x)).
Proof. intros n [|] x H; [exact H|now apply NoDup_dset]. Qed.
Lemma pass1_nodup : forall i x, NoDup (dkeys x) -> NoDup (dkeys (exp_pass1 x i)).
Proof.
  intros i x H. unfold exp_pass1. destruct (it_pay i) eqn:Ep;
  try (destruct (is_immediate (var_subs i)); [|exact H];
       pose proof (nodup_touch (item_name_nomod i) (dhas (item_name_nomod i) x) x H);
       repeat match goal with |- context [if ?c then dset _ _ _ else _] => destruct c end; try apply NoDup_dset; assumption).
  destruct flag as [|c f]; [|exact H]. now apply NoDup_ddel.
Qed.
Lemma pass2_nodup : forall i x, NoDup (dkeys x) -> NoDup (dkeys (exp_pass2 x i)).
Proof.
  intros i x H. unfold exp_pass2. destruct (it_pay i) eqn:Ep; try exact H;
  (destruct (is_immediate (var_subs i)); [exact H|];
       repeat match goal with |- context [if ?c then dset _ _ _ else _] => destruct c end; try apply NoDup_dset; assumption).
Qed.
Lemma pass3_nodup : forall i x, NoDup (dkeys x) -> NoDup (dkeys (exp_pass3 x i)).
Proof.
  intros i x H. unfold exp_pass3. destruct (it_pay i) eqn:Ep; try exact H;
  (destruct (is_immediate (var_subs i)); [exact H|];
       pose proof (nodup_touch (item_name_nomod i) (dhas (item_name_nomod i) x) x H);
       destruct (mem_str "remove" (var_subs i)); try apply NoDup_dset; assumption).
Qed.
Lemma fold_nodup : forall (f : exp_t -> item -> exp_t) l x, (forall i x, NoDup (dkeys x) -> NoDup (dkeys (f x i))) ->
  NoDup (dkeys x) -> NoDup (dkeys (fold_left f l x)).
Proof. intros f l. induction l as [|i l IH]; intros x Hf Hx; [exact Hx|]. simpl. apply IH; auto. Qed.
Lemma init_nodup : forall s file, NoDup (dkeys (exp_init s file)).
Proof.
  intros s file. unfold exp_init. assert (G : forall l (x : exp_t), NoDup (dkeys x) ->
    NoDup (dkeys (fold_left (fun x kv => dset (fst kv) (Some (snd kv)) x) l x))).
  { induction l as [|kv l IH]; intros x Hx; [exact Hx|]. simpl. apply IH. now apply NoDup_dset. }
  apply G. simpl. repeat constructor; simpl; intuition discriminate.
Qed.

(** *** Statements about the variable *)

(** The entry of a variable: without a value it may be there or not. *)
Definition entry (n : str) (x : exp_t) (cur : option str) : Prop :=
  dget n x = option_map Some cur \/ (cur = None /\ dget n x = Some None).
Lemma entry_some : forall n x v, entry n x (Some v) <-> dget n x = Some (Some v).
Proof. intros n x v. split; [intros [H|[H _]]; [exact H|discriminate H]|now left]. Qed.
Lemma entry_txt : forall n x cur, entry n x cur -> exp_str n x = txt cur.
Proof. intros n x cur [H|[E H]]; unfold exp_str; rewrite H; [destruct cur|subst cur]; reflexivity. Qed.
Lemma entry_set : forall n x v, entry n (dset n (Some v) x) (Some v).
Proof. intros n x v. left. apply dget_dset_same. Qed.
Lemma entry_both : forall n x v (P : Prop), entry n (dset n (Some v) x) (Some v) /\ (dget n (dset n (Some v) x) = Some None -> P).
Proof. intros n x v P. split; [apply entry_set|]. rewrite dget_dset_same. discriminate. Qed.
Lemma touch_same : forall n (x : exp_t) (cur : option str), entry n x cur ->
  dget n (if dhas n x then x else dset n None x) = Some cur.
Proof.
  intros n x cur H. rewrite dhas_dget. destruct H as [H|[-> H]]; rewrite H; [|exact H].
  destruct cur as [v|]; simpl; [exact H|]. apply dget_dset_same.
Qed.
Lemma entry_is : forall n x cur, dget n x = Some cur -> entry n x cur.
Proof. intros n x [v|] H; [now left|now right]. Qed.
Lemma left_over_In : forall evs, left_over evs -> In Ignored evs.
Proof. intros evs (a & b & -> & _). apply in_or_app. right. now left. Qed.
Lemma left_over_cons : forall x evs, left_over evs -> left_over (x :: evs).
Proof. intros x evs (a & b & -> & H). now exists (x :: a), b. Qed.
Lemma left_over_after : forall a b, left_over (a ++ Unsets :: b) -> In Ignored b.
Proof.
  intros a. induction a as [|x a IH]; intros b (c & d & E & H).
  - destruct c as [|y c]; [discriminate E|]. injection E as _ ->. apply in_or_app. right. now left.
  - destruct c as [|y c]; cbn in E; injection E as E1 E2.
    + subst d. exfalso. apply H. apply in_or_app. right. now left.
    + apply IH. now exists c, d.
Qed.

Lemma op_cases : forall op, (exists f, operator op f) \/ (forall f, ~ operator op f).
Proof.
  intro op. destruct (in_dec (list_eq_dec N.eq_dec) op [" = "; " := "; " ?= "; " ??= "; " += "; " =+ "; " .= "; " =. "]) as [H|H].
  - left. simpl in H. repeat (destruct H as [<-|H]; [eexists; constructor|]). destruct H.
  - right. intros f Hf. apply H. destruct Hf; simpl; tauto.
Qed.
Lemma op_none : forall op, (forall f, ~ operator op f) ->
  mem_str op [" = "; " := "] = false /\ forall x, In x ([" ?= "; " ??= "; " += "; " =+ "; " .= "; " =. "] : list str) -> str_eqb op x = false.
Proof.
  intros op H. split.
  - destruct (mem_str op [" = "; " := "]) eqn:E; [|reflexivity]. exfalso. apply mem_str_In in E.
    destruct E as [E|[E|[]]]; [apply (H Sets)|apply (H Sets)]; rewrite <- E; constructor.
  - intros x Hx. destruct (str_eqb op x) eqn:E; [|reflexivity]. exfalso. apply str_eqb_eq in E. subst x.
    repeat (destruct Hx as [Hx|Hx]; [subst op; eapply H; constructor|]). destruct Hx.
Qed.

Lemma pass1_does : forall n i ev (x : exp_t) (cur : option str), NoDup (dkeys x) -> entry n x cur -> does n i ev ->
  entry n (exp_pass1 x i) (at_once cur ev) /\ (dget n (exp_pass1 x i) = Some None -> (dget n x = Some None /\ ev <> Unsets) \/ ev = Ignored).
Proof.
  intros n i ev x cur Hd Hx H. unfold exp_pass1.
  destruct H as [Ep|m sub subs v op rawn f Ep En Hs Hb Ho|m sub subs v op rawn Ep En Hs Hb|m sub subs v op rawn Ep En Hs Hb Ho
                |m sub subs v op rawn Ep En H1 H2|m sub subs v op rawn Ep En H1 H2 H3
                |m sub subs v op rawn Ep En H1 H2 H3].
  - rewrite Ep. simpl. rewrite dget_ddel_same by exact Hd. split; [left; now apply dget_ddel_same|discriminate].
  - rewrite Ep. assert (Es : var_subs i = subs) by (unfold var_subs; now rewrite Ep).
    assert (Eo : var_op i = op) by (unfold var_op; now rewrite Ep). rewrite Es, Eo, En.
    rewrite (proj2 (is_immediate_iff subs) Hs), Hb. cbv zeta.
    pose proof (touch_same n x cur Hx) as Ht. set (y := if dhas n x then x else dset n None x) in *. change (dget n y = Some cur) in Ht.
    assert (Et : exp_str n y = txt cur) by (unfold exp_str; rewrite Ht; destruct cur; reflexivity).
    rewrite Ht, Et. destruct Ho; try exact (entry_both n y _ _);
      destruct cur as [w|]; try exact (entry_both n y _ _);
      (split; [exact (entry_is n y _ Ht)|]); intro E; change (dget n y = Some None) in E; congruence.
  - rewrite Ep. assert (Es : var_subs i = subs) by (unfold var_subs; now rewrite Ep). rewrite Es, En.
    rewrite (proj2 (is_immediate_iff subs) Hs), Hb. cbv zeta. split; [apply entry_set|now rewrite dget_dset_same].
  - rewrite Ep. assert (Es : var_subs i = subs) by (unfold var_subs; now rewrite Ep).
    assert (Eo : var_op i = op) by (unfold var_op; now rewrite Ep). rewrite Es, Eo, En.
    rewrite (proj2 (is_immediate_iff subs) Hs), Hb. cbv zeta. destruct (op_none op Ho) as [O1 O2]. rewrite O1.
    rewrite !O2 by (simpl; tauto). cbn [andb]. split; [apply entry_is; now apply touch_same|now right].
  - rewrite Ep. assert (Es : var_subs i = subs) by (unfold var_subs; now rewrite Ep).
    rewrite Es, (not_immediate subs "append") by (simpl; auto). split; [exact Hx|]. intro E. left. split; [exact E|discriminate].
  - rewrite Ep. assert (Es : var_subs i = subs) by (unfold var_subs; now rewrite Ep).
    rewrite Es, (not_immediate subs "prepend") by (simpl; auto). split; [exact Hx|]. intro E. left. split; [exact E|discriminate].
  - rewrite Ep. assert (Es : var_subs i = subs) by (unfold var_subs; now rewrite Ep).
    rewrite Es, (not_immediate subs "remove") by (simpl; auto). split; [exact Hx|]. intro E. left. split; [exact E|discriminate].
Qed.
Definition removes (x : event) : bool := match x with LateRemoves _ => true | _ => false end.
Lemma pass2_does : forall n i ev (x : exp_t) (cur : option str), entry n x cur -> does n i ev ->
  (cur = None -> removes ev = false) ->
  entry n (exp_pass2 x i) (late_add cur ev) /\ (dget n (exp_pass2 x i) = Some None -> dget n x = Some None).
Proof.
  intros n i ev x cur Hx H Hr. unfold exp_pass2.
  destruct H as [Ep|m sub subs v op rawn f Ep En Hs Hb Ho|m sub subs v op rawn Ep En Hs Hb|m sub subs v op rawn Ep En Hs Hb Ho
                |m sub subs v op rawn Ep En H1 H2|m sub subs v op rawn Ep En H1 H2 H3
                |m sub subs v op rawn Ep En H1 H2 H3]; rewrite Ep; cbn [late_add].
  - auto.
  - assert (Es : var_subs i = subs) by (unfold var_subs; now rewrite Ep). rewrite Es, (proj2 (is_immediate_iff subs) Hs).
    destruct Ho; auto.
  - assert (Es : var_subs i = subs) by (unfold var_subs; now rewrite Ep). rewrite Es, (proj2 (is_immediate_iff subs) Hs). auto.
  - assert (Es : var_subs i = subs) by (unfold var_subs; now rewrite Ep). rewrite Es, (proj2 (is_immediate_iff subs) Hs). auto.
  - assert (Es : var_subs i = subs) by (unfold var_subs; now rewrite Ep). rewrite Es, (not_immediate subs "append") by (simpl; auto).
    rewrite En, (entry_txt _ _ _ Hx), dhas_dget. rewrite (mem_str_true "append") by exact H1.
    destruct Hx as [Hx|[-> Hx]]; rewrite Hx; [destruct cur as [w|]|]; cbn; (split; [apply entry_set|now rewrite dget_dset_same]).
  - assert (Es : var_subs i = subs) by (unfold var_subs; now rewrite Ep). rewrite Es, (not_immediate subs "prepend") by (simpl; auto).
    rewrite En, (entry_txt _ _ _ Hx), dhas_dget. rewrite (mem_str_true "prepend") by exact H1.
    rewrite (mem_str_false "append") by exact H2.
    destruct Hx as [Hx|[-> Hx]]; rewrite Hx; [destruct cur as [w|]|]; cbn; try (split; [apply entry_set|now rewrite dget_dset_same]).
    rewrite app_nil_r. split; [apply entry_set|now rewrite dget_dset_same].
  - assert (Es : var_subs i = subs) by (unfold var_subs; now rewrite Ep). rewrite Es, (not_immediate subs "remove") by (simpl; auto).
    destruct cur as [w|]; [|simpl in Hr; now specialize (Hr eq_refl)]. apply entry_some in Hx.
    rewrite En, dhas_dget, Hx. simpl.
    rewrite (mem_str_false "append") by exact H2. rewrite (mem_str_false "prepend") by exact H3. split; [now left|congruence].
Qed.
Lemma pass3_does : forall n i ev (x : exp_t) (cur : option str), entry n x cur -> does n i ev ->
  (cur = None -> removes ev = false) -> (forall v, ev = LateAdds v \/ ev = LateLeads v -> cur <> None) ->
  entry n (exp_pass3 x i) (late_remove cur ev) /\ (dget n (exp_pass3 x i) = Some None -> dget n x = Some None).
Proof.
  intros n i ev x cur Hx H Hr Ha. unfold exp_pass3.
  destruct H as [Ep|m sub subs v op rawn f Ep En Hs Hb Ho|m sub subs v op rawn Ep En Hs Hb|m sub subs v op rawn Ep En Hs Hb Ho
                |m sub subs v op rawn Ep En H1 H2|m sub subs v op rawn Ep En H1 H2 H3
                |m sub subs v op rawn Ep En H1 H2 H3]; rewrite Ep; cbn [late_remove].
  - auto.
  - assert (Es : var_subs i = subs) by (unfold var_subs; now rewrite Ep). rewrite Es, (proj2 (is_immediate_iff subs) Hs).
    destruct Ho; auto.
  - assert (Es : var_subs i = subs) by (unfold var_subs; now rewrite Ep). rewrite Es, (proj2 (is_immediate_iff subs) Hs). auto.
  - assert (Es : var_subs i = subs) by (unfold var_subs; now rewrite Ep). rewrite Es, (proj2 (is_immediate_iff subs) Hs). auto.
  - assert (Es : var_subs i = subs) by (unfold var_subs; now rewrite Ep). rewrite Es, (not_immediate subs "append") by (simpl; auto).
    rewrite En. rewrite (mem_str_false "remove") by exact H2. destruct cur as [w|]; [|exfalso; now apply (Ha (stripped i)); auto].
    pose proof (touch_same n x (Some w) Hx) as Ht. cbv zeta. split; [now apply entry_is|]. intro E.
    change (dget n (if dhas n x then x else dset n None x) = Some None) in E. congruence.
  - assert (Es : var_subs i = subs) by (unfold var_subs; now rewrite Ep). rewrite Es, (not_immediate subs "prepend") by (simpl; auto).
    rewrite En. rewrite (mem_str_false "remove") by exact H3. destruct cur as [w|]; [|exfalso; now apply (Ha (stripped i)); auto].
    pose proof (touch_same n x (Some w) Hx) as Ht. cbv zeta. split; [now apply entry_is|]. intro E.
    change (dget n (if dhas n x then x else dset n None x) = Some None) in E. congruence.
  - assert (Es : var_subs i = subs) by (unfold var_subs; now rewrite Ep). rewrite Es, (not_immediate subs "remove") by (simpl; auto).
    rewrite En. rewrite (mem_str_true "remove") by exact H1. destruct cur as [w|]; [|simpl in Hr; now specialize (Hr eq_refl)].
    pose proof (touch_same n x (Some w) Hx) as Ht. cbv zeta.
    set (y := if dhas n x then x else dset n None x) in *. change (dget n y = Some (Some w)) in Ht.
    unfold exp_str. rewrite Ht. simpl. split; [apply entry_set|now rewrite dget_dset_same].
Qed.

Lemma passes_hist : forall n l evs, history n l evs -> forall (x : exp_t) (cur : option str), NoDup (dkeys x) -> entry n x cur ->
  entry n (fold_left exp_pass1 l x) (fold_left at_once evs cur) /\
  (dget n (fold_left exp_pass1 l x) = Some None -> (dget n x = Some None /\ ~ In Unsets evs) \/ left_over evs).
Proof.
  intros n l evs H. induction H as [|i l evs Ha H IH|i l ev evs Hd H IH]; intros x cur Hn Hx; simpl.
  - auto.
  - destruct (IH (exp_pass1 x i) cur) as [I1 I2]; [now apply pass1_nodup|unfold entry; now rewrite pass1_other|].
    split; [exact I1|]. now rewrite pass1_other in I2.
  - destruct (pass1_does n i ev x cur Hn Hx Hd) as [P1 P2]. destruct (IH (exp_pass1 x i) (at_once cur ev)) as [I1 I2];
      [now apply pass1_nodup|exact P1|]. split; [exact I1|]. intro E. destruct (I2 E) as [[E2 E4]|E2]; [|right; now apply left_over_cons].
    destruct (P2 E2) as [[E3 E5]|E3]; [left; split; [exact E3|intros [E6|E6]; contradiction]|]. right. subst ev. now exists [], evs.
Qed.
Lemma passes_hist2 : forall n l evs, history n l evs -> forall (x : exp_t) (cur : option str), entry n x cur ->
  (cur = None -> existsb removes evs = false) ->
  entry n (fold_left exp_pass2 l x) (fold_left late_add evs cur) /\
  (dget n (fold_left exp_pass2 l x) = Some None -> dget n x = Some None).
Proof.
  intros n l evs H. induction H as [|i l evs Ha H IH|i l ev evs Hd H IH]; intros x cur Hx Hr; simpl.
  - auto.
  - destruct (IH (exp_pass2 x i) cur) as [I1 I2]; [unfold entry; now rewrite pass2_other|exact Hr|].
    split; [exact I1|]. now rewrite pass2_other in I2.
  - simpl in Hr. destruct (pass2_does n i ev x cur Hx Hd) as [P1 P2].
    { intro E. specialize (Hr E). now apply orb_false_iff in Hr. }
    destruct (IH (exp_pass2 x i) (late_add cur ev)) as [I1 I2]; [exact P1| |].
    { intro E. assert (Ec : cur = None) by (destruct ev; simpl in E; try discriminate; exact E).
      specialize (Hr Ec). now apply orb_false_iff in Hr. }
    split; [exact I1|auto].
Qed.
Definition adds (x : event) : bool := match x with LateAdds _ | LateLeads _ => true | _ => false end.
Lemma passes_hist3 : forall n l evs, history n l evs -> forall (x : exp_t) (cur : option str), entry n x cur ->
  (cur = None -> existsb removes evs = false /\ existsb adds evs = false) ->
  entry n (fold_left exp_pass3 l x) (fold_left late_remove evs cur) /\
  (dget n (fold_left exp_pass3 l x) = Some None -> dget n x = Some None).
Proof.
  intros n l evs H. induction H as [|i l evs Ha H IH|i l ev evs Hd H IH]; intros x cur Hx Hr; simpl.
  - auto.
  - destruct (IH (exp_pass3 x i) cur) as [I1 I2]; [unfold entry; now rewrite pass3_other|exact Hr|].
    split; [exact I1|]. now rewrite pass3_other in I2.
  - simpl in Hr. destruct (pass3_does n i ev x cur Hx Hd) as [P1 P2].
    { intro E. destruct (Hr E) as [R1 R2]. now apply orb_false_iff in R1. }
    { intros v Hv E. destruct (Hr E) as [R1 R2]. destruct Hv as [-> | ->]; discriminate R2. }
    destruct (IH (exp_pass3 x i) (late_remove cur ev)) as [I1 I2]; [exact P1| |].
    { intro E. assert (Ec : cur = None) by (destruct ev; simpl in E; try discriminate; exact E).
      destruct (Hr Ec) as [R1 R2]. apply orb_false_iff in R1. apply orb_false_iff in R2. tauto. }
    split; [exact I1|auto].
Qed.
Lemma late_add_none : forall evs cur, fold_left late_add evs cur = None -> cur = None /\ existsb adds evs = false.
Proof.
  induction evs as [|ev evs IH]; intros cur H; simpl in *; [auto|]. destruct (IH _ H) as [H1 H2].
  destruct ev; simpl in *; try discriminate; auto.
Qed.
Lemma passes_assigned : forall n l evs (x : exp_t) (cur : option str), history n (sort_items l) evs -> NoDup (dkeys x) ->
  dget n x = option_map Some cur ->
  (fold_left at_once evs cur = None -> existsb removes evs = false) ->
  entry n (exp_passes l x) (assigned cur evs) /\ (dget n (exp_passes l x) = Some None -> left_over evs).
Proof.
  intros n l evs x cur H Hn Hx Hr. unfold exp_passes, assigned.
  destruct (passes_hist n _ evs H x cur Hn (or_introl Hx)) as [H1 J1].
  destruct (passes_hist2 n _ evs H _ _ H1 Hr) as [H2 J2].
  destruct (passes_hist3 n _ evs H _ _ H2) as [H3 J3].
  { intro E. apply late_add_none in E. destruct E as [E1 E2]. auto. }
  split; [exact H3|]. intro E. destruct (J1 (J2 (J3 E))) as [[E1 _]|E1]; [|exact E1]. rewrite Hx in E1. destruct cur; discriminate E1.
Qed.

(** *** The first and the last step *)

Lemma init_preset : forall s file n, NoDup (dkeys (sets_base (st_const s))) ->
  dget n (exp_init s file) = option_map Some (preset s file n).
Proof.
  intros s file n Hd. unfold exp_init, preset.
  assert (G : forall l (x : exp_t), NoDup (dkeys l) ->
    dget n (fold_left (fun x kv => dset (fst kv) (Some (snd kv)) x) l x) =
    match dget n l with Some v => Some (Some v) | None => dget n x end).
  { induction l as [|[k v] l IH]; intros x Hn; [reflexivity|]. inversion Hn as [|k0 l0 H1 H2]; subst.
    cbn [fold_left fst snd]. rewrite IH by exact H2. cbn [dget]. destruct (str_eqb n k) eqn:E.
    - apply str_eqb_eq in E. subst k. rewrite (proj2 (dget_None n l)) by exact H1. apply dget_dset_same.
    - destruct (dget n l); [reflexivity|]. apply dget_dset_other. intro; subst. now rewrite str_eqb_refl in E. }
  rewrite G by exact Hd. destruct (dget n (sets_base (st_const s))); [reflexivity|].
  cbn [dget]. repeat (destruct (str_eqb n _); [reflexivity|]). reflexivity.
Qed.

Lemma passes_keys : forall l x k, In k (dkeys (exp_passes l x)) -> In k (dkeys x) \/ exists i, In i l /\ k = item_name_nomod i.
Proof.
  intros l x k H. unfold exp_passes in H.
  assert (Hs : forall i, In i (sort_items l) -> In i l) by (intro i; apply Permutation_in; apply sort_items_perm).
  revert Hs H. generalize (sort_items l) as r. intros r Hs H.
  assert (G : forall (f : exp_t -> item -> exp_t), (forall x i, In k (dkeys (f x i)) -> In k (dkeys x) \/ k = item_name_nomod i) ->
    forall r x, (forall i, In i r -> In i l) -> In k (dkeys (fold_left f r x)) -> In k (dkeys x) \/ exists i, In i l /\ k = item_name_nomod i).
  { intros f Hf r0. induction r0 as [|i r0 IH]; intros y Hy Hk; [now left|]. cbn [fold_left] in Hk.
    apply IH in Hk; [|intros j Hj; apply Hy; now right]. destruct Hk as [Hk|Hk]; [|now right].
    apply Hf in Hk. destruct Hk as [Hk|Hk]; [now left|]. right. exists i. split; [apply Hy; now left|exact Hk]. }
  assert (Ht : forall (x : exp_t) m (b : bool), In k (dkeys (if b then x else dset m None x)) -> In k (dkeys x) \/ k = m).
  { intros y m [|] Hk; [now left|]. apply dkeys_dset_In in Hk. tauto. }
  apply (G exp_pass3) in H; [destruct H as [H|H]; [|now right]| |exact Hs].
  apply (G exp_pass2) in H; [destruct H as [H|H]; [|now right]| |exact Hs].
  apply (G exp_pass1) in H; [exact H| |exact Hs].
  - intros y i Hk. unfold exp_pass1 in Hk. destruct (it_pay i) eqn:Ep;
    try (destruct (is_immediate (var_subs i)); [|now left]; cbv zeta in Hk;
      repeat match type of Hk with context [if ?c then dset _ _ _ else _] => destruct c end;
      try (apply dkeys_dset_In in Hk; destruct Hk as [Hk|Hk]; [now right|]); eapply Ht; exact Hk).
    destruct flag; [|now left]. left. eapply dkeys_ddel_In. exact Hk.
  - intros y i Hk. unfold exp_pass2 in Hk. destruct (it_pay i) eqn:Ep; try (now left);
    (destruct (is_immediate (var_subs i)); [now left|]; cbv zeta in Hk;
      repeat match type of Hk with context [if ?c then dset _ _ _ else _] => destruct c end;
      try (apply dkeys_dset_In in Hk; destruct Hk as [Hk|Hk]; [now right|]); now left).
  - intros y i Hk. unfold exp_pass3 in Hk. destruct (it_pay i) eqn:Ep; try (now left);
    (destruct (is_immediate (var_subs i)); [now left|]; cbv zeta in Hk;
      destruct (mem_str "remove" (var_subs i));
      try (apply dkeys_dset_In in Hk; destruct Hk as [Hk|Hk]; [now right|]); eapply Ht; exact Hk).
Qed.

Lemma final_get : forall e s file n (x : exp_t) acc d,
  (forall k, In k (dkeys x) -> expand_term e s file k = Ok k) -> NoDup (dkeys x) -> (forall k, In k (dkeys x) -> ~ In k (dkeys acc)) ->
  fold_res (exp_final_one e s file) x acc = Ok d ->
  match dget n x with
  | Some v => exists w, expand_term e s file (txt v) = Ok w /\ dget n d = Some (safe_linesplit w)
  | None => dget n d = dget n acc
  end.
Proof.
  intros e s file n x. induction x as [|[k v] x IH]; intros acc d Hk Hn Hdis H.
  - simpl in *. inversion H; subst. reflexivity.
  - cbn [fold_res] in H. unfold exp_final_one at 1 in H. cbn [fst snd] in H. rewrite Hk in H by now left. cbn [bind] in H.
    change (match v with Some v0 => v0 | None => [] end) with (txt v) in H.
    destruct (expand_term e s file (txt v)) as [w|ex|] eqn:Ew; cbn [bind] in H; try discriminate.
    assert (Ek : dget k acc = None) by (apply dget_None; apply Hdis; now left). rewrite Ek in H. cbn [app] in H.
    inversion Hn as [|k0 l0 N1 N2]; subst.
    apply IH in H.
    + cbn [dget]. destruct (str_eqb n k) eqn:E.
      * apply str_eqb_eq in E. subst k. rewrite (proj2 (dget_None n x)) in H by exact N1. exists w. split; [exact Ew|].
        rewrite H. apply dget_dset_same.
      * destruct (dget n x) as [v2|]; [exact H|]. rewrite H. apply dget_dset_other. intro; subst. now rewrite str_eqb_refl in E.
    + intros m Hm. apply Hk. now right.
    + exact N2.
    + intros m Hm Hi. apply dkeys_dset_In in Hi. destruct Hi as [->|Hi]; [contradiction|]. apply (Hdis m); [now right|exact Hi].
Qed.

(** ** ExpandVar *)

Lemma plain_key : forall e s file k, plain_text k -> expand_term e s file k = Ok k.
Proof. intros e s file k [H1 H2]. unfold expand_term. now apply C43_lemma. Qed.

Definition var_query_of (file : option str) (att : arg str) (val : arg pyval) (nolink : bool) : query :=
  MkQuery file (AOne "Variable") att val nolink.
Definition unset_query_of (file : option str) : query := MkQuery file (AOne "Unset") ANone ANone false.
Definition var_query (file : str) (att : arg str) (val : arg pyval) (nolink : bool) : query :=
  MkQuery (Some file) (AOne "Variable") att val nolink.
Definition unset_query (file : str) : query := MkQuery (Some file) (AOne "Unset") ANone ANone false.

Lemma nodup_two : forall (a b : list nat), NoDup a -> NoDup b -> (forall k, In k a -> In k b -> False) -> NoDup (a ++ b).
Proof.
  induction a as [|x a IH]; intros b Ha Hb H; [exact Hb|]. inversion Ha as [|x0 a0 H1 H2]; subst. simpl. constructor.
  - intro Hi. apply in_app_or in Hi. destruct Hi as [Hi|Hi]; [contradiction|]. apply (H x); [now left|exact Hi].
  - apply IH; auto. intros k Hk. apply H. now right.
Qed.
Lemma items_sorted_of : forall e s file att val nolink, env_ok e -> reach e s ->
  let l := sort_items (expand_var_items e s file att val nolink) in
  (forall i, In i l <-> In i (st_list s) /\ (selected s (var_query_of file att val nolink) i \/ selected s (unset_query_of file) i)) /\
  NoDup (map it_id l) /\ StronglySorted by_line l.
Proof.
  intros e s file att val nolink He Hr l.
  destruct (C28_lemma e s (var_query_of file att val nolink) He Hr) as [V1 [V2 V3]].
  destruct (C28_lemma e s (unset_query_of file) He Hr) as [U1 [U2 U3]].
  assert (Hp : Permutation l (get_items_for e s (var_query_of file att val nolink) ++ get_items_for e s (unset_query_of file)))
    by apply sort_items_perm.
  split; [|split].
  - intro i. split.
    + intro H. apply (Permutation_in _ Hp) in H. apply in_app_or in H. rewrite V1, U1 in H. tauto.
    + intros [H1 H2]. apply (Permutation_in _ (Permutation_sym Hp)). apply in_or_app. rewrite V1, U1. tauto.
  - apply (Permutation_NoDup (Permutation_sym (Permutation_map it_id Hp))). rewrite map_app. apply nodup_two; [exact V2|exact U2|].
    intros k Hk1 Hk2. apply in_map_iff in Hk1. apply in_map_iff in Hk2. destruct Hk1 as [i [Ei Hi]], Hk2 as [j [Ej Hj]].
    apply V1 in Hi. apply U1 in Hj. destruct Hi as [Hi [_ [Ci _]]]. destruct Hj as [Hj [_ [Cj _]]].
    assert (i = j) by (apply (reach_ids _ _ Hr); [exact Hi|exact Hj|congruence]). subst j.
    destruct Ci as [Ci|Ci]; [discriminate|]. destruct Cj as [Cj|Cj]; [discriminate|]. rewrite Ci in Cj. discriminate.
  - apply sort_items_sorted.
Qed.

Lemma items_sorted : forall e s file att val nolink, env_ok e -> reach e s ->
  let l := sort_items (expand_var_items e s (Some file) att val nolink) in
  (forall i, In i l <-> In i (st_list s) /\ (selected s (var_query file att val nolink) i \/ selected s (unset_query file) i)) /\
  NoDup (map it_id l) /\ StronglySorted by_line l.
Proof. intros e s file. exact (items_sorted_of e s (Some file)). Qed.

Lemma run_values : forall e s of file att val nolink d, env_ok e -> reach e s ->
  NoDup (dkeys (sets_base (st_const s))) -> (forall k, In k (dkeys (sets_base (st_const s))) -> plain_text k) ->
  fold_res (exp_final_one e s file) (exp_passes (expand_var_items e s of att val nolink) (exp_init s file)) [] = Ok d ->
  let l := sort_items (expand_var_items e s of att val nolink) in
    (forall i, In i l <-> In i (st_list s) /\ (selected s (var_query_of of att val nolink) i \/ selected s (unset_query_of of) i)) /\
    NoDup (map it_id l) /\ StronglySorted by_line l /\
    ((forall i, In i l -> plain_text (item_name_nomod i)) ->
     forall n evs, history n l evs ->
       (fold_left at_once evs (preset s file n) = None -> forall v, ~ In (LateRemoves v) evs) ->
       match assigned (preset s file n) evs with
       | Some v => exists w, expand_term e s file v = Ok w /\ dget n d = Some (safe_linesplit w)
       | None => dget n d = None \/ (left_over evs /\ dget n d = Some [])
       end).
Proof.
  intros e s of file att val nolink d He Hr Hb Hbp H.
  intro l0.
  destruct (items_sorted_of e s of att val nolink He Hr) as [L1 [L2 L3]].
  split; [exact L1|split; [exact L2|split; [exact L3|]]]. intros Hpl n evs Hh Hrem.
  unfold l0 in *; clear l0. set (l := expand_var_items e s of att val nolink) in *.
  assert (Ha : entry n (exp_passes l (exp_init s file)) (assigned (preset s file n) evs) /\
                 (dget n (exp_passes l (exp_init s file)) = Some None -> left_over evs)).
  { apply passes_assigned; [exact Hh|apply init_nodup|now apply init_preset|].
    intro E. destruct (existsb removes evs) eqn:Ex; [|reflexivity]. exfalso. apply existsb_exists in Ex.
    destruct Ex as [ev [Hev Er]]. destruct ev; try discriminate. now apply (Hrem E v). }
  apply (final_get e s file n) in H.
  - destruct Ha as [Ha Hi]. destruct (assigned (preset s file n) evs) as [v|].
    + apply entry_some in Ha. now rewrite Ha in H.
    + destruct Ha as [Ha|[_ Ha]]; rewrite Ha in H; [now left|]. right. split; [now apply Hi|].
      destruct H as [w [E1 E2]]. cbn [txt] in E1. rewrite (plain_key e s file []) in E1 by (split; [split|]; reflexivity).
      injection E1 as <-. rewrite E2. reflexivity.
  - intros k Hk. apply plain_key. apply passes_keys in Hk. destruct Hk as [Hk|[i [Hi ->]]].
    + unfold exp_init in Hk. assert (G : forall b (x : exp_t), In k (dkeys (fold_left (fun x kv => dset (fst kv) (Some (snd kv)) x) b x)) ->
        In k (dkeys b) \/ In k (dkeys x)).
      { induction b as [|[k2 v2] b IH]; intros x Hx; [now right|]. cbn [fold_left fst snd] in Hx. apply IH in Hx.
        destruct Hx as [Hx|Hx]; [left; now right|]. apply dkeys_dset_In in Hx. destruct Hx as [->|Hx]; [left; now left|now right]. }
      apply G in Hk. destruct Hk as [Hk|Hk]; [now apply Hbp|].
      destruct Hk as [<-|[<-|[<-|[]]]]; (split; [split|]; reflexivity).
    + apply Hpl. apply (Permutation_in _ (Permutation_sym (sort_items_perm l))). exact Hi.
  - unfold exp_passes. apply fold_nodup; [apply pass3_nodup|]. apply fold_nodup; [apply pass2_nodup|].
    apply fold_nodup; [apply pass1_nodup|]. apply init_nodup.
  - intros k Hk [].
Qed.

Lemma C46_lemma : forall e s file att val nolink d, env_ok e -> reach e s ->
  NoDup (dkeys (sets_base (st_const s))) -> (forall k, In k (dkeys (sets_base (st_const s))) -> plain_text k) ->
  expand_var e s (Some file) att val nolink = Ok d ->
  exists l,
    (forall i, In i l <-> In i (st_list s) /\ (selected s (var_query file att val nolink) i \/ selected s (unset_query file) i)) /\
    NoDup (map it_id l) /\ StronglySorted by_line l /\
    ((forall i, In i l -> plain_text (item_name_nomod i)) ->
     forall n evs, history n l evs ->
       (fold_left at_once evs (preset s file n) = None -> forall v, ~ In (LateRemoves v) evs) ->
       match assigned (preset s file n) evs with
       | Some v => exists w, expand_term e s file v = Ok w /\ dget n d = Some (safe_linesplit w)
       | None => dget n d = None \/ (left_over evs /\ dget n d = Some [])
       end).
Proof.
  intros e s file att val nolink d He Hr Hb Hbp H. eexists. exact (run_values e s (Some file) file att val nolink d He Hr Hb Hbp H).
Qed.

Lemma C78_lemma : forall e s file, env_ok e -> reach e s ->
  exists known, (forall n, n <> [] -> stands_for s file n (known n)) /\
  forall a b x y, no_code a -> no_code b -> no_code (a ++ b) ->
    expands known (fun n => dget n (builtins file)) [] a x -> expands known (fun n => dget n (builtins file)) [] b y ->
    expand_term e s file a = Ok x /\ expand_term e s file b = Ok y /\ expand_term e s file (a ++ b) = Ok (x ++ y).
Proof.
  intros e s file He Hr. destruct (C45_lemma e s file He Hr) as [known [K1 K2]]. exists known. split; [exact K1|].
  intros a b x y Ha Hb Hab Hx Hy. unfold expand_term. split; [now apply K2|]. split; [now apply K2|]. apply K2; [exact Hab|].
  now apply expands_app.
Qed.

Lemma history_app : forall n a x, history n a x -> forall b y, history n b y -> history n (a ++ b) (x ++ y).
Proof.
  intros n a x H. induction H as [|i l evs Ha H IH|i l ev evs Hd H IH]; intros b y Hb; simpl; [exact Hb| |].
  - apply hist_other; auto.
  - apply hist_does; auto.
Qed.
Lemma C48_lemma : forall e s file att val nolink d, env_ok e -> reach e s ->
  NoDup (dkeys (sets_base (st_const s))) -> (forall k, In k (dkeys (sets_base (st_const s))) -> plain_text k) ->
  expand_var e s (Some file) att val nolink = Ok d ->
  exists l,
    (forall i, In i l <-> In i (st_list s) /\ (selected s (var_query file att val nolink) i \/ selected s (unset_query file) i)) /\
    NoDup (map it_id l) /\ StronglySorted by_line l /\
    ((forall i, In i l -> plain_text (item_name_nomod i)) ->
     forall n before u after evs evs', l = before ++ u :: after -> it_pay u = PUnset n [] ->
       history n before evs -> (forall v, ~ In (LateAdds v) evs /\ ~ In (LateLeads v) evs /\ ~ In (LateRemoves v) evs) ->
       history n after evs' -> (fold_left at_once evs' None = None -> forall v, ~ In (LateRemoves v) evs') ->
       match assigned None evs' with
       | Some v => exists w, expand_term e s file v = Ok w /\ dget n d = Some (safe_linesplit w)
       | None => dget n d = None \/ (In Ignored evs' /\ dget n d = Some [])
       end).
Proof.
  intros e s file att val nolink d He Hr Hb Hbp H. destruct (C46_lemma e s file att val nolink d He Hr Hb Hbp H) as [l [L1 [L2 [L3 L4]]]].
  exists l. split; [exact L1|split; [exact L2|split; [exact L3|]]]. intros Hp n before u after evs evs' El Eu H1 Hlate H2 Hrem.
  assert (Hh : history n l (evs ++ Unsets :: evs')).
  { subst l. apply history_app; [exact H1|]. apply hist_does; [now apply does_unset|exact H2]. }
  assert (Ea : fold_left at_once (evs ++ Unsets :: evs') (preset s file n) = fold_left at_once evs' None) by now rewrite fold_left_app.
  assert (Es : assigned (preset s file n) (evs ++ Unsets :: evs') = assigned None evs').
  { unfold assigned. rewrite Ea. rewrite !fold_left_app. cbn [fold_left late_add late_remove].
    assert (G : forall f, (f = late_add \/ f = late_remove) -> forall c, fold_left f evs c = c).
    { intros f Hf. clear -Hlate Hf. induction evs as [|x evs IH]; intro c; [reflexivity|]. simpl.
      replace (f c x) with c.
      - apply IH. intro v. destruct (Hlate v) as [A [B C]]. simpl in *. tauto.
      - destruct x; destruct Hf as [-> | ->]; try reflexivity; exfalso; destruct (Hlate v) as [A [B C]]; simpl in *; tauto. }
    rewrite (G late_add) by auto. rewrite (G late_remove) by auto. reflexivity. }
  pose proof (left_over_after evs evs') as Hc.
  specialize (L4 Hp n _ Hh). rewrite Ea, Es in L4.
  cut (match assigned None evs' with
       | Some v => exists w, expand_term e s file v = Ok w /\ dget n d = Some (safe_linesplit w)
       | None => dget n d = None \/ (left_over (evs ++ Unsets :: evs') /\ dget n d = Some [])
       end); [destruct (assigned None evs'); tauto|].
  apply L4. intros E v Hi. apply in_app_or in Hi. destruct Hi as [Hi|[Hi|Hi]].
  - now apply (Hlate v).
  - discriminate.
  - now apply (Hrem E v).
Qed.
Lemma C48_flag_lemma : forall n m f i l evs, it_pay i = PUnset m f -> f <> [] -> history n l evs -> history n (i :: l) evs.
Proof. intros n m f i l evs Ei Hf H. apply hist_other; [|exact H]. unfold about. rewrite Ei. now intros [_ E]. Qed.
