(** * Proofs of the statements about queries and updates *)

From Verif Require Import PyStr Regex Patterns PyPath Res Inline Const Item Lines Stash
  StrFacts ReFacts LinesFacts ParseFacts HistFacts ReachFacts MapFacts QueryFacts Spec_Query.
From Coq Require Import Permutation Sorted.

(** ** Filters *)

Lemma linked_iff : forall s f x,
  mem_str x (match dget f (st_map s) with Some l => l | None => [] end) = true <-> linked s f x.
Proof.
  intros s f x. rewrite mem_str_In. unfold linked. destruct (dget f (st_map s)) as [l|].
  - split; [intro H; now exists l|]. intros [l' [E H]]. now inversion E; subst.
  - split; [intros []|]. intros [l' [E _]]. discriminate.
Qed.
Lemma sel_file_iff : forall s q i, sel_file (st_map s) q i = true <-> of_file s q i.
Proof.
  intros s q i. unfold sel_file, of_file. destruct (q_file q) as [[|c f]|].
  - split; auto.
  - unfold is_linked_to. rewrite Bool.orb_true_iff, Bool.andb_true_iff, linked_iff, str_eqb_eq, Bool.negb_true_iff.
    split; [intros [[H1 H2]|H]|intros [H|[H|[H1 H2]]]]; auto. discriminate.
  - split; auto.
Qed.
Lemma sel_class_iff : forall q i, sel_class q i = true <-> of_class q i.
Proof.
  intros q i. unfold sel_class, of_class. destruct (q_class q) as [|c|l]; unfold norm_arg.
  - split; auto.
  - destruct c as [|c r]; cbn [nonempty].
    + split; auto.
    + rewrite mem_str_In. cbn [In]. split; [intros [H|[]]; auto|]. intros [H|H]; [discriminate|auto].
  - destruct l as [|x l]; [split; auto|]. rewrite mem_str_In. split; [auto|]. intros [H|H]; [discriminate|auto].
Qed.

Lemma same_value_iff : forall w v, pyval_eqb w v = true <-> same_value w v.
Proof.
  intros w v. unfold same_value. split.
  - intro H. destruct w as [a|z|b|], v as [a'|z'|b'|]; simpl in H; try discriminate.
    + apply str_eqb_eq in H. subst. left. now exists a'.
    + apply Z.eqb_eq in H. subst. right. now exists z'.
    + right. exists z. destruct b'; apply Z.eqb_eq in H; subst; auto.
    + destruct b; discriminate.
    + right. exists z'. destruct b; apply Z.eqb_eq in H; subst; auto.
    + right. destruct b, b'; try discriminate; eexists; simpl; eauto.
    + destruct b; discriminate.
  - intros [[t [-> ->]]|[z [H1 H2]]].
    + simpl. apply str_eqb_refl.
    + destruct w as [a|z1|b|], v as [a'|z2|b'|]; simpl in *; try discriminate;
        inversion H1; subst; inversion H2; subst.
      * apply Z.eqb_refl.
      * destruct b'; simpl; reflexivity.
      * destruct b; simpl; reflexivity.
      * destruct b, b'; simpl in *; try discriminate; reflexivity.
Qed.
Lemma falsy_iff : forall w, pyval_true w = false <-> falsy w.
Proof.
  intro w. unfold falsy. destruct w as [[|c t]|z|b|]; simpl.
  - split; auto.
  - split; [discriminate|]. intros [H|[H|H]]; discriminate.
  - rewrite Bool.negb_false_iff, Z.eqb_eq. split; [intros ->; auto|].
    intros [H|[H|H]]; inversion H; reflexivity.
  - split; [intros ->; auto|]. intros [H|[H|H]]; inversion H; reflexivity.
  - split; [discriminate|]. intros [H|[H|H]]; discriminate.
Qed.
Lemma existsb_iff : forall (A : Type) (p : A -> bool) (P : A -> Prop) l,
  (forall x, p x = true <-> P x) -> (existsb p l = true <-> exists x, In x l /\ P x).
Proof.
  intros A p P l H. rewrite existsb_exists. split; intros [x [H1 H2]]; exists x; split; auto; now apply H.
Qed.
Lemma value_ok_iff : forall a v,
  match norm_arg pyval_true a with
  | [] => true
  | _ => existsb (fun w => pyval_eqb w v) (norm_arg pyval_true a)
  end = true <-> value_ok a v.
Proof.
  intros a v. destruct a as [|w|l]; unfold norm_arg, value_ok.
  - split; auto.
  - destruct (pyval_true w) eqn:E.
    + cbn [existsb]. rewrite Bool.orb_false_r, same_value_iff. split; [auto|]. intros [H|H]; [|exact H].
      apply falsy_iff in H. congruence.
    + apply falsy_iff in E. split; auto.
  - destruct l as [|x l]; [split; auto|].
    rewrite (existsb_iff _ _ (fun w => same_value w v)); [|intro; apply same_value_iff].
    split; [auto|]. intros [H|H]; [discriminate|exact H].
Qed.
Lemma attr_filter_iff : forall q i names,
  attr_filter names (norm_arg pyval_true (q_val q)) i = true <-> exists a, In a names /\ has_attr q i a.
Proof.
  intros q i names. unfold attr_filter. apply existsb_iff. intro a. unfold has_attr.
  destruct (dget a (attributes i)) as [v|].
  - rewrite value_ok_iff. split; [intro H; now exists v|]. intros [v' [E H]]. now inversion E; subst.
  - split; [discriminate|]. intros [v' [E _]]. discriminate.
Qed.
Lemma sel_attr_iff : forall q i, sel_attr q i = true <-> of_attr q i.
Proof.
  intros q i. unfold sel_attr, of_attr. destruct (q_attr q) as [|a|l]; unfold norm_arg at 1.
  - split; auto.
  - destruct a as [|c a]; cbn [nonempty].
    + split; auto.
    + rewrite attr_filter_iff. split.
      * intros [a' [[<-|[]] H]]. now right.
      * intros [H|H]; [discriminate|]. exists (c :: a). simpl. auto.
  - destruct l as [|x l]; [split; auto|]. rewrite attr_filter_iff. split; [auto|].
    intros [H|H]; [discriminate|exact H].
Qed.
Lemma sel_iff : forall s q i, sel (st_map s) q i = true <-> selected s q i.
Proof.
  intros s q i. unfold sel, selected. now rewrite !Bool.andb_true_iff, sel_file_iff, sel_class_iff, sel_attr_iff, and_assoc.
Qed.

(** ** C28-C31 *)

Lemma C28_reduce_lemma : forall e s l q, env_ok e -> (forall i j, In i l -> In j l -> it_id i = it_id j -> i = j) ->
  (forall i, In i (reduce_ e s l q) <-> In i l /\ selected s q i) /\
  NoDup (map it_id (reduce_ e s l q)) /\ StronglySorted by_line (reduce_ e s l q).
Proof.
  intros e s l q He Hs. split; [|split; [now apply reduce_NoDup|apply reduce_sorted]].
  intro i. rewrite reduce_In by auto. now rewrite sel_iff.
Qed.

Lemma C28_lemma : forall e s q, env_ok e -> reach e s ->
  (forall i, In i (get_items_for e s q) <-> In i (st_list s) /\ selected s q i) /\
  NoDup (map it_id (get_items_for e s q)) /\ StronglySorted by_line (get_items_for e s q).
Proof.
  intros e s q He Hs. apply C28_reduce_lemma; [exact He|]. apply (reach_ids _ _ Hs).
Qed.

Lemma C29_lemma : forall e e' s q, env_ok e -> env_ok e' -> reach e s ->
  Permutation (get_items_for e s q) (get_items_for e' s q) /\
  ((forall i j, In i (st_list s) -> In j (st_list s) -> selected s q i -> selected s q j ->
      it_line i = it_line j -> i = j) ->
   get_items_for e s q = get_items_for e' s q).
Proof.
  intros e e' s q He He' Hs. pose proof (reach_ids _ _ Hs) as [Hi _].
  assert (P : Permutation (get_items_for e s q) (get_items_for e' s q)).
  { apply same_members; [now apply reduce_NoDup|now apply reduce_NoDup|].
    intro i. unfold get_items_for. now rewrite !reduce_In by auto. }
  split; [exact P|]. intro Hd. apply sorted_perm_eq; [apply reduce_sorted|apply reduce_sorted|exact P|].
  intros i j Ii Ij E. apply (C28_lemma e s q He Hs) in Ii. apply (C28_lemma e s q He Hs) in Ij.
  apply Hd; tauto.
Qed.

Lemma C30_lemma : forall e s q1 q2, env_ok e -> reach e s ->
  (forall i, In i (reduce_ e s (get_items_for e s q1) q2) <->
             In i (st_list s) /\ selected s q1 i /\ selected s q2 i) /\
  Permutation (reduce_ e s (get_items_for e s q1) q2) (reduce_ e s (get_items_for e s q2) q1) /\
  Permutation (reduce_ e s (get_items_for e s q1) q1) (get_items_for e s q1).
Proof.
  intros e s q1 q2 He Hs. pose proof (reach_ids _ _ Hs) as [Hi _].
  assert (Hq : forall q, ids_ok (get_items_for e s q)).
  { intro q. apply (ids_ok_incl (st_list s)); [exact Hi|]. intros i Ii. apply reduce_In in Ii; tauto. }
  assert (HI : forall qa qb i, In i (reduce_ e s (get_items_for e s qa) qb) <->
             In i (st_list s) /\ selected s qa i /\ selected s qb i).
  { intros qa qb i. rewrite reduce_In, sel_iff by auto. rewrite (proj1 (C28_lemma e s qa He Hs) i). tauto. }
  split; [apply HI|]. split; apply same_members; try (now apply reduce_NoDup); intro i.
  - rewrite !HI. tauto.
  - rewrite HI, (proj1 (C28_lemma e s q1 He Hs) i). tauto.
Qed.

Lemma C31_lemma : forall e s f c a w nolink i, env_ok e -> reach e s -> ~ falsy w -> a <> [] ->
  In i (get_items_for e s (MkQuery f c (AOne a) (AOne w) nolink)) ->
  exists v, dget a (attributes i) = Some v /\ same_value w v.
Proof.
  intros e s f c a w nolink i He Hs Hw Ha Hi. apply (C28_lemma e s _ He Hs) in Hi.
  destruct Hi as [_ [_ [_ [H|H]]]]; [contradiction|]. destruct H as [v [E [Hv|Hv]]]; [contradiction|].
  now exists v.
Qed.

(** ** C32 *)

Lemma endswith_iff : forall p x, endswith p x = true <-> exists d, x = d ++ p.
Proof. intros. apply endswith_spec. Qed.

Lemma C32_recipes_lemma : forall s,
  (forall x, In x (get_recipes s) <-> (exists d, x = d ++ ".bb") /\ exists l, dget x (st_map s) = Some l) /\
  StronglySorted before (get_recipes s).
Proof.
  intro s. unfold get_recipes. destruct (sorted_set (filter (endswith ".bb") (dkeys (st_map s)))) as [H1 H2].
  split; [|exact H2]. intro x. rewrite H1, filter_In, endswith_iff. split.
  - intros [Hk He]. split; [exact He|]. now apply dkey_get.
  - intros [He [l Hl]]. split; [|exact He]. eapply dget_Some_key. exact Hl.
Qed.

Lemma origins_iff : forall p l x, In x (filter (endswith p) (map it_origin l)) <->
  (exists d, x = d ++ p) /\ exists i, In i l /\ it_origin i = x.
Proof.
  intros p l x. rewrite filter_In, endswith_iff, in_map_iff. split.
  - intros [[i [E Hi]] H]. split; [exact H|]. now exists i.
  - intros [H [i [Hi E]]]. split; [|exact H]. now exists i.
Qed.

Lemma C32_classes_lemma : forall s,
  (forall x, In x (get_bbclasses s) <-> (exists d, x = d ++ ".bbclass") /\ exists i, In i (st_list s) /\ it_origin i = x) /\
  StronglySorted before (get_bbclasses s).
Proof.
  intro s. unfold get_bbclasses.
  destruct (sorted_set (filter (endswith ".bbclass") (map it_origin (st_list s)))) as [H1 H2].
  split; [|exact H2]. intro x. now rewrite H1, origins_iff.
Qed.

Lemma C32_conf_lemma : forall e s, env_ok e ->
  (forall x, In x (get_conf_files e s) <-> (exists d, x = d ++ ".conf") /\ exists i, In i (st_list s) /\ it_origin i = x) /\
  NoDup (get_conf_files e s).
Proof.
  intros e s [_ He]. unfold get_conf_files.
  set (l := filter (endswith ".conf") (map it_origin (st_list s))). specialize (He l). split.
  - intro x. rewrite <- origins_iff. fold l. rewrite <- (dedup_str_In l x).
    split; apply Permutation_in; [|symmetry]; exact He.
  - eapply Permutation_NoDup; [symmetry; exact He|apply dedup_str_NoDup].
Qed.

Lemma linked_appends_iff : forall s x, NoDup (dkeys (st_map s)) ->
  (In x (linked_appends s) <-> (exists d, x = d ++ ".bbappend") /\ exists d, linked s (d ++ ".bb") x).
Proof.
  intros s x Hn. unfold linked_appends. rewrite in_flat_map. split.
  - intros [[k l] [Hk Hx]]. simpl in Hx. destruct (endswith ".bb" k) eqn:Ek; [|destruct Hx].
    apply filter_In in Hx. destruct Hx as [Hx Ex]. apply endswith_iff in Ek. destruct Ek as [d ->].
    apply endswith_iff in Ex. split; [exact Ex|]. exists d, l. split; [|exact Hx].
    revert Hn Hk. clear. induction (st_map s) as [|[k' l'] mp IH]; intros Hn Hk; [destruct Hk|].
    simpl in Hn. inversion Hn as [|? ? Hni Hn']; subst. simpl. destruct Hk as [E|Hk].
    + inversion E; subst. now rewrite str_eqb_refl.
    + destruct (str_eqb (d ++ ".bb") k') eqn:E; [|now apply IH].
      apply str_eqb_eq in E. subst k'. exfalso. apply Hni. apply in_map_iff. now exists (d ++ ".bb", l).
  - intros [Ex [d [l [Hk Hx]]]]. exists (d ++ ".bb", l). split; [now apply dget_In in Hk|]. simpl.
    rewrite endswith_app. apply filter_In. split; [exact Hx|]. now apply endswith_iff.
Qed.

Lemma C32_lone_lemma : forall e s, reach e s ->
  (forall x, In x (get_lone_appends s) <->
     (exists d, x = d ++ ".bbappend") /\ (exists i, In i (st_list s) /\ it_origin i = x) /\
     ~ exists d, linked s (d ++ ".bb") x) /\
  StronglySorted before (get_lone_appends s).
Proof.
  intros e s Hr. pose proof (reach_map_NoDup _ _ Hr) as Hn. unfold get_lone_appends.
  match goal with |- context [sort_str (dedup_str ?l)] => destruct (sorted_set l) as [H1 H2] end.
  split; [|exact H2]. intro x. rewrite H1, filter_In, origins_iff, Bool.negb_true_iff, mem_str_not_In.
  rewrite linked_appends_iff by exact Hn. tauto.
Qed.

(** ** C34 *)

Lemma remove_first_some : forall x l l', remove_first x l = Some l' <->
  exists a y b, l = a ++ y :: b /\ l' = a ++ b /\ it_id y = it_id x /\ ~ In (it_id x) (map it_id a).
Proof.
  intros x l. induction l as [|z l IH]; intro l'; simpl.
  - split; [discriminate|]. intros [[|? ?] [y [b [E _]]]]; discriminate.
  - destruct (Nat.eqb_spec (it_id z) (it_id x)) as [E|E].
    + split.
      * intro H. inversion H; subst. exists [], z, l'. simpl. auto.
      * intros [[|z' a] [y [b [E1 [E2 [E3 E4]]]]]]; inversion E1; subst; [reflexivity|].
        simpl in E4. tauto.
    + destruct (remove_first x l) as [r|] eqn:Er.
      * split.
        -- intro H. inversion H; subst. destruct (proj1 (IH r) eq_refl) as [a [y [b [-> [-> [E1 E2]]]]]].
           exists (z :: a), y, b. simpl. repeat split; auto. intros [H'|H']; auto.
        -- intros [[|z' a] [y [b [E1 [E2 [E3 E4]]]]]]; inversion E1; subst; [contradiction|].
           assert (H : Some r = Some (a ++ b)).
           { apply IH. exists a, y, b. simpl in E4. repeat split; auto. }
           inversion H; subst. reflexivity.
      * split; [discriminate|].
        intros [[|z' a] [y [b [E1 [E2 [E3 E4]]]]]]; inversion E1; subst; [contradiction|].
        exfalso. assert (H : None = Some (a ++ b)).
        { apply IH. exists a, y, b. simpl in E4. repeat split; auto. }
        discriminate.
Qed.
Lemma remove_first_none : forall x l, remove_first x l = None <-> ~ In (it_id x) (map it_id l).
Proof.
  intros x l. induction l as [|z l IH]; simpl; [tauto|].
  destruct (Nat.eqb_spec (it_id z) (it_id x)) as [E|E].
  - split; [discriminate|tauto].
  - destruct (remove_first x l); rewrite <- IH || idtac.
    + split; [discriminate|]. intro H. exfalso. apply H. right.
      destruct (in_dec Nat.eq_dec (it_id x) (map it_id l)) as [Hi|Hi]; [exact Hi|].
      apply IH in Hi. discriminate.
    + split; [|reflexivity]. intros _ [H|H]; [contradiction|]. now apply IH.
Qed.

Lemma remove_ok : forall l s s', remove_items l s = (Ok tt, s') ->
  removed l (st_list s) (st_list s') /\ same_rest s s'.
Proof.
  intros l. induction l as [|x l IH]; intros s s' H; simpl in H.
  - inversion H; subst. split; [constructor|]. unfold same_rest. now destruct s'.
  - destruct (remove_first x (st_list s)) as [l'|] eqn:E; [|discriminate].
    apply IH in H. simpl in H. destruct H as [H1 H2].
    apply remove_first_some in E. destruct E as [a [y [b [-> [-> [E1 E2]]]]]].
    split; [now econstructor|]. unfold same_rest in *. rewrite H2. now destruct s.
Qed.

Lemma times_cons : forall x y l, times x (y :: l) = (if Nat.eq_dec (it_id y) (it_id x) then 1 else 0) + times x l.
Proof. intros x y l. unfold times. simpl. destruct (Nat.eq_dec _ _); reflexivity. Qed.
Lemma times_app : forall x a b, times x (a ++ b) = times x a + times x b.
Proof. intros x a b. unfold times. rewrite map_app. apply count_occ_app. Qed.
Lemma times_pos : forall x l, 0 < times x l <-> In (it_id x) (map it_id l).
Proof.
  intros x l. unfold times. symmetry. exact (count_occ_In Nat.eq_dec (map it_id l) (it_id x)).
Qed.

Lemma remove_iff : forall l s, (exists s', remove_items l s = (Ok tt, s')) <->
  forall x, In x l -> times x l <= times x (st_list s).
Proof.
  intros l. induction l as [|y l IH]; intro s.
  - simpl. split; [intros _ x []|]. intros _. now exists s.
  - cbn [remove_items]. destruct (remove_first y (st_list s)) as [l'|] eqn:E.
    + rewrite IH. simpl. apply remove_first_some in E. destruct E as [a [z [b [-> [-> [E1 E2]]]]]].
      assert (Ht : forall x, times x (a ++ z :: b) = (if Nat.eq_dec (it_id y) (it_id x) then 1 else 0) + times x (a ++ b)).
      { intro x. rewrite !times_app, times_cons, E1. lia. }
      split; intros H x Hx.
      * rewrite times_cons, Ht. destruct (in_dec Nat.eq_dec (it_id x) (map it_id l)) as [Hi|Hi].
        -- apply in_map_iff in Hi. destruct Hi as [x' [Ex Hx']]. specialize (H x' Hx').
           unfold times in *. rewrite Ex in H. lia.
        -- assert (times x l = 0). { destruct (times x l) eqn:En; [reflexivity|]. exfalso. apply Hi.
             apply times_pos. lia. } lia.
      * specialize (H x (or_intror Hx)). rewrite times_cons, Ht in H. lia.
    + split; [intros [s' H]; discriminate|]. intro H. exfalso. apply remove_first_none in E. apply E.
      apply times_pos. specialize (H y (or_introl eq_refl)). rewrite times_cons in H.
      destruct (Nat.eq_dec (it_id y) (it_id y)); [lia|congruence].
Qed.

(** ** C36 *)

Definition sticky (s s' : stash) : Prop :=
  incl (st_seen s) (st_seen s') /\ incl (st_seenc s) (st_seenc s').

Lemma add_set_In : forall x l y, In y (add_set x l) <-> y = x \/ In y l.
Proof.
  intros x l y. unfold add_set. destruct (mem_str x l) eqn:E.
  - apply mem_str_In in E. split; [auto|]. intros [->|H]; auto.
  - rewrite in_app_iff. simpl. intuition.
Qed.
Lemma enter_sticky : forall file s, sticky s (enter file s).
Proof.
  intros file s. split; simpl.
  - intros x Hx. apply add_set_In. now right.
  - destruct (str_eqb _ _); [|apply incl_refl]. intros x Hx. apply add_set_In. now right.
Qed.
Lemma sticky_trans : forall a b c, sticky a b -> sticky b c -> sticky a c.
Proof. intros a b c [H1 H2] [H3 H4]. split; eapply incl_tran; eassumption. Qed.
Lemma sticky_refl : forall a, sticky a a.
Proof. intro a. split; apply incl_refl. Qed.
Lemma leave_sticky : forall e file forced items s r s', leave e file forced items s = (r, s') -> sticky s s'.
Proof.
  intros e file forced items s r s' E. apply leave_cases in E.
  destruct E as [f [l [_ [_ [_ [_ [_ [_ [E1 [E2 _]]]]]]]]]]. split; rewrite ?E1, ?E2; apply incl_refl.
Qed.
Lemma add_file_sticky : forall n e path off forced s r s',
  add_file n e path off forced s = (r, s') -> sticky s s'.
Proof.
  intros n e path off forced s r s' H.
  assert (G : (fun (_ : list item) => sticky) (pend none r) s s'); [|exact G].
  eapply (rel_add_file e (fun _ => sticky)); try exact H; clear.
  - apply sticky_refl.
  - intros _ _. apply sticky_trans.
  - auto.
  - intros. split; apply incl_refl.
  - intros s path _. apply enter_sticky.
  - intros s0 s1 path forced items r s' file _ _ H1 E. apply leave_sticky in E.
    eapply sticky_trans; [apply enter_sticky|]. eapply sticky_trans; eassumption.
Qed.
Lemma get_items_sticky : forall n e file off s r s',
  get_items e (fun p o f => add_file n e p o (Some f)) file off s = (r, s') -> sticky s s'.
Proof.
  intros n e file off s r s' H.
  assert (G : (fun (_ : list item) => sticky) (pend (fun l => l) r) s s'); [|exact G].
  eapply (rel_get_items e (fun _ => sticky)); try exact H; clear.
  - apply sticky_refl.
  - intros _ _. apply sticky_trans.
  - auto.
  - intros. split; apply incl_refl.
  - intros s path _. apply enter_sticky.
  - intros s0 s1 path forced items r s' file _ _ H1 E. apply leave_sticky in E.
    eapply sticky_trans; [apply enter_sticky|]. eapply sticky_trans; eassumption.
Qed.
Lemma steps_sticky : forall e s s', steps e s s' -> sticky s s'.
Proof.
  intros e s0 s' H. induction H as [|n path off forced s r s' _ IH E|n s _ IH Hn|l s _ IH Hl Hd
                               |l s r s' _ IH E|g s _ IH Hg|s r s' _ IH E|db0 s _ IH]; try exact IH.
  - apply sticky_refl.
  - eapply sticky_trans; [exact IH|]. eapply add_file_sticky. exact E.
  - apply remove_items_shape in E. destruct E as [_ ->]. exact IH.
  - apply finalize_shape in E. destruct E as [g [mp [_ [-> El]]]]. exact IH.
Qed.

Lemma skipped_sticky : forall e path path' s s',
  abspath (fs_cwd (e_fs e)) path' = abspath (fs_cwd (e_fs e)) path ->
  sticky s s' -> skipped e path s = true -> skipped e path' s' = true.
Proof.
  intros e path path' s s' E [H1 H2] H. unfold skipped in *. rewrite E.
  apply Bool.orb_true_iff in H. apply Bool.orb_true_iff. destruct H as [H|H].
  - left. apply Bool.andb_true_iff in H. apply Bool.andb_true_iff. destruct H as [H H']. split; [|exact H'].
    apply mem_str_In in H. apply mem_str_In. now apply H1.
  - right. apply mem_str_In in H. apply mem_str_In. now apply H2.
Qed.

Lemma entered_skipped : forall e path s,
  let file := abspath (fs_cwd (e_fs e)) path in
  ~ In (snd (splitext file)) [".inc"; ".bb"; ".conf"] -> skipped e path (enter file s) = true.
Proof.
  intros e path s file Hx. unfold skipped. fold file. apply Bool.orb_true_iff.
  unfold enter. cbn [st_seen st_seenc with_seen].
  destruct (str_eqb (snd (splitext file)) ".bbclass") eqn:E.
  - right. apply mem_str_In. apply add_set_In. now left.
  - left. apply Bool.andb_true_iff. split; [apply mem_str_In; apply add_set_In; now left|].
    apply Bool.negb_true_iff. apply mem_str_not_In. unfold multi_exts.
    apply str_eqb_neq in E. cbn [In] in *. intros [H|[H|[H|[H|[]]]]]; try (now apply Hx; auto).
Qed.

Lemma C36_lemma : forall n e path off forced s r s1 s2 m path' off' forced',
  let file := abspath (fs_cwd (e_fs e)) path in
  add_file (S n) e path off forced s = (r, s1) -> steps e s1 s2 ->
  abspath (fs_cwd (e_fs e)) path' = file ->
  ~ In (snd (splitext file)) [".inc"; ".bb"; ".conf"] ->
  add_file (S m) e path' off' forced' s2 = (Ok [], s2).
Proof.
  intros n e path off forced s r s1 s2 m path' off' forced' file H Hs Hf Hx.
  rewrite add_file_eq. cbv zeta. rewrite add_file_eq in H. cbv zeta in H. fold file in H.
  assert (Hsk : skipped e path' s2 = true); [|now rewrite Hsk].
  apply steps_sticky in Hs. destruct (skipped e path s) eqn:Es.
  - inversion H; subst. eapply skipped_sticky; eassumption.
  - eapply skipped_sticky; [exact Hf| |apply (entered_skipped e path s Hx)].
    eapply sticky_trans; [|exact Hs]. unfold bindM in H. fold file.
    destruct (get_items _ _ _ _ _) as [[items|ex|] s0] eqn:Eg; apply get_items_sticky in Eg.
    + apply leave_sticky in H. eapply sticky_trans; eassumption.
    + inversion H; subst. exact Eg.
    + inversion H; subst. exact Eg.
Qed.

(** ** C60 and C62 *)

Lemma raises_only_line : forall f i, raises f -> only_line_raised i (f i).
Proof.
  intros f i Hf. destruct (Hf i) as [H1 [H2 H3]]. unfold only_line_raised. rewrite H1 at 1 2 3 4 5 6 7 8 9. simpl.
  repeat split; auto. intro Hd. rewrite H3; [reflexivity|].
  destruct (endswith ".bbappend" (it_origin i)) eqn:E; [|reflexivity].
  apply endswith_iff in E. destruct E as [d Ed]. now apply Hd in Ed.
Qed.

Lemma C60_lemma : forall n e path off forced s r s',
  add_file n e path off forced s = (r, s') ->
  exists old new, st_list s' = old ++ new /\ Forall2 only_line_raised (st_list s) old /\
    (forall i j, In i new -> In j (st_list s) -> reach e s -> it_id i <> it_id j).
Proof.
  intros n e path off forced s r s' H. apply add_file_grows in H.
  destruct H as [f [new [Hf [EL [_ [Hr _]]]]]]. rewrite app_nil_r in Hr.
  exists (map f (st_list s)), new. split; [exact EL|]. split.
  - clear -Hf. induction (st_list s) as [|i l IH]; simpl; [constructor|].
    constructor; [now apply raises_only_line|exact IH].
  - intros i j Hi Hj Hs. apply reach_ids in Hs. destruct Hs as [_ Hs]. rewrite Forall_forall in *.
    apply Hr in Hi. apply Hs in Hj. unfold in_range in Hi. lia.
Qed.

Lemma map_filter_id : forall (f : item -> item) p l,
  (forall i, In i l -> p (f i) = true \/ p i = true -> f i = i) -> filter p (map f l) = filter p l.
Proof.
  intros f p l. induction l as [|x l IH]; intro H; simpl; [reflexivity|].
  rewrite IH by (intros i Hi; apply H; now right).
  destruct (p (f x)) eqn:E1.
  - rewrite (H x) in * by (simpl; auto). now rewrite E1.
  - destruct (p x) eqn:E2; [|reflexivity]. rewrite (H x) in E1 by (simpl; auto). congruence.
Qed.
Lemma filter_none : forall (A : Type) (p : A -> bool) l, (forall i, In i l -> p i = false) -> filter p l = [].
Proof.
  intros A p l. induction l as [|x l IH]; intro H; simpl; [reflexivity|].
  rewrite (H x) by (now left). apply IH. intros i Hi. apply H. now right.
Qed.

Lemma C62_lemma : forall n e path off forced s r s' f c a v nolink,
  add_file n e path off forced s = (r, s') -> reach e s -> f <> [] ->
  dget f (st_map s') = dget f (st_map s) ->
  (forall i, In i (st_list s') -> st_next s <= it_id i -> it_origin i <> f /\ ~ linked s f (it_origin i)) ->
  (forall i d, In i (st_list s) -> it_origin i = f \/ linked s f (it_origin i) -> it_origin i <> d ++ ".bbappend") ->
  get_items_for e s' (MkQuery (Some f) c a v nolink) = get_items_for e s (MkQuery (Some f) c a v nolink).
Proof.
  intros n e path off forced s r s' f c a v nolink H Hr Hf Hm Hnew Hold.
  apply add_file_grows in H. destruct H as [g [new [Hg [EL [_ [Hrng _]]]]]]. rewrite app_nil_r in Hrng.
  unfold get_items_for. rewrite !reduce_eq. f_equal. f_equal. rewrite EL, filter_app.
  set (q := MkQuery (Some f) c a v nolink).
  assert (Hmp : forall i, sel_file (st_map s') q i = sel_file (st_map s) q i).
  { intro i. unfold sel_file, is_linked_to. simpl. destruct f as [|c0 f]; [reflexivity|]. now rewrite Hm. }
  assert (Hsel : forall i, sel (st_map s') q i = sel (st_map s) q i) by (intro i; unfold sel; now rewrite Hmp).
  assert (Hof : forall i, sel (st_map s) q i = true -> it_origin i = f \/ linked s f (it_origin i)).
  { intros i Hi. apply sel_iff in Hi. destruct Hi as [Hi _]. unfold of_file in Hi. simpl in Hi.
    destruct Hi as [Hi|[Hi|[_ Hi]]]; [contradiction|auto|auto]. }
  rewrite (filter_none _ _ new), app_nil_r.
  - rewrite (filter_ext _ _ Hsel). apply map_filter_id. intros i Hi Hs. destruct (Hg i) as [_ [_ G3]]. apply G3.
    assert (Ho : it_origin i = f \/ linked s f (it_origin i)).
    { destruct Hs as [Hs|Hs]; apply Hof in Hs; [|exact Hs]. now rewrite (raises_it_origin g i Hg) in Hs. }
    destruct (endswith ".bbappend" (it_origin i)) eqn:E; [|reflexivity]. exfalso.
    apply endswith_iff in E. destruct E as [d Ed]. now apply (Hold i d Hi Ho).
  - intros i Hi. rewrite Hsel. destruct (sel (st_map s) q i) eqn:E; [|reflexivity]. exfalso.
    rewrite Forall_forall in Hrng. pose proof (Hrng i Hi) as Hr'. unfold in_range in Hr'.
    destruct (Hnew i) as [N1 N2]; [rewrite EL; apply in_or_app; now right|lia|].
    apply Hof in E. destruct E; contradiction.
Qed.
