(** * Calls with caches answer like calls without: proofs *)

From Verif Require Import PyStr Regex Patterns PyPath Res Inline Const Item Lines Stash
  StrFacts ReFacts LinesFacts ParseFacts HistFacts ReachFacts QueryFacts Cache Spec_Cache.
From Coq Require Import Permutation.

(** ** Keys *)

Lemma list_eqb_iff : forall (A : Type) (eqb : A -> A -> bool), (forall a b, eqb a b = true <-> a = b) ->
  forall a b, list_eqb eqb a b = true <-> a = b.
Proof.
  intros A eqb H a. induction a as [|x a IH]; intros [|y b]; cbn; try (split; [discriminate|discriminate]); [tauto|].
  rewrite Bool.andb_true_iff, H, IH. split; [intros [-> ->]; reflexivity|now injection 1].
Qed.
Lemma key_linked_iff : forall a b, key_linked a b = true <-> a = b.
Proof.
  intros [[a f] n] [[b g] m]. unfold key_linked. cbn. rewrite !Bool.andb_true_iff, Nat.eqb_eq, str_eqb_eq, Bool.eqb_true_iff.
  split; [intros [[-> ->] ->]; reflexivity|now injection 1].
Qed.
Lemma key_file_iff : forall a b, key_file a b = true <-> a = b.
Proof.
  intros [[[z a] f] n] [[[y b] g] m]. unfold key_file. cbn.
  rewrite !Bool.andb_true_iff, (list_eqb_iff _ _ Nat.eqb_eq), str_eqb_eq, !Bool.eqb_true_iff.
  split; [intros [[[-> ->] ->] ->]; reflexivity|now injection 1].
Qed.
Lemma key_class_iff : forall a b, key_class a b = true <-> a = b.
Proof.
  intros [a f] [b g]. unfold key_class. cbn.
  rewrite !Bool.andb_true_iff, (list_eqb_iff _ _ Nat.eqb_eq), (list_eqb_iff _ _ str_eqb_eq).
  split; [intros [-> ->]; reflexivity|now injection 1].
Qed.
Lemma pyval_eqb_both : forall a b v, pyval_eqb a b = true -> pyval_eqb a v = pyval_eqb b v.
Proof.
  intros [x|x|[]|] [y|y|[]|] [v|v|[]|] H; cbn -[Z.eqb str_eqb] in *; try discriminate; try reflexivity;
    try (apply Z.eqb_eq in H; subst; reflexivity); apply str_eqb_eq in H; subst; reflexivity.
Qed.
Lemma vals_both : forall a b, list_eqb pyval_eqb a b = true ->
  (a = [] <-> b = []) /\ forall v, existsb (fun w => pyval_eqb w v) a = existsb (fun w => pyval_eqb w v) b.
Proof.
  induction a as [|x a IH]; intros [|y b] H; cbn in H; try discriminate; [now split|].
  apply Bool.andb_true_iff in H. destruct H as [H1 H2]. apply IH in H2. destruct H2 as [_ H2].
  split; [split; discriminate|]. intro v. cbn. now rewrite H2, (pyval_eqb_both _ _ _ H1).
Qed.
Lemma by_attribute_both : forall l n a b, list_eqb pyval_eqb a b = true -> by_attribute l n a = by_attribute l n b.
Proof.
  intros l [|n0 n] a b H; [reflexivity|]. unfold by_attribute. apply filter_ext. intro x. unfold attr_filter.
  apply vals_both in H. destruct H as [H1 H2].
  assert (E : forall o, match dget o (attributes x) with
     | Some v => match a with [] => true | _ => existsb (fun w => pyval_eqb w v) a end | None => false end =
     match dget o (attributes x) with
     | Some v => match b with [] => true | _ => existsb (fun w => pyval_eqb w v) b end | None => false end).
  { intro o. destruct (dget o (attributes x)) as [v|]; [|reflexivity]. specialize (H2 v).
    destruct a, b; try reflexivity; try exact H2; exfalso; [now destruct H1 as [H1 _]; specialize (H1 eq_refl)|].
    destruct H1 as [_ H1]. now specialize (H1 eq_refl). }
  induction (n0 :: n) as [|o r IH]; [reflexivity|]. cbn [existsb]. now rewrite E, IH.
Qed.

Lemma look_some : forall (K V : Type) (eqb : K -> K -> bool) k t (v : V), look eqb k t = Some v ->
  exists k', eqb k' k = true /\ In (k', v) t.
Proof.
  intros K V eqb k t v. induction t as [|[k' v'] t IH]; cbn; [discriminate|].
  destruct (eqb k' k) eqn:E.
  - intro H. injection H as ->. exists k'. auto.
  - intro H. apply IH in H. destruct H as [k2 [H1 H2]]. exists k2. auto.
Qed.

(** ** Objects by identity *)

Lemma pick_map : forall l u, ids_ok l -> incl u l -> pick (map it_id u) l = u.
Proof.
  intros l u H. induction u as [|x u IH]; intro Hi; [reflexivity|]. unfold pick. cbn.
  destruct (find (fun y => Nat.eqb (it_id y) (it_id x)) l) as [y|] eqn:E.
  - apply find_some in E. destruct E as [E1 E2]. apply Nat.eqb_eq in E2.
    rewrite (H y x E1 (Hi x (or_introl eq_refl)) E2). cbn. f_equal. apply IH. intros z Hz. apply Hi. now right.
  - exfalso. apply (find_none _ _ E x) in Hi; [|now left]. now rewrite Nat.eqb_refl in Hi.
Qed.
Lemma ids_lists : forall l a b, ids_ok l -> incl a l -> incl b l -> map it_id a = map it_id b -> a = b.
Proof.
  intros l a b H Ha Hb E. rewrite <- (pick_map l a H Ha), <- (pick_map l b H Hb). now rewrite E.
Qed.
Lemma incl_filter : forall (p : item -> bool) l, incl (filter p l) l.
Proof. intros p l x H. now apply filter_In in H. Qed.

(** ** The invariant *)

Definition files_fresh (s : stash) (t : tables) : Prop :=
  (forall n f nl b x, In ((n, f, nl), b) (t_linked t) -> In x (st_list s) -> it_id x = n ->
     b = is_linked_to (st_map s) (it_origin x) f nl) /\
  (forall z ids f nl r l, In ((z, ids, f, nl), r) (t_file t) -> incl l (st_list s) -> map it_id l = ids ->
     r = map it_id (filter (fun x => is_linked_to (st_map s) (it_origin x) f nl) l)).
Definition filters_fresh (s : stash) (t : tables) : Prop :=
  (forall ids cl r l, In ((ids, cl), r) (t_class t) -> incl l (st_list s) -> map it_id l = ids ->
     r = map it_id (by_classifier l cl)) /\
  (forall ids n v r l, In ((ids, n, v), r) (t_attr t) -> incl l (st_list s) -> map it_id l = ids ->
     r = map it_id (by_attribute l n v)).
Definition answers_fresh (e : env) (s : stash) (t : tables) : Prop :=
  (forall v, t_recipes t = Some v -> v = get_recipes s) /\
  (forall v, t_lone t = Some v -> v = get_lone_appends s) /\
  (forall v, t_conf t = Some v -> v = get_conf_files e s) /\
  (forall f v, In (f, v) (t_links t) -> v = get_links_for_file e s f) /\
  (forall f v, In (f, v) (t_image t) -> v = is_image e s f) /\
  (forall f v, In (f, v) (t_group t) -> v = is_packagegroup e s f).
Definition fresh (e : env) (s : stash) (t : tables) : Prop :=
  files_fresh s t /\ filters_fresh s t /\ answers_fresh e s t.
(** Only the tables below GetItemsFor changed. *)
Definition same_answers (t t' : tables) : Prop :=
  t_recipes t' = t_recipes t /\ t_lone t' = t_lone t /\ t_conf t' = t_conf t /\ t_classes t' = t_classes t /\
  t_links t' = t_links t /\ t_image t' = t_image t /\ t_group t' = t_group t.
Lemma same_refl : forall t, same_answers t t.
Proof. intro t. repeat split. Qed.
Lemma same_trans : forall a b c, same_answers a b -> same_answers b c -> same_answers a c.
Proof. unfold same_answers. intros a b c H1 H2. intuition congruence. Qed.
Lemma same_fresh : forall e s t t', same_answers t t' -> answers_fresh e s t -> answers_fresh e s t'.
Proof.
  intros e s t t' (E1 & E2 & E3 & _ & E5 & E6 & E7) H. unfold answers_fresh in *. rewrite E1, E2, E3, E5, E6, E7. exact H.
Qed.

Lemma cleared : forall e s t, fresh e s (clear_cached t).
Proof. intros e s t. repeat split; cbn; intros; (contradiction || discriminate). Qed.

(** ** Lookups *)

Lemma linked_fresh : forall s t x f nl, files_fresh s t -> In x (st_list s) -> ids_ok (st_list s) ->
  forall b t', linked_c (st_map s) x f nl t = (b, t') ->
  b = is_linked_to (st_map s) (it_origin x) f nl /\ files_fresh s t' /\ same_answers t t' /\
  t_class t' = t_class t /\ t_attr t' = t_attr t.
Proof.
  intros s t x f nl [H1 H2] Hx Hi b t' E. unfold linked_c in E.
  destruct (look key_linked (it_id x, f, nl) (t_linked t)) as [b0|] eqn:El.
  - injection E as <- <-. apply look_some in El. destruct El as [k [Ek Hk]]. apply key_linked_iff in Ek. subst k.
    split; [now apply (H1 _ _ _ _ x Hk)|]. repeat split; assumption.
  - injection E as <- <-. split; [reflexivity|]. split; [|repeat split]. split; [|exact H2].
    cbn. intros n g nl' b y [Hy|Hy] Hin Hid.
    + injection Hy as <- <- <- <-. now rewrite (Hi y x Hin Hx Hid).
    + now apply (H1 _ _ _ _ y Hy).
Qed.
Lemma filter_fresh : forall s f nl l t, files_fresh s t -> incl l (st_list s) -> ids_ok (st_list s) ->
  forall r t', filter_c (st_map s) l f nl t = (r, t') ->
  r = filter (fun x => is_linked_to (st_map s) (it_origin x) f nl) l /\ files_fresh s t' /\ same_answers t t' /\
  t_class t' = t_class t /\ t_attr t' = t_attr t.
Proof.
  intros s f nl l. induction l as [|x l IH]; intros t H Hl Hi r t' E; cbn in E.
  - injection E as <- <-. split; [reflexivity|]. split; [exact H|]. repeat split.
  - destruct (linked_c (st_map s) x f nl t) as [b t1] eqn:E1.
    destruct (filter_c (st_map s) l f nl t1) as [r' t2] eqn:E2. injection E as <- <-.
    destruct (linked_fresh s t x f nl H (Hl x (or_introl eq_refl)) Hi _ _ E1) as [-> [F1 [S1 [C1 A1]]]].
    destruct (IH t1 F1 (fun y Hy => Hl y (or_intror Hy)) Hi _ _ E2) as [-> [F2 [S2 [C2 A2]]]].
    split; [reflexivity|]. split; [exact F2|]. split; [now apply (same_trans _ t1)|]. split; congruence.
Qed.
Lemma by_file_fresh : forall s z f nl l t, files_fresh s t -> incl l (st_list s) -> ids_ok (st_list s) ->
  forall r t', by_file_c (st_map s) z l f nl t = (r, t') ->
  r = filter (fun x => is_linked_to (st_map s) (it_origin x) f nl) l /\ files_fresh s t' /\ same_answers t t' /\
  t_class t' = t_class t /\ t_attr t' = t_attr t.
Proof.
  intros s z f nl l t H Hl Hi r t' E. unfold by_file_c in E.
  destruct (look key_file (z, map it_id l, f, nl) (t_file t)) as [ids|] eqn:El.
  - injection E as <- <-. apply look_some in El. destruct El as [k [Ek Hk]]. apply key_file_iff in Ek. subst k.
    split; [|split; [exact H|]; repeat split]. destruct H as [_ H].
    rewrite (H _ _ _ _ _ l Hk Hl eq_refl). apply pick_map; [now apply (ids_ok_incl (st_list s))|apply incl_filter].
  - destruct (filter_c (st_map s) l f nl t) as [r0 t1] eqn:E1. injection E as <- <-.
    destruct (filter_fresh s f nl l t H Hl Hi _ _ E1) as [-> [[F1 F2] [S1 [C1 A1]]]].
    split; [reflexivity|]. split; [|repeat split; solve [apply S1|assumption]]. split; [exact F1|].
    cbn. intros z' ids g nl' r l' [Hy|Hy] Hin Hid; [|now apply (F2 _ _ _ _ _ l' Hy)].
    injection Hy as <- <- <- <- <-. now rewrite (ids_lists (st_list s) l l' Hi Hl Hin (eq_sym Hid)).
Qed.
Lemma by_class_fresh : forall s cl l t, filters_fresh s t -> incl l (st_list s) -> ids_ok (st_list s) ->
  forall r t', by_class_c l cl t = (r, t') ->
  r = by_classifier l cl /\ filters_fresh s t' /\ same_answers t t' /\ t_linked t' = t_linked t /\ t_file t' = t_file t.
Proof.
  intros s cl l t H Hl Hi r t' E. unfold by_class_c in E.
  destruct (look key_class (map it_id l, cl) (t_class t)) as [ids|] eqn:El.
  - injection E as <- <-. apply look_some in El. destruct El as [k [Ek Hk]]. apply key_class_iff in Ek. subst k.
    split; [|split; [exact H|]; repeat split]. destruct H as [H _]. rewrite (H _ _ _ l Hk Hl eq_refl).
    apply pick_map; [now apply (ids_ok_incl (st_list s))|]. destruct cl; [apply incl_refl|apply incl_filter].
  - injection E as <- <-. split; [reflexivity|]. split; [|repeat split]. destruct H as [F1 F2]. split; [|exact F2].
    cbn [t_class put_class]. intros ids g r l' [Hy|Hy] Hin Hid; [|now apply (F1 _ _ _ l' Hy)].
    injection Hy as <- <- <-. now rewrite (ids_lists (st_list s) l l' Hi Hl Hin (eq_sym Hid)).
Qed.
Lemma by_attr_fresh : forall s n v l t, filters_fresh s t -> incl l (st_list s) -> ids_ok (st_list s) ->
  forall r t', by_attr_c l n v t = (r, t') ->
  r = by_attribute l n v /\ filters_fresh s t' /\ same_answers t t' /\ t_linked t' = t_linked t /\ t_file t' = t_file t.
Proof.
  intros s n v l t H Hl Hi r t' E. unfold by_attr_c in E.
  destruct (look key_attr (map it_id l, n, v) (t_attr t)) as [ids|] eqn:El.
  - injection E as <- <-. apply look_some in El. destruct El as [[[i0 n0] v0] [Ek Hk]].
    unfold key_attr in Ek. cbn in Ek. rewrite !Bool.andb_true_iff, (list_eqb_iff _ _ Nat.eqb_eq), (list_eqb_iff _ _ str_eqb_eq) in Ek.
    destruct Ek as [[-> ->] Ev]. split; [|split; [exact H|]; repeat split]. destruct H as [_ H].
    rewrite (H _ _ _ _ l Hk Hl eq_refl), <- (by_attribute_both l n v0 v Ev).
    apply pick_map; [now apply (ids_ok_incl (st_list s))|]. destruct n; [apply incl_refl|apply incl_filter].
  - injection E as <- <-. split; [reflexivity|]. split; [|repeat split]. destruct H as [F1 F2]. split; [exact F1|].
    cbn [t_attr put_attr]. intros ids g w r l' [Hy|Hy] Hin Hid; [|now apply (F2 _ _ _ _ l' Hy)].
    injection Hy as <- <- <- <-. now rewrite (ids_lists (st_list s) l l' Hi Hl Hin (eq_sym Hid)).
Qed.

Lemma files_eq : forall s t t', t_linked t' = t_linked t -> t_file t' = t_file t -> files_fresh s t -> files_fresh s t'.
Proof. unfold files_fresh. intros s t t' -> ->. tauto. Qed.
Lemma filters_eq : forall s t t', t_class t' = t_class t -> t_attr t' = t_attr t -> filters_fresh s t -> filters_fresh s t'.
Proof. unfold filters_fresh. intros s t t' -> ->. tauto. Qed.

Lemma items_fresh : forall e s q t, ids_ok (st_list s) -> files_fresh s t -> filters_fresh s t ->
  forall r t', items_c e s q t = (r, t') ->
  r = get_items_for e s q /\ files_fresh s t' /\ filters_fresh s t' /\ same_answers t t'.
Proof.
  intros e s q t Hi Hf Hs r t' E. unfold items_c in E. unfold get_items_for, reduce_.
  set (l1 := match q_file q with Some f => by_file (st_map s) (st_list s) f (q_nolink q) | None => st_list s end) in *.
  match type of E with (let '(_, _) := ?x in _) = _ => destruct x as [m1 t1] eqn:E1 end.
  assert (A1 : m1 = l1 /\ files_fresh s t1 /\ filters_fresh s t1 /\ same_answers t t1).
  { unfold l1, by_file. destruct (q_file q) as [[|c f]|].
    - injection E1 as <- <-. auto using same_refl.
    - destruct (by_file_fresh s _ _ _ _ t Hf (incl_refl _) Hi _ _ E1) as [-> [F [S [C A]]]].
      split; [reflexivity|]. split; [exact F|]. split; [now apply (filters_eq s t)|exact S].
    - injection E1 as <- <-. auto using same_refl. }
  destruct A1 as [-> [F1 [G1 S1]]].
  assert (I1 : incl l1 (st_list s)).
  { unfold l1, by_file. destruct (q_file q) as [[|c f]|]; try apply incl_refl. apply incl_filter. }
  set (cl := norm_arg nonempty (q_class q)) in *. set (na := norm_arg nonempty (q_attr q)) in *.
  set (vl := norm_arg pyval_true (q_val q)) in *.
  match type of E with (let '(_, _) := ?x in _) = _ => destruct x as [m2 t2] eqn:E2 end.
  assert (A2 : m2 = by_classifier l1 cl /\ files_fresh s t2 /\ filters_fresh s t2 /\ same_answers t t2).
  { destruct cl as [|c0 cl'].
    - injection E2 as <- <-. auto.
    - destruct (by_class_fresh s _ _ t1 G1 I1 Hi _ _ E2) as [-> [G [S [C A]]]].
      split; [reflexivity|]. split; [now apply (files_eq s t1)|]. split; [exact G|now apply (same_trans _ t1)]. }
  destruct A2 as [-> [F2 [G2 S2]]].
  assert (I2 : incl (by_classifier l1 cl) (st_list s)).
  { apply (incl_tran (m := l1)); [|exact I1]. destruct cl; [apply incl_refl|apply incl_filter]. }
  match type of E with (let '(_, _) := ?x in _) = _ => destruct x as [m3 t3] eqn:E3 end.
  injection E as <- <-. destruct na as [|n0 na'].
  - injection E3 as <- <-. auto.
  - destruct (by_attr_fresh s _ _ _ t2 G2 I2 Hi _ _ E3) as [-> [G [S [C A]]]].
    split; [reflexivity|]. split; [now apply (files_eq s t2)|]. split; [exact G|now apply (same_trans _ t2)].
Qed.

(** ** Queries *)

Lemma items_ok : forall e s q t r t', ids_ok (st_list s) -> fresh e s t -> items_c e s q t = (r, t') ->
  r = get_items_for e s q /\ fresh e s t'.
Proof.
  intros e s q t r t' Hi [F [G A]] E. destruct (items_fresh e s q t Hi F G _ _ E) as [-> [F' [G' S]]].
  split; [reflexivity|]. split; [exact F'|]. split; [exact G'|]. now apply (same_fresh e s t).
Qed.

Lemma links_ok : forall e s f t r t', env_ok e -> ids_ok (st_list s) -> fresh e s t -> links_c e s f t = (r, t') ->
  r = get_links_for_file e s f /\ fresh e s t'.
Proof.
  intros e s f t r t' He Hi [F [G A]] E. unfold links_c in E.
  destruct (look str_eqb f (t_links t)) as [v|] eqn:El.
  - injection E as <- <-. apply look_some in El. destruct El as [k [Ek Hk]]. apply str_eqb_eq in Ek. subst k.
    split; [|split; [exact F|now split]]. now apply A.
  - match type of E with (let '(_, _) := ?x in _) = _ => destruct x as [v t1] eqn:E1 end. injection E as <- <-.
    assert (B : v = get_links_for_file e s f /\ files_fresh s t1 /\ filters_fresh s t1 /\ same_answers t t1).
    { destruct f as [|c f]; [injection E1 as <- <-; auto using same_refl|].
      destruct (by_file_c (st_map s) true (e_iset e (st_list s)) (c :: f) false t) as [l t2] eqn:E2.
      injection E1 as <- <-.
      assert (I : incl (e_iset e (st_list s)) (st_list s)).
      { intros x Hx. apply (dedup_items_In _ x Hi). apply (Permutation_in x (proj1 He (st_list s)) Hx). }
      destruct (by_file_fresh s _ _ _ _ t F I Hi _ _ E2) as [-> [F' [S [C A']]]].
      split; [reflexivity|]. split; [exact F'|]. split; [now apply (filters_eq s t)|exact S]. }
    destruct B as [-> [F1 [G1 S1]]]. split; [reflexivity|]. split; [exact F1|]. split; [exact G1|].
    apply (same_fresh e s t t1 S1) in A. destruct A as (A1 & A2 & A3 & A4 & A5 & A6). repeat split; try assumption.
    cbn. intros g v [Hv|Hv]; [|now apply A4]. now injection Hv as <- <-.
Qed.

Lemma group_ok : forall e s f t r t', ids_ok (st_list s) -> fresh e s t -> group_c e s f t = (r, t') ->
  r = is_packagegroup e s f /\ fresh e s t'.
Proof.
  intros e s f t r t' Hi H E. unfold group_c in E.
  destruct (look str_eqb f (t_group t)) as [v|] eqn:El.
  - injection E as <- <-. apply look_some in El. destruct El as [k [Ek Hk]]. apply str_eqb_eq in Ek. subst k.
    split; [|exact H]. now apply H.
  - destruct (inherits_c e s f t) as [l t1] eqn:E1. injection E as <- <-.
    destruct (items_ok e s _ t _ _ Hi H E1) as [-> [F1 [G1 (A1 & A2 & A3 & A4 & A5 & A6)]]].
    split; [reflexivity|]. split; [exact F1|]. split; [exact G1|]. repeat split; try assumption.
    cbn [t_group put_group]. intros g v [Hv|Hv]; [|now apply A6]. now injection Hv as <- <-.
Qed.

Lemma image_vars_ok : forall e s f vs t r t', ids_ok (st_list s) -> fresh e s t -> image_vars_c e s f vs t = (r, t') ->
  r = existsb (fun v => match vars_named e s f v with [] => false | _ => true end) vs /\ fresh e s t'.
Proof.
  intros e s f vs. induction vs as [|v vs IH]; intros t r t' Hi H E; cbn [image_vars_c] in E.
  - injection E as <- <-. now split.
  - match type of E with (let '(_, _) := ?x in _) = _ => destruct x as [l t1] eqn:E1 end.
    destruct (image_vars_c e s f vs t1) as [b t2] eqn:E2. injection E as <- <-.
    destruct (items_ok e s _ t _ _ Hi H E1) as [-> H1]. destruct (IH t1 _ _ Hi H1 E2) as [-> H2]. now split.
Qed.
Lemma image_ok : forall e s f t r t', ids_ok (st_list s) -> fresh e s t -> image_c e s f t = (r, t') ->
  r = is_image e s f /\ fresh e s t'.
Proof.
  intros e s f t r t' Hi H E. unfold image_c in E.
  destruct (look str_eqb f (t_image t)) as [v|] eqn:El.
  - injection E as <- <-. apply look_some in El. destruct El as [k [Ek Hk]]. apply str_eqb_eq in Ek. subst k.
    split; [|exact H]. now apply H.
  - destruct (inherits_c e s f t) as [l t1] eqn:E1.
    match type of E with (let '(_, _) := ?x in _) = _ => destruct x as [b t2] eqn:E2 end. injection E as <- <-.
    destruct (items_ok e s _ t _ _ Hi H E1) as [-> H1].
    destruct (image_vars_ok e s f _ t1 _ _ Hi H1 E2) as [-> [F1 [G1 (A1 & A2 & A3 & A4 & A5 & A6)]]].
    split; [reflexivity|]. split; [exact F1|]. split; [exact G1|]. repeat split; try assumption.
    cbn [t_image put_image]. intros g v [Hv|Hv]; [|now apply A5]. now injection Hv as <- <-.
Qed.

(** ** Finalize *)

Lemma files_marked : forall s t g, (forall i, it_id (g i) = it_id i /\ it_origin (g i) = it_origin i) ->
  files_fresh s t -> files_fresh (with_list (map g (st_list s)) s) t.
Proof.
  intros s t g Hg [H1 H2]. split; cbn [st_list st_map with_list].
  - intros n f nl b x Hx Hin Hid. apply in_map_iff in Hin. destruct Hin as [y [<- Hy]]. destruct (Hg y) as [G1 G2].
    rewrite G2. apply (H1 _ _ _ _ y Hx Hy). congruence.
  - intros z ids f nl r l Hx Hin Hid.
    assert (B : exists l0, incl l0 (st_list s) /\ l = map g l0).
    { clear -Hin. induction l as [|x l IH]; [exists []; split; [intros x []|reflexivity]|].
      destruct IH as [l0 [I ->]]; [intros y Hy; apply Hin; now right|].
      destruct (proj1 (in_map_iff _ _ _) (Hin x (or_introl eq_refl))) as [y [<- Hy]].
      exists (y :: l0). split; [|reflexivity]. intros w [<-|Hw]; auto. }
    destruct B as [l0 [I ->]].
    assert (M : forall u, map it_id (map g u) = map it_id u)
      by (intro u; rewrite map_map; apply map_ext; intro i; apply Hg).
    rewrite M in Hid. rewrite (H2 _ _ _ _ _ l0 Hx I Hid). rewrite <- (M (filter _ l0)). f_equal.
    clear -Hg. induction l0 as [|x l IH]; [reflexivity|]. cbn. rewrite (proj2 (Hg x)).
    destruct (is_linked_to _ _ _ _); cbn; now rewrite IH.
Qed.

Lemma mark_fold : forall e mp s t, ids_ok (st_list s) -> files_fresh s t -> t_class t = [] -> t_attr t = [] ->
  fst (fold_left (mark_c e) mp (s, t)) = fold_left (mark_file e) mp s.
Proof.
  intros e mp. induction mp as [|kv mp IH]; intros s t Hi F C A; [reflexivity|]. cbn [fold_left].
  unfold mark_c at 2. destruct (items_c e s (file_query (fst kv)) t) as [l t1] eqn:E.
  assert (G : filters_fresh s t) by (split; intros; [rewrite C in *|rewrite A in *]; contradiction).
  destruct (items_fresh e s _ t Hi F G _ _ E) as [-> [F1 [G1 S1]]].
  assert (B : t_class t1 = [] /\ t_attr t1 = []).
  { revert E. unfold items_c, file_query. cbn [q_class q_attr q_val q_file q_nolink norm_arg]. intro E.
    destruct (fst kv) as [|c f].
    - apply (f_equal snd) in E. cbn [snd] in E. subst t1. auto.
    - destruct (by_file_c (st_map s) false (st_list s) (c :: f) false t) as [l t2] eqn:E2.
      apply (f_equal snd) in E. cbn [snd] in E. subst t1.
      destruct (by_file_fresh s _ _ _ _ t F (incl_refl _) Hi _ _ E2) as [_ [_ [_ [-> ->]]]]. auto. }
  set (g := fun i => if existsb (Nat.eqb (it_id i)) (map it_id (get_items_for e s (file_query (fst kv))))
                     then add_incfrom (snd kv) i else i).
  assert (Hg : forall i, it_id (g i) = it_id i /\ it_origin (g i) = it_origin i)
    by (intro i; unfold g; destruct (existsb _ _); now split).
  change (mark_file e s kv) with (with_list (map g (st_list s)) s).
  change (mark_items _ (snd kv) (st_list s)) with (map g (st_list s)).
  apply IH; [|now apply files_marked|apply B|apply B]. apply ids_ok_map; [exact Hi|]. intro i. apply Hg.
Qed.

Definition clean (t : tables) : Prop := exists t0, t = clear_cached t0.
Lemma finalize_same : forall e s t, ids_ok (st_list s) -> clean t ->
  forall r x, finalize_c e s t = (r, x) -> finalize e s = (r, fst x) /\ (r = Ok tt -> clean (snd x)).
Proof.
  intros e s t Hi [t0 ->] r x E. unfold finalize_c in E. unfold finalize.
  destruct (link_all e (dkeys (st_map s)) (st_map s)) as [[u|ex|] mp].
  - destruct (fold_left (mark_c e) mp (with_map mp s, clear_cached t0)) as [s1 t1] eqn:E1. injection E as <- <-.
    split; [|intros _; now exists t1]. cbn [fst]. f_equal.
    pose proof (mark_fold e mp (with_map mp s) (clear_cached t0)) as M. rewrite E1 in M. cbn [fst] in M.
    rewrite M; [reflexivity|exact Hi|apply (cleared e)|reflexivity|reflexivity].
  - injection E as <- <-. split; [reflexivity|discriminate].
  - injection E as <- <-. split; [reflexivity|discriminate].
Qed.

(** ** Histories *)

Lemma early_iff : forall e path s, returns_early e path s = true <-> known_file e path s.
Proof.
  intros e path s. unfold returns_early, known_file. cbv zeta.
  rewrite Bool.orb_true_iff, Bool.andb_true_iff, Bool.negb_true_iff, !mem_str_In.
  assert (B : forall x l, mem_str x l = false <-> ~ In x l)
    by (intros x l; rewrite <- mem_str_In, Bool.not_true_iff_false; tauto).
  rewrite B. unfold multi_exts. tauto.
Qed.
Lemma early_same : forall e path s n off forced r s', add_file n e path off forced s = (r, s') ->
  returns_early e path s = true -> s' = s.
Proof.
  intros e path s n off forced r s' E H. destruct n as [|n]; [cbn in E; now injection E as _ <-|].
  rewrite add_file_eq in E. cbv zeta in E. change (skipped e path s) with (returns_early e path s) in E.
  rewrite H in E. now injection E as _ <-.
Qed.

Lemma query_ok : forall e c s t, env_ok e -> ids_ok (st_list s) -> fresh e s t -> is_query c -> c <> CClasses ->
  exists t', call_c e c (s, t) = (fst (plain e c s), (s, t')) /\ snd (plain e c s) = s /\ fresh e s t'.
Proof.
  intros e c s t He Hi H Hq Hc. destruct c; try contradiction; try congruence; cbn [call_c plain fst snd]; unfold answer_as.
  - destruct (items_c e s q t) as [r t'] eqn:E. destruct (items_ok e s q t _ _ Hi H E) as [-> H']. eauto.
  - unfold const_c. pose proof H as H0. destruct H as [F [G (A1 & A2 & A3 & A4)]].
    remember (t_recipes t) as o eqn:Eo. destruct o as [v|]; cbn [fst snd].
    + rewrite (A1 v eq_refl). eauto.
    + eexists. split; [reflexivity|]. split; [reflexivity|]. split; [exact F|]. split; [exact G|].
      split; [cbn; intros w Hw; now injection Hw as <-|]. split; [exact A2|]. split; [exact A3|]. exact A4.
  - unfold const_c. pose proof H as H0. destruct H as [F [G (A1 & A2 & A3 & A4)]].
    remember (t_lone t) as o eqn:Eo. destruct o as [v|]; cbn [fst snd].
    + rewrite (A2 v eq_refl). eauto.
    + eexists. split; [reflexivity|]. split; [reflexivity|]. split; [exact F|]. split; [exact G|].
      split; [exact A1|]. split; [cbn; intros w Hw; now injection Hw as <-|]. split; [exact A3|]. exact A4.
  - unfold const_c. pose proof H as H0. destruct H as [F [G (A1 & A2 & A3 & A4)]].
    remember (t_conf t) as o eqn:Eo. destruct o as [v|]; cbn [fst snd].
    + rewrite (A3 v eq_refl). eauto.
    + eexists. split; [reflexivity|]. split; [reflexivity|]. split; [exact F|]. split; [exact G|].
      split; [exact A1|]. split; [exact A2|]. split; [cbn; intros w Hw; now injection Hw as <-|]. exact A4.
  - destruct (links_c e s f t) as [r t'] eqn:E. destruct (links_ok e s f t _ _ He Hi H E) as [-> H']. eauto.
  - destruct (image_c e s f t) as [r t'] eqn:E. destruct (image_ok e s f t _ _ Hi H E) as [-> H']. eauto.
  - destruct (group_c e s f t) as [r t'] eqn:E. destruct (group_ok e s f t _ _ Hi H E) as [-> H']. eauto.
Qed.

Lemma C33_steps : forall e b s cs, env_ok e -> served e b s cs -> forall s0 t, steps e (s0) s ->
  (exists nw neg db, s0 = new_stash nw neg db) -> fresh e s t -> (b = true -> clean t) ->
  fst (calls_c e cs (s, t)) = fst (plain_calls e cs s) /\ fst (snd (calls_c e cs (s, t))) = snd (plain_calls e cs s).
Proof.
  intros e b s cs He H.
  assert (Ids : forall s0 s, steps e s0 s -> (exists nw neg db, s0 = new_stash nw neg db) -> ids_ok (st_list s)).
  { intros s0 s1 Hs (nw & neg & db & ->). apply (reach_ids e). now exists nw, neg, db. }
  assert (Go : forall cs a s1 x, call_c e a x = (fst (plain e a s1), (snd (plain e a s1), snd (snd (call_c e a x)))) ->
    (let t1 := snd (snd (call_c e a x)) in let s2 := snd (plain e a s1) in
     fst (calls_c e cs (s2, t1)) = fst (plain_calls e cs s2) /\ fst (snd (calls_c e cs (s2, t1))) = snd (plain_calls e cs s2)) ->
    fst (calls_c e (a :: cs) x) = fst (plain_calls e (a :: cs) s1) /\
    fst (snd (calls_c e (a :: cs) x)) = snd (plain_calls e (a :: cs) s1)).
  { intros cs0 a s1 x E. cbv zeta. cbn [calls_c plain_calls]. revert E. destruct (call_c e a x) as [a1 [s2 t2]].
    destruct (plain e a s1) as [a3 s3]. cbn [fst snd]. intro E. injection E as -> ->.
    destruct (calls_c e cs0 (s3, t2)) as [l x2]. destruct (plain_calls e cs0 s3) as [l' s4]. cbn [fst snd].
    intros [-> ->]. now split. }
  induction H as [b s|b s cs n path off forced l s' E K _ IH|b s cs n path off forced l s' E K _ IH
                 |b s cs l Hl Hd _ IH|b s cs l s' E _ IH|s cs s' E _ IH|b s cs c Hq Hc _ IH];
    intros s0 t Hs N F B.
  - now split.
  - assert (Ke : returns_early e path s = false)
      by (apply Bool.not_true_iff_false; now rewrite early_iff).
    apply Go; cbn [call_c plain]; rewrite E; [reflexivity|]. cbn [fst snd]. rewrite Ke.
    apply (IH s0); [now apply (steps_add e s0 n path off forced s (Ok l))|exact N|apply cleared|now exists t].
  - pose proof (proj2 (early_iff e path s) K) as Ke. pose proof (early_same _ _ _ _ _ _ _ _ E Ke). subst s'.
    apply Go; cbn [call_c plain]; rewrite E; [reflexivity|]. cbn [fst snd]. rewrite Ke. now apply (IH s0).
  - apply Go; [reflexivity|]. cbn [call_c plain fst snd].
    apply (IH s0); [now apply steps_append|exact N|apply cleared|now exists t].
  - apply Go; cbn [call_c plain]; rewrite E; [reflexivity|]. cbn [fst snd].
    apply (IH s0); [now apply (steps_remove e s0 l s (Ok tt))|exact N|apply cleared|now exists t].
  - destruct (finalize_c e s t) as [r x] eqn:Ef.
    destruct (finalize_same e s t (Ids _ _ Hs N) (B eq_refl) _ _ Ef) as [E1 E2]. rewrite E in E1. injection E1 as <- E3.
    apply Go; cbn [call_c plain]; rewrite E, Ef; cbn [fst snd]; [rewrite E3; now destruct x|].
    destruct (E2 eq_refl) as [t0 Et]. rewrite Et.
    apply (IH s0); [now apply (steps_finalize e s0 s (Ok tt))|exact N|apply cleared|now exists t0].
  - destruct (query_ok e c s t He (Ids _ _ Hs N) F Hq Hc) as [t' [E1 [E2 F']]].
    apply Go; rewrite E1; cbn [fst snd]; rewrite E2; [reflexivity|]. apply (IH s0); auto. discriminate.
Qed.

Lemma C33_lemma : forall e nw neg db cs, env_ok e -> served e true (new_stash nw neg db) cs ->
  fst (calls_c e cs (new_stash nw neg db, no_tables)) = fst (plain_calls e cs (new_stash nw neg db)).
Proof.
  intros e nw neg db cs He H.
  apply (C33_steps e true _ cs He H (new_stash nw neg db) no_tables); [apply steps_refl|eauto|apply (cleared e _ no_tables)|].
  intros _. now exists no_tables.
Qed.
