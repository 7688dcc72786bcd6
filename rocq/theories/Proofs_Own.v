(** * Proofs for C97 *)

From Verif Require Import PyStr Regex Patterns PyPath Res Inline Const Item Lines Stash StrFacts
  ReachFacts HistFacts QueryFacts Proofs_Query Cache Spec_Cache Proofs_Cache CacheHeap Spec_Own.
From Coq Require Import Permutation.

(** ** The tables that the references stand for *)

Definition deref {K V} (d : obj -> V) (h : heap) (t : list (K * nat)) : list (K * V) :=
  map (fun kv => (fst kv, d (read h (snd kv)))) t.
Definition seen_as (h : heap) (t : htables) : tables :=
  MkTables (option_map (fun a => strs_of (read h a)) (h_recipes t)) (option_map (fun a => strs_of (read h a)) (h_lone t))
    (option_map (fun a => strs_of (read h a)) (h_conf t)) (option_map (fun a => strs_of (read h a)) (h_classes t))
    (h_linked t) (deref ids_of h (h_file t)) (deref ids_of h (h_class t)) (deref ids_of h (h_attr t))
    (deref strs_of h (h_links t)) (h_image t) (h_group t).

Lemma look_deref : forall K V (eqb : K -> K -> bool) (d : obj -> V) h k t,
  look eqb k (deref d h t) = option_map (fun a => d (read h a)) (look eqb k t).
Proof.
  intros K V eqb d h k t. induction t as [|[k' a] t IH]; [reflexivity|]. cbn. destruct (eqb k' k); [reflexivity|exact IH].
Qed.

(** Lists the stash uses itself, and lists it hands out. *)
Definition inner (t : htables) (a : nat) : Prop :=
  In a (map snd (h_file t)) \/ In a (map snd (h_class t)) \/ In a (map snd (h_attr t)).
Definition outer (t : htables) (a : nat) : Prop :=
  h_recipes t = Some a \/ h_lone t = Some a \/ h_conf t = Some a \/ h_classes t = Some a \/ In a (map snd (h_links t)).
Definition wf (held : list nat) (h : heap) (t : htables) : Prop :=
  (forall a, inner t a -> a < length h) /\
  (forall a, outer t a \/ In a held -> a < length h /\ ~ inner t a).

Lemma read_app : forall h u a, a < length h -> read (h ++ u) a = read h a.
Proof. intros h u a H. unfold read. now apply app_nth1. Qed.
Lemma read_new : forall h o, read (h ++ [o]) (length h) = o.
Proof. intros h o. unfold read. rewrite app_nth2 by lia. now rewrite Nat.sub_diag. Qed.

Lemma deref_eq : forall K V (d : obj -> V) h h' (t : list (K * nat)), (forall a, In a (map snd t) -> read h' a = read h a) ->
  deref d h' t = deref d h t.
Proof.
  intros K V d h h' t H. unfold deref. apply map_ext_in. intros [k a] Hi. cbn. rewrite H; [reflexivity|].
  apply in_map_iff. exists (k, a). auto.
Qed.
Lemma opt_eq : forall h h' (o : option nat), (forall a, o = Some a -> read h' a = read h a) ->
  option_map (fun a => strs_of (read h' a)) o = option_map (fun a => strs_of (read h a)) o.
Proof. intros h h' [a|] H; [cbn; now rewrite H|reflexivity]. Qed.

Lemma seen_app : forall held h u t, wf held h t -> seen_as (h ++ u) t = seen_as h t.
Proof.
  intros held h u t [W1 W2]. unfold seen_as.
  assert (I : forall a, inner t a -> read (h ++ u) a = read h a) by (intros a Ha; apply read_app; now apply W1).
  assert (O : forall a, outer t a -> read (h ++ u) a = read h a) by (intros a Ha; apply read_app; apply W2; now left).
  f_equal; try reflexivity; try (apply deref_eq); try (apply opt_eq); intros a Ha;
    ((apply I; unfold inner; tauto) || (apply O; unfold outer; tauto)).
Qed.

Lemma wf_app : forall held h u t, wf held h t -> wf held (h ++ u) t.
Proof.
  intros held h u t [W1 W2]. split.
  - intros a Ha. rewrite app_length. apply W1 in Ha. lia.
  - intros a Ha. rewrite app_length. destruct (W2 a Ha). split; [lia|assumption].
Qed.
Lemma wf_hold : forall held h t a, wf held h t -> a < length h -> ~ inner t a -> wf (a :: held) h t.
Proof. intros held h t a [W1 W2] Ha Hi. split; [exact W1|]. intros b [Hb|[<-|Hb]]; [apply W2; now left|auto|apply W2; now right]. Qed.
Lemma wf_drop : forall held h t a, wf (a :: held) h t -> wf held h t.
Proof. intros held h t a [W1 W2]. split; [exact W1|]. intros b [Hb|Hb]; [apply W2; now left|apply W2; right; now right]. Qed.
Lemma wf_new : forall held h t o, wf held h t -> wf (length h :: held) (h ++ [o]) t.
Proof.
  intros held h t o W. apply wf_hold; [now apply wf_app|rewrite app_length; cbn; lia|].
  intro Hi. destruct W as [W1 _]. apply W1 in Hi. lia.
Qed.
Lemma wf_outer : forall held h t a, wf held h t -> outer t a -> wf (a :: held) h t.
Proof. intros held h t a W Ha. pose proof (proj2 W a (or_introl Ha)) as [H1 H2]. now apply wf_hold. Qed.
Lemma wf_clear : forall held h t, wf held h t -> wf held h (clear_h t).
Proof.
  intros held h t [W1 W2]. split.
  - intros a [[]|[[]|[]]].
  - intros a Ha. split; [|intros [[]|[[]|[]]]]. apply W2. destruct Ha as [[Ha|[Ha|[Ha|[Ha|[]]]]]|Ha]; try discriminate Ha; [left|now right].
    unfold outer. tauto.
Qed.

(** A new list of the inner tables: the table [t'] has the addresses of [t] and
    the new one. *)
Lemma wf_inner : forall held h t t' o, wf held h t ->
  (forall a, inner t' a -> inner t a \/ a = length h) -> (forall a, outer t' a -> outer t a) ->
  wf held (h ++ [o]) t'.
Proof.
  intros held h t t' o [W1 W2] Hi Ho. split.
  - intros a Ha. rewrite app_length. cbn. destruct (Hi a Ha) as [H|H]; [apply W1 in H|]; lia.
  - intros a Ha. rewrite app_length. cbn. assert (Hs : outer t a \/ In a held) by (destruct Ha; auto).
    destruct (W2 a Hs) as [H1 H2]. split; [lia|]. intro H. apply Hi in H. destruct H as [H|H]; [contradiction|lia].
Qed.
(** A new list of the outer tables. *)
Lemma wf_outer_new : forall held h t t' o, wf held h t ->
  (forall a, inner t' a -> inner t a) -> (forall a, outer t' a -> outer t a \/ a = length h) ->
  wf held (h ++ [o]) t'.
Proof.
  intros held h t t' o [W1 W2] Hi Ho. split.
  - intros a Ha. rewrite app_length. cbn. apply Hi, W1 in Ha. lia.
  - intros a Ha. rewrite app_length. cbn.
    assert (Hs : (outer t a \/ In a held) \/ a = length h) by (destruct Ha as [Ha|Ha]; [destruct (Ho a Ha); auto|auto]).
    destruct Hs as [Hs| ->].
    + destruct (W2 a Hs) as [H1 H2]. split; [lia|]. auto.
    + split; [lia|]. intro H. apply Hi, W1 in H. lia.
Qed.

(** ** The calls, step by step *)

Lemma filter_sim : forall mp f nl l t,
  filter_c mp l f nl t = (fst (filter_h mp l f nl (t_linked t)),
    MkTables (t_recipes t) (t_lone t) (t_conf t) (t_classes t) (snd (filter_h mp l f nl (t_linked t))) (t_file t) (t_class t)
      (t_attr t) (t_links t) (t_image t) (t_group t)).
Proof.
  intros mp f nl l. induction l as [|x l IH]; intro t; cbn [filter_c filter_h]; [now destruct t|].
  unfold linked_c, linked_h. destruct (look key_linked (it_id x, f, nl) (t_linked t)) as [b|].
  - rewrite IH. destruct (filter_h mp l f nl (t_linked t)). reflexivity.
  - rewrite IH. cbn [put_linked t_linked t_recipes t_lone t_conf t_classes t_file t_class t_attr t_links t_image t_group].
    destruct (filter_h mp l f nl _). reflexivity.
Qed.
Lemma filter_h_incl : forall mp f nl l tl, incl (fst (filter_h mp l f nl tl)) l.
Proof.
  intros mp f nl l. induction l as [|x l IH]; intro tl; cbn [filter_h]; [apply incl_refl|].
  destruct (linked_h mp x f nl tl) as [b t1]. specialize (IH t1). destruct (filter_h mp l f nl t1) as [r' t2]. cbn in *.
  destruct b; intros y Hy.
  - destruct Hy as [<-|Hy]; [now left|right; now apply IH].
  - right. now apply IH.
Qed.

Lemma pick_incl : forall ids l, incl (pick ids l) l.
Proof.
  intros ids l x H. unfold pick in H. apply in_flat_map in H as [n [_ H]].
  destruct (find (fun y => Nat.eqb (it_id y) n) l) as [y|] eqn:E; [|destruct H].
  destruct H as [<-|[]]. now apply find_some in E.
Qed.

Section Sim.
  Context (held : list nat).

  (** What a step on lists does: same answer as with tables. *)
  Definition sim {A B} (r : A * hst) (m : B * tables) (rel : A -> hst -> B -> Prop) : Prop :=
    rel (fst r) (snd r) (fst m) /\ seen_as (fst (snd r)) (snd (snd r)) = snd m /\ wf held (fst (snd r)) (snd (snd r)).
  Definition lists (l : list item) (a : nat) (x : hst) (r : list item) : Prop := items_at x a l = r /\ incl r l.

  Lemma by_file_sim : forall mp z l f nl h t, wf held h t -> ids_ok l ->
    sim (by_file_h mp z l f nl (h, t)) (by_file_c mp z l f nl (seen_as h t)) (lists l).
  Proof.
    intros mp z l f nl h t W Hi. unfold by_file_h, by_file_c in *. cbn [snd].
    change (t_file (seen_as h t)) with (deref ids_of h (h_file t)) in *. rewrite look_deref in *.
    destruct (look key_file (z, map it_id l, f, nl) (h_file t)) as [a|] eqn:E; cbn [option_map] in *.
    - split; [|split; [reflexivity|exact W]]. split; [reflexivity|]. apply pick_incl.
    - rewrite filter_sim. cbn [alloc fst snd]. change (t_linked (seen_as h t)) with (h_linked t).
      destruct (filter_h mp l f nl (h_linked t)) as [r tl] eqn:Ef. cbn [fst snd].
      assert (Hr : incl r l) by (pose proof (filter_h_incl mp f nl l (h_linked t)) as H; now rewrite Ef in H).
      split; [|split].
      + unfold lists, items_at. cbn [fst snd]. rewrite read_new. cbn [ids_of]. rewrite pick_map by assumption. auto.
      + cbn [fst snd]. pose proof (seen_app held h [OItems (map it_id r)] t W) as S. unfold seen_as in *. cbn [h_recipes h_lone h_conf h_classes h_links h_linked h_file h_class h_attr h_image h_group hput_file put_file t_recipes t_lone t_conf t_classes t_linked t_file t_class t_attr t_links t_image t_group].
        injection S as S1 S2 S3 S4 S5 S6 S7 S8. rewrite S1, S2, S3, S4, S6, S7, S8.
        unfold put_file. cbn [t_recipes t_lone t_conf t_classes t_linked t_file t_class t_attr t_links t_image t_group]. f_equal. unfold deref at 1. cbn [map fst snd]. rewrite read_new. cbn [ids_of]. f_equal. exact S5.
      + cbn [fst snd]. apply (wf_inner held h t); [exact W| |].
        * intros a [[<-|Ha]|Ha]; [now right|left; now left|left; now right].
        * intros a Ha. exact Ha.
  Qed.
  Lemma by_class_sim : forall cl l h t, wf held h t -> ids_ok l -> cl <> [] ->
    sim (by_class_h l cl (h, t)) (by_class_c l cl (seen_as h t)) (lists l).
  Proof.
    intros cl l h t W Hi Hc. unfold by_class_h, by_class_c in *. cbn [snd].
    change (t_class (seen_as h t)) with (deref ids_of h (h_class t)) in *. rewrite look_deref in *.
    destruct (look key_class (map it_id l, cl) (h_class t)) as [a|] eqn:E; cbn [option_map] in *.
    - split; [|split; [reflexivity|exact W]]. split; [reflexivity|]. apply pick_incl.
    - cbn [alloc fst snd].
      assert (Hr : incl (by_classifier l cl) l) by (destruct cl; [congruence|apply incl_filter]).
      split; [|split].
      + unfold lists, items_at. cbn [fst snd]. rewrite read_new. cbn [ids_of]. rewrite pick_map by assumption. auto.
      + cbn [fst snd]. pose proof (seen_app held h [OItems (map it_id (by_classifier l cl))] t W) as S. unfold seen_as in *. cbn [h_recipes h_lone h_conf h_classes h_links h_linked h_file h_class h_attr h_image h_group hput_class put_class t_recipes t_lone t_conf t_classes t_linked t_file t_class t_attr t_links t_image t_group].
        injection S as S1 S2 S3 S4 S5 S6 S7 S8. rewrite S1, S2, S3, S4, S5, S7, S8. unfold put_class. cbn [t_recipes t_lone t_conf t_classes t_linked t_file t_class t_attr t_links t_image t_group]. f_equal.
        unfold deref at 1. cbn [map fst snd]. rewrite read_new. cbn [ids_of]. f_equal. exact S6.
      + cbn [fst snd]. apply (wf_inner held h t); [exact W| |].
        * intros a [Ha|[[<-|Ha]|Ha]]; [left; now left|now right|left; right; now left|left; right; now right].
        * intros a Ha. exact Ha.
  Qed.
  Lemma by_attr_sim : forall n v l h t, wf held h t -> ids_ok l -> n <> [] ->
    sim (by_attr_h l n v (h, t)) (by_attr_c l n v (seen_as h t)) (lists l).
  Proof.
    intros n v l h t W Hi Hc. unfold by_attr_h, by_attr_c in *. cbn [snd].
    change (t_attr (seen_as h t)) with (deref ids_of h (h_attr t)) in *. rewrite look_deref in *.
    destruct (look key_attr (map it_id l, n, v) (h_attr t)) as [a|] eqn:E; cbn [option_map] in *.
    - split; [|split; [reflexivity|exact W]]. split; [reflexivity|]. apply pick_incl.
    - cbn [alloc fst snd].
      assert (Hr : incl (by_attribute l n v) l) by (destruct n; [congruence|apply incl_filter]).
      split; [|split].
      + unfold lists, items_at. cbn [fst snd]. rewrite read_new. cbn [ids_of]. rewrite pick_map by assumption. auto.
      + cbn [fst snd]. pose proof (seen_app held h [OItems (map it_id (by_attribute l n v))] t W) as S. unfold seen_as in *. cbn [h_recipes h_lone h_conf h_classes h_links h_linked h_file h_class h_attr h_image h_group hput_attr put_attr t_recipes t_lone t_conf t_classes t_linked t_file t_class t_attr t_links t_image t_group].
        injection S as S1 S2 S3 S4 S5 S6 S7 S8. rewrite S1, S2, S3, S4, S5, S6, S8. unfold put_attr. cbn [t_recipes t_lone t_conf t_classes t_linked t_file t_class t_attr t_links t_image t_group]. f_equal.
        unfold deref at 1. cbn [map fst snd]. rewrite read_new. cbn [ids_of]. f_equal. exact S7.
      + cbn [fst snd]. apply (wf_inner held h t); [exact W| |].
        * intros a [Ha|[Ha|[<-|Ha]]]; [left; now left|left; right; now left|now right|left; right; now right].
        * intros a Ha. exact Ha.
  Qed.

  Lemma iset_incl : forall e l, env_ok e -> ids_ok l -> incl (e_iset e l) l.
  Proof. intros e l He Hi x Hx. apply (dedup_items_In _ x Hi). apply (Permutation_in x (proj1 He l) Hx). Qed.
  Lemma iset_sub : forall e l, env_ok e -> incl (e_iset e l) l.
  Proof.
    intros e l He x Hx. apply (Permutation_in x (proj1 He l)) in Hx. clear -Hx. revert x Hx.
    induction l as [|y l IH]; intros x Hx; [destruct Hx|]. cbn in Hx. destruct Hx as [<-|Hx]; [now left|].
    right. apply IH. apply filter_In in Hx. exact (proj1 Hx).
  Qed.

  Lemma new_list_sim : forall h t o, wf held h t -> forall a x, alloc o (h, t) = (a, x) ->
    read (fst x) a = o /\ seen_as (fst x) (snd x) = seen_as h t /\ wf (a :: held) (fst x) (snd x).
  Proof.
    intros h t o W a x E. unfold alloc in E. injection E as <- <-. cbn [fst snd]. rewrite read_new.
    split; [reflexivity|]. split; [now apply (seen_app held)|now apply wf_new].
  Qed.

  Definition list_sim (s : stash) (r : nat * hst) (m : list item * tables) : Prop :=
    read (fst (snd r)) (fst r) = OItems (map it_id (fst m)) /\ incl (fst m) (st_list s) /\
    seen_as (fst (snd r)) (snd (snd r)) = snd m /\ wf (fst r :: held) (fst (snd r)) (snd (snd r)).

  Lemma items_sim : forall e s q h t, env_ok e -> ids_ok (st_list s) -> wf held h t ->
    list_sim s (items_h e s q (h, t)) (items_c e s q (seen_as h t)).
  Proof.
    intros e s q h t He Hi W. unfold items_h, items_c.
    set (cl := norm_arg nonempty (q_class q)). set (na := norm_arg nonempty (q_attr q)).
    set (vl := norm_arg pyval_true (q_val q)).
    match goal with |- list_sim _ (let '(_, _) := ?x in _) (let '(_, _) := ?y in _) =>
      assert (A1 : exists l1 h1 t1, x = (l1, (h1, t1)) /\ y = (l1, seen_as h1 t1) /\ wf held h1 t1 /\ incl l1 (st_list s))
    end.
    { destruct (q_file q) as [[|c f]|].
      - exists (st_list s), h, t. auto using incl_refl.
      - pose proof (by_file_sim (st_map s) false (st_list s) (c :: f) (q_nolink q) h t W Hi) as S.
        destruct (by_file_h (st_map s) false (st_list s) (c :: f) (q_nolink q) (h, t)) as [a [h1 t1]].
        destruct (by_file_c (st_map s) false (st_list s) (c :: f) (q_nolink q) (seen_as h t)) as [r t1'].
        destruct S as [[S1 S2] [S3 S4]]. cbn [fst snd] in *. exists r, h1, t1. subst r t1'. auto.
      - exists (st_list s), h, t. auto using incl_refl. }
    destruct A1 as (l1 & h1 & t1 & E1 & E1' & W1 & I1). rewrite E1, E1'. clear E1 E1'.
    assert (Hi1 : ids_ok l1) by now apply (ids_ok_incl (st_list s)).
    match goal with |- list_sim _ (let '(_, _) := ?x in _) (let '(_, _) := ?y in _) =>
      assert (A2 : exists l2 h2 t2, x = (l2, (h2, t2)) /\ y = (l2, seen_as h2 t2) /\ wf held h2 t2 /\ incl l2 l1)
    end.
    { destruct cl as [|c cl'].
      - exists l1, h1, t1. auto using incl_refl.
      - pose proof (by_class_sim (c :: cl') l1 h1 t1 W1 Hi1 ltac:(discriminate)) as S.
        destruct (by_class_h l1 (c :: cl') (h1, t1)) as [a [h2 t2]].
        destruct (by_class_c l1 (c :: cl') (seen_as h1 t1)) as [r t2'].
        destruct S as [[S1 S2] [S3 S4]]. cbn [fst snd] in *. exists r, h2, t2. subst r t2'. auto. }
    destruct A2 as (l2 & h2 & t2 & E2 & E2' & W2 & I2). rewrite E2, E2'. clear E2 E2'.
    assert (Hi2 : ids_ok l2) by now apply (ids_ok_incl l1).
    match goal with |- list_sim _ (let '(_, _) := ?x in _) (let '(_, _) := ?y in _) =>
      assert (A3 : exists l3 h3 t3, x = (l3, (h3, t3)) /\ y = (l3, seen_as h3 t3) /\ wf held h3 t3 /\ incl l3 l2)
    end.
    { destruct na as [|c na'].
      - exists l2, h2, t2. auto using incl_refl.
      - pose proof (by_attr_sim (c :: na') vl l2 h2 t2 W2 Hi2 ltac:(discriminate)) as S.
        destruct (by_attr_h l2 (c :: na') vl (h2, t2)) as [a [h3 t3]].
        destruct (by_attr_c l2 (c :: na') vl (seen_as h2 t2)) as [r t3'].
        destruct S as [[S1 S2] [S3 S4]]. cbn [fst snd] in *. exists r, h3, t3. subst r t3'. auto. }
    destruct A3 as (l3 & h3 & t3 & E3 & E3' & W3 & I3). rewrite E3, E3'. clear E3 E3'.
    destruct (alloc (OItems (map it_id (sort_items (e_iset e l3)))) (h3, t3)) as [a x] eqn:Ea.
    destruct (new_list_sim h3 t3 _ W3 _ _ Ea) as [R [S W4]]. unfold list_sim. cbn [fst snd].
    split; [exact R|]. split; [|split; [exact S|exact W4]].
    intros y Hy. apply I1, I2, I3. apply (iset_sub e l3 He).
    exact (Permutation_in y (sort_items_perm _) Hy).
  Qed.

  (** The items of a list that a query returned. *)
  Lemma list_items : forall s r m, ids_ok (st_list s) -> list_sim s r m -> items_at (snd r) (fst r) (st_list s) = fst m.
  Proof. intros s r m Hi (R & I & _). unfold items_at. rewrite R. cbn [ids_of]. now apply pick_map. Qed.

  Definition flag_sim (r : bool * hst) (m : bool * tables) : Prop :=
    fst r = fst m /\ seen_as (fst (snd r)) (snd (snd r)) = snd m /\ wf held (fst (snd r)) (snd (snd r)).

  Lemma inherits_sim : forall e s f h t, env_ok e -> ids_ok (st_list s) -> wf held h t ->
    sim (inherits_h e s f (h, t)) (inherits_c e s f (seen_as h t)) (fun l _ r => l = r).
  Proof.
    intros e s f h t He Hi W. unfold inherits_h, inherits_c.
    set (q := MkQuery (Some f) (AOne "Inherit") ANone ANone false).
    pose proof (items_sim e s q h t He Hi W) as S. pose proof (list_items s _ _ Hi S) as L.
    destruct (items_h e s q (h, t)) as [a [h1 t1]]. destruct (items_c e s q (seen_as h t)) as [r t1'].
    destruct S as (_ & _ & S & W1). cbn [fst snd] in *. split; [exact L|]. split; [exact S|]. now apply wf_drop in W1.
  Qed.

  Lemma group_sim : forall e s f h t, env_ok e -> ids_ok (st_list s) -> wf held h t ->
    flag_sim (group_h e s f (h, t)) (group_c e s f (seen_as h t)).
  Proof.
    intros e s f h t He Hi W. unfold group_h, group_c. change (t_group (seen_as h t)) with (h_group t).
    cbn [snd]. destruct (look str_eqb f (h_group t)) as [b|]; [now split|].
    pose proof (inherits_sim e s f h t He Hi W) as S.
    destruct (inherits_h e s f (h, t)) as [l [h1 t1]]. destruct (inherits_c e s f (seen_as h t)) as [r t1'].
    destruct S as (S1 & S2 & S3). cbn [fst snd] in *. subst r t1'. split; [reflexivity|]. split; [reflexivity|exact S3].
  Qed.

  Lemma image_vars_sim : forall e s f vs h t, env_ok e -> ids_ok (st_list s) -> wf held h t ->
    flag_sim (image_vars_h e s f vs (h, t)) (image_vars_c e s f vs (seen_as h t)).
  Proof.
    intros e s f vs. induction vs as [|v vs IH]; intros h t He Hi W; [now split|]. cbn [image_vars_h image_vars_c].
    set (q := MkQuery (Some f) (AOne "Variable") (AOne "VarName") (AOne (VStr v)) false).
    pose proof (items_sim e s q h t He Hi W) as S. pose proof (list_items s _ _ Hi S) as L.
    destruct (items_h e s q (h, t)) as [a [h1 t1]]. destruct (items_c e s q (seen_as h t)) as [r t1'].
    destruct S as (_ & _ & S & W1). cbn [fst snd] in *. apply wf_drop in W1. subst t1' r.
    specialize (IH h1 t1 He Hi W1).
    destruct (image_vars_h e s f vs (h1, t1)) as [b [h2 t2]]. destruct (image_vars_c e s f vs (seen_as h1 t1)) as [b' t2'].
    destruct IH as (I1 & I2 & I3). cbn [fst snd] in *. subst b' t2'. now split.
  Qed.

  Lemma image_sim : forall e s f h t, env_ok e -> ids_ok (st_list s) -> wf held h t ->
    flag_sim (image_h e s f (h, t)) (image_c e s f (seen_as h t)).
  Proof.
    intros e s f h t He Hi W. unfold image_h, image_c. change (t_image (seen_as h t)) with (h_image t).
    cbn [snd]. destruct (look str_eqb f (h_image t)) as [b|]; [now split|].
    pose proof (inherits_sim e s f h t He Hi W) as S.
    destruct (inherits_h e s f (h, t)) as [l [h1 t1]]. destruct (inherits_c e s f (seen_as h t)) as [r t1'].
    destruct S as (S1 & S2 & S3). cbn [fst snd] in *. subst r t1'.
    set (vs := cval_iter (images_variables (st_const s))).
    pose proof (image_vars_sim e s f vs h1 t1 He Hi S3) as V.
    destruct (image_vars_h e s f vs (h1, t1)) as [b [h2 t2]]. destruct (image_vars_c e s f vs (seen_as h1 t1)) as [b' t2'].
    destruct V as (I1 & I2 & I3). cbn [fst snd] in *. subst b' t2'. split; [reflexivity|]. split; [reflexivity|exact I3].
  Qed.

  (** Lists of texts that the stash keeps. *)
  Definition text_sim (r : nat * hst) (m : list str * tables) : Prop :=
    strs_of (read (fst (snd r)) (fst r)) = fst m /\ seen_as (fst (snd r)) (snd (snd r)) = snd m /\
    wf (fst r :: held) (fst (snd r)) (snd (snd r)).

  Lemma const_sim : forall v h t o set set', wf held h t ->
    (forall a, o = Some a -> outer t a) ->
    (forall a h', seen_as h' (set a t) = set' (strs_of (read h' a)) (seen_as h' t)) ->
    (forall a b, inner (set a t) b -> inner t b) ->
    (forall a b, outer (set a t) b -> outer t b \/ b = a) ->
    (forall a, outer (set a t) a) ->
    text_sim (const_h o v set (h, t)) (const_c (option_map (fun a => strs_of (read h a)) o) v set' (seen_as h t)).
  Proof.
    intros v h t o set set' W Ho Hs Hn Hu Ha. unfold const_h, const_c. destruct o as [a|]; cbn [option_map].
    - split; [reflexivity|]. split; [reflexivity|]. cbn [fst snd]. apply wf_outer; auto.
    - cbn [alloc fst snd]. split; [cbn [fst snd]; now rewrite read_new|]. cbn [fst snd]. split.
      + rewrite Hs, read_new. cbn [strs_of]. f_equal. now apply (seen_app held).
      + apply wf_outer; [|apply Ha]. apply (wf_outer_new held h t); [exact W|apply Hn|apply Hu].
  Qed.

  Lemma links_sim : forall e s f h t, env_ok e -> ids_ok (st_list s) -> wf held h t ->
    text_sim (links_h e s f (h, t)) (links_c e s f (seen_as h t)).
  Proof.
    intros e s f h t He Hi W. unfold links_h, links_c. change (t_links (seen_as h t)) with (deref strs_of h (h_links t)).
    rewrite look_deref. cbn [snd]. destruct (look str_eqb f (h_links t)) as [a|] eqn:El; cbn [option_map].
    - split; [reflexivity|]. split; [reflexivity|]. cbn [fst snd]. apply wf_outer; [exact W|].
      apply look_some in El. destruct El as [k [_ Hk]]. right. right. right. right. apply in_map_iff. now exists (k, a).
    - match goal with |- text_sim (let '(_, _) := ?x in _) (let '(_, _) := ?y in _) =>
        assert (A1 : exists v h1 t1, x = (v, (h1, t1)) /\ y = (v, seen_as h1 t1) /\ wf held h1 t1)
      end.
      { destruct f as [|c f]; [exists [], h, t; auto|].
        assert (I : ids_ok (e_iset e (st_list s))) by (apply (ids_ok_incl (st_list s)); [exact Hi|now apply iset_sub]).
        pose proof (by_file_sim (st_map s) true _ (c :: f) false h t W I) as S.
        destruct (by_file_h (st_map s) true (e_iset e (st_list s)) (c :: f) false (h, t)) as [a [h1 t1]].
        destruct (by_file_c (st_map s) true (e_iset e (st_list s)) (c :: f) false (seen_as h t)) as [r t1'].
        destruct S as [[S1 S2] [S3 S4]]. cbn [fst snd] in *. eexists. exists h1, t1. subst r t1'. auto. }
      destruct A1 as (v & h1 & t1 & E1 & E1' & W1). rewrite E1, E1'. clear E1 E1'.
      cbn [alloc fst snd]. split; [cbn [fst snd]; now rewrite read_new|]. cbn [fst snd]. split.
      + pose proof (seen_app held h1 [OStrs v] t1 W1) as S. rewrite <- S. unfold seen_as, hput_links, put_links.
        cbn. now rewrite read_new.
      + apply wf_outer; [|right; right; right; right; now left].
        apply (wf_outer_new held h1 t1); [exact W1|intros b Hb; exact Hb|].
        intros b [Hb|[Hb|[Hb|[Hb|[Hb|Hb]]]]]; [left; now left|left; right; now left|left; right; right; now left
          |left; right; right; right; now left|right; now symmetry|left; right; right; right; now right].
  Qed.

  Lemma mark_sim : forall e mp s h t, env_ok e -> ids_ok (st_list s) -> wf held h t ->
    forall s1 h1 t1, fold_left (mark_h e) mp (s, (h, t)) = (s1, (h1, t1)) ->
    fold_left (mark_c e) mp (s, seen_as h t) = (s1, seen_as h1 t1) /\ wf held h1 t1.
  Proof.
    intros e mp. induction mp as [|kv mp IH]; intros s h t He Hi W s1 h1 t1 E; cbn [fold_left] in *.
    - injection E as <- <- <-. auto.
    - unfold mark_h at 2 in E. unfold mark_c at 2.
      pose proof (items_sim e s (file_query (fst kv)) h t He Hi W) as S.
      destruct (items_h e s (file_query (fst kv)) (h, t)) as [a [h2 t2]].
      destruct (items_c e s (file_query (fst kv)) (seen_as h t)) as [r t2'].
      destruct S as (R & _ & S & W1). cbn [fst snd] in *. apply wf_drop in W1. subst t2'. rewrite R in E. cbn [ids_of] in E.
      apply IH in E; [exact E|exact He| |exact W1].
      cbn [st_list with_list]. unfold mark_items. apply ids_ok_map; [exact Hi|].
      intro i. destruct (existsb (Nat.eqb (it_id i)) (map it_id r)); reflexivity.
  Qed.
End Sim.

Lemma seen_clear : forall h t, seen_as h (clear_h t) = clear_cached (seen_as h t).
Proof. reflexivity. Qed.

Definition hold (g : option nat) (held : list nat) : list nat := match g with Some a => a :: held | None => held end.

Lemma call_sim : forall e c s h t held v g s' h' t', env_ok e -> ids_ok (st_list s) -> wf held h t ->
  call_h e c s (h, t) = (v, g, (s', (h', t'))) ->
  call_c e c (s, seen_as h t) = (v, (s', seen_as h' t')) /\ wf (hold g held) h' t'.
Proof.
  intros e c s h t held v g s' h' t' He Hi W E. destruct c; cbn [call_h call_c] in *.
  - destruct (add_file n e path off forced s) as [[l|ex|] s1].
    + destruct (alloc (OItems (map it_id l)) (h, t)) as [a [h1 t1]] eqn:Ea.
      destruct (new_list_sim held h t _ W _ _ Ea) as [R [S W1]]. cbn [fst snd] in *.
      destruct (returns_early e path s); unfold clear_of in E; cbn [fst snd] in E; injection E as <- <- <- <- <-; cbn [hold].
      * now rewrite S.
      * rewrite seen_clear, S. split; [reflexivity|now apply wf_clear].
    + injection E as <- <- <- <- <-. now split.
    + injection E as <- <- <- <- <-. now split.
  - unfold clear_of in E. cbn [fst snd] in E. injection E as <- <- <- <- <-. rewrite seen_clear. split; [reflexivity|now apply wf_clear].
  - destruct (remove_items l s) as [[u|ex|] s1]; unfold clear_of in E; cbn [fst snd] in E; injection E as <- <- <- <- <-;
      rewrite ?seen_clear; (split; [reflexivity|]); auto using wf_clear.
  - unfold finalize_h in E. unfold finalize_c.
    destruct (link_all e (dkeys (st_map s)) (st_map s)) as [[u|ex|] mp].
    + match type of E with context [fold_left ?f ?l ?x] => destruct (fold_left f l x) as [s1 [h1 t1]] eqn:Ef end.
      apply (mark_sim held) in Ef; [|exact He|exact Hi|exact W]. destruct Ef as [Ef W1]. rewrite Ef.
      injection E as <- <- <- <- <-. rewrite seen_clear. split; [reflexivity|now apply wf_clear].
    + injection E as <- <- <- <- <-. now split.
    + injection E as <- <- <- <- <-. now split.
  - pose proof (items_sim held e s q h t He Hi W) as S. unfold gives, answer_as in *.
    destruct (items_h e s q (h, t)) as [a [h1 t1]]. destruct (items_c e s q (seen_as h t)) as [r t1'].
    destruct S as (R & I & S & W1). cbn [fst snd] in *. injection E as <- <- <- <- <-. rewrite R. cbn [ids_of].
    rewrite pick_map by assumption. subst t1'. now split.
  - assert (S : text_sim held (const_h (h_recipes t) (get_recipes s) hset_recipes (h, t))
                  (const_c (t_recipes (seen_as h t)) (get_recipes s) set_recipes (seen_as h t))).
    { apply const_sim; try exact W; try reflexivity; unfold outer; cbn; intros; auto.
      match goal with H : _ \/ _ |- _ => destruct H as [Hb|Hb]; [right; congruence|tauto] end. }
    unfold gives, answer_as in *. cbn [snd] in E. destruct (const_h _ _ _ _) as [a [h1 t1]].
    destruct (const_c _ _ _ _) as [r t1']. destruct S as (R & S & W1). cbn [fst snd] in *. injection E as <- <- <- <- <-. subst. now split.
  - assert (S : text_sim held (const_h (h_lone t) (get_lone_appends s) hset_lone (h, t))
                  (const_c (t_lone (seen_as h t)) (get_lone_appends s) set_lone (seen_as h t))).
    { apply const_sim; try exact W; try reflexivity; unfold outer; cbn; intros; auto.
      match goal with H : _ \/ _ |- _ => destruct H as [Hb|[Hb|Hb]]; [tauto|right; congruence|tauto] end. }
    unfold gives, answer_as in *. cbn [snd] in E. destruct (const_h _ _ _ _) as [a [h1 t1]].
    destruct (const_c _ _ _ _) as [r t1']. destruct S as (R & S & W1). cbn [fst snd] in *. injection E as <- <- <- <- <-. subst. now split.
  - assert (S : text_sim held (const_h (h_conf t) (get_conf_files e s) hset_conf (h, t))
                  (const_c (t_conf (seen_as h t)) (get_conf_files e s) set_conf (seen_as h t))).
    { apply const_sim; try exact W; try reflexivity; unfold outer; cbn; intros; auto.
      match goal with H : _ \/ _ |- _ => destruct H as [Hb|[Hb|[Hb|Hb]]]; [tauto|tauto|right; congruence|tauto] end. }
    unfold gives, answer_as in *. cbn [snd] in E. destruct (const_h _ _ _ _) as [a [h1 t1]].
    destruct (const_c _ _ _ _) as [r t1']. destruct S as (R & S & W1). cbn [fst snd] in *. injection E as <- <- <- <- <-. subst. now split.
  - assert (S : text_sim held (const_h (h_classes t) (get_bbclasses s) hset_classes (h, t))
                  (const_c (t_classes (seen_as h t)) (get_bbclasses s) set_classes (seen_as h t))).
    { apply const_sim; try exact W; try reflexivity; unfold outer; cbn; intros; auto.
      match goal with H : _ \/ _ |- _ => destruct H as [Hb|[Hb|[Hb|[Hb|Hb]]]]; [tauto|tauto|tauto|right; congruence|tauto] end. }
    unfold gives, answer_as in *. cbn [snd] in E. destruct (const_h _ _ _ _) as [a [h1 t1]].
    destruct (const_c _ _ _ _) as [r t1']. destruct S as (R & S & W1). cbn [fst snd] in *. injection E as <- <- <- <- <-. subst. now split.
  - pose proof (links_sim held e s f h t He Hi W) as S. unfold gives, answer_as in *.
    destruct (links_h e s f (h, t)) as [a [h1 t1]]. destruct (links_c e s f (seen_as h t)) as [r t1'].
    destruct S as (R & S & W1). cbn [fst snd] in *. injection E as <- <- <- <- <-. subst. now split.
  - pose proof (image_sim held e s f h t He Hi W) as S. unfold tells, answer_as in *.
    destruct (image_h e s f (h, t)) as [a [h1 t1]]. destruct (image_c e s f (seen_as h t)) as [r t1'].
    destruct S as (R & S & W1). cbn [fst snd] in *. injection E as <- <- <- <- <-. subst. now split.
  - pose proof (group_sim held e s f h t He Hi W) as S. unfold tells, answer_as in *.
    destruct (group_h e s f (h, t)) as [a [h1 t1]]. destruct (group_c e s f (seen_as h t)) as [r t1'].
    destruct S as (R & S & W1). cbn [fst snd] in *. injection E as <- <- <- <- <-. subst. now split.
Qed.

(** ** Lists that the caller changed *)

Definition hide (t : tables) : tables :=
  MkTables None None None (t_classes t) (t_linked t) (t_file t) (t_class t) (t_attr t) [] (t_image t) (t_group t).
Definition core (e : env) (s : stash) (t : tables) : Prop := fresh e s (hide t).

Lemma hide_file : forall mp z l f nl t, by_file_c mp z l f nl (hide t) =
  (fst (by_file_c mp z l f nl t), hide (snd (by_file_c mp z l f nl t))).
Proof.
  intros mp z l f nl t. unfold by_file_c. cbn [hide t_file].
  destruct (look key_file (z, map it_id l, f, nl) (t_file t)); [reflexivity|]. rewrite !filter_sim.
  cbn [hide t_linked]. destruct (filter_h mp l f nl (t_linked t)). reflexivity.
Qed.
Lemma hide_class : forall l cl t, by_class_c l cl (hide t) = (fst (by_class_c l cl t), hide (snd (by_class_c l cl t))).
Proof. intros l cl t. unfold by_class_c. cbn [hide t_class]. destruct (look key_class (map it_id l, cl) (t_class t)); reflexivity. Qed.
Lemma hide_attr : forall l n v t, by_attr_c l n v (hide t) = (fst (by_attr_c l n v t), hide (snd (by_attr_c l n v t))).
Proof. intros l n v t. unfold by_attr_c. cbn [hide t_attr]. destruct (look key_attr (map it_id l, n, v) (t_attr t)); reflexivity. Qed.
Lemma hide_items : forall e s q t, items_c e s q (hide t) = (fst (items_c e s q t), hide (snd (items_c e s q t))).
Proof.
  intros e s q t. unfold items_c.
  match goal with |- (let '(_, _) := ?x in _) = (fst (let '(_, _) := ?y in _), _) =>
    assert (A : x = (fst y, hide (snd y))) end.
  { destruct (q_file q) as [[|c f]|]; try reflexivity. apply hide_file. }
  rewrite A. clear A. match goal with |- context [fst ?y] => destruct y as [l1 t1] end. cbn [fst snd].
  match goal with |- (let '(_, _) := ?x in _) = (fst (let '(_, _) := ?y in _), _) =>
    assert (A : x = (fst y, hide (snd y))) end.
  { destruct (norm_arg nonempty (q_class q)); [reflexivity|apply hide_class]. }
  rewrite A. clear A. match goal with |- context [fst ?y] => destruct y as [l2 t2] end. cbn [fst snd].
  match goal with |- (let '(_, _) := ?x in _) = (fst (let '(_, _) := ?y in _), _) =>
    assert (A : x = (fst y, hide (snd y))) end.
  { destruct (norm_arg nonempty (q_attr q)); [reflexivity|apply hide_attr]. }
  rewrite A. clear A. match goal with |- context [fst ?y] => destruct y as [l3 t3] end. reflexivity.
Qed.
Lemma hide_group : forall e s f t, group_c e s f (hide t) = (fst (group_c e s f t), hide (snd (group_c e s f t))).
Proof.
  intros e s f t. unfold group_c, inherits_c. cbn [hide t_group]. destruct (look str_eqb f (t_group t)); [reflexivity|].
  rewrite hide_items. destruct (items_c e s _ t). reflexivity.
Qed.
Lemma hide_image_vars : forall e s f vs t, image_vars_c e s f vs (hide t) =
  (fst (image_vars_c e s f vs t), hide (snd (image_vars_c e s f vs t))).
Proof.
  intros e s f vs. induction vs as [|v vs IH]; intro t; [reflexivity|]. cbn [image_vars_c]. rewrite hide_items.
  destruct (items_c e s _ t) as [l t1]. cbn [fst snd]. rewrite IH. destruct (image_vars_c e s f vs t1). reflexivity.
Qed.
Lemma hide_image : forall e s f t, image_c e s f (hide t) = (fst (image_c e s f t), hide (snd (image_c e s f t))).
Proof.
  intros e s f t. unfold image_c, inherits_c. cbn [hide t_image]. destruct (look str_eqb f (t_image t)); [reflexivity|].
  rewrite hide_items. destruct (items_c e s _ t) as [l t1]. cbn [fst snd]. rewrite hide_image_vars.
  destruct (image_vars_c e s f _ t1). reflexivity.
Qed.
Lemma core_fresh : forall e s t, fresh e s t -> core e s t.
Proof.
  intros e s t [F [G (A1 & A2 & A3 & A4 & A5 & A6)]]. split; [exact F|]. split; [exact G|].
  split; [discriminate|]. split; [discriminate|]. split; [discriminate|]. split; [intros f v []|]. split; [exact A5|exact A6].
Qed.

Lemma core_links : forall e s f t, env_ok e -> ids_ok (st_list s) -> core e s t -> core e s (snd (links_c e s f t)).
Proof.
  intros e s f t He Hi C. unfold links_c. destruct (look str_eqb f (t_links t)) as [v|]; [exact C|].
  destruct f as [|c f]; [exact C|].
  pose proof (hide_file (st_map s) true (e_iset e (st_list s)) (c :: f) false t) as H.
  destruct (links_c e s (c :: f) (hide t)) as [r t'] eqn:El. pose proof (links_ok e s (c :: f) (hide t) _ _ He Hi C El) as [_ F].
  unfold links_c in El. cbn [look hide t_links] in El. fold (hide t) in El. rewrite H in El.
  destruct (by_file_c (st_map s) true (e_iset e (st_list s)) (c :: f) false t) as [l t1]. cbn [fst snd] in *.
  injection El as _ <-. apply core_fresh in F. exact F.
Qed.

Lemma query_core : forall e c s t, env_ok e -> ids_ok (st_list s) -> core e s t -> is_query c -> c <> CClasses ->
  forall v x, call_c e c (s, t) = (v, x) ->
  fst x = s /\ snd (plain e c s) = s /\ core e s (snd x) /\ (unshared c -> v = fst (plain e c s)) /\
  (fresh e s t -> v = fst (plain e c s) /\ fresh e s (snd x)).
Proof.
  intros e c s t He Hi C Hq Hc v x E.
  assert (A : fst x = s).
  { destruct c; try contradiction; cbn [call_c] in E; unfold answer_as in E; now injection E as _ <-. }
  assert (B : snd (plain e c s) = s) by (destruct c; try contradiction; reflexivity).
  split; [exact A|]. split; [exact B|].
  assert (D : fresh e s t -> v = fst (plain e c s) /\ fresh e s (snd x)).
  { intro F. destruct (query_ok e c s t He Hi F Hq Hc) as [t' [E1 [_ F1]]]. rewrite E in E1. injection E1 as -> ->. now split. }
  assert (U : unshared c -> v = fst (plain e c s) /\ core e s (snd x)).
  { intro U. destruct (query_ok e c s (hide t) He Hi C Hq Hc) as [t' [E1 [_ F1]]].
    destruct c; try contradiction; cbn [call_c] in E, E1; unfold answer_as in E, E1;
      rewrite ?hide_items, ?hide_group, ?hide_image in E1; cbn [fst snd] in E1; injection E as <- <-; cbn [snd];
      pose proof (f_equal fst E1) as E2; pose proof (f_equal (fun y => snd (snd y)) E1) as E3; cbn [fst snd] in E2, E3;
      (split; [exact E2|]); unfold core; now rewrite E3. }
  split; [|split; [intro H; now apply U|exact D]].
  destruct c; try contradiction; try congruence; try (now apply U); cbn [call_c] in E; unfold answer_as, const_c in E.
  - apply (f_equal snd) in E. cbn [snd] in E. subst x. cbn [snd]. destruct (t_recipes t); exact C.
  - apply (f_equal snd) in E. cbn [snd] in E. subst x. cbn [snd]. destruct (t_lone t); exact C.
  - apply (f_equal snd) in E. cbn [snd] in E. subst x. cbn [snd]. destruct (t_conf t); exact C.
  - apply (f_equal snd) in E. cbn [snd] in E. subst x. cbn [snd]. now apply core_links.
Qed.

Lemma write_length : forall h a o, a < length h -> length (write h a o) = length h.
Proof. intros h a o H. unfold write. rewrite app_length, firstn_length. cbn [length]. rewrite skipn_length. lia. Qed.
Lemma write_other : forall h a o b, a < length h -> b <> a -> read (write h a o) b = read h b.
Proof.
  intros h a o b Ha Hb. unfold read, write. rewrite <- (firstn_skipn a h) at 3.
  assert (L : length (firstn a h) = a) by (rewrite firstn_length; lia).
  destruct (Nat.lt_ge_cases b a) as [H|H].
  - now rewrite !app_nth1 by lia.
  - rewrite !app_nth2 by lia. rewrite L. destruct (b - a) as [|k] eqn:Ek; [lia|]. cbn [nth].
    destruct (skipn a h) as [|y u] eqn:Es; [apply (f_equal (@length obj)) in Es; rewrite skipn_length in Es; cbn in Es; lia|].
    cbn [nth]. replace (skipn (S a) h) with u; [reflexivity|]. clear -Es. revert a Es. induction h as [|z h IH]; intros a Es.
    + now rewrite skipn_nil in Es.
    + destruct a as [|a]; [cbn in *; congruence|]. cbn [skipn] in *. now apply IH.
Qed.
Lemma write_wf : forall held h t a o, wf held h t -> In a held -> wf held (write h a o) t.
Proof. intros held h t a o W Ha. destruct (proj2 W a (or_intror Ha)) as [L _]. unfold wf. now rewrite write_length. Qed.
Lemma write_core : forall e s held h t a o, wf held h t -> In a held -> core e s (seen_as h t) -> core e s (seen_as (write h a o) t).
Proof.
  intros e s held h t a o W Ha C. destruct (proj2 W a (or_intror Ha)) as [L N].
  assert (I : forall b, inner t b -> read (write h a o) b = read h b)
    by (intros b Hb; apply write_other; [exact L|intros ->; contradiction]).
  unfold core, hide, seen_as in *. cbn [t_recipes t_lone t_conf t_classes t_linked t_file t_class t_attr t_links t_image t_group] in *.
  rewrite (deref_eq _ _ ids_of h (write h a o) (h_file t)) by (intros b Hb; apply I; unfold inner; tauto).
  rewrite (deref_eq _ _ ids_of h (write h a o) (h_class t)) by (intros b Hb; apply I; unfold inner; tauto).
  rewrite (deref_eq _ _ ids_of h (write h a o) (h_attr t)) by (intros b Hb; apply I; unfold inner; tauto).
  exact C.
Qed.

Lemma own_steps : forall e l b s, env_ok e -> served e b s (calls_of l) -> forall s0 h t held, steps e s0 s ->
  (exists nw neg db, s0 = new_stash nw neg db) -> wf held h t -> core e s (seen_as h t) ->
  (b = true -> exists t0, t = clear_h t0) ->
  forall k c, nth_error (calls_of l) k = Some c -> (unshared c \/ (no_write l /\ fresh e s (seen_as h t))) ->
  nth_error (run_h e l held s (h, t)) k = nth_error (fst (plain_calls e (calls_of l) s)) k.
Proof.
  intros e l b s He H s0 h t held Hs N.
  assert (Ids : forall s, steps e s0 s -> ids_ok (st_list s)).
  { intros s1 Hs1. destruct N as (nw & neg & db & ->). apply (reach_ids e). now exists nw, neg, db. }
  clear N. revert b s H h t held Hs. induction l as [|[c0|a o] l IH]; intros b s H h t held Hs W C B k c Hk Hc.
  - destruct k; discriminate Hk.
  - cbn [calls_of] in *.
    destruct (call_h e c0 s (h, t)) as [[v g] [s1 [h1 t1]]] eqn:Ec.
    destruct (call_sim e c0 s h t held v g s1 h1 t1 He (Ids s Hs) W Ec) as [S W1].
    (* what one call does *)
    assert (Step : exists b', served e b' s1 (calls_of l) /\ s1 = snd (plain e c0 s) /\ steps e s0 s1 /\
              core e s1 (seen_as h1 t1) /\ (b' = true -> exists t0, t1 = clear_h t0) /\
              (unshared c0 -> v = fst (plain e c0 s)) /\
              (fresh e s (seen_as h t) -> v = fst (plain e c0 s) /\ fresh e s1 (seen_as h1 t1))).
    { inversion H as [|b0 s2 cs n path off forced r s' E K H1|b0 s2 cs n path off forced r s' E K H1
                 |b0 s2 cs u Hl Hd H1|b0 s2 cs u s' E H1|s2 cs s' E H1|b0 s2 cs c1 Hq Hcc H1]; subst.
      - assert (Ke : returns_early e path s = false) by (apply Bool.not_true_iff_false; now rewrite early_iff).
        cbn [call_h plain] in *. rewrite E in *. rewrite Ke in *. cbn [alloc clear_of fst snd] in Ec.
        injection Ec as <- <- <- <- <-. exists true. split; [exact H1|]. split; [reflexivity|].
        split; [now apply (steps_add e s0 n path off forced s (Ok r))|]. rewrite seen_clear.
        split; [apply core_fresh, cleared|]. split; [intros _; eauto|]. split; [reflexivity|]. intros _. split; [reflexivity|apply cleared].
      - pose proof (proj2 (early_iff e path s) K) as Ke. pose proof (early_same _ _ _ _ _ _ _ _ E Ke). subst s'.
        cbn [call_h call_c plain] in *. rewrite E in *. rewrite Ke in *. cbn [alloc fst snd] in Ec.
        injection Ec as <- <- <- <- <-. injection S as S. exists b. split; [exact H1|]. split; [reflexivity|].
        split; [exact Hs|]. rewrite (seen_app held) by exact W. split; [exact C|]. split; [exact B|]. split; [reflexivity|]. auto.
      - cbn [call_h plain] in *. cbn [clear_of fst snd] in Ec. injection Ec as <- <- <- <- <-.
        exists true. split; [exact H1|]. split; [reflexivity|]. split; [now apply steps_append|]. rewrite seen_clear.
        split; [apply core_fresh, cleared|]. split; [intros _; eauto|]. split; [reflexivity|]. intros _. split; [reflexivity|apply cleared].
      - cbn [call_h plain] in *. rewrite E in *. cbn [clear_of fst snd] in Ec. injection Ec as <- <- <- <- <-.
        exists true. split; [exact H1|]. split; [reflexivity|]. split; [now apply (steps_remove e s0 u s (Ok tt))|]. rewrite seen_clear.
        split; [apply core_fresh, cleared|]. split; [intros _; eauto|]. split; [reflexivity|]. intros _. split; [reflexivity|apply cleared].
      - destruct (B eq_refl) as [t0 ->]. rewrite seen_clear in S. cbn [call_c] in S.
        destruct (finalize_c e s (clear_cached (seen_as h t0))) as [r x] eqn:Ef.
        destruct (finalize_same e s _ (Ids s Hs) (ex_intro _ _ eq_refl) _ _ Ef) as [E1 E2]. rewrite E in E1.
        injection E1 as <- E3. injection S as S1 S2. subst x. cbn [fst snd] in *. subst s'. cbn [plain]. rewrite E.
        destruct (E2 eq_refl) as [t2 Et]. exists true. split; [exact H1|]. split; [reflexivity|].
        split; [now apply (steps_finalize e s0 s (Ok tt))|]. rewrite Et. split; [apply core_fresh, cleared|].
        split.
        { intros _. cbn [call_h] in Ec. unfold finalize_h in Ec.
          destruct (link_all e (dkeys (st_map s)) (st_map s)) as [[u|ex|] mp] eqn:El.
          - match type of Ec with context [fold_left ?f ?l ?x] => destruct (fold_left f l x) as [s2 [h2 t3]] end.
            injection Ec as _ _ _ _ <-. eauto.
          - unfold finalize in E. rewrite El in E. discriminate E.
          - unfold finalize in E. rewrite El in E. discriminate E. }
        split; [now intros _|]. intros _. split; [now symmetry|apply cleared].
      - destruct (query_core e c0 s _ He (Ids s Hs) C Hq Hcc _ _ S) as (Q1 & Q2 & Q3 & Q4 & Q5). cbn [fst snd] in *. subst s1.
        exists false. split; [exact H1|]. split; [now symmetry|]. split; [exact Hs|]. split; [exact Q3|]. split; [discriminate|]. now split. }
    destruct Step as (b' & H1 & E1 & Hs1 & C1 & B1 & V1 & V2).
    cbn [run_h plain_calls]. rewrite Ec. destruct (plain e c0 s) as [v' s1'] eqn:Ep. cbn [fst snd] in *. subst s1'.
    destruct k as [|k].
    + cbn [nth_error] in Hk. injection Hk as <-. destruct (plain_calls e (calls_of l) s1) as [vs s2]. cbn [nth_error fst].
      f_equal. destruct Hc as [Hc|[_ Hc]]; [now apply V1|now apply V2].
    + cbn [nth_error] in *.
      specialize (IH b' s1 H1 h1 t1 (hold g held) Hs1 W1 C1 B1 k c Hk).
      destruct (plain_calls e (calls_of l) s1) as [vs s2]. cbn [nth_error fst] in *. apply IH.
      destruct Hc as [Hc|[Hw Hc]]; [now left|]. right. split; [|now apply V2]. intros a o Hin. apply (Hw a o). now right.
  - cbn [calls_of run_h] in *. destruct (existsb (Nat.eqb a) held) eqn:Ea.
    + apply existsb_exists in Ea. destruct Ea as [a' [Ha Ea]]. apply Nat.eqb_eq in Ea. subst a'. cbn [fst snd].
      apply (IH b s H) with (c := c); [exact Hs|now apply write_wf|now apply (write_core e s held)|exact B|exact Hk|].
      destruct Hc as [Hc|[Hw _]]; [now left|]. destruct (Hw a o). now left.
    + apply (IH b s H) with (c := c); try assumption. destruct Hc as [Hc|[Hw _]]; [now left|]. destruct (Hw a o). now left.
Qed.

Lemma wf_start : wf [] [] no_htables.
Proof.
  split; intros a Ha.
  - destruct Ha as [[]|[[]|[]]].
  - destruct Ha as [[Ha|[Ha|[Ha|[Ha|[]]]]]|[]]; discriminate Ha.
Qed.

Lemma C97_lemma : forall e nw neg db l, env_ok e -> served e true (new_stash nw neg db) (calls_of l) ->
  forall k c, nth_error (calls_of l) k = Some c -> (unshared c \/ no_write l) ->
  nth_error (run_h e l [] (new_stash nw neg db) ([], no_htables)) k =
  nth_error (fst (plain_calls e (calls_of l) (new_stash nw neg db))) k.
Proof.
  intros e nw neg db l He H k c Hk Hc. apply (own_steps e l true _ He H (new_stash nw neg db)) with (c := c).
  - apply steps_refl.
  - eauto.
  - apply wf_start.
  - apply core_fresh. exact (cleared e _ no_tables).
  - intros _. now exists no_htables.
  - exact Hk.
  - destruct Hc as [Hc|Hc]; [now left|]. right. split; [exact Hc|]. exact (cleared e _ no_tables).
Qed.
Lemma run_length : forall e l held s x, length (run_h e l held s x) = length (calls_of l).
Proof.
  intros e l. induction l as [|[c|a o] l IH]; intros held s x; [reflexivity| |apply IH]. cbn [run_h calls_of].
  destruct (call_h e c s x) as [[v g] [s1 x1]]. cbn [length]. now rewrite IH.
Qed.
Lemma plain_length : forall e cs s, length (fst (plain_calls e cs s)) = length cs.
Proof.
  intros e cs. induction cs as [|c cs IH]; intro s; [reflexivity|]. cbn [plain_calls].
  destruct (plain e c s) as [v s1]. specialize (IH s1). destruct (plain_calls e cs s1). cbn in *. now rewrite IH.
Qed.
Lemma nth_error_same : forall (A : Type) (a b : list A), (forall k, nth_error a k = nth_error b k) -> a = b.
Proof.
  intros A a. induction a as [|x a IH]; intros [|y b] H; [reflexivity|specialize (H 0); discriminate H|specialize (H 0); discriminate H|].
  pose proof (H 0) as E. cbn in E. injection E as <-. f_equal. apply IH. intro k. exact (H (S k)).
Qed.
Lemma C97_unwritten : forall e nw neg db l, env_ok e -> served e true (new_stash nw neg db) (calls_of l) -> no_write l ->
  run_h e l [] (new_stash nw neg db) ([], no_htables) = fst (plain_calls e (calls_of l) (new_stash nw neg db)).
Proof.
  intros e nw neg db l He H Hw. apply nth_error_same. intro k.
  destruct (nth_error (calls_of l) k) as [c|] eqn:E.
  - apply (C97_lemma e nw neg db l He H k c E). now right.
  - apply nth_error_None in E. transitivity (@None answer); [|symmetry]; apply nth_error_None;
      [rewrite run_length|rewrite plain_length]; exact E.
Qed.
