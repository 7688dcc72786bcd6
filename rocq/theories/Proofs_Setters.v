(** * Items changed by a caller: proofs *)

From Verif Require Import PyStr Regex Patterns PyPath Res Inline Const Item Lines Stash
  StrFacts ReFacts LinesFacts ParseFacts HistFacts ReachFacts QueryFacts Cache Spec_Cache Proofs_Cache Setters Spec_Setters.
From Coq Require Import Permutation.

(** ** Tables without the entries that may be out of date *)

Definition free (T : list str) (k : list nat * list str * list pyval) : bool :=
  match snd k with [] => true | _ => negb (existsb (fun o => mem_str o T) (snd (fst k))) end.
Definition keep (T : list str) (t : tables) : tables :=
  MkTables (t_recipes t) (t_lone t) (t_conf t) (t_classes t) (t_linked t) (t_file t) (t_class t)
    (filter (fun kv => free T (fst kv)) (t_attr t)) (t_links t) (t_image t) (t_group t).

Lemma free_eq : forall T a b, key_attr a b = true -> free T a = free T b.
Proof.
  intros T [[i n] v] [[j m] w] H. unfold key_attr in H. cbn [fst snd] in H.
  rewrite !Bool.andb_true_iff, (list_eqb_iff _ _ Nat.eqb_eq), (list_eqb_iff _ _ str_eqb_eq) in H.
  destruct H as [[-> ->] H]. unfold free. cbn [fst snd]. destruct v, w; try reflexivity; discriminate.
Qed.
Lemma look_free : forall T k (l : list ((list nat * list str * list pyval) * list nat)), free T k = true ->
  look key_attr k (filter (fun kv => free T (fst kv)) l) = look key_attr k l.
Proof.
  intros T k l H. induction l as [|[k' v] l IH]; [reflexivity|]. cbn [filter fst look].
  destruct (free T k') eqn:Ef; cbn [look]; [now rewrite IH|].
  destruct (key_attr k' k) eqn:Ek; [|exact IH]. apply (free_eq T) in Ek. congruence.
Qed.

Section Keep.
  Context (T : list str).
  Lemma keep_linked : forall mp x f nl t, linked_c mp x f nl (keep T t) =
    (fst (linked_c mp x f nl t), keep T (snd (linked_c mp x f nl t))).
  Proof. intros mp x f nl t. unfold linked_c. cbn [keep t_linked]. destruct (look _ _ _); reflexivity. Qed.
  Lemma keep_filter : forall mp l f nl t, filter_c mp l f nl (keep T t) =
    (fst (filter_c mp l f nl t), keep T (snd (filter_c mp l f nl t))).
  Proof.
    intros mp l f nl. induction l as [|x l IH]; intro t; [reflexivity|]. cbn [filter_c]. rewrite keep_linked.
    destruct (linked_c mp x f nl t) as [b t1]. cbn [fst snd]. rewrite IH. destruct (filter_c mp l f nl t1). reflexivity.
  Qed.
  Lemma keep_file : forall mp z l f nl t, by_file_c mp z l f nl (keep T t) =
    (fst (by_file_c mp z l f nl t), keep T (snd (by_file_c mp z l f nl t))).
  Proof.
    intros mp z l f nl t. unfold by_file_c. cbn [keep t_file].
    destruct (look key_file (z, map it_id l, f, nl) (t_file t)); [reflexivity|]. rewrite keep_filter.
    destruct (filter_c mp l f nl t). reflexivity.
  Qed.
  Lemma keep_class : forall l cl t, by_class_c l cl (keep T t) = (fst (by_class_c l cl t), keep T (snd (by_class_c l cl t))).
  Proof. intros l cl t. unfold by_class_c. cbn [keep t_class]. destruct (look key_class (map it_id l, cl) (t_class t)); reflexivity. Qed.
  Lemma keep_attr : forall l n v t, free T (map it_id l, n, v) = true ->
    by_attr_c l n v (keep T t) = (fst (by_attr_c l n v t), keep T (snd (by_attr_c l n v t))).
  Proof.
    intros l n v t H. unfold by_attr_c. cbn [keep t_attr]. rewrite look_free by exact H.
    destruct (look key_attr (map it_id l, n, v) (t_attr t)); [reflexivity|]. cbn [fst snd]. f_equal.
    unfold keep, put_attr. cbn. now rewrite H.
  Qed.
  Definition free_query (q : query) : Prop := forall o, In o (compared q) -> ~ In o T.
  Lemma query_free : forall q ids, free_query q ->
    free T (ids, norm_arg nonempty (q_attr q), norm_arg pyval_true (q_val q)) = true.
  Proof.
    intros q ids H. unfold free, free_query, compared in *. cbn [fst snd].
    destruct (norm_arg pyval_true (q_val q)); [reflexivity|]. apply Bool.negb_true_iff, Bool.not_true_iff_false. intro E.
    apply existsb_exists in E. destruct E as [o [Ho Et]]. apply mem_str_In in Et. exact (H o Ho Et).
  Qed.
  Lemma keep_items : forall e s q t, free_query q ->
    items_c e s q (keep T t) = (fst (items_c e s q t), keep T (snd (items_c e s q t))).
  Proof.
    intros e s q t Hq. unfold items_c.
    match goal with |- (let '(_, _) := ?x in _) = (fst (let '(_, _) := ?y in _), _) =>
      assert (A : x = (fst y, keep T (snd y))) end.
    { destruct (q_file q) as [[|c f]|]; try reflexivity. apply keep_file. }
    rewrite A. clear A. match goal with |- context [fst ?y] => destruct y as [l1 t1] end. cbn [fst snd].
    match goal with |- (let '(_, _) := ?x in _) = (fst (let '(_, _) := ?y in _), _) =>
      assert (A : x = (fst y, keep T (snd y))) end.
    { destruct (norm_arg nonempty (q_class q)); [reflexivity|apply keep_class]. }
    rewrite A. clear A. match goal with |- context [fst ?y] => destruct y as [l2 t2] end. cbn [fst snd].
    match goal with |- (let '(_, _) := ?x in _) = (fst (let '(_, _) := ?y in _), _) =>
      assert (A : x = (fst y, keep T (snd y))) end.
    { pose proof (query_free q (map it_id l2) Hq) as F. destruct (norm_arg nonempty (q_attr q)); [reflexivity|now apply keep_attr]. }
    rewrite A. clear A. match goal with |- context [fst ?y] => destruct y as [l3 t3] end. reflexivity.
  Qed.
  Lemma keep_links : forall e s f t, links_c e s f (keep T t) = (fst (links_c e s f t), keep T (snd (links_c e s f t))).
  Proof.
    intros e s f t. unfold links_c. cbn [keep t_links]. destruct (look str_eqb f (t_links t)); [reflexivity|].
    destruct f as [|c f]; [reflexivity|]. rewrite keep_file. destruct (by_file_c _ _ _ _ _ t). reflexivity.
  Qed.
  Lemma keep_group : forall e s f t, group_c e s f (keep T t) = (fst (group_c e s f t), keep T (snd (group_c e s f t))).
  Proof.
    intros e s f t. unfold group_c, inherits_c. cbn [keep t_group]. destruct (look str_eqb f (t_group t)); [reflexivity|].
    rewrite keep_items; [|intros o []]. destruct (items_c e s _ t). reflexivity.
  Qed.
  Context (HT : ~ In ("VarName" : str) T).
  Lemma name_free : forall f v, free_query (MkQuery (Some f) (AOne ("Variable" : str)) (AOne ("VarName" : str)) (AOne (VStr v)) false).
  Proof.
    intros f v o Ho. unfold compared in Ho. cbn in Ho. destruct v as [|c v]; cbn in Ho; [contradiction|].
    destruct Ho as [<-|[]]. exact HT.
  Qed.
  Lemma keep_image_vars : forall e s f vs t, image_vars_c e s f vs (keep T t) =
    (fst (image_vars_c e s f vs t), keep T (snd (image_vars_c e s f vs t))).
  Proof.
    intros e s f vs. induction vs as [|v vs IH]; intro t; [reflexivity|]. cbn [image_vars_c]. rewrite keep_items by apply name_free.
    destruct (items_c e s _ t) as [l t1]. cbn [fst snd]. rewrite IH. destruct (image_vars_c e s f vs t1). reflexivity.
  Qed.
  Lemma keep_image : forall e s f t, image_c e s f (keep T t) = (fst (image_c e s f t), keep T (snd (image_c e s f t))).
  Proof.
    intros e s f t. unfold image_c, inherits_c. cbn [keep t_image]. destruct (look str_eqb f (t_image t)); [reflexivity|].
    rewrite keep_items; [|intros o []]. destruct (items_c e s _ t) as [l t1]. cbn [fst snd]. rewrite keep_image_vars.
    destruct (image_vars_c e s f _ t1). reflexivity.
  Qed.
End Keep.

(** ** What was compared *)

Definition asked (A : list str) (t : tables) : Prop :=
  forall ids n v r, In ((ids, n, v), r) (t_attr t) -> v <> [] -> forall o, In o n -> In o A \/ o = ("VarName" : str).
Lemma asked_incl : forall A B t, incl A B -> asked A t -> asked B t.
Proof. intros A B t I H ids n v r Hr Hv o Ho. destruct (H _ _ _ _ Hr Hv o Ho); auto. Qed.
Lemma asked_eq : forall A t t', t_attr t' = t_attr t -> asked A t -> asked A t'.
Proof. unfold asked. intros A t t' ->. tauto. Qed.

Lemma linked_attr : forall mp x f nl t, t_attr (snd (linked_c mp x f nl t)) = t_attr t.
Proof. intros mp x f nl t. unfold linked_c. destruct (look _ _ _); reflexivity. Qed.
Lemma filter_attr : forall mp l f nl t, t_attr (snd (filter_c mp l f nl t)) = t_attr t.
Proof.
  intros mp l f nl. induction l as [|x l IH]; intro t; [reflexivity|]. cbn [filter_c].
  pose proof (linked_attr mp x f nl t) as L. destruct (linked_c mp x f nl t) as [b t1]. cbn [snd] in L.
  specialize (IH t1). destruct (filter_c mp l f nl t1). cbn [snd] in *. congruence.
Qed.
Lemma file_attr : forall mp z l f nl t, t_attr (snd (by_file_c mp z l f nl t)) = t_attr t.
Proof.
  intros mp z l f nl t. unfold by_file_c. destruct (look _ _ _); [reflexivity|].
  pose proof (filter_attr mp l f nl t) as L. destruct (filter_c mp l f nl t). exact L.
Qed.
Lemma class_attr : forall l cl t, t_attr (snd (by_class_c l cl t)) = t_attr t.
Proof. intros l cl t. unfold by_class_c. destruct (look _ _ _); reflexivity. Qed.
Lemma asked_attr : forall A l n v t, asked A t -> (v <> [] -> forall o, In o n -> In o A \/ o = ("VarName" : str)) ->
  asked A (snd (by_attr_c l n v t)).
Proof.
  intros A l n v t H Hn. unfold by_attr_c. destruct (look _ _ _); [exact H|]. cbn [snd].
  intros ids n' v' r [Hr|Hr]; [injection Hr as <- <- <- <-; exact Hn|now apply (H ids n' v' r)].
Qed.
Lemma asked_items : forall A e s q t, asked A t -> (forall o, In o (compared q) -> In o A \/ o = ("VarName" : str)) ->
  asked A (snd (items_c e s q t)).
Proof.
  intros A e s q t H Hq. unfold items_c.
  match goal with |- context [snd (let '(_, _) := ?x in _)] => assert (A1 : t_attr (snd x) = t_attr t); [|destruct x as [l1 t1]] end.
  { destruct (q_file q) as [[|c f]|]; try reflexivity. apply file_attr. }
  match goal with |- context [snd (let '(_, _) := ?x in _)] => assert (A2 : t_attr (snd x) = t_attr t1); [|destruct x as [l2 t2]] end.
  { destruct (norm_arg nonempty (q_class q)); [reflexivity|apply class_attr]. }
  cbn [snd] in A1, A2. assert (H2 : asked A t2) by (apply (asked_eq A t); [congruence|exact H]).
  match goal with |- context [snd (let '(_, _) := ?x in _)] => assert (A3 : asked A (snd x)); [|now destruct x as [l3 t3]] end.
  unfold compared in Hq. destruct (norm_arg nonempty (q_attr q)); [exact H2|]. apply asked_attr; [exact H2|].
  intro Hv. destruct (norm_arg pyval_true (q_val q)); [congruence|exact Hq].
Qed.
Lemma asked_image_vars : forall A e s f vs t, asked A t -> asked A (snd (image_vars_c e s f vs t)).
Proof.
  intros A e s f vs. induction vs as [|v vs IH]; intros t H; [exact H|]. cbn [image_vars_c].
  pose proof (asked_items A e s (MkQuery (Some f) (AOne ("Variable" : str)) (AOne ("VarName" : str)) (AOne (VStr v)) false) t H) as L.
  destruct (items_c e s _ t) as [l t1]. cbn [snd] in L.
  assert (H1 : asked A t1).
  { apply L. intros o Ho. unfold compared in Ho. cbn in Ho. destruct v as [|c v]; cbn in Ho; [contradiction|].
    destruct Ho as [<-|[]]. now right. }
  specialize (IH t1 H1). destruct (image_vars_c e s f vs t1). exact IH.
Qed.

Lemma asked_query : forall A e c s t, asked A t -> is_query c -> (forall q, c <> CItems q) ->
  asked A (snd (snd (call_c e c (s, t)))).
Proof.
  intros A e c s t H Hq Hc. destruct c; try contradiction; cbn [call_c]; unfold answer_as; cbn [fst snd].
  - exfalso. now apply (Hc q).
  - unfold const_c. destruct (t_recipes t); exact H.
  - unfold const_c. destruct (t_lone t); exact H.
  - unfold const_c. destruct (t_conf t); exact H.
  - unfold const_c. destruct (t_classes t); exact H.
  - unfold links_c. destruct (look _ _ _); [exact H|]. destruct f as [|c f]; [exact H|].
    pose proof (file_attr (st_map s) true (e_iset e (st_list s)) (c :: f) false t) as L.
    destruct (by_file_c (st_map s) true (e_iset e (st_list s)) (c :: f) false t) as [l t1]. cbn [snd] in *.
    now apply (asked_eq A t).
  - unfold image_c. destruct (look _ _ _); [exact H|]. unfold inherits_c.
    pose proof (asked_items A e s (MkQuery (Some f) (AOne ("Inherit" : str)) ANone ANone false) t H) as L.
    destruct (items_c e s _ t) as [l t1]. cbn [snd] in L. assert (H1 : asked A t1) by (apply L; intros o []).
    pose proof (asked_image_vars A e s f (cval_iter (images_variables (st_const s))) t1 H1) as L1.
    destruct (image_vars_c e s f _ t1) as [b t2]. exact L1.
  - unfold group_c. destruct (look _ _ _); [exact H|]. unfold inherits_c.
    pose proof (asked_items A e s (MkQuery (Some f) (AOne ("Inherit" : str)) ANone ANone false) t H) as L.
    destruct (items_c e s _ t) as [l t1]. cbn [snd] in L. apply L. intros o [].
Qed.
Lemma keep_query : forall T e c s t, ~ In ("VarName" : str) T -> is_query c -> c <> CClasses ->
  (forall q, c = CItems q -> free_query T q) ->
  call_c e c (s, keep T t) = (fst (call_c e c (s, t)), (s, keep T (snd (snd (call_c e c (s, t)))))).
Proof.
  intros T e c s t HT Hq Hk Hc. destruct c; try contradiction; try congruence; cbn [call_c]; unfold answer_as; cbn [fst snd].
  - rewrite keep_items by now apply Hc. reflexivity.
  - unfold const_c. cbn [keep t_recipes]. destruct (t_recipes t); reflexivity.
  - unfold const_c. cbn [keep t_lone]. destruct (t_lone t); reflexivity.
  - unfold const_c. cbn [keep t_conf]. destruct (t_conf t); reflexivity.
  - rewrite keep_links. reflexivity.
  - rewrite keep_image by exact HT. reflexivity.
  - rewrite keep_group. reflexivity.
Qed.

(** ** What an assignment leaves alone *)

Lemma existsb_in : forall (A : Type) (f h : A -> bool) l, (forall o, In o l -> f o = h o) -> existsb f l = existsb h l.
Proof.
  intros A f h l H. induction l as [|y l IH]; [reflexivity|]. cbn [existsb]. rewrite (H y (or_introl eq_refl)), IH; [reflexivity|].
  intros o Ho. apply H. now right.
Qed.
Section Set_.
  Context (x : setter) (n : nat).
  Let g (i : item) : item := if Nat.eqb (it_id i) n then set_attr x i else i.

  Lemma set_id : forall i, it_id (g i) = it_id i.
  Proof. intro i. unfold g. destruct (Nat.eqb _ _); [|reflexivity]. now destruct x. Qed.
  Lemma set_origin : forall i, it_origin (g i) = it_origin i.
  Proof. intro i. unfold g. destruct (Nat.eqb _ _); [|reflexivity]. now destruct x. Qed.
  Lemma set_class : forall i, classifier (g i) = classifier i.
  Proof.
    intro i. unfold g. destruct (Nat.eqb _ _); [|reflexivity]. unfold classifier.
    destruct x; try reflexivity; cbn [set_attr set_pay it_pay]; now destruct (it_pay i).
  Qed.
  Lemma set_inherit : forall i, classifier i = ("Inherit" : str) -> get_items_of (g i) = get_items_of i.
  Proof.
    intros i Hi. unfold g. destruct (Nat.eqb _ _); [|reflexivity]. unfold classifier in Hi. unfold get_items_of.
    destruct (it_pay i) eqn:Ep; try discriminate Hi; destruct x; cbn [set_attr set_pay set_line set_raw set_realraw add_incfrom it_pay]; now rewrite Ep.
  Qed.
  Lemma dget_same : forall (a b : list (str * pyval)) o, Forall2 (fun p q => fst p = fst q /\ (fst p = o -> snd p = snd q)) a b ->
    dget o a = dget o b.
  Proof.
    intros a b o H. induction H as [|[k v] [k' v'] a b [H1 H2] _ IH]; [reflexivity|]. cbn [fst snd] in *. subst k'. cbn.
    destruct (str_eqb o k) eqn:E; [|exact IH]. apply str_eqb_eq in E. now rewrite H2.
  Qed.
  Lemma dget_there : forall (a b : list (str * pyval)) o, map fst a = map fst b ->
    match dget o a with Some _ => true | None => false end = match dget o b with Some _ => true | None => false end.
  Proof.
    induction a as [|[k v] a IH]; intros [|[k' v'] b] o H; try discriminate; [reflexivity|]. cbn in *. injection H as -> H.
    destruct (str_eqb o k'); [reflexivity|now apply IH].
  Qed.
  Lemma set_value : forall o i, ~ In o (touched x) -> dget o (attributes (g i)) = dget o (attributes i).
  Proof.
    intros o i Ho. unfold g. destruct (Nat.eqb _ _); [|reflexivity]. apply dget_same. unfold attributes, base_attributes.
    apply Forall2_app.
    - destruct x; cbn [set_attr set_pay set_line set_raw set_realraw add_incfrom it_line it_raw it_origin it_infile it_realraw it_new];
        repeat (apply Forall2_cons; [split; [reflexivity|]; intro E; try reflexivity; exfalso; apply Ho; rewrite <- E; cbn [touched fst In]; tauto|]);
        apply Forall2_nil.
    - destruct x; cbn [set_attr set_pay set_line set_raw set_realraw add_incfrom it_pay it_new]; destruct (it_pay i); cbn [new_pay];
        repeat (apply Forall2_cons; [split; [reflexivity|]; intro E; try reflexivity; exfalso; apply Ho; rewrite <- E; cbn [touched fst In]; tauto|]);
        apply Forall2_nil.
  Qed.
  Lemma set_there : forall o i, match dget o (attributes (g i)) with Some _ => true | None => false end =
    match dget o (attributes i) with Some _ => true | None => false end.
  Proof.
    intros o i. unfold g. destruct (Nat.eqb _ _); [|reflexivity]. apply dget_there. unfold attributes.
    rewrite !map_app. apply f_equal2; [now destruct x|].
    destruct x; cbn [set_attr set_pay set_line set_raw set_realraw add_incfrom it_pay it_new]; now destruct (it_pay i).
  Qed.
  Lemma set_attr_filter : forall names vals i, (vals <> [] -> forall o, In o names -> ~ In o (touched x)) ->
    attr_filter names vals (g i) = attr_filter names vals i.
  Proof.
    intros names vals i H. unfold attr_filter. destruct vals as [|v vals]; apply existsb_in; intros o Ho.
    - pose proof (set_there o i) as L. destruct (dget o (attributes (g i))), (dget o (attributes i)); congruence.
    - rewrite set_value; [reflexivity|]. apply H; [discriminate|exact Ho].
  Qed.
  Lemma set_sel : forall mp q i, (forall o, In o (compared q) -> ~ In o (touched x)) -> sel mp q (g i) = sel mp q i.
  Proof.
    intros mp q i H. unfold sel, sel_file, sel_class, sel_attr. rewrite set_origin, set_class. f_equal.
    unfold compared in H. destruct (norm_arg nonempty (q_attr q)) eqn:E; [reflexivity|]. apply set_attr_filter.
    intro Hv. destruct (norm_arg pyval_true (q_val q)); [congruence|]. exact H.
  Qed.
End Set_.

Lemma items_In : forall e s q i, env_ok e -> ids_ok (st_list s) ->
  (In i (get_items_for e s q) <-> In i (st_list s) /\ sel (st_map s) q i = true).
Proof.
  intros e s q i He Hi. unfold get_items_for. rewrite reduce_eq, <- filter_In.
  assert (P : Permutation (sort_items (e_iset e (filter (sel (st_map s) q) (st_list s))))
                          (dedup_items (filter (sel (st_map s) q) (st_list s)))).
  { eapply Permutation_trans; [apply sort_items_perm|]. apply He. }
  rewrite <- (dedup_items_In (filter (sel (st_map s) q) (st_list s)) i).
  - split; intro H; [exact (Permutation_in i P H)|exact (Permutation_in i (Permutation_sym P) H)].
  - apply (ids_ok_incl (st_list s)); [exact Hi|]. apply incl_filter.
Qed.

Lemma filter_map_comm : forall (g : item -> item) (p : item -> bool) l, (forall i, p (g i) = p i) ->
  filter p (map g l) = map g (filter p l).
Proof.
  intros g p l H. induction l as [|i l IH]; [reflexivity|]. cbn. rewrite H. destruct (p i); cbn; now rewrite IH.
Qed.
Lemma origins : forall (g : item -> item) l, (forall i, it_origin (g i) = it_origin i) -> map it_origin (map g l) = map it_origin l.
Proof. intros g l H. rewrite map_map. now apply map_ext. Qed.

Section Fresh.
  Context (e : env) (He : env_ok e) (Hb : by_identity e) (n : nat) (x : setter).
  Let g (i : item) : item := if Nat.eqb (it_id i) n then set_attr x i else i.

  Lemma back : forall s l, incl l (map g (st_list s)) -> exists l0, incl l0 (st_list s) /\ l = map g l0.
  Proof.
    intros s l Hin. induction l as [|y l IH]; [exists []; split; [intros y []|reflexivity]|].
    destruct IH as [l0 [I ->]]; [intros z Hz; apply Hin; now right|].
    destruct (proj1 (in_map_iff _ _ _) (Hin y (or_introl eq_refl))) as [z [<- Hz]].
    exists (z :: l0). split; [|reflexivity]. intros w [<-|Hw]; auto.
  Qed.
  Lemma ids_g : forall l, map it_id (map g l) = map it_id l.
  Proof. intro l. rewrite map_map. apply map_ext. intro i. apply (set_id x n). Qed.
  Lemma ids_set : forall s, ids_ok (st_list s) -> ids_ok (st_list (set_on n x s)).
  Proof. intros s H. unfold set_on. cbn [st_list with_list]. apply ids_ok_map; [exact H|]. intro i. apply (set_id x n). Qed.

  Lemma set_iset : forall s, ids_ok (st_list s) -> e_iset e (map g (st_list s)) = map g (e_iset e (st_list s)).
  Proof.
    intros s Hi. pose proof (ids_set s Hi) as Hi'. unfold set_on in Hi'. cbn [st_list with_list] in Hi'.
    assert (Sub : forall l, ids_ok l -> incl (e_iset e l) l).
    { intros l Hl i H. apply (dedup_items_In l i Hl). apply (Permutation_in i (proj1 He l) H). }
    apply (ids_lists (map g (st_list s))); [exact Hi'|now apply Sub|..].
    - intros j Hj. apply in_map_iff in Hj. destruct Hj as [i [<- Hj]]. apply in_map. now apply Sub.
    - rewrite ids_g. apply Hb. apply ids_g.
  Qed.

  Lemma exists_set : forall s q f, ids_ok (st_list s) -> (forall o, In o (compared q) -> ~ In o (touched x)) ->
    (forall i, sel (st_map s) q i = true -> f (g i) = f i) ->
    existsb f (get_items_for e (set_on n x s) q) = existsb f (get_items_for e s q).
  Proof.
    intros s q f Hi Hq Hf. apply Bool.eq_iff_eq_true. rewrite !existsb_exists. split; intros [j [Hj Fj]].
    - apply items_In in Hj; [|exact He|now apply ids_set]. destruct Hj as [Hj Hs].
      change (st_list (set_on n x s)) with (map g (st_list s)) in Hj. apply in_map_iff in Hj. destruct Hj as [i [<- Hj]].
      change (st_map (set_on n x s)) with (st_map s) in Hs. unfold g in Hs. rewrite (set_sel x n _ q i Hq) in Hs.
      exists i. split; [apply items_In; auto|]. now rewrite Hf in Fj.
    - apply items_In in Hj; [|exact He|exact Hi]. destruct Hj as [Hj Hs]. exists (g j). split; [|now rewrite Hf].
      apply items_In; [exact He|now apply ids_set|]. split; [now apply (in_map g)|].
      change (st_map (set_on n x s)) with (st_map s). unfold g. now rewrite (set_sel x n _ q j Hq).
  Qed.
  Lemma image_set : forall s f, ids_ok (st_list s) -> is_image e (set_on n x s) f = is_image e s f.
  Proof.
    intros s f Hi. unfold is_image. f_equal.
    - change (st_const (set_on n x s)) with (st_const s). unfold inherits_of. apply exists_set; [exact Hi|intros o []|].
      intros i Hs. f_equal. unfold sel in Hs. rewrite !Bool.andb_true_iff in Hs. destruct Hs as [[_ Hs] _].
      unfold sel_class in Hs. cbn [q_class norm_arg nonempty] in Hs. apply mem_str_In in Hs. destruct Hs as [Hs|[]].
      apply (set_inherit x n). now symmetry.
    - change (st_const (set_on n x s)) with (st_const s). apply existsb_in. intros v _.
      assert (L : forall l : list item, match l with [] => false | _ => true end = existsb (fun _ => true) l)
        by (intros [|]; reflexivity).
      rewrite !L. unfold vars_named. apply exists_set; [exact Hi| |reflexivity].
      intros o Ho. unfold compared in Ho. cbn in Ho. destruct v as [|c v]; cbn in Ho; [contradiction|].
      destruct Ho as [<-|[]]. destruct x; cbn [touched In]; intros H; repeat (destruct H as [H|H]; [discriminate H|]); exact H.
  Qed.
  Lemma group_set : forall s f, ids_ok (st_list s) -> is_packagegroup e (set_on n x s) f = is_packagegroup e s f.
  Proof.
    intros s f Hi. unfold is_packagegroup, inherits_of. apply exists_set; [exact Hi|intros o []|].
    intros i Hs. f_equal. unfold sel in Hs. rewrite !Bool.andb_true_iff in Hs. destruct Hs as [[_ Hs] _].
    unfold sel_class in Hs. cbn [q_class norm_arg nonempty] in Hs. apply mem_str_In in Hs. destruct Hs as [Hs|[]].
    apply (set_inherit x n). now symmetry.
  Qed.
  Lemma links_set : forall s f, ids_ok (st_list s) -> get_links_for_file e (set_on n x s) f = get_links_for_file e s f.
  Proof.
    intros s f Hi. unfold get_links_for_file. destruct f as [|c f]; [reflexivity|].
    change (st_map (set_on n x s)) with (st_map s). change (st_list (set_on n x s)) with (map g (st_list s)).
    rewrite (set_iset s Hi). unfold by_file.
    assert (G : forall i, it_origin (g i) = it_origin i) by (intro i; apply (set_origin x n)).
    rewrite (filter_map_comm g) by (intro i; now rewrite G).
    rewrite (filter_map_comm g) by (intro i; now rewrite G). now apply origins.
  Qed.

  Lemma set_fresh : forall s t, ids_ok (st_list s) -> fresh e s t ->
    (forall ids names v r, In ((ids, names, v), r) (t_attr t) -> v <> [] -> forall o, In o names -> ~ In o (touched x)) ->
    fresh e (set_on n x s) t.
  Proof.
    intros s t Hi [F [[C A] (A1 & A2 & A3 & A4 & A5 & A6)]] Ht.
    assert (G : forall i, it_origin (g i) = it_origin i) by (intro i; apply (set_origin x n)).
    split; [|split].
    - change (set_on n x s) with (with_list (map g (st_list s)) s). apply files_marked; [|exact F].
      intro i. split; [apply (set_id x n)|apply G].
    - split.
      + intros ids cl r l Hr Hin Hid. destruct (back s l Hin) as [l0 [I ->]]. rewrite ids_g in Hid.
        rewrite (C _ _ _ l0 Hr I Hid). unfold by_classifier. destruct cl as [|c0 cl]; [now rewrite ids_g|].
        rewrite (filter_map_comm g); [now rewrite ids_g|]. intro i. unfold g. now rewrite set_class.
      + intros ids names v r l Hr Hin Hid. destruct (back s l Hin) as [l0 [I ->]]. rewrite ids_g in Hid.
        rewrite (A _ _ _ _ l0 Hr I Hid). unfold by_attribute. specialize (Ht _ _ _ _ Hr).
        destruct names as [|o names]; [now rewrite ids_g|].
        rewrite (filter_map_comm g); [now rewrite ids_g|]. intro i. unfold g. now apply set_attr_filter.
    - assert (O : map it_origin (st_list (set_on n x s)) = map it_origin (st_list s)) by (apply (origins g); exact G).
      split; [exact A1|]. split; [|split; [|split; [|split]]].
      + intros v Hv. rewrite (A2 v Hv). unfold get_lone_appends. now rewrite O.
      + intros v Hv. rewrite (A3 v Hv). unfold get_conf_files. now rewrite O.
      + intros f v Hv. rewrite (A4 f v Hv). symmetry. now apply links_set.
      + intros f v Hv. rewrite (A5 f v Hv). symmetry. now apply image_set.
      + intros f v Hv. rewrite (A6 f v Hv). symmetry. now apply group_set.
  Qed.
End Fresh.

(** ** Histories *)

Definition names_set (T : list str) : Prop := forall o, In o T -> exists x, In o (touched x).
Lemma not_set : forall T, names_set T -> ~ In ("VarName" : str) T.
Proof.
  intros T H Hn. destruct (H _ Hn) as [x Hx]. destruct x; cbn [touched In] in Hx;
    repeat (destruct Hx as [Hx|Hx]; [discriminate Hx|]); exact Hx.
Qed.

Lemma clear_keep : forall T t, keep T (clear_cached t) = clear_cached t.
Proof. reflexivity. Qed.
Lemma asked_clear : forall A t, asked A (clear_cached t).
Proof. intros A t ids n v r []. Qed.

Lemma C117_steps : forall e b A T s l, env_ok e -> by_identity e -> kept e b A T s l -> forall t,
  reach e s -> fresh e s (keep T t) -> asked A t -> names_set T -> (b = true -> clean t) ->
  fst (acts_c e l (s, t)) = fst (plain_acts e l s) /\ fst (snd (acts_c e l (s, t))) = snd (plain_acts e l s).
Proof.
  intros e b A T s l He Hb H.
  assert (Ids : forall s, reach e s -> ids_ok (st_list s)) by (intros s0 H0; now apply (reach_ids e)).
  assert (Go : forall l a s1 x, call_c e a x = (fst (plain e a s1), (snd (plain e a s1), snd (snd (call_c e a x)))) ->
    (let t1 := snd (snd (call_c e a x)) in let s2 := snd (plain e a s1) in
     fst (acts_c e l (s2, t1)) = fst (plain_acts e l s2) /\ fst (snd (acts_c e l (s2, t1))) = snd (plain_acts e l s2)) ->
    fst (acts_c e (ADo a :: l) x) = fst (plain_acts e (ADo a :: l) s1) /\
    fst (snd (acts_c e (ADo a :: l) x)) = snd (plain_acts e (ADo a :: l) s1)).
  { intros l0 a s1 x E. cbv zeta. cbn [acts_c plain_acts]. revert E. destruct (call_c e a x) as [a1 [s2 t2]].
    destruct (plain e a s1) as [a3 s3]. cbn [fst snd]. intro E. injection E as -> ->.
    destruct (acts_c e l0 (s3, t2)) as [l' x2]. destruct (plain_acts e l0 s3) as [l'' s4]. cbn [fst snd].
    intros [-> ->]. now split. }
  assert (New : forall t s0, fresh e s0 (keep [] (clear_cached t)) /\ asked [] (clear_cached t) /\ names_set [] /\ clean (clear_cached t)).
  { intros t0 s0. split; [apply cleared|]. split; [apply asked_clear|]. split; [intros o []|now exists t0]. }
  induction H as [b A T s|b A T s l n path off forced r s' E K _ IH|b A T s l n path off forced r s' E K _ IH
                 |b A T s l y Hl Hd _ IH|b A T s l y s' E _ IH|A T s l s' E _ IH|b A T s l q Hq _ IH
                 |b A T s l c Hq Hi Hc _ IH|b A T T' s l n x HT' _ IH];
    intros t (nw & neg & db & Hs) F As N B; pose proof (Ids s (ex_intro _ nw (ex_intro _ neg (ex_intro _ db Hs)))) as Hi0.
  - now split.
  - assert (Ke : returns_early e path s = false)
      by (apply Bool.not_true_iff_false; now rewrite early_iff).
    apply Go; cbn [call_c plain]; rewrite E; [reflexivity|]. cbn [fst snd]. rewrite Ke.
    destruct (New t s') as (N1 & N2 & N3 & N4). apply IH; auto.
    exists nw, neg, db. now apply (steps_add e _ n path off forced s (Ok r)).
  - pose proof (proj2 (early_iff e path s) K) as Ke. pose proof (early_same _ _ _ _ _ _ _ _ E Ke). subst s'.
    apply Go; cbn [call_c plain]; rewrite E; [reflexivity|]. cbn [fst snd]. rewrite Ke. apply IH; auto. now exists nw, neg, db.
  - apply Go; [reflexivity|]. cbn [call_c plain fst snd].
    destruct (New t (append_items y s)) as (N1 & N2 & N3 & N4). apply IH; auto. exists nw, neg, db. now apply steps_append.
  - apply Go; cbn [call_c plain]; rewrite E; [reflexivity|]. cbn [fst snd].
    destruct (New t s') as (N1 & N2 & N3 & N4). apply IH; auto. exists nw, neg, db. now apply (steps_remove e _ y s (Ok tt)).
  - destruct (finalize_c e s t) as [r x] eqn:Ef.
    destruct (finalize_same e s t Hi0 (B eq_refl) _ _ Ef) as [E1 E2]. rewrite E in E1. injection E1 as <- E3.
    apply Go; cbn [call_c plain]; rewrite E, Ef; cbn [fst snd]; [rewrite E3; now destruct x|].
    destruct (E2 eq_refl) as [t0 Et]. rewrite Et. destruct (New t0 s') as (N1 & N2 & N3 & N4). apply IH; auto.
    exists nw, neg, db. now apply (steps_finalize e _ s (Ok tt)).
  - pose proof (keep_query T e (CItems q) s t (not_set T N) I ltac:(discriminate)) as K.
    specialize (K ltac:(intros q' Eq; injection Eq as <-; exact Hq)).
    destruct (query_ok e (CItems q) s (keep T t) He Hi0 F I ltac:(discriminate)) as [t' [E1 [E2 F']]].
    rewrite K in E1. injection E1 as E1 E3.
    assert (Ec : call_c e (CItems q) (s, t) = (fst (plain e (CItems q) s), (s, snd (snd (call_c e (CItems q) (s, t))))))
      by (cbn [call_c plain] in *; unfold answer_as in *; cbn [fst snd] in *; now rewrite E1).
    apply Go; [rewrite E2; exact Ec|]. cbv zeta. rewrite E2. apply IH; auto.
    + now exists nw, neg, db.
    + change (fresh e s (keep T (snd (items_c e s q t)))). now rewrite E3.
    + cbn [call_c]. unfold answer_as. cbn [snd]. apply asked_items.
      * apply (asked_incl A); [intros o Ho; apply in_or_app; now right|exact As].
      * intros o Ho. left. apply in_or_app. now left.
    + discriminate.
  - pose proof (keep_query T e c s t (not_set T N) Hq Hc) as K.
    specialize (K ltac:(intros q' Eq; exfalso; exact (Hi q' Eq))).
    destruct (query_ok e c s (keep T t) He Hi0 F Hq Hc) as [t' [E1 [E2 F']]].
    rewrite K in E1. pose proof (f_equal (fun p => snd (snd p)) E1) as E3. apply (f_equal fst) in E1. cbn [fst snd] in E1, E3.
    assert (Ec : call_c e c (s, t) = (fst (plain e c s), (s, snd (snd (call_c e c (s, t)))))).
    { rewrite <- E1. destruct c; try contradiction; cbn [call_c]; unfold answer_as; reflexivity. }
    apply Go; [rewrite E2; exact Ec|]. cbv zeta. rewrite E2. apply IH; auto.
    + now exists nw, neg, db.
    + now rewrite E3.
    + now apply asked_query.
    + discriminate.
  - cbn [acts_c plain_acts fst snd]. apply IH; auto.
    + exists nw, neg, db. apply (steps_edit e _ (fun i => if Nat.eqb (it_id i) n then set_attr x i else i)); [exact Hs|].
      apply set_id.
    + apply set_fresh; auto.
      * destruct F as [F1 [[F2 F3] F4]]. split; [exact F1|]. split; [|exact F4]. split; [exact F2|].
        intros ids names v r l0 Hr. apply (F3 ids names v r l0). cbn [keep t_attr] in *. apply filter_In in Hr. apply filter_In.
        destruct Hr as [Hr Hf]. split; [exact Hr|]. cbn [fst] in *. unfold free in *. cbn [fst snd] in *. destruct v; [reflexivity|].
        apply Bool.negb_true_iff in Hf. apply Bool.negb_true_iff, Bool.not_true_iff_false. intro Ex.
        apply existsb_exists in Ex. destruct Ex as [o [Ho Eo]]. apply mem_str_In in Eo.
        apply Bool.not_true_iff_false in Hf. apply Hf. apply existsb_exists. exists o. split; [exact Ho|].
        apply mem_str_In, HT'. now left.
      * intros ids names v r Hr Hv o Ho Ht. cbn [keep t_attr] in Hr. apply filter_In in Hr. destruct Hr as [Hr Hf].
        unfold free in Hf. cbn [fst snd] in Hf. destruct v as [|v0 v]; [now apply Hv|].
        apply Bool.negb_true_iff, Bool.not_true_iff_false in Hf. apply Hf. apply existsb_exists. exists o. split; [exact Ho|].
        apply mem_str_In, HT'. right. split; [|exact Ht].
        destruct (As _ _ _ _ Hr Hv o Ho) as [Ha|Ha]; [exact Ha|]. exfalso. subst o.
        apply (not_set (touched x)); [intros o Ho'; now exists x|exact Ht].
    + intros o Ho. apply HT' in Ho. destruct Ho as [Ho|[_ Ho]]; [now apply N|now exists x].
Qed.

Lemma C117_lemma : forall e nw neg db l, env_ok e -> by_identity e -> kept e true [] [] (new_stash nw neg db) l ->
  fst (acts_c e l (new_stash nw neg db, no_tables)) = fst (plain_acts e l (new_stash nw neg db)).
Proof.
  intros e nw neg db l He Hb H. apply (C117_steps e true [] [] _ l He Hb H no_tables).
  - exists nw, neg, db. apply steps_refl.
  - apply (cleared e _ no_tables).
  - intros ids n v r [].
  - intros o [].
  - intros _. now exists no_tables.
Qed.

(** ** What an assignment does *)

Lemma incfrom_In : forall (v : list str) (l : list str) f,
  In f (fold_left (fun acc y => add_set y acc) v l) <-> In f l \/ In f v.
Proof.
  induction v as [|y v IH]; intros l f; [cbn; tauto|]. cbn [fold_left]. rewrite IH. unfold add_set.
  destruct (mem_str y l) eqn:E.
  - apply (mem_str_In y l) in E. cbn [In]. split; [tauto|]. intros [H|[<-|H]]; tauto.
  - rewrite in_app_iff. cbn [In]. tauto.
Qed.
Lemma took_set : forall x i, took x i (set_attr x i).
Proof.
  intros [v|v|v|v|v|v] i; cbn [took set_attr]; try reflexivity.
  - intro f. cbn [add_incfrom it_incfrom]. apply incfrom_In.
  - intro H. unfold classifier in H. unfold read, attributes. cbn [set_pay it_pay it_new].
    destruct (it_pay i); try discriminate H. split; reflexivity.
  - intro H. unfold classifier in H. unfold read, attributes. cbn [set_pay it_pay it_new].
    destruct (it_pay i); try discriminate H. split; reflexivity.
Qed.
Lemma same_set : forall x i, else_same x i (set_attr x i).
Proof.
  intros x i. pose proof (set_class x (it_id i) i) as C. pose proof (set_value x (it_id i)) as V.
  cbv beta in C. rewrite Nat.eqb_refl in C. split; [exact C|]. split; [now destruct x|]. split; [now destruct x|].
  intros a Ha. specialize (V a i Ha). cbv beta in V. now rewrite Nat.eqb_refl in V.
Qed.
Lemma C120_lemma : forall n x s,
  Forall2 (fun i j => it_id j = it_id i /\ (it_id i <> n -> j = i) /\ (it_id i = n -> took x i j /\ else_same x i j))
    (st_list s) (st_list (set_on n x s)).
Proof.
  intros n x s. cbn [set_on with_list st_list]. induction (st_list s) as [|i l IH]; [constructor|]. cbn [map]. constructor; [|exact IH].
  split; [exact (set_id x n i)|]. destruct (Nat.eqb_spec (it_id i) n) as [E|E]; split; intro H; try congruence; try reflexivity.
  split; [apply took_set|apply same_set].
Qed.
