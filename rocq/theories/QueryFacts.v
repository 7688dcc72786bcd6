(** * Sorting, sets and filters of queries *)

From Verif Require Import PyStr Regex Patterns PyPath Res Inline Const Item Lines Stash
  StrFacts ReFacts LinesFacts ParseFacts HistFacts ReachFacts.
From Coq Require Import Permutation Sorted.

(** ** Sets *)

Lemma dedup_items_In : forall l i, ids_ok l -> (In i (dedup_items l) <-> In i l).
Proof.
  intros l i. induction l as [|x l IH]; intro H; [reflexivity|]. simpl.
  assert (H' : ids_ok l) by (apply (ids_ok_incl (x :: l)); [exact H|]; intros z Hz; now right).
  specialize (IH H'). rewrite filter_In, IH, Bool.negb_true_iff, Nat.eqb_neq. split.
  - tauto.
  - intros [->|Hi]; [now left|]. destruct (Nat.eq_dec (it_id x) (it_id i)) as [E|E]; [|now right].
    left. apply (H x i); simpl; auto.
Qed.
Lemma dedup_items_NoDup : forall l, NoDup (map it_id (dedup_items l)).
Proof.
  induction l as [|x l IH]; simpl; constructor.
  - intro H. apply in_map_iff in H. destruct H as [i [E Hi]]. apply filter_In in Hi. destruct Hi as [_ Hi].
    rewrite Bool.negb_true_iff, Nat.eqb_neq in Hi. auto.
  - clear -IH. induction (dedup_items l) as [|y l' IHl]; simpl; [constructor|].
    simpl in IH. inversion IH as [|? ? Hn Hd]; subst. destruct (negb _); [|now apply IHl].
    simpl. constructor; [|now apply IHl]. intro H. apply Hn. apply in_map_iff in H.
    destruct H as [i [E Hi]]. apply filter_In in Hi. apply in_map_iff. exists i. tauto.
Qed.
Lemma NoDup_map_inv' : forall (A B : Type) (f : A -> B) l, NoDup (map f l) -> NoDup l.
Proof. intros A B f l H. eapply NoDup_map_inv. exact H. Qed.

Lemma dedup_str_In : forall l x, In x (dedup_str l) <-> In x l.
Proof.
  intros l x. induction l as [|y l IH]; [reflexivity|]. simpl.
  rewrite filter_In, IH, Bool.negb_true_iff, str_eqb_neq. split; [tauto|].
  intros [->|H]; [now left|]. destruct (str_eq_dec y x); auto.
Qed.
Lemma NoDup_filter' : forall (A : Type) (p : A -> bool) l, NoDup l -> NoDup (filter p l).
Proof.
  intros A p l H. induction H as [|x l Hn Hd IH]; simpl; [constructor|].
  destruct (p x); [|exact IH]. constructor; [|exact IH]. intro Hx. apply filter_In in Hx. tauto.
Qed.
Lemma dedup_str_NoDup : forall l, NoDup (dedup_str l).
Proof.
  induction l as [|x l IH]; simpl; constructor.
  - rewrite filter_In, str_eqb_refl. simpl. intros [_ H]. discriminate.
  - now apply NoDup_filter'.
Qed.

(** ** Sorting *)

Definition le_line (a b : item) : Prop := (it_line a <= it_line b)%Z.

Lemma insert_item_perm : forall x l, Permutation (insert_item x l) (x :: l).
Proof.
  intros x l. induction l as [|y l IH]; simpl; [reflexivity|].
  destruct (Z.leb _ _); [reflexivity|]. rewrite IH. apply perm_swap.
Qed.
Lemma sort_items_perm : forall l, Permutation (sort_items l) l.
Proof.
  induction l as [|x l IH]; simpl; [reflexivity|]. rewrite insert_item_perm. now constructor.
Qed.
Lemma insert_item_sorted : forall x l, StronglySorted le_line l -> StronglySorted le_line (insert_item x l).
Proof.
  intros x l H. induction H as [|y l Hs IH Hf]; simpl; [repeat constructor|].
  destruct (Z.leb (it_line x) (it_line y)) eqn:E.
  - apply Z.leb_le in E. constructor; [now constructor|]. constructor; [exact E|].
    eapply Forall_impl; [|exact Hf]. unfold le_line. intros z Hz. lia.
  - apply Z.leb_gt in E. constructor; [exact IH|].
    eapply Permutation_Forall; [symmetry; apply insert_item_perm|].
    constructor; [unfold le_line; lia|exact Hf].
Qed.
Lemma sort_items_sorted : forall l, StronglySorted le_line (sort_items l).
Proof. induction l as [|x l IH]; simpl; [constructor|]. now apply insert_item_sorted. Qed.

Lemma sorted_perm_eq : forall a b, StronglySorted le_line a -> StronglySorted le_line b -> Permutation a b ->
  (forall i j, In i a -> In j a -> it_line i = it_line j -> i = j) -> a = b.
Proof.
  induction a as [|x a IH]; intros b Ha Hb P Hd.
  - now apply Permutation_nil in P.
  - destruct b as [|y b]; [symmetry in P; now apply Permutation_nil in P|].
    inversion Ha as [|? ? Ha' Fa]; subst. inversion Hb as [|? ? Hb' Fb]; subst.
    assert (E : x = y).
    { assert (Hx : In x (y :: b)) by (eapply Permutation_in; [exact P|now left]).
      assert (Hy : In y (x :: a)) by (eapply Permutation_in; [symmetry; exact P|now left]).
      apply Hd; [now left|exact Hy|].
      rewrite Forall_forall in Fa, Fb. unfold le_line in *.
      assert (L1 : (it_line x <= it_line y)%Z) by (destruct Hy as [->|Hy]; [lia|now apply Fa]).
      assert (L2 : (it_line y <= it_line x)%Z) by (destruct Hx as [->|Hx]; [lia|now apply Fb]). lia. }
    subst y. f_equal. apply Permutation_cons_inv in P. apply IH; auto.
    intros i j Hi Hj. apply Hd; now right.
Qed.

Lemma str_leb_total : forall a b, str_leb a b = false -> str_leb b a = true.
Proof.
  induction a as [|x a IH]; intros [|y b] H; simpl in *; try discriminate; [reflexivity|].
  destruct (N.ltb_spec x y) as [L|L]; [discriminate|].
  destruct (N.eqb_spec x y) as [->|E].
  - rewrite N.ltb_irrefl, N.eqb_refl. now apply IH.
  - destruct (N.ltb_spec y x) as [L2|L2]; [reflexivity|]. lia.
Qed.
Lemma str_leb_trans : forall a b c, str_leb a b = true -> str_leb b c = true -> str_leb a c = true.
Proof.
  induction a as [|x a IH]; intros [|y b] [|z c] H1 H2; simpl in *; try discriminate; auto.
  destruct (N.ltb_spec x y) as [L|L].
  - destruct (N.ltb_spec y z) as [M|M]; [|destruct (N.eqb_spec y z); [|discriminate]];
      (destruct (N.ltb_spec x z); [reflexivity|lia]).
  - destruct (N.eqb_spec x y) as [->|]; [|discriminate].
    destruct (N.ltb_spec y z) as [M|M]; [reflexivity|].
    destruct (N.eqb_spec y z) as [->|]; [|discriminate]. eapply IH; eassumption.
Qed.
Lemma str_leb_antisym : forall a b, str_leb a b = true -> str_leb b a = true -> a = b.
Proof.
  induction a as [|x a IH]; intros [|y b] H1 H2; simpl in *; try discriminate; auto.
  destruct (N.ltb_spec x y) as [L|L].
  - destruct (N.ltb_spec y x) as [M|M]; [lia|]. destruct (N.eqb_spec y x); [lia|discriminate].
  - destruct (N.eqb_spec x y) as [->|]; [|discriminate]. rewrite N.ltb_irrefl, N.eqb_refl in H2.
    f_equal. now apply IH.
Qed.

Definition le_str (a b : str) : Prop := str_leb a b = true.
Definition lt_str (a b : str) : Prop := str_leb a b = true /\ a <> b.
Lemma insert_str_perm : forall x l, Permutation (insert_str x l) (x :: l).
Proof.
  intros x l. induction l as [|y l IH]; simpl; [reflexivity|].
  destruct (str_leb _ _); [reflexivity|]. rewrite IH. apply perm_swap.
Qed.
Lemma sort_str_perm : forall l, Permutation (sort_str l) l.
Proof.
  induction l as [|x l IH]; simpl; [reflexivity|]. rewrite insert_str_perm. now constructor.
Qed.
Lemma insert_str_sorted : forall x l, StronglySorted le_str l -> StronglySorted le_str (insert_str x l).
Proof.
  intros x l H. induction H as [|y l Hs IH Hf]; simpl; [repeat constructor|].
  destruct (str_leb x y) eqn:E.
  - constructor; [now constructor|]. constructor; [exact E|].
    eapply Forall_impl; [|exact Hf]. unfold le_str. intros z Hz. eapply str_leb_trans; eassumption.
  - apply str_leb_total in E. constructor; [exact IH|].
    eapply Permutation_Forall; [symmetry; apply insert_str_perm|].
    constructor; [exact E|exact Hf].
Qed.
Lemma sort_str_sorted : forall l, StronglySorted le_str (sort_str l).
Proof. induction l as [|x l IH]; simpl; [constructor|]. now apply insert_str_sorted. Qed.
Lemma strictly_sorted : forall l, NoDup l -> StronglySorted le_str l -> StronglySorted lt_str l.
Proof.
  intros l Hn Hs. induction Hs as [|x l Hs IH Hf]; [constructor|].
  inversion Hn as [|? ? Hx Hn']; subst. constructor; [now apply IH|].
  rewrite Forall_forall in *. intros y Hy. split; [now apply Hf|]. intros ->. contradiction.
Qed.
Lemma sorted_set : forall l, let r := sort_str (dedup_str l) in
  (forall x, In x r <-> In x l) /\ StronglySorted lt_str r.
Proof.
  intros l r. split.
  - intro x. rewrite <- (dedup_str_In l x). split; apply Permutation_in; [|symmetry]; apply sort_str_perm.
  - apply strictly_sorted; [|apply sort_str_sorted].
    eapply Permutation_NoDup; [symmetry; apply sort_str_perm|apply dedup_str_NoDup].
Qed.

(** ** Filters *)

Lemma pyval_eqb_sym_str : forall v w, pyval_eqb (VStr v) w = true <-> w = VStr v.
Proof.
  intros v [s|z|b|]; simpl; try (split; discriminate). rewrite str_eqb_eq. split; congruence.
Qed.

Lemma filter_In' : forall (A : Type) (p : A -> bool) l x, In x (filter p l) -> In x l.
Proof. intros A p l x H. apply filter_In in H. tauto. Qed.

(** The filters of a query as one predicate. *)
Definition sel_file (mp : list (str * list str)) (q : query) (i : item) : bool :=
  match q_file q with
  | None | Some [] => true
  | Some f => is_linked_to mp (it_origin i) f (q_nolink q)
  end.
Definition sel_class (q : query) (i : item) : bool :=
  match norm_arg nonempty (q_class q) with [] => true | cl => mem_str (classifier i) cl end.
Definition sel_attr (q : query) (i : item) : bool :=
  match norm_arg nonempty (q_attr q) with
  | [] => true
  | names => attr_filter names (norm_arg pyval_true (q_val q)) i
  end.
Definition sel (mp : list (str * list str)) (q : query) (i : item) : bool :=
  sel_file mp q i && sel_class q i && sel_attr q i.

Lemma filter_true : forall (A : Type) (p : A -> bool) l, (forall x, p x = true) -> filter p l = l.
Proof. intros A p l H. induction l as [|x l IH]; simpl; [reflexivity|]. now rewrite H, IH. Qed.
Lemma filter_filter : forall (A : Type) (p q : A -> bool) l,
  filter q (filter p l) = filter (fun x => p x && q x) l.
Proof.
  intros A p q l. induction l as [|x l IH]; simpl; [reflexivity|].
  destruct (p x) eqn:Ep; simpl; [|exact IH]. destruct (q x); now rewrite IH.
Qed.

Lemma reduce_eq : forall e s l q, reduce_ e s l q = sort_items (e_iset e (filter (sel (st_map s) q) l)).
Proof.
  intros e s l q. unfold reduce_. f_equal. f_equal.
  assert (E1 : match q_file q with Some f => by_file (st_map s) l f (q_nolink q) | None => l end
               = filter (sel_file (st_map s) q) l).
  { unfold sel_file. destruct (q_file q) as [[|c f]|]; simpl; try (symmetry; now apply filter_true); reflexivity. }
  rewrite E1. set (l1 := filter _ l).
  assert (E2 : by_classifier l1 (norm_arg nonempty (q_class q)) = filter (sel_class q) l1).
  { unfold by_classifier, sel_class. destruct (norm_arg nonempty (q_class q)); try (symmetry; now apply filter_true); reflexivity. }
  rewrite E2. set (l2 := filter _ l1).
  assert (E3 : by_attribute l2 (norm_arg nonempty (q_attr q)) (norm_arg pyval_true (q_val q)) = filter (sel_attr q) l2).
  { unfold by_attribute, sel_attr. destruct (norm_arg nonempty (q_attr q)); try (symmetry; now apply filter_true); reflexivity. }
  rewrite E3. subst l2 l1. rewrite !filter_filter. apply filter_ext. intro i. unfold sel. now rewrite Bool.andb_assoc.
Qed.

Lemma ids_ok_filter : forall p l, ids_ok l -> ids_ok (filter p l).
Proof. intros p l H. apply (ids_ok_incl l); [exact H|]. intros x Hx. now apply filter_In' in Hx. Qed.

Lemma reduce_In : forall e s l q i, env_ok e -> ids_ok l ->
  (In i (reduce_ e s l q) <-> In i l /\ sel (st_map s) q i = true).
Proof.
  intros e s l q i He Hl. rewrite reduce_eq, <- filter_In.
  rewrite <- (dedup_items_In _ i (ids_ok_filter _ _ Hl)). split; apply Permutation_in.
  - rewrite sort_items_perm. apply He.
  - symmetry. rewrite sort_items_perm. apply He.
Qed.
Lemma reduce_NoDup : forall e s l q, env_ok e -> NoDup (map it_id (reduce_ e s l q)).
Proof.
  intros e s l q He. rewrite reduce_eq. eapply Permutation_NoDup; [|apply dedup_items_NoDup].
  symmetry. apply Permutation_map. rewrite sort_items_perm. apply He.
Qed.
Lemma reduce_sorted : forall e s l q, StronglySorted le_line (reduce_ e s l q).
Proof. intros. rewrite reduce_eq. apply sort_items_sorted. Qed.

(** Two results with the same members. *)
Lemma same_members : forall a b, NoDup (map it_id a) -> NoDup (map it_id b) ->
  (forall i, In i a <-> In i b) -> Permutation a b.
Proof.
  intros a b Ha Hb H. apply NoDup_Permutation; [| |exact H]; eapply NoDup_map_inv'; eassumption.
Qed.
