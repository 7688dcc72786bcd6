(** * The list class of query results: proofs *)

From Verif Require Import PyStr Res Item Stash StashList Spec_Query Proofs_Query.

Lemma items_inj : forall a b, map EItem a = map EItem b -> a = b.
Proof.
  induction a as [|x a IH]; intros [|y b] H; try discriminate; [reflexivity|].
  injection H as -> H. now rewrite (IH b H).
Qed.

Lemma C59_insert_lemma : forall l idx i, exists a b, l = a ++ b /\
  sl_insert (map EItem l) idx i = map EItem (a ++ i :: b) /\
  ((0 <= idx)%Z -> Z.of_nat (length a) = Z.min idx (Z.of_nat (length l))) /\
  ((idx < 0)%Z -> Z.of_nat (length b) = Z.min (- idx) (Z.of_nat (length l))).
Proof.
  intros l idx i. unfold sl_insert. rewrite map_length.
  set (k := Z.to_nat _). exists (firstn k l), (skipn k l). split; [now rewrite firstn_skipn|].
  split; [now rewrite map_app, firstn_map, skipn_map|]. rewrite firstn_length, skipn_length.
  subst k. destruct (Z.ltb_spec idx 0); split; lia.
Qed.

Lemma drop_item_map : forall i l,
  drop_item i (map EItem l) = match remove_first i l with Some r => Some (map EItem r) | None => None end.
Proof.
  intros i l. induction l as [|x l IH]; [reflexivity|]. cbn. destruct (Nat.eqb _ _); [reflexivity|].
  rewrite IH. now destruct (remove_first i l).
Qed.
Lemma drop_items_map : forall r l s, st_list s = l ->
  drop_items r (map EItem l) = (fst (remove_items r s), map EItem (st_list (snd (remove_items r s)))).
Proof.
  induction r as [|i r IH]; intros l s <-; [reflexivity|]. cbn [drop_items remove_items].
  rewrite drop_item_map. destruct (remove_first i (st_list s)) as [l'|]; [|reflexivity]. now apply IH.
Qed.
Definition some_stash (l : list item) : stash := with_list l (new_stash false false (Const.CDict [])).

Lemma C59_remove_lemma : forall r l d, drop_items r (map EItem l) = (Ok tt, d) ->
  exists l', d = map EItem l' /\ removed r l l'.
Proof.
  intros r l d H. rewrite (drop_items_map r l (some_stash l) eq_refl) in H.
  destruct (remove_items r (some_stash l)) as [x s'] eqn:E. injection H as -> <-.
  exists (st_list s'). split; [reflexivity|]. now apply remove_ok in E.
Qed.
Lemma C59_remove_iff_lemma : forall r l, (exists d, drop_items r (map EItem l) = (Ok tt, d)) <->
  forall x, In x r -> times x r <= times x l.
Proof.
  intros r l. rewrite (drop_items_map r l (some_stash l) eq_refl). rewrite <- (remove_iff r (some_stash l)).
  destruct (remove_items r (some_stash l)) as [x s'] eqn:E. cbn [fst snd]. split.
  - intros [d H]. injection H as -> _. now exists s'.
  - intros [s2 H]. injection H as -> ->. eauto.
Qed.

Lemma C103_get_lemma : forall l idx x, sl_get (map EItem l) idx = Some x <->
  exists a i b, l = a ++ i :: b /\ x = EItem i /\ (idx = Z.of_nat (length a) \/ idx = - Z.of_nat (S (length b)))%Z.
Proof.
  intros l idx x. unfold sl_get. rewrite map_length. split.
  - set (k := if (idx <? 0)%Z then (idx + Z.of_nat (length l))%Z else idx). destruct (Z.ltb_spec k 0) as [K|K]; [discriminate|].
    intro H. rewrite nth_error_map in H. destruct (nth_error l (Z.to_nat k)) as [i|] eqn:E; [|discriminate].
    injection H as <-. apply nth_error_split in E. destruct E as [a [b [E L]]]. exists a, i, b. split; [exact E|]. split; [reflexivity|].
    assert (M : length l = length a + S (length b)) by (rewrite E, app_length; reflexivity).
    unfold k in *. clear E. clear k.
    destruct (Z.ltb_spec idx 0); lia.
  - intros (a & i & b & -> & -> & H). rewrite app_length. cbn [length].
    assert (N : nth_error (map EItem (a ++ i :: b)) (length a) = Some (EItem i)).
    { rewrite nth_error_map, nth_error_app2 by lia. now rewrite Nat.sub_diag. }
    destruct (Z.ltb_spec idx 0) as [K|K].
    + replace (idx + Z.of_nat (length a + S (length b)))%Z with (Z.of_nat (length a)) by lia.
      destruct (Z.ltb_spec (Z.of_nat (length a)) 0); [lia|]. now rewrite Nat2Z.id.
    + destruct (Z.ltb_spec idx 0); [lia|]. replace idx with (Z.of_nat (length a)) by lia. now rewrite Nat2Z.id.
Qed.

Lemma some_inj : forall (A : Type) (x y : A), Some x = Some y -> x = y.
Proof. intros A x y H. now injection H. Qed.
Lemma C59_set_lemma : forall l idx i d, sl_set (map EItem l) idx i = Some d <->
  exists a x b, l = a ++ x :: b /\ d = map EItem (a ++ i :: b) /\
    (idx = Z.of_nat (length a) \/ idx = - Z.of_nat (S (length b)))%Z.
Proof.
  intros l idx i d. unfold sl_set. rewrite map_length. split.
  - set (k := if (idx <? 0)%Z then (idx + Z.of_nat (length l))%Z else idx).
    destruct (Z.ltb_spec k 0) as [K|K]; [discriminate|]. destruct (Z.leb_spec (Z.of_nat (length l)) k) as [K2|K2]; [discriminate|].
    cbn [orb]. intro H. apply some_inj in H. subst d.
    destruct (nth_error l (Z.to_nat k)) as [x|] eqn:E.
    2:{ apply nth_error_None in E. lia. }
    apply nth_error_split in E. destruct E as [a [b [E L]]]. exists a, x, b. split; [exact E|].
    assert (M : length l = length a + S (length b)) by (rewrite E, app_length; reflexivity).
    split.
    + rewrite firstn_map, skipn_map, E, <- L, firstn_app, firstn_all, Nat.sub_diag. cbn [firstn]. rewrite app_nil_r.
      rewrite skipn_app, skipn_all2 by lia. replace (S (length a) - length a) with 1 by lia. cbn [skipn List.app].
      now rewrite map_app.
    + unfold k in *. clear E k. destruct (Z.ltb_spec idx 0); lia.
  - intros (a & x & b & -> & -> & H). rewrite app_length. cbn [length].
    assert (K : (if (idx <? 0)%Z then (idx + Z.of_nat (length a + S (length b)))%Z else idx) = Z.of_nat (length a)).
    { destruct (Z.ltb_spec idx 0); lia. }
    rewrite K. destruct (Z.ltb_spec (Z.of_nat (length a)) 0); [lia|].
    destruct (Z.leb_spec (Z.of_nat (length a + S (length b))) (Z.of_nat (length a))); [lia|]. cbn [orb].
    rewrite Nat2Z.id, firstn_map, skipn_map, firstn_app, firstn_all, Nat.sub_diag. cbn [firstn]. rewrite app_nil_r.
    rewrite skipn_app, skipn_all2 by lia. replace (S (length a) - length a) with 1 by lia. cbn [skipn List.app].
    now rewrite map_app.
Qed.

Lemma C59_ends_lemma : forall l r i,
  sl_append (map EItem l) (SItem i) = map EItem (l ++ [i]) /\
  sl_append (map EItem l) (SList r) = map EItem (l ++ r) /\
  forall y, y = SList r \/ y = SStash (map EItem r) ->
    exists b, sl_iadd (map EItem l) y = Ok b /\ (b = BList (map EItem (l ++ r)) \/ b = BStash (map EItem (l ++ r))).
Proof.
  intros l r i. rewrite !map_app. split; [reflexivity|]. split; [reflexivity|].
  intros y [->| ->]; eexists; (split; [reflexivity|now left]).
Qed.
