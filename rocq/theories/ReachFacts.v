(** * Histories of API calls *)

From Verif Require Import PyStr Regex Patterns PyPath Res Inline Const Item Lines Stash
  StrFacts ReFacts LinesFacts ParseFacts HistFacts.

(** What a user of the API can do from state [s0].  AddFile, Remove and
    Finalize may fail, and the state they leave counts too.  Items may be
    created outside of the stash ([steps_create]), changed ([steps_edit]; every
    reference to the object sees the change) and appended.  The constants are
    global and may be changed at any time. *)
Inductive steps (e : env) (s0 : stash) : stash -> Prop :=
| steps_refl : steps e s0 s0
| steps_add : forall n path off forced s r s',
    steps e s0 s -> add_file n e path off forced s = (r, s') -> steps e s0 s'
| steps_create : forall n s, steps e s0 s -> st_next s <= n -> steps e s0 (with_next n s)
| steps_append : forall l s,
    steps e s0 s -> (forall i, In i l -> it_id i < st_next s) ->
    (forall i j, In i (st_list s ++ l) -> In j (st_list s ++ l) -> it_id i = it_id j -> i = j) ->
    steps e s0 (append_items l s)
| steps_remove : forall l s r s', steps e s0 s -> remove_items l s = (r, s') -> steps e s0 s'
| steps_edit : forall g s, steps e s0 s -> (forall i, it_id (g i) = it_id i) ->
    steps e s0 (with_list (map g (st_list s)) s)
| steps_finalize : forall s r s', steps e s0 s -> finalize e s = (r, s') -> steps e s0 s'
| steps_const : forall db s, steps e s0 s -> steps e s0 (with_const db s).

(** The states reachable from a new stash. *)
Definition reach (e : env) (s : stash) : Prop :=
  exists new neg db, steps e (new_stash new neg db) s.

(** Different items have different identities. *)
Definition ids_ok (l : list item) : Prop :=
  forall i j, In i l -> In j l -> it_id i = it_id j -> i = j.

Lemma ids_ok_map : forall f l, ids_ok l -> (forall i, it_id (f i) = it_id i) -> ids_ok (map f l).
Proof.
  intros f l H Hf i j Hi Hj E. apply in_map_iff in Hi. apply in_map_iff in Hj.
  destruct Hi as [i0 [<- Hi]]. destruct Hj as [j0 [<- Hj]]. rewrite !Hf in E.
  now rewrite (H _ _ Hi Hj E).
Qed.
Lemma ids_ok_incl : forall l l', ids_ok l -> incl l' l -> ids_ok l'.
Proof. intros l l' H Hi i j Ii Ij. apply H; now apply Hi. Qed.
Lemma NoDup_ids_ok : forall l, NoDup (map it_id l) -> ids_ok l.
Proof.
  intros l. induction l as [|x l IH]; intros H i j Hi Hj E; [destruct Hi|].
  simpl in H. inversion H as [|? ? Hn Hd]; subst. destruct Hi as [<-|Hi], Hj as [<-|Hj]; auto.
  - exfalso. apply Hn. rewrite E. now apply in_map.
  - exfalso. apply Hn. rewrite <- E. now apply in_map.
  - now apply IH.
Qed.

Lemma remove_first_incl : forall x l l', remove_first x l = Some l' -> incl l' l.
Proof.
  intros x l. induction l as [|y l IH]; intros l' H; simpl in H; [discriminate|].
  destruct (Nat.eqb (it_id y) (it_id x)).
  - inversion H; subst. intros z Hz. now right.
  - destruct (remove_first x l) as [r|]; [|discriminate]. inversion H; subst.
    intros z [->|Hz]; [now left|]. right. now apply (IH r).
Qed.
Lemma remove_items_shape : forall l s r s', remove_items l s = (r, s') ->
  incl (st_list s') (st_list s) /\ s' = with_list (st_list s') s.
Proof.
  intros l. induction l as [|x l IH]; intros s r s' H; simpl in H.
  - inversion H; subst. split; [apply incl_refl|now destruct s'].
  - destruct (remove_first x (st_list s)) as [l'|] eqn:E.
    + apply IH in H. destruct H as [H1 H2]. simpl in H1. split.
      * intros z Hz. apply H1 in Hz. now apply (remove_first_incl x _ l').
      * rewrite H2. now destruct s.
    + inversion H; subst. split; [apply incl_refl|now destruct s'].
Qed.

Lemma add_incfrom_nil : forall i, add_incfrom [] i = i.
Proof. now intros []. Qed.
Lemma add_incfrom_app : forall u v i, add_incfrom v (add_incfrom u i) = add_incfrom (u ++ v) i.
Proof. intros u v i. unfold add_incfrom. simpl. now rewrite fold_left_app. Qed.

Lemma mark_file_shape : forall e mp s, exists g,
  (forall i, exists v, g i = add_incfrom v i) /\
  fold_left (mark_file e) mp s = with_list (map g (st_list s)) s.
Proof.
  intros e mp. induction mp as [|kv mp IH]; intro s; cbn [fold_left].
  - exists (fun i => i). split; [intro i; exists []; now rewrite add_incfrom_nil|].
    rewrite map_id. now destruct s.
  - destruct (IH (mark_file e s kv)) as [g [Hg Eg]]. rewrite Eg.
    eexists (fun i => g (if existsb (Nat.eqb (it_id i)) (map it_id (get_items_for e s (file_query (fst kv))))
                         then add_incfrom (snd kv) i else i)).
    split.
    + intro i. destruct (existsb _ _); [|apply Hg].
      destruct (Hg (add_incfrom (snd kv) i)) as [v E]. exists (snd kv ++ v). rewrite E. apply add_incfrom_app.
    + unfold mark_file, mark_items. simpl. rewrite map_map. now destruct s.
Qed.

Lemma finalize_shape : forall e s r s', finalize e s = (r, s') -> exists g mp,
  (forall i, exists v, g i = add_incfrom v i) /\ s' = with_map mp (with_list (map g (st_list s)) s) /\
  link_all e (dkeys (st_map s)) (st_map s) = (r, mp).
Proof.
  intros e s r s' H. unfold finalize in H.
  assert (Hno : forall mp, with_map mp s = with_map mp (with_list (map (fun i => i) (st_list s)) s))
    by (intro mp; rewrite map_id; now destruct s).
  assert (Hid : forall i : item, exists v, i = add_incfrom v i)
    by (intro i; exists []; now rewrite add_incfrom_nil).
  destruct (link_all e (dkeys (st_map s)) (st_map s)) as [[[]|ex|] mp].
  - inversion H; subst. destruct (mark_file_shape e mp (with_map mp s)) as [g [Hg E]]. exists g, mp.
    split; [exact Hg|]. split; [|reflexivity]. rewrite E. now destruct s.
  - inversion H; subst. exists (fun i => i), mp. auto.
  - inversion H; subst. exists (fun i => i), mp. auto.
Qed.

Lemma reach_ids : forall e s, reach e s ->
  ids_ok (st_list s) /\ Forall (fun i => it_id i < st_next s) (st_list s).
Proof.
  intros e s [nw [neg [db H]]]. induction H as [|n path off forced s r s' _ IH E|n s _ IH Hn|l s _ IH Hl Hd
                               |l s r s' _ IH E|g s _ IH Hg|s r s' _ IH E|db0 s _ IH].
  - split; [intros i j []|constructor].
  - apply add_file_grows in E. destruct E as [f [new [Hf [EL [Hd [Hr [Hn _]]]]]]].
    rewrite !app_nil_r in *. destruct IH as [I1 I2]. rewrite EL.
    assert (I2' : Forall (fun i => it_id i < st_next s) (map f (st_list s))).
    { rewrite Forall_map. eapply Forall_impl; [|exact I2]. intros i Hi. simpl in *.
      now rewrite (raises_it_id f i Hf). }
    split.
    + assert (J1 : ids_ok (map f (st_list s))) by (apply ids_ok_map; [exact I1|]; intro; now apply raises_it_id).
      apply NoDup_ids_ok in Hd. intros i j Hi Hj Eij. rewrite in_app_iff in Hi, Hj.
      rewrite Forall_forall in I2', Hr.
      destruct Hi as [Hi|Hi], Hj as [Hj|Hj]; [now apply J1| | |now apply Hd].
      * apply I2' in Hi. apply Hr in Hj. unfold in_range in Hj. lia.
      * apply I2' in Hj. apply Hr in Hi. unfold in_range in Hi. lia.
    + apply Forall_app. split.
      * eapply Forall_impl; [|exact I2']. intros i Hi. simpl in *. lia.
      * eapply Forall_impl; [|exact Hr]. intros i Hi. unfold in_range in Hi. lia.
  - destruct IH as [I1 I2]. split; [exact I1|]. eapply Forall_impl; [|exact I2]. intros i Hi. simpl in *. lia.
  - destruct IH as [I1 I2]. split; [exact Hd|]. simpl. apply Forall_app. split; [exact I2|].
    rewrite Forall_forall. exact Hl.
  - apply remove_items_shape in E. destruct E as [Hi ->]. destruct IH as [I1 I2]. split; simpl.
    + now apply (ids_ok_incl (st_list s)).
    + rewrite Forall_forall in *. intros i H. apply I2. now apply Hi.
  - destruct IH as [I1 I2]. split; simpl.
    + now apply ids_ok_map.
    + rewrite Forall_map. eapply Forall_impl; [|exact I2]. intros i Hi. simpl in *. now rewrite Hg.
  - apply finalize_shape in E. destruct E as [g [mp [Hg [-> _]]]].
    assert (Hid : forall i, it_id (g i) = it_id i) by (intro i; destruct (Hg i) as [v ->]; reflexivity).
    destruct IH as [I1 I2]. split; simpl.
    + now apply ids_ok_map.
    + rewrite Forall_map. eapply Forall_impl; [|exact I2]. intros i Hi. simpl in *. now rewrite Hid.
  - exact IH.
Qed.
