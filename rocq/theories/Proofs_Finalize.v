(** * What Finalize does: proofs *)

From Coq Require Import Permutation.
From Verif Require Import PyStr Regex PyPath Res Const Item Lines Stash StrFacts ReachFacts LinkFacts MapFacts QueryFacts Spec_Query Proofs_Query Spec_Finalize.

Lemma add_set_incl : forall fs acc, incl acc (fold_left (fun acc x => add_set x acc) fs acc).
Proof.
  induction fs as [|x fs IH]; intro acc; [apply incl_refl|]. cbn [fold_left]. eapply incl_tran; [|apply IH].
  unfold add_set. destruct (mem_str x acc); [apply incl_refl|]. intros y Hy. apply in_or_app. now left.
Qed.
Lemma included_add : forall v i, only_included i (add_incfrom v i).
Proof. intros v i. repeat split. apply add_set_incl. Qed.
Lemma included_attributes : forall v i, attributes (add_incfrom v i) = attributes i.
Proof. intros v i. reflexivity. Qed.
Lemma included_classifier : forall v i, classifier (add_incfrom v i) = classifier i.
Proof. intros v i. reflexivity. Qed.

(** ** Links *)

Definition maps_to (mp : list (str * list str)) (f x : str) : Prop := exists l, dget f mp = Some l /\ In x l.
Definition grown (mp mp' : list (str * list str)) : Prop :=
  dkeys mp' = dkeys mp /\ forall f x, maps_to mp f x -> maps_to mp' f x.
Lemma grown_refl : forall mp, grown mp mp.
Proof. intro mp. now split. Qed.
Lemma grown_trans : forall a b c, grown a b -> grown b c -> grown a c.
Proof. intros a b c [H1 H2] [K1 K2]. split; [now rewrite K1|auto]. Qed.
Lemma grown_set : forall k l l' mp, dget k mp = Some l -> incl l l' -> grown mp (dset k l' mp).
Proof.
  intros k l l' mp E I. split.
  - rewrite dkeys_dset. unfold dhas. now rewrite E.
  - intros f x (m & Ef & Hx). unfold maps_to. rewrite dget_dset. destruct (str_eqb f k) eqn:K.
    + apply str_eqb_eq in K. subst f. exists l'. split; [reflexivity|]. apply I. congruence.
    + now exists m.
Qed.
Lemma grown_has : forall mp mp' k l, grown mp mp' -> dget k mp = Some l -> exists l', dget k mp' = Some l'.
Proof.
  intros mp mp' k l [E _] H. destruct (dget k mp') as [l'|] eqn:K; [now exists l'|]. exfalso.
  apply dget_None in K. apply K. rewrite E. exact (dget_Some_key _ _ _ H).
Qed.
Lemma link_items_grown : forall k items mp r mp', link_items k items mp = (r, mp') -> (exists l, dget k mp = Some l) -> grown mp mp'.
Proof.
  intros k items. induction items as [|i items IH]; intros mp r mp' H (l & El); cbn [link_items] in H.
  - injection H as _ <-. apply grown_refl.
  - destruct (dget i mp) as [m|]; [|injection H as _ <-; apply grown_refl]. rewrite El in H.
    apply (grown_trans _ (dset k (l ++ m) mp)).
    + apply (grown_set k l); [exact El|]. intros x Hx. apply in_or_app. now left.
    + apply (IH _ _ _ H). rewrite dget_dset_same. now eexists.
Qed.
Lemma link_one_grown : forall e k mp r mp', env_ok e -> link_one e k mp = (r, mp') -> grown mp mp'.
Proof.
  intros e k mp r mp' He H. unfold link_one in H. destruct (dget k mp) as [l|] eqn:E; [|injection H as _ <-; apply grown_refl].
  destruct (link_items k l mp) as [r1 mp1] eqn:E1. assert (G : grown mp mp1) by (apply (link_items_grown _ _ _ _ _ E1); now exists l).
  destruct r1 as [u|ex|]; injection H as _ <-; try exact G. apply (grown_trans _ _ _ G).
  destruct (grown_has _ _ _ _ G E) as (l1 & K). rewrite K. apply (grown_set k l1); [exact K|].
  intros x Hx. apply (sset_In e _ x He). apply in_or_app. now left.
Qed.
Lemma link_all_grown : forall e ks mp r mp', env_ok e -> link_all e ks mp = (r, mp') -> grown mp mp'.
Proof.
  intros e ks. induction ks as [|k ks IH]; intros mp r mp' He H; cbn [link_all] in H; [injection H as _ <-; apply grown_refl|].
  destruct (link_one e k mp) as [r1 mp1] eqn:E1. pose proof (link_one_grown _ _ _ _ _ He E1) as G.
  destruct r1 as [u|ex|]; [|injection H as _ <-; exact G|injection H as _ <-; exact G]. apply (grown_trans _ _ _ G). exact (IH _ _ _ He H).
Qed.

(** ** The theorems *)

Lemma C133_items_lemma : forall e s r s', finalize e s = (r, s') ->
  Forall2 only_included (st_list s) (st_list s') /\ s' = with_map (st_map s') (with_list (st_list s') s).
Proof.
  intros e s r s' H. apply finalize_shape in H. destruct H as (g & mp & Hg & -> & _). split; [|now destruct s].
  change (Forall2 only_included (st_list s) (map g (st_list s))). induction (st_list s) as [|i l IH]; [constructor|].
  cbn [map]. constructor; [|exact IH]. destruct (Hg i) as [v ->]. apply included_add.
Qed.
Lemma C133_links_lemma : forall e s r s', env_ok e -> finalize e s = (r, s') ->
  dkeys (st_map s') = dkeys (st_map s) /\ forall f x, linked s f x -> linked s' f x.
Proof.
  intros e s r s' He H. apply finalize_shape in H. destruct H as (g & mp & _ & -> & E). exact (link_all_grown _ _ _ _ _ He E).
Qed.
Lemma C133_queries_lemma : forall e s r s' q, env_ok e -> reach e s -> finalize e s = (r, s') ->
  (forall i, In i (get_items_for e s q) -> exists j, In j (get_items_for e s' q) /\ only_included i j) /\
  (without_links q -> forall j, In j (get_items_for e s' q) -> exists i, In i (get_items_for e s q) /\ only_included i j).
Proof.
  intros e s r s' q He Hr H.
  assert (Hr' : reach e s') by (destruct Hr as (nw & neg & db & Hr); exists nw, neg, db; now apply (steps_finalize _ _ s r)).
  destruct (C28_lemma e s q He Hr) as (Q & _). destruct (C28_lemma e s' q He Hr') as (Q' & _).
  pose proof (C133_links_lemma _ _ _ _ He H) as (_ & L).
  apply finalize_shape in H. destruct H as (g & mp & Hg & E & _).
  assert (El : st_list s' = map g (st_list s)) by (rewrite E; reflexivity).
  split.
  - intros i Hi. apply Q in Hi. destruct Hi as (Hi & S1 & S2 & S3). exists (g i). destruct (Hg i) as [v Ev]. split; [|rewrite Ev; apply included_add].
    apply Q'. split; [rewrite El; now apply in_map|]. rewrite Ev. split; [|split].
    + unfold of_file in *. destruct (q_file q) as [f|]; [|exact I]. destruct S1 as [S1|[S1|[S1 S1']]]; [now left|right; now left|right; right].
      split; [exact S1|]. now apply L.
    + unfold of_class in *. rewrite included_classifier. exact S2.
    + unfold of_attr, has_attr in *. rewrite included_attributes. exact S3.
  - intros Wl j Hj. apply Q' in Hj. destruct Hj as (Hj & S1 & S2 & S3). rewrite El in Hj. apply in_map_iff in Hj. destruct Hj as (i & <- & Hi).
    exists i. destruct (Hg i) as [v Ev]. split; [|rewrite Ev; apply included_add]. apply Q. rewrite Ev in S1, S2, S3. split; [exact Hi|]. split; [|split].
    + unfold of_file in *. destruct Wl as [W|W]; [now rewrite W|]. destruct (q_file q) as [f|]; [|exact I].
      destruct S1 as [S1|[S1|[S1 _]]]; [now left|right; now left|congruence].
    + unfold of_class in *. rewrite included_classifier in S2. exact S2.
    + unfold of_attr, has_attr in *. rewrite included_attributes in S3. exact S3.
Qed.
Lemma C133_files_lemma : forall e s r s', env_ok e -> reach e s -> finalize e s = (r, s') ->
  get_recipes s' = get_recipes s /\ get_conf_files e s' = get_conf_files e s /\ get_bbclasses s' = get_bbclasses s /\
  incl (get_lone_appends s') (get_lone_appends s).
Proof.
  intros e s r s' He Hr H. pose proof (C133_links_lemma _ _ _ _ He H) as (K & L).
  apply finalize_shape in H. destruct H as (g & mp & Hg & E & Em).
  assert (El : map it_origin (st_list s') = map it_origin (st_list s)).
  { rewrite E. change (map it_origin (map g (st_list s)) = map it_origin (st_list s)). rewrite map_map. apply map_ext. intro i.
    destruct (Hg i) as [v ->]. reflexivity. }
  unfold get_recipes, get_conf_files, get_bbclasses, get_lone_appends. rewrite K, El. repeat split.
  intros x Hx. pose proof (proj1 (sorted_set (filter (fun x : str => negb (mem_str x (linked_appends s')))
    (filter (endswith ".bbappend") (map it_origin (st_list s))))) x) as T. apply T in Hx. clear T.
  apply (proj1 (sorted_set (filter (fun x : str => negb (mem_str x (linked_appends s))) (filter (endswith ".bbappend") (map it_origin (st_list s))))) x).
  apply filter_In in Hx. apply filter_In. destruct Hx as [Hx N].
  split; [exact Hx|]. apply negb_true_iff in N. apply negb_true_iff. rewrite <- not_true_iff_false in N |- *. intro Y. apply N.
  apply mem_str_In in Y. apply mem_str_In. pose proof (reach_map_NoDup _ _ Hr) as Nd.
  apply (linked_appends_iff s x Nd) in Y. apply (linked_appends_iff s' x); [now rewrite K|].
  destruct Y as (Y1 & d & Y2). split; [exact Y1|]. exists d. now apply L.
Qed.
