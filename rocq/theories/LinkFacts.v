(** * Finalize and the invariant that makes it succeed *)

From Verif Require Import PyStr Regex Patterns PyPath Res Inline Const Item Lines Stash
  StrFacts ReFacts LinesFacts ParseFacts HistFacts ReachFacts MapFacts QueryFacts.
From Coq Require Import Permutation.

(** ** The map is closed *)

Definition known (s : stash) (f : str) : Prop := In f (dkeys (st_map s)).
Definition links_known (mp : lmap) : Prop := forall k l x, dget k mp = Some l -> In x l -> In x (dkeys mp).
Definition closed (s : stash) : Prop :=
  (forall i, In i (st_list s) -> known s (it_origin i)) /\ links_known (st_map s).

Lemma extends_closed : forall K a b, extends K a b -> links_known a ->
  (forall k x, K k x -> In x (dkeys b)) -> links_known b.
Proof.
  intros K a b H Ha HK k l x El Hx.
  destruct (extends_keys _ _ _ H) as [ks Eks].
  destruct (dget k a) as [l0|] eqn:E0.
  - destruct (extends_get _ _ _ _ _ H E0) as [r [Er F]]. rewrite El in Er. inversion Er; subst l.
    apply in_app_iff in Hx. destruct Hx as [Hx|Hx].
    + rewrite Eks. apply in_or_app. left. exact (Ha _ _ _ E0 Hx).
    + rewrite Forall_forall in F. apply (HK k). now apply F.
  - pose proof (extends_new _ _ _ _ _ H E0 El) as F. rewrite Forall_forall in F. apply (HK k). now apply F.
Qed.

Lemma leave_closed : forall e file forced items s r s',
  Forall (fun i => it_origin i = file) items -> closed s ->
  leave e file forced items s = (r, s') -> closed s'.
Proof.
  intros e file forced items s r s' Hi [C1 C2] H.
  pose proof (leave_map _ _ _ _ _ _ _ H) as [E Hf].
  apply leave_cases in H. destruct H as [f [l [Hr [EL [_ [_ [_ [_ [_ [_ [Hl _]]]]]]]]]]].
  destruct (extends_keys _ _ _ E) as [ks Eks]. split.
  - intros i H. unfold known. rewrite EL in H. apply in_app_iff in H. destruct H as [H|H].
    + apply in_map_iff in H. destruct H as [j [<- Hj]]. rewrite (raises_it_origin f j Hr), Eks.
      apply in_or_app. left. now apply C1.
    + destruct Hl as [->|[mx ->]]; [destruct H|]. apply in_map_iff in H. destruct H as [j [<- Hj]].
      rewrite Forall_forall in Hi. simpl. now rewrite (Hi _ Hj).
  - eapply extends_closed; [exact E|exact C2|]. intros k x [[_ ->]|[[_ [-> _]]|[_ [_ [_ [_ [i [Hin <-]]]]]]]]; auto.
    rewrite Eks. apply in_or_app. left. now apply C1.
Qed.

Lemma add_file_closed : forall n e path off forced s r s',
  add_file n e path off forced s = (r, s') -> closed s -> closed s'.
Proof.
  intros n e path off forced s r s' H.
  assert (G : (fun (_ : list item) s s' => closed s -> closed s') (pend none r) s s'); [|exact G].
  eapply (rel_add_file e (fun _ s s' => closed s -> closed s')); try exact H; clear; auto.
  intros s0 s1 path forced items r s' file Hi _ H1 E H0.
  eapply leave_closed; [exact Hi| |exact E]. apply H1. exact H0.
Qed.

(** ** What Finalize does to the map *)

Definition links (mp : lmap) (k x : str) : Prop := exists l, dget k mp = Some l /\ In x l.

Lemma links_dset : forall k l (mp : lmap) k2 x,
  links (dset k l mp) k2 x <-> (k2 = k /\ In x l) \/ (k2 <> k /\ links mp k2 x).
Proof.
  intros k l mp k2 x. unfold links. rewrite dget_dset. destruct (str_eqb k2 k) eqn:E.
  - apply str_eqb_eq in E. split.
    + intros [l' [El Hx]]. inversion El; subst. auto.
    + intros [[_ H]|[H _]]; [now exists l|contradiction].
  - apply str_eqb_neq in E. split.
    + intros H. right. auto.
    + intros [[H _]|[_ H]]; [contradiction|exact H].
Qed.

Lemma link_items_links : forall k l mp r mp', link_items k l mp = (r, mp') ->
  In k (dkeys mp) -> (forall i, In i l -> In i (dkeys mp)) ->
  r = Ok tt /\ (forall k2, k2 <> k -> dget k2 mp' = dget k2 mp) /\
  (forall x, links mp' k x <-> links mp k x \/ exists i, In i l /\ links mp i x) /\
  In k (dkeys mp').
Proof.
  intros k l. induction l as [|i l IH]; intros mp r mp' H Hk Hl; simpl in H.
  - inversion H; subst. repeat split; auto. intros [H1|[i [[] _]]]; auto.
  - destruct (dkey_get i mp (Hl i (or_introl eq_refl))) as [li Ei]. rewrite Ei in H.
    destruct (dkey_get k mp Hk) as [lk Ek]. rewrite Ek in H.
    assert (Hd : dkeys (dset k (lk ++ li) mp) = dkeys mp).
    { rewrite dkeys_dset. apply dhas_key in Hk. now rewrite Hk. }
    apply IH in H; rewrite ?Hd; auto; [|intros j Hj; apply Hl; now right].
    destruct H as [-> [H1 [H2 H3]]]. split; [reflexivity|]. split; [|split; [|exact H3]].
    + intros k2 Hn. rewrite H1 by exact Hn. now apply dget_dset_other.
    + intro x. rewrite H2.
      assert (Hkx : links mp k x <-> In x lk) by (unfold links; rewrite Ek; split; [intros [? [E ?]]; inversion E; now subst|intro; now exists lk]).
      assert (Hix : links mp i x <-> In x li) by (unfold links; rewrite Ei; split; [intros [? [E ?]]; inversion E; now subst|intro; now exists li]).
      assert (Hset : forall j, links (dset k (lk ++ li) mp) j x ->
                 links mp j x \/ links mp k x \/ links mp i x).
      { intros j Hj. apply links_dset in Hj. destruct Hj as [[-> Hj]|[_ Hj]]; [|auto].
        apply in_app_iff in Hj. right. rewrite Hkx, Hix. exact Hj. }
      assert (Hget : forall j, links mp j x -> links (dset k (lk ++ li) mp) j x).
      { intros j Hj. apply links_dset. destruct (str_eq_dec j k) as [->|Hn]; [|auto].
        left. split; [reflexivity|]. apply in_or_app. left. now apply Hkx. }
      split.
      * intros [Hx|[j [Hj Hx]]].
        -- apply Hset in Hx. destruct Hx as [Hx|[Hx|Hx]]; auto. right. exists i. simpl. auto.
        -- apply Hset in Hx. destruct Hx as [Hx|[Hx|Hx]]; auto; right; [exists j|exists i]; simpl; auto.
      * intros [Hx|[j [[<-|Hj] Hx]]].
        -- left. now apply Hget.
        -- left. apply links_dset. left. split; [reflexivity|]. apply in_or_app. right. now apply Hix.
        -- right. exists j. auto.
Qed.

Lemma sset_In : forall e l x, env_ok e -> In x (e_sset e l) <-> In x l.
Proof.
  intros e l x [_ He]. rewrite <- (dedup_str_In l x). specialize (He l). split; intro H.
  - eapply Permutation_in; eassumption.
  - eapply Permutation_in; [symmetry|]; eassumption.
Qed.

Lemma link_one_links : forall e k mp r mp', env_ok e -> link_one e k mp = (r, mp') ->
  In k (dkeys mp) -> links_known mp ->
  r = Ok tt /\ (forall k2, k2 <> k -> dget k2 mp' = dget k2 mp) /\
  (forall x, links mp' k x <-> x = k \/ links mp k x \/ exists i, links mp k i /\ links mp i x).
Proof.
  intros e k mp r mp' He H Hk Hc. unfold link_one in H.
  destruct (dkey_get k mp Hk) as [l El]. rewrite El in H.
  destruct (link_items k l mp) as [ri m1] eqn:Ei. apply link_items_links in Ei; auto.
  - destruct Ei as [-> [H1 [H2 H3]]]. inversion H; subst. split; [reflexivity|]. split.
    + intros k2 Hn. rewrite dget_dset_other by exact Hn. now apply H1.
    + intro x. rewrite links_dset, sset_In by exact He. rewrite in_app_iff.
      assert (Hx : In x match dget k m1 with Some x0 => x0 | None => [] end <-> links m1 k x).
      { unfold links. destruct (dget k m1) as [l1|].
        - split; [intro; now exists l1|intros [? [E ?]]; inversion E; now subst].
        - split; [intros []|intros [? [E _]]; discriminate]. }
      rewrite Hx, H2. simpl. split.
      * intros [[_ [[Hl|[i [Hi Hl]]]|[->|[]]]]|[Hn _]]; auto; [|now destruct Hn].
        right. right. exists i. split; [now exists l|exact Hl].
      * intros [->|[Hl|[i [[l' [E' Hi]] Hl]]]]; left; split; auto. left. right. exists i.
        rewrite El in E'. inversion E'; subst. auto.
  - intros i Hi. eapply Hc; eassumption.
Qed.

(** Links of one file after the links of the files in [done] are final. *)
Lemma link_one_closed : forall e k mp r mp', env_ok e -> link_one e k mp = (r, mp') ->
  In k (dkeys mp) -> NoDup (dkeys mp) -> links_known mp -> links_known mp'.
Proof.
  intros e k mp r mp' He H Hk Hn Hc k2 l x El Hx. pose proof (link_one_keys _ _ _ _ _ H Hn) as Ek.
  rewrite Ek. apply link_one_links in H; auto. destruct H as [_ [H1 H2]].
  destruct (str_eq_dec k2 k) as [->|Hne].
  - assert (Hl : links mp' k x) by now exists l. apply H2 in Hl.
    destruct Hl as [->|[[l1 [E1 I1]]|[i [_ [l1 [E1 I1]]]]]]; auto; eapply Hc; eassumption.
  - rewrite H1 in El by exact Hne. eapply Hc; eassumption.
Qed.

(** The links after Finalize: of files before [k] the final ones, of files
    after [k] the original ones. *)
Lemma link_all_links : forall e ks mp r mp', env_ok e -> link_all e ks mp = (r, mp') ->
  NoDup ks -> (forall k, In k ks -> In k (dkeys mp)) -> NoDup (dkeys mp) -> links_known mp ->
  r = Ok tt /\ (forall k, ~ In k ks -> dget k mp' = dget k mp) /\
  (forall a k b x, ks = a ++ k :: b ->
     (links mp' k x <-> x = k \/ links mp k x \/
        exists i, links mp k i /\ ((In i a /\ links mp' i x) \/ (~ In i a /\ links mp i x)))).
Proof.
  intros e ks. induction ks as [|k ks IH]; intros mp r mp' He H Hd Hk Hn Hc; simpl in H.
  - inversion H; subst. split; [reflexivity|]. split; [auto|]. intros [|? a] k b x E; discriminate.
  - destruct (link_one e k mp) as [r1 m1] eqn:E1.
    assert (Hkk : In k (dkeys mp)) by (apply Hk; now left).
    pose proof (link_one_keys _ _ _ _ _ E1 Hn) as Ek.
    pose proof (link_one_closed _ _ _ _ _ He E1 Hkk Hn Hc) as Hc1.
    apply link_one_links in E1; auto. destruct E1 as [-> [O1 O2]].
    inversion Hd as [|? ? Hnk Hd']; subst.
    apply IH in H; rewrite ?Ek; auto; [|intros j Hj; apply Hk; now right].
    destruct H as [-> [H1 H2]]. split; [reflexivity|]. split.
    + intros k2 Hn2. rewrite H1, O1; auto; [intros ->; apply Hn2; now left|]. intro; apply Hn2; now right.
    + assert (Hfin : forall x, links mp' k x <-> links m1 k x).
      { intro x. unfold links. now rewrite H1. }
      intros a k2 b x E. destruct a as [|k0 a]; simpl in E; inversion E; subst.
      * rewrite Hfin, O2. split.
        -- intros [->|[Hl|[i [Hi Hl]]]]; auto. right. right. exists i. auto.
        -- intros [->|[Hl|[i [Hi [[[] _]|[_ Hl]]]]]]; auto. right. right. exists i. auto.
      * assert (Hk2 : k2 <> k0).
        { intros ->. apply Hnk. apply in_or_app. right. now left. }
        rewrite (H2 a k2 b x eq_refl).
        assert (Hm : forall j y, j <> k0 -> (links m1 j y <-> links mp j y)).
        { intros j y Hj. unfold links. now rewrite O1. }
        rewrite (Hm k2 x Hk2). split.
        -- intros [->|[Hl|[i [Hi Hor]]]]; auto. right. right. exists i.
           split; [now apply Hm|]. destruct Hor as [[Ha Hl]|[Ha Hl]].
           ++ left. split; [now right|exact Hl].
           ++ destruct (str_eq_dec i k0) as [->|Hne].
              ** left. split; [now left|]. now apply Hfin.
              ** right. split; [intros [Hx|Hx]; [now subst|contradiction]|]. now apply Hm.
        -- intros [->|[Hl|[i [Hi Hor]]]]; auto. right. right. exists i.
           split; [now apply Hm|]. destruct Hor as [[[<-|Ha] Hl]|[Ha Hl]].
           ++ right. split; [intro Hin; apply Hnk; apply in_or_app; now left|]. now apply Hfin.
           ++ left. auto.
           ++ right. split; [intro; apply Ha; now right|]. apply Hm; [intros ->; apply Ha; now left|exact Hl].
Qed.

Lemma link_all_closed : forall e ks mp r mp', env_ok e -> link_all e ks mp = (r, mp') ->
  (forall k, In k ks -> In k (dkeys mp)) -> NoDup (dkeys mp) -> links_known mp -> links_known mp'.
Proof.
  intros e ks. induction ks as [|k ks IH]; intros mp r mp' He H Hk Hn Hc; simpl in H.
  - now inversion H; subst.
  - destruct (link_one e k mp) as [r1 m1] eqn:E1.
    assert (Hkk : In k (dkeys mp)) by (apply Hk; now left).
    pose proof (link_one_keys _ _ _ _ _ E1 Hn) as Ek.
    pose proof (link_one_closed _ _ _ _ _ He E1 Hkk Hn Hc) as Hc1.
    apply link_one_links in E1; auto. destruct E1 as [-> _].
    eapply IH; [exact He|exact H| | |exact Hc1]; rewrite Ek; auto. intros j Hj. apply Hk. now right.
Qed.

Lemma finalize_links : forall e s r s', env_ok e -> finalize e s = (r, s') ->
  NoDup (dkeys (st_map s)) -> links_known (st_map s) ->
  r = Ok tt /\ dkeys (st_map s') = dkeys (st_map s) /\ links_known (st_map s') /\
  (forall a k b x, dkeys (st_map s) = a ++ k :: b ->
     (links (st_map s') k x <-> x = k \/ links (st_map s) k x \/
        exists i, links (st_map s) k i /\
                  ((In i a /\ links (st_map s') i x) \/ (~ In i a /\ links (st_map s) i x)))).
Proof.
  intros e s r s' He H Hn Hc. apply finalize_shape in H. destruct H as [g [mp [_ [-> E]]]]. simpl.
  pose proof (link_all_keys _ _ _ _ _ E Hn) as Ek.
  assert (Hc' : links_known mp) by (eapply link_all_closed; [exact He|exact E|auto|exact Hn|exact Hc]).
  apply link_all_links in E; auto. destruct E as [-> [_ E]]. auto.
Qed.

Lemma finalize_closed : forall e s r s', env_ok e -> NoDup (dkeys (st_map s)) ->
  finalize e s = (r, s') -> closed s -> closed s'.
Proof.
  intros e s r s' He Hn H [C1 C2]. pose proof (finalize_links _ _ _ _ He H Hn C2) as [_ [Ek [Hc _]]].
  apply finalize_shape in H. destruct H as [g [mp [Hg [-> _]]]]. simpl in *. split; [|exact Hc].
  intros i Hi. simpl in Hi. apply in_map_iff in Hi. destruct Hi as [j [<- Hj]]. destruct (Hg j) as [v ->].
  unfold known. simpl. rewrite Ek. now apply C1.
Qed.
