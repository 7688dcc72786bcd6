(** * The links between files (the map of cls_stash.py:133) *)

From Verif Require Import PyStr Regex Patterns PyPath Res Inline Const Item Lines Stash
  StrFacts ReFacts LinesFacts ParseFacts HistFacts ReachFacts.

Notation lmap := (list (str * list str)).

(** Changes of the map made by AddFile: new keys without links and new links
    of existing keys. *)
Inductive extends (K : str -> str -> Prop) (mp : lmap) : lmap -> Prop :=
| ext_refl : extends K mp mp
| ext_key : forall mp' k, extends K mp mp' -> dget k mp' = None -> extends K mp (dset k [] mp')
| ext_link : forall mp' k l x, extends K mp mp' -> dget k mp' = Some l -> K k x ->
    extends K mp (dset k (l ++ [x]) mp').

Lemma extends_trans : forall K a b c, extends K a b -> extends K b c -> extends K a c.
Proof.
  intros K a b c H1 H2. induction H2 as [|mp' k H2 IH E|mp' k l x H2 IH E HK].
  - exact H1.
  - now apply ext_key.
  - now apply ext_link.
Qed.
Lemma extends_impl : forall (K K' : str -> str -> Prop) a b, (forall k x, K k x -> K' k x) ->
  extends K a b -> extends K' a b.
Proof.
  intros K K' a b HK H. induction H as [|mp' k H IH E|mp' k l x H IH E Hk].
  - apply ext_refl.
  - now apply ext_key.
  - apply ext_link; auto.
Qed.

(** Entries only grow. *)
Lemma extends_get : forall K a b k l, extends K a b -> dget k a = Some l ->
  exists r, dget k b = Some (l ++ r) /\ Forall (K k) r.
Proof.
  intros K a b k l H E. induction H as [|mp' k' H IH E'|mp' k' l' x H IH E' HK].
  - exists []. rewrite app_nil_r. auto.
  - destruct IH as [r [IH F]]. exists r. split; [|exact F]. rewrite dget_dset_other; [exact IH|]. congruence.
  - destruct IH as [r [IH F]]. destruct (str_eq_dec k k') as [->|Hn].
    + rewrite IH in E'. inversion E'; subst. exists (r ++ [x]). rewrite dget_dset_same, app_assoc.
      split; [reflexivity|]. apply Forall_app. auto.
    + exists r. rewrite dget_dset_other; auto.
Qed.
Lemma extends_new : forall K a b k l, extends K a b -> dget k a = None -> dget k b = Some l -> Forall (K k) l.
Proof.
  intros K a b k l H E. revert l. induction H as [|mp' k' H IH E'|mp' k' l' x H IH E' HK]; intros l Hl.
  - congruence.
  - rewrite dget_dset in Hl. destruct (str_eqb k k'); [inversion Hl; constructor|now apply IH].
  - rewrite dget_dset in Hl. destruct (str_eqb k k') eqn:Ek; [|now apply IH].
    apply str_eqb_eq in Ek. subst. inversion Hl; subst. apply Forall_app. auto.
Qed.
Lemma extends_keys : forall K a b, extends K a b -> exists ks, dkeys b = dkeys a ++ ks.
Proof.
  intros K a b H. induction H as [|mp' k' H [ks IH] E'|mp' k' l' x H [ks IH] E' HK].
  - exists []. now rewrite app_nil_r.
  - exists (ks ++ [k']). rewrite dkeys_dset. unfold dhas. rewrite E', IH, app_assoc. reflexivity.
  - exists ks. rewrite dkeys_dset. unfold dhas. now rewrite E'.
Qed.
Lemma extends_NoDup : forall K a b, extends K a b -> NoDup (dkeys a) -> NoDup (dkeys b).
Proof.
  intros K a b H Ha. induction H as [|mp' k' H IH E'|mp' k' l' x H IH E' HK]; auto using NoDup_dset.
Qed.

Lemma add_key_ext : forall K k (mp : lmap), extends K mp (if dhas k mp then mp else dset k [] mp).
Proof.
  intros K k mp. unfold dhas. destruct (dget k mp) eqn:E; [apply ext_refl|].
  apply ext_key; [apply ext_refl|exact E].
Qed.
Lemma add_key_get : forall k (mp : lmap), exists l, dget k (if dhas k mp then mp else dset k [] mp) = Some l.
Proof.
  intros k mp. unfold dhas. destruct (dget k mp) as [l|] eqn:E; [now exists l|].
  exists []. apply dget_dset_same.
Qed.

Lemma link_file_ext : forall file forced mp,
  extends (fun k x => forced = Some k /\ x = file) mp (link_file file forced mp).
Proof.
  intros file forced mp. unfold link_file. cbv zeta. set (mp1 := if dhas file mp then mp else dset file [] mp).
  assert (E1 : forall K, extends K mp mp1) by (intro K; apply add_key_ext).
  destruct forced as [[|c fl]|]; cbv beta iota; try apply E1.
  set (f := c :: fl). destruct (add_key_get f mp1) as [l El]. rewrite El.
  apply ext_link; [|exact El|auto]. eapply extends_trans; [apply E1|apply add_key_ext].
Qed.
Lemma link_file_key : forall file forced mp, exists l, dget file (link_file file forced mp) = Some l.
Proof.
  intros file forced mp. unfold link_file. cbv zeta. destruct (add_key_get file mp) as [l El].
  set (mp1 := if dhas file mp then mp else dset file [] mp) in *.
  destruct forced as [[|c fl]|]; cbv beta iota; try (now exists l).
  set (f := c :: fl). destruct (add_key_get f mp1) as [l2 El2]. rewrite El2.
  rewrite dget_dset. destruct (str_eqb file f); [now eexists|].
  destruct (extends_get (fun _ _ => True) _ _ file l (add_key_ext _ f mp1) El) as [r [Er _]]. eexists. exact Er.
Qed.

(** cls_stash.py:194-202 *)
Definition append_matches (file k : str) : Prop :=
  exists rx, dyn_pattern (append_pattern file) = Some rx /\ matched (re_match rx (basename k)) = true.
(** cls_stash.py:207-217 *)
Definition recipe_matches (file origin : str) : Prop :=
  exists rx, dyn_pattern (recipe_pattern origin) = Some rx /\
             matched (re_match rx (replace ".bb" [] (basename file))) = true.

Lemma link_append_ext : forall rx file l ks mp mx mp' mx',
  dyn_pattern (append_pattern file) = Some rx -> (forall k, In k ks -> In k (dkeys mp)) ->
  fold_left (link_append rx file l) ks (mp, mx) = (mp', mx') ->
  extends (fun k x => x = file /\ append_matches file k) mp mp'.
Proof.
  intros rx file l ks. induction ks as [|k ks IH]; intros mp mx mp' mx' Hrx Hk H; cbn [fold_left] in H.
  - inversion H; subst. apply ext_refl.
  - unfold link_append at 2 in H. destruct (matched (re_match rx (basename k))) eqn:Em.
    + assert (Hkk : In k (dkeys mp)) by (apply Hk; now left).
      apply dkey_get in Hkk. destruct Hkk as [l0 El]. rewrite El in H.
      eapply extends_trans; [|eapply IH; [exact Hrx| |exact H]].
      * apply ext_link; [apply ext_refl|exact El|]. split; [reflexivity|]. now exists rx.
      * intros k' Hk'. apply dkeys_dset_In. right. apply Hk. now right.
    + eapply IH; [exact Hrx| |exact H]. intros k' Hk'. apply Hk. now right.
Qed.

Lemma link_recipe_ext : forall file mx l mp l' mp',
  In file (dkeys mp) ->
  link_recipe file (replace ".bb" [] (basename file)) mx l mp = Ok (l', mp') ->
  extends (fun k x => k = file /\ endswith ".bbappend" x = true /\ recipe_matches file x /\
                      exists i, In i l /\ it_origin i = x) mp mp'.
Proof.
  intros file mx l. induction l as [|i l IH]; intros mp l' mp' Hf H; cbn [link_recipe] in H.
  - inversion H; subst. apply ext_refl.
  - assert (Hmono : forall a b, extends (fun k x => k = file /\ endswith ".bbappend" x = true /\
               recipe_matches file x /\ exists j, In j l /\ it_origin j = x) a b ->
              extends (fun k x => k = file /\ endswith ".bbappend" x = true /\ recipe_matches file x /\
               exists j, In j (i :: l) /\ it_origin j = x) a b).
    { intros a b. apply extends_impl. intros k x [H1 [H2 [H3 [j [Hj Ej]]]]]. repeat split; auto.
      exists j. split; [now right|exact Ej]. }
    destruct (endswith ".bbappend" (it_origin i)) eqn:Ea.
    + destruct (dyn_pattern (recipe_pattern (it_origin i))) as [rx|] eqn:Ed; [|discriminate].
      destruct (matched _) eqn:Em.
      * apply dkey_get in Hf. destruct Hf as [l0 El]. rewrite El in H.
        destruct (link_recipe _ _ _ l _) as [[l1 m1]|ex|] eqn:E; simpl in H; try discriminate.
        inversion H; subst. eapply extends_trans; [|apply Hmono; eapply IH; [|exact E]].
        -- apply ext_link; [apply ext_refl|exact El|]. repeat split; auto; [now exists rx|].
           exists i. simpl. auto.
        -- apply dkeys_dset_In. now left.
      * destruct (link_recipe _ _ _ l _) as [[l1 m1]|ex|] eqn:E; simpl in H; try discriminate.
        inversion H; subst. apply Hmono. eapply IH; eassumption.
    + destruct (link_recipe _ _ _ l _) as [[l1 m1]|ex|] eqn:E; simpl in H; try discriminate.
      inversion H; subst. apply Hmono. eapply IH; eassumption.
Qed.

(** The links AddFile makes at the end of a file. *)
Definition new_link (file : str) (forced : option str) (l : list item) (k x : str) : Prop :=
  (forced = Some k /\ x = file) \/
  (endswith ".bbappend" file = true /\ x = file /\ append_matches file k) \/
  (endswith ".bb" file = true /\ k = file /\ endswith ".bbappend" x = true /\ recipe_matches file x /\
   exists i, In i l /\ it_origin i = x).

Lemma match_appends_map : forall file items s r s',
  In file (dkeys (st_map s)) -> match_appends file items s = (r, s') ->
  extends (new_link file None (st_list s)) (st_map s) (st_map s').
Proof.
  intros file items s r s' Hf H. unfold match_appends in H.
  destruct (endswith ".bbappend" file) eqn:Ea.
  - destruct (dyn_pattern (append_pattern file)) as [rx|] eqn:Ed.
    + destruct (fold_left _ (dkeys (st_map s)) (st_map s, 0%Z)) as [mp mx] eqn:El. inversion H; subst.
      simpl. eapply extends_impl; [|eapply link_append_ext; [exact Ed| |exact El]]; [|auto].
      intros k x [-> Hm]. right. left. auto.
    + inversion H; subst. apply ext_refl.
  - destruct (endswith ".bb" file) eqn:Eb.
    + destruct (link_recipe _ _ _ _ _) as [[l0 mp]|ex|] eqn:E; inversion H; subst; try apply ext_refl.
      simpl. eapply extends_impl; [|eapply link_recipe_ext; [exact Hf|exact E]].
      intros k x [-> [H1 [H2 H3]]]. right. right. auto.
    + inversion H; subst. apply ext_refl.
Qed.

Lemma leave_map : forall e file forced items s r s',
  leave e file forced items s = (r, s') ->
  extends (new_link file forced (st_list s)) (st_map s) (st_map s') /\ In file (dkeys (st_map s')).
Proof.
  intros e file forced items s r s' H. unfold leave in H. unfold bindM at 1 in H. unfold bindM at 1 in H.
  destruct (match_appends file items _) as [rm s1] eqn:Em.
  assert (Hf : In file (dkeys (link_file file forced (st_map s)))).
  { destruct (link_file_key file forced (st_map s)) as [l El]. eapply dget_Some_key. exact El. }
  apply match_appends_map in Em; [|exact Hf]. simpl in Em.
  assert (H1 : extends (new_link file forced (st_list s)) (st_map s) (st_map s1)).
  { eapply extends_trans; [eapply extends_impl; [|apply link_file_ext]|eapply extends_impl; [|exact Em]].
    - intros k x Hk. left. exact Hk.
    - intros k x [[Hk _]|Hk]; [discriminate|]. right. exact Hk. }
  assert (H2 : In file (dkeys (st_map s1))).
  { destruct (extends_keys _ _ _ Em) as [ks ->]. apply in_or_app. now left. }
  assert (E : st_map s' = st_map s1).
  { destruct rm as [items2|ex|]; [|now inversion H|now inversion H]. unfold bindM at 1 in H.
    destruct (add_distro_machine e file s1) as [[u|ex|] s2] eqn:Ed; apply add_distro_machine_only in Ed.
    - unfold bindM, ret in H. inversion H; subst. rewrite Ed. reflexivity.
    - inversion H; subst. rewrite Ed. reflexivity.
    - inversion H; subst. rewrite Ed. reflexivity. }
  now rewrite E.
Qed.

(** ** Finalize *)

Lemma link_items_closed : forall k l mp r mp', link_items k l mp = (r, mp') ->
  NoDup (dkeys mp) -> In k (dkeys mp) ->
  dkeys mp' = dkeys mp /\ NoDup (dkeys mp').
Proof.
  intros k l. induction l as [|i l IH]; intros mp r mp' H Hn Hk; simpl in H.
  - inversion H; subst. auto.
  - destruct (dget i mp) as [li|]; [|inversion H; subst; auto].
    assert (E : dkeys (dset k ((match dget k mp with Some x => x | None => [] end) ++ li) mp) = dkeys mp).
    { rewrite dkeys_dset. apply dhas_key in Hk. now rewrite Hk. }
    apply IH in H; rewrite ?E in *; auto.
Qed.
Lemma link_one_keys : forall e k mp r mp', link_one e k mp = (r, mp') -> NoDup (dkeys mp) ->
  dkeys mp' = dkeys mp.
Proof.
  intros e k mp r mp' H Hn. unfold link_one in H. destruct (dget k mp) as [l|] eqn:E; [|now inversion H].
  destruct (link_items k l mp) as [[u|ex|] m1] eqn:El; apply link_items_closed in El; auto;
    try (eapply dget_Some_key; exact E); destruct El as [El _]; inversion H; subst; auto.
  rewrite dkeys_dset. assert (Hk : In k (dkeys m1)) by (rewrite El; eapply dget_Some_key; exact E).
  apply dhas_key in Hk. now rewrite Hk.
Qed.
Lemma link_all_keys : forall e ks mp r mp', link_all e ks mp = (r, mp') -> NoDup (dkeys mp) ->
  dkeys mp' = dkeys mp.
Proof.
  intros e ks. induction ks as [|k ks IH]; intros mp r mp' H Hn; simpl in H; [now inversion H|].
  destruct (link_one e k mp) as [[u|ex|] m1] eqn:E; apply link_one_keys in E; auto.
  - apply IH in H; congruence.
  - now inversion H; subst.
  - now inversion H; subst.
Qed.

(** ** Invariants of histories *)

Lemma add_file_keys : forall n e path off forced s r s',
  add_file n e path off forced s = (r, s') ->
  exists ks, dkeys (st_map s') = dkeys (st_map s) ++ ks.
Proof.
  intros n e path off forced s r s' H.
  assert (G : (fun (_ : list item) s s' => exists ks, dkeys (st_map s') = dkeys (st_map s) ++ ks) (pend none r) s s');
    [|exact G].
  eapply (rel_add_file e (fun _ s s' => exists ks, dkeys (st_map s') = dkeys (st_map s) ++ ks)); try exact H; clear.
  - intro s. exists []. now rewrite app_nil_r.
  - intros _ _ s1 s2 s3 [a H1] [b H2]. exists (a ++ b). now rewrite H2, H1, app_assoc.
  - auto.
  - intros s i _ _. exists []. simpl. now rewrite app_nil_r.
  - intros s path _. exists []. simpl. now rewrite app_nil_r.
  - intros s0 s1 path forced items r s' file _ _ [a H1] E. apply leave_map in E. destruct E as [E _].
    apply extends_keys in E. destruct E as [b E]. exists (a ++ b). rewrite E, H1. simpl. now rewrite app_assoc.
Qed.

Lemma add_file_NoDup : forall n e path off forced s r s',
  add_file n e path off forced s = (r, s') -> NoDup (dkeys (st_map s)) -> NoDup (dkeys (st_map s')).
Proof.
  intros n e path off forced s r s' H.
  assert (G : (fun (_ : list item) s s' => NoDup (dkeys (st_map s)) -> NoDup (dkeys (st_map s'))) (pend none r) s s');
    [|exact G].
  eapply (rel_add_file e (fun _ s s' => NoDup (dkeys (st_map s)) -> NoDup (dkeys (st_map s')))); try exact H; clear; auto.
  intros s0 s1 path forced items r s' file _ _ H1 E H0. apply leave_map in E. destruct E as [E _].
  eapply extends_NoDup; [exact E|]. now apply H1.
Qed.

Lemma reach_map_NoDup : forall e s, reach e s -> NoDup (dkeys (st_map s)).
Proof.
  intros e s [nw [neg [db H]]]. induction H as [|n path off forced s r s' _ IH E|n s _ IH Hn|l s _ IH Hl Hd
                               |l s r s' _ IH E|g s _ IH Hg|s r s' _ IH E|db0 s _ IH]; try exact IH.
  - constructor.
  - eapply add_file_NoDup; eassumption.
  - apply remove_items_shape in E. destruct E as [_ ->]. exact IH.
  - apply finalize_shape in E. destruct E as [g [mp [_ [-> El]]]]. simpl.
    apply link_all_keys in El; [|exact IH]. now rewrite El.
Qed.
