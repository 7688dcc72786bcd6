(** * bbappends and recipes *)

From Verif Require Import PyStr Regex Patterns PyPath Res Inline Const Item Lines Stash
  StrFacts ReFacts LinesFacts ParseFacts HistFacts ReachFacts MapFacts QueryFacts LinkFacts NameFacts
  Spec_Query Spec_Files.

(** ** AddFile in two parts *)

Lemma add_file_parts : forall n e path off forced s l s',
  add_file n e path off forced s = (Ok l, s') -> skipped e path s = false ->
  let file := abspath (fs_cwd (e_fs e)) path in
  exists m cs items s1, n = S m /\
    get_items e (fun p o f => add_file m e p o (Some f)) file off (enter file s) = (Ok items, s1) /\
    leave e file forced items s1 = (Ok l, s') /\
    prepare_file e file off (st_neg s) = Ok cs /\ chunks_ok off (st_neg s) 1 cs /\
    parsed file off 0 (st_new s) cs items.
Proof.
  intros n e path off forced s l s' H Hs file. destruct n as [|n]; [discriminate|].
  rewrite add_file_eq in H. cbv zeta in H. fold file in H. rewrite Hs in H. unfold bindM in H.
  destruct (get_items _ _ file off (enter file s)) as [[items|ex|] s1] eqn:Eg; try discriminate.
  pose proof Eg as Eg2. apply get_items_sat in Eg2; [|apply add_file_addf_ok].
  destruct Eg2 as [cs [Hcs Hps]]. exists n, cs, items, s1.
  repeat split; auto.
  unfold prepare_file in Hcs. simpl in Hcs.
  destruct (fs_read (e_fs e) file) as [t| | |]; try discriminate.
  - eapply prepare_text_ok in Hcs. tauto.
  - inversion Hcs; subst. exact I.
Qed.

Lemma leave_parts : forall e file forced items s l s',
  leave e file forced items s = (Ok l, s') ->
  exists s2, match_appends file items (with_map (link_file file forced (st_map s)) s) = (Ok l, s2) /\
    st_list s' = st_list s2 ++ l /\ st_map s' = st_map s2.
Proof.
  intros e file forced items s l s' H. unfold leave in H. unfold bindM at 1 in H. unfold bindM at 1 in H.
  destruct (match_appends file items _) as [[items2|ex|] s2] eqn:Em; try discriminate.
  exists s2. unfold bindM at 1 in H.
  destruct (add_distro_machine e file s2) as [[u|ex|] s3] eqn:Ed; try discriminate.
  apply add_distro_machine_only in Ed. unfold bindM, ret in H. inversion H; subst.
  rewrite Ed. simpl. auto.
Qed.

(** ** Maxima *)

Lemma max_line_ge : forall l i, In i l -> (it_line i <= max_line l)%Z.
Proof.
  assert (Hm : forall l a, (a <= fold_left (fun a x => Z.max a (it_line x)) l a)%Z).
  { induction l as [|x l IH]; intro a; simpl; [lia|]. specialize (IH (Z.max a (it_line x))). lia. }
  assert (Hi : forall l a i, In i l -> (it_line i <= fold_left (fun a x => Z.max a (it_line x)) l a)%Z).
  { induction l as [|x l IH]; intros a i Hi; [destruct Hi|]. simpl. destruct Hi as [->|Hi]; [|now apply IH].
    specialize (Hm l (Z.max a (it_line i))). lia. }
  intros [|x l] i H; [destruct H|]. simpl. destruct H as [->|H]; [apply Hm|now apply Hi].
Qed.

(** ** Recipe first *)

Lemma link_append_max : forall rx file l ks mp mx mp' mx',
  fold_left (link_append rx file l) ks (mp, mx) = (mp', mx') -> (mx <= mx')%Z /\
  forall k i, In k ks -> matched (re_match rx (basename k)) = true -> In i l -> it_origin i = k ->
    (it_line i <= mx')%Z.
Proof.
  intros rx file l ks. induction ks as [|k ks IH]; intros mp mx mp' mx' H; cbn [fold_left] in H.
  - inversion H; subst. split; [lia|]. intros k i [].
  - unfold link_append at 2 in H. destruct (matched (re_match rx (basename k))) eqn:Em;
      apply IH in H; destruct H as [H1 H2].
    + split; [lia|]. intros k2 i [<-|Hk] Hm Hi Ho; [|now apply (H2 k2)].
      assert (it_line i <= max_line (filter (fun i => str_eqb (it_origin i) k) l))%Z; [|lia].
      apply max_line_ge. apply filter_In. split; [exact Hi|]. apply str_eqb_eq. exact Ho.
    + split; [exact H1|]. intros k2 i [<-|Hk] Hm Hi Ho; [congruence|now apply (H2 k2)].
Qed.

Lemma link_append_link : forall rx file l ks mp mx mp' mx',
  dyn_pattern (append_pattern file) = Some rx -> (forall k, In k ks -> In k (dkeys mp)) ->
  fold_left (link_append rx file l) ks (mp, mx) = (mp', mx') ->
  forall k, In k ks -> matched (re_match rx (basename k)) = true -> links mp' k file.
Proof.
  intros rx file l ks. induction ks as [|k0 ks IH]; intros mp mx mp' mx' Hrx Hk H k Hin Hm; [destruct Hin|].
  cbn [fold_left] in H. unfold link_append at 2 in H.
  assert (Hk0 : In k0 (dkeys mp)) by (apply Hk; now left).
  apply dkey_get in Hk0. destruct Hk0 as [l0 El]. rewrite El in H.
  destruct (matched (re_match rx (basename k0))) eqn:Em.
  - assert (Hk' : forall k1, In k1 ks -> In k1 (dkeys (dset k0 (l0 ++ [file]) mp))).
    { intros k1 H1. apply dkeys_dset_In. right. apply Hk. now right. }
    destruct Hin as [<-|Hin]; [|now apply (IH _ _ _ _ Hrx Hk' H)].
    apply link_append_ext in H; auto. apply (extends_get _ _ _ k0 (l0 ++ [file])) in H; [|apply dget_dset_same].
    destruct H as [r [Er _]]. exists ((l0 ++ [file]) ++ r). split; [exact Er|].
    apply in_or_app. left. apply in_or_app. right. now left.
  - destruct Hin as [<-|Hin]; [congruence|]. apply (IH _ _ _ _ Hrx (fun k1 H1 => Hk k1 (or_intror H1)) H); auto.
Qed.

Lemma append_links : forall file items s l s' k,
  endswith ".bbappend" file = true -> match_appends file items s = (Ok l, s') ->
  In k (dkeys (st_map s)) -> append_matches file k ->
  links (st_map s') k file /\ st_list s' = st_list s /\
  exists mx, l = map (fun i => set_line (it_line i + mx) i) items /\ (0 <= mx)%Z /\
    forall i, In i (st_list s) -> it_origin i = k -> (it_line i <= mx)%Z.
Proof.
  intros file items s l s' k Ha H Hk [rx [Hrx Hm]]. unfold match_appends in H. rewrite Ha, Hrx in H.
  destruct (fold_left _ _ _) as [mp mx] eqn:El. inversion H; subst. simpl.
  pose proof (link_append_link _ _ _ _ _ _ _ _ Hrx (fun k H => H) El k Hk Hm) as H1.
  apply link_append_max in El. destruct El as [H2 H3]. split; [exact H1|]. split; [reflexivity|].
  exists mx. split; [reflexivity|]. split; [exact H2|]. intros i Hi Ho. eapply H3; eassumption.
Qed.

(** ** bbappend first *)

Lemma link_recipe_link : forall file mx l mp l' mp',
  In file (dkeys mp) ->
  link_recipe file (replace ".bb" [] (basename file)) mx l mp = Ok (l', mp') ->
  forall i, In i l -> endswith ".bbappend" (it_origin i) = true -> recipe_matches file (it_origin i) ->
    links mp' file (it_origin i).
Proof.
  intros file mx l. induction l as [|j l IH]; intros mp l' mp' Hf H i Hi Ha Hm; [destruct Hi|].
  cbn [link_recipe] in H. destruct Hi as [->|Hi].
  - rewrite Ha in H. destruct Hm as [rx [Hrx Hm]]. rewrite Hrx, Hm in H.
    apply dkey_get in Hf. destruct Hf as [l0 El]. rewrite El in H.
    destruct (link_recipe _ _ _ l _) as [[l1 m1]|ex|] eqn:E; simpl in H; try discriminate.
    inversion H; subst. apply link_recipe_ext in E; [|apply dkeys_dset_In; now left].
    apply (extends_get _ _ _ file (l0 ++ [it_origin i])) in E; [|apply dget_dset_same].
    destruct E as [r [Er _]]. exists ((l0 ++ [it_origin i]) ++ r). split; [exact Er|].
    apply in_or_app. left. apply in_or_app. right. now left.
  - assert (Hf' : forall v, In file (dkeys (dset file v mp))) by (intro v; apply dkeys_dset_In; now left).
    destruct (endswith ".bbappend" (it_origin j)).
    + destruct (dyn_pattern _) as [rx|]; [|discriminate].
      destruct (matched _); (destruct (link_recipe _ _ _ l _) as [[l1 m1]|ex|] eqn:E; simpl in H; try discriminate;
        inversion H; subst; eapply IH; [|exact E|exact Hi|exact Ha|exact Hm]; auto).
    + destruct (link_recipe _ _ _ l _) as [[l1 m1]|ex|] eqn:E; simpl in H; try discriminate.
      inversion H; subst. eapply IH; [|exact E|exact Hi|exact Ha|exact Hm]; auto.
Qed.

Lemma recipe_links : forall file items s l s',
  endswith ".bbappend" file = false -> endswith ".bb" file = true ->
  match_appends file items s = (Ok l, s') -> In file (dkeys (st_map s)) ->
  l = items /\ st_list s' = map (recipe_raise (replace ".bb" [] (basename file)) (max_line items)) (st_list s) /\
  forall i, In i (st_list s) -> endswith ".bbappend" (it_origin i) = true -> recipe_matches file (it_origin i) ->
    links (st_map s') file (it_origin i).
Proof.
  intros file items s l s' Ha Hb H Hf. unfold match_appends in H. rewrite Ha, Hb in H.
  destruct (link_recipe _ _ _ _ _) as [[l0 mp]|ex|] eqn:E; inversion H; subst. simpl.
  split; [reflexivity|]. split; [eapply link_recipe_list; exact E|].
  intros i Hi Hai Hm. eapply link_recipe_link; eassumption.
Qed.

(** ** Names *)

Lemma plain_plain : forall n, plain n -> Forall plain_char n /\ ~ In cNL n /\ ~ In cSL n /\ ~ In 37%N n /\
  contains ".bb" n = false.
Proof.
  intros n [H1 H2].
  assert (Hx : forall x, In x "^$\()[]{}|*+?%/" -> ~ In x n) by (intros x Hx Hi; exact (proj1 (H1 x Hi) Hx)).
  split; [|split; [|split; [|split]]].
  - apply Forall_forall. intros c Hc Hs. apply (proj1 (H1 c Hc)). vm_compute in Hs. vm_compute. tauto.
  - intro H. now apply (proj2 (H1 cNL H)).
  - apply Hx. vm_compute. tauto.
  - apply Hx. vm_compute. tauto.
  - apply contains_false. exact H2.
Qed.

Lemma no_bb_tail : forall n a1 a2 suf rest, contains ".bb" n = false -> n = a1 ++ a2 -> a2 <> [] ->
  match rest with [] => True | c :: _ => c <> 98%N end ->
  startswith (".bb" ++ suf) (a2 ++ rest) = false.
Proof.
  intros n a1 a2 suf rest Hc -> Hn Hr.
  destruct (startswith (".bb" ++ suf) (a2 ++ rest)) eqn:E; [|reflexivity]. exfalso.
  apply startswith_spec in E. destruct E as [t E]. rewrite contains_false in Hc.
  destruct a2 as [|c1 [|c2 [|c3 a2]]]; [congruence| | |].
  - simpl in E. inversion E as [[E1 E2]]. destruct rest as [|c rest]; [discriminate|]. inversion E2. now subst.
  - simpl in E. inversion E as [[E1 E2 E3]]. destruct rest as [|c rest]; [discriminate|]. inversion E3. now subst.
  - simpl in E. inversion E; subst. apply (Hc a1 a2). reflexivity.
Qed.

Lemma contains_app_bb : forall n m, contains ".bb" (n ++ m) = false -> contains ".bb" n = false.
Proof.
  intros n m H. rewrite contains_false in *. intros a b ->. apply (H a (b ++ m)). now rewrite <- !app_assoc.
Qed.

(** [applies] in terms of base names. *)
Lemma applies_append : forall b r, applies b r -> append_matches b r /\ recipe_matches r b /\
  endswith ".bbappend" b = true /\ endswith ".bb" r = true /\ endswith ".bbappend" r = false.
Proof.
  intros b r H.
  assert (Hend : forall d x, endswith ".bbappend" (d ++ "/" ++ x ++ ".bb") = false).
  { intros d x. destruct (endswith _ _) eqn:E; [|reflexivity]. apply endswith_spec in E. destruct E as [t E].
    apply (f_equal (@rev N)) in E. rewrite !rev_app_distr in E. simpl in E. discriminate. }
  assert (Hbb : forall d x, endswith ".bb" (d ++ "/" ++ x ++ ".bb") = true).
  { intros d x. apply endswith_spec. exists (d ++ "/" ++ x). now rewrite <- !app_assoc. }
  destruct H as [d d' n Hn|d d' n t Hn Ht Hnt].
  - destruct (plain_plain n Hn) as [P1 [P2 [P3 [P4 P5]]]].
    assert (Bb : basename (d ++ "/" ++ n ++ ".bbappend") = n ++ ".bbappend").
    { apply (basename_app d). rewrite in_app_iff. intros [H|H]; [contradiction|]. vm_compute in H. intuition discriminate. }
    assert (Br : basename (d' ++ "/" ++ n ++ ".bb") = n ++ ".bb").
    { apply (basename_app d'). rewrite in_app_iff. intros [H|H]; [contradiction|]. vm_compute in H. intuition discriminate. }
    assert (R1 : forall suf new, replace (".bb" ++ suf) new (n ++ ".bb" ++ suf) = n ++ new).
    { intros suf new. pose proof (replace_hit (".bb" ++ suf) new n []) as R. rewrite !app_nil_r in R.
      rewrite R; [|discriminate|].
      - f_equal; try (destruct new; reflexivity).
      - intros a1 a2 E1 E2. apply (no_bb_tail n a1 a2 suf); auto. discriminate. }
    split; [|split; [|split; [|split]]]; auto.
    + unfold append_matches, append_pattern. rewrite Bb, Br.
      change ".bbappend" with (".bb" ++ "append"). rewrite R1.
      rewrite replace_char_app, (replace_char_none _ _ n P4), (replace_char_none _ _ ".bb$")
        by (vm_compute; intuition discriminate).
      destruct (compile_pat 5 ".bb$") as [r|] eqn:Er; [|discriminate].
      exists (lits n r). split.
      * apply (dyn_lits n ".bb$" r 5 P1); [vm_compute; intuition discriminate|exact Er|simpl; lia].
      * unfold re_match. apply matched_iff. vm_compute in Er. inversion Er; subst. clear Er.
        exists (MS false [] []). apply mt_lits_self; [|exact P2].
        assert (Hafter : forall b w t g, exists b', after b w t g = MS b' t g) by (intros bb w tt g; destruct w; eexists; reflexivity).
        destruct (Hafter true n ".bb" []) as [b' ->].
        apply mt_seq_iff. eexists. split; [apply mt_chr_iff; eexists _, _; repeat split|].
        apply mt_seq_iff. eexists. split; [apply mt_chr_iff; eexists _, _; repeat split|].
        apply mt_seq_iff. eexists. split; [apply mt_chr_iff; eexists _, _; repeat split|].
        apply mt_seq_iff. eexists. split; [apply mt_eol_iff; split; [reflexivity|now left]|].
        apply mt_eps_iff. reflexivity.
    + unfold recipe_matches, recipe_pattern. rewrite Bb, Br.
      change ".bbappend" with (".bb" ++ "append"). rewrite R1.
      pose proof (R1 [] []) as R0. rewrite !app_nil_r in R0. rewrite R0. rewrite app_nil_r.
      rewrite (replace_char_none _ _ n P4). exists (lits n REps). split.
      * pose proof (dyn_lits n [] REps 1 P1 I eq_refl) as D. rewrite app_nil_r in D. apply D. simpl. lia.
      * unfold re_match. apply matched_iff. eexists. pose proof (mt_lits_self n REps true [] []) as D.
        rewrite app_nil_r in D. apply D; [|exact P2]. apply mt_eps_iff. reflexivity.
    + apply endswith_spec. exists (d ++ "/" ++ n). now rewrite <- !app_assoc.
  - destruct (plain_plain n Hn) as [P1 [P2 [P3 [P4 P5]]]].
    destruct (plain_plain t Ht) as [T1 [T2 [T3 [T4 T5]]]].
    destruct (plain_plain (n ++ t) Hnt) as [_ [_ [Q3 [_ Q5]]]].
    assert (Bb : basename (d ++ "/" ++ n ++ "%.bbappend") = n ++ "%.bbappend").
    { apply (basename_app d). rewrite in_app_iff. intros [H|H]; [contradiction|]. vm_compute in H. intuition discriminate. }
    assert (Br : basename (d' ++ "/" ++ (n ++ t) ++ ".bb") = (n ++ t) ++ ".bb").
    { apply (basename_app d'). rewrite in_app_iff. intros [H|H]; [contradiction|]. vm_compute in H. intuition discriminate. }
    assert (Hp : contains ".bb" (n ++ "%") = false).
    { apply contains_false. intros a b E. rewrite contains_false in P5.
      destruct (rev b) as [|z b'] eqn:Eb.
      - assert (b = []) by (rewrite <- (rev_involutive b), Eb; reflexivity). subst b.
        apply (f_equal (@rev N)) in E. rewrite !rev_app_distr in E. simpl in E. discriminate.
      - assert (Eb2 : b = rev b' ++ [z]) by (rewrite <- (rev_involutive b), Eb; reflexivity).
        rewrite Eb2, !app_assoc in E. apply app_inj_tail in E. destruct E as [E _].
        rewrite <- app_assoc in E. now apply (P5 a (rev b')). }
    assert (R1 : forall new, replace ".bbappend" new (n ++ "%.bbappend") = n ++ "%" ++ new).
    { intro new. pose proof (replace_hit ".bbappend" new (n ++ "%") []) as R.
      rewrite !app_nil_r in R. rewrite <- !app_assoc in R.
      change (n ++ "%.bbappend") with (n ++ "%" ++ ".bbappend"). rewrite R; [|discriminate|].
      - f_equal; try (f_equal; destruct new; reflexivity).
      - intros a1 a2 E1 E2. apply (no_bb_tail (n ++ "%") a1 a2 "append"); auto. discriminate. }
    split; [|split; [|split; [|split]]]; auto.
    + unfold append_matches, append_pattern. rewrite Bb, Br, R1.
      rewrite !replace_char_app, (replace_char_none _ _ n P4), (replace_char_none _ _ ".bb$")
        by (vm_compute; intuition discriminate).
      change (replace "%" ".*" "%") with ".*". cbn [app].
      destruct (compile_pat 6 ".*.bb$") as [r|] eqn:Er; [|discriminate].
      exists (lits n r). split.
      * apply (dyn_lits n ".*.bb$" r 6 P1); [vm_compute; intuition discriminate|exact Er|simpl; lia].
      * unfold re_match. apply matched_iff. vm_compute in Er. inversion Er; subst. clear Er.
        exists (MS false [] []). rewrite <- app_assoc. apply mt_lits_self; [|exact P2].
        assert (Hafter : forall b w t g, exists b', after b w t g = MS b' t g) by (intros bb w tt g; destruct w; eexists; reflexivity).
        destruct (Hafter true n (t ++ ".bb") []) as [b' ->].
        apply mt_seq_iff. eexists. split.
        { apply mt_star_chr_iff. exists t, ".bb". split; [reflexivity|]. split; [|reflexivity].
          apply forallb_forall. intros c Hc. change (dotp c = true). unfold dotp. destruct (N.eqb c cNL) eqn:E; [|reflexivity].
          apply N.eqb_eq in E. subst. contradiction. }
        cbn [m_bol m_grp]. destruct (Hafter b' t ".bb" []) as [b'' ->].
        apply mt_seq_iff. eexists. split; [apply mt_chr_iff; eexists _, _; repeat split|].
        apply mt_seq_iff. eexists. split; [apply mt_chr_iff; eexists _, _; repeat split|].
        apply mt_seq_iff. eexists. split; [apply mt_chr_iff; eexists _, _; repeat split|].
        apply mt_seq_iff. eexists. split; [apply mt_eol_iff; split; [reflexivity|now left]|].
        apply mt_eps_iff. reflexivity.
    + unfold recipe_matches, recipe_pattern. rewrite Bb, Br, R1. rewrite app_nil_r.
      assert (R0 : replace ".bb" [] ((n ++ t) ++ ".bb") = n ++ t).
      { pose proof (replace_hit ".bb" [] (n ++ t) []) as R. rewrite !app_nil_r in R. rewrite R; [|discriminate|].
        - reflexivity || now rewrite app_nil_r.
        - intros a1 a2 E1 E2. apply (no_bb_tail (n ++ t) a1 a2 []); auto. discriminate. }
      rewrite R0, replace_char_app, (replace_char_none _ _ n P4).
      change (replace "%" ".*" "%") with ".*".
      destruct (compile_pat 3 ".*") as [r|] eqn:Er; [|discriminate].
      exists (lits n r). split.
      * apply (dyn_lits n ".*" r 3 P1); [vm_compute; intuition discriminate|exact Er|simpl; lia].
      * unfold re_match. apply matched_iff. vm_compute in Er. inversion Er; subst. clear Er.
        exists (after true n t []). apply mt_lits_self; [|exact P2].
        apply mt_seq_iff. exists (after true n t []). split.
        { apply mt_star_chr_iff. exists [], t. destruct n; repeat split. }
        apply mt_eps_iff. reflexivity.
    + apply endswith_spec. exists (d ++ "/" ++ n ++ "%"). now rewrite <- !app_assoc.
Qed.
