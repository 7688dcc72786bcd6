(** * Proofs about the package and source queries *)

From Verif Require Import PyStr Regex Patterns PyPath Res Const Item Lines Stash StrFacts ReFacts LinesFacts ItemFacts NameFacts
  ExnFacts ReachFacts QueryFacts ExpandFacts Spec_Query Proofs_Query Spec_Expand Proofs_Expand Spec_Pkg.
From Verif Require Import Spec_Const.
From Verif Require ConstFacts.
From Coq Require Import Permutation Sorted.

(** ** Cutting at blanks *)

Definition blankb (c : N) : bool := re_space c || N.eqb c 27.
Lemma blank_iff : forall c, blank c <-> blankb c = true.
Proof. intro c. unfold blank, blankb. now rewrite Bool.orb_true_iff, N.eqb_eq. Qed.

Lemma stash_split_match : forall b c t,
  match_at re_stash_split b (c :: t) = if blankb c then Some (RM [c] []) else None.
Proof.
  intros b c t. unfold match_at, re_stash_split, blankb. simpl. unfold RSp, tab. simpl.
  destruct (re_space c) eqn:Es; simpl.
  - now rewrite consumed_one.
  - destruct (ch cTAB c) eqn:Et.
    + unfold ch in Et. apply N.eqb_eq in Et. subst c. discriminate.
    + unfold ch. change cESC with 27%N. destruct (N.eqb c 27); simpl; [|reflexivity]. now rewrite consumed_one.
Qed.

Lemma stash_split_cuts : forall s b cur, exists p l, cuts blank s (p :: l) /\
  split_pieces cur (scan re_stash_split 0 b s) = (rev cur ++ p) :: l.
Proof.
  induction s as [|c t IH]; intros b cur.
  - exists [], []. split; [constructor|]. cbn. now rewrite app_nil_r.
  - cbn [scan]. rewrite stash_split_match. destruct (blankb c) eqn:E.
    + cbn [g0 length split_pieces]. destruct (IH false []) as [p [l [H1 H2]]]. exists [], (p :: l). split.
      * constructor; [now apply blank_iff|exact H1].
      * rewrite H2. cbn [rev app]. now rewrite app_nil_r.
    + cbn [split_pieces]. destruct (IH false (c :: cur)) as [p [l [H1 H2]]]. exists (c :: p), l. split.
      * constructor; [rewrite blank_iff, E; discriminate|exact H1].
      * rewrite H2. cbn [rev]. now rewrite <- app_assoc.
Qed.
Lemma cuts_det : forall sep s l, cuts sep s l -> forall l', cuts sep s l' -> l = l'.
Proof.
  intros sep s l H. induction H as [|c s l Hc H IH|c s p l Hc H IH]; intros l' H'; inversion H'; subst; try tauto.
  - f_equal. now apply IH.
  - match goal with X : cuts sep s (_ :: _) |- _ => apply IH in X; now inversion X end.
Qed.
Lemma C79_lemma : forall s l, stash_linesplit s = l <-> cuts blank s l.
Proof.
  intros s l. destruct (stash_split_cuts s true []) as [p [l0 [H1 H2]]]. cbn [rev app] in H2.
  unfold stash_linesplit, re_split. rewrite H2. split; [intros <-; exact H1|]. apply cuts_det. exact H1.
Qed.
Lemma entry_iff : forall v p, entry v p <-> In p (keep_nonempty (stash_linesplit v)).
Proof.
  intros v p. unfold entry, keep_nonempty. rewrite filter_In. split.
  - intros [Hp [l [H1 H2]]]. apply C79_lemma in H1. rewrite H1. split; [exact H2|]. destruct p; [congruence|reflexivity].
  - intros [H1 H2]. split; [intros ->; discriminate|]. exists (stash_linesplit v). split; [now apply C79_lemma|exact H1].
Qed.

(** ** Queries for variables and inherits *)

Lemma visible_iff : forall s file i, visible s file i <-> file = [] \/ is_linked_to (st_map s) (it_origin i) file false = true.
Proof.
  intros s file i. unfold visible, is_linked_to. rewrite Bool.orb_true_iff, Bool.andb_true_iff, linked_iff, str_eqb_eq. simpl.
  intuition congruence.
Qed.
Lemma shown_iff : forall e s file n i, env_ok e -> reach e s -> n <> [] -> shown s file n i <-> In i (vars_named e s file n).
Proof.
  intros e s file n i He Hr Hn. unfold vars_named. destruct (C28_lemma e s
    (MkQuery (Some file) (AOne "Variable") (AOne "VarName") (AOne (VStr n)) false) He Hr) as [H _]. rewrite H. clear H.
  rewrite <- sel_iff. rewrite sel_vars by exact Hn. rewrite <- visible_iff. unfold shown, is_var. tauto.
Qed.
Lemma inherits_iff : forall e s file c, env_ok e -> reach e s ->
  inherits s file c <-> exists i, In i (inherits_of e s file) /\ In c (get_items_of i).
Proof.
  intros e s file c He Hr. unfold inherits_of. destruct (C28_lemma e s
    (MkQuery (Some file) (AOne "Inherit") ANone ANone false) He Hr) as [H _].
  assert (Hs : forall i, selected s (MkQuery (Some file) (AOne "Inherit") ANone ANone false) i <->
    visible s file i /\ exists cls st paths, it_pay i = PInherit cls st paths).
  { intro i. rewrite <- sel_iff. unfold sel, sel_file, sel_class, sel_attr. cbn [q_file q_class q_attr q_val q_nolink norm_arg].
    change (nonempty "Inherit") with true. rewrite !andb_true_iff, visible_iff. 
    assert (Hf : (match file with [] => true | _ => is_linked_to (st_map s) (it_origin i) file false end) = true <->
               file = [] \/ is_linked_to (st_map s) (it_origin i) file false = true).
    { destruct file; [tauto|]. split; [auto|]. intros [Hx|Hx]; [discriminate|exact Hx]. }
    cbv beta iota zeta. rewrite Hf. split.
    - intros [[H1 H2] _]. split; [exact H1|]. apply (proj1 (mem_str_In _ _)) in H2.
      destruct H2 as [H2|[]]. unfold classifier in H2. destruct (it_pay i) as []; try discriminate. eexists. eexists. eexists. reflexivity.
    - intros [H1 [cls [st [paths E]]]]. split; [split|]; [exact H1| |reflexivity]. unfold classifier.
      apply (proj2 (mem_str_In _ _)). rewrite E. now left. }
  unfold inherits. split.
  - intros [i [cls [st [paths [H1 [H2 [H3 H4]]]]]]]. exists i. split.
    + apply H. split; [exact H1|]. apply Hs. split; [exact H2|]. now exists cls, st, paths.
    + unfold get_items_of. now rewrite H3.
  - intros [i [H1 H2]]. apply H in H1. destruct H1 as [H1 H3]. apply Hs in H3. destruct H3 as [H3 [cls [st [paths E]]]].
    exists i, cls, st, paths. repeat split; try assumption. unfold get_items_of in H2. now rewrite E in H2.
Qed.

(** ** Collecting *)

Lemma fold_res_collect : forall {A B C} (f : B -> Res.res A) (g : A -> list C) l acc r,
  fold_res (fun acc i => do v <- f i; Ok (acc ++ g v)) l acc = Ok r ->
  forall x, In x r <-> In x acc \/ exists i v, In i l /\ f i = Ok v /\ In x (g v).
Proof.
  intros A B C f g l. induction l as [|i l IH]; intros acc r H x; cbn [fold_res] in H.
  - inversion H; subst. split; [tauto|]. intros [Hx|[i [v [[] _]]]]. exact Hx.
  - destruct (f i) as [v|ex|] eqn:E; try discriminate. cbn in H. rewrite (IH _ _ H x), in_app_iff. split.
    + intros [[Hx|Hx]|[j [w [H1 H2]]]]; [now left| |].
      * right. exists i, v. split; [now left|auto].
      * right. exists j, w. split; [now right|auto].
    + intros [Hx|[j [w [[<-|H1] [H2 H3]]]]]; [tauto| |].
      * left. right. rewrite E in H2. now inversion H2; subst.
      * right. now exists j, w.
Qed.
Lemma fold_res_all : forall {A B C} (f : B -> Res.res A) (g : A -> list C) l acc r,
  fold_res (fun acc i => do v <- f i; Ok (acc ++ g v)) l acc = Ok r -> forall i, In i l -> exists v, f i = Ok v.
Proof.
  intros A B C f g l. induction l as [|i l IH]; intros acc r H x Hx; cbn [fold_res] in H; [destruct Hx|].
  destruct (f i) as [v|ex|] eqn:E; try discriminate. cbn in H. destruct Hx as [<-|Hx]; [now exists v|]. eapply IH; eassumption.
Qed.

(** ** C50-C52 *)

Lemma C50_lemma : forall e s file strippn l, env_ok e -> reach e s -> valid_package_names e s file strippn = Ok l ->
  forall x, In x l <-> exists pn, In pn ["${PN}"; guess_recipe_name file] /\ pn_packages e s file strippn pn x.
Proof.
  intros e s file strippn l He Hr H x. unfold valid_package_names in H.
  set (comp := vars_named e s file "PACKAGES" ++ vars_named e s file "PACKAGE_BEFORE_PN") in H.
  assert (Hc : forall i, In i comp <-> shown s file "PACKAGES" i \/ shown s file "PACKAGE_BEFORE_PN" i).
  { intro i. unfold comp. rewrite in_app_iff, <- !(shown_iff e) by (assumption || discriminate). reflexivity. }
  clearbody comp.
  assert (Hone : forall acc pn r,
    fold_res (fun acc i => do v <- expand_term_full e s file (stripped i) ["PN"] [] None;
      Ok (acc ++ map (fun p => replace "${PN}" (if strippn then [] else pn) p) (keep_nonempty (stash_linesplit v))))
      comp (acc ++ [pn; pn ++ "-ptest"] ++ map (fun x => pn ++ "-" ++ x) pkg_suffixes) = Ok r ->
    forall x, In x r <-> In x acc \/ pn_packages e s file strippn pn x).
  { clear x. intros acc pn r Hf x. pose proof (fold_res_collect (fun i => expand_term_full e s file (stripped i) ["PN"] [] None)
      (fun v => map (fun p => replace "${PN}" (if strippn then [] else pn) p) (keep_nonempty (stash_linesplit v)))
      comp _ r Hf x) as E. rewrite E. clear E Hf. rewrite !in_app_iff. unfold pn_packages.
    assert (E1 : In x [pn; pn ++ "-ptest"] \/ In x (map (fun x => pn ++ "-" ++ x) pkg_suffixes) <->
      x = pn \/ exists k, In k default_packages /\ x = pn ++ "-" ++ k).
    { rewrite in_map_iff. unfold default_packages, pkg_suffixes. split.
      - intros [[<-|[<-|[]]]|[k [<- Hk]]]; [now left| |].
        + right. exists "ptest". split; [now left|reflexivity].
        + right. exists k. split; [now right|reflexivity].
      - intros [->|[k [[<-|Hk] ->]]]; [left; now left|left; right; now left|]. right. now exists k. }
    assert (E2 : (exists i v, In i comp /\ expand_term_full e s file (stripped i) ["PN"] [] None = Ok v /\
        In x (map (fun p => replace "${PN}" (if strippn then [] else pn) p) (keep_nonempty (stash_linesplit v)))) <->
      exists i v p, (shown s file "PACKAGES" i \/ shown s file "PACKAGE_BEFORE_PN" i) /\
     expand_term_full e s file (stripped i) ["PN"] [] None = Ok v /\ entry v p /\
     x = replace "${PN}" (if strippn then [] else pn) p).
    { split.
      - intros [i [v [H1 [H2 H3]]]]. apply in_map_iff in H3. destruct H3 as [p [<- H3]]. exists i, v, p.
        split; [now apply Hc|]. split; [exact H2|]. split; [now apply entry_iff|reflexivity].
      - intros [i [v [p [H1 [H2 [H3 ->]]]]]]. exists i, v. split; [now apply Hc|]. split; [exact H2|].
        apply in_map_iff. exists p. split; [reflexivity|now apply entry_iff]. }
    rewrite E2. clear E2. tauto. }
  cbn [fold_res] in H.
  match type of H with Res.bind ?a _ = _ => destruct a as [r1|ex|] eqn:E1; try discriminate end. cbn [Res.bind] in H.
  match type of H with Res.bind ?a _ = _ => destruct a as [r2|ex|] eqn:E2; try discriminate end. cbn [Res.bind] in H.
  inversion H; subst r2. clear H. rewrite (Hone _ _ _ E2 x), (Hone _ _ _ E1 x). split.
  - intros [[[]|Hx]|Hx].
    + exists "${PN}". split; [now left|exact Hx].
    + exists (guess_recipe_name file). split; [right; now left|exact Hx].
  - intros [pn [[<-|[<-|[]]] Hx]]; tauto.
Qed.

Lemma C51_lemma : forall e s file x, env_ok e -> reach e s ->
  In x (valid_named_resources e s file) <->
  x = guess_recipe_name file \/
  exists i n v, shown s file "SRC_URI" i /\ entry (stripped i) n /\
    dget "name" (snd (scr_components e s n)) = Some v /\ x = replace "${PN}" (guess_recipe_name file) v.
Proof.
  intros e s file x He Hr. unfold valid_named_resources. cbn [In]. rewrite in_flat_map. split.
  - intros [H|[i [H1 H2]]]; [now left|]. right. apply in_flat_map in H2. destruct H2 as [n [H2 H3]].
    destruct (dget "name" (snd (scr_components e s n))) as [v|] eqn:E; [|destruct H3]. destruct H3 as [<-|[]].
    exists i, n, v. split; [apply (shown_iff e); auto; discriminate|]. split; [now apply entry_iff|]. auto.
  - intros [->|[i [n [v [H1 [H2 [H3 ->]]]]]]]; [now left|]. right. exists i. split; [apply shown_iff; auto; discriminate|].
    apply in_flat_map. exists n. split; [now apply entry_iff|]. rewrite H3. now left.
Qed.

Lemma C52_lemma : forall e s file cl vl, env_ok e -> reach e s ->
  at_path ["images"; "known-classes"] (st_const s) = Some (CList cl) ->
  at_path ["images"; "known-variables"] (st_const s) = Some (CList vl) -> ~ In [] vl ->
  is_image e s file = true <->
  (exists c, inherits s file c /\ In c cl) \/ (exists n i, In n vl /\ shown s file n i).
Proof.
  intros e s file cl vl He Hr Hc Hv Hn. unfold is_image. rewrite (ConstFacts.classes_at _ _ Hc), (ConstFacts.variables_at _ _ Hv). cbn [cval_contains cval_iter].
  rewrite Bool.orb_true_iff, !existsb_exists.
  assert (E1 : (exists i, In i (inherits_of e s file) /\ existsb (fun y => mem_str y cl) (get_items_of i) = true) <->
    exists c, inherits s file c /\ In c cl).
  { split.
    - intros [i [H1 H2]]. apply existsb_exists in H2. destruct H2 as [c [H2 H3]]. exists c.
      split; [apply (inherits_iff e); auto; now exists i|]. exact (proj1 (mem_str_In _ _) H3).
    - intros [c [H1 H2]]. apply (inherits_iff e) in H1; [|assumption|assumption]. destruct H1 as [i [H1 H3]]. exists i.
      split; [exact H1|]. apply existsb_exists. exists c. split; [exact H3|]. exact (proj2 (mem_str_In _ _) H2). }
  assert (E2 : (exists n, In n vl /\ match vars_named e s file n with [] => false | _ => true end = true) <->
    exists n i, In n vl /\ shown s file n i).
  { split.
    - intros [n [H1 H2]]. destruct (vars_named e s file n) as [|i l] eqn:E; [discriminate|]. exists n, i. split; [exact H1|].
      apply (shown_iff e); [assumption|assumption|intro Hz; subst n; contradiction|]. rewrite E. now left.
    - intros [n [i [H1 H2]]]. exists n. split; [exact H1|]. apply (shown_iff e) in H2; [|assumption|assumption|intro Hz; subst n; contradiction].
      destruct (vars_named e s file n); [destruct H2|reflexivity]. }
  rewrite E1, E2. reflexivity.
Qed.
Lemma C52_group_lemma : forall e s file, env_ok e -> reach e s ->
  is_packagegroup e s file = true <-> inherits s file "packagegroup".
Proof.
  intros e s file He Hr. unfold is_packagegroup. rewrite existsb_exists, (inherits_iff e) by assumption. split.
  - intros [i [H1 H2]]. exists i. split; [exact H1|]. exact (proj1 (mem_str_In _ _) H2).
  - intros [i [H1 H2]]. exists i. split; [exact H1|]. exact (proj2 (mem_str_In _ _) H2).
Qed.

Lemma fold_res_ends : forall {A B} (f : A -> B -> Res.res A) l a,
  (forall a x, (exists b, f a x = Ok b) \/ f a x = Raise OSError) -> (exists b, fold_res f l a = Ok b) \/ fold_res f l a = Raise OSError.
Proof.
  intros A B f l. induction l as [|x l IH]; intros a H; cbn [fold_res]; [left; now exists a|].
  destruct (H a x) as [[b E]|E]; rewrite E; cbn [Res.bind]; [now apply IH|now right].
Qed.
Lemma C50_ends_lemma : forall e s file strippn, env_ok e ->
  (exists l, valid_package_names e s file strippn = Ok l) \/ valid_package_names e s file strippn = Raise OSError.
Proof.
  intros e s file strippn He. unfold valid_package_names. apply fold_res_ends. intros acc pn. apply fold_res_ends. intros acc' i.
  destruct (C42_lemma e s file (stripped i) ["PN"] [] None He) as [[w E]|E]; rewrite E; cbn [Res.bind]; [left; now eexists|now right].
Qed.

(** ** C58: options *)

Lemma sets_option_split : forall k v o, sets_option k v o <->
  contains "=" o = true /\ hd [] (split_char 61 o) = k /\ nth 1 (split_char 61 o) [] = v.
Proof.
  intros k v o. split.
  - intros [Hk [Hv H]].
    assert (E : exists r, split_char 61 o = k :: v :: r).
    { destruct H as [->|[more ->]]; change ("=" : str) with [61%N]; cbn [app]; rewrite split_char_app by exact Hk.
      - exists []. now rewrite split_char_none.
      - rewrite split_char_app by exact Hv. now eexists. }
    destruct E as [r E]. rewrite E. split; [|auto]. apply contains_spec.
    destruct H as [->|[more ->]]; eexists; eexists; reflexivity.
  - intros [Hc [Hk Hv]]. apply contains_spec in Hc. destruct Hc as [a [b Hc]].
    pose proof (split_char_no_sep 61 o) as Hno. pose proof (split_char_join 61 o) as Hj.
    destruct (split_char 61 o) as [|x [|y r]] eqn:E.
    + now apply split_char_nonnil in E.
    + exfalso. cbn in Hj. apply (Hno x (or_introl eq_refl)). rewrite Hj, Hc. apply in_or_app. right. now left.
    + cbn in Hk, Hv. subst x y. split; [apply Hno; now left|]. split; [apply Hno; right; now left|].
      rewrite <- Hj. destruct r as [|z r]; [left; reflexivity|right]. exists (join [61%N] (z :: r)). reflexivity.
Qed.

Lemma parse_options_acc : forall k l acc v, 
  dget k (fold_left (fun acc o => if contains "=" o
                          then dset (hd [] (split_char 61 o)) (nth 1 (split_char 61 o) []) acc
                          else acc) l acc) = Some v <->
  last_option l k v \/ ((forall o v', In o l -> ~ sets_option k v' o) /\ dget k acc = Some v).
Proof.
  intros k l. induction l as [|o l IH]; intros acc v.
  - cbn [fold_left]. split.
    + intro H. right. split; [intros o v' []|exact H].
    + intros [[a [o [b [E _]]]]|[_ H]]; [destruct a; discriminate|exact H].
  - cbn [fold_left]. rewrite IH. clear IH.
    assert (Hd : (exists v', sets_option k v' o) \/ ~ exists v', sets_option k v' o).
    { destruct (contains "=" o) eqn:E; [|right; intros [v' H]; apply sets_option_split in H; destruct H; congruence].
      destruct (str_eqb (hd [] (split_char 61 o)) k) eqn:Ek.
      - left. eexists. apply sets_option_split. split; [exact E|]. split; [now apply str_eqb_eq|reflexivity].
      - right. intros [v' H]. apply sets_option_split in H. destruct H as [_ [H _]]. apply str_eqb_neq in Ek. congruence. }
    assert (Hacc : forall w, dget k (if contains "=" o then dset (hd [] (split_char 61 o)) (nth 1 (split_char 61 o) []) acc else acc)
              = Some w <-> sets_option k w o \/ ((forall v', ~ sets_option k v' o) /\ dget k acc = Some w)).
    { intro w. destruct Hd as [[v' H]|H].
      - pose proof H as H0. apply sets_option_split in H. destruct H as [Hc [Hk Hv]]. rewrite Hc, Hk, Hv, dget_dset_same. split.
        + intro E. inversion E; subst. now left.
        + intros [E|[E _]]; [|now apply E in H0]. apply sets_option_split in E. destruct E as [_ [_ E]]. congruence.
      - assert (E : dget k (if contains "=" o then dset (hd [] (split_char 61 o)) (nth 1 (split_char 61 o) []) acc else acc) = dget k acc).
        { destruct (contains "=" o) eqn:E; [|reflexivity]. apply dget_dset_other. intro Hx. apply H. eexists.
          apply sets_option_split. split; [exact E|]. split; [exact (eq_sym Hx)|reflexivity]. }
        rewrite E. split; [intro; right; split; [intros v' Hv; apply H; now exists v'|assumption]|].
        intros [Hx|[_ Hx]]; [exfalso; apply H; now exists w|exact Hx]. }
    rewrite Hacc. clear Hacc. split.
    + intros [[a [o' [b [E [H1 H2]]]]]|[H1 [H2|[H2 H3]]]].
      * left. exists (o :: a), o', b. split; [now rewrite E|auto].
      * left. exists [], o, l. auto.
      * right. split; [|exact H3]. intros o' v' [<-|Ho]; [apply H2|now apply H1].
    + intros [[a [o' [b [E [H1 H2]]]]]|[H1 H2]].
      * destruct a as [|x a]; inversion E; subst.
        -- right. split; [exact H2|now left].
        -- left. now exists a, o', b.
      * right. split; [intros o' v' Ho; apply H1; now right|]. right. split; [intros v'; apply H1; now left|exact H2].
Qed.

Lemma parts_split : forall raw parts, parts_of raw parts <-> (if contains ";" raw then tl (split_char 59 raw) else []) = parts.
Proof.
  intros raw parts. split.
  - intros [p0 [-> H]]. change (";" : str) with [59%N]. destruct parts as [|p parts].
    + cbn. destruct (contains [59%N] p0) eqn:E; [|reflexivity]. exfalso. apply contains_spec in E. destruct E as [a [b E]].
      apply (H p0 (or_introl eq_refl)). rewrite E. apply in_or_app. right. now left.
    + rewrite split_char_join_parts by (discriminate || exact H). cbn [tl].
      replace (contains [59%N] (join [59%N] (p0 :: p :: parts))) with true; [reflexivity|]. symmetry. apply contains_spec.
      exists p0, (join [59%N] (p :: parts)). reflexivity.
  - intro H. destruct (contains ";" raw) eqn:E.
    + pose proof (split_char_nonnil 59 raw) as Hn. pose proof (split_char_join 59 raw) as Hj. pose proof (split_char_no_sep 59 raw) as Hs.
      destruct (split_char 59 raw) as [|p0 l]; [congruence|]. cbn [tl] in H. subst l. exists p0. split; [now rewrite <- Hj|exact Hs].
    + subst parts. exists raw. split; [reflexivity|]. intros p [<-|[]] Hi. apply in_split in Hi. destruct Hi as [a [b Hi]].
      assert (contains ";" raw = true) by (apply contains_spec; exists a, b; exact Hi). congruence.
Qed.

Lemma mirrored_eq : forall db d x, mirrors db d -> replace_mirrors db x = mirrored d x.
Proof.
  intros db d x H. unfold mirrors in H. unfold replace_mirrors, mirrored. f_equal.
  destruct (at_path ["replacements"; "mirrors"] db) as [v|] eqn:E.
  - rewrite (ConstFacts.mirrors_at _ _ E), H. cbn [str_entries]. clear. induction d as [|[k v] d IH]; [reflexivity|].
    cbn [map flat_map fst snd]. now rewrite IH.
  - subst d. unfold mirrors_known, MirrorsKnown.
    change (get_by_path "replacements/mirrors" db) with (cval_walk ["replacements"; "mirrors"] db).
    cbn [at_path] in E. cbn [cval_walk]. destruct db as [t|l|d]; try reflexivity. cbn [cval_step bind].
    destruct (dget "replacements" d) as [y|]; [|reflexivity]. destruct y as [t|l|d2]; try reflexivity. cbn [cval_step bind].
    destruct (dget "mirrors" d2); [discriminate|reflexivity].
Qed.

Lemma C58_lemma : forall e s d x k v, mirrors (st_const s) d -> e_url e (mirrored d x) <> None ->
  dget k (snd (scr_components e s x)) = Some v <->
  exists parts, parts_of (mirrored d x) parts /\ last_option parts k v.
Proof.
  intros e s d x k v Hm. rewrite <- (mirrored_eq (st_const s) d x Hm). intro He.
  unfold scr_components. destruct (e_url e (replace_mirrors (st_const s) x)) as [[[sch net] path]|]; [|congruence].
  cbn [snd]. unfold parse_options. rewrite parse_options_acc. split.
  - intros [H|[_ H]]; [|discriminate]. eexists. split; [apply parts_split; reflexivity|exact H].
  - intros [parts [H1 H2]]. left. apply parts_split in H1. now rewrite H1.
Qed.

Lemma lstrip_slashes : forall p, exists slashes, p = slashes ++ lstrip "/" p /\ (forall c, In c slashes -> c = 47%N) /\
  forall q, lstrip "/" p <> "/" ++ q.
Proof.
  unfold lstrip. induction p as [|c p [sl [E [H1 H2]]]].
  - exists []. repeat split; [intros c []|discriminate].
  - cbn [lstrip_p]. destruct (in_chars "/" c) eqn:M.
    + exists (c :: sl). split; [cbn [app]; now f_equal|]. split; [|exact H2]. intros x [<-|Hx]; [|now apply H1].
      unfold in_chars in M. cbn [existsb] in M. rewrite Bool.orb_false_r in M. now apply N.eqb_eq in M.
    + exists []. split; [reflexivity|]. split; [intros x []|]. intros q Eq. cbn [app] in Eq. injection Eq as -> _. discriminate M.
Qed.
Lemma hd_options : forall w, up_to_options w (hd [] (split_char 59 w)).
Proof.
  induction w as [|c w [H1 H2]].
  - split; [intros []|now left].
  - cbn [split_char]. destruct (N.eqb_spec c 59) as [->|Hc].
    + cbn [hd]. split; [intros []|]. right. now exists w.
    + destruct (split_char 59 w) as [|p r] eqn:E; [now apply split_char_nonnil in E|]. cbn [hd] in *. split.
      * intros [X|X]; [now apply Hc|now apply H1].
      * destruct H2 as [->|[rest ->]]; [now left|]. right. now exists rest.
Qed.
Lemma C58_source_lemma : forall e s d x, mirrors (st_const s) d ->
  match e_url e (mirrored d x) with
  | None => scr_components e s x = ([], [], [])
  | Some (scheme, host, path) => exists src opts whole, scr_components e s x = (scheme, src, opts) /\
      located host path whole /\ up_to_options whole src
  end.
Proof.
  intros e s d x Hm. rewrite <- (mirrored_eq (st_const s) d x Hm). unfold scr_components.
  destruct (e_url e (replace_mirrors (st_const s) x)) as [[[sch net] path]|]; [|reflexivity].
  do 3 eexists. split; [reflexivity|]. split; [|apply hd_options].
  destruct path as [|c p]; [constructor|]. destruct (lstrip_slashes (c :: p)) as [sl [E [H1 H2]]].
  rewrite E at 1. apply located_path; [exact H1|exact H2|]. rewrite <- E. discriminate.
Qed.

(** ** C66: dynamic packages *)

Lemma dynamic_loop : forall n l b,
  (fix go (l : list str) : Res.res bool :=
     match l with
     | [] => Ok false
     | p :: r => match dyn_pattern p with
                 | None => Raise RegexUnsupported
                 | Some rx => if matched (re_match rx n) then Ok true else go r
                 end
     end) l = Ok b ->
  (b = true <-> exists p rx, In p l /\ dyn_pattern p = Some rx /\ matched (re_match rx n) = true).
Proof.
  intros n l b. induction l as [|p l IH]; intro H.
  - inversion H; subst. split; [discriminate|]. intros [p [rx [[] _]]].
  - destruct (dyn_pattern p) as [rx|] eqn:E; [|discriminate]. destruct (matched (re_match rx n)) eqn:Em.
    + inversion H; subst. split; [|reflexivity]. intros _. exists p, rx. split; [now left|auto].
    + rewrite (IH H). split.
      * intros [q [ry [H1 H2]]]. exists q, ry. split; [now right|exact H2].
      * intros [q [ry [[<-|H1] [H2 H3]]]]; [|now exists q, ry]. rewrite E in H2. inversion H2; subst. congruence.
Qed.

Lemma packages_dynamic_iff : forall e s file ps, env_ok e -> reach e s -> packages_dynamic e s file = Ok ps ->
  forall p, In p ps <-> exists i v l, shown s file "PACKAGES_DYNAMIC" i /\ expand_term e s file (stripped i) = Ok v /\
    cuts blank v l /\ In p l.
Proof.
  intros e s file ps He Hr H p. unfold packages_dynamic in H.
  rewrite (fold_res_collect (fun i => expand_term e s file (stripped i)) stash_linesplit _ _ _ H p). split.
  - intros [[]|[i [v [H1 [H2 H3]]]]]. exists i, v, (stash_linesplit v). split; [apply (shown_iff e); auto; discriminate|].
    split; [exact H2|]. split; [now apply C79_lemma|exact H3].
  - intros [i [v [l [H1 [H2 [H3 H4]]]]]]. right. exists i, v. split; [apply shown_iff; auto; discriminate|].
    split; [exact H2|]. apply C79_lemma in H3. now rewrite H3.
Qed.

Lemma C66_lemma : forall e s file name b, env_ok e -> reach e s -> is_dynamic_package e s file name = Ok b ->
  (b = true <-> exists n i v l p rx, expand_term e s file name = Ok n /\
     shown s file "PACKAGES_DYNAMIC" i /\ expand_term e s file (stripped i) = Ok v /\ cuts blank v l /\ In p l /\
     dyn_pattern p = Some rx /\ matched (re_match rx n) = true).
Proof.
  intros e s file name b He Hr H. unfold is_dynamic_package in H.
  destruct (expand_term e s file name) as [n|ex|] eqn:En; try discriminate. cbn [Res.bind] in H.
  destruct (packages_dynamic e s file) as [ps|ex|] eqn:Ep; try discriminate. cbn [Res.bind] in H.
  rewrite (dynamic_loop _ _ _ H). clear H. pose proof (packages_dynamic_iff e s file ps He Hr Ep) as Hp.
  assert (Hs : forall p, In p (e_sset e ps) <-> In p ps).
  { intro p. destruct He as [_ He]. rewrite <- (dedup_str_In ps p). split; apply Permutation_in; [|apply Permutation_sym]; apply He. }
  split.
  - intros [p [rx [H1 H2]]]. apply Hs in H1. apply Hp in H1. destruct H1 as [i [v [l [H3 [H4 [H5 H6]]]]]].
    exists n, i, v, l, p, rx. tauto.
  - intros [n' [i [v [l [p [rx [H0 [H1 [H2 [H3 [H4 [H5 H6]]]]]]]]]]]]. inversion H0; subst n'. exists p, rx.
    split; [|auto]. apply Hs. apply Hp. now exists i, v, l.
Qed.

Lemma literal_cons : forall c w, literal (c :: w) -> literal w.
Proof. intros c w H x Hx. apply H. now right. Qed.
Lemma literal_plain : forall w, literal w -> Forall plain_char w.
Proof.
  intros w H. apply Forall_forall. intros c Hc Hs. apply (H c Hc). vm_compute in Hs. vm_compute. tauto.
Qed.
Lemma mt_literal : forall w r b s g s', literal w ->
  (mt (lits w r) (MS b s g) s' <-> exists t, s = w ++ t /\ mt r (after b w t g) s').
Proof.
  induction w as [|c w IH]; intros r b s g s' H.
  - cbn [lits app]. split; [intro Hm; now exists s|intros [t [-> Hm]]; exact Hm].
  - assert (Hc : N.eqb c 46 = false).
    { apply N.eqb_neq. intros ->. apply (H 46%N); [now left|]. vm_compute. tauto. }
    cbn [lits app]. unfold lit_or_dot. rewrite Hc, mt_seq_iff. split.
    + intros [s1 [H1 H2]]. apply mt_chr_iff in H1. destruct H1 as [d [t [E1 [E2 E3]]]]. cbn [m_rest m_grp] in *. subst s1 s.
      unfold ch in E2. apply N.eqb_eq in E2. subst d. apply IH in H2; [|now apply literal_cons in H].
      destruct H2 as [t' [-> H2]]. exists t'. split; [reflexivity|]. destruct w; exact H2.
    + intros [t [-> Hm]]. exists (MS false (w ++ t) g). split.
      * apply mt_chr_iff. exists c, (w ++ t). repeat split. unfold ch. apply N.eqb_refl.
      * apply IH; [now apply literal_cons in H|]. exists t. split; [reflexivity|]. destruct w; exact Hm.
Qed.
Lemma literal_no_quant : forall w, literal w -> no_quant (w ++ ".*") /\ no_quant w.
Proof.
  intros w H. destruct w as [|c w].
  - split; [|exact I]. vm_compute. intuition discriminate.
  - assert (Hc : ~ In c [42; 43; 63]%N).
    { intro Hc. apply (H c (or_introl eq_refl)). vm_compute in Hc. vm_compute. tauto. }
    split; exact Hc.
Qed.
Lemma dyn_anchor : forall x r, no_quant x -> dyn_pattern x = Some r -> dyn_pattern ("^" ++ x) = Some (RSeq RBol r).
Proof.
  intros x r Hq H. unfold dyn_pattern in *. change ("^" ++ x) with (94%N :: x). cbn [length].
  remember (S (length x)) as f eqn:Ef. clear Ef. cbn [compile_pat].
  change (N.eqb 94 94) with true. cbv beta iota zeta. rewrite take_quant_none by exact Hq. now rewrite H.
Qed.
Lemma text_entry_lemma : forall w p n, literal w -> text_entry w p -> exists rx, dyn_pattern p = Some rx /\
  (matched (re_match rx n) = true <-> exists t, n = w ++ t).
Proof.
  intros w p n Hw Hp.
  assert (H1 : dyn_pattern w = Some (lits w REps)).
  { pose proof (dyn_lits w [] REps 1 (literal_plain w Hw) I eq_refl (le_n _)) as H. now rewrite app_nil_r in H. }
  assert (H2 : dyn_pattern (w ++ ".*") = Some (lits w (RSeq (RStar true RDot) REps))).
  { apply (dyn_lits w ".*" _ 2 (literal_plain w Hw)); [|reflexivity|cbn; lia]. vm_compute. intuition discriminate. }
  destruct (literal_no_quant w Hw) as [Q2 Q1].
  assert (M1 : forall s', mt (lits w REps) (MS true n []) s' <-> exists t, n = w ++ t /\ s' = after true w t []).
  { intro s'. rewrite mt_literal by exact Hw. split; intros [t [E H]]; exists t; (split; [exact E|]); now apply mt_eps_iff in H || apply mt_eps_iff. }
  assert (M2 : (exists s', mt (lits w (RSeq (RStar true RDot) REps)) (MS true n []) s') <-> exists t, n = w ++ t).
  { split.
    - intros [s' H]. apply mt_literal in H; [|exact Hw]. destruct H as [t [E _]]. now exists t.
    - intros [t E]. exists (after true w t []). apply mt_literal; [exact Hw|]. exists t. split; [exact E|].
      apply mt_seq_iff. exists (after true w t []). split; [constructor|now apply mt_eps_iff]. }
  assert (M3 : (exists s', mt (lits w REps) (MS true n []) s') <-> exists t, n = w ++ t).
  { split.
    - intros [s' H]. apply M1 in H. destruct H as [t [E _]]. now exists t.
    - intros [t E]. exists (after true w t []). apply M1. now exists t. }
  assert (B : forall r, (exists s', mt (RSeq RBol r) (MS true n []) s') <-> exists s', mt r (MS true n []) s').
  { intro r. split.
    - intros [s' H]. apply mt_seq_iff in H. destruct H as [s1 [E H]]. apply mt_bol_iff in E. destruct E as [-> _]. now exists s'.
    - intros [s' H]. exists s'. apply mt_seq_iff. exists (MS true n []). split; [now apply mt_bol_iff|exact H]. }
  destruct Hp as [->|[->|[->| ->]]].
  - eexists. split; [exact H1|]. unfold re_match. now rewrite matched_iff, M3.
  - eexists. split; [exact H2|]. unfold re_match. now rewrite matched_iff, M2.
  - eexists. split; [apply dyn_anchor; [exact Q1|exact H1]|]. unfold re_match. now rewrite matched_iff, B, M3.
  - eexists. split; [apply dyn_anchor; [exact Q2|exact H2]|]. unfold re_match. now rewrite matched_iff, B, M2.
Qed.

(** All entries of one of the common forms. *)
Lemma C66_text_lemma : forall e s file name, env_ok e -> reach e s ->
  (forall i v l p, shown s file "PACKAGES_DYNAMIC" i -> expand_term e s file (stripped i) = Ok v -> cuts blank v l -> In p l ->
     exists w, literal w /\ text_entry w p) ->
  forall b, is_dynamic_package e s file name = Ok b ->
  (b = true <-> exists n i v l p w t, expand_term e s file name = Ok n /\
     shown s file "PACKAGES_DYNAMIC" i /\ expand_term e s file (stripped i) = Ok v /\ cuts blank v l /\ In p l /\
     literal w /\ text_entry w p /\ n = w ++ t).
Proof.
  intros e s file name He Hr Hall b Hb. rewrite (C66_lemma e s file name b He Hr Hb). split.
  - intros [n [i [v [l [p [rx [H0 [H1 [H2 [H3 [H4 [H5 H6]]]]]]]]]]]].
    destruct (Hall i v l p H1 H2 H3 H4) as [w [Hw Hp]]. destruct (text_entry_lemma w p n Hw Hp) as [rx' [E Hm]].
    rewrite H5 in E. inversion E; subst rx'. apply Hm in H6. destruct H6 as [t H6]. exists n, i, v, l, p, w, t. tauto.
  - intros [n [i [v [l [p [w [t [H0 [H1 [H2 [H3 [H4 [H5 [H6 H7]]]]]]]]]]]]]].
    destruct (text_entry_lemma w p n H5 H6) as [rx [E Hm]]. assert (Hx : matched (re_match rx n) = true) by (apply Hm; now exists t). exists n, i, v, l, p, rx. tauto.
Qed.

(** An empty entry matches every name. *)
Lemma C66_empty_lemma : forall e s file name i v l b, env_ok e -> reach e s ->
  shown s file "PACKAGES_DYNAMIC" i -> expand_term e s file (stripped i) = Ok v -> cuts blank v l -> In [] l ->
  is_dynamic_package e s file name = Ok b -> b = true.
Proof.
  intros e s file name i v l b He Hr H1 H2 H3 H4 H. apply (C66_lemma e s file name b He Hr H).
  unfold is_dynamic_package in H. destruct (expand_term e s file name) as [n|ex|] eqn:En; try discriminate.
  exists n, i, v, l, [], REps. do 5 (split; [assumption || reflexivity|]). split; reflexivity.
Qed.

(** ** C80: files of a recipe *)

Lemma items_visible : forall e s f j, env_ok e -> reach e s ->
  In j (get_items_for e s (MkQuery (Some f) ANone ANone ANone false)) <-> In j (st_list s) /\ visible s f j.
Proof.
  intros e s f j He Hr. destruct (C28_lemma e s (MkQuery (Some f) ANone ANone ANone false) He Hr) as [H _]. rewrite H.
  rewrite <- sel_iff, visible_iff. unfold sel, sel_file, sel_class, sel_attr. cbn [q_file q_class q_attr q_val q_nolink norm_arg].
  rewrite !andb_true_r. destruct f; [tauto|]. split; [tauto|]. intros [Hl [E|E]]; [discriminate|tauto].
Qed.
Lemma C80_lemma : forall e s file pattern, env_ok e -> reach e s ->
  (forall p, In p (get_files e s file pattern) <->
     exists u j, shown s file "SRC_URI" u /\ (j = u \/ In j (st_list s) /\ visible s (it_origin u) j) /\
       In p (fs_glob (e_fs e) (dirname (it_origin j) ++ "/*/" ++ pattern))) /\
  StronglySorted lt_str (get_files e s file pattern).
Proof.
  intros e s file pattern He Hr. unfold get_files. cbv zeta.
  set (g := fun x : item => dirname (it_origin x) ++ "/*/" ++ pattern).
  destruct (sorted_set (flat_map (fs_glob (e_fs e)) (dedup_str (map g (vars_named e s file "SRC_URI") ++
    flat_map (fun u => map g (get_items_for e s (MkQuery (Some (it_origin u)) ANone ANone ANone false))) (vars_named e s file "SRC_URI"))))) as [H1 H2].
  split; [|exact H2]. intro p. rewrite H1. clear H1 H2. rewrite in_flat_map. split.
  - intros [q [H1 H2]]. pose proof (proj1 (dedup_str_In _ _) H1) as H1'. clear H1. rename H1' into H1. apply in_app_iff in H1. destruct H1 as [H1|H1].
    + apply in_map_iff in H1. destruct H1 as [u [<- H1]]. exists u, u. split; [apply (shown_iff e); auto; discriminate|]. auto.
    + apply in_flat_map in H1. destruct H1 as [u [H1 H3]]. apply in_map_iff in H3. destruct H3 as [j [<- H3]].
      exists u, j. split; [apply (shown_iff e); auto; discriminate|]. split; [right; now apply (items_visible e)|exact H2].
  - intros [u [j [H1 [H2 H3]]]]. exists (g j). split; [|exact H3]. refine (proj2 (dedup_str_In _ _) _). apply in_app_iff.
    apply (shown_iff e) in H1; [|assumption|assumption|discriminate]. destruct H2 as [->|H2].
    + left. apply in_map_iff. now exists u.
    + right. apply in_flat_map. exists u. split; [exact H1|]. apply in_map_iff. exists j. split; [reflexivity|].
      now apply items_visible.
Qed.
