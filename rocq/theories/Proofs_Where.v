(** * Proofs of the properties of paths as they are written *)

From Verif Require Import PyStr PyPath Res Const Item Lines Stash StrFacts ParseFacts HistFacts Spec_Parse Props_Lines Spec_Where.
From Verif Require Import MapFacts ReachFacts.

(** ** Walking *)

Lemma walk_fun : forall d l a, walk d l a -> forall b, walk d l b -> a = b.
Proof.
  intros d l a H. induction H as [d|d x l d' Hx H IH|d x l d' Hx H IH|d x l d' H IH|l d' H IH]; intros b Hb.
  - now inversion Hb.
  - inversion Hb as [|? ? ? ? ? Hb'|? ? ? ? Hx' Hb'|? ? ? ? Hb'|? ? Hb']; subst; try (now apply IH);
      try (destruct Hx' as (? & ? & ? & ?); destruct Hx; contradiction); destruct Hx; discriminate.
  - destruct Hx as (H1 & H2 & H3 & H4).
    inversion Hb as [|? ? ? ? Hx' Hb'|? ? ? ? Hx' Hb'|? ? ? ? Hb'|? ? Hb']; subst; try (now apply IH);
      try (destruct Hx'; contradiction); contradiction.
  - inversion Hb as [|? ? ? ? Hx' Hb'|? ? ? ? Hx' Hb'|? ? ? ? Hb'|? ? Hb']; subst; try (now apply IH);
      try (destruct Hx'; discriminate). destruct Hx' as (? & ? & X & ?). now contradiction X.
  - inversion Hb as [|? ? ? ? Hx' Hb'|? ? ? ? Hx' Hb'|? ? ? ? Hb'|? ? Hb']; subst; try (now apply IH);
      try (destruct Hx'; discriminate). destruct Hx' as (? & ? & X & ?). now contradiction X.
Qed.

Lemma walk_norm : forall l acc, (forall x, In x l -> ~ In 47%N x) -> Forall entry_name acc ->
  exists d, walk acc l d /\ norm_comps true acc l = rev d /\ Forall entry_name d.
Proof.
  induction l as [|x l IH]; intros acc Hl Ha.
  - exists acc. repeat split; [constructor|exact Ha].
  - assert (Hl' : forall y, In y l -> ~ In 47%N y) by (intros y Hy; apply Hl; now right). cbn [norm_comps].
    destruct x as [|c x].
    { destruct (IH acc Hl' Ha) as [d [H1 H2]]. exists d. split; [|exact H2]. apply walk_stay; [now left|exact H1]. }
    cbn [nonempty negb orb]. destruct (str_eqb (c :: x) ".") eqn:Q1; [apply str_eqb_eq in Q1 as E|apply str_eqb_neq in Q1 as E1].
    { destruct (IH acc Hl' Ha) as [d [H1 H2]]. exists d. split; [|exact H2]. apply walk_stay; [now right|exact H1]. }
    destruct (str_eqb (c :: x) "..") eqn:Q2; cbn [negb]; [apply str_eqb_eq in Q2 as E|apply str_eqb_neq in Q2 as E2].
    + rewrite E. destruct acc as [|y acc].
      * destruct (IH [] Hl' Ha) as [d [H1 H2]]. exists d. split; [|exact H2]. now apply walk_top.
      * inversion Ha as [|? ? Hy Ha']; subst. destruct (str_eqb y "..") eqn:Qy.
        { apply str_eqb_eq in Qy. destruct Hy as (_ & _ & Hy & _). contradiction. }
        destruct (IH acc Hl' Ha') as [d [H1 H2]]. exists d. split; [|exact H2]. now apply walk_up.
    + assert (He : entry_name (c :: x)).
      { split; [discriminate|]. split; [exact E1|]. split; [exact E2|]. apply Hl. now left. }
      destruct (IH ((c :: x) :: acc) Hl' (Forall_cons _ He Ha)) as [d [H1 H2]]. exists d. split; [|exact H2].
      apply walk_down; assumption.
Qed.
Lemma walk_app : forall a l b, walk a l b -> forall l' c, walk b l' c -> walk a (l ++ l') c.
Proof.
  intros a l b H. induction H; intros l' c Hc; cbn [app]; [exact Hc|..].
  - apply walk_stay; auto.
  - apply walk_down; auto.
  - apply walk_up; auto.
  - apply walk_top; auto.
Qed.

Lemma pieces_iff : forall p l, pieces p l <-> l = split_char 47 p.
Proof.
  intros p l. split.
  - intros (H1 & -> & H3). symmetry. change ("/" : str) with [47%N]. now apply split_char_join_parts.
  - intros ->. split; [apply split_char_nonnil|]. split; [symmetry; exact (split_char_join 47 p)|].
    intros x Hx. now apply split_char_no_sep in Hx.
Qed.
Lemma split_sep : forall c a b, split_char c (a ++ c :: b) = split_char c a ++ split_char c b.
Proof.
  induction a as [|x a IH]; intro b.
  - cbn [app split_char]. now rewrite N.eqb_refl.
  - cbn [app split_char]. destruct (N.eqb x c); [cbn [app]; now rewrite IH|].
    rewrite IH. destruct (split_char c a) as [|h t] eqn:E; [now apply split_char_nonnil in E|]. reflexivity.
Qed.

(** ** The normalised path *)

Lemma norm_root : forall p, one_root ("/" ++ p) -> exists d, walk [] (split_char 47 ("/" ++ p)) d /\ normpath ("/" ++ p) = place d /\
  Forall entry_name d.
Proof.
  intros p H. destruct (walk_norm (split_char 47 ("/" ++ p)) []) as [d [H1 [H2 H3]]].
  - intros x Hx. now apply split_char_no_sep in Hx.
  - constructor.
  - exists d. split; [exact H1|]. split; [|exact H3]. unfold normpath.
    assert (E : initial_slashes ("/" ++ p) = 1).
    { unfold initial_slashes. change (startswith [cSL] ("/" ++ p)) with true. cbn iota.
      destruct (startswith [cSL; cSL] ("/" ++ p)) eqn:S2; [|reflexivity]. apply startswith_spec in S2. destruct S2 as [q S2].
      destruct (H q S2) as [r Hr]. rewrite S2, Hr. reflexivity. }
    rewrite E. cbn [Nat.ltb Nat.leb repeat app]. change cSL with 47%N. unfold place. cbn [app] in *. rewrite H2. reflexivity.
Qed.
Lemma norm_two : forall p d, walk [] (split_char 47 ("//" ++ p)) d -> (forall r, p <> "/" ++ r) -> normpath ("//" ++ p) = "/" ++ place d.
Proof.
  intros p d H Hp. destruct (walk_norm (split_char 47 ("//" ++ p)) []) as [d' [H1 [H2 _]]].
  - intros x Hx. now apply split_char_no_sep in Hx.
  - constructor.
  - rewrite (walk_fun _ _ _ H _ H1). unfold normpath.
    assert (E : initial_slashes ("//" ++ p) = 2).
    { unfold initial_slashes. change (startswith [cSL] ("//" ++ p)) with true. change (startswith [cSL; cSL] ("//" ++ p)) with true.
      cbn iota. destruct (startswith [cSL; cSL; cSL] ("//" ++ p)) eqn:S2; [|reflexivity]. apply startswith_spec in S2. destruct S2 as [q S2].
      exfalso. apply (Hp q). cbn [app] in S2. now injection S2. }
    rewrite E. cbn [Nat.ltb Nat.leb repeat app]. change cSL with 47%N. unfold place. cbn [app] in *. rewrite H2. reflexivity.
Qed.

Lemma slash_cases : forall p : str, (exists q, p = "/" ++ q) \/ forall q, p <> "/" ++ q.
Proof.
  intros [|c p]; [right; discriminate|]. destruct (N.eq_dec c 47) as [->|H]; [left; now exists p|right].
  intros q E. injection E as -> _. contradiction.
Qed.
Lemma isabs_cases : forall p, isabs p = true <-> exists q, p = "/" ++ q.
Proof. intro p. unfold isabs. rewrite startswith_spec. reflexivity. Qed.


Lemma split_place : forall d, Forall entry_name d -> d <> [] -> split_char 47 (place d) = [] :: rev d.
Proof.
  intros d H Hd. unfold place. change ("/" ++ join "/" (rev d)) with (47%N :: join [47%N] (rev d)).
  cbn [split_char]. rewrite N.eqb_refl. f_equal. apply split_char_join_parts.
  - intro E. apply Hd. rewrite <- (rev_involutive d), E. reflexivity.
  - intros x Hx. apply in_rev in Hx. rewrite Forall_forall in H. apply H in Hx. apply Hx.
Qed.
Lemma walk_names : forall l a, Forall entry_name l -> walk a l (rev l ++ a).
Proof.
  induction l as [|x l IH]; intros a H; [constructor|]. inversion H; subst. apply walk_down; [assumption|].
  cbn [rev]. rewrite <- app_assoc. apply (IH (x :: a)). assumption.
Qed.
Lemma place_not_open : forall d, Forall entry_name d -> d <> [] -> endswith [cSL] (place d) = false.
Proof.
  intros d H Hd. apply Bool.not_true_iff_false. intro E. apply endswith_spec in E. destruct E as [t E].
  assert (X : split_char 47 (t ++ [cSL]) = split_char 47 t ++ [[]]) by (exact (split_sep 47 t [])).
  rewrite <- E, (split_place d H Hd) in X.
  assert (Y : last ([] :: rev d) ("x" : str) = last (split_char 47 t ++ [[]]) ("x" : str)) by (now rewrite X).
  rewrite last_last in Y. destruct d as [|x d]; [contradiction|]. cbn [rev] in Y.
  change ([] :: rev d ++ [x]) with (([] :: rev d) ++ [x]) in Y. rewrite last_last in Y. inversion H as [|? ? Hx ?]; subst.
  destruct Hx as [Hx _]. contradiction.
Qed.
Lemma place_root : forall d t, Forall entry_name d -> d <> [] -> one_root (place d ++ t).
Proof.
  intros d t H Hd q E. exfalso. destruct (rev d) as [|x r] eqn:Er.
  - apply Hd. rewrite <- (rev_involutive d), Er. reflexivity.
  - assert (Hx : entry_name x). { rewrite Forall_forall in H. apply H. apply in_rev. rewrite Er. now left. }
    destruct Hx as (H1 & _ & _ & H4). destruct x as [|c x]; [contradiction|]. apply H4. left.
    unfold place in E. rewrite Er in E. destruct r; cbn [join app] in E; now injection E.
Qed.

Lemma C110_place_lemma : forall w cwd p d, current w cwd -> one_root p -> lies cwd p d -> abspath (fs_cwd w) p = place d.
Proof.
  intros w cwd p d [Hw Hc] Hr H. unfold abspath. rewrite Hw. destruct H as [p l d Hl Hd|p l d Hp Hl Hd].
  - replace (isabs ("/" ++ p)) with true by (symmetry; apply isabs_cases; now exists p).
    destruct (norm_root p Hr) as [d' [H1 [H2 _]]]. rewrite H2. f_equal. apply pieces_iff in Hl. subst l.
    exact (walk_fun _ _ _ H1 _ Hd).
  - destruct (isabs p) eqn:Ea; [apply isabs_cases in Ea; destruct Ea as [q Ea]; now apply Hp in Ea|].
    unfold path_join. change (startswith [cSL] p) with (isabs p). rewrite Ea. apply pieces_iff in Hl. subst l.
    destruct cwd as [|x cwd].
    + change (place []) with ("/" : str). cbn [nonempty negb orb]. change (endswith [cSL] "/") with true. cbn iota.
      destruct (norm_root p) as [d' [H1 [H2 _]]].
      * intros q E. cbn [app] in E. injection E as E. now apply Hp in E.
      * rewrite H2. f_equal. cbn [app split_char] in H1. rewrite N.eqb_refl in H1.
        apply (walk_fun _ _ _ H1). apply walk_stay; [now left|exact Hd].
    + assert (Hx : x :: cwd <> []) by discriminate. rewrite (place_not_open _ Hc Hx).
      replace (negb (nonempty (place (x :: cwd)))) with false by reflexivity. cbn [orb].
      assert (E : place (x :: cwd) ++ [cSL] ++ p = "/" ++ (join "/" (rev (x :: cwd)) ++ [cSL] ++ p)) by reflexivity.
      pose proof (place_root _ ([cSL] ++ p) Hc Hx) as R. rewrite E in R |- *.
      destruct (norm_root _ R) as [d' [H1 [H2 _]]]. rewrite H2. f_equal. rewrite <- E in H1.
      cbn [app] in H1. change cSL with 47%N in H1. rewrite split_sep, (split_place _ Hc Hx) in H1.
      apply (walk_fun _ _ _ H1). cbn [app]. apply walk_stay; [now left|].
      apply (walk_app _ _ (x :: cwd)); [|exact Hd].
      pose proof (walk_names (rev (x :: cwd)) [] (Forall_rev Hc)) as W. rewrite rev_involutive, app_nil_r in W. exact W.
Qed.
Lemma C110_lies_lemma : forall cwd p, Forall entry_name cwd -> exists d, lies cwd p d /\ Forall entry_name d /\
  forall d', lies cwd p d' -> d' = d.
Proof.
  intros cwd p Hc. destruct (slash_cases p) as [[q ->]|Hp].
  - destruct (walk_norm (split_char 47 ("/" ++ q)) []) as [d [H1 [_ H3]]];
      [intros x Hx; now apply split_char_no_sep in Hx|constructor|].
    exists d. split; [apply (lies_absolute _ _ (split_char 47 ("/" ++ q))); [now apply pieces_iff|exact H1]|]. split; [exact H3|].
    intros d' H. inversion H as [p l d0 Hl Hd E|p l d0 Hp Hl Hd]; subst.
    + apply pieces_iff in Hl. subst l. exact (walk_fun _ _ _ Hd _ H1).
    + now contradiction (Hp q).
  - destruct (walk_norm (split_char 47 p) cwd) as [d [H1 [_ H3]]]; [intros x Hx; now apply split_char_no_sep in Hx|exact Hc|].
    exists d. split; [apply (lies_relative _ _ (split_char 47 p)); [exact Hp|now apply pieces_iff|exact H1]|]. split; [exact H3|].
    intros d' H. inversion H as [p' l d0 Hl Hd E|p' l d0 Hp' Hl Hd]; subst.
    + now contradiction (Hp p').
    + apply pieces_iff in Hl. subst l. exact (walk_fun _ _ _ Hd _ H1).
Qed.
Lemma place_inj : forall d d', Forall entry_name d -> Forall entry_name d' -> place d = place d' -> d = d'.
Proof.
  assert (N : forall d, Forall entry_name d -> place d = place [] -> d = []).
  { intros d H E. destruct d as [|x d]; [reflexivity|]. exfalso.
    pose proof (place_not_open _ H ltac:(discriminate)) as X. rewrite E in X. discriminate X. }
  intros d d' H H' E. destruct d as [|x d]; [symmetry; apply N; [exact H'|now symmetry]|].
  destruct d' as [|x' d']; [now apply N|].
  assert (X : [] :: rev (x :: d) = [] :: rev (x' :: d')).
  { rewrite <- !split_place by (assumption || discriminate). now rewrite E. }
  injection X as X. rewrite <- (rev_involutive (x :: d)), <- (rev_involutive (x' :: d')). f_equal. exact X.
Qed.
Lemma C110_apart_lemma : forall w cwd p q d d', current w cwd -> one_root p -> one_root q -> lies cwd p d -> lies cwd q d' ->
  (abspath (fs_cwd w) p = abspath (fs_cwd w) q <-> d = d').
Proof.
  intros w cwd p q d d' Hw Hp Hq H H'. rewrite (C110_place_lemma w cwd p d Hw Hp H), (C110_place_lemma w cwd q d' Hw Hq H').
  split; [|now intros ->]. destruct Hw as [_ Hc]. destruct (C110_lies_lemma cwd p Hc) as [x [_ [Hx Ux]]].
  destruct (C110_lies_lemma cwd q Hc) as [y [_ [Hy Uy]]]. rewrite (Ux _ H), (Uy _ H'). now apply place_inj.
Qed.
Lemma C110_same_lemma : forall e cwd p q d, current (e_fs e) cwd -> one_root p -> one_root q -> lies cwd p d -> lies cwd q d ->
  forall n off forced s, add_file n e p off forced s = add_file n e q off forced s.
Proof.
  intros e cwd p q d Hw Hp Hq H H' n off forced s. destruct n as [|n]; [reflexivity|]. cbn [add_file].
  now rewrite (C110_place_lemma _ cwd p d Hw Hp H), (C110_place_lemma _ cwd q d Hw Hq H').
Qed.

(** ** Origins *)

Definition from_paths (e : env) (p : list item) (s s' : stash) : Prop := forall i, In i (st_list s') ->
  (exists j, In j (st_list s) /\ it_origin j = it_origin i) \/ exists path, it_origin i = abspath (fs_cwd (e_fs e)) path.
Lemma from_paths_add : forall n e path off forced s r s', add_file n e path off forced s = (r, s') -> from_paths e [] s s'.
Proof.
  intros n e path off forced s r s' H.
  assert (Hp : pend none r = []) by (now destruct r). rewrite <- Hp.
  eapply (rel_add_file e (from_paths e)); try exact H; clear.
  - intros s i Hi. left. now exists i.
  - intros p q s1 s2 s3 H1 H2 i Hi. destruct (H2 i Hi) as [[j [Hj E]]|H]; [|now right].
    destruct (H1 j Hj) as [[k [Hk E']]|[path E']].
    + left. exists k. split; [exact Hk|]. now rewrite E'.
    + right. exists path. now rewrite <- E.
  - intros p s s' H. exact H.
  - intros s i _ _ j Hj. left. now exists j.
  - intros s path _ i Hi. left. now exists i.
  - intros s0 s1 path forced items r s' file Ho _ Hg E i Hi. apply leave_cases in E.
    destruct E as [f [l [Hf [El [_ [_ [_ [_ [_ [_ [Hl _]]]]]]]]]]]. rewrite El in Hi. apply in_app_iff in Hi. destruct Hi as [Hi|Hi].
    + apply in_map_iff in Hi. destruct Hi as [j [<- Hj]]. rewrite (raises_it_origin f j Hf). exact (Hg j Hj).
    + right. exists path. destruct Hl as [->|[mx ->]]; [destruct Hi|]. apply in_map_iff in Hi. destruct Hi as [j [<- Hj]].
      rewrite Forall_forall in Ho. exact (Ho j Hj).
Qed.
Lemma parsed_path : forall e i, parsed_item e i -> exists path, it_origin i = abspath (fs_cwd (e_fs e)) path.
Proof.
  intros e i [s [Hs Hi]]. revert i Hi.
  induction Hs as [new neg db|n path off forced s r s' Hs IH E|l s r s' Hs IH E|s r s' Hs IH E|db s Hs IH]; intros i Hi.
  - destruct Hi.
  - apply from_paths_add in E. destruct (E i Hi) as [[j [Hj <-]]|X]; [now apply IH|exact X].
  - apply remove_items_shape in E. destruct E as [E1 _]. apply IH. now apply E1.
  - apply finalize_shape in E. destruct E as [g [mp [Hg [E _]]]]. rewrite E in Hi. cbn in Hi. apply in_map_iff in Hi.
    destruct Hi as [j [<- Hj]]. destruct (Hg j) as [v ->]. destruct (IH j Hj) as [p Ep]. now exists p.
  - now apply IH.
Qed.
Lemma abspath_form : forall w cwd p, current w cwd -> exists d, Forall entry_name d /\
  (abspath (fs_cwd w) p = place d \/ abspath (fs_cwd w) p = "/" ++ place d).
Proof.
  intros w cwd p Hw. pose proof Hw as [_ Hc]. destruct (C110_lies_lemma cwd p Hc) as [d [Hl [Hd _]]]. exists d. split; [exact Hd|].
  assert (D : one_root p \/ exists q, p = "//" ++ q /\ forall r, q <> "/" ++ r).
  { destruct p as [|c p]; [left; discriminate|]. destruct p as [|c' p]; [left; discriminate|].
    destruct (slash_cases p) as [[r ->]|H].
    - left. intros q E. cbn [app] in E. injection E as _ _ E. exists r. symmetry. exact E.
    - destruct (N.eq_dec c 47) as [->|Hn]; [|left; intros q E; now injection E].
      destruct (N.eq_dec c' 47) as [->|Hn]; [|left; intros q E; now injection E].
      right. now exists p. }
  destruct D as [D|[q [-> Hq]]]; [left; now apply (C110_place_lemma w cwd)|]. right. unfold abspath.
  change (isabs ("//" ++ q)) with true. cbn iota. apply norm_two; [|exact Hq].
  inversion Hl as [p l d0 Hp Hw' E|p l d0 Hp _ _]; subst; [|now contradiction (Hp ("/" ++ q))].
  apply pieces_iff in Hp. subst l. exact Hw'.
Qed.
Lemma C110_origin_lemma : forall e cwd i, current (e_fs e) cwd -> parsed_item e i -> exists d, Forall entry_name d /\
  (it_origin i = place d \/ it_origin i = "/" ++ place d).
Proof.
  intros e cwd i Hw Hi. destruct (parsed_path e i Hi) as [p ->]. now apply (abspath_form (e_fs e) cwd).
Qed.

Lemma C110_items_origin : forall e n path off forced s l s' i, add_file n e path off forced s = (Ok l, s') -> In i l ->
  it_origin i = abspath (fs_cwd (e_fs e)) path.
Proof.
  intros e n path off forced s l s' i H Hi. pose proof (C04_lemma _ _ _ _ _ _ _ _ H) as O. rewrite Forall_forall in O.
  exact (proj1 (O i Hi)).
Qed.
Lemma C110_items_lemma : forall e cwd path d n off forced s l s' i, current (e_fs e) cwd -> one_root path -> lies cwd path d ->
  add_file n e path off forced s = (Ok l, s') -> In i l -> it_origin i = place d.
Proof.
  intros e cwd path d n off forced s l s' i Hw Hp Hl H Hi. rewrite (C110_items_origin _ _ _ _ _ _ _ _ _ H Hi).
  now apply (C110_place_lemma _ cwd).
Qed.
