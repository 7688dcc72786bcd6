(** * Proofs about searches for included files and classes *)

From Verif Require Import PyStr Regex PyPath Res Inline Const Item Lines Stash StrFacts HistFacts ReachFacts Spec_Parse Spec_Group
  Spec_Expand Spec_Include Spec_Paths Proofs_Paths Spec_Load Proofs_Load Spec_Search.

Lemma join_length : forall cs, comps cs -> length cs <= length (join "/" cs).
Proof.
  induction cs as [|c cs IH]; intro H; [cbn; lia|].
  assert (Hc : 1 <= length c) by (destruct (H c (or_introl eq_refl)) as [Hn _]; destruct c; [congruence|cbn; lia]).
  assert (Hcs : comps cs) by (intros x Hx; apply H; now right). specialize (IH Hcs).
  destruct cs as [|d cs]; [cbn [length join] in *; lia|].
  change (join "/" (c :: d :: cs)) with (c ++ "/" ++ join "/" (d :: cs)). rewrite !app_length. cbn [length] in *. lia.
Qed.

Lemma lookup_found : forall e cs name p, comps cs -> lookup e (cpath cs) name p <-> found (e_fs e) cs name p.
Proof.
  intros e cs name p Hc. unfold lookup.
  assert (Hn : length cs < S (length (cpath cs))).
  { pose proof (join_length cs Hc). unfold cpath. rewrite app_length. lia. }
  destruct (C26_lemma (e_fs e) cs name (S (length (cpath cs))) Hc Hn) as [H1 H2]. split.
  - intro H. destruct (fs_exists (e_fs e) (path_join (cpath cs) name)) eqn:E.
    + rewrite (H1 eq_refl) in H. inversion H; subst. now apply found_here.
    + destruct (H2 eq_refl) as [[ds [L F]]|[L F]]; rewrite F in H; inversion H; subst.
      * destruct (fs_exists (e_fs e) (path_join (cpath ds) name)) eqn:E2; [now apply found_layer|now apply (not_in_layer _ _ _ ds)].
      * now apply no_layer.
  - intro H. destruct H as [E|ds E L E2|ds E L E2|E L].
    + exact (H1 E).
    + destruct (H2 E) as [[ds2 [L2 F]]|[L2 F]]; [|contradiction (L2 ds L)]. rewrite (layer_at_unique _ _ _ _ L2 L) in F. now rewrite E2 in F.
    + destruct (H2 E) as [[ds2 [L2 F]]|[L2 F]]; [|contradiction (L2 ds L)]. rewrite (layer_at_unique _ _ _ _ L2 L) in F. now rewrite E2 in F.
    + destruct (H2 E) as [[ds2 [L2 F]]|[L2 F]]; [contradiction (L ds2 L2)|exact F].
Qed.

Lemma class_found_at : forall e cs locs w p, comps cs -> class_found e (cpath cs) locs w p <-> class_at (e_fs e) cs locs w p.
Proof.
  intros e cs locs w p Hc. split; intros (a & loc & b & H1 & H2 & H3 & H4); exists a, loc, b; (split; [exact H1|]);
    (split; [now apply lookup_found|]); (split; [exact H3|]); intros x Hx; apply lookup_found; auto.
Qed.

Lemma C92_found_lemma : forall n e path off forced s r s' i nm st p cs f, reach e s ->
  add_file n e path off forced s = (r, s') -> added s s' i -> it_pay i = PInclude nm st p -> plain_text nm ->
  comps (cs ++ [f]) -> it_origin i = cpath (cs ++ [f]) -> found (e_fs e) cs nm p.
Proof.
  intros n e path off forced s r s' i nm st p cs f Hr H Ha Hp Ht Hc Ho. pose proof Hc as Hc2. apply comps_app in Hc2. destruct Hc2 as [Hcs _].
  pose proof (C92_include_lemma n e path off forced s r s' i nm st p Hr H Ha Hp Ht) as L. rewrite Ho, dirname_cpath in L by exact Hc.
  now apply lookup_found.
Qed.

Lemma C92_class_lemma : forall n e path off forced s r s' i cl st paths ws cs f, reach e s ->
  add_file n e path off forced s = (r, s') -> added s s' i -> it_pay i = PInherit cl st paths ->
  plain_text cl -> words ws cl -> cval_contains cl (class_ignore (st_const s)) = false ->
  comps (cs ++ [f]) -> it_origin i = cpath (cs ++ [f]) ->
  forall p, In p paths <-> exists w, In w ws /\ class_at (e_fs e) cs (class_dirs st) w p.
Proof.
  intros n e path off forced s r s' i cl st paths ws cs f Hr H Ha Hp Ht Hw Hig Hc Ho p. pose proof Hc as Hc2. apply comps_app in Hc2. destruct Hc2 as [Hcs _].
  pose proof (C92_inherit_lemma n e path off forced s r s' i cl st paths ws Hr H Ha Hp Ht Hw Hig p) as L. rewrite Ho, dirname_cpath in L by exact Hc.
  rewrite L. split; intros [w [H1 H2]]; exists w; (split; [exact H1|]); now apply class_found_at.
Qed.
