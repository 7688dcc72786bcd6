(** * Property C62: files that have nothing to do with another one *)

From Verif Require Import PyStr Regex Patterns PyPath Res Inline Const Item Lines Stash Demo
  StrFacts NameFacts HistFacts ReachFacts QueryFacts Spec_Query Spec_Files Proofs_Files Props_Files
  Spec_Load Spec_Causes Proofs_Causes Props_Causes Spec_Apart Proofs_Apart.

(** If none of the files that AddFile may have read has anything to do with [f],
    all queries for [f] give the same answer as before: the same items in the
    same order, with the same lines. *)
Theorem C62_apart : forall n e path off forced s l s' f c a v nolink,
  add_file n e path off forced s = (Ok l, s') -> f <> [] -> forced <> Some f ->
  (forall x, comes e s s' path x -> foreign s f x) ->
  get_items_for e s' (MkQuery (Some f) c a v nolink) = get_items_for e s (MkQuery (Some f) c a v nolink).
Proof. exact C62_apart_lemma. Qed.
Print Assumptions C62_apart.

(** A recipe with a bbappend, to which another recipe with nested includes is added. *)
Notation ap_1 := (add_file 6 f_env "/w/foo_%.bbappend" 0 None demo_stash).
Notation ap_2 := (add_file 6 f_env "/w/foo_1.0.bb" 0 None (snd ap_1)).
Notation ap_3 := (add_file 6 f_env "/w/a.bb" 0 None (snd ap_2)).
Definition ap_files (e : env) (s s' : stash) (path : str) : list str :=
  abspath (fs_cwd (e_fs e)) path ::
  flat_map (fun i => if st_next s <=? it_id i then map (abspath (fs_cwd (e_fs e))) (ca_names i) else []) (st_list s').
Lemma ap_comes : forall e s s' path x, comes e s s' path x -> In x (ap_files e s s' path).
Proof.
  intros e s s' path x H. destruct H as [|i p Hi Hn Hp]; [now left|]. right. apply in_flat_map. exists i. split; [exact Hi|].
  apply Nat.leb_le in Hn. rewrite Hn. apply in_map. unfold names_file in Hp. unfold ca_names.
  destruct (it_pay i); try contradiction; first [exact Hp|destruct Hp as [-> _]; now left].
Qed.
Lemma tame_of : forall n, forallb (fun c => negb (existsb (N.eqb c) ("^$\()[]{}|*+?" : str))) n = true -> contains ".bbappend" n = false -> tame n.
Proof.
  intros n H1 H2. split.
  - intros c Hc Hs. rewrite forallb_forall in H1. specialize (H1 c Hc). apply negb_true_iff in H1.
    assert (T : existsb (N.eqb c) ("^$\()[]{}|*+?" : str) = true); [|congruence]. apply existsb_exists. exists c. split; [exact Hs|apply N.eqb_refl].
  - now apply contains_false.
Qed.
Definition other (c : N) (b : str) : bool :=
  negb (startswith [c] b) && negb (contains ".bb" (firstn (length b - 3) b)).
Lemma other_letter : forall c n x k, c <> 46%N -> c <> 37%N -> basename x = (c :: n) ++ ".bbappend" -> tame (c :: n) ->
  other c (basename k) = true -> ~ answers x k.
Proof.
  intros c n x k H1 H2 E Ht Hk [m [Em H]]. rewrite E in Em. apply app_inv_tail in Em. subst m.
  apply andb_true_iff in Hk. destruct Hk as [Hk Hs]. apply negb_true_iff in Hk, Hs.
  assert (Hl : forall u r, like (c :: n) u -> basename k <> u ++ r).
  { intros u r Hu Eb. assert (T : startswith [c] (basename k) = true); [|congruence]. rewrite Eb.
    inversion Hu; subst; [apply startswith_spec; eexists; reflexivity|now elim H1|now elim H2]. }
  destruct (H Ht) as [(u & d & z & En & Hu & _)|(v & En & Hv)]; [exact (Hl u _ Hu En)|].
  rewrite En, app_length, firstn_app in Hs. cbn [length] in Hs.
  replace (length v + 3 - 3) with (length v) in Hs by lia. rewrite Nat.sub_diag, firstn_all in Hs. cbn [firstn] in Hs. rewrite app_nil_r in Hs.
  destruct (Hv (proj1 (contains_false ".bb" v) Hs)) as (u & t & -> & Hu). apply (Hl u (t ++ ".bb") Hu). now rewrite En, app_assoc.
Qed.
(** The second recipe and its includes have names that start with another letter. *)
Lemma ap_foreign : forall e s s' path f ys c n y, dget f (st_map s) = Some [y] -> f <> y ->
  ys = ap_files e s s' path ->
  forallb (fun x => negb (str_eqb x f) && negb (str_eqb x y) && negb (endswith ".bbappend" x) && other c (basename x)) ys = true ->
  endswith ".bbappend" f = false -> basename y = (c :: n) ++ ".bbappend" -> c <> 46%N -> c <> 37%N -> tame (c :: n) ->
  forall x, comes e s s' path x -> foreign s f x.
Proof.
  intros e s s' path f ys c n y Ef Hfy -> Hall Hf Ey H1 H2 Ht x Hx. apply ap_comes in Hx.
  rewrite forallb_forall in Hall. specialize (Hall x Hx). apply andb_true_iff in Hall. destruct Hall as [Hall Ho].
  apply andb_true_iff in Hall. destruct Hall as [Hall Hb]. apply andb_true_iff in Hall. destruct Hall as [Hxf Hxy].
  apply negb_true_iff in Hb, Hxf, Hxy.
  assert (Hsh : forall z, shown_for s f z -> z = f \/ z = y).
  { intros z [->|[l [El Hz]]]; [now left|]. right. rewrite Ef in El. injection El as <-. destruct Hz as [->|[]]. reflexivity. }
  split; [|split].
  - intro H. apply Hsh in H. destruct H as [->| ->]; [rewrite str_eqb_refl in Hxf|rewrite str_eqb_refl in Hxy]; discriminate.
  - now apply no_answer.
  - intros z Hz. apply Hsh in Hz. destruct Hz as [->| ->]; [now apply no_answer|]. now apply (other_letter c n).
Qed.
Lemma ap_map : dget "/w/foo_1.0.bb" (st_map (snd ap_2)) = Some ["/w/foo_%.bbappend"].
Proof. vm_compute. reflexivity. Qed.
Lemma ap_names : ap_files f_env (snd ap_2) (snd ap_3) "/w/a.bb" = ["/w/a.bb"; "/w/e.inc"; "/w/d.inc"; "/w/b.inc"; "/w/c.inc"].
Proof. vm_compute. reflexivity. Qed.
Lemma ap_ok : ap_3 = (Ok (ok_items ap_3), snd ap_3).
Proof. vm_compute. reflexivity. Qed.
Lemma ap_tame : tame "foo_%".
Proof. apply tame_of; vm_compute; reflexivity. Qed.
Example C62_apart_case : get_items_for f_env (snd ap_3) (ca_q "/w/foo_1.0.bb") = get_items_for f_env (snd ap_2) (ca_q "/w/foo_1.0.bb").
Proof.
  exact (C62_apart 6 f_env "/w/a.bb" 0 None (snd ap_2) (ok_items ap_3) (snd ap_3) "/w/foo_1.0.bb" ANone ANone ANone false
    ap_ok ltac:(discriminate) ltac:(discriminate)
    (ap_foreign f_env (snd ap_2) (snd ap_3) "/w/a.bb" "/w/foo_1.0.bb" _ 102%N "oo_%" "/w/foo_%.bbappend" ap_map
       ltac:(discriminate) (eq_sym ap_names) eq_refl eq_refl eq_refl ltac:(discriminate) ltac:(discriminate) ap_tame)).
Qed.
(** The answer is not empty: two items of the recipe and one of the bbappend. *)
Example C62_apart_shown : map it_origin (get_items_for f_env (snd ap_3) (ca_q "/w/foo_1.0.bb")) =
  ["/w/foo_1.0.bb"; "/w/foo_1.0.bb"; "/w/foo_%.bbappend"] /\ length (st_list (snd ap_3)) = 10.
Proof. split; vm_compute; reflexivity. Qed.
