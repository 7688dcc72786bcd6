(** * What of the constants the parser reads: proofs *)

From Verif Require Import PyStr Regex Patterns PyPath Res Inline Const Item Lines Stash StrFacts Spec_Const ConstFacts Proofs_Const
  HistFacts ReachFacts Shared Proofs_Shared Spec_Reads.

Lemma found_at : forall ks db, found (cval_walk ks db) = match at_path ks db with Some v => v | None => CDict [] end \/
  (exists q k r v, ks = q ++ k :: r /\ at_path q db = Some v /\ ~ is_dict v).
Proof.
  induction ks as [|k ks IH]; intro db; [now left|]. cbn [cval_walk at_path]. destruct db as [s|l|d]; cbn [cval_step bind].
  1,2: right; exists [], k, ks; eexists; repeat split; intros [d' K]; discriminate.
  destruct (dget k d) as [x|] eqn:E.
  - destruct (IH x) as [H|(q & k' & r & v & -> & H1 & H2)]; [now left|]. right. exists (k :: q), k', r, v.
    cbn [at_path]. rewrite E. now repeat split.
  - left. assert (Z : forall l, found (cval_walk l (CDict [])) = CDict []); [|apply Z].
    induction l as [|a l IHl]; [reflexivity|]. cbn [cval_walk cval_step dget bind]. exact IHl.
Qed.
Lemma found_same : forall ps db db' path ks, same_at ps db db' -> In ks ps -> split_char 47 (rstrip "/" path) = ks ->
  found (get_by_path path db') = found (get_by_path path db).
Proof.
  intros ps db db' path ks S Hi Ek. unfold get_by_path. rewrite Ek. destruct (S ks Hi) as (E & R1 & R2).
  destruct (found_at ks db) as [->|(q & k & r & v & K1 & K2 & K3)]; [|destruct (K3 (R1 q k r v K1 K2))].
  destruct (found_at ks db') as [->|(q & k & r & v & K1 & K2 & K3)]; [|destruct (K3 (R2 q k r v K1 K2))].
  now rewrite E.
Qed.
Ltac getter S k := apply (found_same _ _ _ _ k S); [cbn; tauto|vm_compute; reflexivity].

Lemma base_same : forall db db', same_at value_places db db' -> sets_base db' = sets_base db.
Proof. intros db db' S. unfold sets_base, SetsBase. f_equal. getter S (["sets"; "base"] : list str). Qed.
Lemma mirrors_same : forall db db', same_at mirror_places db db' -> mirrors_known db' = mirrors_known db.
Proof. intros db db' S. unfold mirrors_known, MirrorsKnown. getter S (["replacements"; "mirrors"] : list str). Qed.
Lemma images_same : forall db db', same_at image_places db db' ->
  images_classes db' = images_classes db /\ images_variables db' = images_variables db.
Proof.
  intros db db' S. split; unfold images_classes, images_variables, ImagesClasses, ImagesVariables.
  - getter S (["images"; "known-classes"] : list str).
  - getter S (["images"; "known-variables"] : list str).
Qed.
Definition reads_same (a b : cval) : Prop :=
  functions_known b = functions_known a /\ class_ignore b = class_ignore a /\ include_ignore b = include_ignore a /\
  sets_base b = sets_base a.
Lemma add_same : forall db db', same_at add_places db db' -> reads_same db db'.
Proof.
  intros db db' S. repeat split; unfold functions_known, class_ignore, include_ignore, sets_base, FunctionsKnown, ClassIgnore,
    IncludeIgnore, SetsBase.
  - getter S (["functions"; "known"] : list str).
  - getter S (["ignore"; "classes"] : list str).
  - getter S (["ignore"; "include"] : list str).
  - f_equal. getter S (["sets"; "base"] : list str).
Qed.

(** ** AddFile *)

Lemma C131_add_lemma : forall n e path off forced s db, names_ok (st_const s) -> names_ok db ->
  same_at add_places (st_const s) db ->
  exists db', add_file n e path off forced (with_const db s) =
    (fst (add_file n e path off forced s), with_const db' (snd (add_file n e path off forced s))).
Proof.
  intros n e path off forced s db N1 N2 S.
  destruct (sim_add (fun a b => (names_ok a /\ names_ok b) /\ reads_same a b)) with (n := n) (e := e) (path := path)
    (off := off) (forced := forced) (s := s) (db := db) as (db' & E & _).
  - intros a b H. apply H.
  - intros a b H. apply H.
  - intros d1 m1 d2 m2 a a' b b' ((A1 & A2) & G1 & G2 & G3 & G4) D1 D2.
    pose proof (named_alike _ _ _ _ A1 D1) as L1. pose proof (named_alike _ _ _ _ A2 D2) as L2.
    split; [split; [apply L1|apply L2]|].
    destruct (getters_alike _ _ L1) as (X1 & X2 & X3 & _ & _ & X4). destruct (getters_alike _ _ L2) as (Y1 & Y2 & Y3 & _ & _ & Y4).
    unfold reads_same. rewrite X1, X2, X3, X4, Y1, Y2, Y3, Y4. auto.
  - split; [now split|]. now apply add_same.
  - now exists db'.
Qed.

(** ** Values *)

Lemma full_same : forall e s db file v spare seen o, sets_base db = sets_base (st_const s) ->
  expand_term_full e (with_const db s) file v spare seen o = expand_term_full e s file v spare seen o.
Proof.
  intros e s db file v spare seen o Eb. unfold expand_term_full, expand_seen, expand_fuel.
  change (st_list (with_const db s)) with (st_list s). change (st_const (with_const db s)) with db. rewrite Eb.
  now rewrite expand_alike.
Qed.
Lemma C131_values_lemma : forall e s db, same_at value_places (st_const s) db ->
  (forall file v spare seen o, expand_term_full e (with_const db s) file v spare seen o = expand_term_full e s file v spare seen o) /\
  (forall file att val nolink, expand_var e (with_const db s) file att val nolink = expand_var e s file att val nolink) /\
  (forall file strip, valid_package_names e (with_const db s) file strip = valid_package_names e s file strip) /\
  (forall file, packages_dynamic e (with_const db s) file = packages_dynamic e s file) /\
  (forall file name, is_dynamic_package e (with_const db s) file name = is_dynamic_package e s file name).
Proof.
  intros e s db S. pose proof (base_same _ _ S) as Eb.
  assert (T : forall file v, expand_term e (with_const db s) file v = expand_term e s file v) by (intros; now apply term_alike).
  assert (D : forall file, packages_dynamic e (with_const db s) file = packages_dynamic e s file).
  { intro file. unfold packages_dynamic. change (vars_named e (with_const db s)) with (vars_named e s). apply fold_res_ext.
    intros a x. now rewrite T. }
  split; [intros; now apply full_same|]. split; [|split; [|split; [exact D|]]].
  - intros file att val nolink. unfold expand_var. change (expand_var_items e (with_const db s)) with (expand_var_items e s). cbv zeta.
    assert (X : forall fn, fold_res (exp_final_one e (with_const db s) fn) (exp_passes (expand_var_items e s file att val nolink) (exp_init (with_const db s) fn)) [] =
      fold_res (exp_final_one e s fn) (exp_passes (expand_var_items e s file att val nolink) (exp_init s fn)) []).
    { intro fn. unfold exp_init. change (st_const (with_const db s)) with db. rewrite Eb. apply fold_res_ext. intros a x.
      unfold exp_final_one. now rewrite !T. }
    destruct file as [fn|]; [apply X|]. destruct (expand_var_items e s None att val nolink) as [|i l]; [reflexivity|apply X].
  - intros file st. unfold valid_package_names. change (vars_named e (with_const db s)) with (vars_named e s). cbv zeta.
    apply fold_res_ext. intros a x. apply fold_res_ext. intros b y. rewrite full_same by exact Eb. reflexivity.
  - intros file name. unfold is_dynamic_package. rewrite T, D. reflexivity.
Qed.
Lemma C131_uri_lemma : forall e s db, same_at mirror_places (st_const s) db ->
  (forall x, scr_components e (with_const db s) x = scr_components e s x) /\
  (forall file, valid_named_resources e (with_const db s) file = valid_named_resources e s file).
Proof.
  intros e s db S. pose proof (mirrors_same _ _ S) as Em.
  assert (C : forall x, scr_components e (with_const db s) x = scr_components e s x).
  { intro x. unfold scr_components, replace_mirrors. change (st_const (with_const db s)) with db. now rewrite Em. }
  split; [exact C|]. intro file. unfold valid_named_resources. change (vars_named e (with_const db s)) with (vars_named e s). cbv zeta.
  f_equal. apply flat_map_ext. intro i. apply flat_map_ext. intro x. now rewrite C.
Qed.
Lemma C131_image_lemma : forall e s db, same_at image_places (st_const s) db ->
  forall file, is_image e (with_const db s) file = is_image e s file.
Proof.
  intros e s db S file. destruct (images_same _ _ S) as [E1 E2]. unfold is_image.
  change (st_const (with_const db s)) with db. now rewrite E1, E2.
Qed.
