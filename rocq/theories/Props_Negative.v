(** * Property C134: negative_inline *)

From Verif Require Import PyStr Regex Patterns PyPath Res Inline Const Item Lines Stash Demo StrFacts Spec_Query Spec_Negative Proofs_Negative.

(** If no file contains one of the helpers that the parser knows, AddFile does the
    same with and without negative_inline: for every file, for whatever it pulls in
    and in whatever stash, it returns the same items, or raises the same, and leaves
    the same behind. *)
Theorem C134_add : forall n e g g' path off forced s s', no_helpers e -> differ_in_switch g g' s s' ->
  fst (add_file n e path off forced s') = fst (add_file n e path off forced s) /\
  differ_in_switch g g' (snd (add_file n e path off forced s)) (snd (add_file n e path off forced s')).
Proof. exact C134_add_lemma. Qed.
Print Assumptions C134_add.

(** So do any number of files, and Finalize; the fingerprints differ only in the
    entry of the switch itself. *)
Theorem C134_history : forall n e new db ps, no_helpers e ->
  let g := [bool_str new ++ ":" ++ bool_str false] in let g' := [bool_str new ++ ":" ++ bool_str true] in
  let s := add_all n e ps (new_stash new false db) in let s' := add_all n e ps (new_stash new true db) in
  differ_in_switch g g' s s' /\
  fst (finalize e s') = fst (finalize e s) /\ differ_in_switch g g' (snd (finalize e s)) (snd (finalize e s')).
Proof. exact C134_history_lemma. Qed.
Print Assumptions C134_history.

(** Queries and values do not depend on the switch at all. *)
Theorem C134_answers : forall e g g' s s', differ_in_switch g g' s s' ->
  (forall q, get_items_for e s' q = get_items_for e s q) /\
  (forall file v spare seen o, expand_term_full e s' file v spare seen o = expand_term_full e s file v spare seen o) /\
  (forall file att val nolink, expand_var e s' file att val nolink = expand_var e s file att val nolink) /\
  (forall file strip, valid_package_names e s' file strip = valid_package_names e s file strip) /\
  (forall file, valid_named_resources e s' file = valid_named_resources e s file) /\
  (forall file, is_image e s' file = is_image e s file).
Proof. exact sw_answers. Qed.
Print Assumptions C134_answers.

(** ** An example: inline code of other kinds, and an included file *)

Definition ng_files : list (str * str) :=
  [("/w/a.bb", "A = ""${@d.getVar('B')} ${@foo(d)}""" ++ nl ++ "require i.inc" ++ nl); ("/w/i.inc", "B = ""1""" ++ nl)].
Definition ng_env : env := demo_env ng_files ["/w"; "/"].
Lemma ng_ok : no_helpers ng_env.
Proof.
  assert (F : forallb (fun kv => negb (contains ".utils." (snd kv))) ng_files = true) by (vm_compute; reflexivity).
  intros p t H. cbn [ng_env demo_env e_fs] in H. unfold demo_fs in H. cbn [fs_read] in H.
  destruct (dget p ng_files) as [u|] eqn:E; [|discriminate]. injection H as <-. apply dget_In in E.
  rewrite forallb_forall in F. specialize (F _ E). apply negb_true_iff in F. exact (proj1 (contains_false _ _) F).
Qed.
Notation ng_run b := (add_all 3 ng_env ["a.bb"] (new_stash false b no_const)).
Example C134_case : no_helpers ng_env /\
  map (fun i => (it_origin i, it_raw i)) (st_list (ng_run true)) =
    [("/w/i.inc", "B = ""1""" ++ nl); ("/w/a.bb", "A = ""${B} !!!inlineblock!!!""" ++ nl); ("/w/a.bb", "require i.inc" ++ nl)] /\
  st_fp (ng_run true) <> st_fp (ng_run false).
Proof. split; [apply ng_ok|]. split; [vm_compute; reflexivity|vm_compute; discriminate]. Qed.

(** With a helper the switch matters. *)
Example C134_helper :
  let e := demo_env [("/w/a.bb", "A = ""${@bb.utils.contains('a', 'b', 'c', 'd', d)}""" ++ nl)] ["/w"; "/"] in
  map it_raw (st_list (add_all 2 e ["a.bb"] (new_stash false true no_const))) = ["A = ""d""" ++ nl] /\
  map it_raw (st_list (add_all 2 e ["a.bb"] (new_stash false false no_const))) = ["A = ""c""" ++ nl].
Proof. vm_compute. split; reflexivity. Qed.
