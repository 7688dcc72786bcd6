(** * Property C133: Finalize only adds *)

From Verif Require Import PyStr Regex Patterns PyPath Res Inline Const Item Lines Stash Demo
  StrFacts ReachFacts Spec_Query Spec_Files Spec_Finalize Props_Files Proofs_Finalize.

(** Whether Finalize succeeds or not: every item stays in its place, with
    everything it says; only IncludedFrom grows.  Of the stash only the items and
    the links change. *)
Theorem C133_items : forall e s r s', finalize e s = (r, s') ->
  Forall2 only_included (st_list s) (st_list s') /\ s' = with_map (st_map s') (with_list (st_list s') s).
Proof. exact C133_items_lemma. Qed.
Print Assumptions C133_items.

(** No file is forgotten and no link is lost. *)
Theorem C133_links : forall e s r s', env_ok e -> finalize e s = (r, s') ->
  dkeys (st_map s') = dkeys (st_map s) /\ forall f x, linked s f x -> linked s' f x.
Proof. exact C133_links_lemma. Qed.
Print Assumptions C133_links.

(** What a query gave it still gives; a query that does not follow links gives
    nothing else. *)
Theorem C133_queries : forall e s r s' q, env_ok e -> reach e s -> finalize e s = (r, s') ->
  (forall i, In i (get_items_for e s q) -> exists j, In j (get_items_for e s' q) /\ only_included i j) /\
  (without_links q -> forall j, In j (get_items_for e s' q) -> exists i, In i (get_items_for e s q) /\ only_included i j).
Proof. exact C133_queries_lemma. Qed.
Print Assumptions C133_queries.

(** The lists of files stay; bbappends can only cease to be lone. *)
Theorem C133_files : forall e s r s', env_ok e -> reach e s -> finalize e s = (r, s') ->
  get_recipes s' = get_recipes s /\ get_conf_files e s' = get_conf_files e s /\ get_bbclasses s' = get_bbclasses s /\
  incl (get_lone_appends s') (get_lone_appends s).
Proof. exact C133_files_lemma. Qed.
Print Assumptions C133_files.

(** ** An example: a recipe, its includes and a bbappend *)

Definition z_stash : stash := f_add ["a.bb"; "foo_1.0.bb"; "foo_%.bbappend"].
Lemma z_reach : reach f_env z_stash.
Proof.
  assert (G : forall l s, reach f_env s -> reach f_env (fold_left (fun s p => snd (add_file 6 f_env p 0 None s)) l s)).
  { induction l as [|p l IH]; intros s (nw & neg & db & H); [now exists nw, neg, db|]. cbn [fold_left]. apply IH.
    exists nw, neg, db. eapply steps_add; [exact H|apply surjective_pairing]. }
  apply G. exists false, false, no_const. apply steps_refl.
Qed.
Definition seen_for (s : stash) (f : str) : list str := map it_origin (get_items_for f_env s (file_query f)).
Example C133_case : env_ok f_env /\ reach f_env z_stash /\
  seen_for z_stash "/w/a.bb" = ["/w/a.bb"; "/w/b.inc"; "/w/c.inc"; "/w/a.bb"; "/w/a.bb"] /\
  seen_for (snd (finalize f_env z_stash)) "/w/a.bb" = ["/w/a.bb"; "/w/b.inc"; "/w/c.inc"; "/w/a.bb"; "/w/d.inc"; "/w/a.bb"].
Proof. split; [apply f_env_ok|]. split; [apply z_reach|]. vm_compute. split; reflexivity. Qed.
