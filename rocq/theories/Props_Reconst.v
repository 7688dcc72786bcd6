(** * Theorems about constants changed between calls *)

From Verif Require Import PyStr Regex Patterns PyPath Res Inline Const Item Lines Stash
  StrFacts Demo ReachFacts Cache Spec_Cache Proofs_Cache Reconst Spec_Reconst Proofs_Reconst.

(** ** C130 *)

(** Missing are the restrictions of C33, and IsImage asked again for a file
    whose answer the new constants change; the latter is false, see
    [C130_refuted]. *)
Theorem C130_constants_partial : forall e nw neg db l, env_ok e -> known e true [] [] (new_stash nw neg db) l ->
  fst (kacts_c e l (new_stash nw neg db, no_tables)) = fst (plain_kacts e l (new_stash nw neg db)).
Proof. exact C130_lemma. Qed.
Print Assumptions C130_constants_partial.

(** A recipe that inherits a class for images that is not yet known, and one
    that inherits another class. *)
Definition rc_env : env := demo_env
  [("/w/a.bb", "inherit my-image" ++ nl); ("/w/b.bb", "inherit other" ++ nl)] ["/w"; "/"].
Definition rc_db : cval := CDict [("images", CDict [("known-classes", CList ["image"]); ("known-variables", CList [])])].
Definition rc_new : cval := CDict [("images", CDict [("known-classes", CList ["my-image"])])].
Definition rc_start : stash := new_stash false true rc_db.
Definition rc_add (p : str) : kact := KDo (CAdd 4 p 0 None).
Definition rc_acts : list kact :=
  [rc_add "/w/a.bb"; rc_add "/w/b.bb"; KDo (CImage "/w/b.bb"); KDo (CGroup "/w/a.bb"); KAdd rc_new; KDo (CImage "/w/b.bb");
   KDo (CImage "/w/a.bb"); KDo CRecipes; KRemove rc_new; KDo (CGroup "/w/a.bb"); KDo (CImage "/w/b.bb")].

Example C130_case : env_ok rc_env /\ known rc_env true [] [] rc_start rc_acts /\
  skipn 2 (fst (kacts_c rc_env rc_acts (rc_start, no_tables))) =
    [RBool false; RBool false; RDone (Ok tt); RBool false; RBool true; RStrs ["/w/a.bb"; "/w/b.bb"]; RDone (Ok tt); RBool false; RBool false].
Proof.
  split; [apply demo_env_ok|]. split; [|vm_compute; reflexivity].
  assert (Kn : forall p s, returns_early rc_env p s = false -> ~ known_file rc_env p s)
    by (intros p s H K; apply early_iff in K; congruence).
  unfold rc_acts, rc_add.
  eapply known_add; [vm_compute; reflexivity|apply Kn; vm_compute; reflexivity|].
  eapply known_add; [vm_compute; reflexivity|apply Kn; vm_compute; reflexivity|].
  apply known_image; [intros []|].
  apply known_query; [exact I|discriminate|discriminate|].
  apply (known_change _ _ _ _ []); [exact I|intros f [<-|[]] _; split; [intros []|vm_compute; reflexivity]|].
  apply known_image; [intros []|]. apply known_image; [intros []|].
  apply known_query; [exact I|discriminate|discriminate|].
  apply (known_change _ _ _ _ ["/w/a.bb"]); [exact I| |].
  { intros f [<-|[<-|[<-|[]]]] Hn; (split; [intros []|]); try (vm_compute; reflexivity). exfalso. apply Hn. now left. }
  apply known_query; [exact I|discriminate|discriminate|].
  apply known_image; [intros [X|[]]; discriminate|]. apply known_end.
Qed.

(** IsImage keeps its answer although the class of the recipe has become one of
    the known classes for images. *)
Theorem C130_refuted : exists e db f d, env_ok e /\
  let l := [KDo (CAdd 4 f 0 None); KDo (CImage f); KAdd d; KDo (CImage f)] in
  nth_error (fst (kacts_c e l (new_stash false true db, no_tables))) 3 = Some (RBool false) /\
  nth_error (fst (plain_kacts e l (new_stash false true db))) 3 = Some (RBool true).
Proof.
  exists rc_env, rc_db, "/w/a.bb", rc_new. split; [apply demo_env_ok|]. cbv zeta.
  split; vm_compute; reflexivity.
Qed.
Print Assumptions C130_refuted.
