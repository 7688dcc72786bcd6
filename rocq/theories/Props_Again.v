(** * Properties C121 and C122: expanding twice, and names that are to stay *)

From Verif Require Import PyStr Regex Patterns PyPath Res Inline Const Item Lines Stash Demo StrFacts
  ReachFacts Spec_Query Spec_Expand Spec_Again Proofs_Expand Proofs_Again Props_Expand.

(** A recipe with a reference behind another one, and a text that begins with a
    brace. *)
Definition g_env : env := demo_env [("/w/rec_1.bb", "A = ""${B}/x""" ++ nl ++ "B = ""${NO} b""" ++ nl ++ "P = ""${PN}-p""" ++ nl ++ "X = ""{PN}""" ++ nl)] ["/w"; "/"].
Definition g_stash : stash := snd (add_file 4 g_env "/w/rec_1.bb" 0 None demo_stash).
Lemma g_ok : env_ok g_env. Proof. apply demo_env_ok. Qed.
Lemma g_reach : reach g_env g_stash.
Proof. exists false, false, no_const. eapply steps_add; [apply steps_refl|apply surjective_pairing]. Qed.
Definition g_file : str := "/w/rec_1.bb".

(** ** C121 *)

(** Missing are texts with several dollar signs in a row or one at the end, names
    with dollar signs, variables that refer to each other and inline code; with
    the first it is false, see [C121_refuted]. *)
Theorem C121_again_partial : forall e s file, env_ok e -> reach e s ->
  exists known, (forall n, n <> [] -> stands_for s file n (known n)) /\
  forall spare v w, no_code v -> no_code w -> expands known (fun n => dget n (builtins file)) spare v w ->
    expand_term_full e s file v spare [] None = Ok w /\ expand_term_full e s file w spare [] None = Ok w.
Proof. exact C121_lemma. Qed.
Print Assumptions C121_again_partial.

Example C121_case : no_code "${A} ${PN}$x" /\ no_code "${NO} b/x rec$x" /\
  expands (ExpandFacts.content_of g_env g_stash g_file) (fun n => dget n (builtins g_file)) [] "${A} ${PN}$x" "${NO} b/x rec$x" /\
  expand_term g_env g_stash g_file "${A} ${PN}$x" = Ok "${NO} b/x rec$x".
Proof.
  split; [split; reflexivity|]. split; [split; reflexivity|]. split; [|vm_compute; reflexivity].
  apply (ex_known _ _ [] "A" "${B}/x" "${NO} b/x" " ${PN}$x" " rec$x"); [plain|intros []|vm_compute; reflexivity|split; reflexivity| |].
  - apply (ex_known _ _ [] "B" "${NO} b" "${NO} b" "/x" "/x"); [plain|intros []|vm_compute; reflexivity|split; reflexivity| |ex_text].
    apply (ex_unknown _ _ [] "NO" " b" " b"); [plain|intros []|vm_compute; reflexivity|vm_compute; reflexivity|ex_text].
  - ex_text. apply (ex_builtin _ _ [] "PN" "rec" "$x" "$x"); [plain|intros []|vm_compute; reflexivity|vm_compute; reflexivity|cbv; intuition discriminate|].
    apply ex_dollar; [discriminate|discriminate|ex_text].
Qed.

(** A dollar sign in front of a value that begins with a brace. *)
Theorem C121_refuted : exists e s file v w z, env_ok e /\ reach e s /\ no_code v /\ no_code w /\
  expand_term e s file v = Ok w /\ expand_term e s file w = Ok z /\ z <> w.
Proof.
  exists g_env, g_stash, g_file, "$${X}", "${PN}", "rec". split; [apply g_ok|]. split; [apply g_reach|].
  split; [split; reflexivity|]. split; [split; reflexivity|].
  split; [vm_compute; reflexivity|]. split; [vm_compute; reflexivity|discriminate].
Qed.
Print Assumptions C121_refuted.

(** ** C122 *)

(** Missing are definitions that refer to the names in spare; false, see
    [C122_refuted]. *)
Theorem C122_spare_partial : forall e s file, env_ok e -> reach e s ->
  exists known, (forall n, n <> [] -> stands_for s file n (known n)) /\
  forall spare v w, no_code v -> (forall n c, n <> [] -> known n = Some c -> free_of spare c) ->
    expands (hide spare known) (hide spare (fun n => dget n (builtins file))) [] v w ->
    expand_term_full e s file v spare [] None = Ok w.
Proof. exact C122_lemma. Qed.
Print Assumptions C122_spare_partial.

Lemma g_free : forall n c, n <> [] -> stands_for g_stash g_file n (Some c) -> free_of ["PV"] c.
Proof.
  assert (L : forallb (fun i => negb (contains "PV" (stripped i)) && negb (contains INLINE_BLOCK (stripped i))) (st_list g_stash) = true)
    by (vm_compute; reflexivity).
  rewrite forallb_forall in L. intros n c Hn [[i [[[Hi _] _] [T _]]]|[_ H]].
  - specialize (L i Hi). apply Bool.andb_true_iff in L. destruct L as [L1 L2]. apply Bool.negb_true_iff in L1, L2. rewrite (T L2).
    intros m a b [<-|[]] E. rewrite E in L1.
    assert (X : contains "PV" (a ++ reference "PV" ++ b) = true).
    { apply contains_spec. exists (a ++ "${"), ("}" ++ b). unfold reference. now rewrite <- !app_assoc. }
    congruence.
  - vm_compute in H. discriminate H.
Qed.
Example C122_case : (forall n c, n <> [] -> stands_for g_stash g_file n (Some c) -> free_of ["PV"] c) /\
  expand_term_full g_env g_stash g_file "${A} ${PV}" ["PV"] [] None = Ok "${NO} b/x ${PV}" /\
  expands (hide ["PV"] (ExpandFacts.content_of g_env g_stash g_file)) (hide ["PV"] (fun n => dget n (builtins g_file))) [] "${A} ${PV}" "${NO} b/x ${PV}".
Proof.
  split; [exact g_free|]. split; [vm_compute; reflexivity|].
  apply (ex_known _ _ [] "A" "${B}/x" "${NO} b/x" " ${PV}" " ${PV}"); [plain|intros []|vm_compute; reflexivity|split; reflexivity| |].
  - apply (ex_known _ _ [] "B" "${NO} b" "${NO} b" "/x" "/x"); [plain|intros []|vm_compute; reflexivity|split; reflexivity| |ex_text].
    apply (ex_unknown _ _ [] "NO" " b" " b"); [plain|intros []|vm_compute; reflexivity|vm_compute; reflexivity|ex_text].
  - ex_text. apply (ex_unknown _ _ [] "PV" [] []); [plain|intros []|vm_compute; reflexivity|vm_compute; reflexivity|ex_text].
Qed.

(** The definition of P refers to PN, which is to stay. *)
Theorem C122_refuted : exists e s file v spare n w, env_ok e /\ reach e s /\ no_code v /\ In n spare /\ free_of spare v /\
  (exists i, first_of s file "P" i /\ text_of i (reference n ++ "-p")) /\ v = reference "P" /\
  expand_term_full e s file v spare [] None = Ok w /\ w = "rec-p".
Proof.
  exists g_env, g_stash, g_file, "${P}", ["PN"], "PN", "rec-p". split; [apply g_ok|]. split; [apply g_reach|].
  split; [split; reflexivity|]. split; [now left|]. split.
  - intros m a b [<-|[]] E. apply (f_equal (contains "PN")) in E.
    assert (X : contains "PN" (a ++ reference "PN" ++ b) = true).
    { apply contains_spec. exists (a ++ "${"), ("}" ++ b). unfold reference. now rewrite <- !app_assoc. }
    rewrite X in E. discriminate E.
  - split; [|split; [reflexivity|split; [vm_compute; reflexivity|reflexivity]]].
    pose proof (content_stands g_env g_stash g_file "P" g_ok g_reach ltac:(discriminate)) as H.
    replace (ExpandFacts.content_of g_env g_stash g_file "P") with (Some ("${PN}-p" : str)) in H by (vm_compute; reflexivity).
    destruct H as [H|[_ H]]; [exact H|]. vm_compute in H. discriminate H.
Qed.
Print Assumptions C122_refuted.
