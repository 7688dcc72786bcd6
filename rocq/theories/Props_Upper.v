(** * Property C102: the other cached methods *)

From Verif Require Import PyStr Regex Patterns PyPath Res Inline Const Item Lines Stash
  StrFacts Demo ReachFacts Cache Spec_Cache Proofs_Cache Upper Spec_Upper Proofs_Upper.

(** As C33, for GetFiles, GetValidPackageNames and GetValidNamedResources; for
    GetPackagesDynamic and IsDynamicPackage if no update follows. *)
Theorem C102_cached_partial : forall e nw neg db cs, env_ok e -> userved e (new_stash nw neg db) cs -> dynamic_last cs ->
  fst (ucalls_c e cs (new_stash nw neg db, (no_tables, no_upper))) = fst (uplain_calls e cs (new_stash nw neg db)).
Proof. exact C102_lemma. Qed.
Print Assumptions C102_cached_partial.

(** A recipe, and an append to it that adds packages. *)
Definition v_env : env := demo_env
  [("/w/a.bb", "PACKAGES = ""${PN}-x""" ++ nl ++ "PACKAGES_DYNAMIC = ""^a-.*""" ++ nl);
   ("/w/a.bbappend", "PACKAGES += ""y""" ++ nl ++ "PACKAGES_DYNAMIC += ""^b-.*""" ++ nl)] ["/w"; "/"].
Definition v_add (p : str) : ucall := UBase (CAdd 4 p 0 None).
Definition v_calls : list ucall :=
  [v_add "/w/a.bb"; UNames "/w/a.bb" false; UFiles "/w/a.bb" "*.patch"; UNames "/w/a.bb" false; v_add "/w/a.bbappend";
   UNames "/w/a.bb" false; UNamed "/w/a.bb"; UDynamic "/w/a.bb"; UNames "/w/a.bb" true; UIsDynamic "/w/a.bb" "b-z"; UDynamic "/w/a.bb"].
Example C102_case : env_ok v_env /\ userved v_env demo_stash v_calls /\ dynamic_last v_calls /\
  fst (uplain_calls v_env [v_add "/w/a.bb"; UNames "/w/a.bb" false; v_add "/w/a.bbappend"; UNames "/w/a.bb" false] demo_stash) <>
  fst (uplain_calls v_env [v_add "/w/a.bb"; UNames "/w/a.bb" false; UNames "/w/a.bb" false; UNames "/w/a.bb" false] demo_stash).
Proof.
  split; [apply demo_env_ok|]. split; [|split; [|vm_compute; discriminate]].
  - assert (Kn : forall p s, returns_early v_env p s = false -> ~ known_file v_env p s)
      by (intros p s H K; apply early_iff in K; congruence).
    unfold userved, v_calls, v_add. cbn [map counts_as].
    eapply served_add; [vm_compute; reflexivity|apply Kn; vm_compute; reflexivity|].
    do 3 (apply served_query; [exact I|discriminate|]).
    eapply served_add; [vm_compute; reflexivity|apply Kn; vm_compute; reflexivity|].
    do 6 (apply served_query; [exact I|discriminate|]). apply served_end.
  - intros a c b E Hc. unfold v_calls in E.
    repeat (destruct a as [|? a];
      [injection E as <- <-; first [now destruct Hc | intros y Hy; repeat (destruct Hy as [<-|Hy]; [exact I|]); destruct Hy]
      |injection E as _ E; try discriminate E]); destruct a; cbn [app] in E; discriminate E.
Qed.

(** GetPackagesDynamic and IsDynamicPackage are not cleared: they do not see the
    append added after they were called. *)
Theorem C102_refuted : exists e cs1 cs2, env_ok e /\
  (exists p q f, cs1 = [v_add p; UDynamic f; v_add q; UDynamic f] /\ userved e demo_stash cs1) /\
  (exists p q f n, cs2 = [v_add p; UIsDynamic f n; v_add q; UIsDynamic f n] /\ userved e demo_stash cs2) /\
  forall cs, In cs [cs1; cs2] ->
    fst (ucalls_c e cs (demo_stash, (no_tables, no_upper))) <> fst (uplain_calls e cs demo_stash).
Proof.
  assert (S : forall c, is_query c -> c <> CClasses -> served v_env true demo_stash [CAdd 4 "/w/a.bb" 0 None; c; CAdd 4 "/w/a.bbappend" 0 None; c]).
  { assert (Kn : forall p s, returns_early v_env p s = false -> ~ known_file v_env p s)
      by (intros p s H K; apply early_iff in K; congruence).
    intros c Hq Hc. eapply served_add; [vm_compute; reflexivity|apply Kn; vm_compute; reflexivity|].
    apply served_query; [exact Hq|exact Hc|].
    eapply served_add; [vm_compute; reflexivity|apply Kn; vm_compute; reflexivity|].
    apply served_query; [exact Hq|exact Hc|]. apply served_end. }
  exists v_env, [v_add "/w/a.bb"; UDynamic "/w/a.bb"; v_add "/w/a.bbappend"; UDynamic "/w/a.bb"],
    [v_add "/w/a.bb"; UIsDynamic "/w/a.bb" "b-z"; v_add "/w/a.bbappend"; UIsDynamic "/w/a.bb" "b-z"].
  split; [apply demo_env_ok|]. split; [|split].
  - do 3 eexists. split; [reflexivity|]. apply S; [exact I|discriminate].
  - do 4 eexists. split; [reflexivity|]. apply S; [exact I|discriminate].
  - intros cs [<-|[<-|[]]]; vm_compute; discriminate.
Qed.
Print Assumptions C102_refuted.
