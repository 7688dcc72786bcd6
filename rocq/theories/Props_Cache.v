(** * Theorems about caching *)

From Verif Require Import PyStr Regex Patterns PyPath Res Inline Const Item Lines Stash
  StrFacts Demo ReachFacts Cache Spec_Cache Proofs_Cache.

(** ** C33 *)

(** Missing are GetBBClasses, which is never cleared, updates that raise, and
    Finalize after a query; all three are false, see [C33_refuted]. *)
Theorem C33_cached_partial : forall e nw neg db cs, env_ok e -> served e true (new_stash nw neg db) cs ->
  fst (calls_c e cs (new_stash nw neg db, no_tables)) = fst (plain_calls e cs (new_stash nw neg db)).
Proof. exact C33_lemma. Qed.
Print Assumptions C33_cached_partial.

(** A recipe with nested includes, an append and a class. *)
Definition k_env : env := demo_env
  [("/w/a.bb", "require b.inc" ++ nl ++ "A = ""1""" ++ nl); ("/w/b.inc", "require c.inc" ++ nl ++ "B = ""1""" ++ nl);
   ("/w/c.inc", "C = ""1""" ++ nl); ("/w/x.bbappend", "D = ""1""" ++ nl); ("/w/y.bbclass", "E = ""1""" ++ nl)] ["/w"; "/"].
Definition k_add (p : str) : call := CAdd 4 p 0 None.
Definition k_vars : call := CItems (MkQuery (Some "/w/a.bb") (AOne "Variable") ANone ANone false).
Definition k_calls : list call :=
  [k_add "/w/a.bb"; k_vars; CLone; k_vars; CRecipes; k_add "/w/x.bbappend"; CFinalize; CLone; k_vars; CLone; CImage "/w/a.bb";
   CLinks "/w/a.bb"; k_add "/w/x.bbappend"; CRecipes].

(** Computed states, with the side conditions of [served]. *)
Example C33_case : env_ok k_env /\ served k_env true demo_stash k_calls /\
  fst (plain_calls k_env [k_add "/w/a.bb"; CLone; k_add "/w/x.bbappend"; CLone] demo_stash) <>
  fst (plain_calls k_env [k_add "/w/a.bb"; CLone; CLone; CLone] demo_stash).
Proof.
  split; [apply demo_env_ok|]. split; [|vm_compute; discriminate].
  assert (Kn : forall p s, returns_early k_env p s = false -> ~ known_file k_env p s)
    by (intros p s H K; apply early_iff in K; congruence).
  unfold k_calls, k_add, k_vars.
  eapply served_add; [vm_compute; reflexivity|apply Kn; vm_compute; reflexivity|].
  do 4 (apply served_query; [exact I|discriminate|]).
  eapply served_add; [vm_compute; reflexivity|apply Kn; vm_compute; reflexivity|].
  eapply served_finalize; [vm_compute; reflexivity|].
  do 5 (apply served_query; [exact I|discriminate|]).
  eapply served_again; [vm_compute; reflexivity|apply early_iff; vm_compute; reflexivity|].
  apply served_query; [exact I|discriminate|]. apply served_end.
Qed.

(** Each of these sequences is answered differently with caches: GetBBClasses
    does not see the class added after it was called; a query before Finalize
    changes what Finalize writes; after a Remove that raised, GetLoneAppends
    reports an append that is gone. *)
Theorem C33_refuted : exists e cs1 cs2 cs3, env_ok e /\
  (exists p, cs1 = [CClasses; k_add p; CClasses]) /\
  (exists p q, cs2 = [k_add p; CItems q; CFinalize; CItems q]) /\
  (exists p l, cs3 = [k_add p; CLone; CRemove l; CLone]) /\
  forall cs, In cs [cs1; cs2; cs3] ->
    fst (calls_c e cs (demo_stash, no_tables)) <> fst (plain_calls e cs demo_stash).
Proof.
  set (x := nth 0 (ok_items (add_file 4 k_env "/w/x.bbappend" 0 None demo_stash)) (mk_item (MkParam 0 0 0 [] [] [] [] false) false PItem)).
  set (y := mk_item (MkParam 99 0 0 [] [] [] [] false) false PItem).
  exists k_env, [CClasses; k_add "/w/y.bbclass"; CClasses],
    [k_add "/w/a.bb"; k_vars; CFinalize; k_vars], [k_add "/w/x.bbappend"; CLone; CRemove [x; y]; CLone].
  split; [apply demo_env_ok|]. split; [now eexists|]. split; [unfold k_vars; now do 2 eexists|]. split; [now do 2 eexists|].
  intros cs [<-|[<-|[<-|[]]]]; vm_compute; discriminate.
Qed.
Print Assumptions C33_refuted.
