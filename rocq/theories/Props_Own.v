(** * Theorems about lists that queries return *)

From Verif Require Import PyStr Regex Patterns PyPath Res Inline Const Item Lines Stash
  StrFacts Demo ReachFacts Cache Spec_Cache Proofs_Cache Props_Cache CacheHeap Spec_Own Proofs_Own.

(** ** C97 *)

(** The caller owns the lists it gets: whatever it writes into them, GetItemsFor,
    IsImage, IsPackageGroup and the updates answer as if it had not.  Missing are
    the lists of GetRecipes, GetLoneAppends, GetConfFiles, GetBBClasses and
    GetLinksForFile; they are false, see [C97_refuted]. *)
Theorem C97_owned_partial : forall e nw neg db l, env_ok e -> served e true (new_stash nw neg db) (calls_of l) ->
  forall k c, nth_error (calls_of l) k = Some c -> unshared c ->
  nth_error (run_h e l [] (new_stash nw neg db) ([], no_htables)) k =
  nth_error (fst (plain_calls e (calls_of l) (new_stash nw neg db))) k.
Proof. intros e nw neg db l He H k c Hk Hc. exact (C97_lemma e nw neg db l He H k c Hk (or_introl Hc)). Qed.
Print Assumptions C97_owned_partial.

(** Callers that only read get every answer as without caches. *)
Theorem C97_read_only : forall e nw neg db l, env_ok e -> served e true (new_stash nw neg db) (calls_of l) -> no_write l ->
  run_h e l [] (new_stash nw neg db) ([], no_htables) = fst (plain_calls e (calls_of l) (new_stash nw neg db)).
Proof. exact C97_unwritten. Qed.
Print Assumptions C97_read_only.

(** A caller that empties what it got from AddFile, a query, GetLoneAppends and
    GetRecipes; the last write changes the last answer. *)
Definition w_acts : list action :=
  [ACall (k_add "/w/a.bb"); AWrite 0 (OItems []); ACall k_vars; AWrite 3 (OItems []); ACall CLone; AWrite 4 (OStrs ["x"]);
   ACall k_vars; ACall CRecipes; ACall (k_add "/w/x.bbappend"); ACall CFinalize; ACall CLone; ACall k_vars; ACall CLone;
   ACall (CImage "/w/a.bb"); ACall (CLinks "/w/a.bb"); ACall (k_add "/w/x.bbappend"); ACall CRecipes].
Definition w_reads : list action := [ACall (k_add "/w/a.bb"); ACall CRecipes; ACall CRecipes].
Definition w_writes : list action := [ACall (k_add "/w/a.bb"); ACall CRecipes; AWrite 1 (OStrs []); ACall CRecipes].

Example C97_case : env_ok k_env /\ served k_env true demo_stash (calls_of w_acts) /\ no_write w_reads /\
  served k_env true demo_stash (calls_of w_reads) /\
  run_h k_env w_writes [] demo_stash ([], no_htables) <> run_h k_env w_reads [] demo_stash ([], no_htables).
Proof.
  split; [apply demo_env_ok|]. split; [exact (proj1 (proj2 C33_case))|].
  split; [intros a o H; cbn in H; repeat (destruct H as [H|H]; [discriminate H|]); exact H|].
  split; [|vm_compute; discriminate].
  eapply served_add; [vm_compute; reflexivity| |].
  - intro K. apply early_iff in K. vm_compute in K. discriminate K.
  - do 2 (apply served_query; [exact I|discriminate|]). apply served_end.
Qed.

(** Each of these methods answers with what the caller wrote into its last answer. *)
Theorem C97_refuted : exists e p, env_ok e /\ forall c, In c [CRecipes; CLone; CConf; CClasses; CLinks p] -> exists a,
  run_h e [ACall (k_add p); ACall c; AWrite a (OStrs ["x"]); ACall c] [] demo_stash ([], no_htables) =
    fst (plain_calls e [k_add p; c] demo_stash) ++ [RStrs ["x"]] /\
  nth_error (fst (plain_calls e [k_add p; c; c] demo_stash)) 2 <> Some (RStrs ["x"]).
Proof.
  exists k_env, "/w/a.bb". split; [apply demo_env_ok|].
  intros c [<-|[<-|[<-|[<-|[<-|[]]]]]]; [exists 1|exists 1|exists 1|exists 1|exists 2]; (split; [vm_compute; reflexivity|vm_compute; discriminate]).
Qed.
Print Assumptions C97_refuted.
