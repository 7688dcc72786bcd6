(** * Theorems about items changed by a caller *)

From Verif Require Import PyStr Regex Patterns PyPath Res Inline Const Item Lines Stash
  StrFacts Demo ReachFacts Cache Spec_Cache Proofs_Cache Setters Spec_Setters Proofs_Setters.

(** ** C117 *)

(** Missing are queries that compare an attribute which was compared before and
    changed since, without an update of the stash in between; false, see
    [C117_refuted].  The other restrictions are those of [C33_cached_partial]. *)
Theorem C117_changed_partial : forall e nw neg db l, env_ok e -> by_identity e ->
  kept e true [] [] (new_stash nw neg db) l ->
  fst (acts_c e l (new_stash nw neg db, no_tables)) = fst (plain_acts e l (new_stash nw neg db)).
Proof. exact C117_lemma. Qed.
Print Assumptions C117_changed_partial.

Lemma demo_by_identity : forall files dirs, by_identity (demo_env files dirs).
Proof.
  intros files dirs l. cbn [demo_env e_iset].
  assert (F : forall k m, map it_id (filter (fun y => negb (Nat.eqb k (it_id y))) m) =
                          filter (fun z => negb (Nat.eqb k z)) (map it_id m)).
  { intros k m. induction m as [|i m IH]; [reflexivity|]. cbn. destruct (Nat.eqb k (it_id i)); cbn; now rewrite IH. }
  induction l as [|i l IH]; intros [|j l'] H; try discriminate; [reflexivity|]. cbn in H. injection H as H1 H2.
  cbn [dedup_items map]. rewrite !F, H1, (IH l' H2). reflexivity.
Qed.

(** A recipe and an append. *)
Definition u_env : env := demo_env [("/w/a.bb", "A = ""1""" ++ nl ++ "B = ""1""" ++ nl); ("/w/x.bbappend", "C = ""1""" ++ nl)] ["/w"; "/"].
Definition u_add (p : str) : act := ADo (CAdd 4 p 0 None).
Definition u_by (a v : str) : act := ADo (CItems (MkQuery None (AOne "Variable") (AOne a) (AOne (VStr v)) false)).

(** The value is compared after it was changed, other attributes before and
    after, and after the update also the value again. *)
Definition u_acts : list act :=
  [u_add "/w/a.bb"; u_by "VarName" "A"; ASet 0 (SVarValue """2"""); u_by "VarName" "A"; u_by "VarValue" """2"""; ADo CRecipes;
   ASet 0 (SLine 7); u_by "VarValue" """2"""; ASet 1 (SVarValue """2"""); u_add "/w/x.bbappend"; u_by "VarValue" """2"""].

Definition u_ids (a : answer) : list nat := match a with RItems (Ok l) => map it_id l | _ => [] end.
Example C117_case : env_ok u_env /\ by_identity u_env /\ kept u_env true [] [] demo_stash u_acts /\
  map u_ids (fst (plain_acts u_env u_acts demo_stash)) = [[0; 1]; [0]; [0]; [0]; []; [0]; [2]; [1; 0]].
Proof.
  split; [apply demo_env_ok|]. split; [apply demo_by_identity|]. split; [|vm_compute; reflexivity].
  assert (Kn : forall p s, returns_early u_env p s = false -> ~ known_file u_env p s)
    by (intros p s H K; apply early_iff in K; congruence).
  unfold u_acts, u_add, u_by.
  eapply kept_add; [vm_compute; reflexivity|apply Kn; vm_compute; reflexivity|].
  apply kept_items; [intros o _ []|].
  apply (kept_set _ _ _ _ ([] : list str)); [intro o; vm_compute; split; [tauto|]; intros [H|[[<-|[]] [H|[H|[]]]]]; [tauto|discriminate H|discriminate H]|].
  do 2 (apply kept_items; [intros o _ []|]).
  apply kept_query; [exact I|discriminate|discriminate|].
  apply (kept_set _ _ _ _ ([] : list str)); [intro o; vm_compute; split; [tauto|];
    intros [H|[H1 H2]]; [tauto|]; repeat (destruct H2 as [H2|H2]; [subst o; repeat (destruct H1 as [H1|H1]; [discriminate H1|]); exact H1|]); exact H2|].
  apply kept_items; [intros o _ []|].
  apply (kept_set _ _ _ _ (["VarValue"] : list str)); [intro o; vm_compute; split; [intros [H|[]]; right; split; [tauto|left; exact H]|];
    intros [[]|[H1 H2]]; destruct H2 as [H2|[H2|[]]]; [now left|];
    subst o; repeat (destruct H1 as [H1|H1]; [discriminate H1|]); destruct H1|].
  eapply kept_add; [vm_compute; reflexivity|apply Kn; vm_compute; reflexivity|].
  apply kept_items; [intros o _ []|]. apply kept_end.
Qed.

(** The query for the old value still finds the item, the one for the new value
    does not. *)
Theorem C117_refuted : exists e p n v w, env_ok e /\ by_identity e /\ v <> w /\
  forall x l, In x [v; w] -> l = [u_add p; u_by "VarValue" x; ASet n (SVarValue w); u_by "VarValue" x] ->
    fst (acts_c e l (demo_stash, no_tables)) <> fst (plain_acts e l demo_stash).
Proof.
  exists u_env, "/w/a.bb", 0, """1""", """2""".
  split; [apply demo_env_ok|]. split; [apply demo_by_identity|]. split; [discriminate|].
  intros x l [<-|[<-|[]]] ->; vm_compute; discriminate.
Qed.
Print Assumptions C117_refuted.

(** ** C120 *)

Theorem C120_set : forall n x s,
  Forall2 (fun i j => it_id j = it_id i /\ (it_id i <> n -> j = i) /\ (it_id i = n -> took x i j /\ else_same x i j))
    (st_list s) (st_list (set_on n x s)).
Proof. exact C120_lemma. Qed.
Print Assumptions C120_set.

(** The first of two items is changed; the file named in IncludedFrom is added
    to what was there. *)
Example C120_case : let s := snd (add_file 4 u_env "/w/a.bb" 0 None demo_stash) in
  map it_id (st_list s) = [0; 1] /\
  map (fun i => dget "VarValueStripped" (attributes i)) (st_list (set_on 0 (SVarValue """2""") s)) = [Some (VStr "2"); Some (VStr "1")] /\
  map it_incfrom (st_list (set_on 1 (SIncludedFrom ["/w/b.bb"]) (set_on 1 (SIncludedFrom ["/w/a.bb"]) s))) = [[]; ["/w/a.bb"; "/w/b.bb"]].
Proof. vm_compute. repeat split. Qed.
