(** * Properties C124 and C125: lists of items and queries by value *)

From Verif Require Import PyStr Res Item Lines Stash Lists Demo ReachFacts Spec_Query Proofs_Query Spec_Lists Proofs_Lists Props_Query.
From Coq Require Import Sorted.

(** ** C124 *)

(** After any calls, every list has exactly the items of the stash that passed all
    the queries its items went through, once each and sorted by Line; calls on
    other objects do not matter. *)
Theorem C124_lists : forall e s cs o, env_ok e -> reach e s ->
  match list_steps e s cs (fun _ => None) o, passed cs o with
  | Some l, Some qs => (forall i, In i l <-> In i (st_list s) /\ forall q, In q qs -> selected s q i) /\
                       NoDup (map it_id l) /\ StronglySorted by_line l
  | None, None => True
  | _, _ => False
  end.
Proof. exact C124_lemma. Qed.
Print Assumptions C124_lists.

(** A list of the variables, a copy with those of a.bb only, and the list narrowed
    to A afterwards. *)
Definition ls_calls : list list_call :=
  [ LGet 0 (MkQuery None (AOne "Variable") ANone ANone false);
    LCopy 0 1 (MkQuery (Some "/w/a.bb") ANone ANone ANone true);
    LReduce 0 (by_name ["A"]) ].
Example C124_case : env_ok q_env /\ reach q_env q_stash /\
  option_map (fun l => vals l) (list_steps q_env q_stash ls_calls (fun _ => None) 0)
    = Some ["""1"""; """5"""; """2"""; """4"""] /\
  option_map (fun l => vals l) (list_steps q_env q_stash ls_calls (fun _ => None) 1) = Some ["""1"""; """2"""] /\
  option_map (@length query) (passed ls_calls 0) = Some 2.
Proof. split; [apply demo_env_ok|]. split; [apply q_reach|]. vm_compute. auto. Qed.

(** ** C125 *)

(** Queries by name and by value without quotes: [VarValueStripped] finds every
    assignment of the value in double quotes, and nothing but assignments of the
    value with blanks and double quotes around it; [VarValue] finds only what has
    no quotes. *)
Theorem C125_value_partial : forall e s ns v, env_ok e -> reach e s -> ns <> [] -> ~ In 34%N v ->
  (forall i, In i (st_list s) -> assigns ns (in_double v) i ->
     In i (reduce_ e s (get_items_for e s (by_name ns)) (by_value "VarValueStripped" v))) /\
  (forall i, In i (reduce_ e s (get_items_for e s (by_name ns)) (by_value "VarValueStripped" v)) ->
     In i (st_list s) /\ exists a b, assigns ns (a ++ v ++ b) i /\
       (forall c, In c a -> around c) /\ (forall c, In c b -> around c)) /\
  (forall i, In i (reduce_ e s (get_items_for e s (by_name ns)) (by_value "VarValue" v)) ->
     In i (st_list s) /\ assigns ns v i).
Proof. exact C125_lemma. Qed.
Print Assumptions C125_value_partial.

Definition ls_env : env :=
  demo_env [("/w/a.bb", "PV = ""1.0""" ++ nl ++ "BPV = '1.0'" ++ nl ++ "PV = ""2.0""" ++ nl)] ["/w"; "/"].
Definition ls_stash : stash := snd (add_file 4 ls_env "a.bb" 0 None demo_stash).
Lemma ls_reach : reach ls_env ls_stash.
Proof. exists false, false, no_const. eapply steps_add; [apply steps_refl|apply surjective_pairing]. Qed.

Example C125_case : env_ok ls_env /\ reach ls_env ls_stash /\ ~ In 34%N ("1.0" : str) /\
  map var_value (st_list ls_stash) = [in_double "1.0"; in_single "1.0"; in_double "2.0"] /\
  map it_line (reduce_ ls_env ls_stash (get_items_for ls_env ls_stash (by_name ["PV"; "BPV"]))
                 (by_value "VarValueStripped" "1.0")) = [1]%Z.
Proof.
  split; [apply demo_env_ok|]. split; [apply ls_reach|]. split; [cbn; intuition discriminate|].
  vm_compute. auto.
Qed.

(** The query of the README does not find the assignment of the README, nor does
    either attribute find a value in single quotes. *)
Theorem C125_refuted : exists e s, env_ok e /\ reach e s /\
  (exists i, In i (st_list s) /\ assigns ["PV"; "BPV"] (in_double "1.0") i) /\
  (exists i, In i (st_list s) /\ assigns ["PV"; "BPV"] (in_single "1.0") i) /\
  reduce_ e s (get_items_for e s (by_name ["PV"; "BPV"])) (by_value "VarValue" "1.0") = [] /\
  ~ exists i, In i (reduce_ e s (get_items_for e s (by_name ["PV"; "BPV"])) (by_value "VarValueStripped" "1.0")) /\
     assigns ["PV"; "BPV"] (in_single "1.0") i.
Proof.
  exists ls_env, ls_stash. split; [apply demo_env_ok|]. split; [apply ls_reach|]. split; [|split; [|split]].
  - eexists. split; [vm_compute; left; reflexivity|]. exists "PV". split; [now left|]. split; vm_compute; reflexivity.
  - eexists. split; [vm_compute; right; left; reflexivity|]. exists "BPV". split; [right; now left|]. split; vm_compute; reflexivity.
  - vm_compute. reflexivity.
  - exact (not_narrowed ls_env ls_stash ["PV"; "BPV"] "1.0" (in_single "1.0") (demo_env_ok _ _) ls_reach
             ltac:(discriminate) ltac:(vm_compute; discriminate)).
Qed.
Print Assumptions C125_refuted.
