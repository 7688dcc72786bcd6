(** * Theorems about names in the old and in the new override syntax *)

From Verif Require Import Props_Items.
From Verif Require Import PyStr Regex UniTable Patterns PyPath Res Inline Const Item Lines Stash
  StrFacts ClassFacts ReachFacts Demo Spec_Query Props_Query Props_Lines Spec_Parse Spec_Group Spec_Func Props_Parse
  Access Spec_Access Props_Access Spec_Expand Spec_Style Proofs_Style.

(** ** C140 *)

(** A variable written in the old syntax and the same one in the new syntax have
    the same name, overrides, operator and value, if the name has parts by which
    the old syntax can be told. *)
Theorem C140_variable_partial : forall e e' i j bs os op value, parsed_item e i -> parsed_item e' j ->
  usual_parts bs os -> it_new i = false ->
  assignment (old_name bs os) op value (one_line i) -> ~ statement_word (old_name bs os) ->
  assignment (new_name bs os) op value (one_line j) -> ~ statement_word (new_name bs os) ->
  it_pay i = PVariable (base_of bs) (join "_" os) os value op (base_of bs) /\
  it_pay j = PVariable (base_of bs) (join ":" os) os value op (base_of bs).
Proof. exact C140_variable_lemma. Qed.
Print Assumptions C140_variable_partial.

(** The same for functions, with the functions known to the constants. *)
Theorem C140_function_partial : forall known bs os p q body py fr, function_parts known bs os ->
  (forall x c, In x (bs ++ os) -> In c x -> func_char c) -> ip_new p = false ->
  let i := mk_function (CList known) p (Some (old_name bs os)) body py fr in
  let j := mk_function (CList known) q (Some (new_name bs os)) body py fr in
  it_pay i = PFunction py fr (base_of bs) (join "_" os) os body (func_body_raw (ip_raw p)) /\
  it_pay j = PFunction py fr (base_of bs) (join ":" os) os body (func_body_raw (ip_raw q)).
Proof. exact C140_function_lemma. Qed.
Print Assumptions C140_function_partial.

(** The statements do the same with the values of all variables (which C46 says
    are determined by what the statements do), if the overrides are operations. *)
Theorem C140_history_partial : forall l l' n evs, Forall2 restyled l l' -> (history n l evs <-> history n l' evs).
Proof. exact C140_history_lemma. Qed.
Print Assumptions C140_history_partial.

(** *** Examples *)

Definition sy_env1 : env := demo_env [("/w/a.bb", "SRC_URI_append_qemux86 = ""x""" ++ nl ++ "SRC_URI_append = ""y""" ++ nl
  ++ "systemd_unitdir_append = ""z""" ++ nl)] [].
Definition sy_env2 : env := demo_env [("/w/a.bb", "SRC_URI:append:qemux86 = ""x""" ++ nl ++ "SRC_URI:append = ""y""" ++ nl
  ++ "systemd_unitdir:append = ""z""" ++ nl)] [].
Notation sy_run e := (add_file 2 e "/w/a.bb" 0 None (new_stash false false no_const)).
Definition sy_i (k : nat) : item := nth k (st_list (snd (sy_run sy_env1))) p_dflt.
Definition sy_j (k : nat) : item := nth k (st_list (snd (sy_run sy_env2))) p_dflt.
Lemma sy_parsed1 : forall k, k < 3 -> parsed_item sy_env1 (sy_i k).
Proof.
  intros k Hk. exists (snd (sy_run sy_env1)). split.
  - exact (filled_add sy_env1 2 "/w/a.bb" 0 None _ _ _ (filled_new sy_env1 _ _ _) (surjective_pairing (sy_run sy_env1))).
  - unfold sy_i. apply nth_In. assert (L : length (st_list (snd (sy_run sy_env1))) = 3) by (vm_compute; reflexivity).
    rewrite L. exact Hk.
Qed.
Lemma sy_parsed2 : forall k, k < 3 -> parsed_item sy_env2 (sy_j k).
Proof.
  intros k Hk. exists (snd (sy_run sy_env2)). split.
  - exact (filled_add sy_env2 2 "/w/a.bb" 0 None _ _ _ (filled_new sy_env2 _ _ _) (surjective_pairing (sy_run sy_env2))).
  - unfold sy_j. apply nth_In. assert (L : length (st_list (snd (sy_run sy_env2))) = 3) by (vm_compute; reflexivity).
    rewrite L. exact Hk.
Qed.
Ltac sy_var := split; [vm_compute; reflexivity|]; split; [split; [discriminate|chars]|]; exists " ";
  split; [|discriminate]; exists "=", " "; split; [reflexivity|]; split; [every|]; split; [every|];
  split; [cbn; tauto|]; split; [indent|discriminate].
Ltac sy_part := split; [discriminate|split; notin].

Example C140_variable_case :
  parsed_item sy_env1 (sy_i 0) /\ parsed_item sy_env2 (sy_j 0) /\
  usual_parts ["SRC"; "URI"] ["append"; "qemux86"] /\ it_new (sy_i 0) = false /\
  assignment (old_name ["SRC"; "URI"] ["append"; "qemux86"]) " = " """x""" (one_line (sy_i 0)) /\
  ~ statement_word (old_name ["SRC"; "URI"] ["append"; "qemux86"]) /\
  assignment (new_name ["SRC"; "URI"] ["append"; "qemux86"]) " = " """x""" (one_line (sy_j 0)) /\
  ~ statement_word (new_name ["SRC"; "URI"] ["append"; "qemux86"]).
Proof.
  split; [apply sy_parsed1; lia|]. split; [apply sy_parsed2; lia|]. split.
  { split; [|split].
    - split; [discriminate|]. split; [discriminate|]. intros x [<-|[<-|[<-|[<-|[]]]]]; sy_part.
    - intros b r E. injection E as <- <-. split; [discriminate|]. intros x [<-|[]] (c & r & E & H). injection E as <- <-.
      unfold between, digit in H. cbn [In] in H. destruct H as [H|[H|H]]; [lia|unfold between in H; lia|intuition discriminate].
    - intros x [<-|[<-|[]]]; do 2 eexists; (split; [reflexivity|]); unfold between, digit; cbn [In]; lia. }
  split; [vm_compute; reflexivity|]. split; [sy_var|]. split; [no_word|]. split; [sy_var|no_word].
Qed.

Example C140_function_case : function_parts ["do_install"] ["do"; "install"] ["qemux86"; "append"] /\
  function_parts [] ["do"; "install"] ["append"; "qemux86"] /\
  (forall x c, In x (["do"; "install"] ++ ["qemux86"; "append"]) -> In c x -> func_char c) /\ ip_new (demo_param false) = false.
Proof.
  assert (P : forall x, In x (["do"; "install"; "qemux86"; "append"] : list str) -> part x)
    by (intros x [<-|[<-|[<-|[<-|[]]]]]; sy_part).
  assert (M : forall x, In x (["do"; "install"] : list str) -> ~ marker x)
    by (intros x [<-|[<-|[]]]; unfold marker; notin).
  assert (Pre : forall a b : list str, ["do" : str; "install" : str] = a ++ b -> a <> [] -> b <> [] -> a = ["do" : str]).
  { intros a b E Ha Hb. destruct a as [|x [|y a]]; [congruence|injection E as <- _; reflexivity|].
    injection E as _ _ E. symmetry in E. apply app_eq_nil in E. destruct E. congruence. }
  split; [|split; [|split; [|reflexivity]]].
  - split; [split; [discriminate|split; [discriminate|exact P]]|]. split; [exact M|]. split.
    + intros a b E Ha Hb. rewrite (Pre a b E Ha Hb). notin.
    + exists "qemux86", ["append"]. split; [reflexivity|]. split; [notin|]. split; [discriminate|]. right. now left.
  - split; [split; [discriminate|split; [discriminate|intros x Hx; apply P; cbn in Hx |- *; tauto]]|]. split; [exact M|]. split.
    + intros a b E Ha Hb. rewrite (Pre a b E Ha Hb). notin.
    + exists "append", ["qemux86"]. split; [reflexivity|]. split; [notin|]. split; [discriminate|]. left. now left.
  - intros x c [<-|[<-|[<-|[<-|[]]]]] Hc; repeat (destruct Hc as [<-|Hc]; [unfold func_char, letter, digit, between; lia|]); destruct Hc.
Qed.

Example C140_history_case : Forall2 restyled [sy_i 1] [sy_j 1] /\ it_new (sy_i 1) <> it_new (sy_j 1) /\
  history "SRC_URI" [sy_i 1] [LateAdds "y"].
Proof.
  assert (E1 : it_pay (sy_i 1) = PVariable "SRC_URI" "append" ["append"] """y""" " = " "SRC_URI") by (vm_compute; reflexivity).
  assert (E2 : it_pay (sy_j 1) = PVariable "SRC_URI" "append" ["append"] """y""" " = " "SRC_URI") by (vm_compute; reflexivity).
  split; [|split].
  - constructor; [|constructor]. refine (other_style _ _ _ _ _ _ _ _ E1 E2 _ _); [intros x [<-|[]]; now left|discriminate].
  - vm_compute. discriminate.
  - apply hist_does; [|constructor].
    replace (LateAdds "y") with (LateAdds (stripped (sy_i 1))) by (vm_compute; reflexivity).
    eapply does_append; [exact E1|vm_compute; reflexivity|now left|notin].
Qed.

(** In general the two differ: of a name in lower case letters with an
    underscore the old syntax takes only the first part. *)
Theorem C140_refuted : exists e i e' j n o op value, parsed_item e i /\ parsed_item e' j /\ it_new i = false /\
  operation o /\ assignment (n ++ "_" ++ o) op value (one_line i) /\ assignment (n ++ ":" ++ o) op value (one_line j) /\
  ~ statement_word (n ++ "_" ++ o) /\ ~ statement_word (n ++ ":" ++ o) /\
  Stash.var_name i <> Stash.var_name j /\ var_subs i <> var_subs j.
Proof.
  exists sy_env1, (sy_i 2), sy_env2, (sy_j 2), "systemd_unitdir", "append", " = ", """z""".
  split; [apply sy_parsed1; lia|]. split; [apply sy_parsed2; lia|]. split; [vm_compute; reflexivity|]. split; [now left|].
  split; [sy_var|]. split; [sy_var|]. split; [no_word|]. split; [no_word|].
  split; vm_compute; discriminate.
Qed.
Print Assumptions C140_refuted.
