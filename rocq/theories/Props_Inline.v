(** * Properties C15-C17, C65: inline code *)

From Verif Require Import PyStr Regex UniTable Patterns PyPath Res Inline Const Item Lines Stash
  StrFacts Demo ReachFacts Spec_Query Spec_Expand Spec_Parse Proofs_Parse Proofs_Stmt3 Props_Parse Spec_Inline
  InlineFacts InlineEval Proofs_Inline.

(** ** The recipe of the examples *)

Definition n_text : str :=
  "A = ""x ${@bb.utils.contains('M', ""f"", 'yes', 'no', d)} z""" ++ nl ++
  "B = ""${@bb.utils.filter('F', 'a', d)}b ${@ oe.utils.ifelse(c, 't', 'f')}${@d.getVar('V')} ${@u()}""" ++ nl ++
  "C = ""1 ${@foo({'a': 1})} 2 ${@bar()} 3""" ++ nl ++
  "D = ""${@u()} ${@u()}""" ++ nl ++
  "E = ""b ${@bb.utils.contains('M', 'f', 'b', 'n', d)} ${@u()}""" ++ nl.
Definition n_env : env := demo_env [("/w/a.bb", n_text)] [].
Definition n_start (neg : bool) : stash := new_stash false neg no_const.
Notation n_run neg := (add_file 2 n_env "/w/a.bb" 0 None (n_start neg)).
Definition n_item (neg : bool) (k : nat) : item := nth k (st_list (snd (n_run neg))) p_dflt.

Lemma n_reals : forall neg, map it_realraw (st_list (snd (n_run neg))) =
  [ "A = ""x ${@bb.utils.contains('M', ""f"", 'yes', 'no', d)} z""" ++ nl;
    "B = ""${@bb.utils.filter('F', 'a', d)}b ${@ oe.utils.ifelse(c, 't', 'f')}${@d.getVar('V')} ${@u()}""" ++ nl;
    "C = ""1 ${@foo({'a': 1})} 2 ${@bar()} 3""" ++ nl;
    "D = ""${@u()} ${@u()}""" ++ nl;
    "E = ""b ${@bb.utils.contains('M', 'f', 'b', 'n', d)} ${@u()}""" ++ nl ].
Proof. intros [|]; vm_compute; reflexivity. Qed.
Lemma n_real : forall neg k, k < 5 -> it_realraw (n_item neg k) = nth k (map it_realraw (st_list (snd (n_run neg)))) [].
Proof.
  intros neg k Hk. unfold n_item. rewrite <- (map_nth it_realraw). apply nth_indep.
  rewrite n_reals. exact Hk.
Qed.
Lemma n_parsed : forall neg k, k < 5 -> parsed_with n_env neg (n_item neg k).
Proof.
  intros neg k Hk. exists (snd (n_run neg)).
  pose proof (filled_add n_env 2 "/w/a.bb" 0 None (n_start neg) (fst (n_run neg)) (snd (n_run neg))
    (filled_new n_env _ _ _) (surjective_pairing (n_run neg))) as Hf.
  split; [exact Hf|]. split; [destruct neg; vm_compute; reflexivity|].
  unfold n_item. apply nth_In. rewrite <- (map_length it_realraw), n_reals. exact Hk.
Qed.

Lemma not_occurs : forall x s : str, contains x s = false -> ~ occurs x s.
Proof. intros x s H [a [b E]]. exact (proj1 (contains_false x s) H a b E). Qed.
Lemma is_quiet : forall p : str, contains "${@" p = false -> endswith "$" p = false -> endswith "${" p = false -> quiet p.
Proof.
  intros p H1 H2 H3. split; [now apply not_occurs|]. split; intros q ->.
  - assert (X : endswith "$" (q ++ "$") = true) by (apply endswith_spec; now exists q). congruence.
  - assert (X : endswith "${" (q ++ "${") = true) by (apply endswith_spec; now exists q). congruence.
Qed.
Lemma is_unquoted : forall (a : N) (m : str) (b : N), a <> cDQ -> b <> cDQ -> unquoted (a :: m ++ [b]).
Proof.
  intros a m b Ha Hb. split; intros c t E.
  - now injection E as <- _.
  - rewrite app_comm_cons in E. apply app_inj_tail in E. now destruct E as [_ <-].
Qed.
Ltac names := let c := fresh "c" in let Hc := fresh "Hc" in
  intros c Hc; repeat (destruct Hc as [<-|Hc]; [unfold name_char, letter, digit, between; cbn [In]; lia|]); destruct Hc.
Ltac noc := apply not_occurs; vm_compute; reflexivity.
Ltac calm := apply is_quiet; vm_compute; reflexivity.
Ltac bal := repeat first [apply bal_nil | apply bal_char; [discriminate|discriminate|]].
Ltac is_block t := exists t; split; [reflexivity|]; split; [bal|noc].
Ltac unkn := let n := fresh "n" in let H := fresh "H" in
  intros n H; repeat (destruct H as [<-|H]; [noc|]); destruct H.
Ltac parg := split; [indent|]; let c := fresh "c" in let H := fresh "H" in
  intros c H; repeat (destruct H as [<-|H]; [notin|]); destruct H.
Ltac quo q := exists q; split; [cbn; tauto|]; split; [reflexivity|]; split; notin.
Ltac spaces := let c := fresh "c" in let H := fresh "H" in intros c H; repeat (destruct H as [<-|H]; [reflexivity|]); destruct H.

(** ** C15: bb.utils.contains *)

Theorem C15_contains : forall e neg i p b var item at_ af t f d q, parsed_with e neg i -> it_realraw i = p ++ b ++ q ->
  quiet p -> block b -> ~ occurs "${@" q -> quiet (if neg then f else t) ->
  calls "bb.utils.contains" [var; item; at_; af; [d]] b -> quoted t at_ -> quoted f af ->
  it_raw i = p ++ (if neg then f else t) ++ q.
Proof. exact C15_lemma. Qed.
Print Assumptions C15_contains.

Example C15_case : forall neg,
  let p := ("A = ""x " : str) in let b := ("${@bb.utils.contains('M', ""f"", 'yes', 'no', d)}" : str) in let q := " z""" ++ nl in
  parsed_with n_env neg (n_item neg 0) /\ it_realraw (n_item neg 0) = p ++ b ++ q /\
  quiet p /\ block b /\ ~ occurs "${@" q /\ quiet (if neg then "no" else "yes") /\
  calls "bb.utils.contains" ["'M'"; """f"""; "'yes'"; "'no'"; "d"] b /\ quoted "yes" "'yes'" /\ quoted "no" "'no'" /\
  it_raw (n_item neg 0) = p ++ (if neg then "no" else "yes") ++ q.
Proof.
  intros neg p b q. split; [apply n_parsed; lia|]. split; [rewrite n_real, n_reals by lia; reflexivity|].
  split; [calm|]. split; [is_block ("bb.utils.contains('M', ""f"", 'yes', 'no', d)" : str)|]. split; [noc|].
  split; [destruct neg; calm|]. split.
  - exists [], "'M', ""f"", 'yes', 'no', d". split; [reflexivity|]. split; [intros c []|].
    apply (arg_more "'M'" " "); [parg|every|notin|]. apply (arg_more """f""" " "); [parg|every|notin|].
    apply (arg_more "'yes'" " "); [parg|every|notin|]. apply (arg_more "'no'" " "); [parg|every|notin|].
    apply arg_last. parg.
  - split; [quo cSQ|]. split; [quo cSQ|]. destruct neg; vm_compute; reflexivity.
Qed.

(** ** C16: all helpers *)

(** The evaluation of one block. *)
Theorem C16_helpers : forall neg name args v b, calls name args b -> helper neg name args v -> inlinerep b neg = Some v.
Proof. exact call_eval. Qed.
Print Assumptions C16_helpers.

Example C16_helpers_case : forall neg : bool,
  calls "oe.utils.less_or_equal" ["'A'"; "'1'"; "'t'"; "'f'"; "d"] "${@ oe.utils.less_or_equal('A','1','t', 'f', d)}" /\
  helper neg "oe.utils.less_or_equal" ["'A'"; "'1'"; "'t'"; "'f'"; "d"] (if neg then "f" else "t").
Proof.
  intro neg. split.
  - exists " ", "'A','1','t', 'f', d". split; [reflexivity|]. split; [spaces|].
    apply (arg_more "'A'" []); [parg|every|notin|]. apply (arg_more "'1'" []); [parg|every|notin|].
    apply (arg_more "'t'" " "); [parg|every|notin|]. apply (arg_more "'f'" " "); [parg|every|notin|].
    apply arg_last. parg.
  - apply help_less; quo cSQ.
Qed.

(** Quotes are taken off at the ends of the argument list only. *)
Example C16_getvar : inlinerep "${@d.getVar('A', True)}" false = Some "${A', True}".
Proof. vm_compute. reflexivity. Qed.

(** The text of an item: every block is replaced in its place. *)
Theorem C16_text : forall e neg i l l' rest, parsed_with e neg i -> it_realraw i = written l rest ->
  shown neg l l' -> ~ occurs "${@" rest -> it_raw i = written l' rest.
Proof. exact C16_text_lemma. Qed.
Print Assumptions C16_text.

Example C16_text_case : forall neg : bool,
  let l : list (str * str) := [("B = """, "${@bb.utils.filter('F', 'a', d)}"); ("b ", "${@ oe.utils.ifelse(c, 't', 'f')}"); ([] : str, "${@d.getVar('V')}"); (" ", "${@u()}")] in
  let l' : list (str * str) := [("B = """, (if neg then [] else "F") : str); ("b ", (if neg then "f" else "t") : str); ([] : str, "${V}"); (" ", "!!!inlineblock!!!")] in
  let rest : str := """" ++ nl in
  parsed_with n_env neg (n_item neg 1) /\ it_realraw (n_item neg 1) = written l rest /\ shown neg l l' /\ ~ occurs "${@" rest /\
  it_raw (n_item neg 1) = written l' rest.
Proof.
  intros neg l l' rest. split; [apply n_parsed; lia|]. split; [rewrite n_real, n_reals by lia; reflexivity|].
  split; [|split; [noc|destruct neg; vm_compute; reflexivity]].
  repeat apply Forall2_cons; [..|apply Forall2_nil]; (split; [reflexivity|]; split; [calm|]; cbn [fst snd]).
  - split; [is_block ("bb.utils.filter('F', 'a', d)" : str)|]. split; [|destruct neg; calm].
    apply (ev_helper neg _ "bb.utils.filter" ["'F'"; "'a'"; "d"]); [|apply help_filter; quo cSQ].
    exists [], "'F', 'a', d". split; [reflexivity|]. split; [intros c []|].
    apply (arg_more "'F'" " "); [parg|every|notin|]. apply (arg_more "'a'" " "); [parg|every|notin|]. apply arg_last. parg.
  - split; [is_block (" oe.utils.ifelse(c, 't', 'f')" : str)|]. split; [|destruct neg; calm].
    apply (ev_helper neg _ "oe.utils.ifelse" ["c"; "'t'"; "'f'"]); [|apply help_ifelse; quo cSQ].
    exists " ", "c, 't', 'f'". split; [reflexivity|]. split; [spaces|].
    apply (arg_more "c" " "); [parg|every|notin|]. apply (arg_more "'t'" " "); [parg|every|notin|]. apply arg_last. parg.
  - split; [is_block ("d.getVar('V')" : str)|]. split; [|calm].
    apply (ev_reads neg _ "V"). exists cSQ. split; [cbn; tauto|]. split; [reflexivity|]. split; [discriminate|]. names.
  - split; [is_block ("u()" : str)|]. split; [|calm]. apply ev_unknown. unkn.
Qed.

(** ** C17: inline code without a meaning for the evaluation *)

(** [text_of i v]: the expansion of variables takes [v] as the text of [i]
    (C44 to C48). *)
Theorem C17_restored : forall e neg i name op l rest, parsed_with e neg i ->
  it_realraw i = name ++ op ++ [cDQ] ++ written l rest ++ [cDQ; cNL] ->
  assignment name op ([cDQ] ++ written l rest ++ [cDQ]) (name ++ op ++ [cDQ] ++ written l rest ++ [cDQ]) ->
  ~ statement_word name -> ~ In cNL (op ++ written l rest) -> ~ In cBSL (op ++ written l rest) ->
  code_value l rest -> text_of i (written l rest).
Proof. exact C17_lemma. Qed.
Print Assumptions C17_restored.

Lemma n_code : code_value [("1 ", "${@foo({'a': 1})}"); (" 2 ", "${@bar()}")] " 3".
Proof.
  split.
  - apply Forall_cons; [|apply Forall_cons; [|apply Forall_nil]].
    + split; [calm|]. split; [|unkn]. exists "foo({'a': 1})". split; [reflexivity|]. split; [|noc].
      do 4 (apply bal_char; [discriminate|discriminate|]). apply (bal_pair "'a': 1" ")"); bal.
    + split; [calm|]. split; [is_block ("bar()" : str)|unkn].
  - split; [repeat constructor; cbn; intuition discriminate|]. split; [noc|]. split; [noc|].
    apply (is_unquoted 49 " ${@foo({'a': 1})} 2 ${@bar()} " 51); discriminate.
Qed.
Lemma n_assign : forall name (v : str), In name ["A"; "C"; "D"; "E"] ->
  assignment name " = " ([cDQ] ++ v ++ [cDQ]) (name ++ " = " ++ [cDQ] ++ v ++ [cDQ]).
Proof.
  intros name v Hn. split; [reflexivity|]. split.
  - repeat (destruct Hn as [<-|Hn]; [split; [discriminate|names]|]). destruct Hn.
  - exists " ". split; [|discriminate]. exists "=", " ". split; [reflexivity|]. split; [every|]. split; [every|].
    split; [cbn; tauto|]. split; [indent|discriminate].
Qed.
Lemma n_word : forall name, In name ["A"; "C"; "D"; "E"] -> ~ statement_word name.
Proof.
  intros name Hn. repeat (destruct Hn as [<-|Hn]; [intros [H|[k H]]; [|discriminate]; revert H; notin|]). destruct Hn.
Qed.
Example C17_case : forall neg : bool,
  let l : list (str * str) := [("1 ", "${@foo({'a': 1})}"); (" 2 ", "${@bar()}")] in let rest : str := " 3" in let i := n_item neg 2 in
  parsed_with n_env neg i /\ it_realraw i = "C" ++ " = " ++ [cDQ] ++ written l rest ++ [cDQ; cNL] /\
  assignment "C" " = " ([cDQ] ++ written l rest ++ [cDQ]) ("C" ++ " = " ++ [cDQ] ++ written l rest ++ [cDQ]) /\
  ~ statement_word "C" /\ ~ In cNL (" = " ++ written l rest) /\ ~ In cBSL (" = " ++ written l rest) /\ code_value l rest /\
  it_raw i = "C = ""1 !!!inlineblock!!! 2 !!!inlineblock!!! 3""" ++ nl.
Proof.
  intros neg l rest i. split; [apply n_parsed; lia|]. split; [unfold i; rewrite n_real, n_reals by lia; reflexivity|].
  split; [apply n_assign; cbn; tauto|]. split; [apply n_word; cbn; tauto|]. split; [notin|]. split; [notin|].
  split; [exact n_code|]. destruct neg; vm_compute; reflexivity.
Qed.

(** With the item given, ExpandTerm puts the code back; references in the
    text stay if they mean nothing or are to be spared. *)
Theorem C17_expand : forall e s file i v spare seen, env_ok e -> reach e s -> text_of i v -> no_code v ->
  (forall n, n <> [] -> (exists a b, v = a ++ reference n ++ b) ->
     In n spare \/ (stands_for s file n None /\ ~ In n ["PN"; "BPN"; "PV"; "FILE"; "THISDIR"])) ->
  expand_term_full e s file (stripped i) spare seen (Some i) = Ok v.
Proof. exact C17_expand_lemma. Qed.
Print Assumptions C17_expand.

Definition name_of_item (i : item) : str := match it_pay i with PVariable n _ _ _ _ _ => n | _ => [] end.
Lemma n_names : forall neg, map name_of_item (st_list (snd (n_run neg))) = ["A"; "B"; "C"; "D"; "E"].
Proof. intros [|]; vm_compute; reflexivity. Qed.
Lemma n_consts : forall neg n, dget n (sets_base (st_const (snd (n_run neg)))) = None.
Proof.
  intros neg n. replace (sets_base (st_const (snd (n_run neg)))) with (@nil (str * str)); [reflexivity|].
  destruct neg; vm_compute; reflexivity.
Qed.
Lemma means_nothing : forall s names file n, map name_of_item (st_list s) = names -> dget n (sets_base (st_const s)) = None ->
  ~ In n names -> stands_for s file n None.
Proof.
  intros s names file n Hs Hc Hn. split; [|exact Hc]. intros i [Hi [_ [sub [subs [v [op [rawn [Hp _]]]]]]]]. apply Hn.
  rewrite <- Hs. replace n with (name_of_item i) by (unfold name_of_item; now rewrite Hp). now apply in_map.
Qed.
Lemma reached : forall e n path off forced autofix neg db,
  reach e (snd (add_file n e path off forced (new_stash autofix neg db))).
Proof.
  intros. exists autofix, neg, db. eapply steps_add; [apply steps_refl|apply surjective_pairing].
Qed.
Example C17_expand_case : forall neg : bool, let i := n_item neg 2 in let v : str := "1 ${@foo({'a': 1})} 2 ${@bar()} 3" in
  env_ok n_env /\ reach n_env (snd (n_run neg)) /\ text_of i v /\ no_code v /\
  (forall n, n <> [] -> (exists a b, v = a ++ reference n ++ b) ->
     stands_for (snd (n_run neg)) "/w/a.bb" n None /\ ~ In n ["PN"; "BPN"; "PV"; "FILE"; "THISDIR"]) /\
  expand_term_full n_env (snd (n_run neg)) "/w/a.bb" (stripped i) [] [] (Some i) = Ok v.
Proof.
  intros neg i v. split; [apply demo_env_ok|]. split.
  { exact (reached n_env 2 "/w/a.bb" 0 None false neg no_const). }
  split.
  { destruct (C17_case neg) as [H1 [H2 [H3 [H4 [H5 [H6 [H7 _]]]]]]].
    exact (C17_restored _ _ _ _ _ _ _ H1 H2 H3 H4 H5 H6 H7). }
  split; [split; vm_compute; reflexivity|]. split.
  - intros n _ Ho. split; [refine (means_nothing _ _ _ n (n_names neg) (n_consts neg n) _)|];
      (intro Hn; repeat (destruct Hn as [<-|Hn]; [refine (not_occurs _ v _ Ho); vm_compute; reflexivity|]); destruct Hn).
  - destruct neg; vm_compute; reflexivity.
Qed.

(** A block that is written twice is put back once. *)
Theorem C17_twice_refuted : exists e neg i name op l rest, parsed_with e neg i /\
  it_realraw i = name ++ op ++ [cDQ] ++ written l rest ++ [cDQ; cNL] /\
  assignment name op ([cDQ] ++ written l rest ++ [cDQ]) (name ++ op ++ [cDQ] ++ written l rest ++ [cDQ]) /\
  Forall (fun pb => quiet (fst pb) /\ block (snd pb) /\ unknown (snd pb)) l /\ ~ occurs "${@" rest /\
  text_of i "${@u()} !!!inlineblock!!!" /\ written l rest = "${@u()} ${@u()}".
Proof.
  exists n_env, false, (n_item false 3), "D", " = ", [([], "${@u()}"); (" ", "${@u()}")], [].
  split; [apply n_parsed; lia|]. split; [rewrite n_real, n_reals by lia; reflexivity|].
  split; [apply n_assign; cbn; tauto|]. split.
  { repeat apply Forall_cons; [..|apply Forall_nil]; (split; [calm|]; split; [is_block ("u()" : str)|unkn]). }
  split; [noc|]. split; [|reflexivity]. split; intro H; [vm_compute in H; discriminate|vm_compute; reflexivity].
Qed.
Print Assumptions C17_twice_refuted.

(** ** C65: blocks with a meaning *)

(** If all blocks are evaluated, the text is the one with their results. *)
Theorem C65_known_partial : forall e neg i name op l l' rest, parsed_with e neg i ->
  it_realraw i = name ++ op ++ [cDQ] ++ written l rest ++ [cDQ; cNL] ->
  assignment name op ([cDQ] ++ written l rest ++ [cDQ]) (name ++ op ++ [cDQ] ++ written l rest ++ [cDQ]) ->
  ~ statement_word name -> ~ In cNL (op ++ written l' rest) -> ~ In cBSL (op ++ written l' rest) ->
  shown neg l l' -> ~ occurs "${@" rest -> unquoted (written l' rest) -> ~ occurs "!!!inlineblock!!!" (written l' rest) ->
  text_of i (written l' rest).
Proof. exact C65_known_lemma. Qed.
Print Assumptions C65_known_partial.

Example C65_case : forall neg : bool,
  let l : list (str * str) := [("x ", "${@bb.utils.contains('M', ""f"", 'yes', 'no', d)}")] in
  let l' : list (str * str) := [("x ", if neg then "no" else "yes")] in let rest : str := " z" in let i := n_item neg 0 in
  parsed_with n_env neg i /\ it_realraw i = "A" ++ " = " ++ [cDQ] ++ written l rest ++ [cDQ; cNL] /\
  assignment "A" " = " ([cDQ] ++ written l rest ++ [cDQ]) ("A" ++ " = " ++ [cDQ] ++ written l rest ++ [cDQ]) /\
  ~ statement_word "A" /\ ~ In cNL (" = " ++ written l' rest) /\ ~ In cBSL (" = " ++ written l' rest) /\
  shown neg l l' /\ ~ occurs "${@" rest /\ unquoted (written l' rest) /\ ~ occurs "!!!inlineblock!!!" (written l' rest) /\
  stripped i = written l' rest.
Proof.
  intros neg l l' rest i. destruct (C15_case neg) as [H1 [H2 [H3 [H4 [H5 [H6 [H7 [H8 [H9 _]]]]]]]]].
  split; [exact H1|]. split; [exact H2|].
  split; [apply n_assign; cbn; tauto|]. split; [apply n_word; cbn; tauto|].
  split; [destruct neg; notin|]. split; [destruct neg; notin|]. split.
  - apply Forall2_cons; [|apply Forall2_nil]. split; [reflexivity|]. split; [calm|]. split; [exact H4|].
    split; [|exact H6]. exact (ev_helper neg _ _ _ _ H7 (help_contains neg _ _ _ _ _ _ _ H8 H9)).
  - split; [noc|]. split; [|split; [destruct neg; noc|destruct neg; vm_compute; reflexivity]].
    destruct neg; [apply (is_unquoted 120 " no " 122)|apply (is_unquoted 120 " yes " 122)]; discriminate.
Qed.

(** A block that is evaluated beside one that is not: the text is neither as
    written nor the evaluated one with the other block put back. *)
Theorem C65_refuted : exists e neg i name op l l' rest v, parsed_with e neg i /\
  it_realraw i = name ++ op ++ [cDQ] ++ written l rest ++ [cDQ; cNL] /\
  assignment name op ([cDQ] ++ written l rest ++ [cDQ]) (name ++ op ++ [cDQ] ++ written l rest ++ [cDQ]) /\
  ~ statement_word name /\ ~ In cNL (op ++ written l rest) /\ ~ In cBSL (op ++ written l rest) /\
  shown neg l l' /\ NoDup (map snd l) /\ ~ occurs "${@" rest /\ text_of i v /\
  v = "${@bb.utils.contains('M', 'f', 'b', 'n', d)} b ${@u()}" /\
  written l rest = "b ${@bb.utils.contains('M', 'f', 'b', 'n', d)} ${@u()}" /\
  written l' rest = "b b !!!inlineblock!!!".
Proof.
  exists n_env, false, (n_item false 4), "E", " = ", [("b ", "${@bb.utils.contains('M', 'f', 'b', 'n', d)}"); (" ", "${@u()}")],
    [("b ", "b"); (" ", "!!!inlineblock!!!")], [], "${@bb.utils.contains('M', 'f', 'b', 'n', d)} b ${@u()}".
  split; [apply n_parsed; lia|]. split; [rewrite n_real, n_reals by lia; reflexivity|].
  split; [apply n_assign; cbn; tauto|]. split; [apply n_word; cbn; tauto|]. split; [notin|]. split; [notin|]. split.
  { repeat apply Forall2_cons; [..|apply Forall2_nil]; (split; [reflexivity|]; split; [calm|]; cbn [fst snd]).
    - split; [is_block ("bb.utils.contains('M', 'f', 'b', 'n', d)" : str)|]. split; [|calm].
      apply (ev_helper false _ "bb.utils.contains" ["'M'"; "'f'"; "'b'"; "'n'"; "d"]);
        [|apply (help_contains false _ _ _ _ "b" "n"); quo cSQ].
      exists [], "'M', 'f', 'b', 'n', d". split; [reflexivity|]. split; [intros c []|].
      apply (arg_more "'M'" " "); [parg|every|notin|]. apply (arg_more "'f'" " "); [parg|every|notin|].
      apply (arg_more "'b'" " "); [parg|every|notin|]. apply (arg_more "'n'" " "); [parg|every|notin|].
      apply arg_last. parg.
    - split; [is_block ("u()" : str)|]. split; [|calm]. apply ev_unknown. unkn. }
  split; [repeat constructor; cbn; intuition discriminate|]. split; [noc|].
  split; [split; intro H; [vm_compute in H; discriminate|vm_compute; reflexivity]|]. repeat split.
Qed.
Print Assumptions C65_refuted.
