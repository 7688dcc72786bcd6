(** * Properties C42-C49, C75-C78, C98: expansion *)

From Verif Require Import PyStr Regex Patterns PyPath Res Inline Const Item Lines Stash Demo StrFacts
  ReachFacts Spec_Query Spec_Expand Proofs_Expand VarFacts Proofs_Words.
From Coq Require Import Permutation Sorted.

(** ** The states of the examples *)

Definition x_db : cval := CDict [ ("sets", CDict [("base", CDict [("C", CStr "c ${D}"); ("D", CStr "d"); ("B", CStr "not")])]) ].
Definition x_files : list (str * str) :=
  [ ("/w/rec_1.2.bb", "A = ""x ${B} ${PN}-${PV} ${NO}""" ++ nl ++ "B += ""more""" ++ nl ++ "B = ""y${C}""" ++ nl ++ "B = ""z""" ++ nl
      ++ "L = ""${M}x""" ++ nl ++ "M = ""${L} m""" ++ nl);
    ("/w/ops.bb", "V ?= ""a""" ++ nl ++ "V += ""b""" ++ nl ++ "V_append = ""c""" ++ nl ++ "V =. ""d""" ++ nl ++ "W = ""w""" ++ nl
      ++ "V_prepend = ""e """ ++ nl ++ "V_remove = ""b""" ++ nl ++ "unset W" ++ nl ++ "W .= ""u""" ++ nl);
    ("/w/tie.bb", "inherit k" ++ nl ++ "inherit j" ++ nl);
    ("/w/classes/k.bbclass", "K = ""1""" ++ nl ++ "T = ""2""" ++ nl); ("/w/classes/j.bbclass", "T = ""3""" ++ nl);
    ("/w/s1.bb", "S = ""a""" ++ nl); ("/w/s2.bb", "S =""a""" ++ nl);
    ("/w/rm.bb", "R_remove = ""aba""" ++ nl ++ "R_prepend = ""xab""" ++ nl);
    ("/w/word.bb", "R = ""ab a""" ++ nl ++ "R_remove = ""a""" ++ nl);
    ("/w/weak.bb", "R ??= ""a""" ++ nl ++ "R ?= ""b""" ++ nl ++ "R ??= ""c""" ++ nl);
    ("/w/code.bb", "R = ""a""" ++ nl ++ "R += ""${@b()}""" ++ nl);
    ("/w/gone.bb", "R = ""x ab  c ab""" ++ nl ++ "R_remove = ""ab""" ++ nl);
    ("/w/last.bb", "R = ""b""" ++ nl ++ "R ??= ""c""" ++ nl); ("/w/leak.bb", "R_append = ""${@b()}""" ++ nl) ].
Definition x_env : env := demo_env x_files ["/w"; "/w/classes"; "/"].
Definition x_start : stash := new_stash false false x_db.
Definition x_add (p : str) : stash := snd (add_file 4 x_env p 0 None x_start).
Lemma x_reach : forall p, reach x_env (x_add p).
Proof.
  intro p. exists false, false, x_db. eapply steps_add; [apply steps_refl|apply surjective_pairing].
Qed.
Lemma x_ok : env_ok x_env. Proof. apply demo_env_ok. Qed.
Definition x_stash : stash := x_add "rec_1.2.bb".
Definition x_file : str := "/w/rec_1.2.bb".


(** ** C42: ExpandTerm ends, with a text or an error of reading a file *)

Theorem C42_ends : forall e s file value spare seen objref, env_ok e ->
  (exists w, expand_term_full e s file value spare seen objref = Ok w) \/
  expand_term_full e s file value spare seen objref = Raise OSError.
Proof. exact C42_lemma. Qed.
Print Assumptions C42_ends.

(** Variables that refer to each other. *)
Example C42_case : expand_term x_env x_stash x_file "${L}|${M}|${L}" = Ok " mx| m| mx".
Proof. vm_compute. reflexivity. Qed.

(** ** C43: text without references *)

Theorem C43_plain : forall e s file value spare seen, plain_text value ->
  expand_term_full e s file value spare seen None = Ok value.
Proof. intros e s file value spare seen [H1 H2]. exact (C43_lemma e s file value spare seen H1 H2). Qed.
Print Assumptions C43_plain.

Example C43_case : plain_text "a $B {C} @d" /\ expand_term x_env x_stash x_file "a $B {C} @d" = Ok "a $B {C} @d".
Proof. split; [repeat split|]; vm_compute; reflexivity. Qed.

(** ** C44: references that stay *)

Theorem C44_kept : forall e s file value spare seen, env_ok e -> reach e s -> no_code value ->
  (forall n, n <> [] -> (exists a b, value = a ++ reference n ++ b) ->
     In n spare \/ (stands_for s file n None /\ ~ In n ["PN"; "BPN"; "PV"; "FILE"; "THISDIR"])) ->
  expand_term_full e s file value spare seen None = Ok value.
Proof. exact C44_lemma. Qed.
Print Assumptions C44_kept.

Example C44_case : stands_for x_stash x_file "NO" None /\
  expand_term_full x_env x_stash x_file "${NO}/${B}" ["B"] [] None = Ok "${NO}/${B}".
Proof.
  split; [|vm_compute; reflexivity]. pose proof (content_stands x_env x_stash x_file "NO" x_ok (x_reach _)) as H.
  replace (ExpandFacts.content_of x_env x_stash x_file "NO") with (@None str) in H by (vm_compute; reflexivity). apply H. discriminate.
Qed.

(** ** C45: the meaning of a text *)

(** Each reference becomes the expanded text of its name, and that is the first
    definition, else the base set, else the built-in value. *)
Theorem C45_expand : forall e s file, env_ok e -> reach e s ->
  exists known, (forall n, n <> [] -> stands_for s file n (known n)) /\
  forall spare v w, no_code v -> expands known (fun n => dget n (builtins file)) spare v w ->
    expand_term_full e s file v spare [] None = Ok w.
Proof. exact C45_lemma. Qed.
Print Assumptions C45_expand.

(** If no two definitions of a name are on the same line the text of a name is
    determined by the items. *)
Theorem C45_exact : forall e s file known, env_ok e -> reach e s ->
  (forall n i j, definition s file n i -> definition s file n j -> it_line i = it_line j -> i = j) ->
  (forall n, n <> [] -> stands_for s file n (known n)) ->
  forall spare v w, no_code v -> expands known (fun n => dget n (builtins file)) spare v w ->
    expand_term_full e s file v spare [] None = Ok w.
Proof. exact C45_exact_lemma. Qed.
Print Assumptions C45_exact.

Definition x_known : str -> option str := ExpandFacts.content_of x_env x_stash x_file.
Ltac ex_text := repeat (apply ex_char; [discriminate|]); try apply ex_end.
Ltac plain := split; [discriminate|repeat split; intros H; repeat (destruct H as [H|H]; [discriminate H|]); destruct H].
Lemma x_B : expands x_known (fun n => dget n (builtins x_file)) [] "y${C}" "yc d".
Proof.
  ex_text. apply (ex_known _ _ [] "C" "c ${D}" "c d" [] []); [plain|intros []|vm_compute; reflexivity|split; reflexivity| |apply ex_end].
  ex_text. apply (ex_known _ _ [] "D" "d" "d" [] []); [plain|intros []|vm_compute; reflexivity|split; reflexivity| |apply ex_end].
  ex_text.
Qed.
Example C45_case : no_code "${A}:${B}" /\
  expands x_known (fun n => dget n (builtins x_file)) [] "${A}:${B}" "x yc d rec-1.2 ${NO}:yc d" /\
  expand_term x_env x_stash x_file "${A}:${B}" = Ok "x yc d rec-1.2 ${NO}:yc d".
Proof.
  split; [split; reflexivity|]. split; [|vm_compute; reflexivity].
  apply (ex_known _ _ [] "A" "x ${B} ${PN}-${PV} ${NO}" "x yc d rec-1.2 ${NO}" ":${B}" ":yc d");
    [plain|intros []|vm_compute; reflexivity|split; reflexivity| |].
  - ex_text. apply (ex_known _ _ [] "B" "y${C}" "yc d" " ${PN}-${PV} ${NO}" " rec-1.2 ${NO}");
      [plain|intros []|vm_compute; reflexivity|split; reflexivity|exact x_B|].
    ex_text. apply (ex_builtin _ _ [] "PN" "rec" "-${PV} ${NO}" "-1.2 ${NO}");
      [plain|intros []|vm_compute; reflexivity|vm_compute; reflexivity|cbv; intuition discriminate|].
    ex_text. apply (ex_builtin _ _ [] "PV" "1.2" " ${NO}" " ${NO}");
      [plain|intros []|vm_compute; reflexivity|vm_compute; reflexivity|cbv; intuition discriminate|].
    ex_text. apply (ex_unknown _ _ [] "NO" [] []); [plain|intros []|vm_compute; reflexivity|vm_compute; reflexivity|apply ex_end].
  - ex_text. apply (ex_known _ _ [] "B" "y${C}" "yc d" [] []);
      [plain|intros []|vm_compute; reflexivity|split; reflexivity|exact x_B|apply ex_end].
Qed.

(** Otherwise the iteration order of sets decides, as for two classes whose
    items get the same line numbers. *)
Definition x_rev : env :=
  MkEnv (e_fs x_env) (fun l => rev (dedup_items l)) (fun l => rev (dedup_str l)) (e_repr x_env) (e_url x_env).
Theorem C45_refuted : exists e e' s file v, env_ok e /\ env_ok e' /\ reach e s /\ reach e' s /\
  expand_term e s file v <> expand_term e' s file v.
Proof.
  exists x_env, x_rev, (x_add "tie.bb"), "/w/tie.bb", "${T}".
  split; [apply x_ok|]. split; [split; intro l; simpl; symmetry; apply Permutation_rev|]. split; [apply x_reach|].
  split; [|vm_compute; discriminate].
  replace (x_add "tie.bb") with (snd (add_file 4 x_rev "tie.bb" 0 None x_start)) by (vm_compute; reflexivity).
  exists false, false, x_db. eapply steps_add; [apply steps_refl|apply surjective_pairing].
Qed.
Print Assumptions C45_refuted.

(** ** C78: a text is expanded part by part *)

Theorem C78_concat : forall e s file, env_ok e -> reach e s ->
  exists known, (forall n, n <> [] -> stands_for s file n (known n)) /\
  forall a b x y, no_code a -> no_code b -> no_code (a ++ b) ->
    expands known (fun n => dget n (builtins file)) [] a x -> expands known (fun n => dget n (builtins file)) [] b y ->
    expand_term e s file a = Ok x /\ expand_term e s file b = Ok y /\ expand_term e s file (a ++ b) = Ok (x ++ y).
Proof. exact C78_lemma. Qed.
Print Assumptions C78_concat.

(** Not so with variables that refer to each other. *)
Theorem C78_refuted : exists e s file a b x y z, env_ok e /\ reach e s /\ no_code (a ++ b) /\
  expand_term e s file a = Ok x /\ expand_term e s file b = Ok y /\ expand_term e s file (a ++ b) = Ok z /\ z <> x ++ y.
Proof.
  exists x_env, x_stash, x_file, "${L}", "${M}", " mx", "x m", " mx m".
  split; [apply x_ok|]. split; [apply x_reach|]. split; [split; reflexivity|].
  split; [vm_compute; reflexivity|]. split; [vm_compute; reflexivity|]. split; [vm_compute; reflexivity|discriminate].
Qed.
Print Assumptions C78_refuted.

(** ** C46-C48: ExpandVar *)

(** The items are taken in line order.  The words of a variable come from its
    preset value, changed by what its statements do: first those that act at
    once, then append and prepend, then remove. *)
Theorem C46_assigned : forall e s file att val nolink d, env_ok e -> reach e s ->
  NoDup (dkeys (sets_base (st_const s))) -> (forall k, In k (dkeys (sets_base (st_const s))) -> plain_text k) ->
  expand_var e s (Some file) att val nolink = Ok d ->
  exists l,
    (forall i, In i l <-> In i (st_list s) /\
       (selected s (MkQuery (Some file) (AOne "Variable") att val nolink) i \/
        selected s (MkQuery (Some file) (AOne "Unset") ANone ANone false) i)) /\
    NoDup (map it_id l) /\ StronglySorted by_line l /\
    ((forall i, In i l -> plain_text (item_name_nomod i)) ->
     forall n evs, history n l evs ->
       (fold_left at_once evs (preset s file n) = None -> forall v, ~ In (LateRemoves v) evs) ->
       match assigned (preset s file n) evs with
       | Some v => exists w, expand_term e s file v = Ok w /\ dget n d = Some (safe_linesplit w)
       | None => dget n d = None \/ (left_over evs /\ dget n d = Some [])
       end).
Proof. exact C46_lemma. Qed.
Print Assumptions C46_assigned.

Definition op_items : list item := sort_items (expand_var_items x_env (x_add "ops.bb") (Some "/w/ops.bb") ANone ANone false).
Definition op_words (n : str) (p : str) : option (list str) :=
  match expand_var x_env (x_add p) (Some ("/w/" ++ p)) ANone ANone false with Ok d => dget n d | _ => None end.
Ltac ev f := match goal with |- does _ ?i ?x => replace x with (f (stripped i)) by (vm_compute; reflexivity) end.
Ltac at_now f := ev f; eapply (does_now _ _ _ _ _ _ _ _ f); [reflexivity|reflexivity| |reflexivity|constructor];
  let x := fresh in let H := fresh in intros x _ H; exact H.
Ltac not_in := let H := fresh in intro H; repeat (destruct H as [H|H]; [discriminate H|]); exact H.
Example C46_case :
  history "V" op_items [Defaults "a"; AddsWord "b"; LateAdds "c"; Leads "d"; LateLeads "e "; LateRemoves "b"] /\
  assigned None [Defaults "a"; AddsWord "b"; LateAdds "c"; Leads "d"; LateLeads "e "; LateRemoves "b"] = Some "e da c" /\
  op_words "V" "ops.bb" = Some ["e"; "da"; "c"].
Proof.
  split; [|split; vm_compute; reflexivity].
  let l := eval vm_compute in op_items in replace op_items with l by (vm_compute; reflexivity).
  apply hist_does with (x := Defaults "a").
  { at_now Defaults. }
  apply hist_does with (x := AddsWord "b").
  { at_now AddsWord. }
  apply hist_does with (x := LateAdds "c").
  { ev LateAdds. eapply does_append; [reflexivity|reflexivity|now left|not_in]. }
  apply hist_does with (x := Leads "d").
  { at_now Leads. }
  apply hist_other; [discriminate|].
  apply hist_does with (x := LateLeads "e ").
  { ev LateLeads. eapply does_prepend; [reflexivity|reflexivity|now left|not_in|not_in]. }
  apply hist_does with (x := LateRemoves "b").
  { ev LateRemoves. eapply does_remove; [reflexivity|reflexivity|now left|not_in|not_in]. }
  apply hist_other; [intros [H _]; discriminate|]. apply hist_other; [discriminate|]. apply hist_nil.
Qed.

(** Removing from a variable without a value spoils what is added. *)
Theorem C47_refuted : exists e s file d evs l, env_ok e /\ reach e s /\
  expand_var e s (Some file) ANone ANone false = Ok d /\
  (forall i, In i l <-> In i (st_list s)) /\ StronglySorted by_line l /\ history "R" l evs /\
  assigned (preset s file "R") evs = Some "xab" /\ dget "R" d = Some ["xba"].
Proof.
  exists x_env, (x_add "rm.bb"), "/w/rm.bb".
  eexists. exists [LateRemoves "aba"; LateLeads "xab"], (st_list (x_add "rm.bb")).
  split; [apply x_ok|]. split; [apply x_reach|]. split; [vm_compute; reflexivity|]. split; [tauto|].
  let l := eval vm_compute in (st_list (x_add "rm.bb")) in replace (st_list (x_add "rm.bb")) with l by (vm_compute; reflexivity).
  split; [|split; [|split; vm_compute; reflexivity]].
  - repeat constructor; unfold by_line; simpl; lia.
  - apply hist_does; [ev LateRemoves; eapply does_remove; [reflexivity|reflexivity|now left|not_in|not_in]|].
    apply hist_does; [ev LateLeads; eapply does_prepend; [reflexivity|reflexivity|now left|not_in|not_in]|]. apply hist_nil.
Qed.
Print Assumptions C47_refuted.

(** C48: what acts at once before an unset does not matter. *)
Theorem C48_unset : forall e s file att val nolink d, env_ok e -> reach e s ->
  NoDup (dkeys (sets_base (st_const s))) -> (forall k, In k (dkeys (sets_base (st_const s))) -> plain_text k) ->
  expand_var e s (Some file) att val nolink = Ok d ->
  exists l,
    (forall i, In i l <-> In i (st_list s) /\
       (selected s (MkQuery (Some file) (AOne "Variable") att val nolink) i \/
        selected s (MkQuery (Some file) (AOne "Unset") ANone ANone false) i)) /\
    NoDup (map it_id l) /\ StronglySorted by_line l /\
    ((forall i, In i l -> plain_text (item_name_nomod i)) ->
     forall n before u after evs evs', l = before ++ u :: after -> it_pay u = PUnset n [] ->
       history n before evs -> (forall v, ~ In (LateAdds v) evs /\ ~ In (LateLeads v) evs /\ ~ In (LateRemoves v) evs) ->
       history n after evs' -> (fold_left at_once evs' None = None -> forall v, ~ In (LateRemoves v) evs') ->
       match assigned None evs' with
       | Some v => exists w, expand_term e s file v = Ok w /\ dget n d = Some (safe_linesplit w)
       | None => dget n d = None \/ (In Ignored evs' /\ dget n d = Some [])
       end).
Proof. exact C48_lemma. Qed.
Print Assumptions C48_unset.
(** An unset of a flag concerns no variable. *)
Theorem C48_flag : forall n m f i l evs, it_pay i = PUnset m f -> f <> [] -> history n l evs -> history n (i :: l) evs.
Proof. exact C48_flag_lemma. Qed.
Print Assumptions C48_flag.
Example C48_case : history "W" op_items [Sets "w"; Unsets; Adds "u"] /\ op_words "W" "ops.bb" = Some ["u"].
Proof.
  split; [|vm_compute; reflexivity].
  let l := eval vm_compute in op_items in replace op_items with l by (vm_compute; reflexivity).
  do 4 (apply hist_other; [discriminate|]).
  apply hist_does with (x := Sets "w").
  { at_now Sets. }
  do 2 (apply hist_other; [discriminate|]).
  apply hist_does; [now apply does_unset|].
  apply hist_does with (x := Adds "u").
  { at_now Adds. }
  apply hist_nil.
Qed.

(** ** C49, C75, C76, C77, C98: what does not hold, and what does instead *)

(** White space around the operator: without it the assignment is ignored. *)
Theorem C49_refuted : exists e s s' file d d', env_ok e /\ reach e s /\ reach e s' /\
  map it_pay (st_list s) = [PVariable "S" [] [] """a""" " = " "S"] /\
  map it_pay (st_list s') = [PVariable "S" [] [] """a""" " =" "S"] /\
  expand_var e s (Some file) ANone ANone false = Ok d /\ expand_var e s' (Some file) ANone ANone false = Ok d' /\
  dget "S" d = Some ["a"] /\ dget "S" d' = Some [].
Proof.
  set (g := fun i => MkItem (it_id i) (it_line i) (it_infile i) (it_raw i) (it_realraw i) "/w/s1.bb" (it_incfrom i) (it_blocks i) (it_new i) (it_pay i)).
  exists x_env, (x_add "s1.bb"), (with_list (map g (st_list (x_add "s2.bb"))) (x_add "s2.bb")), "/w/s1.bb". eexists. eexists.
  split; [apply x_ok|]. split; [apply x_reach|]. split.
  { destruct (x_reach "s2.bb") as [nw [neg [db H]]]. exists nw, neg, db. apply steps_edit; [exact H|reflexivity]. }
  do 5 (split; [vm_compute; reflexivity|]). vm_compute. reflexivity.
Qed.
Print Assumptions C49_refuted.

(** A statement with another operator text does nothing.  What is missing: it
    should do what the same statement with one blank on each side does. *)
Theorem C49_ignored_partial : forall e s file att val nolink d, env_ok e -> reach e s ->
  NoDup (dkeys (sets_base (st_const s))) -> (forall k, In k (dkeys (sets_base (st_const s))) -> plain_text k) ->
  expand_var e s (Some file) att val nolink = Ok d ->
  exists l,
    (forall i, In i l <-> In i (st_list s) /\
       (selected s (MkQuery (Some file) (AOne "Variable") att val nolink) i \/
        selected s (MkQuery (Some file) (AOne "Unset") ANone ANone false) i)) /\
    NoDup (map it_id l) /\ StronglySorted by_line l /\
    ((forall i, In i l -> plain_text (item_name_nomod i)) ->
     forall n evs, history n l evs ->
       (fold_left at_once evs (preset s file n) = None -> forall v, ~ In (LateRemoves v) evs) ->
       match assigned (preset s file n) (filter effective evs) with
       | Some v => exists w, expand_term e s file v = Ok w /\ dget n d = Some (safe_linesplit w)
       | None => dget n d = None \/ dget n d = Some []
       end).
Proof. exact C49_lemma. Qed.
Print Assumptions C49_ignored_partial.
Definition items_of (p : str) : list item := sort_items (expand_var_items x_env (x_add p) (Some ("/w/" ++ p)) ANone ANone false).
Ltac items p := let l := eval vm_compute in (items_of p) in replace (items_of p) with l by (vm_compute; reflexivity).
Ltac not_late := let x := fresh in let H := fresh in intros x _ H; exact H.
Example C49_case : history "S" (items_of "s2.bb") [Ignored] /\ op_words "S" "s2.bb" = Some [].
Proof.
  split; [|vm_compute; reflexivity]. items ("s2.bb" : str). apply hist_does; [|apply hist_nil].
  eapply does_nothing; [reflexivity|reflexivity|not_late|reflexivity|]. intros f H. inversion H.
Qed.

(** Remove does not take out words, but parts of words. *)
Theorem C75_refuted : exists e s file d i j, env_ok e /\ reach e s /\
  expand_var e s (Some file) ANone ANone false = Ok d /\ st_list s = [i; j] /\
  history "R" [i; j] [Sets (stripped i); LateRemoves (stripped j)] /\
  dget "R" d <> Some (filter (fun w => negb (mem_str w (safe_linesplit (stripped j)))) (safe_linesplit (stripped i))).
Proof.
  exists x_env, (x_add "word.bb"), "/w/word.bb". eexists. eexists. eexists.
  split; [apply x_ok|]. split; [apply x_reach|]. split; [vm_compute; reflexivity|]. split; [vm_compute; reflexivity|].
  split; [|vm_compute; discriminate].
  apply hist_does; [at_now Sets|]. apply hist_does; [|apply hist_nil].
  eapply does_remove; [reflexivity|reflexivity|now left|not_in|not_in].
Qed.
Print Assumptions C75_refuted.

(** Words do go if every word that contains a removed text is that text.  What is
    missing: other words should stay as they are, and a removal of several words
    should remove each. *)
Theorem C75_words_partial : forall e s file att val nolink d, env_ok e -> reach e s ->
  NoDup (dkeys (sets_base (st_const s))) -> (forall k, In k (dkeys (sets_base (st_const s))) -> plain_text k) ->
  expand_var e s (Some file) att val nolink = Ok d ->
  exists l,
    (forall i, In i l <-> In i (st_list s) /\
       (selected s (MkQuery (Some file) (AOne "Variable") att val nolink) i \/
        selected s (MkQuery (Some file) (AOne "Unset") ANone ANone false) i)) /\
    NoDup (map it_id l) /\ StronglySorted by_line l /\
    ((forall i, In i l -> plain_text (item_name_nomod i)) ->
     forall n evs u, history n l evs -> fold_left at_once evs (preset s file n) <> None ->
       fold_left late_add evs (fold_left at_once evs (preset s file n)) = Some u -> plain_text u -> ~ In cESC u ->
       (forall r, In (LateRemoves r) evs ->
          r <> [] /\ no_space r /\ forall w, In w (safe_linesplit u) -> contains r w = true -> w = r) ->
       dget n d = Some (filter (fun w => negb (gone evs w)) (safe_linesplit u))).
Proof. exact C75_lemma. Qed.
Print Assumptions C75_words_partial.
Example C75_case : history "R" (items_of "gone.bb") [Sets "x ab  c ab"; LateRemoves "ab"] /\
  (forall w, In w (safe_linesplit "x ab  c ab") -> contains "ab" w = true -> w = "ab") /\
  op_words "R" "gone.bb" = Some ["x"; "c"].
Proof.
  split; [|split; [|vm_compute; reflexivity]].
  - items ("gone.bb" : str). apply hist_does; [at_now Sets|]. apply hist_does; [|apply hist_nil].
    ev LateRemoves. eapply does_remove; [reflexivity|reflexivity|now left|not_in|not_in].
  - intros w H. vm_compute in H. repeat (destruct H as [<-|H]; [vm_compute; congruence|]). destruct H.
Qed.

(** The weak default comes first although there is a default, and the first weak
    default counts although a later one should. *)
Theorem C76_refuted : exists e s file d, env_ok e /\ reach e s /\
  expand_var e s (Some file) ANone ANone false = Ok d /\
  map (fun i => (item_name_nomod i, var_op i, stripped i)) (st_list s) =
    [("R", " ??= ", "a"); ("R", " ?= ", "b"); ("R", " ??= ", "c")] /\
  dget "R" d = Some ["a"].
Proof.
  exists x_env, (x_add "weak.bb"), "/w/weak.bb". eexists.
  split; [apply x_ok|]. split; [apply x_reach|]. split; [vm_compute; reflexivity|]. split; vm_compute; reflexivity.
Qed.
Print Assumptions C76_refuted.

(** A weak default after all other statements gives the value only if they give
    none.  What is missing: the same for weak defaults before other statements. *)
Theorem C76_last_partial : forall e s file att val nolink d, env_ok e -> reach e s ->
  NoDup (dkeys (sets_base (st_const s))) -> (forall k, In k (dkeys (sets_base (st_const s))) -> plain_text k) ->
  expand_var e s (Some file) att val nolink = Ok d ->
  exists l,
    (forall i, In i l <-> In i (st_list s) /\
       (selected s (MkQuery (Some file) (AOne "Variable") att val nolink) i \/
        selected s (MkQuery (Some file) (AOne "Unset") ANone ANone false) i)) /\
    NoDup (map it_id l) /\ StronglySorted by_line l /\
    ((forall i, In i l -> plain_text (item_name_nomod i)) ->
     forall n before i m sub subs v rawn evs, l = before ++ [i] ->
       it_pay i = PVariable m sub subs v " ??= " rawn -> item_name_nomod i = n ->
       (forall x, In x ["append"; "prepend"; "remove"] -> ~ In x subs) -> contains INLINE_BLOCK (stripped i) = false ->
       history n before evs -> prompt evs ->
       exists w, expand_term e s file (match assigned (preset s file n) evs with Some w => w | None => stripped i end) = Ok w /\
                 dget n d = Some (safe_linesplit w)).
Proof. exact C76_lemma. Qed.
Print Assumptions C76_last_partial.
Example C76_case : map var_op (items_of "last.bb") = [" = "; " ??= "] /\ op_words "R" "last.bb" = Some ["b"].
Proof. split; vm_compute; reflexivity. Qed.

(** Inline code replaces the value whatever the operator is. *)
Theorem C77_refuted : exists e s file d, env_ok e /\ reach e s /\
  expand_var e s (Some file) ANone ANone false = Ok d /\
  map (fun i => (item_name_nomod i, var_op i, it_raw i)) (st_list s) =
    [("R", " = ", "R = ""a""" ++ nl); ("R", " += ", "R += ""!!!inlineblock!!!""" ++ nl)] /\
  map it_realraw (st_list s) = ["R = ""a""" ++ nl; "R += ""${@b()}""" ++ nl] /\
  dget "R" d = Some ["${@b()}"].
Proof.
  exists x_env, (x_add "code.bb"), "/w/code.bb". eexists.
  split; [apply x_ok|]. split; [apply x_reach|]. split; [vm_compute; reflexivity|]. split; [vm_compute; reflexivity|].
  split; vm_compute; reflexivity.
Qed.
Print Assumptions C77_refuted.

(** An assignment with inline code that acts at once discards what was there, so
    that it acts according to its operator if this sets the value.  What is
    missing: the other operators. *)
Theorem C77_code_partial : forall e s file att val nolink d, env_ok e -> reach e s ->
  NoDup (dkeys (sets_base (st_const s))) -> (forall k, In k (dkeys (sets_base (st_const s))) -> plain_text k) ->
  expand_var e s (Some file) att val nolink = Ok d ->
  exists l,
    (forall i, In i l <-> In i (st_list s) /\
       (selected s (MkQuery (Some file) (AOne "Variable") att val nolink) i \/
        selected s (MkQuery (Some file) (AOne "Unset") ANone ANone false) i)) /\
    NoDup (map it_id l) /\ StronglySorted by_line l /\
    ((forall i, In i l -> plain_text (item_name_nomod i)) ->
     forall n before i after m sub subs v op rawn evs evs', l = before ++ i :: after ->
       it_pay i = PVariable m sub subs v op rawn -> item_name_nomod i = n ->
       (forall x, In x ["append"; "prepend"; "remove"] -> ~ In x subs) -> contains INLINE_BLOCK (stripped i) = true ->
       history n before evs -> prompt evs -> history n after evs' ->
       (fold_left at_once evs' (Some (reverse_inline_block i)) = None -> forall v, ~ In (LateRemoves v) evs') ->
       match assigned (Some (reverse_inline_block i)) evs' with
       | Some v => exists w, expand_term e s file v = Ok w /\ dget n d = Some (safe_linesplit w)
       | None => dget n d = None \/ dget n d = Some []
       end).
Proof. exact C77_lemma. Qed.
Print Assumptions C77_code_partial.
Example C77_case : map (fun i => (contains INLINE_BLOCK (stripped i), reverse_inline_block i)) (items_of "code.bb") =
    [(false, "a"); (true, "${@b()}")] /\ history "R" (firstn 1 (items_of "code.bb")) [Sets "a"] /\
  op_words "R" "code.bb" = Some ["${@b()}"].
Proof.
  split; [vm_compute; reflexivity|]. split; [|vm_compute; reflexivity].
  items ("code.bb" : str). cbn [firstn]. apply hist_does; [at_now Sets|apply hist_nil].
Qed.

(** Appended inline code is not put back: the value shows the internal text that
    stands for it.  C77_code_partial has what holds for other assignments. *)
Theorem C98_refuted : exists e s file d, env_ok e /\ reach e s /\
  expand_var e s (Some file) ANone ANone false = Ok d /\
  map it_realraw (st_list s) = ["R_append = ""${@b()}""" ++ nl] /\ dget "R" d = Some ["!!!inlineblock!!!"].
Proof.
  exists x_env, (x_add "leak.bb"), "/w/leak.bb". eexists.
  split; [apply x_ok|]. split; [apply x_reach|]. split; [vm_compute; reflexivity|]. split; vm_compute; reflexivity.
Qed.
Print Assumptions C98_refuted.
