(** * Theorems about the classification of lines *)

From Verif Require Import PyStr Regex UniTable Patterns PyPath Res Inline Const Item Lines Stash
  StrFacts Demo Spec_Parse Proofs_Parse Proofs_Stmt Proofs_Stmt2 Proofs_Stmt3 Proofs_Name.

(** ** The recipe of the examples *)

Definition p_text : str :=
  "  # text" ++ nl ++
  "SRC:a += " ++ [cDQ] ++ "x = y" ++ [cDQ] ++ nl ++
  "do_x[noexec] = " ++ [cDQ] ++ "1" ++ [cDQ] ++ nl ++
  " inherit_defer  a b" ++ nl ++
  "EXPORT_FUNCTIONS do_a do_b" ++ nl ++
  "deltask do_a # why" ++ nl ++
  "addtask do_a before do_b do_c after do_d # why" ++ nl ++
  "export A = " ++ [cDQ] ++ "b=c" ++ [cDQ] ++ nl ++
  "export B" ++ nl ++
  "addpylib ${LAYERDIR}/lib oe" ++ nl ++
  "addfragments conf/x VAR VARF" ++ nl ++
  "include_all conf/y.inc" ++ nl ++
  "require z.inc" ++ nl ++
  "unset c" ++ nl ++
  "unset ABC" ++ nl ++
  "unset c[f]" ++ nl ++
  "unset ABC[f]" ++ nl ++
  "def py_x(d):" ++ nl ++ "    return d" ++ nl ++
  "INHERIT .= 'c d' # e" ++ nl.
Definition p_env : env := demo_env [("/w/a.bb", p_text)] [].
Notation p_run := (add_file 2 p_env "/w/a.bb" 0 None demo_stash).
Definition p_dflt : item := mk_item (MkParam 0 0 0 [] [] [] [] false) false PItem.
Definition p_item (k : nat) : item := nth k (st_list (snd p_run)) p_dflt.

(** Its lines and what became of them. *)
Definition p_lines : list (str * payload) :=
  [ ("  # text", PComment);
    ("SRC:a += ""x = y""", PVariable "SRC" "a" ["a"] """x = y""" " += " "SRC");
    ("do_x[noexec] = ""1""", PFlagAssignment "do_x" "noexec" """1""" " = ");
    (" inherit_defer  a b", PInherit "a b" "inherit_defer" []);
    ("EXPORT_FUNCTIONS do_a do_b", PFunctionExports "do_a do_b");
    ("deltask do_a # why", PTaskDel "do_a" "# why");
    ("addtask do_a before do_b do_c after do_d # why", PTaskAdd "do_a" ["do_b"; "do_c"] ["do_d"] "# why");
    ("export A = ""b=c""", PExport "A" "b=c");
    ("export B", PExport "B" []);
    ("addpylib ${LAYERDIR}/lib oe", PAddPylib "${LAYERDIR}/lib" "oe");
    ("addfragments conf/x VAR VARF", PAddFragements "conf/x" "VAR" "VARF");
    ("include_all conf/y.inc", PIncludeAll "conf/y.inc");
    ("require z.inc", PInclude "z.inc" "require" []);
    ("unset c", PUnset "c" []);
    ("unset ABC", PUnset "A" []);
    ("unset c[f]", PUnset "c" "f");
    ("unset ABC[f]", PUnset "A" "BC[f");
    ("def py_x(d):    return d", PPythonBlock "py_x");
    ("INHERIT .= 'c d' # e", PInherit "c d" "INHERIT" []) ].
Lemma p_items : map (fun i => (one_line i, it_pay i)) (st_list (snd p_run)) = p_lines.
Proof. vm_compute. reflexivity. Qed.
Lemma p_len : length (st_list (snd p_run)) = 19.
Proof. rewrite <- (map_length (fun i => (one_line i, it_pay i))), p_items. reflexivity. Qed.
Lemma nth_both : forall (A B C : Type) (f : A -> B) (g : A -> C) l d ls k, map (fun i => (f i, g i)) l = ls ->
  f (nth k l d) = fst (nth k ls (f d, g d)) /\ g (nth k l d) = snd (nth k ls (f d, g d)).
Proof.
  intros A B C f g l d ls k <-. rewrite (map_nth (fun i => (f i, g i)) l d k). now split.
Qed.
Lemma p_text_of : forall k, one_line (p_item k) = fst (nth k p_lines (one_line p_dflt, it_pay p_dflt)).
Proof. intro k. unfold p_item. exact (proj1 (nth_both _ _ _ one_line it_pay _ p_dflt _ k p_items)). Qed.
Lemma p_pay_of : forall k, it_pay (p_item k) = snd (nth k p_lines (one_line p_dflt, it_pay p_dflt)).
Proof. intro k. unfold p_item. exact (proj2 (nth_both _ _ _ one_line it_pay _ p_dflt _ k p_items)). Qed.
Lemma p_parsed : forall k, k < 19 -> parsed_item p_env (p_item k).
Proof.
  intros k Hk. exists (snd p_run). split.
  - exact (filled_add p_env 2 "/w/a.bb" 0 None demo_stash (fst p_run) (snd p_run) (filled_new p_env _ _ _) (surjective_pairing p_run)).
  - unfold p_item. apply nth_In. rewrite p_len. exact Hk.
Qed.

Ltac every := let c := fresh "c" in let Hc := fresh "Hc" in
  intros c Hc; repeat (destruct Hc as [<-|Hc]; [reflexivity|]); destruct Hc.
Ltac notin := let Hc := fresh "Hc" in intro Hc; repeat (destruct Hc as [Hc|Hc]; [discriminate|]); destruct Hc.
Ltac chars := let c := fresh "c" in let Hc := fresh "Hc" in
  intros c Hc; repeat (destruct Hc as [<-|Hc];
    [unfold name_char, flag_char, task_char, def_char, file_char, letter, digit, between; cbn [In]; (lia || tauto)|]); destruct Hc.
Ltac indent := let c := fresh "c" in let t := fresh "t" in let E := fresh "E" in intros c t E; inversion E; subst; reflexivity.
(** [kw b arg] with indentation [w]. *)
Ltac stmt w b := rewrite p_text_of; exists w, b; split; [reflexivity|]; split; [every|]; split; [split; [discriminate|every]|];
  split; [indent|discriminate].
Ltac stmt0 b := rewrite p_text_of; exists b; split; [reflexivity|]; split; [split; [discriminate|every]|]; split; [indent|discriminate].

(** ** C09 *)
Theorem C09_comments : forall e i, parsed_item e i -> (it_pay i = PComment <-> comment_text (it_raw i)).
Proof. exact C09_lemma. Qed.
Print Assumptions C09_comments.

Example C09_case : parsed_item p_env (p_item 0) /\ it_pay (p_item 0) = PComment /\
  parsed_item p_env (p_item 5) /\ it_pay (p_item 5) <> PComment.
Proof.
  split; [apply p_parsed; lia|]. split; [exact (p_pay_of 0)|]. split; [apply p_parsed; lia|].
  rewrite (p_pay_of 5). discriminate.
Qed.

(** ** C10 *)
Theorem C10_assignment : forall e i name op value, parsed_item e i -> assignment name op value (one_line i) ->
  ~ statement_word name ->
  (exists vn sub subs, it_pay i = PVariable vn sub subs value op vn) /\
  exists p, it_pay i = it_pay (mk_variable p name value op) /\ it_new i = it_new (mk_variable p name value op).
Proof. exact C10_lemma. Qed.
Print Assumptions C10_assignment.

(** Names without underscore and colon are the names of the variables. *)
Theorem C10_name : forall e i name op value, parsed_item e i -> assignment name op value (one_line i) ->
  ~ statement_word name -> ~ In 58%N name -> ~ In 95%N name -> it_pay i = PVariable name [] [] value op name.
Proof. exact C10_plain_lemma. Qed.
Print Assumptions C10_name.

Example C10_case : parsed_item p_env (p_item 1) /\ assignment "SRC:a" " += " """x = y""" (one_line (p_item 1)) /\
  ~ statement_word "SRC:a".
Proof.
  split; [apply p_parsed; lia|]. split.
  - rewrite p_text_of. split; [reflexivity|]. split; [split; [discriminate|chars]|]. exists " ".
    split; [|discriminate]. exists "+=", " ". split; [reflexivity|]. split; [every|]. split; [every|].
    split; [cbn; tauto|]. split; [indent|discriminate].
  - intros [H|[k H]]; [|discriminate]. revert H. notin.
Qed.

(** ** C11 *)
Theorem C11_flags : forall e i name flag op value, parsed_item e i ->
  flag_assignment name flag op value (one_line i) -> it_pay i = PFlagAssignment name flag value op.
Proof. exact C11_lemma. Qed.
Print Assumptions C11_flags.

Example C11_case : parsed_item p_env (p_item 2) /\ flag_assignment "do_x" "noexec" " = " """1""" (one_line (p_item 2)).
Proof.
  split; [apply p_parsed; lia|]. rewrite p_text_of. split; [reflexivity|]. split; [split; [discriminate|chars]|].
  split; [discriminate|]. split; [chars|]. exists " ", "=", " ". split; [reflexivity|]. split; [every|]. split; [every|].
  split; [cbn; tauto|]. split; [indent|discriminate].
Qed.

(** ** C12 *)
Theorem C12_inherit : forall e i n arg, parsed_item e i -> arg <> [] ->
  statement ("inherit" ++ concat (repeat ("_defer" : str) n)) arg (one_line i) ->
  exists paths, it_pay i = PInherit arg ("inherit" ++ concat (repeat ("_defer" : str) n)) paths.
Proof. exact C12_inherit_lemma. Qed.
Print Assumptions C12_inherit.

Example C12_inherit_case : parsed_item p_env (p_item 3) /\
  statement ("inherit" ++ concat (repeat ("_defer" : str) 1)) "a b" (one_line (p_item 3)).
Proof. split; [apply p_parsed; lia|]. stmt " " "  ". Qed.

Theorem C12_inherit_all : forall e i op classes, parsed_item e i -> inherit_assignment op classes (one_line i) ->
  exists paths, it_pay i = PInherit classes "INHERIT" paths.
Proof. exact C12_inherit_all_lemma. Qed.
Print Assumptions C12_inherit_all.

Example C12_inherit_all_case : parsed_item p_env (p_item 18) /\ inherit_assignment " .= " "c d" (one_line (p_item 18)).
Proof.
  split; [apply p_parsed; lia|]. rewrite p_text_of. exists cSQ, cSQ, " # e", " ". split; [reflexivity|].
  split; [now right|]. split; [now right|]. split.
  { intros c Hc Hq. repeat (destruct Hc as [<-|Hc]; [destruct Hq; discriminate|]). destruct Hc. }
  exists ".=", " ". split; [reflexivity|]. split; [every|]. split; [every|]. split; [cbn; tauto|]. split; [indent|discriminate].
Qed.

Theorem C12_functions : forall e i arg, parsed_item e i ->
  statement_at_start "EXPORT_FUNCTIONS" arg (one_line i) -> it_pay i = PFunctionExports arg.
Proof. exact C12_functions_lemma. Qed.
Print Assumptions C12_functions.

Example C12_functions_case : parsed_item p_env (p_item 4) /\
  statement_at_start "EXPORT_FUNCTIONS" "do_a do_b" (one_line (p_item 4)).
Proof. split; [apply p_parsed; lia|]. stmt0 " ". Qed.

Theorem C12_deltask : forall e i name t comment, parsed_item e i -> task_name name -> trailing t comment ->
  statement "deltask" (name ++ t) (one_line i) -> it_pay i = PTaskDel name comment.
Proof. exact C12_deltask_lemma. Qed.
Print Assumptions C12_deltask.

Example C12_deltask_case : parsed_item p_env (p_item 5) /\ task_name "do_a" /\ trailing " # why" "# why" /\
  statement "deltask" ("do_a" ++ " # why") (one_line (p_item 5)).
Proof.
  split; [apply p_parsed; lia|]. split; [split; [discriminate|chars]|]. split.
  - right. exists " ", " why". split; [reflexivity|]. split; [every|reflexivity].
  - stmt ([] : str) " ".
Qed.

Theorem C12_addtask : forall e i name t before after comment bl al, parsed_item e i -> task_name name ->
  ~ package_script name -> task_tail t before after comment -> words bl before -> words al after ->
  statement "addtask" (name ++ t) (one_line i) -> it_pay i = PTaskAdd name bl al comment.
Proof. exact C12_addtask_lemma. Qed.
Print Assumptions C12_addtask.

Ltac word := apply words_word; [discriminate|notin|intros ? ? E; inversion E; reflexivity|].
Example C12_addtask_case : parsed_item p_env (p_item 6) /\ task_name "do_a" /\ ~ package_script "do_a" /\
  task_tail " before do_b do_c after do_d # why" "do_b do_c " "do_d " "# why" /\
  words ["do_b"; "do_c"] "do_b do_c " /\ words ["do_d"] "do_d " /\
  statement "addtask" ("do_a" ++ " before do_b do_c after do_d # why") (one_line (p_item 6)).
Proof.
  split; [apply p_parsed; lia|]. split; [split; [discriminate|chars]|]. split.
  { intros [p [r [Hp E]]]. repeat (destruct Hp as [<-|Hp]; [discriminate|]). destruct Hp. }
  split.
  { exists " ", "before do_b do_c after do_d ". split; [reflexivity|]. split; [every|]. split; [discriminate|]. split.
    - right. right. right. left. exists " ", " ". split; [reflexivity|]. split; [every|]. split; [every|].
      split; [indent|]. split; [indent|].
      split; intros [a [b E]]; repeat (destruct a as [|? a]; [discriminate|inversion E; subst; clear E;
        match goal with H : _ = _ |- _ => rename H into E end]); destruct a; discriminate.
    - split; [right; now exists " why"|]. split; notin. }
  split.
  { apply (words_word "do_b" ["do_c"] " do_c "); [discriminate|notin|intros c t E; inversion E; reflexivity|].
    apply words_sep. apply (words_word "do_c" [] " "); [discriminate|notin|intros c t E; inversion E; reflexivity|].
    apply words_sep. apply words_end. }
  split.
  { apply (words_word "do_d" [] " "); [discriminate|notin|intros c t E; inversion E; reflexivity|]. apply words_sep. apply words_end. }
  stmt ([] : str) " ".
Qed.

Theorem C12_export : forall e i name value arg, parsed_item e i -> var_name name -> export_value name value arg ->
  statement "export" arg (one_line i) -> it_pay i = PExport name value.
Proof. exact C12_export_lemma. Qed.
Print Assumptions C12_export.

Example C12_export_case : parsed_item p_env (p_item 7) /\ var_name "A" /\
  export_value "A" "b=c" "A = ""b=c""" /\ statement "export" "A = ""b=c""" (one_line (p_item 7)).
Proof.
  split; [apply p_parsed; lia|]. split; [split; [discriminate|chars]|]. split.
  - exists " ", " ", []. split; [reflexivity|]. split; [every|]. split; [every|]. split; notin.
  - stmt ([] : str) " ".
Qed.

Theorem C12_export_name : forall e i name t, parsed_item e i -> trimmed name -> name <> [] -> blank t -> ~ In cDQ name ->
  statement "export" (name ++ t) (one_line i) -> it_pay i = PExport name [].
Proof. exact C12_export_name_lemma. Qed.
Print Assumptions C12_export_name.

Example C12_export_name_case : parsed_item p_env (p_item 8) /\ trimmed "B" /\ statement "export" ("B" ++ []) (one_line (p_item 8)).
Proof.
  split; [apply p_parsed; lia|]. split.
  - split; intros c t E; [inversion E; reflexivity|]. destruct t as [|x [|y t]]; inversion E. reflexivity.
  - stmt ([] : str) " ".
Qed.

Theorem C12_addpylib : forall e i p c ns, parsed_item e i -> p <> [] -> re_space c = true ->
  (forall x, In x ns -> re_space x = false) ->
  statement "addpylib" ("${LAYERDIR}/" ++ p ++ [c] ++ ns) (one_line i) ->
  it_pay i = PAddPylib ("${LAYERDIR}/" ++ p) ns.
Proof. exact C12_addpylib_lemma. Qed.
Print Assumptions C12_addpylib.

Example C12_addpylib_case : parsed_item p_env (p_item 9) /\
  statement "addpylib" ("${LAYERDIR}/" ++ "lib" ++ [cSP] ++ "oe") (one_line (p_item 9)).
Proof. split; [apply p_parsed; lia|]. stmt ([] : str) " ". Qed.

Theorem C12_addfragments : forall e i p c1 var c2 flagged, parsed_item e i -> p <> [] -> re_space c1 = true -> one_word var ->
  re_space c2 = true -> one_word flagged ->
  statement_at_start "addfragments" (p ++ [c1] ++ var ++ [c2] ++ flagged) (one_line i) ->
  it_pay i = PAddFragements p var flagged.
Proof. exact C12_addfragments_lemma. Qed.
Print Assumptions C12_addfragments.

Example C12_addfragments_case : parsed_item p_env (p_item 10) /\ one_word "VAR" /\ one_word "VARF" /\
  statement_at_start "addfragments" ("conf/x" ++ [cSP] ++ "VAR" ++ [cSP] ++ "VARF") (one_line (p_item 10)).
Proof.
  split; [apply p_parsed; lia|]. split; [split; [discriminate|every]|]. split; [split; [discriminate|every]|]. stmt0 " ".
Qed.

Theorem C12_include_all : forall e i arg, parsed_item e i -> arg <> [] ->
  statement_at_start "include_all" arg (one_line i) -> it_pay i = PIncludeAll arg.
Proof. exact C12_include_all_lemma. Qed.
Print Assumptions C12_include_all.

Example C12_include_all_case : parsed_item p_env (p_item 11) /\
  statement_at_start "include_all" "conf/y.inc" (one_line (p_item 11)).
Proof. split; [apply p_parsed; lia|]. stmt0 " ". Qed.

(** The item is a plain one if the file is found and to be ignored. *)
Theorem C12_include : forall e i kw name t, parsed_item e i -> kw = "include" \/ kw = "require" -> file_name name ->
  (t = [] \/ exists x t', t = x :: t' /\ re_space x = true) -> statement kw (name ++ t) (one_line i) ->
  (exists path, it_pay i = PInclude name kw path) \/ it_pay i = PItem.
Proof. exact C12_include_lemma. Qed.
Print Assumptions C12_include.

Example C12_include_case : parsed_item p_env (p_item 12) /\ file_name "z.inc" /\
  statement "require" ("z.inc" ++ []) (one_line (p_item 12)).
Proof. split; [apply p_parsed; lia|]. split; [split; [discriminate|chars]|]. stmt ([] : str) " ". Qed.

Theorem C12_def : forall e i name w2 args rest, parsed_item e i -> def_name name -> blank w2 ->
  statement "def" (name ++ w2 ++ "(" ++ args ++ "):" ++ rest) (one_line i) -> it_pay i = PPythonBlock name.
Proof. exact C12_def_lemma. Qed.
Print Assumptions C12_def.

Example C12_def_case : parsed_item p_env (p_item 17) /\ def_name "py_x" /\
  statement "def" ("py_x" ++ [] ++ "(" ++ "d" ++ "):" ++ "    return d") (one_line (p_item 17)).
Proof. split; [apply p_parsed; lia|]. split; [split; [discriminate|chars]|]. stmt ([] : str) " ". Qed.

(** ** C13 *)

(** The claim. *)
Definition unset_names (i : item) : Prop := forall name flag, var_name name ->
  (statement "unset" name (one_line i) -> it_pay i = PUnset name []) /\
  (flag <> [] -> (forall c, In c flag -> flag_char c) -> statement "unset" (name ++ "[" ++ flag ++ "]") (one_line i) ->
   it_pay i = PUnset name flag).

(** It fails for [unset ABC] and for [unset ABC[f]]. *)
Theorem C13_refuted : exists e i j, parsed_item e i /\ parsed_item e j /\ ~ unset_names i /\ ~ unset_names j.
Proof.
  exists p_env, (p_item 14), (p_item 16). split; [apply p_parsed; lia|]. split; [apply p_parsed; lia|].
  assert (Hn : var_name "ABC") by (split; [discriminate|chars]).
  split; intro H.
  - destruct (H "ABC" "f" Hn) as [H1 _]. rewrite (p_pay_of 14) in H1.
    assert (X : PUnset "A" [] = PUnset "ABC" []); [|discriminate]. apply H1. stmt ([] : str) " ".
  - destruct (H "ABC" "f" Hn) as [_ H1]. rewrite (p_pay_of 16) in H1.
    assert (X : PUnset "A" "BC[f" = PUnset "ABC" "f"); [|discriminate]. apply H1; [discriminate|chars|]. stmt ([] : str) " ".
Qed.
Print Assumptions C13_refuted.

(** What is read: the first character only, and no flag if there is no bracket. *)
Theorem C13_first : forall e i c n, parsed_item e i -> no_bracket n ->
  statement "unset" (c :: n) (one_line i) -> it_pay i = PUnset [c] [].
Proof. exact C13_name_lemma. Qed.
Print Assumptions C13_first.

(** With a flag the rest of the name becomes a part of the flag. *)
Theorem C13_flag : forall e i c n flag, parsed_item e i -> var_name (c :: n) -> flag <> [] ->
  (forall x, In x flag -> flag_char x) -> statement "unset" (c :: n ++ "[" ++ flag ++ "]") (one_line i) ->
  it_pay i = PUnset [c] (match n with [] => flag | _ => n ++ "[" ++ flag end).
Proof. exact C13_unset_flag_lemma. Qed.
Print Assumptions C13_flag.

Example C13_case : parsed_item p_env (p_item 14) /\ statement "unset" "ABC" (one_line (p_item 14)) /\
  parsed_item p_env (p_item 16) /\ statement "unset" "ABC[f]" (one_line (p_item 16)).
Proof. split; [apply p_parsed; lia|]. split; [stmt ([] : str) " "|]. split; [apply p_parsed; lia|]. stmt ([] : str) " ". Qed.

(** The part that holds: names of one character. *)
Theorem C13_short_partial : forall e i c flag, parsed_item e i -> name_char c ->
  (statement "unset" [c] (one_line i) -> it_pay i = PUnset [c] []) /\
  (flag <> [] -> (forall x, In x flag -> flag_char x) -> statement "unset" ([c] ++ "[" ++ flag ++ "]") (one_line i) ->
   it_pay i = PUnset [c] flag).
Proof. exact C13_short_lemma. Qed.
Print Assumptions C13_short_partial.

Example C13_short_case : parsed_item p_env (p_item 13) /\ statement "unset" "c" (one_line (p_item 13)) /\
  parsed_item p_env (p_item 15) /\ statement "unset" ("c" ++ "[" ++ "f" ++ "]") (one_line (p_item 15)).
Proof. split; [apply p_parsed; lia|]. split; [stmt ([] : str) " "|]. split; [apply p_parsed; lia|]. stmt ([] : str) " ". Qed.
