(** * Theorems about the methods of items *)

From Verif Require Import Props_Items.
From Verif Require Import PyStr Regex UniTable Patterns PyPath Res Inline Const Item Lines Stash
  StrFacts ClassFacts ReachFacts Demo Spec_Query Props_Query Props_Lines Spec_Parse Spec_Group Proofs_Group Spec_Func Proofs_Func Props_Parse
  Props_Func Access Spec_Access Proofs_Access.
From Verif Require Spec_Const.

(** ** The class of the examples *)

Definition a_text : str :=
  "A = ""x y (>= 1) z""" ++ nl ++
  "B = ""x"" " ++ nl ++
  "C = 'a b'" ++ nl ++
  "D = ""a " ++ [cBSL] ++ nl ++ "  b""" ++ nl ++
  "E = ""a " ++ [cBSL] ++ " " ++ nl ++ "  b""" ++ nl ++
  "F = """ ++ [cBSL] ++ "x1b""" ++ nl ++
  "G:append:class-native:qemux86 = ""1""" ++ nl ++
  "do_x:append:qemux86() {" ++ nl ++ "  b" ++ nl ++ "}" ++ nl ++
  "do_x:append:class-nativesdk() {" ++ nl ++ "  b" ++ nl ++ "}" ++ nl ++
  "do_x:qemux86() {" ++ nl ++ "  b" ++ nl ++ "}" ++ nl ++
  "EXPORT_FUNCTIONS do_a do_b" ++ nl ++
  "EXPORT_FUNCTIONS do_a" ++ [cTAB] ++ "do_b" ++ nl ++
  "EXPORT_FUNCTIONS do_a " ++ [cBSL] ++ nl ++ " do_b" ++ nl.
Definition a_env : env := demo_env [("/w/k.bbclass", a_text)] [].
Notation a_run := (add_file 2 a_env "/w/k.bbclass" 0 None demo_stash).
Definition a_item (k : nat) : item := nth k (st_list (snd a_run)) p_dflt.
Definition a_lines : list (str * payload) :=
  [ ("A = ""x y (>= 1) z""", PVariable "A" [] [] """x y (>= 1) z""" " = " "A");
    ("B = ""x"" ", PVariable "B" [] [] """x"" " " = " "B");
    ("C = 'a b'", PVariable "C" [] [] "'a b'" " = " "C");
    ("D = ""a " ++ [cESC] ++ "  b""", PVariable "D" [] [] ("""a " ++ [cESC] ++ "  b""") " = " "D");
    ("E = ""a " ++ [cESC] ++ "   b""", PVariable "E" [] [] ("""a " ++ [cESC] ++ "   b""") " = " "E");
    ("F = """ ++ [cESC] ++ "x1b""", PVariable "F" [] [] ("""" ++ [cESC] ++ "x1b""") " = " "F");
    ("G:append:class-native:qemux86 = ""1""",
      PVariable "G" "append:class-native:qemux86" ["append"; "class-native"; "qemux86"] """1""" " = " "G");
    ("do_x:append:qemux86() {  b}",
      PFunction false false "do_x" "append:qemux86" ["append"; "qemux86"] "  b" (nl ++ "b" ++ nl));
    ("do_x:append:class-nativesdk() {  b}",
      PFunction false false "do_x" "append:class-nativesdk" ["append"; "class-nativesdk"] "  b" (nl ++ "b" ++ nl));
    ("do_x:qemux86() {  b}", PFunction false false "do_x:qemux86" [] [] "  b" (nl ++ "b" ++ nl));
    ("EXPORT_FUNCTIONS do_a do_b", PFunctionExports "do_a do_b");
    ("EXPORT_FUNCTIONS do_a" ++ [cTAB] ++ "do_b", PFunctionExports ("do_a" ++ [cTAB] ++ "do_b"));
    ("EXPORT_FUNCTIONS do_a " ++ [cESC] ++ " do_b", PFunctionExports ("do_a " ++ [cESC] ++ " do_b")) ].
Lemma a_items : map (fun i => (one_line i, it_pay i)) (st_list (snd a_run)) = a_lines.
Proof. vm_compute. reflexivity. Qed.
Lemma a_len : length (st_list (snd a_run)) = 13.
Proof. rewrite <- (map_length (fun i => (one_line i, it_pay i))), a_items. reflexivity. Qed.
Lemma a_line_of : forall k, one_line (a_item k) = fst (nth k a_lines (one_line p_dflt, it_pay p_dflt)).
Proof. intro k. unfold a_item. exact (proj1 (nth_both _ _ _ one_line it_pay _ p_dflt _ k a_items)). Qed.
Lemma a_pay_of : forall k, it_pay (a_item k) = snd (nth k a_lines (one_line p_dflt, it_pay p_dflt)).
Proof. intro k. unfold a_item. exact (proj2 (nth_both _ _ _ one_line it_pay _ p_dflt _ k a_items)). Qed.
Lemma a_parsed : forall k, k < 13 -> parsed_item a_env (a_item k).
Proof.
  intros k Hk. exists (snd a_run). split.
  - exact (filled_add a_env 2 "/w/k.bbclass" 0 None demo_stash (fst a_run) (snd a_run) (filled_new a_env _ _ _) (surjective_pairing a_run)).
  - unfold a_item. apply nth_In. rewrite a_len. exact Hk.
Qed.
Lemma a_origin : it_origin (a_item 10) = "/w/k.bbclass".
Proof. vm_compute. reflexivity. Qed.

Ltac a_var k := rewrite (a_line_of k); split; [reflexivity|]; split; [split; [discriminate|chars]|]; exists " ";
  split; [|discriminate]; exists "=", " "; split; [reflexivity|]; split; [every|]; split; [every|];
  split; [cbn; tauto|]; split; [indent|discriminate].
Ltac no_word := let H := fresh "H" in let k := fresh "k" in intros [H|[k H]]; [|discriminate]; revert H; notin.

(** ** C87: the words of a value *)

(** A value in double quotes: get_items gives its words. *)
Theorem C87_words : forall e i name op v l, parsed_item e i ->
  assignment name op ([cDQ] ++ v ++ [cDQ]) (one_line i) -> ~ statement_word name -> unquoted v ->
  (get_items_of i = l <-> Props_Items.words v l).
Proof. exact C87_lemma. Qed.
Print Assumptions C87_words.

(** A text given as override takes the place of the value. *)
Theorem C87_override : forall i o l, (exists n s subs v op r, it_pay i = PVariable n s subs v op r) ->
  o <> [] -> unquoted o -> (variable_words i o false = l <-> Props_Items.words o l).
Proof. exact C87_override_lemma. Qed.
Print Assumptions C87_override.

(** With versioned, the versions in parentheses are left out. *)
Theorem C87_versioned : forall e i name op v l, parsed_item e i ->
  assignment name op ([cDQ] ++ v ++ [cDQ]) (one_line i) -> ~ statement_word name -> unquoted v ->
  listed v l -> variable_words i [] true = l.
Proof. exact C87_versioned_lemma. Qed.
Print Assumptions C87_versioned.

Lemma a_quoted : unquoted "x y (>= 1) z".
Proof.
  split; intros t E; [discriminate|]. apply (f_equal (@rev N)) in E. rewrite (rev_app_distr t) in E. discriminate.
Qed.
Lemma a_plain : forall (c : N) t, re_space c = false -> c <> 27%N -> c <> 40%N -> plain_word [c] t.
Proof.
  intros c t H1 H2 H3. split; [discriminate|]. split; [intros [H|[]]; congruence|].
  intros a d b E. assert (d = c) as -> by (destruct a as [|? [|? ?]]; [now injection E|discriminate|discriminate]).
  intros [H|[H _]]; congruence.
Qed.
Lemma a_sep : forall t, separator 32 t.
Proof. intro t. now left. Qed.
Lemma a_ends : forall t, ends_word (32%N :: t).
Proof. intros t c r E. injection E as <- _. now left. Qed.
Example C87_case : parsed_item a_env (a_item 0) /\
  assignment "A" " = " ([cDQ] ++ "x y (>= 1) z" ++ [cDQ]) (one_line (a_item 0)) /\
  ~ statement_word "A" /\ unquoted "x y (>= 1) z" /\ listed "x y (>= 1) z" ["x"; "y"; "z"] /\
  get_items_of (a_item 0) = ["x"; "y"; "(>="; "1)"; "z"].
Proof.
  split; [apply a_parsed; lia|]. split; [a_var 0|]. split; [no_word|]. split; [exact a_quoted|]. split.
  - apply (listed_word "x" " y (>= 1) z"); [now apply a_plain|apply a_ends|]. apply listed_sep; [apply a_sep|].
    apply (listed_bound "y" " " ">= 1" " z"); [now apply a_plain|every|notin|notin|apply a_ends|].
    apply listed_sep; [apply a_sep|]. apply (listed_word "z" []); [now apply a_plain|intros c r E; discriminate|constructor].
  - unfold get_items_of. rewrite (a_pay_of 0). vm_compute. reflexivity.
Qed.

(** Values with blanks behind the closing quote, and values in single quotes:
    quotes stay in the words. *)
Theorem C87_refuted :
  (exists e i name op v w l, parsed_item e i /\ assignment name op ([cDQ] ++ v ++ [cDQ] ++ w) (one_line i) /\
     ~ statement_word name /\ unquoted v /\ Spec_Parse.blank w /\ Props_Items.words v l /\ get_items_of i <> l) /\
  (exists e i name op v l, parsed_item e i /\ assignment name op ("'" ++ v ++ "'") (one_line i) /\
     ~ statement_word name /\ Props_Items.words v l /\ get_items_of i <> l).
Proof.
  split.
  - exists a_env, (a_item 1), "B", " = ", "x", " ", ["x"]. split; [apply a_parsed; lia|]. split; [a_var 1|].
    split; [no_word|]. split.
    { split; intros t E; [discriminate|]. apply (f_equal (@rev N)) in E. rewrite (rev_app_distr t) in E. discriminate. }
    split; [every|]. split; [now apply C18_lemma|]. unfold get_items_of. rewrite (a_pay_of 1). vm_compute. discriminate.
  - exists a_env, (a_item 2), "C", " = ", "a b", ["a"; "b"]. split; [apply a_parsed; lia|]. split; [a_var 2|].
    split; [no_word|]. split; [now apply C18_lemma|]. unfold get_items_of. rewrite (a_pay_of 2). vm_compute. discriminate.
Qed.
Print Assumptions C87_refuted.

(** ** C88: values of several lines *)

Theorem C88_partial : forall e i, parsed_item e i -> no_inline (it_realraw i) -> tidy (it_realraw i) ->
  (forall a b, it_realraw i <> a ++ [cBSL; 120%N; 49%N; 98%N] ++ b) ->
  (in_several_lines i = true <-> several_lines (it_realraw i)).
Proof. exact C88_lemma. Qed.
Print Assumptions C88_partial.

Lemma a_raw3 : it_raw (a_item 3) = "D = ""a " ++ [cBSL] ++ nl ++ "  b""" ++ nl /\
  it_realraw (a_item 3) = "D = ""a " ++ [cBSL] ++ nl ++ "  b""" ++ nl.
Proof. vm_compute. auto. Qed.
Lemma a_raw4 : it_raw (a_item 4) = "E = ""a " ++ [cBSL] ++ " " ++ nl ++ "  b""" ++ nl /\
  it_realraw (a_item 4) = "E = ""a " ++ [cBSL] ++ " " ++ nl ++ "  b""" ++ nl.
Proof. vm_compute. auto. Qed.
Lemma a_raw5 : it_raw (a_item 5) = "F = """ ++ [cBSL] ++ "x1b""" ++ nl /\
  it_realraw (a_item 5) = "F = """ ++ [cBSL] ++ "x1b""" ++ nl.
Proof. vm_compute. auto. Qed.

Definition a_multi : str := "D = ""a " ++ [cBSL] ++ nl ++ "  b""" ++ nl.
Example C88_case : parsed_item a_env (a_item 3) /\ it_realraw (a_item 3) = a_multi /\
  no_inline a_multi /\ tidy a_multi /\ (forall a b, a_multi <> a ++ [cBSL; 120%N; 49%N; 98%N] ++ b) /\ several_lines a_multi.
Proof.
  split; [apply a_parsed; lia|]. split.
  { exact (proj2 a_raw3). }
  split; [intros a b; apply contains_false; vm_compute; reflexivity|]. split.
  { intros a b E Hb. unfold a_multi, nl in E.
    do 8 (destruct a as [|? a]; [cbn in E; discriminate|cbn [app] in E; injection E as <- E]).
    destruct a as [|? a]; [now exists "D = ""a "|]. cbn [app] in E. injection E as <- E. exfalso.
    do 4 (destruct a as [|? a]; [cbn in E; discriminate|cbn [app] in E; injection E as <- E]).
    destruct a as [|? a]; [cbn in E; injection E as E; now rewrite <- E in Hb|]. cbn in E. destruct a; discriminate. }
  split; [apply contains_false; vm_compute; reflexivity|]. exists ("D = ""a " ++ [cBSL]), ("  b""" ++ nl). split; [reflexivity|discriminate].
Qed.

(** In general it is wrong in both directions: with a blank behind the
    backslash, and with the four characters of an escape in the text. *)
Theorem C88_refuted :
  (exists e i name op v, parsed_item e i /\ assignment name op v (one_line i) /\ ~ statement_word name /\
     no_inline (it_realraw i) /\ several_lines (it_realraw i) /\ in_several_lines i = false) /\
  (exists e i name op v, parsed_item e i /\ assignment name op v (one_line i) /\ ~ statement_word name /\
     no_inline (it_realraw i) /\ ~ several_lines (it_realraw i) /\ in_several_lines i = true).
Proof.
  split.
  - exists a_env, (a_item 4), "E", " = ", ("""a " ++ [cESC] ++ "   b"""). split; [apply a_parsed; lia|]. split; [a_var 4|].
    split; [no_word|]. unfold in_several_lines. rewrite (proj1 a_raw4), (proj2 a_raw4).
    split; [intros a b; apply contains_false; vm_compute; reflexivity|].
    split; [|vm_compute; reflexivity]. exists ("E = ""a " ++ [cBSL] ++ " "), ("  b""" ++ nl). split; [reflexivity|discriminate].
  - exists a_env, (a_item 5), "F", " = ", ("""" ++ [cESC] ++ "x1b"""). split; [apply a_parsed; lia|]. split; [a_var 5|].
    split; [no_word|]. unfold in_several_lines. rewrite (proj1 a_raw5), (proj2 a_raw5).
    split; [intros a b; apply contains_false; vm_compute; reflexivity|].
    split; [|vm_compute; reflexivity]. intros [a [b [E Hb]]]. unfold nl in E.
    do 10 (destruct a as [|? a]; [cbn in E; discriminate|cbn [app] in E; injection E as <- E]).
    destruct a as [|? a]; [cbn in E; injection E as E; now rewrite <- E in Hb|]. cbn in E. destruct a; discriminate.
Qed.
Print Assumptions C88_refuted.

(** ** C89: the overrides of a name *)

Theorem C89_variable : forall e i name op value n os known db, parsed_item e i ->
  Spec_Const.at_path ["replacements"; "distros"] db = Some (CList known) ->
  assignment name op value (one_line i) -> ~ statement_word name -> overridden name n os ->
  (exists s, it_pay i = PVariable n s os value op n) /\
  first_with for_class os (class_override i) /\ first_with for_machine os (machine_entry i) /\
  first_with (fun x => In x known) os (distro_entry db i).
Proof. exact C89_variable_lemma. Qed.
Print Assumptions C89_variable.

(** Functions whose first override is one of a list. *)
Theorem C89_function_partial : forall e i qs name body n os known db, parsed_item e i ->
  Spec_Const.at_path ["replacements"; "distros"] db = Some (CList known) ->
  function_text qs name body (one_line i) -> own_name name -> marked name n os ->
  (exists py fr s raw, it_pay i = PFunction py fr n s os body raw) /\
  (appends_function i = true <-> In ("append" : str) os \/ In ("prepend" : str) os) /\
  (~ In ("class-nativesdk" : str) os -> first_with for_machine os (machine_entry i)) /\
  first_with (fun x => In x known) os (distro_entry db i).
Proof. exact C89_function_lemma. Qed.
Print Assumptions C89_function_partial.

Ltac o_text := split; [notin|]; do 2 eexists; split; [reflexivity|]; unfold between, digit; cbn [In]; lia.
Example C89_variable_case : parsed_item a_env (a_item 6) /\
  assignment "G:append:class-native:qemux86" " = " """1""" (one_line (a_item 6)) /\
  ~ statement_word "G:append:class-native:qemux86" /\
  overridden "G:append:class-native:qemux86" "G" ["append"; "class-native"; "qemux86"] /\
  class_override (a_item 6) = "class-native" /\ machine_entry (a_item 6) = "qemux86" /\
  distro_entry (CDict [("replacements", CDict [("distros", CList ["poky"])])]) (a_item 6) = [].
Proof.
  split; [apply a_parsed; lia|]. split; [a_var 6|]. split; [no_word|]. split.
  - split; [reflexivity|]. split; [discriminate|]. split; [notin|]. split; [discriminate|]. split; [discriminate|].
    intros x [<-|[<-|[<-|[]]]]; o_text.
  - unfold class_override, machine_entry, distro_entry, sub_items. rewrite (a_pay_of 6). vm_compute. auto.
Qed.

Ltac a_func k h := rewrite (a_line_of k); exists h, []; split; [reflexivity|]; split; [exists [], [], " "; head_of|intros []].
Lemma a_marked : forall x, In x (["qemux86"; "class-nativesdk"] : list str) -> marked ("do_x:append:" ++ x) "do_x" ["append"; x].
Proof.
  intros x Hx. split; [reflexivity|]. split; [|split].
  - repeat constructor; cbn; repeat (destruct Hx as [<-|Hx]; [intuition discriminate|]); destruct Hx.
  - exists "append", [x]. split; [reflexivity|]. now left.
  - intros y Hy. repeat (destruct Hx as [<-|Hx]; [repeat (destruct Hy as [<-|Hy]; [split; [discriminate|notin]|]); destruct Hy|]). destruct Hx.
Qed.
Example C89_function_case : parsed_item a_env (a_item 7) /\
  function_text [] "do_x:append:qemux86" "  b" (one_line (a_item 7)) /\ own_name "do_x:append:qemux86" /\
  marked "do_x:append:qemux86" "do_x" ["append"; "qemux86"] /\
  appends_function (a_item 7) = true /\ machine_entry (a_item 7) = "qemux86".
Proof.
  split; [apply a_parsed; lia|]. split; [a_func 7 ("do_x:append:qemux86() {" : str)|]. split; [intro t; split; discriminate|].
  split; [exact (a_marked "qemux86" (or_introl eq_refl))|].
  unfold appends_function, machine_entry. rewrite (a_pay_of 7). vm_compute. auto.
Qed.

(** For functions the word class-nativesdk is taken for a machine, and unless
    the function is a known one other overrides remain part of the name. *)
Theorem C89_function_refuted :
  (exists e i name body n os, parsed_item e i /\ function_text [] name body (one_line i) /\ own_name name /\
     marked name n os /\ ~ first_with for_machine os (machine_entry i)) /\
  (exists e i n body o, parsed_item e i /\ function_text [] (n ++ ":" ++ o) body (one_line i) /\
     own_name n /\ for_machine o /\ override_text o /\ ~ In 58%N n /\ sub_items i = [] /\ machine_entry i = []).
Proof.
  split.
  - exists a_env, (a_item 8), "do_x:append:class-nativesdk", "  b", "do_x", ["append"; "class-nativesdk"].
    split; [apply a_parsed; lia|]. split; [a_func 8 ("do_x:append:class-nativesdk() {" : str)|].
    split; [intro t; split; discriminate|].
    split; [exact (a_marked "class-nativesdk" (or_intror (or_introl eq_refl)))|].
    assert (E : machine_entry (a_item 8) = "class-nativesdk")
      by (unfold machine_entry; rewrite (a_pay_of 8); vm_compute; reflexivity).
    rewrite E. intros [[a [b [_ [[H _] _]]]]|[H _]]; [|discriminate]. apply H. right. now left.
  - exists a_env, (a_item 9), "do_x", "  b", "qemux86". split; [apply a_parsed; lia|].
    split; [a_func 9 ("do_x:qemux86() {" : str)|]. split; [intro t; split; discriminate|].
    split; [split; [notin|split; [notin|discriminate]]|]. split; [o_text|]. split; [notin|].
    unfold sub_items, machine_entry. rewrite (a_pay_of 9). vm_compute. auto.
Qed.
Print Assumptions C89_function_refuted.

(** ** C90: exported functions *)

Theorem C90_exports_partial : forall e i arg fs, parsed_item e i ->
  statement_at_start "EXPORT_FUNCTIONS" arg (one_line i) -> Spec_Parse.words fs arg ->
  get_items_of i = fs /\
  forall cls, class_file (it_origin i) cls -> unaliased i = map (fun f => cls ++ "-" ++ f) fs.
Proof. exact C90_lemma. Qed.
Print Assumptions C90_exports_partial.

Ltac a_stmt0 k b := rewrite (a_line_of k); exists b; split; [reflexivity|]; split; [split; [discriminate|every]|]; split; [indent|discriminate].
Example C90_case : parsed_item a_env (a_item 10) /\
  statement_at_start "EXPORT_FUNCTIONS" "do_a do_b" (one_line (a_item 10)) /\
  Spec_Parse.words ["do_a"; "do_b"] "do_a do_b" /\ class_file (it_origin (a_item 10)) "k".
Proof.
  split; [apply a_parsed; lia|]. split; [a_stmt0 10 (" " : str)|]. split.
  - apply (words_word "do_a" ["do_b"] " do_b"); [discriminate|notin|intros c t E; now injection E|].
    apply Spec_Parse.words_sep. apply (words_word "do_b" [] []); [discriminate|notin|intros c t E; discriminate|constructor].
  - rewrite a_origin. exists "/w". split; [reflexivity|]. split; [notin|]. exists 107%N. split; [now left|discriminate].
Qed.

(** Names separated by a tab are taken for one name, and the backslash of a
    continued line for a name. *)
Theorem C90_refuted :
  (exists e i arg fs, parsed_item e i /\ statement_at_start "EXPORT_FUNCTIONS" arg (one_line i) /\
     ~ In cESC arg /\ Props_Items.words arg fs /\ get_items_of i <> fs) /\
  (exists e i arg fs, parsed_item e i /\ statement_at_start "EXPORT_FUNCTIONS" arg (one_line i) /\
     ~ In cTAB arg /\ Props_Items.words arg fs /\ get_items_of i <> fs).
Proof.
  split.
  - exists a_env, (a_item 11), ("do_a" ++ [cTAB] ++ "do_b"), ["do_a"; "do_b"]. split; [apply a_parsed; lia|].
    split; [a_stmt0 11 (" " : str)|]. split; [notin|]. split; [now apply C18_lemma|].
    unfold get_items_of. rewrite (a_pay_of 11). vm_compute. discriminate.
  - exists a_env, (a_item 12), ("do_a " ++ [cESC] ++ " do_b"), ["do_a"; "do_b"]. split; [apply a_parsed; lia|].
    split; [a_stmt0 12 (" " : str)|]. split; [notin|]. split; [now apply C18_lemma|].
    unfold get_items_of. rewrite (a_pay_of 12). vm_compute. discriminate.
Qed.
Print Assumptions C90_refuted.

(** ** C91: linked files *)

(** One entry for each item of a linked file. *)
Theorem C91_links_partial : forall e s f, env_ok e -> reach e s -> f <> [] ->
  exists js, get_links_for_file e s f = map it_origin js /\ NoDup (map it_id js) /\
    forall i, In i js <-> In i (st_list s) /\ it_origin i <> f /\ linked s f (it_origin i).
Proof. exact C91_lemma. Qed.
Print Assumptions C91_links_partial.
Example C91_case : env_ok q_env /\ reach q_env q_stash /\ get_links_for_file q_env q_stash "/w/a.bb" = ["/w/b.inc"; "/w/a.bbappend"].
Proof. split; [apply demo_env_ok|]. split; [exact q_reach|vm_compute; reflexivity]. Qed.

(** A file with two items is named twice, and a linked file without items is
    not named. *)
Definition l_env : env := demo_env [("/w/a.bb", "require b.inc" ++ nl ++ "require e.inc" ++ nl);
  ("/w/b.inc", "A = ""1""" ++ nl ++ "B = ""2""" ++ nl); ("/w/e.inc", [])] ["/w"; "/"].
Notation l_run := (add_file 4 l_env "/w/a.bb" 0 None demo_stash).
Theorem C91_refuted : exists e s f, env_ok e /\ reach e s /\ ~ NoDup (get_links_for_file e s f) /\
  exists x, linked s f x /\ x <> f /\ ~ In x (get_links_for_file e s f).
Proof.
  exists l_env, (snd l_run), "/w/a.bb". split; [apply demo_env_ok|]. split.
  { exists false, false, no_const. eapply steps_add; [apply steps_refl|apply surjective_pairing]. }
  assert (E : get_links_for_file l_env (snd l_run) "/w/a.bb" = ["/w/b.inc"; "/w/b.inc"]) by (vm_compute; reflexivity).
  rewrite E. split.
  - intro H. inversion H as [|? ? H1 H2]. apply H1. now left.
  - exists "/w/e.inc". split.
    + exists ["/w/b.inc"; "/w/e.inc"]. split; [vm_compute; reflexivity|]. right. now left.
    + split; [discriminate|notin].
Qed.
Print Assumptions C91_refuted.
