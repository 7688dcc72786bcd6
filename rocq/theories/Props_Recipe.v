(** * Properties C100, C101, C104, C105: recipes of ordinary statements *)

From Verif Require Import Props_Items.
From Verif Require Import PyStr Regex Patterns PyPath Res Inline Const Item Lines Stash Demo StrFacts
  Props_Lines Spec_Query Spec_Parse Spec_Group Spec_Func Spec_Access Spec_Expand Spec_Const Spec_Recipe
  Props_Parse Props_Func Proofs_Recipe Proofs_Values Proofs_Parts Proofs_Shows.

(** ** The recipe of the examples *)

Definition r_bsl : str := [cBSL].
Definition r_ss : list stmt :=
  [ Remarks (line "# about") [line "# it"];
    Assign "SUMMARY" " = " ["${PN} by ${WHO}"];
    Empty;
    Assign "SRC_URI" " = " ["a "; " b"];
    Assign "SRC_URI:append" " = " [" c"];
    Func [("python", " ")] "do_x" "python do_x() {" nl [line "  if y {"; line "  }"] [] nl;
    Assign "SRC_URI" " += " ["${OPT}"];
    Assign "OPT:arm" " ?= " ["o"];
    Deltask "do_y";
    Flag "do_x" "noexec" " = " "1";
    Export "E" "v";
    Addtask "do_x" " after do_z" [] ["do_z"];
    Functions "do_x";
    Plain (Inherit 1 "autotools native");
    Plain (Includes "require" "x-${PN}.inc");
    Plain (IncludesAll "conf/y.inc");
    Define "py_x" "d" [] [line "    return d"; line []];
    Plain (Pylib "lib" "ns");
    Plain (Fragments "conf/f" "V" "W");
    Plain (ExportName "G");
    Plain (UnsetVar "Z" []);
    Plain (UnsetVar "E" "doc");
    Plain (InheritAll " += " cDQ "rm_work") ].
Definition r_text : str :=
  "# about" ++ nl ++ "# it" ++ nl ++
  "SUMMARY = ""${PN} by ${WHO}""" ++ nl ++ nl ++
  "SRC_URI = ""a " ++ r_bsl ++ nl ++ " b""" ++ nl ++
  "SRC_URI:append = "" c""" ++ nl ++
  "python do_x() {" ++ nl ++ "  if y {" ++ nl ++ "  }" ++ nl ++ "}" ++ nl ++
  "SRC_URI += ""${OPT}""" ++ nl ++ "OPT:arm ?= ""o""" ++ nl ++
  "deltask do_y" ++ nl ++ "do_x[noexec] = ""1""" ++ nl ++ "export E = ""v""" ++ nl ++
  "addtask do_x after do_z" ++ nl ++ "EXPORT_FUNCTIONS do_x" ++ nl ++
  "inherit_defer autotools native" ++ nl ++ "require x-${PN}.inc" ++ nl ++ "include_all conf/y.inc" ++ nl ++
  "def py_x(d):" ++ nl ++ "    return d" ++ nl ++ nl ++
  "addpylib ${LAYERDIR}/lib ns" ++ nl ++ "addfragments conf/f V W" ++ nl ++ "export G" ++ nl ++
  "unset Z" ++ nl ++ "unset E[doc]" ++ nl ++ "INHERIT += ""rm_work""" ++ nl.
Definition r_db : cval := CDict [ ("sets", CDict [("base", CDict [("WHO", CStr "me"); ("Z", CStr "z")])]) ].
Definition r_env : env := demo_env [("/w/rec_1.0.bb", r_text)] [].
Definition r_stash : stash := new_stash false false r_db.
Notation r_run := (add_file 2 r_env "rec_1.0.bb" 0 None r_stash).

Ltac r_inline := let a := fresh "a" in let b := fresh "b" in intros a b;
  match goal with |- ?s <> _ => exact (proj1 (contains_false "${@" s) eq_refl a b) end.
Ltac r_lacks c E := match type of E with ?s = _ =>
  let X := fresh in assert (X : In c s) by (rewrite E; apply in_or_app; right; now left); revert X; notin end.
Ltac r_closed := let h := fresh "h" in let E := fresh "E" in let O := fresh "O" in intros h E O; injection E as <-;
  destruct O as (? & ? & ? & ? & O & _); r_lacks 40%N O.
Ltac r_segment := split; notin.
Ltac r_no_word := let H := fresh "H" in let k := fresh "k" in intros [H|[k H]]; [|discriminate]; revert H; notin.
Ltac r_plain_name := split; [notin|];
  let a := fresh "a" in let b := fresh "b" in let E := fresh "E" in intros a b E;
  repeat (destruct a as [|? a]; [discriminate E|cbn [app] in E; injection E as _ E]); destruct a; discriminate E.
Ltac r_values := split; [discriminate|];
  let v := fresh "v" in let Hv := fresh "Hv" in intros v Hv; repeat (destruct Hv as [<-|Hv]; [split; [r_segment|notin]|]); destruct Hv.
Ltac r_no_block := let a := fresh "a" in let b := fresh "b" in let E := fresh "E" in intros [a [b E]]; revert a b E;
   match goal with |- forall a b, ?s = _ -> _ => exact (proj1 (contains_false INLINE_BLOCK s) eq_refl) end.
Ltac r_over n os := right; exists n, os; split;
  [split; [reflexivity|]; split; [discriminate|]; split; [notin|]; split; [discriminate|]; split; [discriminate|];
   let x := fresh "x" in let Hx := fresh "Hx" in intros x [<-|Hx]; [|destruct Hx]; split; [notin|]; do 2 eexists;
   split; [reflexivity|]; left; unfold between; lia
  |let x := fresh "x" in let y := fresh "y" in let X := fresh "X" in let Y := fresh "Y" in
   intros x y _ _ [X|[]] [Y|[]]; now rewrite <- X, <- Y].
Ltac r_op := cbn; tauto.

Lemma r_under_name : simple_name "SRC_URI".
Proof.
  split; [notin|]. intros a b E.
  destruct a as [|x1 a]; [discriminate E|]. cbn [app] in E. injection E as E1 E.
  destruct a as [|x2 a]; [discriminate E|]. cbn [app] in E. injection E as E2 E.
  destruct a as [|x3 a]; [discriminate E|]. cbn [app] in E. injection E as E3 E.
  destruct a as [|x4 a].
  - injection E as E. subst b. split; [discriminate|]. do 2 eexists. split; [reflexivity|]. unfold between. lia.
  - exfalso. cbn [app] in E. injection E as _ E.
    repeat (destruct a as [|? a]; [discriminate E|cbn [app] in E; injection E as _ E]). destruct a; discriminate E.
Qed.

Lemma r_proper : Forall proper r_ss.
Proof.
  unfold r_ss. repeat apply Forall_cons; [..|apply Forall_nil]; (split; [r_inline|]).
  - split; [|r_closed]. split.
    + intros (a & w & E & Hw). r_lacks cBSL E.
    + repeat constructor; try (eexists; reflexivity); (eexists; split; [reflexivity|notin]).
  - split; [|r_closed]. split; [split; [discriminate|chars]|]. split; [r_no_word|]. split; [left; r_plain_name|].
    split; [r_op|]. r_values.
  - split; [exact I|r_closed].
  - split; [|r_closed]. split; [split; [discriminate|chars]|]. split; [r_no_word|]. split; [left; exact r_under_name|].
    split; [r_op|]. r_values.
  - split; [|r_closed]. split; [split; [discriminate|chars]|]. split; [r_no_word|].
    split; [r_over ("SRC_URI" : str) ["append" : str]|]. split; [r_op|]. r_values.
  - split; [|exact I]. split; [exists [], [], " "; head_of|]. split; [intro t; split; discriminate|]. split.
    { intros (a & w & E & Hw). r_lacks cBSL E. }
    split; [exists "python do_x() {"; split; [reflexivity|notin]|].
    split; [repeat constructor; eexists; (split; [reflexivity|notin])|].
    split; [exists "}"; split; [reflexivity|notin]|]. split.
    { intros a b E. destruct a as [|l1 a]; [cbn; lia|]. injection E as <- E. destruct a as [|l2 a]; [vm_compute; discriminate|].
      injection E as <- E. destruct a; [vm_compute; discriminate|discriminate]. }
    split; [reflexivity|]. split; [reflexivity|notin].
  - split; [|r_closed]. split; [split; [discriminate|chars]|]. split; [r_no_word|]. split; [left; exact r_under_name|].
    split; [r_op|]. r_values.
  - split; [|r_closed]. split; [split; [discriminate|chars]|]. split; [r_no_word|].
    split; [r_over ("OPT" : str) ["arm" : str]|]. split; [r_op|]. r_values.
  - split; [|r_closed]. split; [discriminate|chars].
  - split; [|r_closed]. split; [split; [discriminate|chars]|]. split; [discriminate|]. split; [chars|]. split; [r_op|r_segment].
  - split; [|r_closed]. split; [split; [discriminate|chars]|]. split; [r_segment|notin].
  - split; [|r_closed]. split; [split; [discriminate|chars]|]. split.
    { intros [p [r [Hp E]]]. repeat (destruct Hp as [<-|Hp]; [discriminate|]). destruct Hp. }
    split; [r_segment|]. exists [], "do_z". split; [|split].
    + exists " ", "after do_z". split; [reflexivity|]. split; [every|]. split; [discriminate|]. split.
      * right. right. left. exists " ". split; [reflexivity|]. split; [every|]. split; [indent|]. split; [reflexivity|].
        intros [a [b E]]. revert a b E. exact (proj1 (contains_false "before" "do_z") eq_refl).
      * split; [now left|]. split; [intros []|notin].
    + apply words_end.
    + apply (words_word "do_z" [] []); [discriminate|notin|discriminate|]. apply words_end.
  - split; [|r_closed]. split; [r_segment|]. split; [indent|discriminate].
  - split; [|r_closed]. split; [discriminate|]. split; [r_segment|]. split; [indent|discriminate].
  - split; [|r_closed]. split; [now right|]. split; [discriminate|chars].
  - split; [|r_closed]. split; [discriminate|]. split; [r_segment|]. split; [indent|discriminate].
  - split; [|intros h E (? & ? & ? & ? & O & _); injection E as <-;
             assert (X : In 123%N (line "def py_x(d):")) by (rewrite O, !in_app_iff; cbn; tauto); revert X; notin].
    split; [split; [discriminate|chars]|]. split; [r_segment|]. split; [split; intros []|].
    repeat apply Forall_cons; [..|apply Forall_nil]; (split; [eexists; split; [reflexivity|notin]|]);
      (intros (c & u & E & X); injection E as <- _; unfold letter, digit, between, cNL in X; lia).
  - split; [|r_closed]. split; [discriminate|]. split; [r_segment|]. split; [r_segment|every].
  - split; [|r_closed]. split; [split; [discriminate|]; split; [r_segment|]; split; [indent|discriminate]|].
    split; [split; [discriminate|every]|]. split; [r_segment|]. split; [split; [discriminate|every]|r_segment].
  - split; [|r_closed]. split; [discriminate|chars].
  - split; [|r_closed]. split; [split; [discriminate|chars]|intros c []].
  - split; [|r_closed]. split; [split; [discriminate|chars]|chars].
  - split; [|r_closed]. split; [r_op|]. split; [now left|r_segment].
Qed.
Lemma r_recipe : recipe r_ss (universal_newlines r_text).
Proof. split; [vm_compute; reflexivity|]. split; [exact r_proper|].
  cbn [apart may_follow r_ss]. repeat (split; [exact I|]). split; [|repeat (split; [exact I|]); exact I].
  intros h E. injection E as <-. do 2 eexists. split; [reflexivity|]. left. right. unfold between. lia.
Qed.

(** ** C100: the items of a recipe are its statements *)

Theorem C100_statements : forall n e path off forced s l s' t ss, filled e s ->
  add_file n e path off forced s = (Ok l, s') -> considered e path s ->
  fs_read (e_fs e) (file_of e path) = RdText t -> recipe ss (universal_newlines t) ->
  Forall2 reads ss l /\
  forall a x b pre i post, ss = a ++ x :: b -> l = pre ++ i :: post -> length pre = length a ->
    it_infile i = (1 + Z.of_nat (length (concat (map written a))))%Z.
Proof. exact C100_lemma. Qed.
Print Assumptions C100_statements.

Lemma r_ok : is_ok (fst r_run) = true.
Proof. vm_compute. reflexivity. Qed.
Example C100_case : filled r_env r_stash /\ is_ok (fst r_run) = true /\ considered r_env "rec_1.0.bb" r_stash /\
  fs_read (e_fs r_env) (file_of r_env "rec_1.0.bb") = RdText r_text /\ recipe r_ss (universal_newlines r_text).
Proof.
  split; [apply filled_new|]. split; [exact r_ok|]. split; [split; intros []|]. split; [vm_compute; reflexivity|exact r_recipe].
Qed.

(** ** C104: the parts of a statement *)

(** The text of an item and the list get_items returns for it are those of its
    statement. *)
Theorem C104_parts : forall n e path off forced s l s' t ss, filled e s ->
  add_file n e path off forced s = (Ok l, s') -> considered e path s ->
  fs_read (e_fs e) (file_of e path) = RdText t -> recipe ss (universal_newlines t) ->
  Forall2 (fun x i => it_raw i = concat (written x) /\ it_blocks i = [] /\ parts x (get_items_of i)) ss l.
Proof. exact C104_lemma. Qed.
Print Assumptions C104_parts.

Example C104_case : filled r_env r_stash /\ considered r_env "rec_1.0.bb" r_stash /\
  is_ok (fst r_run) = true /\ fs_read (e_fs r_env) (file_of r_env "rec_1.0.bb") = RdText r_text /\
  recipe r_ss (universal_newlines r_text) /\
  map get_items_of (firstn 4 (skipn 9 (ok_items r_run))) =
    [["do_x"; "noexec"; " = "; "1"]; ["E"; "v"]; ["do_x"; "do_z"]; ["do_x"]].
Proof.
  split; [apply filled_new|]. split; [split; intros []|]. split; [vm_compute; reflexivity|].
  split; [vm_compute; reflexivity|]. split; [exact r_recipe|vm_compute; reflexivity].
Qed.

(** ** C101: the values of the variables of a recipe *)

(** In a new stash that has read one recipe, ExpandVar gives every variable the
    value its assignments say, with every reference replaced.  If a statement
    names other files, none of them was found. *)
Theorem C101_values : forall n e path off forced new neg db l s' t ss nolink d, env_ok e -> names_ok db ->
  NoDup (dkeys (sets_base db)) -> (forall k, In k (dkeys (sets_base db)) -> plain_text k) ->
  add_file n e path off forced (new_stash new neg db) = (Ok l, s') ->
  fs_read (e_fs e) (file_of e path) = RdText t -> recipe ss (universal_newlines t) ->
  (forall name op vs, In (Assign name op vs) ss -> ~ In 36%N name /\ ~ occurs INLINE_BLOCK (join [cESC] vs)) ->
  (forall name flag, In (Plain (UnsetVar name flag)) ss -> length name = 1) ->
  (forall y, In y ss -> brings y -> st_list s' = l) ->
  expand_var e s' (Some (file_of e path)) ANone ANone nolink = Ok d ->
  forall x, let evs := events x ss in
    let start := preset (new_stash new neg db) (file_of e path) x in
    (fold_left at_once evs start = None -> forall v, ~ In (LateRemoves v) evs) ->
    match assigned start evs with
    | None => dget x d = None
    | Some v => forall w, no_code v ->
        expands (meaning (sets_base db) ss) (fun k => dget k (builtins (file_of e path))) [] v w ->
        dget x d = Some (safe_linesplit w)
    end.
Proof. exact C101_lemma. Qed.
Print Assumptions C101_values.

(** The statements about one variable, and the text they make; the words of the
    value are those of the expanded text. *)
Example C101_case : env_ok r_env /\ names_ok r_db /\ NoDup (dkeys (sets_base r_db)) /\
  (forall k, In k (dkeys (sets_base r_db)) -> plain_text k) /\
  (forall name op vs, In (Assign name op vs) r_ss -> ~ In 36%N name /\ ~ occurs INLINE_BLOCK (join [cESC] vs)) /\
  (forall name flag, In (Plain (UnsetVar name flag)) r_ss -> length name = 1) /\
  st_list (snd r_run) = ok_items r_run /\ events "Z" r_ss = [Unsets] /\
  is_ok (expand_var r_env (snd r_run) (Some "/w/rec_1.0.bb") ANone ANone false) = true /\
  events "SRC_URI" r_ss = [Sets ("a " ++ [cESC] ++ " b"); LateAdds " c"; AddsWord "${OPT}"] /\
  assigned (preset r_stash "/w/rec_1.0.bb" "SRC_URI") (events "SRC_URI" r_ss) = Some ("a " ++ [cESC] ++ " b ${OPT} c") /\
  no_code ("a " ++ [cESC] ++ " b ${OPT} c") /\
  expands (meaning (sets_base r_db) r_ss) (fun k => dget k (builtins "/w/rec_1.0.bb")) []
    ("a " ++ [cESC] ++ " b ${OPT} c") ("a " ++ [cESC] ++ " b o c") /\
  safe_linesplit ("a " ++ [cESC] ++ " b o c") = ["a"; "b"; "o"; "c"].
Proof.
  split; [apply demo_env_ok|]. split.
  { split; [now eexists|]. split; [discriminate|]. intros key v [<-|[<-|[]]]; discriminate. }
  split; [repeat constructor; cbn; intuition discriminate|].
  split; [intros k [<-|[<-|[]]]; (split; [split|]); reflexivity|].
  split.
  { intros name op vs H. unfold r_ss in H. cbn [In] in H.
    repeat (destruct H as [H|H]; [first [discriminate H | injection H as <- _ <-; split; [notin|r_no_block]]|]). destruct H. }
  split.
  { intros name flag H. unfold r_ss in H. cbn [In] in H.
    repeat (destruct H as [H|H]; [first [discriminate H | injection H as <- _; reflexivity]|]). destruct H. }
  split; [vm_compute; reflexivity|]. split; [vm_compute; reflexivity|]. split; [vm_compute; reflexivity|]. split; [vm_compute; reflexivity|]. split; [vm_compute; reflexivity|].
  split; [split; reflexivity|]. split; [|vm_compute; reflexivity].
  do 6 (apply ex_char; [discriminate|]).
  apply (ex_known _ _ [] "OPT" "o" "o" " c" " c"); [|intros []|reflexivity|split; reflexivity| |].
  - split; [discriminate|]. repeat split; notin.
  - apply ex_char; [discriminate|apply ex_end].
  - do 2 (apply ex_char; [discriminate|]). apply ex_end.
Qed.

(** ** C105: classes, attributes and queries *)

(** Every item is of the class of its statement, and its attributes have the
    values that the statement shows. *)
Theorem C105_attributes : forall n e path off forced s l s' t ss, filled e s ->
  add_file n e path off forced s = (Ok l, s') -> considered e path s ->
  fs_read (e_fs e) (file_of e path) = RdText t -> recipe ss (universal_newlines t) ->
  Forall2 shown_by ss l.
Proof. exact C105_lemma. Qed.
Print Assumptions C105_attributes.

(** In a new stash that has read one recipe, a query for a class finds the items
    of the statements of that class, in their order; a query for an attribute
    that all statements of the class show finds those that show the value. *)
Theorem C105_queries : forall n e path off forced new neg db l s' t ss nolink c a v, env_ok e ->
  add_file n e path off forced (new_stash new neg db) = (Ok l, s') ->
  fs_read (e_fs e) (file_of e path) = RdText t -> recipe ss (universal_newlines t) ->
  (forall y, In y ss -> brings y -> st_list s' = l) ->
  c <> [] -> a <> [] -> v <> [] ->
  (forall x, In x ss -> class_of x = "Include" -> c <> "Include" /\ c <> "Item") ->
  (forall x, In x ss -> class_of x = c -> exists w, shows x a w) ->
  picked (fun x => class_of x = c) ss l
    (get_items_for e s' (MkQuery (Some (file_of e path)) (AOne c) ANone ANone nolink)) /\
  picked (fun x => class_of x = c /\ shows x a (VStr v)) ss l
    (get_items_for e s' (MkQuery (Some (file_of e path)) (AOne c) (AOne a) (AOne (VStr v)) nolink)).
Proof. exact C105_query_lemma. Qed.
Print Assumptions C105_queries.

(** The two assignments to SRC_URI without overrides, and the one with. *)
Example C105_case : env_ok r_env /\ filled r_env r_stash /\ considered r_env "rec_1.0.bb" r_stash /\
  is_ok (fst r_run) = true /\ fs_read (e_fs r_env) (file_of r_env "rec_1.0.bb") = RdText r_text /\
  recipe r_ss (universal_newlines r_text) /\ st_list (snd r_run) = ok_items r_run /\
  (forall x, In x r_ss -> class_of x = "Include" -> ("Variable" : str) <> "Include" /\ ("Variable" : str) <> "Item") /\
  (forall x, In x r_ss -> class_of x = "Variable" -> exists w, shows x "VarNameComplete" w) /\
  shows (Assign "SRC_URI:append" " = " [" c"]) "VarNameComplete" (VStr "SRC_URI:append") /\
  shows (Assign "SRC_URI:append" " = " [" c"]) "VarNameCompleteNoModifiers" (VStr "SRC_URI") /\
  map it_infile (get_items_for r_env (snd r_run)
    (MkQuery (Some "/w/rec_1.0.bb") (AOne "Variable") (AOne "VarNameComplete") (AOne (VStr "SRC_URI")) false)) = [5%Z; 12%Z].
Proof.
  split; [apply demo_env_ok|]. split; [apply filled_new|]. split; [split; intros []|]. split; [exact r_ok|].
  split; [vm_compute; reflexivity|]. split; [exact r_recipe|]. split; [vm_compute; reflexivity|].
  split; [intros; split; discriminate|]. split.
  - intros x _ C. destruct x as [name op vs|name flag op v|name v|fs|name|name t bl al|qs name head b m z1 z2|h m| |[]|name args rest m];
      try discriminate C. exists (VStr name). right. exists name. split; [now right; right; right; left|reflexivity].
  - split; [right; eexists; split; [now right; right; right; left|reflexivity]|].
    split; [right; eexists; split; [now right; right; right; right; left|reflexivity]|].
    vm_compute. reflexivity.
Qed.
