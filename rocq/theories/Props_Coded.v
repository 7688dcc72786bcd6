(** * Property C106, and C77 for recipes: recipes with inline code *)

From Verif Require Import Props_Items.
From Verif Require Import PyStr Regex Patterns PyPath Res Inline Const Item Lines Stash Demo StrFacts
  Props_Lines Spec_Query Spec_Parse Spec_Group Spec_Func Spec_Access Spec_Expand Spec_Const Spec_Inline Props_Inline Spec_Recipe
  Props_Parse Props_Func Proofs_Group Proofs_Recipe Proofs_Values Proofs_Parts Proofs_Shows Props_Recipe.

(** ** The recipe of the examples *)

Definition c_cs (neg : bool) : list (list str * stmt) :=
  [ ([line "SRC_URI = ""a ${@bb.utils.contains('X', 'y', 'b', 'c', d)}"""],
     Assign "SRC_URI" " = " [if neg then "a c" else "a b"]);
    ([line "do_x() {"; line "  echo ${@d.getVar('B')}"; line "}"],
     Func [] "do_x" "do_x() {" nl [line "  echo ${B}"] [] nl);
    ([line "V = ""1 ${@foo(d)}"""], Assign "V" " = " ["1 !!!inlineblock!!!"]);
    ([line "W = ""${V}"""], Assign "W" " = " ["${V}"]) ].
Definition c_text : str :=
  "SRC_URI = ""a ${@bb.utils.contains('X', 'y', 'b', 'c', d)}""" ++ nl ++
  "do_x() {" ++ nl ++ "  echo ${@d.getVar('B')}" ++ nl ++ "}" ++ nl ++
  "V = ""1 ${@foo(d)}""" ++ nl ++ "W = ""${V}""" ++ nl.
Definition c_env : env := demo_env [("/w/rec_1.0.bb", c_text)] [].
Definition c_stash (neg : bool) : stash := new_stash false neg r_db.
Notation c_run neg := (add_file 2 c_env "rec_1.0.bb" 0 None (c_stash neg)).

Lemma line_like_line : forall t, ~ In cNL t -> line_like (line t).
Proof. intros t H. left. now exists t. Qed.
Ltac c_line := apply block_line;
  [ match goal with |- ~ carries_on ?l => let H := fresh in intro H; apply carries_iff in H; [discriminate H|apply line_like_line; notin] end
  | match goal with |- ~ opens ?l => let H := fresh in intro H; apply opens_iff in H; [discriminate H|apply line_like_line; notin] end
  | intros [? E]; discriminate E
  | intros (w & ? & E & _ & _); repeat (destruct w as [|? w]; [discriminate E|cbn [app] in E; injection E as _ E]); destruct w; discriminate E ].

Lemma c_taken : forall neg, taken (concat (map fst (c_cs neg))) (map fst (c_cs neg)) [].
Proof.
  intro neg. unfold c_cs. cbn [map fst concat app].
  eapply taken_more; [c_line|].
  eapply taken_more.
  { apply (block_function (line "do_x() {") [line "  echo ${@d.getVar('B')}"] (line "}")).
    - intro H. apply carries_iff in H; [discriminate H|apply line_like_line; notin].
    - apply opens_iff; [apply line_like_line; notin|reflexivity].
    - split; [|reflexivity]. intros a b E. destruct a as [|l1 a]; [cbn; lia|]. injection E as <- E.
      destruct a; [vm_compute; discriminate|discriminate]. }
  eapply taken_more; [c_line|]. eapply taken_more; [c_line|]. apply taken_none.
Qed.

Lemma c_proper : forall neg, Forall proper (map snd (c_cs neg)).
Proof.
  intro neg. unfold c_cs. cbn [map snd]. repeat apply Forall_cons; [..|apply Forall_nil]; (split; [destruct neg; r_inline|]).
  - split; [|destruct neg; r_closed]. split; [split; [discriminate|chars]|]. split; [r_no_word|].
    split; [left; exact r_under_name|]. split; [r_op|]. destruct neg; r_values.
  - split; [|exact I]. split; [exists [], [], " "; head_of|]. split; [intro t; split; discriminate|]. split.
    { intros (a & w & E & Hw). r_lacks cBSL E. }
    split; [exists "do_x() {"; split; [reflexivity|notin]|].
    split; [repeat constructor; eexists; (split; [reflexivity|notin])|].
    split; [exists "}"; split; [reflexivity|notin]|]. split.
    { intros a b E. destruct a as [|l1 a]; [cbn; lia|]. injection E as <- E. destruct a; [vm_compute; discriminate|discriminate]. }
    split; [reflexivity|]. split; [reflexivity|notin].
  - split; [|r_closed]. split; [split; [discriminate|chars]|]. split; [r_no_word|]. split; [left; r_plain_name|].
    split; [r_op|]. r_values.
  - split; [|r_closed]. split; [split; [discriminate|chars]|]. split; [r_no_word|]. split; [left; r_plain_name|].
    split; [r_op|]. r_values.
Qed.

Lemma c_evaluated : forall neg, Forall (fun c => evaluated neg (concat (fst c)) (concat (written (snd c)))) (c_cs neg).
Proof.
  intro neg. unfold c_cs. repeat apply Forall_cons; [..|apply Forall_nil].
  - exists [("SRC_URI = ""a ", "${@bb.utils.contains('X', 'y', 'b', 'c', d)}")],
           [("SRC_URI = ""a ", (if neg then "c" else "b") : str)], ("""" ++ nl).
    split; [reflexivity|]. split; [destruct neg; reflexivity|]. split; [|noc].
    apply Forall2_cons; [|apply Forall2_nil]. split; [reflexivity|]. split; [calm|]. cbn [fst snd].
    split; [is_block ("bb.utils.contains('X', 'y', 'b', 'c', d)" : str)|]. split; [|destruct neg; calm].
    apply (ev_helper neg _ "bb.utils.contains" ["'X'"; "'y'"; "'b'"; "'c'"; "d"]).
    + exists [], "'X', 'y', 'b', 'c', d". split; [reflexivity|]. split; [intros c []|].
      apply (arg_more "'X'" " "); [parg|every|notin|]. apply (arg_more "'y'" " "); [parg|every|notin|].
      apply (arg_more "'b'" " "); [parg|every|notin|]. apply (arg_more "'c'" " "); [parg|every|notin|]. apply arg_last. parg.
    + apply (help_contains neg "'X'" "'y'" "'b'" "'c'" "b" "c"); quo cSQ.
  - exists [("do_x() {" ++ nl ++ "  echo ", "${@d.getVar('B')}")], [("do_x() {" ++ nl ++ "  echo ", "${B}")], (nl ++ "}" ++ nl).
    split; [reflexivity|]. split; [reflexivity|]. split; [|noc].
    apply Forall2_cons; [|apply Forall2_nil]. split; [reflexivity|]. split; [calm|]. cbn [fst snd].
    split; [is_block ("d.getVar('B')" : str)|]. split; [|calm].
    apply (ev_reads neg _ "B"). exists cSQ. split; [cbn; tauto|]. split; [reflexivity|]. split; [discriminate|]. names.
  - exists [("V = ""1 ", "${@foo(d)}")], [("V = ""1 ", "!!!inlineblock!!!")], ("""" ++ nl).
    split; [reflexivity|]. split; [reflexivity|]. split; [|noc].
    apply Forall2_cons; [|apply Forall2_nil]. split; [reflexivity|]. split; [calm|]. cbn [fst snd].
    split; [is_block ("foo(d)" : str)|]. split; [|calm]. apply ev_unknown. unkn.
  - exists [], [], ("W = ""${V}""" ++ nl). split; [reflexivity|]. split; [reflexivity|]. split; [constructor|noc].
Qed.

Lemma c_coded : forall neg, coded neg (c_cs neg) (universal_newlines c_text).
Proof.
  intro neg. split; [vm_compute; reflexivity|]. split.
  - unfold c_cs. cbn [map fst concat app]. repeat apply Forall_cons; [..|apply Forall_nil]; (eexists; split; [reflexivity|notin]).
  - split; [apply c_taken|]. pose proof (c_proper neg) as P. rewrite Forall_map in P. pose proof (c_evaluated neg) as E.
    rewrite Forall_forall in *. intros c Hc. split; [now apply P|now apply E].
Qed.

(** ** C106: the items, attributes, queries and values of a recipe with inline code *)

(** Every item is read from its statement with the results of the inline code
    in place, and RealRaw is the text of the file. *)
Theorem C106_statements : forall n e path off forced s l s' t cs, filled e s ->
  add_file n e path off forced s = (Ok l, s') -> considered e path s ->
  fs_read (e_fs e) (file_of e path) = RdText t -> coded (st_neg s) cs (universal_newlines t) ->
  Forall2 (fun c i => reads (snd c) i /\ it_raw i = concat (written (snd c)) /\ it_realraw i = concat (fst c)) cs l /\
  forall a c b pre i post, cs = a ++ c :: b -> l = pre ++ i :: post -> length pre = length a ->
    it_infile i = (1 + Z.of_nat (length (concat (map fst a))))%Z.
Proof. exact C106_read_lemma. Qed.
Print Assumptions C106_statements.

Theorem C106_parts : forall n e path off forced s l s' t cs, filled e s ->
  add_file n e path off forced s = (Ok l, s') -> considered e path s ->
  fs_read (e_fs e) (file_of e path) = RdText t -> coded (st_neg s) cs (universal_newlines t) ->
  Forall2 (fun c i => parts (snd c) (get_items_of i)) cs l.
Proof. exact C106_parts_lemma. Qed.
Print Assumptions C106_parts.

Theorem C106_attributes : forall n e path off forced s l s' t cs, filled e s ->
  add_file n e path off forced s = (Ok l, s') -> considered e path s ->
  fs_read (e_fs e) (file_of e path) = RdText t -> coded (st_neg s) cs (universal_newlines t) ->
  Forall2 (fun c => shown_as (concat (fst c)) (snd c)) cs l.
Proof. exact C106_shown_lemma. Qed.
Print Assumptions C106_attributes.

(** Where the items are: Line counts from the offset of the call, if the file is
    no bbappend and adds no other files. *)
Theorem C106_position : forall n e path off forced s l s' t cs, filled e s ->
  add_file n e path off forced s = (Ok l, s') -> considered e path s ->
  fs_read (e_fs e) (file_of e path) = RdText t -> coded (st_neg s) cs (universal_newlines t) ->
  forall a c b pre i post, cs = a ++ c :: b -> l = pre ++ i :: post -> length pre = length a ->
    let num := (1 + Z.of_nat (length (concat (map fst a))))%Z in
    dget "Origin" (attributes i) = Some (VStr (file_of e path)) /\
    dget "InFileLine" (attributes i) = Some (VInt num) /\
    dget "IsFromClass" (attributes i) = Some (VBool (endswith ".bbclass" (file_of e path))) /\
    (endswith ".bbappend" (file_of e path) = false -> (forall c, In c cs -> ~ brings (snd c)) ->
     dget "Line" (attributes i) = Some (VInt (off + num))).
Proof. exact C106_position_lemma. Qed.
Print Assumptions C106_position.

Theorem C106_queries : forall n e path off forced new neg db l s' t cs nolink k a v, env_ok e ->
  add_file n e path off forced (new_stash new neg db) = (Ok l, s') ->
  fs_read (e_fs e) (file_of e path) = RdText t -> coded neg cs (universal_newlines t) ->
  (forall c, In c cs -> brings (snd c) -> st_list s' = l) ->
  k <> [] -> a <> [] -> v <> [] ->
  (forall c, In c cs -> class_of (snd c) = "Include" -> k <> "Include" /\ k <> "Item") ->
  (forall c, In c cs -> class_of (snd c) = k -> exists w, shows_as (concat (fst c)) (snd c) a w) ->
  picked (fun c => class_of (snd c) = k) cs l
    (get_items_for e s' (MkQuery (Some (file_of e path)) (AOne k) ANone ANone nolink)) /\
  picked (fun c => class_of (snd c) = k /\ shows_as (concat (fst c)) (snd c) a (VStr v)) cs l
    (get_items_for e s' (MkQuery (Some (file_of e path)) (AOne k) (AOne a) (AOne (VStr v)) nolink)).
Proof. exact C106_query_lemma. Qed.
Print Assumptions C106_queries.

Lemma c_ok : forall neg, is_ok (fst (c_run neg)) = true.
Proof. intros [|]; vm_compute; reflexivity. Qed.
Lemma c_considered : forall neg, considered c_env "rec_1.0.bb" (c_stash neg).
Proof. intro neg. split; intros []. Qed.
Lemma c_read : fs_read (e_fs c_env) (file_of c_env "rec_1.0.bb") = RdText c_text.
Proof. vm_compute. reflexivity. Qed.
Lemma c_list : forall neg, st_list (snd (c_run neg)) = ok_items (c_run neg).
Proof. intros [|]; vm_compute; reflexivity. Qed.
Example C106_case : forall neg : bool, env_ok c_env /\ filled c_env (c_stash neg) /\ considered c_env "rec_1.0.bb" (c_stash neg) /\
  is_ok (fst (c_run neg)) = true /\ fs_read (e_fs c_env) (file_of c_env "rec_1.0.bb") = RdText c_text /\
  coded (st_neg (c_stash neg)) (c_cs neg) (universal_newlines c_text) /\ st_list (snd (c_run neg)) = ok_items (c_run neg) /\
  (forall c, In c (c_cs neg) -> class_of (snd c) = "Include" -> ("Variable" : str) <> "Include" /\ ("Variable" : str) <> "Item") /\
  (forall c, In c (c_cs neg) -> class_of (snd c) = "Variable" -> exists w, shows_as (concat (fst c)) (snd c) "VarValueStripped" w) /\
  map it_infile (get_items_for c_env (snd (c_run neg))
    (MkQuery (Some "/w/rec_1.0.bb") (AOne "Variable") (AOne "VarValueStripped") (AOne (VStr "a c")) false)) =
    if neg then [1%Z] else [].
Proof.
  intro neg. split; [apply demo_env_ok|]. split; [apply filled_new|]. split; [apply c_considered|]. split; [apply c_ok|].
  split; [exact c_read|]. split; [exact (c_coded neg)|]. split; [apply c_list|]. split; [intros; split; discriminate|]. split.
  - intros [g x] _ C. cbn [fst snd] in *.
    destruct x as [name op vs|name flag op v|name v|fs|name|name t bl al|qs name head b m z1 z2|h m| |[]|name args rest m];
      try discriminate C. exists (VStr (join [cESC] vs)). right. eexists. split; [|reflexivity].
    now right; right; right; right; right; right; right; left.
  - destruct neg; vm_compute; reflexivity.
Qed.
Example C106_position_case : forall neg : bool, endswith ".bbappend" (file_of c_env "rec_1.0.bb") = false /\
  (forall c, In c (c_cs neg) -> ~ brings (snd c)) /\
  map it_line (ok_items (add_file 2 c_env "rec_1.0.bb" 10 None (c_stash neg))) = [11; 12; 15; 16]%Z.
Proof.
  intro neg. split; [reflexivity|]. split; [|destruct neg; vm_compute; reflexivity].
  intros c H. unfold c_cs in H. cbn [In] in H. destruct H as [<-|[<-|[<-|[<-|[]]]]]; cbn; tauto.
Qed.

(** ExpandVar gives every variable the value its assignments say.  Inline code
    that is not evaluated is put back as it is written. *)
Theorem C106_values : forall n e path off forced new neg db l s' t cs nolink d, env_ok e -> names_ok db ->
  NoDup (dkeys (sets_base db)) -> (forall k, In k (dkeys (sets_base db)) -> plain_text k) ->
  add_file n e path off forced (new_stash new neg db) = (Ok l, s') ->
  fs_read (e_fs e) (file_of e path) = RdText t -> coded neg cs (universal_newlines t) ->
  let ss := map snd cs in (forall c, In c cs -> restorable c) ->
  (forall name op vs, In (Assign name op vs) ss -> ~ In 36%N name) ->
  (forall name flag, In (Plain (UnsetVar name flag)) ss -> length name = 1) ->
  (forall y, In y ss -> brings y -> st_list s' = l) ->
  expand_var e s' (Some (file_of e path)) ANone ANone nolink = Ok d ->
  forall x, let evs := coded_events x cs in
    let start := preset (new_stash new neg db) (file_of e path) x in
    (fold_left at_once evs start = None -> forall v, ~ In (LateRemoves v) evs) ->
    match assigned start evs with
    | None => dget x d = None
    | Some v => forall w, no_code v ->
        expands (coded_meaning (sets_base db) cs) (fun k => dget k (builtins (file_of e path))) [] v w ->
        dget x d = Some (safe_linesplit w)
    end.
Proof. exact C106_values_lemma. Qed.
Print Assumptions C106_values.

Lemma c_restorable : forall neg c, In c (c_cs neg) -> restorable c.
Proof.
  intros neg c H. unfold c_cs in H. cbn [In] in H. destruct H as [<-|[<-|[<-|[<-|[]]]]]; unfold restorable; cbn [snd fst].
  - intros O. exfalso. revert O. destruct neg; noc.
  - exact I.
  - intros _. exists [("1 ", "${@foo(d)}")], []. split; [reflexivity|]. split; [split; notin|].
    split; [apply Forall_cons; [|apply Forall_nil]; split; [calm|]; split; [is_block ("foo(d)" : str)|unkn]|].
    split; [repeat constructor; intros []|]. split; [noc|]. split; [noc|].
    apply (is_unquoted 49 " ${@foo(d)" 125); discriminate.
  - intros O. exfalso. revert O. noc.
Qed.
Lemma r_db_ok : names_ok r_db /\ NoDup (dkeys (sets_base r_db)) /\ forall k, In k (dkeys (sets_base r_db)) -> plain_text k.
Proof.
  split.
  { split; [now eexists|]. split; [discriminate|]. intros key v [<-|[<-|[]]]; discriminate. }
  split; [repeat constructor; cbn; intuition discriminate|]. intros k [<-|[<-|[]]]; (split; [split|]); reflexivity.
Qed.
Lemma c_means : forall neg, coded_meaning (sets_base r_db) (c_cs neg) "V" = Some "1 ${@foo(d)}" /\
  coded_meaning (sets_base r_db) (c_cs neg) "@foo(d)" = None.
Proof. intros [|]; split; vm_compute; reflexivity. Qed.
Example C106_values_case : forall neg : bool,
  (forall c, In c (c_cs neg) -> restorable c) /\
  (forall name op vs, In (Assign name op vs) (map snd (c_cs neg)) -> ~ In 36%N name) /\
  (forall name flag, In (Plain (UnsetVar name flag)) (map snd (c_cs neg)) -> length name = 1) /\
  is_ok (expand_var c_env (snd (c_run neg)) (Some "/w/rec_1.0.bb") ANone ANone false) = true /\
  coded_events "W" (c_cs neg) = [Sets "${V}"] /\ no_code "${V}" /\
  expands (coded_meaning (sets_base r_db) (c_cs neg)) (fun k => dget k (builtins "/w/rec_1.0.bb")) [] "${V}" "1 ${@foo(d)}" /\
  coded_events "V" (c_cs neg) = [Sets "1 ${@foo(d)}"] /\
  coded_events "SRC_URI" (c_cs neg) = [Sets (if neg then "a c" else "a b")].
Proof.
  intro neg. split; [apply c_restorable|]. split.
  { intros name op vs H. unfold c_cs in H. cbn [map snd In] in H.
    repeat (destruct H as [H|H]; [first [discriminate H | injection H as <- _ _; notin]|]). destruct H. }
  split.
  { intros name flag H. unfold c_cs in H. cbn [map snd In] in H. repeat (destruct H as [H|H]; [discriminate H|]). destruct H. }
  split; [destruct neg; vm_compute; reflexivity|]. split; [destruct neg; vm_compute; reflexivity|]. split; [split; reflexivity|].
  split; [|split; destruct neg; vm_compute; reflexivity].
  destruct (c_means neg) as [M1 M2].
  assert (X : expands (coded_meaning (sets_base r_db) (c_cs neg)) (fun k => dget k (builtins "/w/rec_1.0.bb")) []
    ("1 ${@foo(d)}" : str) ("1 ${@foo(d)}" : str)).
  { do 2 (apply ex_char; [discriminate|]). apply (ex_unknown _ _ [] "@foo(d)" [] []).
    - split; [discriminate|]. repeat split; notin.
    - intros [].
    - exact M2.
    - reflexivity.
    - apply ex_end. }
  apply (ex_known _ _ [] "V" "1 ${@foo(d)}" "1 ${@foo(d)}" [] []); [|intros []|exact M1|split; reflexivity|exact X|apply ex_end].
  split; [discriminate|]. repeat split; notin.
Qed.

(** ** C77: the operators of assignments whose values have inline code *)

(** The value that the operators say, where inline code that is not evaluated
    stands only in values that are set anew. *)
Theorem C77_recipe_partial : forall n e path off forced new neg db l s' t cs nolink d, env_ok e -> names_ok db ->
  NoDup (dkeys (sets_base db)) -> (forall k, In k (dkeys (sets_base db)) -> plain_text k) ->
  add_file n e path off forced (new_stash new neg db) = (Ok l, s') ->
  fs_read (e_fs e) (file_of e path) = RdText t -> coded neg cs (universal_newlines t) ->
  let ss := map snd cs in (forall c, In c cs -> restorable c) ->
  (forall name op vs, In (Assign name op vs) ss -> ~ In 36%N name) ->
  (forall name flag, In (Plain (UnsetVar name flag)) ss -> length name = 1) ->
  (forall y, In y ss -> brings y -> st_list s' = l) ->
  expand_var e s' (Some (file_of e path)) ANone ANone nolink = Ok d ->
  forall x, (forall c, In c cs -> set_anew x c) -> let evs := typed_events x cs in
    let start := preset (new_stash new neg db) (file_of e path) x in
    (fold_left at_once evs start = None -> forall v, ~ In (LateRemoves v) evs) ->
    match assigned start evs with
    | None => dget x d = None
    | Some v => forall w, no_code v ->
        expands (coded_meaning (sets_base db) cs) (fun k => dget k (builtins (file_of e path))) [] v w ->
        dget x d = Some (safe_linesplit w)
    end.
Proof. exact C77_recipe_lemma. Qed.
Print Assumptions C77_recipe_partial.
Example C77_recipe_partial_case : forall (neg : bool) (x : str), (forall c, In c (c_cs neg) -> set_anew x c) /\
  typed_events "V" (c_cs neg) = [Sets "1 ${@foo(d)}"] /\ no_code "1 ${@foo(d)}" /\
  expands (coded_meaning (sets_base r_db) (c_cs neg)) (fun k => dget k (builtins "/w/rec_1.0.bb")) []
    "1 ${@foo(d)}" "1 ${@foo(d)}" /\
  match expand_var c_env (snd (c_run neg)) (Some "/w/rec_1.0.bb") ANone ANone false with
  | Ok d => dget "V" d = Some ["1"; "${@foo(d)}"]
  | _ => False
  end.
Proof.
  intros neg x. split.
  { intros c H. unfold c_cs in H. cbn [In] in H. destruct H as [<-|[<-|[<-|[<-|[]]]]]; unfold set_anew; cbn [snd fst]; try exact I;
      intros _ _; (split; [cbn; tauto|]); intros o _; vm_compute; tauto. }
  split; [destruct neg; vm_compute; reflexivity|]. split; [split; reflexivity|]. split; [|destruct neg; vm_compute; reflexivity].
  do 2 (apply ex_char; [discriminate|]). apply (ex_unknown _ _ [] "@foo(d)" [] []); [|intros []|apply c_means|reflexivity|apply ex_end].
  split; [discriminate|]. repeat split; notin.
Qed.

(** With the other operators such code replaces the value: in this recipe,
    [A += ] loses the value [x], and [B ?= ] overwrites the value [y]. *)
Definition o_cs : list (list str * stmt) :=
  [ ([line "A = ""x"""], Assign "A" " = " ["x"]);
    ([line "A += ""${@f()}"""], Assign "A" " += " ["!!!inlineblock!!!"]);
    ([line "B = ""y"""], Assign "B" " = " ["y"]);
    ([line "B ?= ""${@f()}"""], Assign "B" " ?= " ["!!!inlineblock!!!"]) ].
Definition o_text : str :=
  "A = ""x""" ++ nl ++ "A += ""${@f()}""" ++ nl ++ "B = ""y""" ++ nl ++ "B ?= ""${@f()}""" ++ nl.
Definition o_env : env := demo_env [("/w/rec_1.0.bb", o_text)] [].
Notation o_run := (add_file 2 o_env "rec_1.0.bb" 0 None (c_stash false)).

Lemma o_coded : coded false o_cs (universal_newlines o_text).
Proof.
  split; [vm_compute; reflexivity|]. split.
  { unfold o_cs. cbn [map fst concat app]. repeat apply Forall_cons; [..|apply Forall_nil]; (eexists; split; [reflexivity|notin]). }
  split. { unfold o_cs. cbn [map fst concat app]. repeat (eapply taken_more; [c_line|]). apply taken_none. }
  unfold o_cs. repeat apply Forall_cons; [..|apply Forall_nil]; cbn [fst snd]; split.
  1, 3, 5, 7: split; [r_inline|]; split; [|r_closed]; split; [split; [discriminate|chars]|]; split; [r_no_word|];
    split; [left; r_plain_name|]; split; [r_op|]; r_values.
  - exists [], [], ("A = ""x""" ++ nl). split; [reflexivity|]. split; [reflexivity|]. split; [constructor|noc].
  - exists [("A += """, "${@f()}")], [("A += """, "!!!inlineblock!!!")], ("""" ++ nl).
    split; [reflexivity|]. split; [reflexivity|]. split; [|noc].
    apply Forall2_cons; [|apply Forall2_nil]. split; [reflexivity|]. split; [calm|]. cbn [fst snd].
    split; [is_block ("f()" : str)|]. split; [|calm]. apply ev_unknown. unkn.
  - exists [], [], ("B = ""y""" ++ nl). split; [reflexivity|]. split; [reflexivity|]. split; [constructor|noc].
  - exists [("B ?= """, "${@f()}")], [("B ?= """, "!!!inlineblock!!!")], ("""" ++ nl).
    split; [reflexivity|]. split; [reflexivity|]. split; [|noc].
    apply Forall2_cons; [|apply Forall2_nil]. split; [reflexivity|]. split; [calm|]. cbn [fst snd].
    split; [is_block ("f()" : str)|]. split; [|calm]. apply ev_unknown. unkn.
Qed.
Lemma o_restorable : forall c, In c o_cs -> restorable c.
Proof.
  intros c H. unfold o_cs in H. cbn [In] in H. destruct H as [<-|[<-|[<-|[<-|[]]]]]; unfold restorable; cbn [snd fst].
  1, 3: intros O; exfalso; revert O; noc.
  all: intros _; exists [([], "${@f()}")], []; (split; [reflexivity|]); (split; [split; notin|]);
    (split; [apply Forall_cons; [|apply Forall_nil]; split; [calm|]; split; [is_block ("f()" : str)|unkn]|]);
    (split; [repeat constructor; intros []|]); (split; [noc|]); (split; [noc|]);
    apply (is_unquoted 36 "{@f()" 125); discriminate.
Qed.

Theorem C77_recipe_refuted : exists e path neg db t cs l s' d, env_ok e /\ names_ok db /\
  add_file 2 e path 0 None (new_stash false neg db) = (Ok l, s') /\
  fs_read (e_fs e) (file_of e path) = RdText t /\ coded neg cs (universal_newlines t) /\
  (forall c, In c cs -> restorable c) /\
  expand_var e s' (Some (file_of e path)) ANone ANone false = Ok d /\
  let start := preset (new_stash false neg db) (file_of e path) in
  (assigned (start "A") (typed_events "A" cs) = Some "x ${@f()}" /\ dget "A" d = Some ["${@f()}"]) /\
  (assigned (start "B") (typed_events "B" cs) = Some "y" /\ dget "B" d = Some ["${@f()}"]).
Proof.
  exists o_env, "rec_1.0.bb", false, r_db, o_text, o_cs, (ok_items o_run), (snd o_run),
    (match expand_var o_env (snd o_run) (Some "/w/rec_1.0.bb") ANone ANone false with Ok d => d | _ => [] end).
  split; [apply demo_env_ok|]. split; [apply r_db_ok|]. split; [vm_compute; reflexivity|]. split; [vm_compute; reflexivity|].
  split; [exact o_coded|]. split; [exact o_restorable|]. split; [vm_compute; reflexivity|].
  split; split; vm_compute; reflexivity.
Qed.
Print Assumptions C77_recipe_refuted.
