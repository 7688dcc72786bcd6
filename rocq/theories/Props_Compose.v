(** * Properties C107, C108: recipes that consist of several files *)

From Verif Require Import Props_Items.
From Verif Require Import PyStr Regex Patterns PyPath Res Inline Const Item Lines Stash Demo StrFacts
  Props_Lines Spec_Query Spec_Parse Spec_Group Spec_Func Spec_Access Spec_Expand Spec_Const Spec_Files Spec_Inline Props_Inline
  Spec_Recipe Spec_Compose Props_Parse Props_Func Proofs_Group Proofs_Files Proofs_Recipe Proofs_Values Props_Recipe Props_Coded Proofs_Compose.

(** ** The files of the examples *)

Definition co_first : list stmt := [ Assign "A" " = " ["1"]; Assign "B" " = " ["${A}"] ].
Definition co_last : list stmt := [ Assign "C" " ?= " ["${B}"]; Assign "A" " += " ["5"] ].
Definition co_more : list stmt := [ Assign "A" " = " ["2"]; Assign "A:append" " = " ["3"] ].
Definition co_brings : stmt := Plain (Includes "require" "x.inc").
Definition co_inherits : stmt := Plain (Inherit 0 "x").
Definition co_q (v : str) : str := """" ++ v ++ """" ++ nl.
Definition co_text0 : str := "A = " ++ co_q "1" ++ "B = " ++ co_q "${A}".
Definition co_text (b : str) : str := co_text0 ++ b ++ nl ++ "C ?= " ++ co_q "${B}" ++ "A += " ++ co_q "5".
Definition co_text2 : str := "A = " ++ co_q "2" ++ "A:append = " ++ co_q "3".
Definition co_env (b : str) : env := demo_env
  [ ("/w/rec_1.0.bb", co_text b); ("/w/x.inc", co_text2); ("/w/classes/x.bbclass", co_text2) ] ["/w"; "/w/classes"; "/"].
Definition co_apps : env := demo_env
  [ ("/w/rec_1.0.bb", co_text0); ("/w/rec_1.%.bbappend", co_text2) ] ["/w"; "/"].
Notation co_stash := (new_stash false false r_db).
Notation co_run b := (add_file 3 (co_env b) "rec_1.0.bb" 0 None co_stash).

Lemma co_recipe : recipe co_first (universal_newlines co_text0).
Proof.
  split; [vm_compute; reflexivity|]. split; [|cbn; tauto].
  unfold co_first. repeat apply Forall_cons; [..|apply Forall_nil]; (split; [r_inline|]);
    (split; [|r_closed]); (split; [split; [discriminate|chars]|]); (split; [r_no_word|]); (split; [left; r_plain_name|]);
    (split; [r_op|]); r_values.
Qed.
Lemma co_recipe2 : recipe co_more (universal_newlines co_text2).
Proof.
  split; [vm_compute; reflexivity|]. split; [|cbn; tauto].
  unfold co_more. repeat apply Forall_cons; [..|apply Forall_nil]; (split; [r_inline|]).
  - split; [|r_closed]. split; [split; [discriminate|chars]|]. split; [r_no_word|]. split; [left; r_plain_name|].
    split; [r_op|]. r_values.
  - split; [|r_closed]. split; [split; [discriminate|chars]|]. split; [r_no_word|].
    split; [r_over ("A" : str) ["append" : str]|]. split; [r_op|]. r_values.
Qed.
Lemma co_recipe3 : recipe (co_first ++ co_brings :: co_last) (universal_newlines (co_text "require x.inc")).
Proof.
  split; [vm_compute; reflexivity|]. split; [|cbn; tauto].
  unfold co_first, co_last. cbn [List.app]. repeat apply Forall_cons; [..|apply Forall_nil]; (split; [r_inline|]).
  3: { split; [|r_closed]. split; [now right|]. split; [discriminate|chars]. }
  all: split; [|r_closed]; (split; [split; [discriminate|chars]|]); (split; [r_no_word|]); (split; [left; r_plain_name|]);
    (split; [r_op|]); r_values.
Qed.
Lemma co_recipe4 : recipe (co_first ++ co_inherits :: co_last) (universal_newlines (co_text "inherit x")).
Proof.
  split; [vm_compute; reflexivity|]. split; [|cbn; tauto].
  unfold co_first, co_last. cbn [List.app]. repeat apply Forall_cons; [..|apply Forall_nil]; (split; [r_inline|]).
  3: { split; [|r_closed]. split; [discriminate|]. split; [r_segment|]. split; [indent|discriminate]. }
  all: split; [|r_closed]; (split; [split; [discriminate|chars]|]); (split; [r_no_word|]); (split; [left; r_plain_name|]);
    (split; [r_op|]); r_values.
Qed.

Lemma co_names : forall c0, c0 = co_brings \/ c0 = co_inherits ->
  plain_names (map as_written co_first ++ as_written c0 :: map as_written co_more ++ map as_written co_last).
Proof.
  intros c0 Hc. assert (F : forall name op vs, c0 <> Assign name op vs) by (intros; destruct Hc as [->| ->]; discriminate).
  split; [|split].
  - intros c H. cbn [map co_first co_more co_last List.app In] in H. destruct H as [<-|[<-|[<-|H]]].
    3: { unfold restorable. cbn [as_written snd]. destruct Hc as [->| ->]; exact I. }
    3: repeat (destruct H as [<-|H]; [|]); [..|destruct H].
    all: intro O; exfalso; revert O; r_no_block.
  - intros name op vs H. cbn [map as_written snd co_first co_more co_last List.app In] in H.
    repeat (destruct H as [H|H]; [first [injection H as <- _ _; notin | now apply F in H]|]). destruct H.
  - intros name flag H. cbn [map as_written snd co_first co_more co_last List.app In] in H.
    repeat (destruct H as [H|H]; [first [discriminate H | destruct Hc as [->| ->]; discriminate H]|]). destruct H.
Qed.

(** ** C107: what a file that is brought in says takes effect at the statement *)

(** GetItemsFor finds the items of the statements up to the include or inherit,
    those of the file that it adds, and then the rest; full statement: for any
    number of includes, which is false (C107_refuted). *)
Theorem C107_items_partial : forall n e path off forced new neg db a x b s' p t1 t2 cs1 c0 cs2 cs3, env_ok e ->
  add_file n e path off forced (new_stash new neg db) = (Ok (a ++ x :: b), s') -> length a = length cs1 ->
  brings_file e x p -> file_of e p <> file_of e path ->
  endswith ".bbappend" (file_of e path) = false -> endswith ".bbappend" (file_of e p) = false ->
  fs_read (e_fs e) (file_of e path) = RdText t1 -> coded neg (cs1 ++ c0 :: cs3) (universal_newlines t1) ->
  fs_read (e_fs e) (file_of e p) = RdText t2 -> coded neg cs2 (universal_newlines t2) ->
  (forall c, In c (cs1 ++ cs2 ++ cs3) -> ~ brings (snd c)) ->
  Forall2 says (cs1 ++ c0 :: cs2 ++ cs3) (items_for e s' (file_of e path)).
Proof. exact C107_items_lemma. Qed.
Print Assumptions C107_items_partial.

(** ExpandVar gives the values of the statements in that order. *)
Theorem C107_values_partial : forall n e path off forced new neg db a x b s' p t1 t2 cs1 c0 cs2 cs3 d, env_ok e -> plain_base db ->
  add_file n e path off forced (new_stash new neg db) = (Ok (a ++ x :: b), s') -> length a = length cs1 ->
  brings_file e x p -> file_of e p <> file_of e path ->
  endswith ".bbappend" (file_of e path) = false -> endswith ".bbappend" (file_of e p) = false ->
  fs_read (e_fs e) (file_of e path) = RdText t1 -> coded neg (cs1 ++ c0 :: cs3) (universal_newlines t1) ->
  fs_read (e_fs e) (file_of e p) = RdText t2 -> coded neg cs2 (universal_newlines t2) ->
  (forall c, In c (cs1 ++ cs2 ++ cs3) -> ~ brings (snd c)) -> plain_names (cs1 ++ c0 :: cs2 ++ cs3) ->
  expand_var e s' (Some (file_of e path)) ANone ANone false = Ok d ->
  values_are (new_stash new neg db) (file_of e path) (cs1 ++ c0 :: cs2 ++ cs3) d.
Proof. exact C107_values_lemma. Qed.
Print Assumptions C107_values_partial.

Example C107_case : forall c0 b p, (c0 = co_brings /\ b = "require x.inc" /\ p = "/w/x.inc") \/
    (c0 = co_inherits /\ b = "inherit x" /\ p = "/w/classes/x.bbclass") ->
  env_ok (co_env b) /\ plain_base r_db /\ fst (co_run b) = Ok (ok_items (co_run b)) /\
  (exists x, nth_error (ok_items (co_run b)) 2 = Some x /\ brings_file (co_env b) x p) /\
  file_of (co_env b) p <> "/w/rec_1.0.bb" /\ endswith ".bbappend" (file_of (co_env b) p) = false /\
  fs_read (e_fs (co_env b)) "/w/rec_1.0.bb" = RdText (co_text b) /\
  coded false (map as_written co_first ++ as_written c0 :: map as_written co_last) (universal_newlines (co_text b)) /\
  fs_read (e_fs (co_env b)) (file_of (co_env b) p) = RdText co_text2 /\
  coded false (map as_written co_more) (universal_newlines co_text2) /\
  (forall c, In c (map as_written co_first ++ map as_written co_more ++ map as_written co_last) -> ~ brings (snd c)) /\
  plain_names (map as_written co_first ++ as_written c0 :: map as_written co_more ++ map as_written co_last) /\
  map it_raw (items_for (co_env b) (snd (co_run b)) "/w/rec_1.0.bb") =
    ["A = " ++ co_q "1"; "B = " ++ co_q "${A}"; b ++ nl; "A = " ++ co_q "2"; "A:append = " ++ co_q "3";
     "C ?= " ++ co_q "${B}"; "A += " ++ co_q "5"] /\
  match expand_var (co_env b) (snd (co_run b)) (Some "/w/rec_1.0.bb") ANone ANone false with
  | Ok d => dget "A" d = Some ["2"; "53"]
  | _ => False
  end.
Proof.
  intros c0 b p H. split; [apply demo_env_ok|]. split; [exact r_db_ok|].
  split; [destruct H as [(-> & -> & ->)|(-> & -> & ->)]; vm_compute; reflexivity|].
  split.
  { destruct H as [(-> & -> & ->)|(-> & -> & ->)]; eexists; (split; [vm_compute; reflexivity|]);
      (split; [discriminate|]); [|split]; reflexivity. }
  split; [destruct H as [(-> & -> & ->)|(-> & -> & ->)]; vm_compute; discriminate|].
  split; [destruct H as [(-> & -> & ->)|(-> & -> & ->)]; vm_compute; reflexivity|].
  split; [destruct H as [(-> & -> & ->)|(-> & -> & ->)]; vm_compute; reflexivity|].
  split.
  { destruct H as [(-> & -> & ->)|(-> & -> & ->)];
      [exact (recipe_coded false _ _ co_recipe3)|exact (recipe_coded false _ _ co_recipe4)]. }
  split; [destruct H as [(-> & -> & ->)|(-> & -> & ->)]; vm_compute; reflexivity|].
  split; [exact (recipe_coded false _ _ co_recipe2)|].
  split; [intros c Hc; cbn in Hc; repeat (destruct Hc as [<-|Hc]; [intros []|]); destruct Hc|].
  split; [apply co_names; destruct H as [(-> & _)|(-> & _)]; auto|].
  split; destruct H as [(-> & -> & ->)|(-> & -> & ->)]; vm_compute; reflexivity.
Qed.

(** With two includes, what the second one says may come before what the first
    one says: the lines of the items of an included file are counted from the
    line of the statement in its own file, without what was included before. *)
Definition co_late : list stmt := [ Remarks (line "#") [line "#"; line "#"]; Assign "A" " = " ["1"] ].
Definition co_early : list stmt := [ Assign "A" " = " ["2"] ].
Definition co_two : list stmt := [ Plain (Includes "require" "a.inc"); Plain (Includes "require" "b.inc") ].
Definition co_env2 : env := demo_env
  [ ("/w/rec_1.0.bb", "require a.inc" ++ nl ++ "require b.inc" ++ nl); ("/w/a.inc", "#" ++ nl ++ "#" ++ nl ++ "#" ++ nl ++ "A = " ++ co_q "1");
    ("/w/b.inc", "A = " ++ co_q "2") ] ["/w"; "/"].
Notation co_run2 := (add_file 3 co_env2 "rec_1.0.bb" 0 None co_stash).

Lemma co_recipe5 : recipe co_two (universal_newlines ("require a.inc" ++ nl ++ "require b.inc" ++ nl)).
Proof.
  split; [vm_compute; reflexivity|]. split; [|cbn; tauto].
  unfold co_two. repeat apply Forall_cons; [..|apply Forall_nil]; (split; [r_inline|]);
    (split; [|r_closed]); (split; [now right|]); split; [discriminate|chars|discriminate|chars].
Qed.
Lemma co_recipe6 : recipe co_late (universal_newlines ("#" ++ nl ++ "#" ++ nl ++ "#" ++ nl ++ "A = " ++ co_q "1")).
Proof.
  split; [vm_compute; reflexivity|]. split; [|cbn; tauto].
  unfold co_late. repeat apply Forall_cons; [..|apply Forall_nil]; (split; [r_inline|]).
  - split; [|r_closed]. split.
    + intros (a & w & E & Hw). r_lacks cBSL E.
    + repeat constructor; try (eexists; reflexivity); (eexists; split; [reflexivity|notin]).
  - split; [|r_closed]. split; [split; [discriminate|chars]|]. split; [r_no_word|]. split; [left; r_plain_name|].
    split; [r_op|]. r_values.
Qed.
Lemma co_recipe7 : recipe co_early (universal_newlines ("A = " ++ co_q "2")).
Proof.
  split; [vm_compute; reflexivity|]. split; [|cbn; tauto].
  unfold co_early. repeat apply Forall_cons; [..|apply Forall_nil]; (split; [r_inline|]).
  split; [|r_closed]. split; [split; [discriminate|chars]|]. split; [r_no_word|]. split; [left; r_plain_name|].
  split; [r_op|]. r_values.
Qed.

Theorem C107_refuted : exists n e path db x y s' p q t1 t2 t3 c1 cs1 c2 cs2 d,
  env_ok e /\ plain_base db /\ add_file n e path 0 None (new_stash false false db) = (Ok [x; y], s') /\
  brings_file e x p /\ brings_file e y q /\ NoDup [file_of e path; file_of e p; file_of e q] /\
  fs_read (e_fs e) (file_of e path) = RdText t1 /\ coded false [c1; c2] (universal_newlines t1) /\
  fs_read (e_fs e) (file_of e p) = RdText t2 /\ coded false cs1 (universal_newlines t2) /\
  fs_read (e_fs e) (file_of e q) = RdText t3 /\ coded false cs2 (universal_newlines t3) /\
  (forall c, In c (cs1 ++ cs2) -> ~ brings (snd c)) /\ plain_names (c1 :: cs1 ++ c2 :: cs2) /\
  expand_var e s' (Some (file_of e path)) ANone ANone false = Ok d /\
  ~ values_are (new_stash false false db) (file_of e path) (c1 :: cs1 ++ c2 :: cs2) d.
Proof.
  exists 3, co_env2, "rec_1.0.bb", r_db. do 2 eexists. exists (snd co_run2), "/w/a.inc", "/w/b.inc".
  do 3 eexists. exists (as_written (Plain (Includes "require" "a.inc"))), (map as_written co_late),
    (as_written (Plain (Includes "require" "b.inc"))), (map as_written co_early).
  eexists. split; [apply demo_env_ok|]. split; [exact r_db_ok|]. split; [vm_compute; reflexivity|].
  split; [vm_compute; split; [discriminate|reflexivity]|]. split; [vm_compute; split; [discriminate|reflexivity]|].
  split; [vm_compute; repeat constructor; intros H; repeat (destruct H as [H|H]; [discriminate H|]); destruct H|].
  split; [vm_compute; reflexivity|]. split; [exact (recipe_coded false _ _ co_recipe5)|].
  split; [vm_compute; reflexivity|]. split; [exact (recipe_coded false _ _ co_recipe6)|].
  split; [vm_compute; reflexivity|]. split; [exact (recipe_coded false _ _ co_recipe7)|].
  split; [intros c Hc; cbn in Hc; repeat (destruct Hc as [<-|Hc]; [intros []|]); destruct Hc|].
  split.
  { split; [|split].
    - intros c H. cbn [map co_late co_early List.app In] in H.
      repeat (destruct H as [<-|H]; [|]); [..|destruct H]; try exact I; intro O; exfalso; revert O; r_no_block.
    - intros name op vs H. cbn [map as_written snd co_late co_early List.app In] in H.
      repeat (destruct H as [H|H]; [first [discriminate H | injection H as <- _ _; notin]|]). destruct H.
    - intros name flag H. cbn [map as_written snd co_late co_early List.app In] in H.
      repeat (destruct H as [H|H]; [discriminate H|]). destruct H. }
  split; [vm_compute; reflexivity|]. intro V. specialize (V "A"). vm_compute in V.
  assert (D : Some [49%N :: []] = Some [50%N :: []]); [|discriminate D].
  apply (V (fun E => ltac:(discriminate E)) [50%N]).
  - split; reflexivity.
  - apply ex_char; [discriminate|]. apply ex_end.
Qed.
Print Assumptions C107_refuted.

(** A bbappend counts its lines from the last item of the recipe itself, so what
    an included file says may come after what the bbappend says. *)
Definition co_env3 : env := demo_env
  [ ("/w/rec_1.0.bb", "require a.inc" ++ nl); ("/w/a.inc", "#" ++ nl ++ "#" ++ nl ++ "#" ++ nl ++ "A = " ++ co_q "1");
    ("/w/rec_1.0.bbappend", "A = " ++ co_q "2") ] ["/w"; "/"].
Notation co_run3 := (add_file 3 co_env3 "rec_1.0.bb" 0 None co_stash).
Notation co_run4 := (add_file 3 co_env3 "rec_1.0.bbappend" 0 None (snd co_run3)).
Lemma co_recipe8 : recipe [Plain (Includes "require" "a.inc")] (universal_newlines ("require a.inc" ++ nl)).
Proof.
  split; [vm_compute; reflexivity|]. split; [|cbn; tauto]. repeat apply Forall_cons; [..|apply Forall_nil]; (split; [r_inline|]).
  split; [|r_closed]. split; [now right|]. split; [discriminate|chars].
Qed.

Theorem C107_append_refuted : exists n e recipe bba db x l s1 s2 p t1 t2 t3 c1 cs1 cs2 d,
  env_ok e /\ plain_base db /\ add_file n e recipe 0 None (new_stash false false db) = (Ok [x], s1) /\
  add_file n e bba 0 None s1 = (Ok l, s2) /\ l <> [] /\ applies (file_of e bba) (file_of e recipe) /\
  brings_file e x p /\ NoDup [file_of e recipe; file_of e p; file_of e bba] /\
  fs_read (e_fs e) (file_of e recipe) = RdText t1 /\ coded false [c1] (universal_newlines t1) /\
  fs_read (e_fs e) (file_of e p) = RdText t2 /\ coded false cs1 (universal_newlines t2) /\
  fs_read (e_fs e) (file_of e bba) = RdText t3 /\ coded false cs2 (universal_newlines t3) /\
  (forall c, In c (cs1 ++ cs2) -> ~ brings (snd c)) /\ plain_names (c1 :: cs1 ++ cs2) /\
  expand_var e s2 (Some (file_of e recipe)) ANone ANone false = Ok d /\
  ~ values_are (new_stash false false db) (file_of e recipe) (c1 :: cs1 ++ cs2) d.
Proof.
  exists 3, co_env3, "rec_1.0.bb", "rec_1.0.bbappend", r_db. do 2 eexists. exists (snd co_run3), (snd co_run4), "/w/a.inc".
  do 3 eexists. exists (as_written (Plain (Includes "require" "a.inc"))), (map as_written co_late), (map as_written co_early).
  eexists. split; [apply demo_env_ok|]. split; [exact r_db_ok|]. split; [vm_compute; reflexivity|].
  split; [vm_compute; reflexivity|]. split; [discriminate|].
  split; [apply (applies_same "/w" "/w" "rec_1.0"); now apply plain_by_compute|].
  split; [vm_compute; split; [discriminate|reflexivity]|].
  split; [vm_compute; repeat constructor; intros H; repeat (destruct H as [H|H]; [discriminate H|]); destruct H|].
  split; [vm_compute; reflexivity|]. split; [exact (recipe_coded false _ _ co_recipe8)|].
  split; [vm_compute; reflexivity|]. split; [exact (recipe_coded false _ _ co_recipe6)|].
  split; [vm_compute; reflexivity|]. split; [exact (recipe_coded false _ _ co_recipe7)|].
  split; [intros c Hc; cbn in Hc; repeat (destruct Hc as [<-|Hc]; [intros []|]); destruct Hc|].
  split.
  { split; [|split].
    - intros c H. cbn [map co_late co_early List.app In] in H.
      repeat (destruct H as [<-|H]; [|]); [..|destruct H]; try exact I; intro O; exfalso; revert O; r_no_block.
    - intros name op vs H. cbn [map as_written snd co_late co_early List.app In] in H.
      repeat (destruct H as [H|H]; [first [discriminate H | injection H as <- _ _; notin]|]). destruct H.
    - intros name flag H. cbn [map as_written snd co_late co_early List.app In] in H.
      repeat (destruct H as [H|H]; [discriminate H|]). destruct H. }
  split; [vm_compute; reflexivity|]. intro V. specialize (V "A"). vm_compute in V.
  assert (D : Some [49%N :: []] = Some [50%N :: []]); [|discriminate D].
  apply (V (fun E => ltac:(discriminate E)) [50%N]).
  - split; reflexivity.
  - apply ex_char; [discriminate|]. apply ex_end.
Qed.
Print Assumptions C107_append_refuted.

(** ** C108: a recipe and its bbappend *)

(** A bbappend that applies to a recipe (C37) adds to the end of it, whichever
    of the files is added first. *)
Theorem C108_items : forall e new neg db recipe bba l1 l2 s2 t1 t2 cs1 cs2, env_ok e ->
  in_either_order e (new_stash new neg db) recipe l1 bba l2 s2 -> l1 <> [] -> l2 <> [] ->
  applies (file_of e bba) (file_of e recipe) ->
  fs_read (e_fs e) (file_of e recipe) = RdText t1 -> coded neg cs1 (universal_newlines t1) ->
  fs_read (e_fs e) (file_of e bba) = RdText t2 -> coded neg cs2 (universal_newlines t2) ->
  (forall c, In c (cs1 ++ cs2) -> ~ brings (snd c)) ->
  Forall2 says (cs1 ++ cs2) (items_for e s2 (file_of e recipe)).
Proof. exact C108_items_lemma. Qed.
Print Assumptions C108_items.

Theorem C108_values : forall e new neg db recipe bba l1 l2 s2 t1 t2 cs1 cs2 d, env_ok e -> plain_base db ->
  in_either_order e (new_stash new neg db) recipe l1 bba l2 s2 -> l1 <> [] -> l2 <> [] ->
  applies (file_of e bba) (file_of e recipe) ->
  fs_read (e_fs e) (file_of e recipe) = RdText t1 -> coded neg cs1 (universal_newlines t1) ->
  fs_read (e_fs e) (file_of e bba) = RdText t2 -> coded neg cs2 (universal_newlines t2) ->
  (forall c, In c (cs1 ++ cs2) -> ~ brings (snd c)) -> plain_names (cs1 ++ cs2) ->
  expand_var e s2 (Some (file_of e recipe)) ANone ANone false = Ok d ->
  values_are (new_stash new neg db) (file_of e recipe) (cs1 ++ cs2) d.
Proof. exact C108_values_lemma. Qed.
Print Assumptions C108_values.

Example C108_case : exists s1 s2,
  in_either_order co_apps co_stash "rec_1.0.bb" (ok_items (add_file 2 co_apps "rec_1.0.bb" 0 None co_stash))
    "rec_1.%.bbappend" (ok_items (add_file 2 co_apps "rec_1.%.bbappend" 0 None (snd (add_file 2 co_apps "rec_1.0.bb" 0 None co_stash)))) s1 /\
  in_either_order co_apps co_stash "rec_1.0.bb"
    (ok_items (add_file 2 co_apps "rec_1.0.bb" 0 None (snd (add_file 2 co_apps "rec_1.%.bbappend" 0 None co_stash))))
    "rec_1.%.bbappend" (ok_items (add_file 2 co_apps "rec_1.%.bbappend" 0 None co_stash)) s2 /\
  length (ok_items (add_file 2 co_apps "rec_1.0.bb" 0 None co_stash)) = 2 /\
  length (ok_items (add_file 2 co_apps "rec_1.%.bbappend" 0 None co_stash)) = 2 /\
  env_ok co_apps /\ plain_base r_db /\ applies "/w/rec_1.%.bbappend" "/w/rec_1.0.bb" /\
  file_of co_apps "rec_1.%.bbappend" = "/w/rec_1.%.bbappend" /\ file_of co_apps "rec_1.0.bb" = "/w/rec_1.0.bb" /\
  fs_read (e_fs co_apps) "/w/rec_1.0.bb" = RdText co_text0 /\
  coded false (map as_written co_first) (universal_newlines co_text0) /\
  fs_read (e_fs co_apps) "/w/rec_1.%.bbappend" = RdText co_text2 /\
  coded false (map as_written co_more) (universal_newlines co_text2) /\
  (forall c, In c (map as_written co_first ++ map as_written co_more) -> ~ brings (snd c)) /\
  plain_names (map as_written co_first ++ map as_written co_more) /\
  Forall (fun s => map it_raw (items_for co_apps s "/w/rec_1.0.bb") =
      ["A = " ++ co_q "1"; "B = " ++ co_q "${A}"; "A = " ++ co_q "2"; "A:append = " ++ co_q "3"] /\
    match expand_var co_apps s (Some "/w/rec_1.0.bb") ANone ANone false with
    | Ok d => dget "A" d = Some ["23"]
    | _ => False
    end) [s1; s2].
Proof.
  exists (snd (add_file 2 co_apps "rec_1.%.bbappend" 0 None (snd (add_file 2 co_apps "rec_1.0.bb" 0 None co_stash)))),
    (snd (add_file 2 co_apps "rec_1.0.bb" 0 None (snd (add_file 2 co_apps "rec_1.%.bbappend" 0 None co_stash)))).
  split.
  { exists 2, 2, (snd (add_file 2 co_apps "rec_1.0.bb" 0 None co_stash)). left. split; vm_compute; reflexivity. }
  split.
  { exists 2, 2, (snd (add_file 2 co_apps "rec_1.%.bbappend" 0 None co_stash)). right. split; vm_compute; reflexivity. }
  split; [vm_compute; reflexivity|]. split; [vm_compute; reflexivity|]. split; [apply demo_env_ok|]. split; [exact r_db_ok|].
  split; [apply (applies_any "/w" "/w" "rec_1." "0"); now apply plain_by_compute|].
  split; [vm_compute; reflexivity|]. split; [vm_compute; reflexivity|]. split; [vm_compute; reflexivity|].
  split; [exact (recipe_coded false _ _ co_recipe)|]. split; [vm_compute; reflexivity|].
  split; [exact (recipe_coded false _ _ co_recipe2)|].
  split; [intros c Hc; cbn in Hc; repeat (destruct Hc as [<-|Hc]; [intros []|]); destruct Hc|].
  split.
  { destruct (co_names co_brings (or_introl eq_refl)) as (H1 & H2 & H3).
    split; [|split]; intros; [apply H1|eapply H2|eapply H3];
      cbn [map co_first co_more co_last List.app In] in *; revert H; cbn [In]; intuition eauto. }
  repeat apply Forall_cons; [..|apply Forall_nil]; split; vm_compute; reflexivity.
Qed.
