(** * Property C111: recipes with several bbappends *)

From Verif Require Import Props_Items.
From Verif Require Import PyStr Regex Patterns PyPath Res Inline Const Item Lines Stash Demo StrFacts
  Props_Lines Spec_Query Spec_Parse Spec_Group Spec_Func Spec_Access Spec_Expand Spec_Const Spec_Files Spec_Inline Props_Inline
  Spec_Recipe Spec_Compose Spec_Appends Props_Parse Props_Func Proofs_Group Proofs_Files Proofs_Recipe Proofs_Values Props_Recipe Props_Coded
  Props_Compose Proofs_Appends.

(** The statements of the recipe come first, whenever it is added, and those of
    each bbappend are in their order; full statement: what one bbappend says
    comes before what the next one says, which is false (C111_refuted). *)
Theorem C111_items_partial : forall e new neg db us r vs s', env_ok e ->
  added e (new_stash new neg db) (map fst us ++ fst r :: map fst vs) s' -> readable e neg r ->
  Forall (fun p => readable e neg p /\ applies (file_of e (fst p)) (file_of e (fst r))) (us ++ vs) ->
  exists k, merged (map snd (us ++ vs)) k /\ Forall2 says (snd r ++ k) (items_for e s' (file_of e (fst r))).
Proof. exact C111_items_lemma. Qed.
Print Assumptions C111_items_partial.

(** ExpandVar gives the values of the statements in that order, if the lines of
    the assignments are different. *)
Theorem C111_values_partial : forall e new neg db us r vs s' d, env_ok e -> plain_base db ->
  added e (new_stash new neg db) (map fst us ++ fst r :: map fst vs) s' -> readable e neg r ->
  Forall (fun p => readable e neg p /\ applies (file_of e (fst p)) (file_of e (fst r))) (us ++ vs) ->
  own_lines (items_for e s' (file_of e (fst r))) ->
  plain_names (snd r ++ concat (map snd (us ++ vs))) ->
  expand_var e s' (Some (file_of e (fst r))) ANone ANone false = Ok d ->
  exists k, merged (map snd (us ++ vs)) k /\ Forall2 says (snd r ++ k) (items_for e s' (file_of e (fst r))) /\
    values_are (new_stash new neg db) (file_of e (fst r)) (snd r ++ k) d.
Proof. exact C111_values_lemma. Qed.
Print Assumptions C111_values_partial.

(** A recipe and two bbappends; the last one has its statements between those of
    the other one. *)
Definition ap_one : list stmt := [ Assign "A" " = " ["1"]; Remarks (line "#") [line "#"; line "#"]; Assign "B" " = " ["1"] ].
Definition ap_two : list stmt := [ Remarks (line "#") [line "#"]; Assign "A" " = " ["2"]; Assign "B" " = " ["2"] ].
Definition ap_text0 : str := "A = " ++ co_q "0".
Definition ap_text1 : str := "A = " ++ co_q "1" ++ "#" ++ nl ++ "#" ++ nl ++ "#" ++ nl ++ "B = " ++ co_q "1".
Definition ap_text2 : str := "#" ++ nl ++ "#" ++ nl ++ "A = " ++ co_q "2" ++ "B = " ++ co_q "2".
Definition ap_env : env := demo_env
  [ ("/w/rec_1.0.bb", ap_text0); ("/a/rec_1.0.bbappend", ap_text1); ("/b/rec_%.bbappend", ap_text2) ] ["/w"; "/a"; "/b"; "/"].
Definition ap_recipe : part := ("rec_1.0.bb", map as_written [Assign "A" " = " ["0"]]).
Definition ap_part1 : part := ("/a/rec_1.0.bbappend", map as_written ap_one).
Definition ap_part2 : part := ("/b/rec_%.bbappend", map as_written ap_two).
Notation ap_run1 := (add_file 2 ap_env "/a/rec_1.0.bbappend" 0 None co_stash).
Notation ap_run2 := (add_file 2 ap_env "rec_1.0.bb" 0 None (snd ap_run1)).
Notation ap_run3 := (add_file 2 ap_env "/b/rec_%.bbappend" 0 None (snd ap_run2)).

Ltac ap_assign := split; [|r_closed]; (split; [split; [discriminate|chars]|]); (split; [r_no_word|]); (split; [left; r_plain_name|]);
    (split; [r_op|]); r_values.
Ltac ap_remarks := split; [|r_closed]; split;
    [ let a := fresh in let w := fresh in let E := fresh in intros (a & w & E & _); r_lacks cBSL E
    | repeat constructor; try (eexists; reflexivity); (eexists; split; [reflexivity|notin])].
Lemma ap_text0_recipe : recipe [Assign "A" " = " ["0"]] (universal_newlines ap_text0).
Proof.
  split; [vm_compute; reflexivity|]. split; [|cbn; tauto].
  repeat apply Forall_cons; [..|apply Forall_nil]; (split; [r_inline|]). ap_assign.
Qed.
Lemma ap_text1_recipe : recipe ap_one (universal_newlines ap_text1).
Proof.
  split; [vm_compute; reflexivity|]. split; [|cbn; tauto].
  unfold ap_one. repeat apply Forall_cons; [..|apply Forall_nil]; (split; [r_inline|]); [ap_assign|ap_remarks|ap_assign].
Qed.
Lemma ap_text2_recipe : recipe ap_two (universal_newlines ap_text2).
Proof.
  split; [vm_compute; reflexivity|]. split; [|cbn; tauto].
  unfold ap_two. repeat apply Forall_cons; [..|apply Forall_nil]; (split; [r_inline|]); [ap_remarks|ap_assign|ap_assign].
Qed.
Lemma ap_quiet : forall c, In c (snd ap_recipe ++ snd ap_part1 ++ snd ap_part2) -> ~ brings (snd c).
Proof. intros c Hc. cbn in Hc. repeat (destruct Hc as [<-|Hc]; [intros []|]). destruct Hc. Qed.
Lemma ap_readable : readable ap_env false ap_recipe /\
  Forall (fun p => readable ap_env false p /\ applies (file_of ap_env (fst p)) (file_of ap_env (fst ap_recipe))) [ap_part1; ap_part2].
Proof.
  split; [|repeat apply Forall_cons; [| |apply Forall_nil]; split].
  - split; [|intros c Hc; apply ap_quiet; apply in_or_app; now left]. exists ap_text0.
    split; [vm_compute; reflexivity|exact (recipe_coded false _ _ ap_text0_recipe)].
  - split; [|intros c Hc; apply ap_quiet; apply in_or_app; right; apply in_or_app; now left]. exists ap_text1.
    split; [vm_compute; reflexivity|exact (recipe_coded false _ _ ap_text1_recipe)].
  - apply (applies_same "/a" "/w" "rec_1.0"). now apply plain_by_compute.
  - split; [|intros c Hc; apply ap_quiet; apply in_or_app; right; apply in_or_app; now right]. exists ap_text2.
    split; [vm_compute; reflexivity|exact (recipe_coded false _ _ ap_text2_recipe)].
  - apply (applies_any "/b" "/w" "rec_" "1.0"); now apply plain_by_compute.
Qed.
Lemma ap_added : added ap_env co_stash [fst ap_part1; fst ap_recipe; fst ap_part2] (snd ap_run3).
Proof.
  assert (X : forall r : res (list item) * stash, fst r = Ok (ok_items r) -> r = (Ok (ok_items r), snd r)).
  { intros [r s] E. cbn [fst snd] in *. now rewrite <- E. }
  apply (added_next _ 2 _ (ok_items ap_run1) _ (snd ap_run1)); [apply X; vm_compute; reflexivity|vm_compute; discriminate|].
  apply (added_next _ 2 _ (ok_items ap_run2) _ (snd ap_run2)); [apply X; vm_compute; reflexivity|vm_compute; discriminate|].
  apply (added_next _ 2 _ (ok_items ap_run3) _ (snd ap_run3)); [apply X; vm_compute; reflexivity|vm_compute; discriminate|].
  apply added_none.
Qed.
Lemma ap_names : plain_names (snd ap_recipe ++ concat (map snd [ap_part1; ap_part2])).
Proof.
  split; [|split].
  - intros c H. cbn [snd ap_recipe ap_part1 ap_part2 ap_one ap_two map concat List.app In] in H.
    repeat (destruct H as [<-|H]; [|]); [..|destruct H]; try exact I; intro O; exfalso; revert O; r_no_block.
  - intros name op vs H. cbn [snd ap_recipe ap_part1 ap_part2 ap_one ap_two map concat as_written List.app In] in H.
    repeat (destruct H as [H|H]; [first [discriminate H | injection H as <- _ _; notin]|]). destruct H.
  - intros name flag H. cbn [snd ap_recipe ap_part1 ap_part2 ap_one ap_two map concat as_written List.app In] in H.
    repeat (destruct H as [H|H]; [discriminate H|]). destruct H.
Qed.

Example C111_case : env_ok ap_env /\ plain_base r_db /\
  added ap_env co_stash (map fst [ap_part1] ++ fst ap_recipe :: map fst [ap_part2]) (snd ap_run3) /\
  readable ap_env false ap_recipe /\
  Forall (fun p => readable ap_env false p /\ applies (file_of ap_env (fst p)) (file_of ap_env (fst ap_recipe))) ([ap_part1] ++ [ap_part2]) /\
  own_lines (items_for ap_env (snd ap_run3) (file_of ap_env (fst ap_recipe))) /\
  plain_names (snd ap_recipe ++ concat (map snd ([ap_part1] ++ [ap_part2]))) /\
  map it_raw (filter (fun i => str_eqb (classifier i) "Variable") (items_for ap_env (snd ap_run3) (file_of ap_env (fst ap_recipe)))) =
    [ "A = " ++ co_q "0"; "A = " ++ co_q "1"; "A = " ++ co_q "2"; "B = " ++ co_q "2"; "B = " ++ co_q "1" ].
Proof.
  split; [apply demo_env_ok|]. split; [exact r_db_ok|]. split; [exact ap_added|]. split; [apply ap_readable|]. split; [apply ap_readable|].
  split.
  { apply own_lines_check. vm_compute.
    repeat (constructor; [intros H; repeat (destruct H as [H|H]; [discriminate H|]); destruct H|]). constructor. }
  split; [exact ap_names|]. vm_compute. reflexivity.
Qed.

(** What the two bbappends say is mixed: the values are not those of either
    order. *)
Theorem C111_refuted : exists e db r b1 b2 s' d,
  env_ok e /\ plain_base db /\ added e (new_stash false false db) [fst b1; fst r; fst b2] s' /\ readable e false r /\
  Forall (fun p => readable e false p /\ applies (file_of e (fst p)) (file_of e (fst r))) [b1; b2] /\
  plain_names (snd r ++ snd b1 ++ snd b2) /\
  expand_var e s' (Some (file_of e (fst r))) ANone ANone false = Ok d /\
  ~ values_are (new_stash false false db) (file_of e (fst r)) (snd r ++ snd b1 ++ snd b2) d /\
  ~ values_are (new_stash false false db) (file_of e (fst r)) (snd r ++ snd b2 ++ snd b1) d.
Proof.
  exists ap_env, r_db, ap_recipe, ap_part1, ap_part2, (snd ap_run3). eexists. split; [apply demo_env_ok|]. split; [exact r_db_ok|].
  split; [exact ap_added|]. split; [apply ap_readable|]. split; [apply ap_readable|].
  split. { pose proof ap_names as N. cbn [map concat] in N. now rewrite app_nil_r in N. }
  split; [vm_compute; reflexivity|]. split; intro V.
  - specialize (V "B"). vm_compute in V.
    assert (D : Some [49%N :: []] = Some [50%N :: []]); [|discriminate D].
    apply (V (fun E => ltac:(discriminate E)) [50%N]).
    + split; reflexivity.
    + apply ex_char; [discriminate|]. apply ex_end.
  - specialize (V "A"). vm_compute in V.
    assert (D : Some [50%N :: []] = Some [49%N :: []]); [|discriminate D].
    apply (V (fun E => ltac:(discriminate E)) [49%N]).
    + split; reflexivity.
    + apply ex_char; [discriminate|]. apply ex_end.
Qed.
Print Assumptions C111_refuted.
