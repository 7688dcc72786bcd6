(** * Property C107: an inherit statement with several classes *)

From Verif Require Import Props_Items.
From Verif Require Import PyStr Regex Patterns PyPath Res Inline Const Item Lines Stash Demo StrFacts
  Props_Lines Spec_Query Spec_Parse Spec_Group Spec_Func Spec_Access Spec_Expand Spec_Const Spec_Files Spec_Inline Props_Inline
  Spec_Recipe Spec_Compose Props_Parse Props_Func Proofs_Group Proofs_Files Proofs_Recipe Proofs_Values Props_Recipe Props_Coded Proofs_Compose
  Props_Compose Spec_Include Proofs_Several.
From Coq Require Import Sorting.Sorted.
From Verif Require Props_Include.

(** Classes of one inherit statement do not take effect one after the other: the
    lines of all of them are counted from the line of the statement, so their
    statements are mixed by line.  Here the class named first wins. *)
Definition ci_env : env := demo_env
  [ ("/w/rec_1.0.bb", "inherit a b" ++ nl);
    ("/w/classes/a.bbclass", "#" ++ nl ++ "#" ++ nl ++ "#" ++ nl ++ "A = " ++ co_q "1");
    ("/w/classes/b.bbclass", "A = " ++ co_q "2") ] ["/w"; "/w/classes"; "/"].
Notation ci_run := (add_file 3 ci_env "rec_1.0.bb" 0 None (new_stash false false r_db)).
Lemma ci_recipe : recipe [Plain (Inherit 0 "a b")] (universal_newlines ("inherit a b" ++ nl)).
Proof.
  split; [vm_compute; reflexivity|]. split; [|cbn; tauto]. repeat apply Forall_cons; [..|apply Forall_nil]; (split; [r_inline|]).
  split; [|r_closed]. split; [discriminate|]. split; [r_segment|]. split; [indent|discriminate].
Qed.

Theorem C107_inherit_refuted : exists n e path db x s' p q inh st t1 t2 t3 c1 cs1 cs2 d,
  env_ok e /\ plain_base db /\ add_file n e path 0 None (new_stash false false db) = (Ok [x], s') /\
  it_pay x = PInherit inh st [p; q] /\ inh = "a b" /\
  basename p = "a.bbclass" /\ basename q = "b.bbclass" /\ NoDup [file_of e path; file_of e p; file_of e q] /\
  fs_read (e_fs e) (file_of e path) = RdText t1 /\ coded false [c1] (universal_newlines t1) /\
  fs_read (e_fs e) (file_of e p) = RdText t2 /\ coded false cs1 (universal_newlines t2) /\
  fs_read (e_fs e) (file_of e q) = RdText t3 /\ coded false cs2 (universal_newlines t3) /\
  (forall c, In c (cs1 ++ cs2) -> ~ brings (snd c)) /\ plain_names (c1 :: cs1 ++ cs2) /\
  expand_var e s' (Some (file_of e path)) ANone ANone false = Ok d /\
  ~ values_are (new_stash false false db) (file_of e path) (c1 :: cs1 ++ cs2) d.
Proof.
  exists 3, ci_env, "rec_1.0.bb", r_db. eexists. exists (snd ci_run), "/w/classes/a.bbclass", "/w/classes/b.bbclass", "a b".
  do 4 eexists. exists (as_written (Plain (Inherit 0 "a b"))), (map as_written co_late), (map as_written co_early).
  eexists. split; [apply demo_env_ok|]. split; [exact r_db_ok|]. split; [vm_compute; reflexivity|].
  split; [vm_compute; reflexivity|]. split; [vm_compute; reflexivity|].
  split; [vm_compute; reflexivity|]. split; [vm_compute; reflexivity|].
  split; [vm_compute; repeat constructor; intros H; repeat (destruct H as [H|H]; [discriminate H|]); destruct H|].
  split; [vm_compute; reflexivity|]. split; [exact (recipe_coded false _ _ ci_recipe)|].
  split; [vm_compute; reflexivity|]. split; [exact (recipe_coded false _ _ co_recipe6)|].
  split; [vm_compute; reflexivity|]. split; [exact (recipe_coded false _ _ co_recipe7)|].
  split; [intros c Hc; cbn in Hc; repeat (destruct Hc as [<-|Hc]; [intros []|]); destruct Hc|].
  split.
  { split; [|split].
    - intros c H. cbn [map co_late co_early List.app In] in H.
      repeat (destruct H as [<-|H]; [|]); [..|destruct H]; try exact I; intro O; exfalso; revert O; r_no_block.
    - intros name op vs H. cbn [map as_written snd co_late co_early List.app In] in H.
      repeat (destruct H as [H|H]; [first [discriminate H | injection H as <- _ _; notin]|]). destruct H.
    - intros name flag H. cbn [map as_written snd co_late co_early List.app In] in H.
      repeat (destruct H as [H|H]; [discriminate H|]). destruct H. }
  split; [vm_compute; reflexivity|]. intro V. specialize (V "A"). vm_compute in V.
  assert (D : Some [49%N :: []] = Some [50%N :: []]); [|discriminate D].
  apply (V (fun E => ltac:(discriminate E)) [50%N]).
  - split; reflexivity.
  - apply ex_char; [discriminate|]. apply ex_end.
Qed.
Print Assumptions C107_inherit_refuted.

(** What holds for one statement [x] that brings in any number of files, if these
    bring in no others and no bbappend takes part: GetItemsFor gives the
    statements up to [x], then all statements of all these files, mixed by their
    lines in their own files, and then the rest. *)
Theorem C107_several_partial : forall n e path off new neg db a x b s', env_ok e ->
  add_file n e path off None (new_stash new neg db) = (Ok (a ++ x :: b), s') ->
  (forall y, In y (st_list s') -> endswith ".bbappend" (it_origin y) = false) ->
  (forall y, In y (st_list s') -> loads y -> it_id y = it_id x) ->
  exists m, items_for e s' (file_of e path) = a ++ x :: m ++ b /\
    NoDup m /\ (forall y, In y m <-> In y (st_list s') /\ ~ In y (a ++ x :: b)) /\
    StronglySorted (fun y z => (it_infile y <= it_infile z)%Z) m.
Proof. exact C107_several_lemma. Qed.
Print Assumptions C107_several_partial.

(** A recipe that inherits two classes, with hypotheses that can be computed. *)
Lemma several_check : forall e a x b s', env_ok e ->
  add_file 3 e "/w/a.bb" 0 None demo_stash = (Ok (a ++ x :: b), s') ->
  forallb (fun y => negb (endswith ".bbappend" (it_origin y)) && (negb (Props_Include.loads_b y) || Nat.eqb (it_id y) (it_id x))) (st_list s') = true ->
  exists m, items_for e s' (file_of e "/w/a.bb") = a ++ x :: m ++ b.
Proof.
  intros e a x b s' He E H. rewrite forallb_forall in H.
  destruct (C107_several_partial 3 e "/w/a.bb" 0 false false no_const a x b s' He E) as (m & Hm & _).
  - intros z Hz. apply H in Hz. apply andb_prop in Hz. apply negb_true_iff. apply Hz.
  - intros z Hz Hl. apply H in Hz. apply andb_prop in Hz. destruct Hz as [_ Hz]. apply Props_Include.loads_b_iff in Hl.
    rewrite Hl in Hz. now apply Nat.eqb_eq in Hz.
  - now exists m.
Qed.
Notation cs_run := (add_file 3 Props_Include.i_env "/w/a.bb" 0 None demo_stash).
Notation cs_item k := (nth k (ok_items cs_run) Props_Include.d_item).
Lemma cs_ran : cs_run = (Ok ([cs_item 0] ++ cs_item 1 :: [cs_item 2]), snd cs_run).
Proof. vm_compute. reflexivity. Qed.
Lemma cs_fine : forallb (fun y => negb (endswith ".bbappend" (it_origin y)) &&
  (negb (Props_Include.loads_b y) || Nat.eqb (it_id y) (it_id (cs_item 1)))) (st_list (snd cs_run)) = true.
Proof. vm_compute. reflexivity. Qed.
Lemma cs_env : env_ok Props_Include.i_env.
Proof. apply demo_env_ok. Qed.
Example C107_several_case :
  (exists m, items_for Props_Include.i_env (snd cs_run) (file_of Props_Include.i_env "/w/a.bb") = [cs_item 0] ++ cs_item 1 :: m ++ [cs_item 2]) /\
  map (fun i => (basename (it_origin i), it_infile i)) (items_for Props_Include.i_env (snd cs_run) "/w/a.bb") =
  [ ("a.bb", 1%Z); ("a.bb", 2%Z); ("k.bbclass", 1%Z); ("l.bbclass", 1%Z); ("k.bbclass", 2%Z); ("l.bbclass", 2%Z);
    ("l.bbclass", 3%Z); ("a.bb", 3%Z) ].
Proof.
  split; [|vm_compute; reflexivity].
  exact (several_check Props_Include.i_env [cs_item 0] (cs_item 1) [cs_item 2] (snd cs_run) cs_env cs_ran cs_fine).
Qed.
