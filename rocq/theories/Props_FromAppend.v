(** * Property C128: items of bbappends *)

From Verif Require Import PyStr Regex PyPath Res Const Item Lines Stash Demo StrFacts HistFacts ReachFacts Spec_Query
  Spec_Load Spec_Causes Proofs_Causes FromAppend Proofs_FromAppend.

(** The items of a file say whether it is a bbappend. *)
Theorem C128_file : forall n e path off forced s l s' i, add_file n e path off forced s = (Ok l, s') -> In i l ->
  (is_from_append i = true <-> exists t, abspath (fs_cwd (e_fs e)) path = t ++ ".bbappend").
Proof. exact C128_file_lemma. Qed.
Print Assumptions C128_file.

(** Such an item among those of a file is of the file itself, or of a bbappend for it
    or for a file that comes with it, unless a statement names a bbappend. *)
Theorem C128_shown_partial : forall e s q f i, env_ok e -> filled e s -> q_file q = Some f -> f <> [] ->
  (forall j p t, In j (st_list s) -> names_file j p -> abspath (fs_cwd (e_fs e)) p <> t ++ ".bbappend") ->
  In i (get_items_for e s q) -> is_from_append i = true ->
  it_origin i = f \/ exists k, belongs e s f k /\ answers (it_origin i) k.
Proof. exact C128_lemma. Qed.
Print Assumptions C128_shown_partial.

(** ** The witness: a bbappend that requires a file *)

Definition fa_env : env := demo_env
  [ ("/w/foo_1.bb", "A = ""1""" ++ nl); ("/w/foo_1.bbappend", "require x.inc" ++ nl ++ "A = ""2""" ++ nl);
    ("/w/x.inc", "A = ""3""" ++ nl) ] ["/w"; "/"].
Definition fa_q : query := MkQuery (Some "/w/foo_1.bb") ANone ANone ANone false.
Notation fa_0 := (finalize fa_env (snd (add_file 6 fa_env "/w/foo_1.bb" 0 None demo_stash))).
Notation fa_1 := (add_file 6 fa_env "/w/foo_1.bb" 0 None demo_stash).
Notation fa_2 := (add_file 6 fa_env "/w/foo_1.bbappend" 0 None (snd fa_1)).
Notation fa_3 := (finalize fa_env (snd fa_2)).
Notation fa_shown r := (map (fun i => (it_origin i, is_from_append i)) (get_items_for fa_env (snd r) fa_q)).
Lemma fa_ok1 : fa_1 = (Ok (ok_items fa_1), snd fa_1).
Proof. vm_compute; reflexivity. Qed.
Lemma fa_ok2 : fa_2 = (Ok (ok_items fa_2), snd fa_2).
Proof. vm_compute; reflexivity. Qed.
Lemma fa_ok3 : fa_3 = (Ok tt, snd fa_3).
Proof. vm_compute; reflexivity. Qed.
Lemma fa_filled : filled fa_env (snd fa_3).
Proof.
  eapply filled_finalize; [|exact fa_ok3]. eapply filled_add; [|exact fa_ok2]. eapply filled_add; [|exact fa_ok1]. apply filled_new.
Qed.
Lemma fa_items : fa_shown fa_0 = [("/w/foo_1.bb", false)] /\
  fa_shown fa_3 = [("/w/foo_1.bb", false); ("/w/x.inc", false); ("/w/foo_1.bbappend", true); ("/w/foo_1.bbappend", true)].
Proof. split; vm_compute; reflexivity. Qed.

Lemma fa_in : forall l (o : str) b, In (o, b) (map (fun i => (it_origin i, is_from_append i)) l) ->
  exists i, In i l /\ it_origin i = o /\ is_from_append i = b.
Proof. intros l o b H. apply in_map_iff in H. destruct H as [i [E H]]. exists i. inversion E. now split. Qed.
Lemma fa_origins : forall l (m : list (str * bool)), map (fun i => (it_origin i, is_from_append i)) l = m -> map it_origin l = map fst m.
Proof. intros l m <-. now rewrite map_map. Qed.

(** The full claim, that items which a query for a recipe shows because of a bbappend
    are items of bbappends, is false: the file that the bbappend requires adds one. *)
Theorem C128_refuted : env_ok fa_env /\ filled fa_env (snd fa_3) /\ q_file fa_q = Some ("/w/foo_1.bb" : str) /\
  exists i, ~ In (it_origin i) (map it_origin (get_items_for fa_env (snd fa_0) fa_q)) /\
    In i (get_items_for fa_env (snd fa_3) fa_q) /\ is_from_append i = false.
Proof.
  split; [apply demo_env_ok|]. split; [exact fa_filled|]. split; [reflexivity|].
  destruct fa_items as [A B].  apply fa_origins in A. rewrite A.
  destruct (fa_in (get_items_for fa_env (snd fa_3) fa_q) ("/w/x.inc" : str) false) as [i [H1 [H2 H3]]].
  - rewrite B. right. now left.
  - exists i. rewrite H2. split; [|split; [exact H1|exact H3]]. intros [F|[]]. discriminate F.
Qed.
Print Assumptions C128_refuted.

(** The items of the bbappend itself do say so. *)
Theorem C128_case : exists i, In i (get_items_for fa_env (snd fa_3) fa_q) /\ is_from_append i = true /\
  it_origin i = ("/w/foo_1.bbappend" : str).
Proof.
  destruct (fa_in (get_items_for fa_env (snd fa_3) fa_q) ("/w/foo_1.bbappend" : str) true) as [i [H1 [H2 H3]]].
  - pose proof (proj2 fa_items) as B.  rewrite B. right. right. now left.
  - exists i. split; [exact H1|split; [exact H3|exact H2]].
Qed.
Print Assumptions C128_case.
