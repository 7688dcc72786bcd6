(** * Properties C81 and C82: built-in values, values that read files *)

From Verif Require Import PyStr Regex Patterns PyPath Res Inline Const Item Lines Stash Demo StrFacts ReFacts
  ReachFacts Spec_Query Spec_Expand Proofs_Expand Proofs_ReadFile Spec_Parse Props_Parse Props_Expand Props_Inline.

(** The expansion is the text of the file that the expanded argument names, and
    nothing but it; it is empty if the file is missing or must not be read.
    Other errors are not caught. *)
Theorem C82_read_file : forall e s file known spare p u arg q value p' arg' q' path, env_ok e -> reach e s ->
  (forall n i j, definition s file n i -> definition s file n j -> it_line i = it_line j -> i = j) ->
  (forall n, n <> [] -> stands_for s file n (known n)) -> (forall n, stands_for s file ("@" ++ n) None) ->
  read_call p u arg q value -> ~ substr_of "getVar(" value ->
  expands known (fun n => dget n (builtins file)) spare p p' ->
  expands known (fun n => dget n (builtins file)) spare arg arg' ->
  expands known (fun n => dget n (builtins file)) spare q q' -> in_quotes path arg' ->
  (forall t, fs_read (e_fs e) path = RdText t -> ~ In 13%N t ->
     expand_term_full e s file value spare [] None = Ok t) /\
  (In (fs_read (e_fs e) path) [RdNotFound; RdDenied] ->
     expand_term_full e s file value spare [] None = Ok []) /\
  (fs_read (e_fs e) path = RdOther ->
     expand_term_full e s file value spare [] None = Raise OSError).
Proof. exact C82_lemma. Qed.
Print Assumptions C82_read_file.

Definition r_env : env := demo_env [("/w/a.bb", "X = ""data""" ++ nl); ("/w/data.txt", "some" ++ nl ++ "text")] [].
Notation r_run := (add_file 2 r_env "/w/a.bb" 0 None (new_stash false false no_const)).
Lemma r_names : map name_of_item (st_list (snd r_run)) = ["X"].
Proof. vm_compute. reflexivity. Qed.
Lemma r_consts : forall n, dget n (sets_base (st_const (snd r_run))) = None.
Proof.
  intros n. replace (sets_base (st_const (snd r_run))) with (@nil (str * str)); [reflexivity|]. vm_compute. reflexivity.
Qed.
Lemma lone_definition : forall s file n i j, length (st_list s) = 1 -> definition s file n i -> definition s file n j -> i = j.
Proof.
  intros s file n i j Hl [Hi _] [Hj _]. destruct (st_list s) as [|x [|y l]]; try discriminate.
  destruct Hi as [<-|[]]. now destruct Hj as [<-|[]].
Qed.

Lemma one_place : forall (x p r : str), x <> [] -> contains x (p ++ removelast x) = false -> contains x (tl x ++ r) = false ->
  forall a b, p ++ x ++ r = a ++ x ++ b -> a = p.
Proof.
  intros x p r Hx H1 H2 a b E. destruct (Nat.lt_trichotomy (length a) (length p)) as [Hl|[Hl|Hl]].
  - exfalso. symmetry in E. destruct (app_cut _ _ _ _ E) as [c [-> Ec]]; [lia|]. rewrite app_length in Hl.
    rewrite (app_removelast_last 0%N Hx) in Ec at 2. rewrite <- !app_assoc in Ec. rewrite app_assoc in Ec.
    destruct (app_cut x (c ++ removelast x) b ([last x 0%N] ++ r)) as [d [Ed _]].
    + exact Ec.
    + rewrite (app_removelast_last 0%N Hx) at 1. rewrite !app_length. simpl. lia.
    + rewrite contains_false in H1. apply (H1 a d). rewrite <- app_assoc. now rewrite Ed.
  - destruct (app_cut _ _ _ _ E) as [c [-> _]]; [lia|]. rewrite app_length in Hl. destruct c; [apply app_nil_r|simpl in Hl; lia].
  - exfalso. destruct (app_cut _ _ _ _ E) as [c [-> Ec]]; [lia|]. rewrite app_length in Hl. destruct c as [|h c]; [simpl in Hl; lia|].
    destruct x as [|y x]; [congruence|]. cbn [app tl] in *. injection Ec as _ Ec. rewrite contains_false in H2. now apply (H2 c b).
Qed.

Example C82_case :
  let s := snd r_run in let file : str := "/w/a.bb" in let known := ExpandFacts.content_of r_env s file in
  let value : str := "v: ${@oe.utils.read_file('${THISDIR}/${X}.txt')} ${X}" in
  env_ok r_env /\ reach r_env s /\
  (forall n i j, definition s file n i -> definition s file n j -> it_line i = it_line j -> i = j) /\
  (forall n, n <> [] -> stands_for s file n (known n)) /\ (forall n, stands_for s file ("@" ++ n) None) /\
  read_call "v: " [] "'${THISDIR}/${X}.txt'" " ${X}" value /\ ~ substr_of "getVar(" value /\
  expands known (fun n => dget n (builtins file)) [] "v: " "v: " /\
  expands known (fun n => dget n (builtins file)) [] "'${THISDIR}/${X}.txt'" "'/w/data.txt'" /\
  expands known (fun n => dget n (builtins file)) [] " ${X}" " data" /\ in_quotes "/w/data.txt" "'/w/data.txt'" /\
  fs_read (e_fs r_env) "/w/data.txt" = RdText ("some" ++ nl ++ "text") /\
  expand_term_full r_env s file value [] [] None = Ok ("some" ++ nl ++ "text").
Proof.
  intros s file known value. split; [apply demo_env_ok|].
  assert (Hr : reach r_env s) by exact (reached r_env 2 "/w/a.bb" 0 None false false no_const). split; [exact Hr|].
  split. { intros n i j Hi Hj _. apply (lone_definition s file n i j); [|exact Hi|exact Hj].
    unfold s. rewrite <- (map_length name_of_item). rewrite r_names. reflexivity. }
  split. { intros n Hn. exact (content_stands r_env s file n (demo_env_ok _ _) Hr Hn). }
  split. { intro n. refine (means_nothing _ _ _ ("@" ++ n) r_names (r_consts _) _). intros [H|[]]. discriminate. }
  split.
  { split; [reflexivity|]. split.
    - intros a b E. apply (one_place "oe.utils.read_file(" "v: ${@" "'${THISDIR}/${X}.txt')} ${X}") with (b := b);
        [discriminate|vm_compute; reflexivity|vm_compute; reflexivity|exact E].
    - split; [intros []|]. split; [intros []|]. split; [notin|]. intros a b E.
      apply (one_place ")}" "'${THISDIR}/${X}.txt'" " ${X}") with (b := b);
        [discriminate|vm_compute; reflexivity|vm_compute; reflexivity|exact E]. }
  split; [apply not_occurs; vm_compute; reflexivity|].
  assert (Kx : known "X" = Some "data") by (vm_compute; reflexivity).
  assert (Kt : known "THISDIR" = None) by (vm_compute; reflexivity).
  split; [ex_text|]. split.
  { ex_text. apply (ex_builtin _ _ _ "THISDIR" "/w"); [plain|intros []|exact Kt|vm_compute; reflexivity|notin|].
    ex_text. apply (ex_known _ _ _ "X" "data" "data"); [plain|intros []|exact Kx|split; vm_compute; reflexivity|ex_text|]. ex_text. }
  split. { ex_text. apply (ex_known _ _ _ "X" "data" "data" [] []); [plain|intros []|exact Kx|split; vm_compute; reflexivity|ex_text|]. ex_text. }
  split; [exists cSQ; split; [cbn; tauto|]; split; [reflexivity|]; split; notin|].
  split; [reflexivity|]. vm_compute. reflexivity.
Qed.

(** ** C81: names with a value for every file *)

(** The guesses are those of C23 and C24. *)
Theorem C81_builtin : forall e s file n b, env_ok e -> reach e s -> stands_for s file n None ->
  dget n (builtins file) = Some b -> ~ In 36%N b -> expand_term e s file (reference n) = Ok b.
Proof. exact C81_lemma. Qed.
Print Assumptions C81_builtin.

Example C81_case : env_ok r_env /\ reach r_env (snd r_run) /\ stands_for (snd r_run) "/w/a.bb" "PV" None /\
  dget "PV" (builtins "/w/a.bb") = Some "1.0" /\ expand_term r_env (snd r_run) "/w/a.bb" (reference "PV") = Ok "1.0".
Proof.
  split; [apply demo_env_ok|]. split; [exact (reached r_env 2 "/w/a.bb" 0 None false false no_const)|].
  split; [refine (means_nothing _ _ _ "PV" r_names (r_consts _) _); intros [H|[]]; discriminate|].
  split; vm_compute; reflexivity.
Qed.
