(** * Property C92 for names with references

    Includes and inherits are often named after the recipe, such as
    "require ${BPN}.inc". *)

From Verif Require Import PyStr Regex Patterns PyPath Res Inline Const Item Lines Stash Demo StrFacts
  HistFacts ReachFacts ClassFacts StmtFacts Spec_Parse Spec_Group Spec_Expand Spec_Include Proofs_Expand
  Spec_Load Proofs_Load Props_Load Spec_Named Proofs_Named.

(** As long as no item assigns the names in question: the file of an include is
    the one found for the text that its name expands to. *)
Theorem C92_include_named : forall n e path off forced s r s' i nm st p ns t, env_ok e -> reach e s ->
  add_file n e path off forced s = (r, s') -> added s s' i -> it_pay i = PInclude nm st p ->
  unassigned s' ns -> ~ In [] ns -> no_code nm ->
  settled (sets_base (st_const s)) (it_origin i) ns nm t -> lookup e (dirname (it_origin i)) t p.
Proof. exact C92_include_named_lemma. Qed.
Print Assumptions C92_include_named.

(** The files of an inherit are those found for the words of the expanded text. *)
Theorem C92_inherit_named : forall n e path off forced s r s' i cl st paths ns t ws, env_ok e -> reach e s ->
  add_file n e path off forced s = (r, s') -> added s s' i -> it_pay i = PInherit cl st paths ->
  unassigned s' ns -> ~ In [] ns -> no_code cl ->
  settled (sets_base (st_const s)) (it_origin i) ns cl t -> words ws t ->
  cval_contains t (class_ignore (st_const s)) = false ->
  forall p, In p paths <-> exists w, In w ws /\ class_found e (dirname (it_origin i)) (class_dirs st) w p.
Proof. exact C92_inherit_named_lemma. Qed.
Print Assumptions C92_inherit_named.

(** A recipe with an include and classes that are named after it. *)
Definition nm_env : env := demo_env
  [ ("/w/conf/layer.conf", []);
    ("/w/r/a-native_2.bb", "require ${BPN}-${PV}.inc" ++ nl ++ "inherit ${PN}-k l" ++ nl);
    ("/w/r/a-2.inc", "C = " ++ q "1");
    ("/w/classes-recipe/a-native-k.bbclass", "K = " ++ q "1");
    ("/w/classes/l.bbclass", "L = " ++ q "1") ]
  ["/w"; "/w/r"; "/w/conf"; "/w/classes"; "/w/classes-recipe"; "/"].
Notation nm_run := (add_file 5 nm_env "/w/r/a-native_2.bb" 0 None demo_stash).
Definition nm_item (k : nat) : item := nth k (st_list (snd nm_run)) l_dflt.
Definition nm_names : list str := ["PN"; "BPN"; "PV"].
Lemma nm_ok : nm_run = (Ok (ok_items nm_run), snd nm_run).
Proof. vm_compute. reflexivity. Qed.
Lemma nm_added : forall k, k < 5 -> added demo_stash (snd nm_run) (nm_item k).
Proof.
  intros k Hk. split; [|apply Nat.le_0_l]. unfold nm_item. apply nth_In.
  assert (E : length (st_list (snd nm_run)) = 5) by (vm_compute; reflexivity). now rewrite E.
Qed.
Lemma nm_include : it_pay (nm_item 3) = PInclude "${BPN}-${PV}.inc" "require" "/w/r/a-2.inc" /\
  it_origin (nm_item 3) = "/w/r/a-native_2.bb".
Proof. vm_compute. auto. Qed.
Lemma nm_inherit : it_pay (nm_item 4) = PInherit "${PN}-k l" "inherit"
  ["/w/classes-recipe/a-native-k.bbclass"; "/w/classes/l.bbclass"] /\ it_origin (nm_item 4) = "/w/r/a-native_2.bb".
Proof. vm_compute. auto. Qed.

Lemma nm_quiet : hasD (fun k => mem_str k nm_names) (snd nm_run) = false.
Proof. vm_compute. reflexivity. Qed.
Lemma nm_plain : forall n, In n nm_names -> plain_name n.
Proof.
  assert (H : forallb (fun n => negb (existsb (N.eqb 36) n || existsb (N.eqb 125) n || existsb (N.eqb cNL) n) &&
    negb (str_eqb n [])) nm_names = true) by (vm_compute; reflexivity).
  rewrite forallb_forall in H. intros n Hn. specialize (H n Hn). apply andb_true_iff in H. destruct H as [H H0].
  apply negb_true_iff in H, H0. apply orb_false_iff in H. destruct H as [H H3]. apply orb_false_iff in H. destruct H as [H1 H2].
  assert (F : forall c, existsb (N.eqb c) n = false -> ~ In c n).
  { intros c Hc Hx. assert (T : existsb (N.eqb c) n = true) by (apply existsb_exists; exists c; split; [exact Hx|apply N.eqb_refl]).
    rewrite T in Hc. discriminate. }
  repeat split; try (now apply F). intros ->. discriminate.
Qed.
Lemma nm_builtin : forall known file n b v w, (forall k, In k nm_names -> known k = dget k (sets_base (st_const demo_stash))) ->
  In n nm_names -> dget n (builtins file) = Some b -> existsb (N.eqb 36) b = false ->
  expands known (fun k => dget k (builtins file)) [] v w ->
  expands known (fun k => dget k (builtins file)) [] (reference n ++ v) (b ++ w).
Proof.
  intros known file n b v w Hk Hn Hb Hd Hv. apply ex_builtin; [now apply nm_plain|intros []| |exact Hb| |exact Hv].
  - rewrite (Hk n Hn). destruct Hn as [<-|[<-|[<-|[]]]]; vm_compute; reflexivity.
  - intro Hx. assert (T : existsb (N.eqb 36) b = true) by (apply existsb_exists; exists 36%N; split; [exact Hx|reflexivity]).
    rewrite T in Hd. discriminate.
Qed.
Lemma nm_settled_include : settled (sets_base (st_const demo_stash)) "/w/r/a-native_2.bb" nm_names "${BPN}-${PV}.inc" "a-2.inc".
Proof.
  intros known Hk.
  apply (nm_builtin known "/w/r/a-native_2.bb" "BPN" "a" "-${PV}.inc" "-2.inc" Hk);
    [cbn; auto|vm_compute; reflexivity|reflexivity|].
  apply ex_char; [discriminate|].
  apply (nm_builtin known "/w/r/a-native_2.bb" "PV" "2" ".inc" ".inc" Hk);
    [cbn; auto|vm_compute; reflexivity|reflexivity|].
  repeat (apply ex_char; [discriminate|]). apply ex_end.
Qed.
Lemma nm_settled_inherit : settled (sets_base (st_const demo_stash)) "/w/r/a-native_2.bb" nm_names "${PN}-k l" "a-native-k l".
Proof.
  intros known Hk.
  apply (nm_builtin known "/w/r/a-native_2.bb" "PN" "a-native" "-k l" "-k l" Hk);
    [cbn; auto|vm_compute; reflexivity|reflexivity|].
  repeat (apply ex_char; [discriminate|]). apply ex_end.
Qed.
Lemma nm_words : words ["a-native-k"; "l"] "a-native-k l".
Proof.
  apply (words_word "a-native-k" _ " l"); [discriminate|cbv; intuition discriminate|intros c t E; now inversion E|].
  apply words_sep.
  apply (words_word "l" _ []); [discriminate|cbv; intuition discriminate|intros c t E; discriminate|constructor].
Qed.
Lemma nm_nonempty : ~ In [] nm_names.
Proof. cbv. intuition discriminate. Qed.

Example C92_include_named_case : lookup nm_env "/w/r" "a-2.inc" "/w/r/a-2.inc".
Proof.
  destruct nm_include as [H1 H2].
  pose proof (C92_include_named 5 nm_env "/w/r/a-native_2.bb" 0 None demo_stash _ _ (nm_item 3) "${BPN}-${PV}.inc" "require"
    "/w/r/a-2.inc" nm_names "a-2.inc" (demo_env_ok _ _) (demo_reach nm_env) nm_ok (nm_added 3 ltac:(lia)) H1
    (D_unassigned _ _ nm_quiet) nm_nonempty ltac:(split; reflexivity)) as H.
  rewrite H2 in H. exact (H nm_settled_include).
Qed.
Example C92_inherit_named_case :
  forall p, In p ["/w/classes-recipe/a-native-k.bbclass"; "/w/classes/l.bbclass"] <->
    exists w, In w ["a-native-k"; "l"] /\
      class_found nm_env "/w/r" ["classes"; "classes-recipe"; "classes-global"] w p.
Proof.
  destruct nm_inherit as [H1 H2].
  pose proof (C92_inherit_named 5 nm_env "/w/r/a-native_2.bb" 0 None demo_stash _ _ (nm_item 4) "${PN}-k l" "inherit"
    ["/w/classes-recipe/a-native-k.bbclass"; "/w/classes/l.bbclass"] nm_names "a-native-k l" ["a-native-k"; "l"]
    (demo_env_ok _ _) (demo_reach nm_env) nm_ok (nm_added 4 ltac:(lia)) H1
    (D_unassigned _ _ nm_quiet) nm_nonempty ltac:(split; reflexivity)) as H.
  rewrite H2 in H. exact (H nm_settled_inherit nm_words eq_refl).
Qed.
