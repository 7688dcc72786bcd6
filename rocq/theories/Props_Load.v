(** * Properties C92 to C95: which files a stash loads *)

From Verif Require Import PyStr Regex Patterns PyPath Res Inline Const Item Lines Stash Demo StrFacts
  HistFacts ReachFacts ClassFacts StmtFacts Spec_Parse Spec_Group Spec_Expand Spec_Include Proofs_Expand
  Spec_Load Proofs_Load.

(** The file of a path (cls_stash.py:170). *)
Definition file_at (e : env) (p : str) : str := abspath (fs_cwd (e_fs e)) p.

(** ** C92: the classes of an inherit, the file of an include *)

(** Every item that a call of AddFile adds, those of included files too.  The
    files of an inherit are the ones found for its words, each in the first
    directory that has it, unless the text is on the list of ignored classes. *)
Theorem C92_inherit : forall n e path off forced s r s' i cl st paths ws, reach e s ->
  add_file n e path off forced s = (r, s') -> added s s' i -> it_pay i = PInherit cl st paths ->
  plain_text cl -> words ws cl -> cval_contains cl (class_ignore (st_const s)) = false ->
  forall p, In p paths <-> exists w, In w ws /\ class_found e (dirname (it_origin i)) (class_dirs st) w p.
Proof. exact C92_inherit_lemma. Qed.
Print Assumptions C92_inherit.

(** The file of an include is the one FindLocalOrLayer finds for its name. *)
Theorem C92_include : forall n e path off forced s r s' i nm st p, reach e s ->
  add_file n e path off forced s = (r, s') -> added s s' i -> it_pay i = PInclude nm st p ->
  plain_text nm -> lookup e (dirname (it_origin i)) nm p.
Proof. exact C92_include_lemma. Qed.
Print Assumptions C92_include.

(** A layer with a recipe, two classes in different directories, and an include. *)
Definition q (s : str) : str := """" ++ s ++ """" ++ nl.
Definition l_files : list (str * str) :=
  [ ("/w/conf/layer.conf", []);
    ("/w/r/a.bb", "inherit k  l.bbclass no" ++ nl ++ "require c.inc" ++ nl ++ "require d.inc" ++ nl);
    ("/w/r/c.inc", "C = " ++ q "1");
    ("/w/classes-recipe/k.bbclass", "K = " ++ q "1" ++ "inherit l" ++ nl);
    ("/w/classes-global/k.bbclass", "G = " ++ q "1");
    ("/w/classes/l.bbclass", "L = " ++ q "1" ++ "inherit k" ++ nl ++ "L += " ++ q "2") ].
Definition l_env : env := demo_env l_files
  ["/w"; "/w/r"; "/w/conf"; "/w/classes"; "/w/classes-recipe"; "/w/classes-global"; "/"].
Notation l_run := (add_file 5 l_env "/w/r/a.bb" 0 None demo_stash).
Definition l_dflt : item := mk_item (MkParam 0 0 0 [] [] [] [] false) false PItem.
Definition l_item (k : nat) : item := nth k (st_list (snd l_run)) l_dflt.

Lemma demo_reach : forall e, reach e demo_stash.
Proof. intro e. exists false, false, no_const. apply steps_refl. Qed.

Lemma l_ok : l_run = (Ok (ok_items l_run), snd l_run).
Proof. vm_compute. reflexivity. Qed.
Lemma l_added : forall k, k < 9 -> added demo_stash (snd l_run) (l_item k).
Proof.
  intros k Hk. split; [|apply Nat.le_0_l]. unfold l_item. apply nth_In.
  assert (E : length (st_list (snd l_run)) = 9) by (vm_compute; reflexivity). now rewrite E.
Qed.
Lemma l_inherit : it_pay (l_item 6) = PInherit "k  l.bbclass no" "inherit"
  ["/w/classes-recipe/k.bbclass"; "/w/classes/l.bbclass"] /\ it_origin (l_item 6) = "/w/r/a.bb".
Proof. vm_compute. auto. Qed.
Lemma l_words : words ["k"; "l.bbclass"; "no"] "k  l.bbclass no".
Proof.
  apply (words_word "k" _ "  l.bbclass no"); [discriminate|cbv; intuition discriminate|intros c t E; now inversion E|].
  apply words_sep, words_sep.
  apply (words_word "l.bbclass" _ " no"); [discriminate|cbv; intuition discriminate|intros c t E; now inversion E|].
  apply words_sep.
  apply (words_word "no" _ []); [discriminate|cbv; intuition discriminate|intros c t E; discriminate|constructor].
Qed.
Example C92_inherit_case :
  forall p, In p ["/w/classes-recipe/k.bbclass"; "/w/classes/l.bbclass"] <->
    exists w, In w ["k"; "l.bbclass"; "no"] /\
      class_found l_env "/w/r" ["classes"; "classes-recipe"; "classes-global"] w p.
Proof.
  destruct l_inherit as [H1 H2].
  pose proof (C92_inherit 5 l_env "/w/r/a.bb" 0 None demo_stash _ _ (l_item 6) "k  l.bbclass no" "inherit"
    ["/w/classes-recipe/k.bbclass"; "/w/classes/l.bbclass"] ["k"; "l.bbclass"; "no"]
    (demo_reach l_env) l_ok (l_added 6 ltac:(lia)) H1 ltac:(repeat split) l_words eq_refl) as H.
  rewrite H2 in H. exact H.
Qed.
Lemma l_include : it_pay (l_item 7) = PInclude "c.inc" "require" "/w/r/c.inc" /\
  it_pay (l_item 8) = PInclude "d.inc" "require" [].
Proof. vm_compute. auto. Qed.
Example C92_include_case : lookup l_env (dirname (it_origin (l_item 7))) "c.inc" "/w/r/c.inc".
Proof.
  exact (C92_include 5 l_env "/w/r/a.bb" 0 None demo_stash _ _ (l_item 7) "c.inc" "require" "/w/r/c.inc"
    (demo_reach l_env) l_ok (l_added 7 ltac:(lia)) (proj1 l_include) ltac:(repeat split)).
Qed.

(** Words of an inherit that are separated by other white space than spaces,
    which bitbake allows: the class is not loaded though it is there. *)
Definition t_env : env := demo_env
  [ ("/w/conf/layer.conf", []);
    ("/w/r/a.bb", "inherit k" ++ [9%N] ++ "l" ++ nl);
    ("/w/classes/k.bbclass", "K = " ++ q "1");
    ("/w/classes/l.bbclass", "L = " ++ q "1") ] ["/w"; "/w/r"; "/w/conf"; "/w/classes"; "/"].
Notation t_run := (add_file 5 t_env "/w/r/a.bb" 0 None demo_stash).
Theorem C92_tab_refuted : exists n e path s' l i cl st paths a b w p,
  add_file n e path 0 None demo_stash = (Ok l, s') /\ In i l /\ it_pay i = PInherit cl st paths /\ plain_text cl /\
  cl = a ++ b ++ w /\ blanks b /\ (forall c, In c (a ++ w) -> re_space c = false) /\
  class_found e (dirname (it_origin i)) (class_dirs st) w p /\ ~ In p paths /\
  forall j, In j (st_list s') -> it_origin j <> p.
Proof.
  exists 5, t_env, "/w/r/a.bb", (snd t_run), (ok_items t_run), (nth 0 (ok_items t_run) l_dflt),
    ("k" ++ [9%N] ++ "l"), "inherit", [], "k", [9%N], "l", "/w/classes/l.bbclass".
  split; [vm_compute; reflexivity|]. split; [apply nth_In; vm_compute; lia|].
  split; [vm_compute; reflexivity|]. split; [repeat split|]. split; [reflexivity|].
  split; [split; [discriminate|]; intros c [<-|[]]; reflexivity|].
  split; [intros c [<-|[<-|[]]]; reflexivity|].
  split. { exists [], "classes", ["classes-recipe"; "classes-global"]. split; [reflexivity|].
    split; [vm_compute; reflexivity|]. split; [discriminate|]. intros x []. }
  split; [intros []|]. intros j Hj E.
  assert (H : forallb (fun j => negb (str_eqb (it_origin j) "/w/classes/l.bbclass")) (st_list (snd t_run)) = true)
    by (vm_compute; reflexivity).
  rewrite forallb_forall in H. specialize (H j Hj). rewrite E in H. discriminate.
Qed.
Print Assumptions C92_tab_refuted.

(** A class given by a variable that the same file assigns further up: the
    items of a file join the stash when the file is at its end, so the
    reference is not resolved. *)
Definition v_env : env := demo_env
  [ ("/w/conf/layer.conf", []);
    ("/w/r/a.bb", "A = " ++ q "k" ++ "inherit ${A}" ++ nl);
    ("/w/classes/k.bbclass", "K = " ++ q "1") ] ["/w"; "/w/r"; "/w/conf"; "/w/classes"; "/"].
Notation v_run := (add_file 5 v_env "/w/r/a.bb" 0 None demo_stash).
Theorem C92_reference_refuted : exists n e path s' x i p,
  add_file n e path 0 None demo_stash = (Ok [x; i], s') /\
  it_pay x = PVariable "A" [] [] (""""  ++ "k" ++ """") " = " "A" /\ it_pay i = PInherit "${A}" "inherit" [] /\
  expand_term e s' (it_origin i) "${A}" = Ok ("k" : str) /\
  class_found e (dirname (it_origin i)) (class_dirs "inherit") "k" p.
Proof.
  exists 5, v_env, "/w/r/a.bb", (snd v_run), (nth 0 (ok_items v_run) l_dflt), (nth 1 (ok_items v_run) l_dflt),
    "/w/classes/k.bbclass".
  split; [vm_compute; reflexivity|]. split; [vm_compute; reflexivity|]. split; [vm_compute; reflexivity|].
  split; [vm_compute; reflexivity|].
  exists [], "classes", ["classes-recipe"; "classes-global"]. split; [reflexivity|].
  split; [vm_compute; reflexivity|]. split; [discriminate|]. intros x [].
Qed.
Print Assumptions C92_reference_refuted.

(** ** C93: what is named is loaded *)

(** As long as no call raised, every file that an item of the stash names has
    its items in the stash, whatever the order of the calls and the cycles of
    inherits, and so has every file that was given to AddFile. *)
Theorem C93_named : forall e s i p, built e s -> In i (st_list s) -> names_file i p -> loaded e s (file_at e p).
Proof. exact named_loaded. Qed.
Print Assumptions C93_named.
Theorem C93_given : forall e n path off forced s l s', built e s ->
  add_file n e path off forced s = (Ok l, s') -> loaded e s' (file_at e path).
Proof. exact given_loaded. Qed.
Print Assumptions C93_given.

Lemma l_built : built l_env (snd l_run).
Proof. eapply built_add; [apply (built_new l_env false false no_const)|exact l_ok]. Qed.
(** The classes k and l inherit each other. *)
Lemma l_cycle : it_pay (l_item 1) = PInherit "k" "inherit" ["/w/classes-recipe/k.bbclass"] /\
  it_pay (l_item 4) = PInherit "l" "inherit" ["/w/classes/l.bbclass"].
Proof. vm_compute. auto. Qed.
Lemma k_read : fs_read (e_fs l_env) (file_at l_env "/w/classes-recipe/k.bbclass") = RdText ("K = " ++ q "1" ++ "inherit l" ++ nl).
Proof. vm_compute. reflexivity. Qed.
Example C93_case : exists gs js,
  taken (readlines (universal_newlines ("K = " ++ q "1" ++ "inherit l" ++ nl))) gs [] /\ incl js (st_list (snd l_run)) /\
  Forall (fun j => it_origin j = file_at l_env "/w/classes-recipe/k.bbclass") js /\
  map it_realraw js = map (@concat N) gs.
Proof.
  assert (H : names_file (l_item 1) "/w/classes-recipe/k.bbclass").
  { unfold names_file. rewrite (proj1 l_cycle). now left. }
  pose proof (C93_named l_env (snd l_run) (l_item 1) _ l_built (proj1 (l_added 1 ltac:(lia))) H) as C.
  unfold loaded in C. rewrite k_read in C. exact C.
Qed.
Example C93_given_case : loaded l_env (snd l_run) (file_at l_env "/w/r/a.bb").
Proof.
  exact (C93_given l_env 5 "/w/r/a.bb" 0 None demo_stash _ _ (built_new l_env false false no_const) l_ok).
Qed.

(** After a call that raised this is lost: a class that was being read when the
    error came counts as read, and a later call that inherits it succeeds
    without any item of it. *)
Definition d_files : list (str * str) :=
  [ ("/w/conf/layer.conf", []); ("/w/r/a.bb", "inherit k" ++ nl); ("/w/r/b.bb", "inherit k" ++ nl);
    ("/w/classes/k.bbclass", "K = " ++ q "1" ++ "require secret.inc" ++ nl); ("/w/classes/secret.inc", []) ].
Definition d_fs : fs :=
  let f := demo_fs d_files ["/w"; "/w/r"; "/w/conf"; "/w/classes"; "/"] [] in
  MkFs (fun p => if str_eqb p "/w/classes/secret.inc" then RdDenied else fs_read f p)
       (fs_exists f) (fs_isfile f) (fs_isdir f) (fs_glob f) (fs_cwd f).
Definition d_env : env := MkEnv d_fs dedup_items dedup_str (fun i => it_raw i) (fun _ => None).
Notation d_one := (add_file 5 d_env "/w/r/a.bb" 0 None demo_stash).
Notation d_two := (add_file 5 d_env "/w/r/b.bb" 0 None (snd d_one)).
Theorem C93_error_refuted : exists e s1 l s2 i p,
  add_file 5 e "/w/r/a.bb" 0 None demo_stash = (Raise OSError, s1) /\
  add_file 5 e "/w/r/b.bb" 0 None s1 = (Ok l, s2) /\ In i l /\ names_file i p /\ ~ loaded e s2 (file_at e p).
Proof.
  exists d_env, (snd d_one), (ok_items d_two), (snd d_two), (nth 0 (ok_items d_two) l_dflt), "/w/classes/k.bbclass".
  split; [vm_compute; reflexivity|]. split; [vm_compute; reflexivity|]. split; [apply nth_In; vm_compute; lia|].
  split; [vm_compute; auto|]. intro H. unfold loaded in H.
  assert (Er : fs_read (e_fs d_env) (file_at d_env "/w/classes/k.bbclass") =
               RdText ("K = " ++ q "1" ++ "require secret.inc" ++ nl)) by (vm_compute; reflexivity).
  rewrite Er in H. destruct H as [gs [js [H1 [H2 [H3 H4]]]]].
  assert (Hn : forallb (fun j => negb (str_eqb (it_origin j) (file_at d_env "/w/classes/k.bbclass"))) (st_list (snd d_two)) = true)
    by (vm_compute; reflexivity).
  rewrite forallb_forall in Hn.
  destruct js as [|j js].
  - destruct gs as [|g gs]; [|discriminate]. inversion H1.
  - inversion H3 as [|? ? Hj _]; subst. specialize (Hn j (H2 j (or_introl eq_refl))).
    rewrite Hj in Hn. rewrite str_eqb_refl in Hn. discriminate.
Qed.
Print Assumptions C93_error_refuted.

(** ** C94: missing files *)

(** The parser never makes a MissingFile item. *)
Theorem C94_never : forall e i f st, parsed_item e i -> it_pay i <> PMissingFile f st.
Proof. exact C94_lemma. Qed.
Print Assumptions C94_never.
Example C94_case : parsed_item l_env (l_item 8).
Proof.
  exists (snd l_run). split; [|exact (proj1 (l_added 8 ltac:(lia)))].
  eapply filled_add; [apply (filled_new l_env false false no_const)|exact l_ok].
Qed.

(** So a required file that is not there is reported by no item of this class. *)
Theorem C94_refuted : exists n e path l s' i,
  add_file n e path 0 None demo_stash = (Ok l, s') /\ In i l /\ it_pay i = PInclude "d.inc" "require" [] /\
  forall j f st, In j (st_list s') -> it_pay j <> PMissingFile f st.
Proof.
  exists 5, l_env, "/w/r/a.bb", (ok_items l_run), (snd l_run), (nth 2 (ok_items l_run) l_dflt).
  split; [exact l_ok|]. split; [apply nth_In; vm_compute; lia|]. split; [vm_compute; reflexivity|].
  intros j f st Hj. apply (C94_never l_env). exists (snd l_run). split; [|exact Hj].
  eapply filled_add; [apply (filled_new l_env false false no_const)|exact l_ok].
Qed.
Print Assumptions C94_refuted.

(** What does show it: FileIncluded is empty exactly if nothing is found. *)
Theorem C94_empty_partial : forall n e path off forced s r s' i nm st p, reach e s ->
  add_file n e path off forced s = (r, s') -> added s s' i -> it_pay i = PInclude nm st p ->
  plain_text nm -> (p = [] <-> lookup e (dirname (it_origin i)) nm []).
Proof. exact C94_empty_lemma. Qed.
Print Assumptions C94_empty_partial.
Example C94_empty_case : lookup l_env (dirname (it_origin (l_item 8))) "d.inc" [].
Proof.
  apply (C94_empty_partial 5 l_env "/w/r/a.bb" 0 None demo_stash _ _ (l_item 8) "d.inc" "require" []
    (demo_reach l_env) l_ok (l_added 8 ltac:(lia)) (proj2 l_include) ltac:(repeat split)). reflexivity.
Qed.

(** ** C95: ignored classes and includes *)

(** An inherit whose text is one of the ignored classes loads nothing. *)
Theorem C95_class_partial : forall n e path off forced s r s' i cl st paths, reach e s ->
  add_file n e path off forced s = (r, s') -> added s s' i -> it_pay i = PInherit cl st paths ->
  plain_text cl -> listed cl (class_ignore (st_const s)) -> paths = [].
Proof. exact C95_class_lemma. Qed.
Print Assumptions C95_class_partial.
(** A file that is included is not one of the ignored ones. *)
Theorem C95_include : forall n e path off forced s r s' i nm st p, reach e s ->
  add_file n e path off forced s = (r, s') -> added s s' i -> it_pay i = PInclude nm st p ->
  plain_text nm -> listed nm (include_ignore (st_const s)) -> p = [].
Proof. exact C95_include_lemma. Qed.
Print Assumptions C95_include.

Definition g_const : cval := CDict [("ignore", CDict [("classes", CList ["k"]); ("include", CList ["c.inc"; "d.inc"])])].
Definition g_stash : stash := new_stash false false g_const.
Definition g_env : env := demo_env
  [ ("/w/conf/layer.conf", []);
    ("/w/r/a.bb", "inherit k" ++ nl ++ "require c.inc" ++ nl ++ "require d.inc" ++ nl ++ "inherit l k" ++ nl);
    ("/w/r/c.inc", "C = " ++ q "1");
    ("/w/classes/k.bbclass", "K = " ++ q "1");
    ("/w/classes/l.bbclass", "L = " ++ q "1") ] ["/w"; "/w/r"; "/w/conf"; "/w/classes"; "/"].
Notation g_run := (add_file 5 g_env "/w/r/a.bb" 0 None g_stash).
Lemma g_ok : g_run = (Ok (ok_items g_run), snd g_run).
Proof. vm_compute. reflexivity. Qed.
Lemma g_pays : map (fun i => (basename (it_origin i), it_pay i)) (st_list (snd g_run)) =
  [ ("l.bbclass", PVariable "L" [] [] ("""" ++ "1" ++ """") " = " "L");
    ("k.bbclass", PVariable "K" [] [] ("""" ++ "1" ++ """") " = " "K");
    ("a.bb", PInherit "k" "inherit" []); ("a.bb", PItem); ("a.bb", PInclude "d.inc" "require" []);
    ("a.bb", PInherit "l k" "inherit" ["/w/classes/l.bbclass"; "/w/classes/k.bbclass"]) ].
Proof. vm_compute. reflexivity. Qed.
Definition g_item (k : nat) : item := nth k (st_list (snd g_run)) l_dflt.
Lemma g_reach : reach g_env g_stash.
Proof. exists false, false, g_const. apply steps_refl. Qed.
Lemma g_added : forall k, k < 6 -> added g_stash (snd g_run) (g_item k).
Proof.
  intros k Hk. split; [|apply Nat.le_0_l]. unfold g_item. apply nth_In.
  assert (E : length (st_list (snd g_run)) = 6) by (vm_compute; reflexivity). now rewrite E.
Qed.
Lemma g_listed : listed "k" (class_ignore (st_const g_stash)) /\ listed "d.inc" (include_ignore (st_const g_stash)).
Proof. split; eexists; (split; [vm_compute; reflexivity|]); cbn; auto. Qed.
Example C95_case : (forall paths, it_pay (g_item 2) = PInherit "k" "inherit" paths -> paths = []) /\
  (forall p, it_pay (g_item 4) = PInclude "d.inc" "require" p -> p = []).
Proof.
  split.
  - intros paths E. exact (C95_class_partial 5 g_env "/w/r/a.bb" 0 None g_stash _ _ (g_item 2) "k" "inherit" paths
      g_reach g_ok (g_added 2 ltac:(lia)) E ltac:(repeat split) (proj1 g_listed)).
  - intros p E. exact (C95_include 5 g_env "/w/r/a.bb" 0 None g_stash _ _ (g_item 4) "d.inc" "require" p
      g_reach g_ok (g_added 4 ltac:(lia)) E ltac:(repeat split) (proj2 g_listed)).
Qed.

(** The whole text of the statement is looked for in the list, so an ignored
    class is loaded if another one is inherited beside it. *)
Theorem C95_refuted : exists n e path s l s' i cl st paths ws w p, reach e s /\
  add_file n e path 0 None s = (Ok l, s') /\ In i l /\ it_pay i = PInherit cl st paths /\ plain_text cl /\
  words ws cl /\ In w ws /\ listed w (class_ignore (st_const s)) /\
  class_found e (dirname (it_origin i)) (class_dirs st) w p /\ In p paths /\
  exists j, In j (st_list s') /\ it_origin j = p.
Proof.
  exists 5, g_env, "/w/r/a.bb", g_stash, (ok_items g_run), (snd g_run), (nth 3 (ok_items g_run) l_dflt), "l k", "inherit",
    ["/w/classes/l.bbclass"; "/w/classes/k.bbclass"], ["l"; "k"], "k", "/w/classes/k.bbclass".
  split; [exact g_reach|]. split; [exact g_ok|]. split; [apply nth_In; vm_compute; lia|].
  split; [vm_compute; reflexivity|]. split; [repeat split|].
  split. { apply (words_word "l" _ " k"); [discriminate|cbv; intuition discriminate|intros c t E; now inversion E|].
    apply words_sep. apply (words_word "k" _ []); [discriminate|cbv; intuition discriminate|intros c t E; discriminate|constructor]. }
  split; [cbn; auto|]. split; [exact (proj1 g_listed)|].
  split. { exists [], "classes", ["classes-recipe"; "classes-global"]. split; [reflexivity|].
    split; [vm_compute; reflexivity|]. split; [discriminate|]. intros x []. }
  split; [cbn; auto|].
  exists (g_item 1). split; [exact (proj1 (g_added 1 ltac:(lia)))|]. vm_compute. reflexivity.
Qed.
Print Assumptions C95_refuted.
