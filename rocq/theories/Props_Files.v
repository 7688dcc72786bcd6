(** * Properties C35, C37, C38, C41, C57, C68-C70: links between files *)

From Verif Require Import PyStr Regex Patterns PyPath Res Inline Const Item Lines Stash Demo
  StrFacts ReachFacts Spec_Query Spec_Files Proofs_Files.

(** ** The states of the examples *)

Definition f_files : list (str * str) :=
  [ ("/w/a.bb", "require b.inc" ++ nl ++ "require c.inc" ++ nl ++ "A = ""1""" ++ nl);
    ("/w/b.inc", "B = ""1""" ++ nl);
    ("/w/c.inc", "require d.inc" ++ nl);
    ("/w/d.inc", "require e.inc" ++ nl);
    ("/w/e.inc", "E = ""1""" ++ nl);
    ("/w/foo_1.0.bb", "A = ""1""" ++ nl ++ "A = ""2""" ++ nl);
    ("/w/foo_1.0.bbappend", "A = ""3""" ++ nl);
    ("/w/foo_%.bbappend", "A = ""4""" ++ nl);
    ("/w/bar.bbappend", "A = ""5""" ++ nl);
    ("/w/barbar.bb", "A = ""6""" ++ nl);
    ("/w/gtk+3_3.24.bb", "A = ""7""" ++ nl);
    ("/w/gtk+3_3.24.bbappend", "A = ""8""" ++ nl);
    ("/w/r1.bb", "inherit k" ++ nl);
    ("/w/r2.bb", "inherit k" ++ nl);
    ("/w/classes/k.bbclass", "K = ""1""" ++ nl) ].
Definition f_env : env := demo_env f_files ["/w"; "/"; "/w/classes"].
Definition f_add (l : list str) : stash :=
  fold_left (fun s p => snd (add_file 6 f_env p 0 None s)) l demo_stash.

Lemma f_env_ok : env_ok f_env.
Proof. apply demo_env_ok. Qed.
Lemma f_parsing : forall l, parsing f_env (f_add l).
Proof.
  intro l. unfold f_add. cut (parsing f_env demo_stash); [|apply parsing_new]. generalize demo_stash.
  induction l as [|p l IH]; intros s Hs; [exact Hs|]. cbn [fold_left]. apply IH.
  eapply parsing_add; [exact Hs|apply surjective_pairing].
Qed.
Definition f_final (l : list str) : stash := snd (finalize f_env (f_add l)).
Lemma linked_dec : forall s f x, mem_str x (links_of s f) = true <-> linked s f x.
Proof. intros s f x. rewrite mem_str_In. symmetry. apply linked_links_of. Qed.
Definition no_item : item := MkItem 0 0 0 [] [] [] [] [] false PItem.

(** ** C35 *)

(** Finalize does not fail, and links every file with itself. *)
Theorem C35_finalize : forall e s, env_ok e -> parsing e s ->
  exists s', finalize e s = (Ok tt, s') /\ forall f, file_known s f -> linked s' f f.
Proof. exact C35_lemma. Qed.
Print Assumptions C35_finalize.

Example C35_case : parsing f_env (f_add ["a.bb"; "r1.bb"]) /\
  map (fun kv => (fst kv, length (snd kv))) (st_map (f_add ["a.bb"; "r1.bb"])) =
    [("/w/b.inc", 0); ("/w/a.bb", 2); ("/w/e.inc", 0); ("/w/d.inc", 1); ("/w/c.inc", 1);
     ("/w/classes/k.bbclass", 0); ("/w/r1.bb", 1)].
Proof. split; [apply f_parsing|vm_compute; reflexivity]. Qed.

(** ** C68 *)

(** With items of other origin than the parsed files Finalize may fail. *)
Theorem C68_refuted : exists e s r s',
  env_ok e /\ reach e s /\ finalize e s = (r, s') /\ r = Raise KeyError.
Proof.
  set (it := match fst (add_file 6 f_env "foo_1.0.bbappend" 0 None demo_stash) with Ok [i] => i | _ => no_item end).
  set (s1 := append_items [it] (with_next 1 demo_stash)).
  exists f_env, (snd (add_file 6 f_env "foo_1.0.bb" 0 None s1)).
  eexists. eexists. split; [apply f_env_ok|]. split.
  - exists false, false, no_const. eapply steps_add; [|apply surjective_pairing].
    apply steps_append.
    + apply steps_create; [apply steps_refl|vm_compute; auto].
    + intros i [<-|[]]. vm_compute. auto.
    + intros i j [<-|[]] [<-|[]] _. reflexivity.
  - split; [apply surjective_pairing|vm_compute; reflexivity].
Qed.
Print Assumptions C68_refuted.

(** ** C37 *)

(** A bbappend added after its recipe is linked to it, and its items come
    after all items of the recipe. *)
Theorem C37_recipe_first : forall n e path off forced s l s' recipe,
  add_file n e path off forced s = (Ok l, s') -> l <> [] -> (0 <= off)%Z ->
  applies (abspath (fs_cwd (e_fs e)) path) recipe -> file_known s recipe ->
  linked s' recipe (abspath (fs_cwd (e_fs e)) path) /\
  forall i j, In i (st_list s') -> it_origin i = recipe -> In j l -> (it_line i < it_line j)%Z.
Proof. exact C37_recipe_first_lemma. Qed.
Print Assumptions C37_recipe_first.

(** A recipe added after the bbappend. *)
Theorem C37_append_first : forall n e path off forced s l s' app,
  add_file n e path off forced s = (Ok l, s') -> l <> [] ->
  applies app (abspath (fs_cwd (e_fs e)) path) -> (exists i, In i (st_list s) /\ it_origin i = app) ->
  linked s' (abspath (fs_cwd (e_fs e)) path) app /\
  forall i j, In i (st_list s') -> it_origin i = app -> (1 <= it_infile i)%Z -> In j l ->
    (it_line j < it_line i)%Z.
Proof. exact C37_append_first_lemma. Qed.
Print Assumptions C37_append_first.

Example C37_case_applies :
  applies "/w/foo_1.0.bbappend" "/w/foo_1.0.bb" /\ applies "/w/foo_%.bbappend" "/w/foo_1.0.bb".
Proof.
  split.
  - apply (applies_same "/w" "/w" "foo_1.0"). now apply plain_by_compute.
  - apply (applies_any "/w" "/w" "foo_" "1.0"); now apply plain_by_compute.
Qed.
Example C37_case :
  let lines s := map (fun i => (it_origin i, it_line i)) (st_list s) in
  lines (f_add ["foo_1.0.bb"; "foo_%.bbappend"]) =
    [("/w/foo_1.0.bb", 1%Z); ("/w/foo_1.0.bb", 2%Z); ("/w/foo_%.bbappend", 3%Z)] /\
  lines (f_add ["foo_%.bbappend"; "foo_1.0.bb"]) =
    [("/w/foo_%.bbappend", 3%Z); ("/w/foo_1.0.bb", 1%Z); ("/w/foo_1.0.bb", 2%Z)].
Proof. vm_compute. auto. Qed.

(** ** C38 *)

(** Both orders link the two files. *)
Theorem C38_both_orders_partial : forall e app recipe,
  let file := abspath (fs_cwd (e_fs e)) in
  applies (file app) (file recipe) ->
  (forall n1 n2 s l1 s1 l2 s2, add_file n1 e recipe 0 None s = (Ok l1, s1) -> l1 <> [] ->
     add_file n2 e app 0 None s1 = (Ok l2, s2) -> l2 <> [] -> linked s2 (file recipe) (file app)) /\
  (forall n1 n2 s l1 s1 l2 s2, add_file n1 e app 0 None s = (Ok l1, s1) -> l1 <> [] ->
     add_file n2 e recipe 0 None s1 = (Ok l2, s2) -> l2 <> [] -> linked s2 (file recipe) (file app)).
Proof. exact C38_lemma. Qed.
Print Assumptions C38_both_orders_partial.

(** In general the links depend on the order: if the bbappend is first, every
    recipe whose name starts with its name is taken. *)
Theorem C38_refuted : exists e app recipe n s l1 s1 l2 s2 k1 t1 k2 t2,
  env_ok e /\ reach e s /\
  add_file n e recipe 0 None s = (Ok l1, s1) /\ add_file n e app 0 None s1 = (Ok l2, s2) /\
  add_file n e app 0 None s = (Ok k1, t1) /\ add_file n e recipe 0 None t1 = (Ok k2, t2) /\
  let file := abspath (fs_cwd (e_fs e)) in
  ~ linked s2 (file recipe) (file app) /\ linked t2 (file recipe) (file app).
Proof.
  exists f_env, "bar.bbappend", "barbar.bb", 6, demo_stash.
  eexists. eexists. eexists. eexists. eexists. eexists. eexists. eexists.
  split; [apply f_env_ok|]. split; [exists false, false, no_const; apply steps_refl|].
  split; [vm_compute; reflexivity|]. split; [vm_compute; reflexivity|].
  split; [vm_compute; reflexivity|]. split; [vm_compute; reflexivity|].
  split; [intro H; apply linked_dec in H; vm_compute in H; discriminate H|].
  apply linked_dec. vm_compute. reflexivity.
Qed.
Print Assumptions C38_refuted.

(** ** C70 *)

(** A bbappend with exactly the name of the recipe need not be linked. *)
Theorem C70_refuted : exists e d name n s l1 s1 l2 s2 k1 t1 k2 t2,
  env_ok e /\ reach e s /\ l2 <> [] /\ k2 <> [] /\
  let recipe := d ++ "/" ++ name ++ ".bb" in
  let app := d ++ "/" ++ name ++ ".bbappend" in
  add_file n e recipe 0 None s = (Ok l1, s1) /\ add_file n e app 0 None s1 = (Ok l2, s2) /\
  add_file n e app 0 None s = (Ok k1, t1) /\ add_file n e recipe 0 None t1 = (Ok k2, t2) /\
  ~ linked s2 recipe app /\ ~ linked t2 recipe app.
Proof.
  exists f_env, "/w", "gtk+3_3.24", 6, demo_stash.
  exists (ok_items (add_file 6 f_env "/w/gtk+3_3.24.bb" 0 None demo_stash)),
         (f_add ["/w/gtk+3_3.24.bb"]),
         (ok_items (add_file 6 f_env "/w/gtk+3_3.24.bbappend" 0 None (f_add ["/w/gtk+3_3.24.bb"]))),
         (f_add ["/w/gtk+3_3.24.bb"; "/w/gtk+3_3.24.bbappend"]),
         (ok_items (add_file 6 f_env "/w/gtk+3_3.24.bbappend" 0 None demo_stash)),
         (f_add ["/w/gtk+3_3.24.bbappend"]),
         (ok_items (add_file 6 f_env "/w/gtk+3_3.24.bb" 0 None (f_add ["/w/gtk+3_3.24.bbappend"]))),
         (f_add ["/w/gtk+3_3.24.bbappend"; "/w/gtk+3_3.24.bb"]).
  split; [apply f_env_ok|]. split; [exists false, false, no_const; apply steps_refl|].
  split; [vm_compute; discriminate|]. split; [vm_compute; discriminate|].
  cbv zeta. split; [vm_compute; reflexivity|]. split; [vm_compute; reflexivity|].
  split; [vm_compute; reflexivity|]. split; [vm_compute; reflexivity|].
  split; intro H; apply linked_dec in H; vm_compute in H; discriminate H.
Qed.
Print Assumptions C70_refuted.

(** ** C41 *)

(** Finalize adds only links to files reached over links. *)
Theorem C41_sound : forall e s s', env_ok e -> parsing e s -> finalize e s = (Ok tt, s') ->
  forall f x, linked s' f x -> exists n, chain s n f x.
Proof. exact C41_sound_lemma. Qed.
Print Assumptions C41_sound.

(** Files reached over at most two links are linked. *)
Theorem C41_two_partial : forall e s s', env_ok e -> parsing e s -> finalize e s = (Ok tt, s') ->
  forall n f x, n <= 2 -> file_known s f -> chain s n f x -> linked s' f x.
Proof. exact C41_two_lemma. Qed.
Print Assumptions C41_two_partial.

(** All reached files are linked if every link goes to a file that became
    known before. *)
Theorem C41_back_partial : forall e s s', env_ok e -> parsing e s -> links_back s ->
  finalize e s = (Ok tt, s') ->
  forall f x, file_known s f -> (linked s' f x <-> exists n, chain s n f x).
Proof. exact C41_back_lemma. Qed.
Print Assumptions C41_back_partial.

(** After [n] calls of Finalize all files over up to [2^n] links are linked. *)
Theorem C41_repeat_partial : forall e n s s', env_ok e -> parsing e s -> finalized e n s s' ->
  forall m f x, 1 <= m <= 2 ^ n -> chain s m f x -> linked s' f x.
Proof. exact C41_repeat_lemma. Qed.
Print Assumptions C41_repeat_partial.

Example C41_case :
  links_of (f_add ["a.bb"]) "/w/a.bb" = ["/w/b.inc"; "/w/c.inc"] /\
  links_of (f_final ["a.bb"]) "/w/a.bb" = ["/w/b.inc"; "/w/c.inc"; "/w/d.inc"; "/w/a.bb"] /\
  links_of (snd (finalize f_env (f_final ["a.bb"]))) "/w/a.bb" =
    ["/w/b.inc"; "/w/c.inc"; "/w/d.inc"; "/w/a.bb"; "/w/e.inc"].
Proof. vm_compute. auto. Qed.
Example C41_case_back : links_back (f_add ["r1.bb"]) /\ linked (f_add ["r1.bb"]) "/w/r1.bb" "/w/classes/k.bbclass".
Proof.
  split; [|apply linked_dec; vm_compute; reflexivity].
  intros a k b x E H. apply linked_links_of in H.
  assert (E0 : dkeys (st_map (f_add ["r1.bb"])) = ["/w/classes/k.bbclass"; "/w/r1.bb"]) by (vm_compute; reflexivity).
  rewrite E0 in E. destruct a as [|a1 [|a2 a]]; inversion E as [[E1 E2]]; subst.
  - assert (E3 : links_of (f_add ["r1.bb"]) "/w/classes/k.bbclass" = []) by (vm_compute; reflexivity).
    rewrite E3 in H. destruct H.
  - assert (E3 : links_of (f_add ["r1.bb"]) "/w/r1.bb" = ["/w/classes/k.bbclass"]) by (vm_compute; reflexivity).
    rewrite E3 in H. exact H.
  - destruct a; discriminate.
Qed.

(** One call of Finalize does not link over three links ... *)
Theorem C41_refuted : exists e s s' f x n, env_ok e /\ parsing e s /\ finalize e s = (Ok tt, s') /\
  file_known s f /\ chain s n f x /\ ~ linked s' f x.
Proof.
  exists f_env, (f_add ["a.bb"]), (f_final ["a.bb"]), "/w/a.bb", "/w/e.inc", 3.
  split; [apply f_env_ok|]. split; [apply f_parsing|]. split; [vm_compute; reflexivity|].
  split; [eexists; vm_compute; reflexivity|]. split.
  - apply chain_step with "/w/c.inc"; [apply linked_dec; vm_compute; reflexivity|].
    apply chain_step with "/w/d.inc"; [apply linked_dec; vm_compute; reflexivity|].
    apply chain_step with "/w/e.inc"; [apply linked_dec; vm_compute; reflexivity|apply chain_here].
  - intro H. apply linked_dec in H. vm_compute in H. discriminate H.
Qed.
Print Assumptions C41_refuted.

(** ... and a class inherited by two recipes is linked to the first one only. *)
Theorem C41_class_refuted : exists e s s' i j,
  env_ok e /\ parsing e s /\ finalize e s = (Ok tt, s') /\ In i (st_list s') /\ In j (st_list s') /\
  it_pay i = it_pay j /\ it_pay i = PInherit "k" "inherit" ["/w/classes/k.bbclass"] /\
  linked s' (it_origin i) "/w/classes/k.bbclass" /\ ~ linked s' (it_origin j) "/w/classes/k.bbclass".
Proof.
  pose (pick f := hd no_item
                     (filter (fun i => str_eqb (it_origin i) f) (st_list (f_final ["r1.bb"; "r2.bb"])))).
  exists f_env, (f_add ["r1.bb"; "r2.bb"]), (f_final ["r1.bb"; "r2.bb"]), (pick "/w/r1.bb"), (pick "/w/r2.bb").
  split; [apply f_env_ok|]. split; [apply f_parsing|]. split; [vm_compute; reflexivity|].
  split; [vm_compute; auto|]. split; [vm_compute; auto 6|]. split; [vm_compute; reflexivity|].
  split; [vm_compute; reflexivity|].
  split; [apply linked_dec; vm_compute; reflexivity|].
  intro H. apply linked_dec in H. vm_compute in H. discriminate H.
Qed.
Print Assumptions C41_class_refuted.

(** ** C69 *)

(** IncludedFrom after Finalize: what was there, and everything linked to a
    file that is linked with the item's file. *)
Theorem C69_exact : forall e s s', env_ok e -> parsing e s -> ~ file_known s [] -> finalize e s = (Ok tt, s') ->
  Forall2 (fun i j => (exists v, j = add_incfrom v i) /\
             forall x, In x (it_incfrom j) <-> In x (it_incfrom i) \/
                       exists k, linked s' k (it_origin i) /\ linked s' k x)
          (st_list s) (st_list s').
Proof. exact C69_lemma. Qed.
Print Assumptions C69_exact.

(** Every file that includes the item's file is in IncludedFrom. *)
Theorem C69_complete : forall e s s' f j, env_ok e -> parsing e s -> ~ file_known s [] ->
  finalize e s = (Ok tt, s') -> In j (st_list s') -> file_known s f -> linked s f (it_origin j) ->
  In f (it_incfrom j).
Proof. exact C69_complete_lemma. Qed.
Print Assumptions C69_complete.

(** But also files that do not: here a file included by nothing but a.bb
    names another file included by a.bb. *)
Theorem C69_refuted : exists e s s' i x, env_ok e /\ parsing e s /\ finalize e s = (Ok tt, s') /\
  In i (st_list s') /\ In x (it_incfrom i) /\ x <> it_origin i /\ forall n, ~ chain s n x (it_origin i).
Proof.
  pose (s := f_add ["a.bb"]).
  exists f_env, s, (f_final ["a.bb"]), (hd no_item (st_list (f_final ["a.bb"]))), "/w/c.inc".
  split; [apply f_env_ok|]. split; [apply f_parsing|]. split; [vm_compute; reflexivity|].
  split; [vm_compute; auto|]. split; [apply (proj1 (mem_str_In _ _)); vm_compute; reflexivity|].
  split; [vm_compute; discriminate|].
  intros n H.
  assert (G : forall n f x, chain s n f x -> In f ["/w/c.inc"; "/w/d.inc"; "/w/e.inc"] ->
              In x ["/w/c.inc"; "/w/d.inc"; "/w/e.inc"]).
  { intros m f x Hc. induction Hc as [f|m f y x Hl _ IH]; intro Hf; [exact Hf|]. apply IH.
    apply linked_links_of in Hl.
    assert (E1 : links_of s "/w/c.inc" = ["/w/d.inc"]) by (vm_compute; reflexivity).
    assert (E2 : links_of s "/w/d.inc" = ["/w/e.inc"]) by (vm_compute; reflexivity).
    assert (E3 : links_of s "/w/e.inc" = []) by (vm_compute; reflexivity).
    destruct Hf as [<-|[<-|[<-|[]]]]; rewrite ?E1, ?E2, ?E3 in Hl.
    - right. left. destruct Hl as [H1|[]]. exact H1.
    - right. right. left. destruct Hl as [H1|[]]. exact H1.
    - destruct Hl. }
  apply G in H; [|now left]. apply (proj2 (mem_str_In _ _)) in H. vm_compute in H. discriminate H.
Qed.
Print Assumptions C69_refuted.

Example C69_case : ~ file_known (f_add ["a.bb"]) [] /\
  map (fun i => (it_origin i, it_incfrom i)) (firstn 1 (st_list (f_final ["a.bb"]))) =
    [("/w/b.inc", ["/w/b.inc"; "/w/c.inc"; "/w/d.inc"; "/w/a.bb"])].
Proof. split; [intros [l H]; vm_compute in H; discriminate H|vm_compute; reflexivity]. Qed.

(** ** C57 *)

(** AddFile extends the fingerprinted text by the texts of exactly the items
    it adds, in order (as parsed; a bbappend may later move their Line). *)
Theorem C57_add : forall n e path off forced s r s', add_file n e path off forced s = (r, s') ->
  exists old new parsed, st_list s' = old ++ new /\ Forall2 only_line_raised (st_list s) old /\
    Forall2 only_line_raised parsed new /\ st_fp s' = st_fp s ++ map (e_repr e) parsed.
Proof. exact C57_add_lemma. Qed.
Print Assumptions C57_add.

(** Append, Remove and Finalize do not change it. *)
Theorem C57_other : forall e s,
  (forall l, st_fp (append_items l s) = st_fp s) /\
  (forall l r s', remove_items l s = (r, s') -> st_fp s' = st_fp s) /\
  (forall r s', finalize e s = (r, s') -> st_fp s' = st_fp s).
Proof. exact C57_other_lemma. Qed.
Print Assumptions C57_other.

Example C57_case :
  st_fp (f_add ["r1.bb"]) = st_fp demo_stash ++ ["K = ""1""" ++ nl; "inherit k" ++ nl] /\
  st_fp (f_final ["r1.bb"]) = st_fp (f_add ["r1.bb"]).
Proof. vm_compute. auto. Qed.
