(** * Property C126: a query for a file shows nothing foreign *)

From Verif Require Import PyStr Regex Patterns PyPath Res Inline Const Item Lines Stash Demo
  StrFacts NameFacts HistFacts ReachFacts Spec_Query Spec_Files Proofs_Files Props_Files
  Spec_Load Spec_Causes Proofs_Causes.

(** Every link was made for a reason: a statement of a file names the next one,
    or a bbappend fits the name. *)
Theorem C126_links : forall e s f x, env_ok e -> filled e s -> linked s f x -> belongs e s f x.
Proof. exact C126_links_lemma. Qed.
Print Assumptions C126_links.

(** The items that GetItemsFor gives for a file are of that file, or of one that
    comes with it. *)
Theorem C126_partial : forall e s q f i, env_ok e -> filled e s -> q_file q = Some f -> f <> [] ->
  In i (get_items_for e s q) -> belongs e s f (it_origin i).
Proof. exact C126_lemma. Qed.
Print Assumptions C126_partial.

(** A recipe with nested includes next to another one with a bbappend. *)
Definition ca_q (f : str) : query := MkQuery (Some f) ANone ANone ANone false.
Notation ca_1 := (add_file 6 f_env "/w/a.bb" 0 None demo_stash).
Notation ca_2 := (add_file 6 f_env "/w/foo_%.bbappend" 0 None (snd ca_1)).
Notation ca_3 := (add_file 6 f_env "/w/foo_1.0.bb" 0 None (snd ca_2)).
Notation ca_4 := (finalize f_env (snd ca_3)).
Lemma ca_filled : filled f_env (snd ca_4).
Proof.
  assert (H1 : ca_1 = (Ok (ok_items ca_1), snd ca_1)) by (vm_compute; reflexivity).
  assert (H2 : ca_2 = (Ok (ok_items ca_2), snd ca_2)) by (vm_compute; reflexivity).
  assert (H3 : ca_3 = (Ok (ok_items ca_3), snd ca_3)) by (vm_compute; reflexivity).
  assert (H4 : ca_4 = (Ok tt, snd ca_4)) by (vm_compute; reflexivity).
  eapply filled_finalize; [|exact H4]. eapply filled_add; [|exact H3]. eapply filled_add; [|exact H2].
  eapply filled_add; [|exact H1]. apply filled_new.
Qed.
Lemma ca_origins : map it_origin (get_items_for f_env (snd ca_4) (ca_q "/w/a.bb")) =
  ["/w/a.bb"; "/w/b.inc"; "/w/c.inc"; "/w/a.bb"; "/w/d.inc"; "/w/a.bb"] /\
  map it_origin (get_items_for f_env (snd ca_4) (ca_q "/w/foo_1.0.bb")) =
  ["/w/foo_1.0.bb"; "/w/foo_1.0.bb"; "/w/foo_%.bbappend"].
Proof. split; vm_compute; reflexivity. Qed.
Lemma ca_shown : forall e s f os, env_ok e -> filled e s -> f <> [] -> map it_origin (get_items_for e s (ca_q f)) = os ->
  forall o, In o os -> belongs e s f o.
Proof.
  intros e s f os He Hs Hf <- o Ho. apply in_map_iff in Ho. destruct Ho as [i [<- Hi]].
  exact (C126_partial e s (ca_q f) f i He Hs eq_refl Hf Hi).
Qed.
Example C126_case : belongs f_env (snd ca_4) "/w/a.bb" "/w/d.inc" /\ belongs f_env (snd ca_4) "/w/foo_1.0.bb" "/w/foo_%.bbappend".
Proof.
  split.
  - exact (ca_shown f_env _ "/w/a.bb" _ f_env_ok ca_filled ltac:(discriminate) (proj1 ca_origins) _ ltac:(cbn; auto 6)).
  - exact (ca_shown f_env _ "/w/foo_1.0.bb" _ f_env_ok ca_filled ltac:(discriminate) (proj2 ca_origins) _ ltac:(cbn; auto 6)).
Qed.

(** Nothing else comes with the recipe: the second recipe does not, though it is
    in the stash, because no statement names it and it is no bbappend. *)
Lemma no_answer : forall x k, endswith ".bbappend" x = false -> ~ answers x k.
Proof.
  intros x k H [n [E _]]. assert (T : endswith ".bbappend" x = true); [|congruence].
  apply endswith_spec. destruct (last_slash x) as [Hs|(d & b & -> & Hb)].
  - unfold basename in E. rewrite rsplit_slash_no in E by exact Hs. exists n. exact E.
  - rewrite basename_app in E by exact Hb. exists (d ++ [cSL] ++ n). now rewrite E, <- !app_assoc.
Qed.
Definition ca_names (i : item) : list str :=
  match it_pay i with PInherit _ _ ps => ps | PInclude _ _ p => [p] | _ => [] end.
Lemma not_with : forall e s bad f, endswith ".bbappend" bad = false -> f <> bad ->
  forallb (fun i => forallb (fun p => negb (str_eqb (abspath (fs_cwd (e_fs e)) p) bad)) (ca_names i)) (st_list s) = true ->
  ~ belongs e s f bad.
Proof.
  intros e s bad f Hb Hf Hn.
  assert (Hall : forall g, ~ cause e s g bad).
  { intros g Hg. inversion Hg as [i p Hi Hp E1 E2|z k Ha E1 E2]; subst; [|revert Ha; now apply no_answer].
    rewrite forallb_forall in Hn. specialize (Hn i Hi). rewrite forallb_forall in Hn.
    assert (Hin : In p (ca_names i)).
    { unfold names_file in Hp. unfold ca_names. destruct (it_pay i); try contradiction; first [exact Hp|destruct Hp as [-> _]; now left]. }
    specialize (Hn p Hin). rewrite str_eqb_refl in Hn. discriminate Hn. }
  intro H. induction H as [f|f y x Hc H IH]; [congruence|].
  destruct (list_eq_dec N.eq_dec y x) as [->|Hy]; [exact (Hall f Hc)|]. now apply IH.
Qed.
Lemma ca_quiet : forallb (fun i => forallb (fun p => negb (str_eqb (abspath (fs_cwd (e_fs f_env)) p) "/w/foo_1.0.bb")) (ca_names i))
  (st_list (snd ca_4)) = true.
Proof. vm_compute. reflexivity. Qed.
Example C126_not : ~ belongs f_env (snd ca_4) "/w/a.bb" "/w/foo_1.0.bb".
Proof. exact (not_with f_env (snd ca_4) "/w/foo_1.0.bb" "/w/a.bb" eq_refl ltac:(discriminate) ca_quiet). Qed.

(** If the bbappend is added first, the begin of the name is enough: the recipe
    gets the items of a bbappend of another recipe. *)
Notation cb_1 := (add_file 6 f_env "/w/bar.bbappend" 0 None demo_stash).
Notation cb_2 := (add_file 6 f_env "/w/barbar.bb" 0 None (snd cb_1)).
Lemma cb_foreign : ~ applies "/w/bar.bbappend" "/w/barbar.bb".
Proof.
  intro H. remember ("/w/bar.bbappend" : str) as x eqn:Ex. remember ("/w/barbar.bb" : str) as k eqn:Ek.
  assert (Hb : forall d n suf, plain n -> ~ In cSL suf -> basename (d ++ "/" ++ n ++ suf) = n ++ suf).
  { intros d n suf [Hp _] Hs. apply (basename_app d). intro Hi. apply in_app_or in Hi. destruct Hi as [Hi|Hi]; [|exact (Hs Hi)].
    apply (proj1 (Hp _ Hi)). vm_compute. tauto. }
  destruct H as [d d' n Hn|d d' n t Hn Ht Hnt]; apply (f_equal basename) in Ex, Ek.
  - rewrite Hb in Ex, Ek by (try exact Hn; vm_compute; intuition discriminate).
    change (n ++ ".bbappend" = "bar" ++ ".bbappend") in Ex. change (n ++ ".bb" = "barbar" ++ ".bb") in Ek.
    apply app_inv_tail in Ex, Ek. rewrite Ex in Ek. discriminate Ek.
  - change (basename (d ++ "/" ++ n ++ "%.bbappend") = "bar.bbappend") in Ex.
    rewrite Hb in Ex by (try exact Hn; vm_compute; intuition discriminate).
    apply (f_equal (@rev N)) in Ex. rewrite rev_app_distr in Ex. vm_compute in Ex. discriminate Ex.
Qed.
Lemma cb_shown : existsb (fun i => str_eqb (it_origin i) "/w/bar.bbappend") (get_items_for f_env (snd cb_2) (ca_q "/w/barbar.bb")) = true.
Proof. vm_compute. reflexivity. Qed.
Lemma cb_filled : filled f_env (snd cb_2).
Proof.
  assert (H1 : cb_1 = (Ok (ok_items cb_1), snd cb_1)) by (vm_compute; reflexivity).
  assert (H2 : cb_2 = (Ok (ok_items cb_2), snd cb_2)) by (vm_compute; reflexivity).
  eapply filled_add; [|exact H2]. eapply filled_add; [|exact H1]. apply filled_new.
Qed.
Lemma cb_silent : forallb (fun i => match ca_names i with [] => true | _ => false end) (st_list (snd cb_2)) = true.
Proof. vm_compute. reflexivity. Qed.
Lemma shown_from : forall e s f x, existsb (fun i => str_eqb (it_origin i) x) (get_items_for e s (ca_q f)) = true ->
  exists i, In i (get_items_for e s (ca_q f)) /\ it_origin i = x.
Proof. intros e s f x H. apply existsb_exists in H. destruct H as [i [Hi E]]. exists i. split; [exact Hi|now apply str_eqb_eq]. Qed.
Lemma silent_none : forall s, forallb (fun i => match ca_names i with [] => true | _ => false end) (st_list s) = true ->
  forall i p, In i (st_list s) -> ~ names_file i p.
Proof.
  intros s H i p Hi Hp. rewrite forallb_forall in H. specialize (H i Hi). unfold ca_names, names_file in *.
  destruct (it_pay i); try contradiction; try discriminate H.
  match type of Hp with In p ?l => destruct l; [destruct Hp|discriminate H] end.
Qed.
Theorem C126_refuted : exists e s f i, env_ok e /\ filled e s /\ In i (get_items_for e s (ca_q f)) /\
  it_origin i <> f /\ (forall j p, In j (st_list s) -> ~ names_file j p) /\ ~ applies (it_origin i) f.
Proof.
  destruct (shown_from _ _ _ _ cb_shown) as [i [Hi E]]. exists f_env, (snd cb_2), "/w/barbar.bb", i.
  split; [exact f_env_ok|]. split; [exact cb_filled|]. split; [exact Hi|]. rewrite E.
  split; [discriminate|]. split; [exact (silent_none _ cb_silent)|exact cb_foreign].
Qed.
Print Assumptions C126_refuted.
