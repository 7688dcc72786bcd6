(** * Facts about the expansion of references *)

From Verif Require Import PyStr Regex Patterns PyPath Res Const Item Lines Stash StrFacts ReFacts LinesFacts NameFacts ExnFacts QueryFacts.
From Coq Require Import Permutation.

(** ** Matches found in a text *)

Lemma mt_grp_ok : forall r s s', mt r s s' -> grp_ok s s'.
Proof.
  intros r s s' H. induction H as [s|p s c t Hr Hp|a b s s1 s2 H1 IH1 H2 IH2|a b s s1 H IH|a b s s1 H IH|g r s
    |g r s s1 s2 H1 IH1 Hl H2 IH2|n r s s1 H IH|s Hb|s Hb|b r s Hb|r s s1 H].
  - apply grp_ok_refl.
  - split; cbn [m_rest m_grp].
    + exists [c]. exact Hr.
    + exists []. split; [reflexivity|]. intros n v [].
  - eapply grp_ok_trans; eassumption.
  - exact IH.
  - exact IH.
  - apply grp_ok_refl.
  - eapply grp_ok_trans; eassumption.
  - destruct IH as [Hs [new [En Gn]]]. split; [exact Hs|]. cbn [m_grp].
    exists ((n, consumed s s1) :: new). split; [now rewrite En|].
    intros n' v [Heq|Hin]; [|now apply (Gn n')]. inversion Heq; subst.
    pose proof (consumed_suffix _ _ Hs) as Hc. exists [], (m_rest s1). exact Hc.
  - apply grp_ok_refl.
  - apply grp_ok_refl.
  - apply grp_ok_refl.
  - apply m_grp_ok in H. destruct H as [s' [H1 H2]]. inversion H2; subst. exact H1.
Qed.

Lemma scan_match : forall r s k b x, In (inr x) (scan r k b s) ->
  exists b' t, suffix_of t s /\ match_at r b' t = Some x.
Proof.
  intros r s. induction s as [|c s IH]; intros k b x H; cbn [scan] in H.
  - destruct k; [|contradiction]. destruct (match_at r b []) as [y|] eqn:E; [|contradiction].
    destruct H as [H|[]]. inversion H; subst. exists b, []. split; [apply suffix_refl|exact E].
  - assert (Hrec : forall k b, In (inr x) (scan r k b s) -> exists b' t, suffix_of t (c :: s) /\ match_at r b' t = Some x).
    { intros k' b0 H0. destruct (IH _ _ _ H0) as [b' [t [Ht E]]]. exists b', t. split; [|exact E].
      destruct Ht as [a ->]. now exists (c :: a). }
    destruct k as [|k]; [|eauto]. destruct (match_at r b (c :: s)) as [y|] eqn:E.
    + destruct (length (g0 y)).
      * destruct H as [H|[H|H]]; [|discriminate|eauto]. inversion H; subst. exists b, (c :: s). split; [apply suffix_refl|exact E].
      * destruct H as [H|H]; [|eauto]. inversion H; subst. exists b, (c :: s). split; [apply suffix_refl|exact E].
    + destruct H as [H|H]; [discriminate|eauto].
Qed.
Lemma finditer_match : forall r s x, In x (re_finditer r s) -> exists b t, suffix_of t s /\ match_at r b t = Some x.
Proof.
  intros r s x H. unfold re_finditer in H. apply in_flat_map in H. destruct H as [y [Hy Hx]].
  destruct y as [c|y]; [contradiction|]. destruct Hx as [<-|[]]. eapply scan_match. exact Hy.
Qed.

(** A pattern that starts with literal text. *)
Lemma lit_start : forall l r b s x, match_at (RSeq (RLit l) r) b s = Some x -> exists t, s = l ++ t.
Proof.
  intros l r b s x H. apply match_at_some in H. destruct H as [s' [H _]]. apply mt_seq_iff in H.
  destruct H as [s1 [H _]]. apply mt_lit_iff in H. destruct H as [t [E _]]. now exists t.
Qed.
Lemma finditer_none : forall l r s, contains l s = false -> re_finditer (RSeq (RLit l) r) s = [].
Proof.
  intros l r s H. destruct (re_finditer (RSeq (RLit l) r) s) as [|x xs] eqn:E; [reflexivity|]. exfalso.
  destruct (finditer_match (RSeq (RLit l) r) s x) as [b [t [Hs Hm]]]; [rewrite E; now left|].
  apply lit_start in Hm. destruct Hm as [u ->]. destruct Hs as [a ->]. rewrite contains_false in H. now apply (H a u).
Qed.

Lemma finditer_read_none : forall s, contains "oe.utils.read_file(" s = false -> re_finditer re_read_file s = [].
Proof.
  intros s H. destruct (re_finditer re_read_file s) as [|x xs] eqn:E; [reflexivity|]. exfalso.
  destruct (finditer_match re_read_file s x) as [b [t [[a Ha] Hm]]]; [rewrite E; now left|].
  apply match_at_some in Hm. destruct Hm as [s' [Hm _]]. unfold re_read_file in Hm. cbn [RCat] in Hm.
  apply mt_seq_iff in Hm. destruct Hm as [s1 [H1 Hm]]. apply mt_seq_iff in Hm. destruct Hm as [s2 [H2 Hm]].
  apply mt_seq_iff in Hm. destruct Hm as [s3 [H3 Hm]]. apply mt_seq_iff in Hm. destruct Hm as [s4 [H4 _]].
  apply mt_lit_iff in H1. destruct H1 as [t1 [E1 ->]]. cbn [m_rest after] in E1. unfold after in H2. cbn [m_rest] in H2.
  apply mt_star_chr_iff in H2. destruct H2 as [u2 [t2 [E2 [_ ->]]]].
  unfold dot_star, RDot in H3. apply mt_star_chr_iff in H3. destruct H3 as [u3 [t3 [E3 [_ ->]]]].
  apply mt_lit_iff in H4. destruct H4 as [t4 [E4 _]]. cbn in E2, E3, E4.
  rewrite contains_false in H. apply (H (a ++ "{@" ++ u2 ++ u3) t4). rewrite Ha, E1.
  rewrite <- !app_assoc. do 2 f_equal. rewrite E2. f_equal. rewrite E3. f_equal. exact E4.
Qed.

(** Patterns without groups capture nothing. *)
Fixpoint no_grp (r : re) : bool :=
  match r with
  | REps | RChr _ | RBol | REol | RLook _ _ => true
  | RSeq a b | RAlt a b => no_grp a && no_grp b
  | RStar _ r => no_grp r
  | RGrp _ _ => false
  | RAtom r => no_grp r
  end.
Lemma no_grp_mt : forall r s s', no_grp r = true -> mt r s s' -> m_grp s' = m_grp s.
Proof.
  intro r. induction r as [|p|a IHa b IHb|a IHa b IHb|g r IH|n r IH| | |b r IH|r IH]; intros s s' Hg H; cbn [no_grp] in Hg.
  - apply mt_eps_iff in H. now subst.
  - apply mt_chr_iff in H. destruct H as [c [t [_ [_ ->]]]]. reflexivity.
  - apply andb_prop in Hg. apply mt_seq_iff in H. destruct H as [s1 [H1 H2]].
    rewrite (IHb s1 s' (proj2 Hg) H2). now apply IHa.
  - apply andb_prop in Hg. apply mt_alt_iff in H. destruct H as [H|H]; [apply IHa|apply IHb]; tauto.
  - remember (RStar g r) as rr eqn:Er. revert Er. induction H as [| | | | |g0 r0 s|g0 r0 s s1 s2 H1 _ Hl H2 IH2| | | | | ]; intro Er; try discriminate.
    + reflexivity.
    + inversion Er; subst. rewrite (IH2 eq_refl). now apply IH.
  - discriminate.
  - apply mt_bol_iff in H. now destruct H as [-> _].
  - apply mt_eol_iff in H. now destruct H as [-> _].
  - inversion H; subst. reflexivity.
  - inversion H as [| | | | | | | | | | |r0 s0 s2 Hs]; subst. apply m_sound in Hs. destruct Hs as [s1 [H1 H2]].
    inversion H2; subst. now apply IH.
Qed.

(** ** References: dollar, brace, name, brace *)

Definition ref (n : str) : str := "${" ++ n ++ "}".

Lemma var_ref_shape : forall b t x, match_at re_var_ref b t = Some x ->
  exists n u, t = ref n ++ u /\ n <> [] /\ g0 x = ref n /\ group_str "1" x = n.
Proof.
  intros b t x H. apply match_at_some in H. destruct H as [s' [H ->]]. unfold re_var_ref, RCat in H.
  apply mt_seq_iff in H. destruct H as [s1 [H1 H]]. apply mt_lit_iff in H1. destruct H1 as [t1 [E1 ->]].
  apply mt_seq_iff in H. destruct H as [s2 [H2 H]]. apply mt_grp_iff in H2. destruct H2 as [s3 [H3 ->]].
  unfold dot_plus_lazy, RPlus in H3. apply mt_seq_iff in H3. destruct H3 as [s4 [H4 H3]].
  apply mt_chr_iff in H4. destruct H4 as [c [t2 [E2 [_ ->]]]]. apply mt_star_chr_iff in H3.
  destruct H3 as [w [t3 [E3 [_ ->]]]]. apply mt_chr_iff in H. destruct H as [d [t4 [E4 [Ed ->]]]].
  cbn [m_rest m_grp m_bol after] in *. unfold oneof, in_chars in Ed. cbn [existsb] in Ed. rewrite orb_false_r in Ed. apply N.eqb_eq in Ed.
  subst d t1 t2 t3 t.
  exists (c :: w), t4. change (m_rest (after false w (125%N :: t4) [])) with (125%N :: t4) in *.
  assert (Er : "${" ++ (c :: w) ++ 125%N :: t4 = ref (c :: w) ++ t4).
  { unfold ref. rewrite <- !app_assoc. reflexivity. }
  split; [exact Er|]. split; [discriminate|]. split.
  - cbn [g0]. change ("${" ++ c :: w ++ 125%N :: t4) with ("${" ++ (c :: w) ++ 125%N :: t4). rewrite Er. now apply consumed_app.
  - unfold group_str, group. cbn [g_all m_grp lookup_group]. change (str_eqb "1" "1") with true. cbv iota.
    change (c :: w ++ 125%N :: t4) with ((c :: w) ++ 125%N :: t4). now apply consumed_app.
Qed.
Lemma var_ref_found : forall s x, In x (re_finditer re_var_ref s) ->
  exists n, n <> [] /\ g0 x = ref n /\ group_str "1" x = n /\ substr_of (ref n) s.
Proof.
  intros s x H. apply finditer_match in H. destruct H as [b [t [[a ->] Hm]]]. apply var_ref_shape in Hm.
  destruct Hm as [n [u [-> [H1 [H2 H3]]]]]. exists n. split; [exact H1|]. split; [exact H2|]. split; [exact H3|].
  now exists a, u.
Qed.

(** d.getVar *)
Lemma var_ref2_contains : forall b t x, match_at re_var_ref2 b t = Some x -> exists a u, t = a ++ "getVar(" ++ u.
Proof.
  intros b t x H. apply match_at_some in H. destruct H as [s' [H _]]. unfold re_var_ref2 in H. cbn [RCat] in H.
  apply mt_seq_iff in H. destruct H as [s1 [H1 H]]. apply mt_chr_iff in H1. destruct H1 as [c [t1 [E1 [_ ->]]]].
  apply mt_seq_iff in H. destruct H as [s2 [H2 H]]. apply mt_chr_iff in H2. destruct H2 as [d [t2 [E2 [_ ->]]]].
  apply mt_seq_iff in H. destruct H as [s3 [H3 _]]. apply mt_lit_iff in H3. destruct H3 as [u [E3 _]].
  cbn [m_rest] in *. subst. now exists [c; d], u.
Qed.
Lemma finditer_ref2_none : forall s, contains "getVar(" s = false -> re_finditer re_var_ref2 s = [].
Proof.
  intros s H. destruct (re_finditer re_var_ref2 s) as [|x xs] eqn:E; [reflexivity|]. exfalso.
  destruct (finditer_match re_var_ref2 s x) as [b [t [Hs Hm]]]; [rewrite E; now left|].
  apply var_ref2_contains in Hm. destruct Hm as [a2 [u ->]]. destruct Hs as [a ->]. rewrite contains_false in H.
  apply (H (a ++ a2) u). now rewrite <- app_assoc.
Qed.

(** read_file arguments are shorter than the text they occur in. *)
Lemma read_file_shorter : forall s x, In x (re_finditer re_read_file s) -> length (group_str "file" x) < length s.
Proof.
  intros s x H. apply finditer_match in H. destruct H as [b [t [[a ->] Hm]]]. apply match_at_some in Hm.
  destruct Hm as [s' [H ->]]. unfold re_read_file in H. cbn [RCat] in H. apply mt_seq_iff in H. destruct H as [s1 [H1 H]].
  apply mt_lit_iff in H1. destruct H1 as [t1 [E1 ->]]. apply mt_grp_ok in H. destruct H as [_ [new [En Gn]]].
  cbn [m_rest m_grp after] in *. subst t. unfold group_str, group. cbn [g_all].
  change (m_grp (after b "{@" t1 [])) with (@nil (str * str)) in En. rewrite app_nil_r in En. rewrite En.
  change (m_rest (after b "{@" t1 [])) with t1 in Gn.
  assert (Hl : forall n v, lookup_group n new = Some v -> length v <= length t1).
  { intros n v Hv. assert (Hi : exists n', In (n', v) new).
    { clear -Hv. induction new as [|[k w] new IH]; [discriminate|]. simpl in Hv. destruct (str_eqb n k).
      - inversion Hv; subst. exists k. now left.
      - destruct (IH Hv) as [n' Hn]. exists n'. now right. }
    destruct Hi as [n' Hi]. apply Gn in Hi. destruct Hi as [p [q ->]]. rewrite !app_length. lia. }
  rewrite !app_length. destruct (lookup_group "file" new) as [v|] eqn:Ev; [|simpl; lia]. apply Hl in Ev. simpl. lia.
Qed.

(** ** Fuel *)

(** An invariant of loops that may raise. *)
Lemma fold_res_inv : forall {A B} (I : A -> Prop) (f : A -> B -> Res.res A) l a,
  I a -> (forall a x, In x l -> I a -> f a x <> NoFuel /\ forall a', f a x = Ok a' -> I a') ->
  fold_res f l a <> NoFuel /\ forall a', fold_res f l a = Ok a' -> I a'.
Proof.
  intros A B I f l. induction l as [|x l IH]; intros a Ha Hf; simpl.
  - split; [discriminate|]. intros a' E. inversion E; subst. exact Ha.
  - destruct (Hf a x (or_introl eq_refl) Ha) as [H1 H2]. destruct (f a x) as [a1|ex|]; simpl.
    + apply IH; [now apply H2|]. intros a2 y Hy. apply Hf. now right.
    + split; [discriminate|]. intros a' E. discriminate.
    + congruence.
Qed.

Definition seen_le (a b : seen_t) : Prop := forall k, dhas k a = true -> dhas k b = true.
Lemma seen_le_refl : forall a, seen_le a a. Proof. intros a k H. exact H. Qed.
Lemma seen_le_trans : forall a b c, seen_le a b -> seen_le b c -> seen_le a c.
Proof. intros a b c H1 H2 k H. auto. Qed.
Lemma seen_le_dset : forall k v a, seen_le a (dset k v a).
Proof.
  intros k v a k2 H. apply dhas_key in H. apply dhas_key. apply dkeys_dset_In. now right.
Qed.

(** Names that can be looked up. *)
Definition exp_names (s : stash) : list str := map var_name (st_list s) ++ map fst (sets_base (st_const s)).
Definition unseen (s : stash) (seen : seen_t) : nat := length (filter (fun n => negb (dhas n seen)) (exp_names s)).

Lemma filter_len : forall {A} (f : A -> bool) l, length (filter f l) <= length l.
Proof. intros A f l. induction l as [|x l IH]; simpl; [lia|]. destruct (f x); simpl; lia. Qed.
Lemma unseen_fuel : forall s, unseen s [] <= expand_fuel s.
Proof.
  intro s. unfold unseen, expand_fuel, exp_names. etransitivity; [apply filter_len|]. now rewrite app_length, !map_length.
Qed.
Lemma unseen_le : forall s a b, seen_le a b -> unseen s b <= unseen s a.
Proof.
  intros s a b H. unfold unseen. induction (exp_names s) as [|n l IH]; simpl; [lia|].
  destruct (dhas n a) eqn:Ea.
  - rewrite (H n Ea). simpl. lia.
  - destruct (dhas n b); simpl; lia.
Qed.
Lemma unseen_lt : forall s a b n, seen_le a b -> In n (exp_names s) -> dhas n a = false -> dhas n b = true ->
  unseen s b < unseen s a.
Proof.
  intros s a b n Hle Hn Ha Hb. unfold unseen. assert (G : forall l, In n l ->
    length (filter (fun n => negb (dhas n b)) l) < length (filter (fun n => negb (dhas n a)) l)).
  { induction l as [|x l IH]; intro Hi; [contradiction|].
    assert (Hl : forall l, length (filter (fun n => negb (dhas n b)) l) <= length (filter (fun n => negb (dhas n a)) l)).
    { clear -Hle. induction l as [|y l IH]; simpl; [lia|]. destruct (dhas y a) eqn:Ea.
      - rewrite (Hle y Ea). simpl. exact IH.
      - destruct (dhas y b); simpl; lia. }
    simpl. destruct Hi as [->|Hi].
    - rewrite Ha, Hb. simpl. specialize (Hl l). lia.
    - specialize (IH Hi). destruct (dhas x a) eqn:Ea.
      + rewrite (Hle x Ea). simpl. exact IH.
      + destruct (dhas x b); simpl; lia. }
  now apply G.
Qed.

Lemma dhas_dget : forall {A} k (d : list (str * A)), dhas k d = match dget k d with Some _ => true | None => false end.
Proof. reflexivity. Qed.

Lemma dedup_items_sub : forall l i, In i (dedup_items l) -> In i l.
Proof.
  induction l as [|x l IH]; intros i H; simpl in H; [contradiction|]. destruct H as [->|H]; [now left|].
  apply filter_In in H. right. now apply IH.
Qed.
Lemma reduce_sub : forall e s l q i, env_ok e -> In i (reduce_ e s l q) -> In i l /\ sel (st_map s) q i = true.
Proof.
  intros e s l q i He H. rewrite reduce_eq in H. apply filter_In. apply dedup_items_sub.
  eapply Permutation_in; [|exact H]. rewrite sort_items_perm. apply He.
Qed.

(** Variables of a name. *)
Definition is_var (n : str) (i : item) : Prop := exists sub subs v op rawn, it_pay i = PVariable n sub subs v op rawn.
Lemma is_var_name : forall n i, is_var n i -> var_name i = n.
Proof. intros n i [sub [subs [v [op [rawn E]]]]]. unfold var_name. now rewrite E. Qed.

Lemma sel_vars : forall mp file n i, n <> [] ->
  sel mp (MkQuery (Some file) (AOne "Variable") (AOne "VarName") (AOne (VStr n)) false) i = true <->
  (file = [] \/ is_linked_to mp (it_origin i) file false = true) /\ is_var n i.
Proof.
  intros mp file n i Hn. unfold sel, sel_file, sel_class, sel_attr. cbn [q_file q_class q_attr q_val q_nolink norm_arg].
  change (nonempty "Variable") with true. change (nonempty "VarName") with true.
  assert (Ev : (if pyval_true (VStr n) then [VStr n] else []) = [VStr n]) by (destruct n; [congruence|reflexivity]).
  rewrite Ev. rewrite !andb_true_iff.
  assert (Hf : (match file with [] => true | _ => is_linked_to mp (it_origin i) file false end) = true <->
               file = [] \/ is_linked_to mp (it_origin i) file false = true).
  { destruct file; [tauto|]. split; [auto|]. intros [H|H]; [discriminate|exact H]. }
  cbv beta iota zeta. split.
  - intros [[H1 H2] H3]. split; [now apply Hf|].
    unfold attr_filter in H3. cbn [existsb] in H3. rewrite orb_false_r in H3. unfold is_var.
    unfold classifier, mem_str in H2. cbn [existsb] in H2. rewrite orb_false_r in H2. apply str_eqb_eq in H2.
    unfold attributes in H3.
    destruct (it_pay i) as [|nm sub subs v op rawn| | | | | | | | | | | | | | | ] eqn:Ep; try discriminate H2.
    replace (dget "VarName" _) with (Some (VStr nm)) in H3 by reflexivity. rewrite orb_false_r in H3.
    apply pyval_eqb_sym_str in H3. inversion H3; subst. repeat eexists.
  - intros [H1 [sub [subs [v [op [rawn E]]]]]]. split; [split; [now apply Hf|]|].
    + unfold classifier. rewrite E. reflexivity.
    + unfold attr_filter, attributes. rewrite E. cbn [existsb].
      replace (dget "VarName" _) with (Some (VStr n)) by reflexivity. rewrite !orb_false_r. now apply pyval_eqb_sym_str.
Qed.

Lemma vars_sub : forall e s file n i, env_ok e -> n <> [] -> In i (vars_named e s file n) -> In i (st_list s) /\ is_var n i.
Proof.
  intros e s file n i He Hn H. unfold vars_named, get_items_for in H. apply reduce_sub in H; [|exact He].
  destruct H as [H1 H2]. apply sel_vars in H2; [|exact Hn]. tauto.
Qed.
Lemma first_definition_in : forall e s file n d, env_ok e -> n <> [] -> first_definition e s file n = Some d ->
  In d (st_list s) /\ var_name d = n.
Proof.
  intros e s file n d He Hn H. unfold first_definition in H.
  destruct (filter _ (vars_named e s file n)) as [|x l] eqn:E; [discriminate|]. inversion H; subst x.
  assert (Hi : In d (vars_named e s file n)).
  { assert (Hd : In d (d :: l)) by now left. rewrite <- E in Hd. apply filter_In in Hd. apply Hd. }
  apply vars_sub in Hi; [|exact He|exact Hn]. destruct Hi as [H1 H2]. split; [exact H1|now apply is_var_name].
Qed.

(** The text a name stands for, before the built-in names (cls_stash.py:755-779). *)
Definition content_of (e : env) (s : stash) (file n : str) : option str :=
  match first_definition e s file n with
  | Some d => Some (var_content d)
  | None => dget n (sets_base (st_const s))
  end.
Lemma expand_one_eq : forall e s file rec spare quote res seen mt,
  let n := group_str "1" mt in
  expand_one e s file rec spare quote (res, seen) mt =
  if mem_str n spare then Ok (res, seen)
  else match content_of e s file n with
       | Some c => match dget n seen with
                   | Some r => Ok (replace (g0 mt) r res, seen)
                   | None => do y <- rec c (dset n [] seen); Ok (replace (g0 mt) (fst y) res, dset n (fst y) (snd y))
                   end
       | None => match builtin_value file n quote with
                 | Some v => Ok (replace (g0 mt) v res, seen)
                 | None => Ok (res, seen)
                 end
       end.
Proof.
  intros e s file rec spare quote res seen mt n. unfold expand_one, content_of. fold n.
  destruct (mem_str n spare); [reflexivity|]. destruct (first_definition e s file n); [reflexivity|].
  destruct (dget n (sets_base (st_const s))); reflexivity.
Qed.
Lemma content_name : forall e s file n c, env_ok e -> n <> [] -> content_of e s file n = Some c -> In n (exp_names s).
Proof.
  intros e s file n c He Hn H. unfold content_of in H. unfold exp_names. apply in_or_app.
  destruct (first_definition e s file n) as [d|] eqn:E.
  - left. apply first_definition_in in E; [|exact He|exact Hn]. destruct E as [H1 <-]. now apply in_map.
  - right. change (In n (dkeys (sets_base (st_const s)))). eapply dget_Some_key. exact H.
Qed.

(** Names of references are not empty. *)
Lemma ref2_name : forall s x, In x (re_finditer re_var_ref2 s) -> group_str "1" x <> [].
Proof.
  intros s x H. apply finditer_match in H. destruct H as [b [t [_ Hm]]]. apply match_at_some in Hm.
  destruct Hm as [s' [H ->]]. unfold re_var_ref2 in H. cbn [RCat] in H.
  apply mt_seq_iff in H. destruct H as [s1 [_ H]]. apply mt_seq_iff in H. destruct H as [s2 [_ H]].
  apply mt_seq_iff in H. destruct H as [s3 [_ H]]. apply mt_seq_iff in H. destruct H as [s4 [_ H]].
  apply mt_seq_iff in H. destruct H as [s5 [H5 H]].
  apply mt_grp_iff in H5. destruct H5 as [s6 [H6 ->]]. unfold dot_plus_lazy, RPlus in H6. apply mt_seq_iff in H6.
  destruct H6 as [s7 [H7 H6]]. apply mt_chr_iff in H7. destruct H7 as [c [t2 [E2 [_ ->]]]].
  apply mt_star_chr_iff in H6. destruct H6 as [w [t3 [E3 [_ ->]]]]. cbn [m_rest m_grp m_bol] in *.
  apply mt_seq_iff in H. destruct H as [s8 [H8 H]]. apply mt_chr_iff in H8. destruct H8 as [d [t4 [_ [_ ->]]]].
  apply mt_seq_iff in H. destruct H as [s9 [H9 H]]. apply mt_chr_iff in H. destruct H as [d2 [t5 [_ [_ ->]]]].
  assert (Hk : forall r s1 s2, no_grp r = true -> mt r s1 s2 -> m_grp s2 = m_grp s1) by apply no_grp_mt.
  apply Hk in H9; [|reflexivity]. unfold group_str, group. cbn [g_all m_grp] in *. rewrite H9. cbn [lookup_group m_grp].
  change (str_eqb "1" "1") with true. cbv iota. unfold consumed. rewrite E2. subst t2.
  change (m_rest (after false w t3 (m_grp s4))) with t3.
  cbn [length]. rewrite app_length. replace (S (length w + length t3) - length t3) with (S (length w)) by lia. discriminate.
Qed.

(** *** Expansion ends *)

Lemma expand_total : forall e s file, env_ok e -> forall vf lf spare (value : str) (seen : seen_t),
  unseen s seen <= vf -> length value <= lf ->
  expand_f vf e s file lf spare value seen <> NoFuel /\
  forall v sn, expand_f vf e s file lf spare value seen = Ok (v, sn) -> seen_le seen sn.
Proof.
  intros e s file He vf. induction vf as [vf IHv] using lt_wf_ind. intros lf. induction lf as [lf IHl] using lt_wf_ind.
  intros spare value seen Hu Hl. rewrite expand_f_eq.
  set (rec_var := fun (cnt : str) (sn : seen_t) => match vf with O => NoFuel | S vf' => expand_f vf' e s file (length cnt) [] cnt sn end).
  assert (Hone : forall quote mt x, group_str "1" mt <> [] -> seen_le seen (snd x) ->
     expand_one e s file rec_var spare quote x mt <> NoFuel /\
     forall y, expand_one e s file rec_var spare quote x mt = Ok y -> seen_le seen (snd y)).
  { intros quote mt [res sn] Hn Hs. simpl in Hs. rewrite expand_one_eq. cbv zeta.
    destruct (mem_str _ spare).
    - split; [discriminate|]. intros y E. inversion E; subst. exact Hs.
    - destruct (content_of e s file (group_str "1" mt)) as [c|] eqn:Ec.
      + destruct (dget (group_str "1" mt) sn) as [r|] eqn:Es.
        * split; [discriminate|]. intros y E. inversion E; subst. exact Hs.
        * set (sn' := dset (group_str "1" mt) [] sn).
          assert (Hlt : unseen s sn' < unseen s seen).
          { apply (Nat.lt_le_trans _ (unseen s sn)); [|now apply unseen_le].
            apply unseen_lt with (n := group_str "1" mt).
            - apply seen_le_dset.
            - eapply content_name; eassumption.
            - unfold dhas. now rewrite Es.
            - unfold dhas, sn'. now rewrite dget_dset_same. }
          unfold rec_var. destruct vf as [|vf]; [lia|].
          destruct (IHv vf (Nat.lt_succ_diag_r vf) (length c) [] c sn') as [H1 H2]; [lia|lia|].
          destruct (expand_f vf e s file (length c) [] c sn') as [[v2 sn2]|ex|] eqn:Ex; cbn [bind].
          -- split; [discriminate|]. intros y E. inversion E; subst. cbn [snd fst].
             eapply seen_le_trans; [exact Hs|]. eapply seen_le_trans; [apply seen_le_dset|].
             eapply seen_le_trans; [eapply H2; reflexivity|]. apply seen_le_dset.
          -- split; [discriminate|]. intros y E. discriminate.
          -- congruence.
      + destruct (builtin_value file _ quote); (split; [discriminate|]; intros y E; inversion E; subst; exact Hs). }
  assert (H1 := fold_res_inv (fun x => seen_le seen (snd x)) (expand_one e s file rec_var spare [])
                  (re_finditer re_var_ref value) (value, seen) (seen_le_refl seen)).
  destruct H1 as [H1 H1']; [intros x mt Hm Hx; apply Hone; [|exact Hx]|].
  { apply var_ref_found in Hm. destruct Hm as [n [Hn [_ [-> _]]]]. exact Hn. }
  destruct (fold_res (expand_one e s file rec_var spare []) (re_finditer re_var_ref value) (value, seen)) as [x1|ex|]; cbn [bind];
    [|split; [discriminate|intros ? ? E; discriminate E]|congruence]. specialize (H1' x1 eq_refl).
  assert (H2 := fold_res_inv (fun x => seen_le seen (snd x)) (expand_one e s file rec_var spare [cDQ])
                  (re_finditer re_var_ref2 value) x1 H1').
  destruct H2 as [H2 H2']; [intros x mt Hm Hx; apply Hone; [|exact Hx]|].
  { eapply ref2_name. exact Hm. }
  destruct (fold_res (expand_one e s file rec_var spare [cDQ]) (re_finditer re_var_ref2 value) x1) as [x2|ex|]; cbn [bind];
    [|split; [discriminate|intros ? ? E; discriminate E]|congruence]. specialize (H2' x2 eq_refl).
  destruct (fold_res_inv (fun x => seen_le seen (snd x))
     (read_file_one (e_fs e) (fun v sn => match lf with O => NoFuel | S lf' => expand_f vf e s file lf' spare v sn end))
     (re_finditer re_read_file value) x2 H2') as [H3 H3'].
  { intros [res sn] mt Hm Hx. simpl in Hx. apply read_file_shorter in Hm. destruct lf as [|lf]; [lia|].
    unfold read_file_one. destruct (IHl lf (Nat.lt_succ_diag_r lf) spare (group_str "file" mt) sn) as [I1 I2].
    - pose proof (unseen_le s _ _ Hx). lia.
    - lia.
    - destruct (expand_f vf e s file lf spare (group_str "file" mt) sn) as [[v2 sn2]|ex|]; cbn [bind];
        [|split; [discriminate|intros ? E; discriminate E]|congruence]. specialize (I2 v2 sn2 eq_refl).
      assert (Hsn : seen_le seen (match sn with [] => [] | _ => sn2 end)).
      { destruct sn as [|kv sn]; [exact Hx|]. eapply seen_le_trans; [exact Hx|exact I2]. }
      cbn [fst snd]. destruct (fs_read _ _); (split; [discriminate|intros y E; inversion E; subst; exact Hsn]). }
  split; [exact H3|]. intros v sn E. apply (H3' (v, sn)). exact E.
Qed.
