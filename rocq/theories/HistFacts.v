(** * Relations between the stash before and after AddFile *)

From Verif Require Import PyStr Regex Patterns PyPath Res Inline Const Item Lines Stash
  StrFacts ReFacts LinesFacts ParseFacts.

(** The part of AddFile before and after parsing (cls_stash.py:170-180 and
    186-229). *)
Definition enter (file : str) (s : stash) : stash :=
  with_seen (add_set file (st_seen s))
            (if str_eqb (snd (splitext file)) ".bbclass" then add_set file (st_seenc s) else st_seenc s) s.
Definition leave (e : env) (file : str) (forced : option str) (items : list item) : M (list item) :=
  dom _ <- (fun s => (Ok tt, with_map (link_file file forced (st_map s)) s));
  dom items <- match_appends file items;
  dom _ <- add_distro_machine e file;
  dom _ <- (fun s => (Ok tt, with_fp (st_fp s ++ map (e_repr e) items)
                                     (with_list (st_list s ++ items) s)));
  ret items.

Lemma add_file_eq : forall n e path off forced s,
  add_file (S n) e path off forced s =
  let file := abspath (fs_cwd (e_fs e)) path in
  if skipped e path s then (Ok [], s)
  else (dom items <- get_items e (fun p o f => add_file n e p o (Some f)) file off;
        leave e file forced items) (enter file s).
Proof.
  intros n e path off forced s. cbn [add_file]. unfold skipped. cbv zeta.
  destruct (mem_str _ (st_seen s) && negb _); [reflexivity|]. simpl orb.
  destruct (mem_str _ (st_seenc s)); reflexivity.
Qed.

Lemma parsed_origin : forall file off cs inc new l, parsed file off inc new cs l ->
  Forall (fun i => it_origin i = file) l.
Proof.
  intros file off cs. induction cs as [|c cs IH]; intros inc new [|i l] H; simpl in H; try contradiction;
    constructor.
  - intuition.
  - destruct H as [_ [_ [_ [_ [_ [_ [_ [_ [d [_ H]]]]]]]]]]. eapply IH. exact H.
Qed.

Lemma add_file_addf_ok : forall n e, addf_ok (fun p o f => add_file n e p o (Some f)).
Proof.
  intros n e p o f s0 l0 s0' E. apply add_file_inv in E. destruct (skipped e p s0).
  - destruct E as [-> _]. constructor.
  - destruct E as [cs [l1 [mx [_ [Hc [Hp [-> _]]]]]]].
    apply (parsed_infile _ _ _ _ _ _ _ Hc) in Hp. unfold infile_pos in *. rewrite Forall_map.
    eapply Forall_impl; [|exact Hp]. intros i Hi. exact Hi.
Qed.

Section Rel.

(** [G p s s']: the state went from [s] to [s'], with the items [p] created
    but not stored. *)
Variable e : env.
Variable G : list item -> stash -> stash -> Prop.
Hypothesis G_refl : forall s, G [] s s.
Hypothesis G_trans : forall p q s1 s2 s3, G p s1 s2 -> G q s2 s3 -> G (p ++ q) s1 s3.
Hypothesis G_drop : forall p s s', G p s s' -> G [] s s'.
Hypothesis G_new : forall s i, it_id i = st_next s -> it_incfrom i = [] ->
  G [i] s (with_next (S (st_next s)) s).
Hypothesis G_enter : forall s path, skipped e path s = false ->
  G [] s (enter (abspath (fs_cwd (e_fs e)) path) s).
Hypothesis G_leave : forall s0 s1 path forced items r s',
  let file := abspath (fs_cwd (e_fs e)) path in
  Forall (fun i => it_origin i = file) items -> skipped e path s0 = false ->
  G items (enter file s0) s1 -> leave e file forced items s1 = (r, s') -> G [] s0 s'.

Definition pend {A} (P : A -> list item) (r : Res.res A) : list item :=
  match r with Ok a => P a | _ => [] end.
Definition rel {A} (x : M A) (P : A -> list item) : Prop :=
  forall s r s', x s = (r, s') -> G (pend P r) s s'.
Definition none {A} : A -> list item := fun _ => [].

Lemma rel_ret : forall A (a : A) P, P a = [] -> rel (ret a) P.
Proof. intros A a P H s r s' E. inversion E; subst. simpl. rewrite H. apply G_refl. Qed.
Lemma rel_lift : forall A (f : stash -> Res.res A), rel (liftR f) none.
Proof.
  intros A f s r s' E. unfold liftR in E. inversion E; subst. destruct (f s'); apply G_refl.
Qed.
Lemma rel_bind : forall A B (x : M A) (f : A -> M B) P,
  rel x none -> (forall a, rel (f a) P) -> rel (bindM x f) P.
Proof.
  intros A B x f P Hx Hf s r s' E. unfold bindM in E.
  destruct (x s) as [[a|ex|] s1] eqn:Ex; apply Hx in Ex; simpl in Ex.
  - apply Hf in E. exact (G_trans [] _ _ _ _ Ex E).
  - inversion E; subst. exact Ex.
  - inversion E; subst. exact Ex.
Qed.
Lemma rel_find : forall n d, rel (find_m e n d) none.
Proof.
  intros n d s r s' E. unfold find_m in E. destruct (find_local_or_layer _ _ _ _); inversion E; subst;
  apply G_refl.
Qed.
Lemma rel_find_class : forall locs i d, rel (find_class e locs i d) none.
Proof.
  intros locs i d. induction locs as [|l locs IH]; simpl; [now apply rel_ret|].
  apply rel_bind; [apply rel_find|]. intros [|c p]; [exact IH|now apply rel_ret].
Qed.

Definition rel_addf (addf : addfile_t) : Prop := forall p o f, rel (addf p o f) none.

Lemma rel_inherit : forall addf locs file inhname line l paths off, rel_addf addf ->
  rel (inherit_loop e addf locs file inhname line l paths off) none.
Proof.
  intros addf locs file inhname line l. induction l as [|x l IH]; intros paths off Ha; simpl.
  - now apply rel_ret.
  - apply rel_bind; [apply rel_find_class|]. intros [|c p]; [now apply IH|].
    apply rel_bind; [apply rel_lift|]. intros [|]; [now apply IH|].
    apply rel_bind; [apply Ha|]. intro tmp. now apply IH.
Qed.

Lemma rel_new : forall B mk (g : item -> B) (P : B -> list item),
  (forall n, it_id (mk n) = n) -> (forall n, it_incfrom (mk n) = []) -> (forall i, P (g i) = [i]) ->
  rel (dom i <- new_item mk; ret (g i)) P.
Proof.
  intros B mk g P Hid Hf HP s r s' E. unfold new_item, fresh, bindM, ret in E. inversion E; subst.
  simpl. rewrite HP. apply G_new; [apply Hid|apply Hf].
Qed.

Definition param_ok (p : nat -> iparam) : Prop := forall n, ip_id (p n) = n.
Definition opt_item (o : option (item * Z)) : list item :=
  match o with Some (i, _) => [i] | None => [] end.

Lemma rel_handle : forall addf p file line k mt, rel_addf addf -> param_ok p ->
  rel (handle e addf p file line k mt) opt_item.
Proof.
  intros addf p file line k mt Ha Hp.
  assert (Hd : forall mk, (forall q, it_id (mk q) = ip_id q) -> (forall q, it_incfrom (mk q) = []) ->
                 rel (dom i <- new_item (fun n => mk (p n)); ret (Some (i, 0%Z))) opt_item).
  { intros mk Hid Hf. apply (rel_new _ (fun n => mk (p n)) (fun i => Some (i, 0%Z))); try reflexivity.
    - intro n. rewrite Hid. apply Hp.
    - intro n. apply Hf. }
  assert (Hpl : forall pay, rel (dom i <- new_item (fun n => mk_item (p n) (ip_new (p n)) pay);
                                 ret (Some (i, 0%Z))) opt_item).
  { intro pay. apply (Hd (fun q => mk_item q (ip_new q) pay)); reflexivity. }
  assert (Hinh : forall locs a st, rel
      (dom inhname <- liftR (fun s => expand_term e s file a);
       dom r <- inherit_loop e addf locs file inhname line (keep_nonempty (split_char cSP inhname)) [] 0%Z;
       dom i <- new_item (fun n => mk_item (p n) (ip_new (p n)) (PInherit a st (fst r)));
       ret (Some (i, snd r))) opt_item).
  { intros locs a st. apply rel_bind; [apply rel_lift|]. intro inhname.
    apply rel_bind; [now apply rel_inherit|]. intro r.
    apply (rel_new _ (fun n => mk_item (p n) (ip_new (p n)) (PInherit a st (fst r)))
                     (fun i => Some (i, snd r))); try reflexivity. intro n. apply Hp. }
  destruct k; unfold handle; try apply Hpl; try apply Hinh.
  - apply rel_bind; [apply rel_lift|]. intro known.
    apply (Hd (fun q => mk_function known q (group "func" mt) (group_str "funcbody" mt)
                                 (matched (group "py" mt)) (matched (group "fr" mt)))); intro q;
      unfold mk_function; destruct (extract_sub_func _ _ _) as [[a b] c]; reflexivity.
  - apply rel_bind; [apply rel_lift|]. intro inc. apply rel_bind; [apply rel_find|]. intro path.
    assert (Hfin : forall off : Z, rel
       (dom i <- new_item (fun n => mk_item (p n) (ip_new (p n))
                   (PInclude (group_str "incname" mt) (group_str "statement" mt) path));
        ret (Some (i, off))) opt_item).
    { intro off. apply (rel_new _ (fun n => mk_item (p n) (ip_new (p n))
                   (PInclude (group_str "incname" mt) (group_str "statement" mt) path))
                   (fun i => Some (i, off))); try reflexivity. intro n. apply Hp. }
    destruct path as [|c path]; [apply Hfin|].
    apply rel_bind; [apply rel_lift|]. intros [|]; [now apply rel_ret|].
    apply rel_bind; [apply Ha|]. intro tmp. apply Hfin.
  - destruct (existsb _ pkg_prefixes); [now apply rel_ret|].
    apply (Hd (fun q => mk_taskadd q (group_str "func" mt) (group_str "before" mt)
                                     (group_str "after" mt) (group_str "comment" mt))); reflexivity.
  - apply (Hd (fun q => mk_variable q (group_str "varname" mt) (group_str "varval" mt)
                                        (group_str "varop" mt))); intro q;
      unfold mk_variable; destruct (extract_sub _ _) as [[a b] c]; reflexivity.
Qed.

Lemma rel_try : forall addf p file line cnt l, rel_addf addf -> param_ok p ->
  rel (try_kinds e addf p file line cnt l) (fun x => [fst x]).
Proof.
  intros addf p file line cnt l Ha Hp. induction l as [|[k r] l IH]; cbn [try_kinds].
  - apply (rel_new _ (fun n => mk_item (p n) (ip_new (p n)) PItem) (fun i => (i, 0%Z))); try reflexivity.
    intro n. apply Hp.
  - destruct (re_match r cnt) as [mt|]; [|exact IH].
    intros s x s' E. unfold bindM in E.
    destruct (handle e addf p file line k mt s) as [[o|ex|] s1] eqn:Eh; apply rel_handle in Eh; auto.
    + destruct o as [[i z]|].
      * inversion E; subst. exact Eh.
      * apply IH in E. exact (G_trans [] _ _ _ _ Eh E).
    + inversion E; subst. exact Eh.
    + inversion E; subst. exact Eh.
Qed.

Lemma rel_chunks : forall addf file off cs inc new, rel_addf addf ->
  rel (parse_chunks e addf file off inc new cs) (fun l => l).
Proof.
  intros addf file off cs. induction cs as [|c cs IH]; intros inc new Ha; cbn [parse_chunks].
  - now apply rel_ret.
  - intros s r s' E. unfold bindM at 1 in E.
    destruct (try_kinds _ _ _ _ _ _ _ s) as [[x|ex|] s1] eqn:Et; apply rel_try in Et;
      try (intro n; reflexivity); try exact Ha.
    + unfold bindM, ret in E.
      destruct (parse_chunks _ _ _ _ _ _ _ s1) as [[l|ex|] s2] eqn:Ec; apply IH in Ec; try exact Ha;
        inversion E; subst; simpl in *.
      * exact (G_trans _ _ _ _ _ Et Ec).
      * apply G_drop in Et. exact (G_trans [] _ _ _ _ Et Ec).
      * apply G_drop in Et. exact (G_trans [] _ _ _ _ Et Ec).
    + inversion E; subst. exact Et.
    + inversion E; subst. exact Et.
Qed.

Lemma rel_add_file : forall n path off forced, rel (add_file n e path off forced) none.
Proof.
  induction n as [|n IH]; intros path off forced s r s' E.
  - inversion E; subst. apply G_refl.
  - rewrite add_file_eq in E. cbv zeta in E.
    destruct (skipped e path s) eqn:Es; [inversion E; subst; apply G_refl|].
    set (file := abspath (fs_cwd (e_fs e)) path) in *. unfold bindM in E.
    assert (Hp : pend none r = []) by (destruct r; reflexivity). rewrite Hp. clear Hp.
    destruct (get_items e _ file off (enter file s)) as [[items|ex|] s1] eqn:Eg.
    + pose proof Eg as Eg2. apply get_items_sat in Eg2; [|apply add_file_addf_ok].
      destruct Eg2 as [cs [_ Hps]]. apply parsed_origin in Hps.
      assert (HG : G items (enter file s) s1).
      { unfold get_items, bindM, liftR in Eg. destruct (prepare_file _ _ _ _) as [cs'|ex|]; try discriminate.
        apply rel_chunks in Eg; [exact Eg|]. intros p o f. apply IH. }
      eapply G_leave; eassumption.
    + inversion E; subst. apply (G_trans [] [] _ (enter file s) _ (G_enter _ _ Es)).
      unfold get_items, bindM, liftR in Eg. destruct (prepare_file _ _ _ _) as [cs'|ex'|].
      * apply rel_chunks in Eg; [exact Eg|]. intros p o f. apply IH.
      * inversion Eg; subst. apply G_refl.
      * inversion Eg; subst.
    + inversion E; subst. apply (G_trans [] [] _ (enter file s) _ (G_enter _ _ Es)).
      unfold get_items, bindM, liftR in Eg. destruct (prepare_file _ _ _ _) as [cs'|ex'|].
      * apply rel_chunks in Eg; [exact Eg|]. intros p o f. apply IH.
      * inversion Eg.
      * inversion Eg; subst. apply G_refl.
Qed.

Lemma rel_get_items : forall n file off,
  rel (get_items e (fun p o f => add_file n e p o (Some f)) file off) (fun l => l).
Proof.
  intros n file off s r s' E. unfold get_items, bindM, liftR in E.
  destruct (prepare_file _ _ _ _) as [cs|ex|].
  - apply rel_chunks in E; [exact E|]. intros p o f. apply rel_add_file.
  - inversion E; subst. apply G_refl.
  - inversion E; subst. apply G_refl.
Qed.

End Rel.

(** ** Existing items are kept *)

Definition raises (f : item -> item) : Prop := forall i,
  f i = set_line (it_line (f i)) i /\ (it_line i <= it_line (f i))%Z /\
  (endswith ".bbappend" (it_origin i) = false -> f i = i).

Lemma set_line_same : forall i, set_line (it_line i) i = i.
Proof. now intros []. Qed.

Lemma raises_id : raises (fun i => i).
Proof. intro i. rewrite set_line_same. repeat split. lia. Qed.
Lemma raises_comp : forall f g, raises f -> raises g -> raises (fun i => g (f i)).
Proof.
  intros f g Hf Hg i. destruct (Hf i) as [F1 [F2 F3]]. destruct (Hg (f i)) as [G1 [G2 G3]].
  repeat split.
  - rewrite G1 at 1. rewrite F1 at 2. reflexivity.
  - lia.
  - intro H. rewrite G3; [now apply F3|]. rewrite F1. exact H.
Qed.
Lemma raises_it_id : forall f i, raises f -> it_id (f i) = it_id i.
Proof. intros f i Hf. destruct (Hf i) as [-> _]. reflexivity. Qed.
Lemma raises_it_origin : forall f i, raises f -> it_origin (f i) = it_origin i.
Proof. intros f i Hf. destruct (Hf i) as [-> _]. reflexivity. Qed.
Lemma map_ids : forall f l, raises f -> map it_id (map f l) = map it_id l.
Proof. intros f l Hf. rewrite map_map. apply map_ext. intro i. now apply raises_it_id. Qed.

(** What happens to an item when the recipe [file] is added
    (cls_stash.py:209-217). *)
Definition recipe_raise (bn : str) (mx : Z) (i : item) : item :=
  if endswith ".bbappend" (it_origin i) then
    match dyn_pattern (recipe_pattern (it_origin i)) with
    | Some rx => if matched (re_match rx bn) then set_line (Z.max (it_line i) (it_infile i + mx)) i else i
    | None => i
    end
  else i.

Lemma recipe_raise_raises : forall bn mx, raises (recipe_raise bn mx).
Proof.
  intros bn mx i. unfold recipe_raise. destruct (endswith ".bbappend" (it_origin i)) eqn:E.
  - destruct (dyn_pattern _); [destruct (matched _)|]; simpl; rewrite ?set_line_same;
      repeat split; try lia; congruence.
  - rewrite set_line_same. repeat split. lia.
Qed.

Lemma link_recipe_list : forall file bn mx l mp l' mp',
  link_recipe file bn mx l mp = Ok (l', mp') -> l' = map (recipe_raise bn mx) l.
Proof.
  intros file bn mx l. induction l as [|i l IH]; intros mp l' mp' H; cbn [link_recipe] in H.
  - inversion H; subst. reflexivity.
  - simpl. unfold recipe_raise at 1.
    destruct (endswith ".bbappend" (it_origin i)).
    + destruct (dyn_pattern _) as [rx|]; [|discriminate].
      destruct (matched _); destruct (link_recipe _ _ _ l _) as [[l1 m1]|ex|] eqn:E; simpl in H;
        try discriminate; inversion H; subst; now rewrite (IH _ _ _ E).
    + destruct (link_recipe _ _ _ l _) as [[l1 m1]|ex|] eqn:E; simpl in H;
        try discriminate; inversion H; subst; now rewrite (IH _ _ _ E).
Qed.

(** The three outcomes of the matching of appends. *)
Lemma match_appends_cases : forall file items s r s',
  match_appends file items s = (r, s') ->
  exists f mp, raises f /\ s' = with_map mp (with_list (map f (st_list s)) s) /\
    (forall l, r = Ok l -> exists mx, l = map (fun i => set_line (it_line i + mx) i) items).
Proof.
  intros file items s r s' H. unfold match_appends in H.
  assert (Hs : with_map (st_map s) (with_list (map (fun i => i) (st_list s)) s) = s)
    by (rewrite map_id; now destruct s).
  assert (Hid : forall l, Ok items = Ok l -> exists mx, l = map (fun i => set_line (it_line i + mx) i) items).
  { intros l E. inversion E; subst. exists 0%Z. rewrite <- map_id at 1. apply map_ext. intro i.
    rewrite Z.add_0_r. symmetry. apply set_line_same. }
  destruct (endswith ".bbappend" file).
  - destruct (dyn_pattern (append_pattern file)) as [rx|].
    + destruct (fold_left _ (dkeys (st_map s)) (st_map s, 0%Z)) as [mp mx]. inversion H; subst.
      exists (fun i => i), mp. split; [apply raises_id|]. split; [rewrite map_id; now destruct s|].
      intros l E. inversion E; subst. now exists mx.
    + inversion H; subst. exists (fun i => i), (st_map s'). split; [apply raises_id|].
      split; [now rewrite Hs|]. intros l E. discriminate.
  - destruct (endswith ".bb" file).
    + destruct (link_recipe _ _ _ _ _) as [[l0 mp]|ex|] eqn:E; inversion H; subst.
      * apply link_recipe_list in E. subst. eexists _, mp. split; [apply recipe_raise_raises|].
        split; [reflexivity|exact Hid].
      * exists (fun i => i), (st_map s'). split; [apply raises_id|].
        split; [now rewrite Hs|]. intros l E'. discriminate.
      * exists (fun i => i), (st_map s'). split; [apply raises_id|].
        split; [now rewrite Hs|]. intros l E'. discriminate.
    + inversion H; subst. exists (fun i => i), (st_map s'). split; [apply raises_id|].
      split; [now rewrite Hs|exact Hid].
Qed.

Lemma add_names_only : forall key confs s r s',
  add_names key confs s = (r, s') -> s' = with_const (st_const s') s.
Proof.
  intros key confs s r s' H. unfold add_names in H. revert s H.
  induction confs as [|c confs IH]; intros s H; cbn in H.
  - inversion H; subst. now destruct s'.
  - match type of H with
    | (let (_, _) := ?a in _) = _ => destruct a as [db [x|]] eqn:Ea
    end.
    + inversion H; subst. now destruct s.
    + apply IH in H. rewrite H. now destruct s.
Qed.

Lemma add_distro_machine_only : forall e path s r s',
  add_distro_machine e path s = (r, s') -> s' = with_const (st_const s') s.
Proof.
  intros e path s r s' H. unfold add_distro_machine in H.
  destruct (get_layer_root _ _ _) as [[|c root]|].
  - inversion H; subst. now destruct s'.
  - unfold bindM in H. destruct (add_names _ _ s) as [[u|ex|] s1] eqn:E1; apply add_names_only in E1.
    + apply add_names_only in H. rewrite H, E1. now destruct s.
    + inversion H; subst. exact E1.
    + inversion H; subst. exact E1.
  - inversion H; subst. now destruct s'.
Qed.

(** The end of AddFile, as one update. *)
Lemma leave_cases : forall e file forced items s r s',
  leave e file forced items s = (r, s') ->
  exists f l, raises f /\ st_list s' = map f (st_list s) ++ l /\
    st_fp s' = st_fp s ++ map (e_repr e) l /\
    st_next s' = st_next s /\ st_new s' = st_new s /\ st_neg s' = st_neg s /\
    st_seen s' = st_seen s /\ st_seenc s' = st_seenc s /\
    (l = [] \/ exists mx, l = map (fun i => set_line (it_line i + mx) i) items) /\
    (forall l', r = Ok l' -> l' = l /\ exists mx, l = map (fun i => set_line (it_line i + mx) i) items).
Proof.
  intros e file forced items s r s' H. unfold leave in H. unfold bindM at 1 in H. unfold bindM at 1 in H.
  destruct (match_appends file items _) as [rm s1] eqn:Em. apply match_appends_cases in Em.
  destruct Em as [f [mp [Hf [Hs1 Hl]]]]. simpl in Hs1.
  assert (Hstop : forall r', (r', s1) = (r, s') -> (forall l', r' <> Ok l') ->
     exists f l, raises f /\ st_list s' = map f (st_list s) ++ l /\
    st_fp s' = st_fp s ++ map (e_repr e) l /\
    st_next s' = st_next s /\ st_new s' = st_new s /\ st_neg s' = st_neg s /\
    st_seen s' = st_seen s /\ st_seenc s' = st_seenc s /\
    (l = [] \/ exists mx, l = map (fun i => set_line (it_line i + mx) i) items) /\
    (forall l', r = Ok l' -> l' = l /\ exists mx, l = map (fun i => set_line (it_line i + mx) i) items)).
  { intros r' E Hr. inversion E; subst. exists f, []. simpl. rewrite !app_nil_r. split; [exact Hf|].
    repeat split; auto; exfalso; eapply Hr; eassumption. }
  destruct rm as [items2|ex|]; [|now apply (Hstop _ H)|now apply (Hstop _ H)].
  destruct (Hl _ eq_refl) as [mx ->]. clear Hstop. unfold bindM at 1 in H.
  destruct (add_distro_machine e file s1) as [[u|ex|] s2] eqn:Ed; apply add_distro_machine_only in Ed.
  - unfold bindM, ret in H. inversion H; subst r s'. clear H. rewrite Ed, Hs1. simpl.
    eexists f, _. split; [exact Hf|]. repeat split; eauto; inversion H; subst; eauto.
  - inversion H; subst r s'. rewrite Ed, Hs1. simpl. exists f, []. simpl. rewrite !app_nil_r.
    split; [exact Hf|]. repeat split; auto; discriminate.
  - inversion H; subst r s'. rewrite Ed, Hs1. simpl. exists f, []. simpl. rewrite !app_nil_r.
    split; [exact Hf|]. repeat split; auto; discriminate.
Qed.

Definition in_range (a b : nat) (i : item) : Prop := a <= it_id i < b.

Definition grows (p : list item) (s s' : stash) : Prop :=
  exists f new, raises f /\ st_list s' = map f (st_list s) ++ new /\
    NoDup (map it_id (new ++ p)) /\ Forall (in_range (st_next s) (st_next s')) (new ++ p) /\
    st_next s <= st_next s' /\ st_new s' = st_new s /\ st_neg s' = st_neg s.

Lemma NoDup_app : forall A (a b : list A), NoDup a -> NoDup b -> (forall x, In x a -> ~ In x b) -> NoDup (a ++ b).
Proof.
  intros A a b Ha Hb Hd. induction a as [|x a IH]; simpl; [exact Hb|].
  inversion Ha; subst. constructor.
  - rewrite in_app_iff. intros [H|H]; [contradiction|]. apply (Hd x); simpl; auto.
  - apply IH; [assumption|]. intros y Hy. apply Hd. simpl. auto.
Qed.

Lemma in_range_map : forall f a b l, raises f -> Forall (in_range a b) l -> Forall (in_range a b) (map f l).
Proof.
  intros f a b l Hf H. rewrite Forall_map. eapply Forall_impl; [|exact H]. intros i Hi.
  unfold in_range in *. now rewrite (raises_it_id f i Hf).
Qed.
Lemma in_range_mono : forall a b a' b' l, a' <= a -> b <= b' -> Forall (in_range a b) l -> Forall (in_range a' b') l.
Proof. intros a b a' b' l Ha Hb H. eapply Forall_impl; [|exact H]. unfold in_range. intros i Hi. lia. Qed.

Lemma grows_refl : forall s, grows [] s s.
Proof.
  intro s. exists (fun i => i), []. simpl. rewrite map_id, app_nil_r.
  split; [apply raises_id|]. repeat split; auto using NoDup_nil.
Qed.
Lemma grows_trans : forall p q s1 s2 s3, grows p s1 s2 -> grows q s2 s3 -> grows (p ++ q) s1 s3.
Proof.
  intros p q s1 s2 s3 [f [n1 [F1 [L1 [D1 [R1 [X1 [A1 B1]]]]]]]] [g [n2 [F2 [L2 [D2 [R2 [X2 [A2 B2]]]]]]]].
  exists (fun i => g (f i)), (map g n1 ++ n2).
  split; [now apply raises_comp|]. split; [|split; [|split; [|repeat split; try lia; congruence]]].
  - rewrite L2, L1, map_app, map_map, app_assoc. reflexivity.
  - rewrite !map_app, map_ids by assumption. rewrite !map_app in D1, D2.
    apply Forall_app in R1. apply Forall_app in R2. destruct R1 as [R1a R1b]. destruct R2 as [R2a R2b].
    assert (H1 : forall x, In x (map it_id n1) \/ In x (map it_id p) -> x < st_next s2).
    { intros x [H|H]; apply in_map_iff in H; destruct H as [i [<- Hi]].
      - rewrite Forall_forall in R1a. apply R1a in Hi. unfold in_range in Hi. lia.
      - rewrite Forall_forall in R1b. apply R1b in Hi. unfold in_range in Hi. lia. }
    assert (H2 : forall x, In x (map it_id n2) \/ In x (map it_id q) -> st_next s2 <= x).
    { intros x [H|H]; apply in_map_iff in H; destruct H as [i [<- Hi]].
      - rewrite Forall_forall in R2a. apply R2a in Hi. unfold in_range in Hi. lia.
      - rewrite Forall_forall in R2b. apply R2b in Hi. unfold in_range in Hi. lia. }
    assert (D : NoDup ((map it_id n1 ++ map it_id p) ++ (map it_id n2 ++ map it_id q))).
    { apply NoDup_app; [assumption|assumption|]. intros x Hx Hx'. rewrite in_app_iff in Hx, Hx'.
      apply H1 in Hx. apply H2 in Hx'. lia. }
    eapply Permutation.Permutation_NoDup; [|exact D].
    rewrite <- !app_assoc. apply Permutation.Permutation_app_head.
    rewrite !app_assoc. apply Permutation.Permutation_app_tail. apply Permutation.Permutation_app_comm.
  - apply Forall_app in R1. apply Forall_app in R2. destruct R1 as [R1a R1b]. destruct R2 as [R2a R2b].
    rewrite !Forall_app. repeat split.
    + apply in_range_map; [assumption|]. eapply in_range_mono; [| |exact R1a]; lia.
    + eapply in_range_mono; [| |exact R2a]; lia.
    + eapply in_range_mono; [| |exact R1b]; lia.
    + eapply in_range_mono; [| |exact R2b]; lia.
Qed.
Lemma NoDup_app_l : forall A (a b : list A), NoDup (a ++ b) -> NoDup a.
Proof.
  intros A a b H. induction a as [|x a IH]; [constructor|]. inversion H; subst. constructor.
  - intro Hx. apply H2. apply in_or_app. now left.
  - now apply IH.
Qed.
Lemma grows_drop : forall p s s', grows p s s' -> grows [] s s'.
Proof.
  intros p s s' [f [n1 [F1 [L1 [D1 [R1 X1]]]]]]. exists f, n1. rewrite !app_nil_r.
  rewrite map_app in D1. apply NoDup_app_l in D1. apply Forall_app in R1. intuition.
Qed.
Lemma grows_new : forall s i, it_id i = st_next s -> grows [i] s (with_next (S (st_next s)) s).
Proof.
  intros s i Hi. exists (fun i => i), []. simpl. rewrite map_id, app_nil_r.
  split; [apply raises_id|]. split; [reflexivity|]. split; [repeat constructor; auto|].
  split; [|repeat split; lia]. constructor; [unfold in_range; simpl; lia|constructor].
Qed.
Lemma grows_same : forall s s', st_list s' = st_list s -> st_next s' = st_next s -> st_new s' = st_new s ->
  st_neg s' = st_neg s -> grows [] s s'.
Proof.
  intros s s' H1 H2 H3 H4. exists (fun i => i), []. simpl. rewrite map_id, app_nil_r, H1, H2, H3, H4.
  split; [apply raises_id|]. repeat split; auto using NoDup_nil.
Qed.

Lemma grows_leave : forall e file forced items s0 s1 r s',
  grows items s0 s1 -> leave e file forced items s1 = (r, s') -> grows [] s0 s'.
Proof.
  intros e file forced items s0 s1 r s' [f [n1 [F1 [L1 [D1 [R1 [X1 [A1 B1]]]]]]]] H.
  apply leave_cases in H.
  destruct H as [g [l [Hg [L2 [_ [N2 [A2 [B2 [_ [_ [Hl _]]]]]]]]]]].
  exists (fun i => g (f i)), (map g n1 ++ l). split; [now apply raises_comp|].
  rewrite L2, L1, map_app, map_map, app_assoc, !app_nil_r, N2, A2, B2, A1, B1.
  split; [reflexivity|].
  rewrite map_app in D1. apply Forall_app in R1. destruct R1 as [R1a R1b].
  destruct Hl as [->|[mx ->]].
  - rewrite app_nil_r, map_ids by assumption. apply NoDup_app_l in D1.
    repeat split; auto. now apply in_range_map.
  - rewrite map_app, map_ids by assumption. rewrite map_map. simpl. split; [exact D1|].
    split; [|auto]. apply Forall_app. split; [now apply in_range_map|]. rewrite Forall_map.
    eapply Forall_impl; [|exact R1b]. intros i Hi. exact Hi.
Qed.

Lemma add_file_grows : forall n e path off forced s r s',
  add_file n e path off forced s = (r, s') -> grows [] s s'.
Proof.
  intros n e path off forced s r s' H.
  assert (Hp : pend none r = []) by (now destruct r). rewrite <- Hp.
  eapply (rel_add_file e grows); try exact H; clear.
  - apply grows_refl.
  - apply grows_trans.
  - apply grows_drop.
  - intros s i Hi _. now apply grows_new.
  - intros s path _. now apply grows_same.
  - intros s0 s1 path forced items r s' file _ _ Hg E.
    apply (grows_trans [] [] s0 (enter file s0)); [now apply grows_same|]. eapply grows_leave; eassumption.
Qed.
