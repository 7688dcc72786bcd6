(** * Which files the stash loads: proofs *)

From Verif Require Import PyStr Regex Patterns PyPath Res Inline Const Item Lines Stash
  StrFacts ReFacts LinesFacts ParseFacts ExnFacts HistFacts ReachFacts
  Spec_Parse Spec_Group Spec_Include Proofs_Group Proofs_Query ShapeFacts StmtFacts ClassFacts Spec_Expand ExpandFacts Proofs_Expand Spec_Load.

(** ** C93: what is named is loaded *)

Section Loaded.
Context (e : env).

Definition at_path (p : str) : str := abspath (fs_cwd (e_fs e)) p.
Definition refs_in (s : stash) (i : item) : Prop := forall p, names_file i p -> In (at_path p) (st_seen s).
(** Files seen are loaded, but for those being parsed. *)
Definition linv (O : list str) (s : stash) : Prop :=
  incl (st_seenc s) (st_seen s) /\
  (forall f, In f (st_seen s) -> In f O \/ loaded e s f) /\
  (forall i, In i (st_list s) -> refs_in s i).

Definition does {A} (O : list str) (x : M A) (Q : stash -> A -> Prop) : Prop :=
  forall s a s', x s = (Ok a, s') -> linv O s -> linv O s' /\ incl (st_seen s) (st_seen s') /\ Q s' a.

Definition stable {A} (Q : stash -> A -> Prop) : Prop :=
  forall s s' a, incl (st_seen s) (st_seen s') -> Q s a -> Q s' a.

Lemma refs_mono : stable refs_in.
Proof. intros s s' i H Hr p Hp. apply H. now apply Hr. Qed.

Lemma does_weak : forall A O (x : M A) (Q Q' : stash -> A -> Prop),
  (forall s a, Q s a -> Q' s a) -> does O x Q -> does O x Q'.
Proof. intros A O x Q Q' HQ H s a s' E Hi. destruct (H s a s' E Hi) as [A1 [A2 A3]]. auto. Qed.
Lemma does_ret : forall A O (a : A) (Q : stash -> A -> Prop), (forall s, Q s a) -> does O (ret a) Q.
Proof. intros A O a Q HQ s b s' E Hi. inversion E; subst. split; [exact Hi|]. split; [apply incl_refl|apply HQ]. Qed.
(** What the first part says is kept, and handed to the second. *)
Lemma does_bind : forall A B O (x : M A) (f : A -> M B) (P : stash -> A -> Prop) (Q : stash -> B -> Prop),
  stable P -> does O x P ->
  (forall a, (exists s, P s a) -> does O (f a) (fun s b => P s a -> Q s b)) -> does O (bindM x f) Q.
Proof.
  intros A B O x f P Q HP Hx Hf s b s' E Hi. unfold bindM in E.
  destruct (x s) as [[a|ex|] s1] eqn:Ex; try discriminate.
  destruct (Hx _ _ _ Ex Hi) as [Hi1 [Hs1 HPa]].
  destruct (Hf a (ex_intro _ s1 HPa) _ _ _ E Hi1) as [Hi2 [Hs2 HQ]].
  split; [exact Hi2|]. split; [eapply incl_tran; eassumption|].
  apply HQ. now apply (HP s1).
Qed.
Lemma does_lift : forall A O (f : stash -> Res.res A), does O (liftR f) (fun _ _ => True).
Proof.
  intros A O f s a s' E Hi. unfold liftR in E. inversion E; subst. split; [exact Hi|].
  split; [apply incl_refl|exact I].
Qed.
Lemma does_find : forall O n d, does O (find_m e n d) (fun _ _ => True).
Proof.
  intros O n d s a s' E Hi. unfold find_m in E. destruct (find_local_or_layer _ _ _ _); inversion E; subst.
  split; [exact Hi|]. split; [apply incl_refl|exact I].
Qed.
Lemma stable_true : forall A, stable (fun _ (_ : A) => True).
Proof. intros A s s' a _ _. exact I. Qed.
Lemma does_find_class : forall O locs i d, does O (find_class e locs i d) (fun _ _ => True).
Proof.
  intros O locs i d. induction locs as [|l locs IH]; simpl; [now apply does_ret|].
  eapply does_bind; [apply stable_true|apply does_find|]. intros [|c p] _.
  - eapply does_weak; [|exact IH]. auto.
  - now apply does_ret.
Qed.

Definition in_seen (s : stash) (p : str) : Prop := In (at_path p) (st_seen s).
Definition does_addf (O : list str) (addf : addfile_t) : Prop :=
  forall p o f, does O (addf p o f) (fun s _ => in_seen s p).

Lemma does_inherit : forall O addf locs file inhname line l paths off, does_addf O addf ->
  does O (inherit_loop e addf locs file inhname line l paths off)
    (fun s r => Forall (in_seen s) paths -> Forall (in_seen s) (fst r)).
Proof.
  intros O addf locs file inhname line l. induction l as [|x l IH]; intros paths off Ha; simpl.
  - apply does_ret. auto.
  - eapply does_bind; [apply stable_true|apply does_find_class|]. intros [|c p] _.
    { eapply does_weak; [|now apply IH]. auto. }
    eapply does_bind; [apply stable_true|apply does_lift|]. intros [|] _.
    { eapply does_weak; [|now apply IH]. auto. }
    eapply (does_bind _ _ _ _ _ (fun s _ => in_seen s (c :: p))); [| apply Ha|].
    { intros s s' a H. apply H. }
    intros tmp _. eapply does_weak; [|now apply IH]. cbn beta. intros s a H Hp _ _ Hps. apply H.
    rewrite Forall_forall in *. intros y Hy. apply add_set_In in Hy. destruct Hy as [->|Hy]; auto.
Qed.

Lemma does_new : forall O B mk (g : item -> B) (Q : stash -> B -> Prop),
  (forall s n, Q s (g (mk n))) -> does O (dom i <- new_item mk; ret (g i)) Q.
Proof.
  intros O B mk g Q HQ s r s' E Hi. unfold new_item, fresh, bindM, ret in E. inversion E; subst.
  split; [exact Hi|]. split; [apply incl_refl|apply HQ].
Qed.

Definition opt_refs (s : stash) (o : option (item * Z)) : Prop :=
  match o with Some (i, _) => refs_in s i | None => True end.

Lemma quiet : forall s i, (forall p, ~ names_file i p) -> refs_in s i.
Proof. intros s i H p Hp. now elim (H p). Qed.

Lemma does_handle : forall O addf p file line k mt, does_addf O addf ->
  does O (handle e addf p file line k mt) opt_refs.
Proof.
  intros O addf p file line k mt Ha.
  assert (Hd : forall mk, (forall q x, ~ names_file (mk q) x) ->
                 does O (dom i <- new_item (fun n => mk (p n)); ret (Some (i, 0%Z))) opt_refs).
  { intros mk Hm. apply (does_new O _ (fun n => mk (p n)) (fun i => Some (i, 0%Z))).
    intros s n. apply quiet, Hm. }
  assert (Hpl : forall pay, (forall n x, ~ names_file (mk_item (p n) (ip_new (p n)) pay) x) ->
                does O (dom i <- new_item (fun n => mk_item (p n) (ip_new (p n)) pay);
                                 ret (Some (i, 0%Z))) opt_refs).
  { intros pay Hm. apply (does_new O _ (fun n => mk_item (p n) (ip_new (p n)) pay) (fun i => Some (i, 0%Z))).
    intros s n. apply quiet, Hm. }
  assert (Hinh : forall locs a st, does O
      (dom inhname <- liftR (fun s => expand_term e s file a);
       dom r <- inherit_loop e addf locs file inhname line (keep_nonempty (split_char cSP inhname)) [] 0%Z;
       dom i <- new_item (fun n => mk_item (p n) (ip_new (p n)) (PInherit a st (fst r)));
       ret (Some (i, snd r))) opt_refs).
  { intros locs a st. eapply does_bind; [apply stable_true|apply does_lift|]. intros inhname _.
    eapply (does_bind _ _ _ _ _ (fun s r => Forall (in_seen s) (fst r))).
    - intros s s' r H Hr. eapply Forall_impl; [|exact Hr]. intros x Hx. now apply H.
    - eapply does_weak; [|now apply does_inherit]. cbn beta. intros s r H. apply H. constructor.
    - intros r _. apply (does_new O _ (fun n => mk_item (p n) (ip_new (p n)) (PInherit a st (fst r)))
                     (fun i => Some (i, snd r))).
      intros s n Hr _ x Hx. rewrite Forall_forall in Hr. now apply Hr. }
  destruct k; unfold handle; try (apply Hpl; intros n x Hx; exact Hx); try apply Hinh.
  - eapply does_bind; [apply stable_true|apply does_lift|]. intros known _.
    eapply does_weak; [|apply (Hd (fun q => mk_function known q (group "func" mt) (group_str "funcbody" mt)
                                 (matched (group "py" mt)) (matched (group "fr" mt))))]; [auto|].
    intros q x. unfold mk_function. destruct (extract_sub_func _ _ _) as [[a b] c]. intro Hx; exact Hx.
  - eapply does_bind; [apply stable_true|apply does_lift|]. intros inc _.
    eapply does_bind; [apply stable_true|apply does_find|]. intros path _.
    assert (Hfin : forall off : Z, does O
       (dom i <- new_item (fun n => mk_item (p n) (ip_new (p n))
                   (PInclude (group_str "incname" mt) (group_str "statement" mt) path));
        ret (Some (i, off))) (fun s o => (path = [] \/ in_seen s path) -> opt_refs s o)).
    { intro off. apply (does_new O _ (fun n => mk_item (p n) (ip_new (p n))
                   (PInclude (group_str "incname" mt) (group_str "statement" mt) path))
                   (fun i => Some (i, off))).
      intros s n Hp x Hx. cbn in Hx. destruct Hx as [-> Hx]. destruct Hp as [->|Hp]; [congruence|exact Hp]. }
    destruct path as [|c path].
    { eapply does_weak; [|apply Hfin]. cbn beta. intros s o H _ _. apply H. now left. }
    eapply does_bind; [apply stable_true|apply does_lift|]. intros [|] _; [now apply does_ret|].
    eapply (does_bind _ _ _ _ _ (fun s _ => in_seen s (c :: path))); [|apply Ha|].
    { intros s s' a H. apply H. }
    intros tmp _. eapply does_weak; [|apply Hfin]. cbn beta. intros s o H Hp _ _ _. apply H. now right.
  - destruct (existsb _ pkg_prefixes); [now apply does_ret|].
    apply (Hd (fun q => mk_taskadd q (group_str "func" mt) (group_str "before" mt)
                                     (group_str "after" mt) (group_str "comment" mt))). intros q x Hx; exact Hx.
  - apply (Hd (fun q => mk_variable q (group_str "varname" mt) (group_str "varval" mt)
                                        (group_str "varop" mt))). intros q x.
    unfold mk_variable. destruct (extract_sub _ _) as [[a b] c]. intro Hx; exact Hx.
Qed.

Lemma does_try : forall O addf p file line cnt l, does_addf O addf ->
  does O (try_kinds e addf p file line cnt l) (fun s x => refs_in s (fst x)).
Proof.
  intros O addf p file line cnt l Ha. induction l as [|[k r] l IH]; cbn [try_kinds].
  - apply (does_new O _ (fun n => mk_item (p n) (ip_new (p n)) PItem) (fun i => (i, 0%Z))).
    intros s n. apply quiet. intros x Hx; exact Hx.
  - destruct (re_match r cnt) as [mt|]; [|exact IH].
    eapply (does_bind _ _ _ _ _ opt_refs); [|now apply does_handle|].
    + intros s s' [[i z]|] H; [|auto]. now apply refs_mono.
    + intros [[i z]|] _.
      * apply does_ret. auto.
      * eapply does_weak; [|exact IH]. auto.
Qed.

Lemma does_chunks : forall O addf file off cs inc new, does_addf O addf ->
  does O (parse_chunks e addf file off inc new cs) (fun s l => Forall (refs_in s) l).
Proof.
  intros O addf file off cs. induction cs as [|c cs IH]; intros inc new Ha; cbn [parse_chunks].
  - apply does_ret. constructor.
  - eapply (does_bind _ _ _ _ _ (fun s x => refs_in s (fst x))); [|now apply does_try|].
    { intros s s' x H. now apply refs_mono. }
    intros x _. eapply (does_bind _ _ _ _ _ (fun s l => Forall (refs_in s) l)); [|now apply IH|].
    { intros s s' l H Hl. eapply Forall_impl; [|exact Hl]. intro i. now apply refs_mono. }
    intros l _. apply does_ret. intros s Hl Hx. now constructor.
Qed.

(** An item that is changed in its Line or IncludedFrom stays the same
    statement of the same file. *)
Lemma loaded_grows : forall s s' f g l, loaded e s f -> st_list s' = map g (st_list s) ++ l ->
  (forall i, it_origin (g i) = it_origin i /\ it_realraw (g i) = it_realraw i) -> loaded e s' f.
Proof.
  intros s s' f g l H E Hg. unfold loaded in *. destruct (fs_read (e_fs e) f) as [t| | |]; try exact I.
  destruct H as [gs [js [H1 [H2 [H3 H4]]]]]. exists gs, (map g js). split; [exact H1|]. split.
  - intros j Hj. apply in_map_iff in Hj. destruct Hj as [i [<- Hi]]. rewrite E. apply in_or_app. left.
    apply in_map. now apply H2.
  - split.
    + rewrite Forall_map. eapply Forall_impl; [|exact H3]. intros i Hi. cbn beta. now rewrite (proj1 (Hg i)).
    + rewrite map_map, <- H4. apply map_ext. intro i. apply Hg.
Qed.

Lemma raises_same : forall f, raises f -> forall i,
  it_origin (f i) = it_origin i /\ it_realraw (f i) = it_realraw i /\ it_pay (f i) = it_pay i.
Proof. intros f H i. destruct (H i) as [-> _]. auto. Qed.

Lemma does_add_file : forall n O path off forced,
  does O (add_file n e path off forced) (fun s _ => in_seen s path).
Proof.
  induction n as [|n IH]; intros O path off forced s l s' E Hi; [discriminate|].
  destruct (skipped e path s) eqn:Es.
  - rewrite add_file_eq in E. cbv zeta in E. rewrite Es in E. inversion E; subst.
    split; [exact Hi|]. split; [apply incl_refl|].
    unfold skipped in Es. apply Bool.orb_true_iff in Es. unfold in_seen, at_path. destruct Es as [Es|Es].
    + apply Bool.andb_true_iff in Es. destruct Es as [Es _]. now apply mem_str_In in Es.
    + apply mem_str_In in Es. now apply Hi.
  - pose proof (add_file_inv _ _ _ _ _ _ _ _ E) as Ei. rewrite Es in Ei.
    destruct Ei as [cs [l0 [mx [Hp [Hck [Hpa [El _]]]]]]].
    rewrite add_file_eq in E. cbv zeta in E. rewrite Es in E.
    change (abspath (fs_cwd (e_fs e)) path) with (at_path path) in *.
    set (file := at_path path) in *. unfold bindM in E.
    destruct (get_items e _ file off (enter file s)) as [[items|ex|] s1] eqn:Eg; try discriminate.
    assert (Hent : linv (file :: O) (enter file s)).
    { destruct Hi as [I1 [I2 I3]]. unfold enter, linv. cbn [st_seen st_seenc with_seen st_list]. split; [|split].
      - intros f Hf. apply add_set_In. destruct (str_eqb _ _); [|now right; apply I1].
        apply add_set_In in Hf. destruct Hf as [->|Hf]; [now left|right; now apply I1].
      - intros f Hf. apply add_set_In in Hf. destruct Hf as [->|Hf]; [left; now left|].
        destruct (I2 f Hf) as [Ho|Ho]; [left; now right|now right].
      - intros i Hii p Hpp. cbn [st_seen with_seen]. apply add_set_In. right. now apply (I3 i). }
    assert (Hseen : In file (st_seen (enter file s))) by (apply add_set_In; now left).
    assert (Hinc : incl (st_seen s) (st_seen (enter file s))) by (intros f Hf; apply add_set_In; now right).
    pose proof Eg as Eg2. unfold get_items, bindM, liftR in Eg2.
    destruct (prepare_file e file off (st_neg (enter file s))) as [cs'|ex|] eqn:Ep; try discriminate.
    apply (does_chunks (file :: O)) in Eg2; [|intros p o f; apply IH].
    specialize (Eg2 Hent). destruct Eg2 as [[J1 [J2 J3]] [Jin Jr]].
    apply leave_cases in E. destruct E as [f [l1 [Hf [EL [_ [_ [_ [_ [ES [EC [_ Hl1]]]]]]]]]]].
    destruct (Hl1 l eq_refl) as [-> [mx1 El1]]. clear Hl1.
    assert (Hload : loaded e s' file).
    { apply get_items_sat in Eg; [|apply add_file_addf_ok]. destruct Eg as [cs2 [Hp2 Hps]].
      unfold loaded. unfold prepare_file in Hp2. destruct (fs_read (e_fs e) file) as [t| | |] eqn:Ef; try exact I.
      pose proof (prepare_text_ok _ _ _ _ Hp2) as [_ Hck2].
      destruct (parsed_text _ _ _ _ _ _ _ _ Hck2 Hps) as [Hr _]. apply parsed_origin in Hps.
      unfold prepare_text in Hp2. apply prepare_loop_taken in Hp2; [|apply readlines_ok].
      destruct Hp2 as [gs [Hg Egs]]. exists gs, l1. split; [exact Hg|]. split; [|split].
      - intros i Hx. rewrite EL. apply in_or_app. now right.
      - rewrite El1, Forall_map. exact Hps.
      - rewrite El1, map_map. etransitivity; [|exact Egs]. exact Hr. }
    assert (Href : forall i, In i (st_list s') -> refs_in s' i).
    { intros i Hx p Hpp. rewrite ES. rewrite EL in Hx. apply in_app_or in Hx. destruct Hx as [Hx|Hx].
      - apply in_map_iff in Hx. destruct Hx as [j [<- Hj]]. unfold names_file in Hpp.
        rewrite (proj2 (proj2 (raises_same f Hf j))) in Hpp. now apply (J3 j).
      - rewrite El1 in Hx. apply in_map_iff in Hx. destruct Hx as [j [<- Hj]].
        rewrite Forall_forall in Jr. now apply (Jr j). }
    split; [|split].
    + split; [rewrite ES, EC; exact J1|]. split; [|exact Href].
      intros g Hg. rewrite ES in Hg. destruct (J2 g Hg) as [[<-|Ho]|Ho]; [now right|now left|right].
      apply (loaded_grows s1 s' g f l1 Ho EL). intro i. pose proof (raises_same f Hf i). tauto.
    + rewrite ES. eapply incl_tran; eassumption.
    + unfold in_seen. rewrite ES. apply Jin. exact Hseen.
Qed.

Lemma built_linv : forall s, built e s -> linv [] s.
Proof.
  intros s H. induction H as [new neg db|n path off forced s l s' _ IH E|s r s' _ IH E|db s _ IH].
  - split; [apply incl_refl|]. split; intros x [].
  - now apply (does_add_file n [] path off forced s l s').
  - apply finalize_shape in E. destruct E as [g [mp [Hg [-> _]]]]. destruct IH as [I1 [I2 I3]].
    assert (Hs : forall i, it_origin (g i) = it_origin i /\ it_realraw (g i) = it_realraw i)
      by (intro i; destruct (Hg i) as [v ->]; auto).
    split; [exact I1|]. split.
    + intros f Hf. destruct (I2 f Hf) as [Ho|Ho]; [now left|right].
      apply (loaded_grows s _ f g [] Ho); [cbn; now rewrite app_nil_r|exact Hs].
    + intros i Hx p Hpp. cbn in Hx. apply in_map_iff in Hx. destruct Hx as [j [<- Hj]].
      apply (I3 j Hj). destruct (Hg j) as [v E]. rewrite E in Hpp. exact Hpp.
  - exact IH.
Qed.

Lemma named_loaded : forall s i p, built e s -> In i (st_list s) -> names_file i p -> loaded e s (at_path p).
Proof.
  intros s i p Hb Hi Hp. apply built_linv in Hb. destruct Hb as [_ [H2 H3]].
  destruct (H2 _ (H3 i Hi p Hp)) as [[]|H]. exact H.
Qed.
Lemma given_loaded : forall n path off forced s l s', built e s ->
  add_file n e path off forced s = (Ok l, s') -> loaded e s' (at_path path).
Proof.
  intros n path off forced s l s' Hb E. pose proof (built_linv _ Hb) as Hi.
  destruct (does_add_file n [] path off forced s l s' E Hi) as [[_ [H2 _]] [_ H3]].
  destruct (H2 _ H3) as [[]|H]. exact H.
Qed.

End Loaded.

(** ** C92, C95: which files a statement names *)

Lemma add_ignores : forall db key fn k db' x, add_constants db (CDict [("replacements", CDict [(key, CList [fn])])]) = (db', x) ->
  k = "ignore" -> cval_step k db' = cval_step k db.
Proof.
  intros db key fn k db' x E ->. unfold add_constants, lift_upd in E. destruct db as [s|l|a]; try (inversion E; reflexivity).
  remember (CDict [(key, CList [fn])]) as b eqn:Eb.
  assert (H : forall v, dget "ignore" (dset "replacements" v a) = dget "ignore" a) by (intro v; now apply dget_dset_other).
  cbn [add_merge] in E.
  destruct (dget "replacements" a) as [av|]; [|inversion E; subst; cbn; now rewrite H].
  rewrite Eb in E. destruct av as [s|l|ad]; try (inversion E; reflexivity).
  destruct (add_merge _ ad) as [ad' [ex|]]; inversion E; subst; cbn; now rewrite H.
Qed.

Section Named.
Context (e : env) (CI II : cval) (N : nat).

Definition ignores (s : stash) : Prop := class_ignore (st_const s) = CI /\ include_ignore (st_const s) = II.

Lemma ignores_step : forall db db', cval_step "ignore" db' = cval_step "ignore" db ->
  class_ignore db = CI /\ include_ignore db = II -> class_ignore db' = CI /\ include_ignore db' = II.
Proof.
  intros db db' E. unfold class_ignore, include_ignore, ClassIgnore, IncludeIgnore.
  change (get_by_path "ignore/classes") with (cval_walk ["ignore"; "classes"]).
  change (get_by_path "ignore/include") with (cval_walk ["ignore"; "include"]). cbn [cval_walk]. now rewrite E.
Qed.
Lemma add_names_ignores : forall key confs s r s', add_names key confs s = (r, s') -> ignores s -> ignores s'.
Proof.
  intros key confs s r s' H. unfold add_names in H. revert s H.
  induction confs as [|c confs IH]; intros s H Hi.
  - inversion H; subst. exact Hi.
  - cbn in H.
    match type of H with
    | (let (_, _) := ?a in _) = _ => destruct a as [db [x|]] eqn:Eu
    end; pose proof (add_ignores (st_const s) key (fst (splitext (basename c))) "ignore" db _ Eu eq_refl) as Ei.
    + inversion H; subst. exact (ignores_step _ _ Ei Hi).
    + apply IH in H; [exact H|]. exact (ignores_step _ _ Ei Hi).
Qed.
Lemma distro_ignores : forall path s r s', add_distro_machine e path s = (r, s') -> ignores s -> ignores s'.
Proof.
  intros path s r s' H Hi. unfold add_distro_machine in H.
  destruct (get_layer_root _ _ _) as [[|c root]|]; try (inversion H; subst; exact Hi).
  unfold bindM in H. destruct (add_names _ _ s) as [[u|ex|] s1] eqn:E1; apply add_names_ignores in E1; try exact Hi.
  - now apply add_names_ignores in H.
  - inversion H; subst. exact E1.
  - inversion H; subst. exact E1.
Qed.
Lemma leave_ignores : forall file forced items s r s', leave e file forced items s = (r, s') -> ignores s -> ignores s'.
Proof.
  intros file forced items s r s' H Hi. unfold leave in H. unfold bindM at 1 in H. unfold bindM at 1 in H.
  destruct (match_appends file items _) as [rm s1] eqn:Em. apply match_appends_cases in Em.
  destruct Em as [f [mp [_ [Hs1 _]]]].
  assert (Hi1 : ignores s1) by (rewrite Hs1; exact Hi).
  destruct rm as [items2|ex|]; [|inversion H; subst; exact Hi1|inversion H; subst; exact Hi1].
  unfold bindM at 1 in H.
  destruct (add_distro_machine e file s1) as [[u|ex|] s2] eqn:Ed; apply distro_ignores in Ed; try exact Hi1;
    inversion H; subst; exact Ed.
Qed.

Definition named_ok (i : item) : Prop :=
  match it_pay i with
  | PInherit cl st paths => exists s0 text, expand_term e s0 (it_origin i) cl = Ok text /\
      forall p, In p paths <-> cval_contains text CI = false /\
        exists w, In w (keep_nonempty (split_char cSP text)) /\ class_found e (dirname (it_origin i)) (class_dirs st) w p
  | PInclude nm st p => exists s0 text, expand_term e s0 (it_origin i) nm = Ok text /\
      lookup e (dirname (it_origin i)) text p /\ (p <> [] -> cval_contains text II = false)
  | _ => True
  end.
Definition ninv (s : stash) : Prop := ignores s /\ N <= st_next s /\
  forall i, In i (st_list s) -> N <= it_id i -> named_ok i.

Definition holds {A} (x : M A) (Q : A -> Prop) : Prop :=
  forall s r s', x s = (r, s') -> ninv s -> ninv s' /\ (forall a, r = Ok a -> Q a).

Lemma holds_weak : forall A (x : M A) (Q Q' : A -> Prop), (forall a, Q a -> Q' a) -> holds x Q -> holds x Q'.
Proof. intros A x Q Q' HQ H s r s' E Hi. destruct (H s r s' E Hi) as [A1 A2]. split; auto. Qed.
Lemma holds_ret : forall A (a : A) (Q : A -> Prop), Q a -> holds (ret a) Q.
Proof. intros A a Q HQ s b s' E Hi. inversion E; subst. split; [exact Hi|]. intros x Ex. now inversion Ex; subst. Qed.
Lemma holds_bind : forall A B (x : M A) (f : A -> M B) (P : A -> Prop) (Q : B -> Prop),
  holds x P -> (forall a, P a -> holds (f a) Q) -> holds (bindM x f) Q.
Proof.
  intros A B x f P Q Hx Hf s b s' E Hi. unfold bindM in E.
  destruct (x s) as [[a|ex|] s1] eqn:Ex; destruct (Hx _ _ _ Ex Hi) as [Hi1 HP].
  - exact (Hf a (HP a eq_refl) _ _ _ E Hi1).
  - inversion E; subst. split; [exact Hi1|discriminate].
  - inversion E; subst. split; [exact Hi1|discriminate].
Qed.
Lemma holds_lift : forall A (f : stash -> Res.res A) (Q : A -> Prop),
  (forall s a, ninv s -> f s = Ok a -> Q a) -> holds (liftR f) Q.
Proof.
  intros A f Q HQ s r s' E Hi. unfold liftR in E. inversion E; subst. split; [exact Hi|].
  intros a Ha. now apply (HQ s').
Qed.
Lemma holds_find : forall n d, holds (find_m e n d) (lookup e d n).
Proof.
  intros n d s r s' E Hi. unfold find_m in E. unfold lookup.
  destruct (find_local_or_layer _ _ _ _); inversion E; subst; (split; [exact Hi|]); intros a Ha; now inversion Ha.
Qed.
Lemma holds_find_class : forall locs w d, holds (find_class e locs (class_file w) d)
  (fun p => (p = [] /\ forall x, In x locs -> lookup e d (path_join x (class_file w)) []) \/
            (p <> [] /\ class_found e d locs w p)).
Proof.
  intros locs w d. induction locs as [|l locs IH]; simpl.
  - apply holds_ret. left. split; [reflexivity|]. intros x [].
  - eapply holds_bind; [apply holds_find|]. intros [|c p] Hp.
    + eapply holds_weak; [|exact IH]. cbn beta. intros q [[-> H]|[Hq [a [loc [b [-> [H1 [H2 H3]]]]]]]].
      * left. split; [reflexivity|]. intros x [<-|Hx]; auto.
      * right. split; [exact Hq|]. exists (l :: a), loc, b. repeat split; auto. intros x [<-|Hx]; auto.
    + apply holds_ret. right. split; [discriminate|]. exists [], l, locs. repeat split; auto; [discriminate|]. intros x [].
Qed.
Lemma class_found_once : forall d locs w p q, class_found e d locs w p -> class_found e d locs w q -> p = q.
Proof.
  intros d locs w p q [a [l [b [E [H1 [H2 H3]]]]]] [a' [l' [b' [E' [H1' [H2' H3']]]]]].
  rewrite E in E'. clear E locs. revert a' E' H3'. induction a as [|x a IH]; intros [|y a'] E' H3'; cbn in E'.
  - injection E' as <- <-. unfold lookup in *. rewrite H1 in H1'. now injection H1'.
  - injection E' as -> E'. exfalso. specialize (H3' y (or_introl eq_refl)). unfold lookup in *. rewrite H1 in H3'.
    injection H3' as ->. now apply H2.
  - injection E' as <- E'. exfalso. specialize (H3 x (or_introl eq_refl)). unfold lookup in *. rewrite H1' in H3.
    injection H3 as ->. now apply H2'.
  - injection E' as <- E'. apply (IH (fun z Hz => H3 z (or_intror Hz)) a' E' (fun z Hz => H3' z (or_intror Hz))).
Qed.
Lemma class_found_not : forall d locs w p, (forall x, In x locs -> lookup e d (path_join x (class_file w)) []) ->
  ~ class_found e d locs w p.
Proof.
  intros d locs w p H [a [l [b [-> [H1 [H2 _]]]]]]. specialize (H l). unfold lookup in *.
  rewrite H in H1; [|apply in_or_app; right; now left]. injection H1 as <-. now apply H2.
Qed.

Definition holds_addf (addf : addfile_t) : Prop := forall p o f, holds (addf p o f) (fun _ => True).

Lemma holds_inherit : forall addf locs file text line l paths off, holds_addf addf ->
  holds (inherit_loop e addf locs file text line l paths off)
    (fun r => forall p, In p (fst r) <-> In p paths \/
       (cval_contains text CI = false /\ exists w, In w l /\ class_found e (dirname file) locs w p)).
Proof.
  intros addf locs file text line l. induction l as [|x l IH]; intros paths off Ha; simpl.
  - apply holds_ret. intro p. cbn. split; [auto|]. intros [H|[_ [w [[] _]]]]. exact H.
  - change (if endswith ".bbclass" x then x else x ++ ".bbclass") with (class_file x).
    eapply holds_bind; [apply holds_find_class|].
    intros p Hp. cbn beta in Hp.
    assert (Hskip : cval_contains text CI = true \/ p = [] ->
      holds (inherit_loop e addf locs file text line l paths off)
    (fun r => forall p, In p (fst r) <-> In p paths \/
       (cval_contains text CI = false /\ exists w, (x = w \/ In w l) /\ class_found e (dirname file) locs w p))).
    { intro Hc. eapply holds_weak; [|now apply IH]. cbn beta. intros r Hr q. rewrite Hr. split.
      - intros [H|[Hf [w [Hw H]]]]; [now left|]. right. split; [exact Hf|]. exists w. auto.
      - intros [H|[Hf [w [[<-|Hw] H]]]]; [now left| |right; split; [exact Hf|]; now exists w].
        destruct Hc as [Hc|Hc]; [congruence|]. destruct Hp as [[_ Hp]|[Hp _]]; [|congruence].
        exfalso. now apply (class_found_not _ _ _ q Hp). }
    destruct p as [|c p]; [now apply Hskip; right|].
    destruct Hp as [[Hp _]|[_ Hp]]; [discriminate|].
    eapply (holds_bind _ _ _ _ (fun b => b = cval_contains text CI)).
    { apply holds_lift. intros s a Hi E. destruct Hi as [[<- _] _]. now injection E. }
    intros ign ->. destruct (cval_contains text CI) eqn:Ec; [now apply Hskip; left|].
    eapply holds_bind; [apply Ha|]. intros tmp _. eapply holds_weak; [|now apply IH]. cbn beta.
    intros r Hr q. rewrite Hr, add_set_In. split.
    + intros [[->|H]|[Hf [w [Hw H]]]]; [|now left|].
      * right. split; [reflexivity|]. exists x. auto.
      * right. split; [exact Hf|]. exists w. auto.
    + intros [H|[Hf [w [[<-|Hw] H]]]]; [left; now right| |right; split; [exact Hf|]; now exists w].
      left. left. exact (class_found_once _ _ _ _ _ H Hp).
Qed.

Lemma holds_new : forall B mk (g : item -> B) (Q : B -> Prop),
  (forall n, Q (g (mk n))) -> holds (dom i <- new_item mk; ret (g i)) Q.
Proof.
  intros B mk g Q HQ s r s' E Hi. unfold new_item, fresh, bindM, ret in E. inversion E; subst.
  destruct Hi as [H1 [H2 H3]]. split.
  - split; [exact H1|]. split; [|exact H3]. cbn. lia.
  - intros a Ha. inversion Ha. apply HQ.
Qed.

Definition opt_named (o : option (item * Z)) : Prop :=
  match o with Some (i, _) => named_ok i | None => True end.
Definition names_none (pay : payload) : Prop :=
  match pay with PInherit _ _ _ | PInclude _ _ _ => False | _ => True end.
Lemma none_named : forall i, names_none (it_pay i) -> named_ok i.
Proof. intros i H. unfold named_ok. destruct (it_pay i); try exact I; destruct H. Qed.

Lemma inherit_word : forall cnt mt, re_match re_inherit cnt = Some mt -> class_dirs (group_str "statement" mt) = class_dirs "inherit".
Proof.
  intros cnt mt0 H. unfold re_match in H. apply match_at_some in H. destruct H as [s' [H ->]].
  unfold re_inherit in H. cbn [RCat] in H.
  apply mt_seq_iff in H. destruct H as [s1 [_ H]]. apply mt_seq_iff in H. destruct H as [s2 [_ H]].
  apply mt_seq_iff in H. destruct H as [s3 [H3 H]]. apply mt_seq_iff in H. destruct H as [s4 [H4 H5]].
  apply mt_grp_iff in H3. destruct H3 as [s5 [H3 ->]].
  apply mt_seq_iff in H3. destruct H3 as [s6 [H3 H6]].
  apply lit_key in H3. destruct H3 as [k [E3 ->]]. apply star_lit_rep in H6. destruct H6 as [n E6].
  apply (no_grp_mt blanks1) in H4; [|reflexivity]. cbn [m_grp] in H4.
  apply mt_grp_iff in H5. destruct H5 as [s7 [H5 ->]]. apply (no_grp_mt dot_plus) in H5; [|reflexivity].
  unfold group_str, group. cbn [g_all m_grp]. rewrite H5, H4.
  match goal with |- class_dirs ?x = _ => change x with (consumed s2 s5) end.
  destruct s2 as [b2 r2 g2]. cbn [m_rest] in E3. rewrite E3, E6.
  rewrite (app_assoc "inherit"). rewrite (consumed_app b2 _ (m_rest s5) g2 s5 eq_refl). reflexivity.
Qed.

Lemma holds_handle : forall addf p file line k r cnt mt, holds_addf addf -> (forall n, ip_origin (p n) = file) ->
  In (k, r) order -> re_match r cnt = Some mt ->
  holds (handle e addf p file line k mt) opt_named.
Proof.
  intros addf p file line k r cnt mt Ha Hpo Hin Hm.
  assert (Hd : forall mk, (forall q, names_none (it_pay (mk q))) ->
                 holds (dom i <- new_item (fun n => mk (p n)); ret (Some (i, 0%Z))) opt_named).
  { intros mk Hmk. apply (holds_new _ (fun n => mk (p n)) (fun i => Some (i, 0%Z))).
    intro n. apply none_named, Hmk. }
  assert (Hpl : forall pay, names_none pay ->
                holds (dom i <- new_item (fun n => mk_item (p n) (ip_new (p n)) pay);
                                 ret (Some (i, 0%Z))) opt_named).
  { intros pay Hpay. apply (holds_new _ (fun n => mk_item (p n) (ip_new (p n)) pay) (fun i => Some (i, 0%Z))).
    intro n. apply none_named, Hpay. }
  assert (Hinh : forall locs a st, class_dirs st = locs -> holds
      (dom inhname <- liftR (fun s => expand_term e s file a);
       dom r <- inherit_loop e addf locs file inhname line (keep_nonempty (split_char cSP inhname)) [] 0%Z;
       dom i <- new_item (fun n => mk_item (p n) (ip_new (p n)) (PInherit a st (fst r)));
       ret (Some (i, snd r))) opt_named).
  { intros locs a st Est.
    eapply (holds_bind _ _ _ _ (fun text => exists s0, expand_term e s0 file a = Ok text)).
    { apply holds_lift. intros s t _ E. now exists s. }
    intros text [s0 Et]. eapply holds_bind; [now apply holds_inherit|]. cbn beta. intros x Hx.
    apply (holds_new _ (fun n => mk_item (p n) (ip_new (p n)) (PInherit a st (fst x)))
                     (fun i => Some (i, snd x))).
    intro n. cbn [opt_named]. unfold named_ok. cbn [it_pay mk_item it_origin]. rewrite Hpo. exists s0, text.
    split; [exact Et|]. intro q. rewrite Hx, Est. split; [intros [[]|H]; exact H|now right]. }
  destruct k; unfold handle; try (apply Hpl; exact I).
  - eapply (holds_bind _ _ _ _ (fun _ => True)); [now apply holds_lift|]. intros known _.
    apply (Hd (fun q => mk_function known q (group "func" mt) (group_str "funcbody" mt)
                                 (matched (group "py" mt)) (matched (group "fr" mt)))).
    intro q. unfold mk_function. destruct (extract_sub_func _ _ _) as [[a b] c]. exact I.
  - apply Hinh. assert (r = re_inherit) as -> by (unfold order in Hin; cbn [In] in Hin; repeat (destruct Hin as [Hin|Hin]; [try discriminate Hin; now injection Hin|]); destruct Hin).
    now rewrite (inherit_word _ _ Hm).
  - apply Hinh. reflexivity.
  - eapply (holds_bind _ _ _ _ (fun text => exists s0, expand_term e s0 file (group_str "incname" mt) = Ok text)).
    { apply holds_lift. intros s t _ E. now exists s. }
    intros text [s0 Et]. eapply holds_bind; [apply holds_find|]. intros path Hpath.
    assert (Hfin : forall off : Z, (path <> [] -> cval_contains text II = false) -> holds
       (dom i <- new_item (fun n => mk_item (p n) (ip_new (p n))
                   (PInclude (group_str "incname" mt) (group_str "statement" mt) path));
        ret (Some (i, off))) opt_named).
    { intros off Hc. apply (holds_new _ (fun n => mk_item (p n) (ip_new (p n))
                   (PInclude (group_str "incname" mt) (group_str "statement" mt) path))
                   (fun i => Some (i, off))).
      intro n. cbn [opt_named]. unfold named_ok. cbn [it_pay mk_item it_origin]. rewrite Hpo.
      exists s0, text. auto. }
    destruct path as [|c path]; [now apply Hfin|].
    eapply (holds_bind _ _ _ _ (fun b => b = cval_contains text II)).
    { apply holds_lift. intros s a Hi E. destruct Hi as [[_ <-] _]. now injection E. }
    intros ign ->. destruct (cval_contains text II) eqn:Ec; [now apply holds_ret|].
    eapply holds_bind; [apply Ha|]. intros tmp _. now apply Hfin.
  - destruct (existsb _ pkg_prefixes); [now apply holds_ret|].
    apply (Hd (fun q => mk_taskadd q (group_str "func" mt) (group_str "before" mt)
                                     (group_str "after" mt) (group_str "comment" mt))). intro q; exact I.
  - apply (Hd (fun q => mk_variable q (group_str "varname" mt) (group_str "varval" mt)
                                        (group_str "varop" mt))). intro q.
    unfold mk_variable. destruct (extract_sub _ _) as [[a b] c]. exact I.
Qed.

Lemma holds_try : forall addf p file line cnt l, holds_addf addf -> (forall n, ip_origin (p n) = file) ->
  incl l order -> holds (try_kinds e addf p file line cnt l) (fun x => named_ok (fst x)).
Proof.
  intros addf p file line cnt l Ha Hpo. induction l as [|[k r] l IH]; intro Hl; cbn [try_kinds].
  - apply (holds_new _ (fun n => mk_item (p n) (ip_new (p n)) PItem) (fun i => (i, 0%Z))).
    intro n. exact I.
  - assert (Hl' : incl l order) by (intros y Hy; apply Hl; now right).
    destruct (re_match r cnt) as [mt|] eqn:Em; [|exact (IH Hl')].
    eapply holds_bind; [eapply holds_handle; eauto; apply Hl; now left|].
    intros [[i z]|] Hi; [now apply holds_ret|exact (IH Hl')].
Qed.

Lemma holds_chunks : forall addf file off cs inc new, holds_addf addf ->
  holds (parse_chunks e addf file off inc new cs) (Forall named_ok).
Proof.
  intros addf file off cs. induction cs as [|c cs IH]; intros inc new Ha; cbn [parse_chunks].
  - apply holds_ret. constructor.
  - eapply holds_bind; [apply holds_try; [exact Ha|reflexivity|apply incl_refl]|]. intros x Hx.
    eapply holds_bind; [now apply IH|]. intros l Hl. apply holds_ret. now constructor.
Qed.

Lemma named_same : forall i j, it_pay i = it_pay j -> it_origin i = it_origin j -> named_ok j -> named_ok i.
Proof. intros i j E1 E2. unfold named_ok. now rewrite E1, E2. Qed.

Lemma holds_add_file : forall n path off forced, holds (add_file n e path off forced) (fun _ => True).
Proof.
  induction n as [|n IH]; intros path off forced s r s' E Hi.
  { inversion E; subst. auto. }
  rewrite add_file_eq in E. cbv zeta in E. destruct (skipped e path s); [inversion E; subst; auto|].
  set (file := abspath (fs_cwd (e_fs e)) path) in *. split; [|auto]. unfold bindM in E.
  destruct (get_items e _ file off (enter file s)) as [g s1] eqn:Eg.
  assert (Hg : ninv s1 /\ forall l, g = Ok l -> Forall named_ok l).
  { unfold get_items, bindM, liftR in Eg. destruct (prepare_file _ _ _ _) as [cs|ex|].
    - apply (holds_chunks _ file off cs 0%Z (st_new (enter file s)) (fun p o f => IH p o (Some f))) in Eg; exact (Eg Hi).
    - inversion Eg; subst. split; [exact Hi|discriminate].
    - inversion Eg; subst. split; [exact Hi|discriminate]. }
  destruct Hg as [[G1 [G2 G3]] Hl]. destruct g as [items|ex|];
    [|inversion E; subst; split; auto|inversion E; subst; split; auto].
  pose proof (leave_ignores _ _ _ _ _ _ E G1) as L1.
  apply leave_cases in E. destruct E as [f [l1 [Hf [EL [_ [EN [_ [_ [_ [_ [Hl1 _]]]]]]]]]]].
  split; [exact L1|]. split; [rewrite EN; exact G2|]. intros i Hx Hid. rewrite EL in Hx. apply in_app_or in Hx.
  destruct Hx as [Hx|Hx].
  - apply in_map_iff in Hx. destruct Hx as [j [<- Hj]].
    destruct (raises_same f Hf j) as [R1 [_ R3]]. apply (named_same _ j R3 R1). apply G3; [exact Hj|].
    rewrite <- (raises_it_id f j Hf). exact Hid.
  - destruct Hl1 as [->|[mx ->]]; [destruct Hx|]. apply in_map_iff in Hx. destruct Hx as [j [<- Hj]].
    apply (named_same _ j); [reflexivity|reflexivity|].
    specialize (Hl items eq_refl). rewrite Forall_forall in Hl. now apply Hl.
Qed.

End Named.

Lemma added_named : forall n e path off forced s r s' i, reach e s ->
  add_file n e path off forced s = (r, s') -> added s s' i ->
  named_ok e (class_ignore (st_const s)) (include_ignore (st_const s)) i.
Proof.
  intros n e path off forced s r s' i Hr E [Hi Hid].
  apply (holds_add_file e (class_ignore (st_const s)) (include_ignore (st_const s)) (st_next s)) in E.
  destruct E as [[_ [_ H]] _]; [|now apply H].
  split; [split; reflexivity|]. split; [lia|]. intros j Hj Hn. exfalso.
  apply reach_ids in Hr. destruct Hr as [_ Hr]. rewrite Forall_forall in Hr. specialize (Hr j Hj). lia.
Qed.

(** ** The statements of the properties *)

Lemma C92_inherit_lemma : forall n e path off forced s r s' i cl st paths ws, reach e s ->
  add_file n e path off forced s = (r, s') -> added s s' i -> it_pay i = PInherit cl st paths ->
  plain_text cl -> words ws cl -> cval_contains cl (class_ignore (st_const s)) = false ->
  forall p, In p paths <-> exists w, In w ws /\ class_found e (dirname (it_origin i)) (class_dirs st) w p.
Proof.
  intros n e path off forced s r s' i cl st paths ws Hr E Hi Ep [Hp1 Hp2] Hw Hc p.
  pose proof (added_named _ _ _ _ _ _ _ _ _ Hr E Hi) as H. unfold named_ok in H. rewrite Ep in H.
  destruct H as [s0 [text [Et H]]]. unfold expand_term in Et.
  rewrite (C43_lemma e s0 (it_origin i) cl [] [] Hp1 Hp2) in Et. injection Et as <-.
  rewrite H. unfold keep_nonempty. rewrite (words_split _ _ Hw). intuition.
Qed.
Lemma C92_include_lemma : forall n e path off forced s r s' i nm st p, reach e s ->
  add_file n e path off forced s = (r, s') -> added s s' i -> it_pay i = PInclude nm st p ->
  plain_text nm -> lookup e (dirname (it_origin i)) nm p.
Proof.
  intros n e path off forced s r s' i nm st p Hr E Hi Ep [Hp1 Hp2].
  pose proof (added_named _ _ _ _ _ _ _ _ _ Hr E Hi) as H. unfold named_ok in H. rewrite Ep in H.
  destruct H as [s0 [text [Et [H _]]]]. unfold expand_term in Et.
  rewrite (C43_lemma e s0 (it_origin i) nm [] [] Hp1 Hp2) in Et. now injection Et as <-.
Qed.
Lemma C94_lemma : forall e i f st, parsed_item e i -> it_pay i <> PMissingFile f st.
Proof.
  intros e i f st H E. apply parsed_classified in H. destruct H as [new0 H]. rewrite E in H.
  assert (A : forall k mt raw new1 b, ~ made_of k mt raw new1 (b, PMissingFile f st)).
  { intros k mt raw new1 b Hk. destruct k; cbn [made_of] in Hk; try discriminate;
      try (destruct (extract_sub _ _) as [[a1 a2] a3]; discriminate); destruct Hk as [x Hk]; try discriminate.
    destruct (extract_sub_func _ _ _) as [[a1 a2] a3]. discriminate. }
  revert H. generalize order as l. generalize (it_new i) as b. intros b l.
  induction l as [|[k r] l IH]; intro H; cbn [outcome] in H; [discriminate|].
  destruct (re_match r (one_line i)) as [mt|]; [|exact (IH H)].
  destruct H as [H|[_ H]]; [now apply A in H|exact (IH H)].
Qed.
Lemma C94_empty_lemma : forall n e path off forced s r s' i nm st p, reach e s ->
  add_file n e path off forced s = (r, s') -> added s s' i -> it_pay i = PInclude nm st p ->
  plain_text nm -> (p = [] <-> lookup e (dirname (it_origin i)) nm []).
Proof.
  intros n e path off forced s r s' i nm st p Hr E Hi Ep Hp.
  pose proof (C92_include_lemma _ _ _ _ _ _ _ _ _ _ _ _ Hr E Hi Ep Hp) as H. split; [now intros ->|].
  unfold lookup in *. rewrite H. intro X. now injection X.
Qed.
Lemma C95_class_lemma : forall n e path off forced s r s' i cl st paths, reach e s ->
  add_file n e path off forced s = (r, s') -> added s s' i -> it_pay i = PInherit cl st paths ->
  plain_text cl -> listed cl (class_ignore (st_const s)) -> paths = [].
Proof.
  intros n e path off forced s r s' i cl st paths Hr E Hi Ep [Hp1 Hp2] [l [El Hl]].
  pose proof (added_named _ _ _ _ _ _ _ _ _ Hr E Hi) as H. unfold named_ok in H. rewrite Ep in H.
  destruct H as [s0 [text [Et H]]]. unfold expand_term in Et.
  rewrite (C43_lemma e s0 (it_origin i) cl [] [] Hp1 Hp2) in Et. injection Et as <-.
  destruct paths as [|p paths]; [reflexivity|]. destruct (proj1 (H p) (or_introl eq_refl)) as [Hc _].
  rewrite El in Hc. cbn [cval_contains] in Hc. apply mem_str_In in Hl. rewrite Hl in Hc. discriminate.
Qed.
Lemma C95_include_lemma : forall n e path off forced s r s' i nm st p, reach e s ->
  add_file n e path off forced s = (r, s') -> added s s' i -> it_pay i = PInclude nm st p ->
  plain_text nm -> listed nm (include_ignore (st_const s)) -> p = [].
Proof.
  intros n e path off forced s r s' i nm st p Hr E Hi Ep [Hp1 Hp2] [l [El Hl]].
  pose proof (added_named _ _ _ _ _ _ _ _ _ Hr E Hi) as H. unfold named_ok in H. rewrite Ep in H.
  destruct H as [s0 [text [Et [_ H]]]]. unfold expand_term in Et.
  rewrite (C43_lemma e s0 (it_origin i) nm [] [] Hp1 Hp2) in Et. injection Et as <-.
  destruct p as [|c p]; [reflexivity|]. specialize (H ltac:(discriminate)).
  rewrite El in H. cbn [cval_contains] in H. apply mem_str_In in Hl. rewrite Hl in H. discriminate.
Qed.
