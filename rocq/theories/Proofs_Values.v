(** * The values of a recipe: proofs *)

From Verif Require Import PyStr Regex UniTable Patterns PyPath Res Inline Const Item Lines Stash
  StrFacts ReFacts ItemFacts LinesFacts NameFacts ParseFacts OffsetFacts HistFacts ReachFacts QueryFacts Spec_Parse
  Spec_Query Proofs_Query Spec_Const Proofs_Const Spec_Group Proofs_Group Spec_Func Proofs_Func Proofs_Inline Props_Lines
  Spec_Access Proofs_Access ExpandFacts Spec_Expand Proofs_Expand VarFacts Spec_Recipe Proofs_Recipe.
From Coq Require Import Permutation Sorted.

(** ** A stash with one file *)

(** Parsing leaves the stash alone if no file is added. *)
Definition still (s s' : stash) : Prop :=
  st_list s' = st_list s /\ st_map s' = st_map s /\ st_const s' = st_const s /\ st_neg s' = st_neg s /\
  st_seen s' = st_seen s /\ st_seenc s' = st_seenc s.
Lemma still_refl : forall s, still s s.
Proof. intro s. repeat split. Qed.
Lemma still_trans : forall a b c, still a b -> still b c -> still a c.
Proof. intros a b c (A1 & A2 & A3 & A4 & A5 & A6) (B1 & B2 & B3 & B4 & B5 & B6). repeat split; congruence. Qed.

Lemma find_m_still : forall e n d s r s', find_m e n d s = (r, s') -> s' = s.
Proof. intros e n d s r s' H. unfold find_m in H. destruct (find_local_or_layer _ _ _ _); now injection H. Qed.
Lemma find_class_still : forall e locs x d s r s', find_class e locs x d s = (r, s') -> s' = s.
Proof.
  intros e locs x d. induction locs as [|l locs IH]; intros s r s' H; cbn [find_class] in H; [now injection H|].
  unfold bindM in H. destruct (find_m e (path_join l x) d s) as [[p|ex|] s1] eqn:E; apply find_m_still in E; subst s1.
  - destruct p; [now apply IH in H|now injection H].
  - now injection H.
  - now injection H.
Qed.

Lemma inherit_loop_still : forall e addf locs file inh line l off s r s',
  inherit_loop e addf locs file inh line l [] off s = (Ok r, s') -> fst r = [] -> s' = s.
Proof.
  intros e addf locs file inh line l. induction l as [|x l IH]; intros off s r s' H Hr; cbn [inherit_loop] in H.
  - now injection H.
  - unfold bindM at 1 in H. destruct (find_class _ _ _ _ s) as [[p|ex|] s1] eqn:E; try discriminate.
    apply find_class_still in E. subst s1. destruct p as [|c p]; [now apply IH in H|].
    unfold bindM at 1 in H. unfold liftR in H. destruct (cval_contains _ _); [now apply IH in H|].
    unfold bindM at 1 in H. destruct (addf _ line _ s) as [[tmp|ex|] s2]; try discriminate.
    exfalso. eapply inherit_loop_grows; [exact H|apply add_set_nonnil|exact Hr].
Qed.

Lemma handle_still : forall e addf p file line k mt s o s',
  handle e addf p file line k mt s = (Ok o, s') -> (forall i z, o = Some (i, z) -> adds_no_file i) -> still s s'.
Proof.
  intros e addf p file line k mt s o s' H Hno.
  assert (Hinh : forall locs a st,
      (dom inhname <- liftR (fun s => expand_term e s file a);
       dom r <- inherit_loop e addf locs file inhname line (keep_nonempty (split_char cSP inhname)) [] 0%Z;
       dom i <- new_item (fun n => mk_item (p n) (ip_new (p n)) (PInherit a st (fst r)));
       ret (Some (i, snd r))) s = (Ok o, s') -> still s s').
  { intros locs a st H'. unfold bindM at 1 in H'. unfold liftR in *.
    destruct (expand_term e s file a) as [inh|ex|]; try discriminate.
    unfold bindM at 1 in H'.
    destruct (inherit_loop e addf locs file inh line _ [] 0%Z s) as [[r|ex|] s1] eqn:E; try discriminate.
    unfold bindM, new_item, fresh, ret in H'. simpl in H'. inversion H'; subst. clear H'.
    assert (Hr : fst r = []) by (apply (Hno _ _ eq_refl)).
    apply inherit_loop_still in E; [|exact Hr]. subst s1. repeat split. }
  destruct k; unfold handle in *; try (eapply Hinh; exact H);
    try (unfold bindM, new_item, fresh, ret, liftR in *; simpl in *; inversion H; subst; now repeat split).
  - unfold bindM at 1 in H. unfold liftR at 1 in H.
    destruct (expand_term e s file _) as [inc|ex|]; try discriminate.
    unfold bindM at 1 in H.
    destruct (find_m e inc (dirname file) s) as [[path|ex|] s1] eqn:E; try discriminate.
    apply find_m_still in E. subst s1.
    destruct path as [|c path].
    + unfold bindM, new_item, fresh, ret in *. simpl in *. inversion H; subst. now repeat split.
    + unfold bindM at 1 in H. unfold liftR at 1 in H.
      destruct (cval_contains inc _).
      * unfold ret in *. inversion H; subst. now repeat split.
      * exfalso. unfold bindM at 1 in H. destruct (addf _ _ _ s) as [[tmp|ex|] s2]; try discriminate.
        unfold bindM, new_item, fresh, ret in H. simpl in H. inversion H; subst.
        specialize (Hno _ _ eq_refl). discriminate.
  - destruct (existsb _ pkg_prefixes).
    + unfold ret in *. inversion H; subst. now repeat split.
    + unfold bindM, new_item, fresh, ret in *. simpl in *. inversion H; subst. now repeat split.
Qed.

Lemma try_kinds_still : forall e addf p file line cnt l s x s',
  try_kinds e addf p file line cnt l s = (Ok x, s') -> adds_no_file (fst x) -> still s s'.
Proof.
  intros e addf p file line cnt l. induction l as [|[k r] l IH]; intros s x s' H Hno; cbn [try_kinds] in *.
  - unfold bindM, new_item, fresh, ret in *. simpl in *. inversion H; subst. now repeat split.
  - destruct (re_match r cnt) as [mt|]; [|now apply IH in H].
    unfold bindM at 1 in H.
    destruct (handle e addf p file line k mt s) as [[o|ex|] s1] eqn:E; try discriminate.
    apply handle_still in E.
    + destruct o as [[i z]|].
      * unfold ret in *. inversion H; subst. exact E.
      * apply (still_trans _ s1); [exact E|now apply IH in H].
    + intros i z ->. unfold ret in H. inversion H; subst. exact Hno.
Qed.

Lemma parse_chunks_still : forall e addf file off cs inc new s l s',
  parse_chunks e addf file off inc new cs s = (Ok l, s') -> Forall adds_no_file l -> still s s'.
Proof.
  intros e addf file off cs. induction cs as [|c cs IH]; intros inc new s l s' H Hno; cbn [parse_chunks] in *.
  - unfold ret in *. inversion H; subst. apply still_refl.
  - unfold bindM at 1 in H.
    match type of H with
    | match try_kinds e addf ?p file (ck_line c) (ck_cnt c) order s with _ => _ end = _ => set (P := p) in H
    end.
    destruct (try_kinds e addf P file (ck_line c) (ck_cnt c) order s) as [[x|ex|] s1] eqn:E; try discriminate.
    unfold bindM at 1 in H.
    destruct (parse_chunks e addf file off (inc + snd x) (new || it_new (fst x)) cs s1)
      as [[l1|ex|] s2] eqn:Ep; try discriminate.
    unfold ret in H. inversion H; subst. inversion Hno as [|? ? Hx Hl]; subst.
    apply try_kinds_still in E; [|exact Hx]. apply IH in Ep; [|exact Hl]. now apply (still_trans _ s1).
Qed.

Lemma one_file : forall n e path off forced new neg db l s',
  add_file n e path off forced (new_stash new neg db) = (Ok l, s') -> Forall adds_no_file l -> st_list s' = l.
Proof.
  intros [|n] e path off forced new neg db l s' E Hno; [discriminate|]. rewrite add_file_eq in E. cbv zeta in E.
  destruct (skipped e path _) eqn:Sk; [injection E as <- <-; reflexivity|].
  unfold bindM at 1 in E. destruct (get_items _ _ _ _ _) as [[items|ex|] s1] eqn:G; try discriminate.
  apply leave_cases in E. destruct E as [f [l0 [_ [EL [_ [_ [_ [_ [_ [_ [_ Hr]]]]]]]]]]].
  destruct (Hr l eq_refl) as [-> [mx Emx]].
  assert (Hno' : Forall adds_no_file items).
  { rewrite Emx in Hno. rewrite Forall_map in Hno. eapply Forall_impl; [|exact Hno]. intros i Hi. exact Hi. }
  unfold get_items in G. unfold bindM at 1, liftR in G. destruct (prepare_file _ _ _ _) as [cs|ex|]; try discriminate.
  unfold bindM at 1, liftR in G. apply parse_chunks_still in G; [|exact Hno']. destruct G as [G _].
  rewrite EL, G. reflexivity.
Qed.

(** The base set does not change. *)
Lemma base_kept : forall n e path off forced s r s', names_ok (st_const s) ->
  add_file n e path off forced s = (r, s') -> sets_base (st_const s') = sets_base (st_const s).
Proof.
  intros n e path off forced s r s' Hn H.
  destruct (C64_lemma n e path off forced s r s' Hn H) as [Hn' [Hp _]].
  assert (A : at_path ["sets"] (st_const s') = at_path ["sets"] (st_const s)).
  { apply Hp. split; [reflexivity|]. intros q u v Eq Eat. destruct q as [|k q].
    - cbn in Eat. injection Eat as <-. eexists. reflexivity.
    - destruct q as [|? q]; [|discriminate]. injection Eq as <- _. discriminate. }
  destruct Hn as [[d Ed] _]. destruct Hn' as [[d' Ed'] _]. rewrite Ed, Ed' in *. cbn [at_path] in A.
  unfold sets_base, SetsBase. change (get_by_path "sets/base") with (cval_walk ["sets"; "base"]). cbn [cval_walk cval_step].
  assert (B : dget "sets" d' = dget "sets" d).
  { destruct (dget "sets" d'), (dget "sets" d); congruence. }
  now rewrite B.
Qed.

(** ** Sorted lists *)

Definition strictly (a b : item) : Prop := (it_line a < it_line b)%Z.

Lemma strict_sorted : forall l : list item,
  (forall pre a mid b post, l = pre ++ a :: mid ++ b :: post -> strictly a b) -> StronglySorted strictly l.
Proof.
  induction l as [|x l IH]; intro H; [constructor|]. constructor.
  - apply IH. intros pre a mid b post E. apply (H (x :: pre) a mid b post). cbn [app]. now f_equal.
  - apply Forall_forall. intros y Hy. apply in_split in Hy. destruct Hy as [u [v ->]]. now apply (H [] x u y v).
Qed.
Lemma sorted_filter : forall (R : item -> item -> Prop) f l, StronglySorted R l -> StronglySorted R (filter f l).
Proof.
  intros R f l H. induction H as [|x l _ IH Hx]; [constructor|]. cbn [filter]. destruct (f x); [|exact IH].
  constructor; [exact IH|]. rewrite Forall_forall in *. intros y Hy. apply filter_In in Hy. now apply Hx.
Qed.
Lemma sorted_same : forall k l, StronglySorted strictly k -> StronglySorted by_line l -> NoDup l ->
  (forall i, In i l <-> In i k) -> l = k.
Proof.
  induction k as [|x k IH]; intros l Hk Hl Hn Hin.
  - destruct l as [|y l]; [reflexivity|]. now destruct (proj1 (Hin y) (or_introl eq_refl)).
  - inversion Hk as [|? ? Hk1 Hk2]; subst. rewrite Forall_forall in Hk2.
    destruct l as [|y l]; [now destruct (proj2 (Hin x) (or_introl eq_refl))|].
    inversion Hl as [|? ? Hl1 Hl2]; subst. rewrite Forall_forall in Hl2. inversion Hn as [|? ? Hn1 Hn2]; subst.
    assert (E : y = x).
    { destruct (proj1 (Hin y) (or_introl eq_refl)) as [E|Hy]; [now symmetry|].
      destruct (proj2 (Hin x) (or_introl eq_refl)) as [E|Hx]; [exact E|].
      apply Hk2 in Hy. apply Hl2 in Hx. unfold strictly, by_line in *. lia. }
    subst y. f_equal. apply IH; auto. intro i. split; intro Hi.
    + destruct (proj1 (Hin i) (or_intror Hi)) as [E|H]; [|exact H]. subst i. contradiction.
    + destruct (proj2 (Hin i) (or_intror Hi)) as [E|H]; [|exact H]. subst i. apply Hk2 in Hi. unfold strictly in Hi. lia.
Qed.
Lemma strictly_by_line : forall l, StronglySorted strictly l -> StronglySorted by_line l.
Proof.
  intros l H. induction H as [|x l _ IH Hx]; constructor; [exact IH|]. rewrite Forall_forall in *. intros y Hy. apply Hx in Hy.
  unfold strictly, by_line in *. lia.
Qed.
Lemma strict_line : forall l i j, StronglySorted strictly l -> In i l -> In j l -> it_line i = it_line j -> i = j.
Proof.
  intros l i j H. induction H as [|x l _ IH Hx]; [intros []|]. rewrite Forall_forall in Hx. unfold strictly in Hx.
  intros [<-|Hi] [<-|Hj] E; auto.
  - apply Hx in Hj. lia.
  - apply Hx in Hi. lia.
Qed.

(** ** The items of a recipe *)

Definition isv (i : item) : bool := match it_pay i with PVariable _ _ _ _ _ _ | PUnset _ _ => true | _ => false end.

(** What is known of the items of all statements but assignments. *)
Lemma stated_kind : forall x i, stated_by x i ->
  match x with
  | Assign _ _ _ => exists n sub subs v op r, it_pay i = PVariable n sub subs v op r
  | Plain (UnsetVar n f) => (exists m g, it_pay i = PUnset m g) /\ (length n = 1 -> it_pay i = PUnset n f)
  | _ => isv i = false
  end.
Proof.
  intros x i [H _]. unfold isv.
  destruct x as [name op vs|name flag op v|name v|fs|name|name t bl al|qs name head b m z1 z2|h m| |p|name args rest m]; cbn [reads] in H;
    try (rewrite H; reflexivity).
  - do 6 eexists. exact H.
  - destruct H as (_ & _ & (p & f & n & s & l & r & E) & _). now rewrite E.
  - destruct p as [d c|kw n|n|pa ns|pa v f|n|n f|op q c]; cbn [plain_reads] in H; try (rewrite H; reflexivity); try exact H.
    + destruct H as [paths H]. now rewrite H.
    + destruct H as [[path H]|H]; now rewrite H.
    + destruct H as [paths H]. now rewrite H.
Qed.
Lemma stated_class : forall x i, stated_by x i ->
  (isv i = true /\ (classifier i = "Variable" \/ classifier i = "Unset")) \/
  (isv i = false /\ classifier i <> "Variable" /\ classifier i <> "Unset").
Proof.
  intros x i _. unfold isv, classifier. destruct (it_pay i); try (right; split; [reflexivity|split; discriminate]).
  - left. split; [reflexivity|now left].
  - left. split; [reflexivity|now right].
Qed.
Lemma stated_still : forall x i, stated_by x i -> ~ brings x -> adds_no_file i.
Proof.
  intros x i [H _] B. unfold adds_no_file.
  destruct x as [name op vs|name flag op v|name v|fs|name|name t bl al|qs name head b m z1 z2|h m| |p|name args rest m]; cbn [reads] in H;
    try (rewrite H; exact I).
  - destruct H as (_ & _ & (p & f & n & s & l & r & E) & _). rewrite E. exact I.
  - destruct p as [d c|kw n|n|pa ns|pa v f|n|n f|op q c]; cbn [plain_reads] in H; try (rewrite H; exact I); try (destruct B; exact I).
    destruct H as [[m [g H]] _]. rewrite H. exact I.
Qed.

(** The value without its quotes. *)
Lemma quoted_stripped : forall v, ~ In cDQ v -> var_value_stripped (quoted v) = v.
Proof.
  intros v H. apply stripped_quoted. split; intros c t E C; apply H; subst; [now left|]. apply in_or_app. right. now left.
Qed.
Lemma join_in : forall c d (l : list str), In c (join d l) -> In c d \/ exists x, In x l /\ In c x.
Proof.
  intros c d l. induction l as [|x l IH]; [intros []|]. intro H. destruct l as [|y l].
  - right. exists x. split; [now left|exact H].
  - change (join d (x :: y :: l)) with (x ++ d ++ join d (y :: l)) in H. rewrite !in_app_iff in H. destruct H as [H|[H|H]].
    + right. exists x. split; [now left|exact H].
    + now left.
    + destruct (IH H) as [G|[z [G1 G2]]]; [now left|]. right. exists z. split; [now right|exact G2].
Qed.

Lemma assign_value : forall name op vs, proper (Assign name op vs) ->
  var_value_stripped (quoted (join [cESC] vs)) = join [cESC] vs.
Proof.
  intros name op vs (_ & (_ & _ & _ & _ & _ & Hv) & _).
  apply quoted_stripped. intro H. apply join_in in H. destruct H as [[H|[]]|[x [Hx H]]]; [discriminate|].
  now apply (Hv x Hx).
Qed.
Lemma modifiers_eq : forall x, mem_str x modifiers = mem_str x ["append"; "prepend"; "remove"].
Proof.
  intro x. apply Bool.eq_iff_eq_true. rewrite !mem_str_In. unfold modifiers. cbn [In]. tauto.
Qed.

Lemma assign_item : forall name op vs i, proper (Assign name op vs) -> stated_by (Assign name op vs) i ->
  isv i = true /\ stripped i = join [cESC] vs /\ item_name_nomod i = target name /\
  exists sub v, it_pay i = PVariable (base_name name) sub (overrides name) v op (base_name name).
Proof.
  intros name op vs i Hp (Hr & Hn). pose proof (assign_value name op vs Hp) as V1. cbn [reads] in Hr.
  pose proof Hr as E. split; [unfold isv; now rewrite E|]. split.
  - unfold stripped, var_value. rewrite E. exact V1.
  - split.
    + unfold item_name_nomod, var_name_nomod, Stash.var_name, var_subs. rewrite E. unfold target.
      destruct (overrides name) as [|o os] eqn:O; [reflexivity|]. rewrite Hn by discriminate.
      unfold delim_str, delim. f_equal. f_equal. apply filter_ext. intro x. now rewrite modifiers_eq.
    + eexists. eexists. exact E.
Qed.

(** ** The events *)

Lemma canonical_operator : forall op f, dget op canonical = Some f -> operator op f.
Proof.
  intros op f H. unfold canonical in H. cbn [dget] in H.
  repeat match type of H with
  | (if str_eqb ?a ?b then _ else _) = _ => let E := fresh in destruct (str_eqb a b) eqn:E;
      [apply str_eqb_eq in E; injection H as <-; subst; constructor|]
  end. discriminate.
Qed.

Lemma none_of : forall (os : list str), mem_str "append" os = false -> mem_str "prepend" os = false -> mem_str "remove" os = false ->
  forall x, In x ["append"; "prepend"; "remove"] -> ~ In x os.
Proof.
  intros os H1 H2 H3 x [<-|[<-|[<-|[]]]] X; apply mem_str_In in X; congruence.
Qed.
Lemma usual_one : forall name, usual_name name -> one_operation (overrides name).
Proof.
  intros name [H|[n [os [H1 H2]]]].
  - destruct (split_simple name H) as [_ ->]. intros x y _ _ [].
  - now destruct (split_over name n os H1) as [_ ->].
Qed.
Lemma one_excludes : forall os x y, one_operation os -> operation x -> operation y -> x <> y -> In x os -> ~ In y os.
Proof. intros os x y H Hx Hy Hne Ix Iy. apply Hne. now apply (H x y). Qed.

(** The value of the item of an assignment, as ExpandVar takes it. *)
Definition valued (c : list str * stmt) (i : item) : Prop :=
  match snd c with Assign _ _ _ => text_of i (text_in c) | _ => True end.

Lemma late_none : forall os, existsb (fun o => mem_str o ["append"; "prepend"; "remove"]) os = false ->
  forall x, In x ["append"; "prepend"; "remove"] -> ~ In x os.
Proof.
  intros os H x Hx Ho. assert (E : existsb (fun o => mem_str o ["append"; "prepend"; "remove"]) os = true); [|congruence].
  apply existsb_exists. exists x. split; [exact Ho|now apply mem_str_In].
Qed.

Lemma assign_does : forall g name op vs i, proper (Assign name op vs) -> stated_by (Assign name op vs) i ->
  valued (g, Assign name op vs) i ->
  does (target name) i (coded_event (g, Assign name op vs) name op (join [cESC] vs)).
Proof.
  intros g name op vs i Hp Hs Hv. destruct (assign_item name op vs i Hp Hs) as (_ & E1 & E2 & sub & v & E3).
  destruct Hp as (_ & (_ & _ & Hu & Hop & _) & _). unfold valued in Hv. cbn [snd] in Hv.
  pose proof (usual_one name Hu) as H1. unfold coded_event.
  destruct (contains INLINE_BLOCK (join [cESC] vs) &&
            negb (existsb (fun o => mem_str o ["append"; "prepend"; "remove"]) (overrides name))) eqn:I.
  { apply Bool.andb_true_iff in I. destruct I as [I1 I2]. apply Bool.negb_true_iff in I2. destruct Hv as [_ Hv].
    rewrite <- E1 in I1. rewrite (Hv I1). eapply does_code; [exact E3|exact E2|now apply late_none|exact I1]. }
  rewrite <- E1 in I |- *. clear Hv. unfold happens.
  assert (O : operation "append" /\ operation "prepend" /\ operation "remove") by (unfold operation; cbn; tauto).
  destruct O as (O1 & O2 & O3).
  destruct (mem_str "append" (overrides name)) eqn:A.
  { apply mem_str_In in A. eapply does_append; [exact E3|exact E2|exact A|].
    apply (one_excludes _ "append"); auto. discriminate. }
  destruct (mem_str "prepend" (overrides name)) eqn:B.
  { apply mem_str_In in B. apply Bool.not_true_iff_false in A. rewrite mem_str_In in A.
    eapply does_prepend; [exact E3|exact E2|exact B|exact A|]. apply (one_excludes _ "prepend"); auto. discriminate. }
  destruct (mem_str "remove" (overrides name)) eqn:C.
  { apply mem_str_In in C. apply Bool.not_true_iff_false in A, B. rewrite mem_str_In in A, B.
    eapply does_remove; [exact E3|exact E2|exact C|exact A|exact B]. }
  pose proof (none_of _ A B C) as N.
  destruct (dget op canonical) as [f|] eqn:F.
  - eapply does_now; [exact E3|exact E2|exact N| |now apply canonical_operator].
    apply Bool.andb_false_iff in I. destruct I as [I|I]; [exact I|]. exfalso. apply Bool.negb_false_iff in I.
    apply existsb_exists in I. destruct I as [x [X1 X2]]. apply mem_str_In in X2. now apply (N x).
  - exfalso. now apply dget_None in F.
Qed.

(** The items of a recipe, with their values. *)
Definition valued_by (c : list str * stmt) (i : item) : Prop := proper (snd c) /\ stated_by (snd c) i /\ valued c i.

Lemma recipe_history : forall n cs l, Forall2 valued_by cs l ->
  (forall m f, In (Plain (UnsetVar m f)) (map snd cs) -> length m = 1) -> history n (filter isv l) (coded_events n cs).
Proof.
  intros n cs l H. induction H as [|[g x] i cs l (Hpx & Hx & Hv) _ IH]; intros Hu; [constructor|].
  cbn [snd map] in *. specialize (IH (fun m f X => Hu m f (or_intror X))). cbn [filter].
  change (coded_events n ((g, x) :: cs)) with ((match x with
     | Assign name op vs => if str_eqb (target name) n then [coded_event (g, x) name op (join [cESC] vs)] else []
     | Plain (UnsetVar name []) => if str_eqb name n then [Unsets] else []
     | _ => [] end) ++ coded_events n cs).
  pose proof (stated_kind x i Hx) as K.
  destruct x as [name op vs|name flag op v|name v|fs|name|name t bl al|qs name head b m z1 z2|h m| |p|name args rest m];
    try (cbn [app]; rewrite K; exact IH).
  - destruct (assign_item name op vs i Hpx Hx) as (A & _ & E & sub & v & Ep). rewrite A.
    destruct (str_eqb (target name) n) eqn:T.
    + apply str_eqb_eq in T. subst n. cbn [app]. apply hist_does; [now apply assign_does|exact IH].
    + cbn [app]. apply hist_other; [|exact IH]. unfold about. rewrite Ep. rewrite E. intro X. subst n.
      rewrite str_eqb_refl in T. discriminate.
  - destruct p as [d c|kw m|m|pa ns|pa v f|m|m f|op q c]; try (cbn [app]; rewrite K; exact IH).
    destruct K as [_ K]. specialize (K (Hu m f (or_introl eq_refl))). unfold isv at 1. rewrite K.
    destruct f as [|c f].
    + destruct (str_eqb m n) eqn:T.
      * apply str_eqb_eq in T. subst n. cbn [app]. apply hist_does; [now constructor|exact IH].
      * cbn [app]. apply hist_other; [|exact IH]. unfold about. rewrite K. intros [X _]. subst n.
        rewrite str_eqb_refl in T. discriminate.
    + cbn [app]. apply hist_other; [|exact IH]. unfold about. rewrite K. intros [_ X]. discriminate.
Qed.

(** ** What a reference stands for *)

Definition defines (n : str) (i : item) : Prop :=
  exists sub subs v op rawn, it_pay i = PVariable n sub subs v op rawn /\ ~ amends op subs.

Lemma amends_canonical : forall op os, In op (dkeys canonical) ->
  (amends op os <-> mem_str op [" += "; " =+ "; " .= "; " =. "] = true \/
                    existsb (fun o => mem_str o ["append"; "prepend"; "remove"]) os = true).
Proof.
  intros op os H. unfold amends.
  assert (A : In (strip_ws op) ["+="; "=+"; "=."; ".="] <-> mem_str op [" += "; " =+ "; " .= "; " =. "] = true).
  { cbn [dkeys map canonical fst In] in H.
    repeat (destruct H as [<-|H]; [vm_compute; split; intro X; try discriminate; tauto || (exfalso; repeat destruct X as [X|X]; discriminate || exact X)|]). destruct H. }
  rewrite A.
  assert (B : existsb (fun o => mem_str o ["append"; "prepend"; "remove"]) os = true <->
              In ("append" : str) os \/ In ("prepend" : str) os \/ In ("remove" : str) os).
  { rewrite existsb_exists. split.
    - intros [o [Ho M]]. apply mem_str_In in M. cbn [In] in M.
      destruct M as [<-|[<-|[<-|[]]]]; tauto.
    - intros [X|[X|X]]; eexists; (split; [exact X|]); reflexivity. }
  rewrite B. tauto.
Qed.

Lemma gives_iff : forall n c i, valued_by c i ->
  match gives n (snd c) with
  | Some _ => defines n i /\ text_of i (text_in c)
  | None => ~ defines n i
  end.
Proof.
  intros n [g x] i (Hp & Hs & Hv). unfold valued in Hv. cbn [snd] in *.
  pose proof (stated_kind x i Hs) as K. unfold isv in K.
  destruct x as [name op vs|name flag op v|name v|fs|name|name t bl al|qs name head b m z1 z2|h m| |p|name args rest m]; cbn [gives];
    try (intros (sub' & subs' & v' & op' & r' & E & _); rewrite E in K; discriminate).
  2: { intros (sub' & subs' & v' & op' & r' & E & _).
       destruct p as [d c|kw n0|n0|pa ns|pa v f|n0|n0 f|op2 q2 c2]; try (rewrite E in K; discriminate).
       destruct K as [[m [f' K]] _]. rewrite K in E. discriminate. }
  clear K.
  destruct (assign_item name op vs i Hp Hs) as (_ & E1 & _ & sub & v & Ep).
  destruct Hp as (_ & (_ & _ & _ & Hop & _) & _).
  pose proof (amends_canonical op (overrides name) Hop) as Am.
  destruct (str_eqb (base_name name) n) eqn:N; [apply str_eqb_eq in N|].
  - destruct (mem_str op [" += "; " =+ "; " .= "; " =. "]) eqn:M1.
    { cbn [andb negb]. intros (sub' & subs' & v' & op' & r' & E & A). rewrite Ep in E. injection E as _ _ <- _ <- _. tauto. }
    destruct (existsb (fun o => mem_str o ["append"; "prepend"; "remove"]) (overrides name)) eqn:M2.
    { cbn [andb negb]. intros (sub' & subs' & v' & op' & r' & E & A). rewrite Ep in E. injection E as _ _ <- _ <- _. tauto. }
    cbn [andb negb]. split; [|exact Hv]. subst n. do 5 eexists. split; [exact Ep|]. rewrite Am. intros [X|X]; discriminate.
  - cbn [andb]. intros (sub' & subs' & v' & op' & r' & E & A). rewrite Ep in E. injection E as E _ _ _ _ _. subst n.
    now rewrite str_eqb_refl in N.
Qed.

Lemma given_first : forall n cs l, Forall2 valued_by cs l -> StronglySorted by_line l ->
  match coded_given n cs with
  | Some v => exists i, In i l /\ defines n i /\ text_of i v /\ forall j, In j l -> defines n j -> by_line i j
  | None => forall i, In i l -> ~ defines n i
  end.
Proof.
  intros n cs l H. induction H as [|x i cs l Hx _ IH]; intros Hl; [intros i []|].
  inversion Hl as [|? ? Hl1 Hl2]; subst. specialize (IH Hl1).
  pose proof (gives_iff n x i Hx) as G. cbn [coded_given]. destruct (gives n (snd x)) as [v|].
  - destruct G as [G1 G2]. exists i. split; [now left|]. split; [exact G1|]. split; [exact G2|].
    intros j [<-|Hj] _; [unfold by_line; lia|]. rewrite Forall_forall in Hl2. now apply Hl2.
  - destruct (coded_given n cs) as [v|].
    + destruct IH as [j [I1 [I2 [I3 I5]]]]. exists j. split; [now right|]. split; [exact I2|]. split; [exact I3|].
      intros k [<-|Hk] D; [contradiction|now apply I5].
    + intros j [<-|Hj]; [exact G|now apply IH].
Qed.

(** The names. *)
Lemma target_in : forall c name, In c (target name) -> In c name \/ c = 58%N.
Proof.
  intros c name H. unfold target in H. apply join_in in H. destruct H as [[H|[]]|[x [Hx H]]]; [now right|].
  assert (P : In x (split_char 58 name)).
  { unfold base_name, overrides in Hx. destruct (split_char 58 name) as [|p ps] eqn:E.
    - now apply split_char_nonnil in E.
    - cbn [hd tl] in Hx. destruct Hx as [<-|Hx]; [now left|]. right. now apply filter_In in Hx. }
  apply in_split in P. destruct P as [u [w P]]. left. rewrite <- (split_char_join 58 name), P. clear -H.
  induction u as [|y u IH].
  - cbn [app]. destruct w as [|z w]; [exact H|].
    change (join [58%N] (x :: z :: w)) with (x ++ [58%N] ++ join [58%N] (z :: w)). apply in_or_app. now left.
  - cbn [app]. destruct (u ++ x :: w) as [|z r] eqn:E; [now destruct u|].
    change (join [58%N] (y :: z :: r)) with (y ++ [58%N] ++ join [58%N] (z :: r)). apply in_or_app. right. now right.
Qed.
Lemma target_plain : forall name, var_name name -> ~ In 36%N name -> plain_text (target name).
Proof.
  intros name [_ Hn] Hd.
  assert (Hpar : ~ In 40%N (target name)).
  { intro H. apply target_in in H. destruct H as [H|H]; [|discriminate]. apply Hn in H.
    unfold name_char, letter, digit, between in H. cbn [In] in H. lia. }
  assert (Hdol : ~ In 36%N (target name)).
  { intro H. apply target_in in H. destruct H as [H|H]; [contradiction|discriminate]. }
  split; [split|]; apply contains_false; intros a b E.
  - apply Hpar. rewrite E. apply in_or_app. right. apply in_or_app. left. cbn. tauto.
  - apply Hpar. rewrite E. apply in_or_app. right. apply in_or_app. left. cbn. tauto.
  - apply Hdol. rewrite E. apply in_or_app. right. apply in_or_app. left. cbn. tauto.
Qed.

Lemma no_ignored : forall n cs, Forall proper (map snd cs) -> ~ In Ignored (coded_events n cs).
Proof.
  intros n cs H X. unfold coded_events in X. apply in_flat_map in X. destruct X as [[g x] [Hx X]]. cbn [snd] in X.
  rewrite Forall_forall in H. apply (in_map snd) in Hx. apply H in Hx. cbn [snd] in Hx.
  destruct x as [name op vs|name flag op v|name v|fs|name|name t bl al|qs name head b m z1 z2|h m| |p|name args rest m]; try destruct X.
  2: { destruct p as [d c|kw m|m|pa ns|pa v f|m|m [|c f]|op2 q2 c2]; try destruct X.
       destruct (str_eqb m n); [destruct X as [X|[]]; discriminate|destruct X]. }
  destruct (str_eqb (target name) n); [|destruct X]. destruct X as [X|[]].
  destruct Hx as (_ & (_ & _ & _ & Hop & _) & _). unfold coded_event in X.
  destruct (_ && _); [discriminate|]. unfold happens in X.
  destruct (mem_str _ _); [discriminate|]. destruct (mem_str _ _); [discriminate|]. destruct (mem_str _ _); [discriminate|].
  destruct (dget op canonical) as [f|] eqn:F; [|now apply dget_None in F].
  apply canonical_operator in F. destruct F; discriminate.
Qed.

Lemma recipe_stands : forall s file base cs l, sets_base (st_const s) = base ->
  (forall i, In i l <-> In i (st_list s) /\ visible s file i) -> Forall2 valued_by cs l -> StronglySorted by_line l ->
  forall n, stands_for s file n (coded_meaning base cs n).
Proof.
  intros s file base cs l Eb Ho Hs Hl n. pose proof (given_first n cs l Hs Hl) as G.
  assert (D : forall i, definition s file n i <-> In i l /\ defines n i).
  { intro i. unfold definition. rewrite Ho. unfold defines. tauto. }
  unfold coded_meaning. destruct (coded_given n cs) as [v|].
  - destruct G as [i (I1 & I2 & I3 & I5)]. cbn [stands_for]. left. exists i. split.
    + split; [apply D; now split|]. intros j Hj. apply D in Hj. now apply I5.
    + exact I3.
  - rewrite <- Eb. destruct (dget n (sets_base (st_const s))) as [b|] eqn:B; cbn [stands_for]; [right|]; (split; [|exact B]);
      intros i Hi; apply D in Hi; destruct Hi as [H1 H2]; now apply (G i).
Qed.

(** The values are those of the text. *)
Lemma typed_back : forall (name op v : str), as_typed name op [name ++ op ++ [cDQ] ++ v ++ [cDQ; cNL]] = v.
Proof.
  intros name op v. unfold as_typed. cbn [concat]. rewrite app_nil_r.
  assert (E : name ++ op ++ [cDQ] ++ v ++ [cDQ; cNL] = ((name ++ op) ++ [cDQ]) ++ v ++ [cDQ; cNL]) by (rewrite <- !app_assoc; reflexivity).
  rewrite E. clear E. assert (L : length (name ++ op) + 1 = length ((name ++ op) ++ [cDQ])) by (rewrite (app_length (name ++ op)); reflexivity).
  rewrite L, skipn_app, skipn_all, Nat.sub_diag. cbn [skipn app].
  rewrite app_length. replace (length v + length [cDQ; cNL] - 2) with (length v) by (cbn; lia).
  rewrite firstn_app, firstn_all, Nat.sub_diag. cbn [firstn]. apply app_nil_r.
Qed.
Lemma expands_known : forall k1 k2 b sp v w, (forall n, k1 n = k2 n) -> expands k1 b sp v w -> expands k2 b sp v w.
Proof.
  intros k1 k2 b sp v w Hk H. induction H as [sp|sp c v w Hc H IH|sp c v w Hc Hc2 H IH|sp n v w Hn Hi H IH|sp n c d v w Hn Hi Hkn Hc H1 IH1 H2 IH2
      |sp n b' v w Hn Hi Hkn Hv Hd H IH|sp n v w Hn Hi Hkn Hv H IH].
  - apply ex_end.
  - now apply ex_char.
  - now apply ex_dollar.
  - now apply ex_spare.
  - apply ex_known with (c := c); try assumption. now rewrite <- Hk.
  - apply ex_builtin; try assumption. now rewrite <- Hk.
  - apply ex_unknown; try assumption. now rewrite <- Hk.
Qed.
Lemma coded_valued : forall e neg cs l, Forall2 (stated_as e neg) cs l -> (forall c, In c cs -> restorable c) -> Forall2 valued_by cs l.
Proof.
  intros e neg cs l H. induction H as [|[g x] i cs l (Hi & Hp & Hs & Er & _) _ IH]; intro Hk; constructor;
    [|apply IH; intros c Hc; apply Hk; now right].
  cbn [fst snd] in *. split; [exact Hp|]. split; [exact Hs|]. unfold valued. cbn [snd].
  destruct x as [name op vs|name flag op v|name v|fs|name|name t bl al|qs name head b m z1 z2|h m| |p|name args rest m]; try exact I.
  destruct (assign_item name op vs i Hp Hs) as (_ & E1 & _). unfold text_in. cbn [snd fst].
  destruct (contains INLINE_BLOCK (join [cESC] vs)) eqn:C.
  - assert (O : occurs INLINE_BLOCK (join [cESC] vs)) by (apply contains_spec in C; destruct C as [a [b C]]; now exists a, b).
    destruct (Hk _ (or_introl eq_refl) O) as (p & rest & Eg & Hseg & Hcv). cbn [fst] in Eg.
    assert (T : as_typed name op g = Spec_Inline.written p rest).
    { pose proof (typed_back name op (Spec_Inline.written p rest)) as T. unfold as_typed in *. rewrite Eg.
      cbn [concat] in T. rewrite app_nil_r in T. exact T. }
    rewrite T. destruct Hp as [_ [(Hn & Hw & _ & Hop & _) _]]. pose proof (op_seg op Hop) as [[O1 O2] _]. destruct Hseg as [S1 S2].
    apply (C17_lemma e neg i name op p rest Hi).
    + now rewrite Er.
    + split; [reflexivity|]. split; [exact Hn|]. exists " ". split; [|discriminate].
      apply (canonical_op op (Spec_Inline.written p rest) Hop).
    + exact Hw.
    + intro X. apply in_app_or in X. destruct X as [X|X]. { now apply O1. } now apply S1.
    + intro X. apply in_app_or in X. destruct X; [now apply O2|now apply S2].
    + exact Hcv.
  - split; rewrite E1; [auto|]. rewrite C. discriminate.
Qed.

(** Statements that name no other files leave the items of other files out. *)
Lemma own_list : forall n e path off forced new neg db l s' ss,
  add_file n e path off forced (new_stash new neg db) = (Ok l, s') -> Forall2 stated_by ss l ->
  (forall y, In y ss -> brings y -> st_list s' = l) -> st_list s' = l.
Proof.
  intros n e path off forced new neg db l s' ss H F Hbr.
  assert (D : (exists y, In y ss /\ brings y) \/ forall y, In y ss -> ~ brings y).
  { clear. induction ss as [|y ss IH]; [right; intros y []|].
    destruct IH as [[z [Hz Bz]]|IH]; [left; exists z; split; [now right|exact Bz]|].
    assert (D : brings y \/ ~ brings y) by (destruct y as [| | | | | | | | |[]|]; cbn; tauto).
    destruct D as [D|D]; [left; exists y; split; [now left|exact D]|].
    right. intros z [<-|Hz]; [exact D|now apply IH]. }
  destruct D as [[y [Hy By]]|D]; [now apply (Hbr y)|].
  apply (one_file n e path off forced new neg db l s' H).
  clear -F D. induction F as [|a i ss l Ha _ IH]; constructor.
  - apply (stated_still a); [exact Ha|]. apply D. now left.
  - apply IH. intros y Hy. apply D. now right.
Qed.

(** The values of the variables, if the items that count for a file are those of
    the statements, in the order of the lines. *)
Lemma values_of : forall e s file cs l nolink d, env_ok e -> reach e s ->
  let base := sets_base (st_const s) in NoDup (dkeys base) -> (forall k, In k (dkeys base) -> plain_text k) ->
  Forall2 valued_by cs l -> StronglySorted by_line l -> StronglySorted strictly (filter isv l) ->
  (forall i, In i l <-> In i (st_list s) /\ visible s file i) ->
  (nolink = false \/ forall i, In i l -> it_origin i = file) ->
  (forall name op vs, In (Assign name op vs) (map snd cs) -> ~ In 36%N name) ->
  (forall name flag, In (Plain (UnsetVar name flag)) (map snd cs) -> length name = 1) ->
  expand_var e s (Some file) ANone ANone nolink = Ok d ->
  forall x, let evs := coded_events x cs in let start := preset s file x in
    (fold_left at_once evs start = None -> forall v, ~ In (LateRemoves v) evs) ->
    match assigned start evs with
    | None => dget x d = None
    | Some v => forall w, no_code v ->
        expands (coded_meaning base cs) (fun k => dget k (builtins file)) [] v w -> dget x d = Some (safe_linesplit w)
    end.
Proof.
  intros e s file cs l nolink d He Hre base Hb1 Hb2 FV SS SV HO Hnl Hd Hu Hex x evs start Hrem.
  assert (Hp : Forall proper (map snd cs)).
  { clear -FV. induction FV as [|c i cs l (P & _) _ IH]; cbn [map]; constructor; assumption. }
  destruct (C46_lemma e s file ANone ANone nolink d He Hre Hb1 Hb2 Hex) as [l' (L1 & L2 & L3 & L4)].
  assert (Cl : forall i, In i l -> (isv i = true /\ (classifier i = "Variable" \/ classifier i = "Unset")) \/ (isv i = false /\ classifier i <> "Variable" /\ classifier i <> "Unset")).
  { intros i Hi. clear -FV Hi. induction FV as [|a j cs l (_ & Ha & _) _ IH]; [destruct Hi|]. destruct Hi as [<-|Hi]; [now apply (stated_class (snd a))|auto]. }
  assert (E : l' = filter isv l).
  { apply sorted_same; [exact SV|exact L3|now apply NoDup_map_inv in L2|].
    intro i. rewrite L1, filter_In. split.
    - intros [Hi S].
      assert (Hil : In i l).
      { apply HO. split; [exact Hi|]. unfold visible.
        destruct S as [(S & _ & _)|(S & _ & _)]; cbn in S; (destruct S as [S|[S|[_ S]]]; [now left|right; now left|right; now right]). }
      split; [exact Hil|].
      destruct S as [(_ & S & _)|(_ & S & _)]; destruct (Cl i Hil) as [[C1 C2]|[C1 [C2 C3]]]; try exact C1;
        exfalso; cbn in S; destruct S as [S|S]; (discriminate || contradiction).
    - intros [Hi V]. destruct (proj1 (HO i) Hi) as [Hi1 Hi2]. split; [exact Hi1|].
      assert (Hf : file = [] \/ it_origin i = file \/ (nolink = false /\ linked s file (it_origin i))).
      { destruct Hi2 as [Z|[Z|Z]]; [now left|right; now left|]. destruct Hnl as [Hnl|Hnl]; [right; right; now split|].
        right. left. now apply Hnl. }
      destruct (Cl i Hi) as [[C1 [C2|C2]]|[C1 _]]; [| |congruence].
      + left. split; [exact Hf|]. split; [right; exact C2|exact I].
      + right. split; [cbn; destruct Hi2 as [Z|[Z|Z]]; tauto|]. split; [right; exact C2|exact I]. }
  assert (Hpl : forall i, In i l' -> plain_text (item_name_nomod i)).
  { intros i Hi. rewrite E in Hi. apply filter_In in Hi. destruct Hi as [Hi V]. clear -FV Hi V Hp Hd.
    induction FV as [|[g a] j cs l (_ & Ha & _) _ IH]; [destruct Hi|]. cbn [map snd] in *. inversion Hp as [|? ? Hpa Hps]; subst.
    destruct Hi as [<-|Hi]; [|apply IH; auto; intros name op vs X; apply (Hd name op vs); now right].
    destruct a as [name op vs|name flag op v|name v|fs|name|name t0 bl al|qs name head b m z1 z2|h m| |p|name args rest m];
      pose proof (stated_kind _ j Ha) as K; try congruence.
    2: { destruct p as [d0 c|kw m|m|pa ns|pa v f|m|m f|op2 q2 c2]; try congruence. destruct K as [[m' [g' K]] _].
         unfold item_name_nomod, var_name_nomod, Stash.var_name, var_subs. rewrite K. destruct (it_new j); split; try split; reflexivity. }
    clear K.
    destruct (assign_item name op vs j Hpa Ha) as (_ & _ & -> & _). apply target_plain.
    - now destruct Hpa as (_ & (A & _) & _).
    - apply (Hd name op vs). now left. }
  specialize (L4 Hpl x evs). rewrite E in L4. specialize (L4 (recipe_history x cs l FV Hu) Hrem).
  fold start in L4. destruct (assigned start evs) as [v|].
  - intros w Hw Hx. destruct L4 as [w' [W1 W2]]. rewrite W2. f_equal. f_equal.
    pose proof (recipe_stands s file base cs l eq_refl HO FV SS) as St.
    assert (Hone : forall m i j, definition s file m i -> definition s file m j -> it_line i = it_line j -> i = j).
    { intros m i j (D1 & V1 & X1) (D2 & V2 & X2) Q. destruct X1 as (? & ? & ? & ? & ? & P1 & _), X2 as (? & ? & ? & ? & ? & P2 & _).
      apply (strict_line (filter isv l)); [exact SV| | |exact Q]; apply filter_In; (split; [apply HO; now split|]); unfold isv; [now rewrite P1|now rewrite P2]. }
    pose proof (C45_exact_lemma e s file (coded_meaning base cs) He Hre Hone (fun m _ => St m) [] v w Hw Hx) as W3.
    unfold expand_term in W1. rewrite W3 in W1. now injection W1.
  - destruct L4 as [L4|[[a [b [L4 _]]] _]]; [exact L4|]. exfalso. apply (no_ignored x cs Hp). fold evs. rewrite L4.
    apply in_or_app. right. now left.
Qed.

Lemma C106_values_lemma : forall n e path off forced new neg db l s' t cs nolink d, env_ok e -> names_ok db ->
  NoDup (dkeys (sets_base db)) -> (forall k, In k (dkeys (sets_base db)) -> plain_text k) ->
  add_file n e path off forced (new_stash new neg db) = (Ok l, s') ->
  fs_read (e_fs e) (file_of e path) = RdText t -> coded neg cs (universal_newlines t) ->
  let ss := map snd cs in (forall c, In c cs -> restorable c) ->
  (forall name op vs, In (Assign name op vs) ss -> ~ In 36%N name) ->
  (forall name flag, In (Plain (UnsetVar name flag)) ss -> length name = 1) ->
  (forall y, In y ss -> brings y -> st_list s' = l) ->
  expand_var e s' (Some (file_of e path)) ANone ANone nolink = Ok d ->
  forall x, let evs := coded_events x cs in
    let start := preset (new_stash new neg db) (file_of e path) x in
    (fold_left at_once evs start = None -> forall v, ~ In (LateRemoves v) evs) ->
    match assigned start evs with
    | None => dget x d = None
    | Some v => forall w, no_code v ->
        expands (coded_meaning (sets_base db) cs) (fun k => dget k (builtins (file_of e path))) [] v w ->
        dget x d = Some (safe_linesplit w)
    end.
Proof.
  intros n e path off forced new neg db l s' t cs nolink d He Hn Hb1 Hb2 H Hr Hs ss Hk Hd Hu Hbr Hex x.
  set (file := file_of e path) in *.
  assert (Hc : considered e path (new_stash new neg db)) by (split; [intros []|intros []]).
  pose proof (coded_stated n e path off forced _ l s' t cs (filled_new e new neg db) H Hc Hr Hs) as FS.
  pose proof (coded_valued _ _ _ _ FS Hk) as FV.
  destruct (coded_plain _ _ _ _ FS) as [F Hp]. fold ss in F, Hp.
  assert (EL : st_list s' = l) by now apply (own_list n e path off forced new neg db l s' ss H F).
  pose proof (base_kept n e path off forced (new_stash new neg db) (Ok l) s' Hn H) as EB.
  change (sets_base (st_const (new_stash new neg db))) with (sets_base db) in EB.
  pose proof (strict_sorted l (fun pre a mid b post E => proj1 (C03_lemma n e path off forced _ l s' H pre a mid b post E))) as SS.
  pose proof (C04_lemma n e path off forced _ l s' H) as FO. rewrite Forall_forall in FO.
  assert (HO : forall i, In i l -> it_origin i = file) by (intros i Hi; now apply FO).
  assert (Hre : reach e s').
  { exists new, neg, db. eapply steps_add; [apply steps_refl|exact H]. }
  assert (HV : forall i, In i l <-> In i (st_list s') /\ visible s' file i).
  { intro i. rewrite EL. split; [|tauto]. intro Hi. split; [exact Hi|]. right. left. now apply HO. }
  pose proof (values_of e s' file cs l nolink d He Hre) as G. cbv zeta in G. rewrite EB in G.
  specialize (G Hb1 Hb2 FV (strictly_by_line _ SS) (sorted_filter _ isv _ SS) HV (or_intror HO) Hd Hu Hex x).
  assert (Est : preset s' file x = preset (new_stash new neg db) file x) by (unfold preset; now rewrite EB).
  rewrite Est in G. exact G.
Qed.

(** A recipe without inline code. *)
Lemma plain_text_in : forall vs, ~ occurs INLINE_BLOCK (join [cESC] vs) ->
  contains INLINE_BLOCK (join [cESC] vs) = false.
Proof.
  intros vs Hb.
  apply Bool.not_true_iff_false. intro C. apply contains_spec in C. apply Hb. destruct C as [a [b C]]. now exists a, b.
Qed.
Lemma plain_events : forall n ss, (forall name op vs, In (Assign name op vs) ss -> ~ occurs INLINE_BLOCK (join [cESC] vs)) ->
  coded_events n (map as_written ss) = events n ss.
Proof.
  intros n ss. induction ss as [|x ss IH]; intro H; [reflexivity|]. cbn [map].
  unfold coded_events, events in *. cbn [flat_map as_written snd]. f_equal; [|apply IH; intros name op vs X; apply (H name op vs); now right].
  destruct x; try reflexivity. destruct (str_eqb (target name) n); [|reflexivity]. unfold coded_event.
  now rewrite (plain_text_in vs (H name op vs (or_introl eq_refl))).
Qed.
Lemma plain_meaning : forall base n ss, (forall name op vs, In (Assign name op vs) ss -> ~ occurs INLINE_BLOCK (join [cESC] vs)) ->
  coded_meaning base (map as_written ss) n = meaning base ss n.
Proof.
  intros base n ss H. unfold coded_meaning, meaning.
  assert (E : coded_given n (map as_written ss) = first_given n ss); [|now rewrite E].
  induction ss as [|x ss IH]; [reflexivity|]. cbn [map coded_given first_given as_written snd].
  rewrite IH by (intros name op vs X; apply (H name op vs); now right). destruct (gives n x) as [v|] eqn:G; [|reflexivity].
  f_equal. destruct x; try discriminate G. cbn [gives] in G. destruct (_ && _) in G; [|discriminate]. injection G as <-.
  unfold text_in, as_written. cbn [snd fst]. now rewrite (plain_text_in vs (H name op vs (or_introl eq_refl))).
Qed.

Lemma C101_lemma : forall n e path off forced new neg db l s' t ss nolink d, env_ok e -> names_ok db ->
  NoDup (dkeys (sets_base db)) -> (forall k, In k (dkeys (sets_base db)) -> plain_text k) ->
  add_file n e path off forced (new_stash new neg db) = (Ok l, s') ->
  fs_read (e_fs e) (file_of e path) = RdText t -> recipe ss (universal_newlines t) ->
  (forall name op vs, In (Assign name op vs) ss -> ~ In 36%N name /\ ~ occurs INLINE_BLOCK (join [cESC] vs)) ->
  (forall name flag, In (Plain (UnsetVar name flag)) ss -> length name = 1) ->
  (forall y, In y ss -> brings y -> st_list s' = l) ->
  expand_var e s' (Some (file_of e path)) ANone ANone nolink = Ok d ->
  forall x, let evs := events x ss in
    let start := preset (new_stash new neg db) (file_of e path) x in
    (fold_left at_once evs start = None -> forall v, ~ In (LateRemoves v) evs) ->
    match assigned start evs with
    | None => dget x d = None
    | Some v => forall w, no_code v ->
        expands (meaning (sets_base db) ss) (fun k => dget k (builtins (file_of e path))) [] v w ->
        dget x d = Some (safe_linesplit w)
    end.
Proof.
  intros n e path off forced new neg db l s' t ss nolink d He Hn Hb1 Hb2 H Hr Hs Hd Hu Hbr Hex x.
  apply (recipe_coded neg) in Hs.
  pose proof (C106_values_lemma n e path off forced new neg db l s' t _ nolink d He Hn Hb1 Hb2 H Hr Hs) as G.
  assert (K : forall name op vs, In (Assign name op vs) ss -> ~ occurs INLINE_BLOCK (join [cESC] vs)).
  { intros name op vs X. apply (proj2 (Hd name op vs X)). }
  rewrite as_written_snd in G.
  specialize (G ltac:(intros c Hc; apply in_map_iff in Hc; destruct Hc as [y [<- Hy]]; unfold restorable; cbn [as_written snd];
    destruct y; try exact I; intro O; now destruct (K _ _ _ Hy))).
  specialize (G (fun name op vs X => proj1 (Hd name op vs X)) Hu Hbr Hex x). cbv zeta in G. rewrite (plain_events x ss K) in G.
  cbv zeta. intro Hrem. specialize (G Hrem).
  destruct (assigned _ _) as [v|]; [|exact G]. intros w W1 W2. apply G; [exact W1|].
  eapply expands_known; [|exact W2]. intro k. symmetry. now apply plain_meaning.
Qed.

(** ** Operators and inline code *)

Lemma typed_same : forall n cs, (forall c, In c cs -> set_anew n c) -> coded_events n cs = typed_events n cs.
Proof.
  intros n cs. induction cs as [|[g x] cs IH]; intro H; [reflexivity|].
  unfold coded_events, typed_events in *. cbn [flat_map snd].
  rewrite IH by (intros c Hc; apply H; now right). f_equal. pose proof (H _ (or_introl eq_refl)) as S. unfold set_anew in S. cbn [snd] in S.
  destruct x as [name op vs|name flag op v|name v|fs|name|name t bl al|qs name head b m z1 z2|h m| |p|name args rest m]; try reflexivity.
  destruct (str_eqb (target name) n) eqn:T; [|reflexivity]. apply str_eqb_eq in T. f_equal. unfold coded_event, text_in. cbn [snd fst].
  destruct (contains INLINE_BLOCK (join [cESC] vs)) eqn:C; [|reflexivity].
  assert (O : occurs INLINE_BLOCK (join [cESC] vs)) by (apply contains_spec in C; destruct C as [a [b C]]; now exists a, b).
  destruct (S T O) as [Hop Hno].
  assert (M : forall o, operation o -> mem_str o (overrides name) = false).
  { intros o Ho. apply Bool.not_true_iff_false. rewrite mem_str_In. now apply Hno. }
  assert (E : existsb (fun o => mem_str o ["append"; "prepend"; "remove"]) (overrides name) = false).
  { apply Bool.not_true_iff_false. rewrite existsb_exists. intros [o [O1 O2]]. apply mem_str_In in O2. now apply (Hno o). }
  rewrite E. cbn [negb andb]. unfold happens.
  rewrite !M by (unfold operation; cbn; tauto). destruct Hop as [<-|[<-|[]]]; reflexivity.
Qed.

Lemma C77_recipe_lemma : forall n e path off forced new neg db l s' t cs nolink d, env_ok e -> names_ok db ->
  NoDup (dkeys (sets_base db)) -> (forall k, In k (dkeys (sets_base db)) -> plain_text k) ->
  add_file n e path off forced (new_stash new neg db) = (Ok l, s') ->
  fs_read (e_fs e) (file_of e path) = RdText t -> coded neg cs (universal_newlines t) ->
  let ss := map snd cs in (forall c, In c cs -> restorable c) ->
  (forall name op vs, In (Assign name op vs) ss -> ~ In 36%N name) ->
  (forall name flag, In (Plain (UnsetVar name flag)) ss -> length name = 1) ->
  (forall y, In y ss -> brings y -> st_list s' = l) ->
  expand_var e s' (Some (file_of e path)) ANone ANone nolink = Ok d ->
  forall x, (forall c, In c cs -> set_anew x c) -> let evs := typed_events x cs in
    let start := preset (new_stash new neg db) (file_of e path) x in
    (fold_left at_once evs start = None -> forall v, ~ In (LateRemoves v) evs) ->
    match assigned start evs with
    | None => dget x d = None
    | Some v => forall w, no_code v ->
        expands (coded_meaning (sets_base db) cs) (fun k => dget k (builtins (file_of e path))) [] v w ->
        dget x d = Some (safe_linesplit w)
    end.
Proof.
  intros n e path off forced new neg db l s' t cs nolink d He Hn Hb1 Hb2 H Hr Hs ss Hk Hd Hu Hbr Hex x Hx.
  rewrite <- (typed_same x cs Hx).
  exact (C106_values_lemma n e path off forced new neg db l s' t cs nolink d He Hn Hb1 Hb2 H Hr Hs Hk Hd Hu Hbr Hex x).
Qed.
