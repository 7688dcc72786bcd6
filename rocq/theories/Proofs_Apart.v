(** * Files that have nothing to do with another one: proofs *)

From Verif Require Import PyStr Regex Patterns PyPath Res Inline Const Item Lines Stash
  StrFacts ReFacts NameFacts LinesFacts ParseFacts HistFacts ReachFacts MapFacts AppendFacts QueryFacts
  Spec_Query Spec_Files Proofs_Files Proofs_Query Spec_Load Spec_Causes Proofs_Causes Spec_Apart Proofs_Compose.

Section Apart.
Context (e : env) (f : str).
Notation file_at p := (abspath (fs_cwd (e_fs e)) p).

(** [F]: the files read, [new]: the items added, [X]: [f] itself is being read. *)
Definition touch (X : Prop) (F : list str) (new : list item) (s s' : stash) : Prop :=
  (forall k y, linked s k y -> linked s' k y) /\
  (forall y, linked s' f y -> linked s f y \/ X \/ exists x, In x F /\ (x = f \/ answers x f)) /\
  exists g, raises g /\ st_list s' = map g (st_list s) ++ new /\
    (forall i, g i = i \/ exists x, In x F /\ answers (it_origin i) x) /\
    (forall i, In i new -> In (it_origin i) F).
Definition named (new : list item) (y : str) : Prop := exists i p, In i new /\ names_file i p /\ y = file_at p.

Lemma named_map : forall g new y, raises g -> named new y -> named (map g new) y.
Proof.
  intros g new y Hg (i & p & Hi & Hp & ->). exists (g i), p. split; [now apply in_map|]. split; [|reflexivity].
  pose proof (proj1 (Hg i)) as E. unfold names_file in *. rewrite E. exact Hp.
Qed.
Lemma named_app : forall a b y, named (a ++ b) y <-> named a y \/ named b y.
Proof.
  intros a b y. split.
  - intros (i & p & Hi & H). apply in_app_or in Hi. destruct Hi as [Hi|Hi]; [left|right]; exists i, p; auto.
  - intros [(i & p & Hi & H)|(i & p & Hi & H)]; exists i, p; (split; [apply in_or_app; auto|exact H]).
Qed.

Definition okF {A} (X : Prop) (x : M A) (Q : A -> str -> Prop) : Prop :=
  forall s a s', x s = (Ok a, s') -> exists F new, touch X F new s s' /\
    (forall y, In y F -> Q a y \/ named new y) /\ forall y, In y F -> exists k, linked s' k y.
Definition none_of {A} (a : A) (y : str) : Prop := False.

Lemma touch_same : forall X s s', st_list s' = st_list s -> st_map s' = st_map s -> touch X [] [] s s'.
Proof.
  intros X s s' El Em. unfold touch, linked. rewrite El, Em. split; [auto|]. split; [auto|].
  exists (fun i => i). rewrite map_id, app_nil_r. split; [apply raises_id|]. split; [reflexivity|]. split; [auto|intros i []].
Qed.
Lemma touch_trans : forall X F1 n1 F2 n2 s s1 s2, touch X F1 n1 s s1 -> touch X F2 n2 s1 s2 ->
  exists g, raises g /\ touch X (F1 ++ F2) (map g n1 ++ n2) s s2.
Proof.
  intros X F1 n1 F2 n2 s s1 s2 (A1 & A2 & g1 & A3 & A4 & A5 & A6) (B1 & B2 & g2 & B3 & B4 & B5 & B6).
  exists g2. split; [exact B3|]. split; [auto|]. split.
  { intros y H. apply B2 in H. destruct H as [H|[H|[x [Hx H]]]]; [|auto|].
    - apply A2 in H. destruct H as [H|[H|[x [Hx H]]]]; auto. right. right. exists x. split; [apply in_or_app; auto|exact H].
    - right. right. exists x. split; [apply in_or_app; auto|exact H]. }
  exists (fun i => g2 (g1 i)). split; [now apply raises_comp|]. split.
  { now rewrite B4, A4, map_app, map_map, app_assoc. }
  split.
  - intro i. destruct (A5 i) as [E|[x [Hx H]]].
    + rewrite E. destruct (B5 i) as [E2|[x [Hx H]]]; [now left|]. right. exists x. split; [apply in_or_app; auto|exact H].
    + right. exists x. split; [apply in_or_app; auto|exact H].
  - intros i Hi. apply in_app_or in Hi. apply in_or_app. destruct Hi as [Hi|Hi]; [left|right; auto].
    apply in_map_iff in Hi. destruct Hi as [j [<- Hj]]. rewrite raises_it_origin by assumption. auto.
Qed.

Lemma okF_same : forall A X (x : M A), (forall s r s', x s = (r, s') -> st_list s' = st_list s /\ st_map s' = st_map s) ->
  okF X x none_of.
Proof.
  intros A X x H s a s' E. destruct (H _ _ _ E) as [E1 E2]. exists [], []. split; [now apply touch_same|]. split; intros y [].
Qed.
Lemma okF_ret : forall A X (a : A), okF X (ret a) none_of.
Proof. intros A X a. apply okF_same. intros s r s' E. inversion E; subst. auto. Qed.
Lemma okF_bind : forall A B X (x : M A) (k : A -> M B) P Q, okF X x P ->
  (forall a, okF X (k a) (fun b y => Q b y)) -> (forall s a s1 b s2, x s = (Ok a, s1) -> k a s1 = (Ok b, s2) -> forall y, P a y -> Q b y) ->
  okF X (bindM x k) Q.
Proof.
  intros A B X x k P Q Hx Hk HPQ s b s' E. unfold bindM in E. destruct (x s) as [[a|ex|] s1] eqn:Ex; try discriminate.
  destruct (Hx _ _ _ Ex) as (F1 & n1 & T1 & H1 & K1). destruct (Hk a _ _ _ E) as (F2 & n2 & T2 & H2 & K2).
  destruct (touch_trans _ _ _ _ _ _ _ _ T1 T2) as [g [Hg T]]. exists (F1 ++ F2), (map g n1 ++ n2). split; [exact T|].
  split; intros y Hy; apply in_app_or in Hy; destruct Hy as [Hy|Hy].
  3: { apply K1 in Hy. destruct Hy as [k0 Hy]. exists k0. now apply (proj1 T2). }
  3: now apply K2.
  - apply H1 in Hy. destruct Hy as [Hy|Hy]; [left; eauto|right]. apply named_app. left. now apply named_map.
  - apply H2 in Hy. destruct Hy as [Hy|Hy]; [now left|right]. apply named_app. now right.
Qed.
Lemma okF_weak : forall A X (x : M A) (Q Q' : A -> str -> Prop), (forall a y, Q a y -> Q' a y) -> okF X x Q -> okF X x Q'.
Proof.
  intros A X x Q Q' H Hx s a s' E. destruct (Hx _ _ _ E) as (F & new & T & H1 & K). exists F, new. split; [exact T|]. split; [|exact K].
  intros y Hy. destruct (H1 y Hy); auto.
Qed.
Lemma okF_none : forall A X (x : M A) Q, okF X x none_of -> okF X x Q.
Proof. intros A X x Q. apply okF_weak. intros a y []. Qed.

(** With files already read, which the result must name. *)
Definition okP {A} (X : Prop) (x : M A) (pre : str -> Prop) (Q : A -> str -> Prop) : Prop :=
  okF X x Q /\ forall s a s', x s = (Ok a, s') -> forall y, pre y -> Q a y.
Lemma okP_bind : forall A B X (x : M A) (k : A -> M B) (pre : str -> Prop) P Q, okP X x pre P -> (forall a, okP X (k a) (P a) Q) ->
  okP X (bindM x k) pre Q.
Proof.
  intros A B X x k pre P Q [H1 H2] Hk. split.
  - eapply okF_bind; [exact H1|intro a; apply (proj1 (Hk a))|]. intros s a s1 b s2 E1 E2 y Hy. eapply (proj2 (Hk a)); eassumption.
  - intros s b s' E y Hy. unfold bindM in E. destruct (x s) as [[a|ex|] s1] eqn:Ex; try discriminate.
    eapply (proj2 (Hk a)); [exact E|]. eapply H2; eassumption.
Qed.
Lemma okP_same : forall A X (x : M A) (pre : str -> Prop),
  (forall s r s', x s = (r, s') -> st_list s' = st_list s /\ st_map s' = st_map s) -> okP X x pre (fun _ => pre).
Proof. intros A X x pre H. split; [apply okF_none; now apply okF_same|auto]. Qed.
Lemma okP_ret : forall A X (a : A) (pre : str -> Prop) (Q : A -> str -> Prop), (forall y, pre y -> Q a y) -> okP X (ret a) pre Q.
Proof. intros A X a pre Q H. split; [apply okF_none, okF_ret|]. intros s b s' E y Hy. inversion E; subst. auto. Qed.
Lemma okP_weak : forall A X (x : M A) (pre pre' : str -> Prop) (Q Q' : A -> str -> Prop),
  (forall y, pre' y -> pre y) -> (forall a y, Q a y -> Q' a y) -> okP X x pre Q -> okP X x pre' Q'.
Proof. intros A X x pre pre' Q Q' H1 H2 [Ha Hb]. split; [eapply okF_weak; eauto|]. intros s a s' E y Hy. eauto. Qed.
Lemma okP_new : forall C X mk (g : item -> C) (pre : str -> Prop) (Q : C -> str -> Prop),
  (forall n y, pre y -> Q (g (mk n)) y) -> okP X (dom i <- new_item mk; ret (g i)) pre Q.
Proof.
  intros C X mk g pre Q HQ. split.
  - apply okF_none, okF_same. intros s r s' E. unfold new_item, fresh, bindM, ret in E. inversion E; subst. auto.
  - intros s a s' E y Hy. unfold new_item, fresh, bindM, ret in E. inversion E; subst. auto.
Qed.

Definition named_by (ps : list str) (y : str) : Prop := exists p, In p ps /\ y = file_at p.
Definition addf_okF (addf : addfile_t) (file : str) : Prop :=
  forall p o (pre : str -> Prop), okP (file = f) (addf p o file) pre (fun _ y => pre y \/ y = file_at p).

Lemma okF_inherit : forall addf locs file text line l paths off, addf_okF addf file ->
  okP (file = f) (inherit_loop e addf locs file text line l paths off) (named_by paths) (fun r => named_by (fst r)).
Proof.
  intros addf locs file text line l. induction l as [|x l IH]; intros paths off Ha; simpl.
  - apply okP_ret. auto.
  - eapply okP_bind; [apply (okP_same _ _ _ _ (find_class_same _ _ _ _))|].
    intros [|c p]; [now apply IH|].
    eapply okP_bind; [apply (okP_same _ _ _ _ (lift_same _ _))|].
    intros [|]; [now apply IH|].
    eapply okP_bind; [apply Ha|]. intro tmp. cbn beta. eapply okP_weak; [| |now apply IH]; [|auto].
    intros y [[q [Hq ->]]| ->]; eexists; (split; [apply add_set_In|reflexivity]); auto.
Qed.

Definition item_names (i : item) (y : str) : Prop := exists p, names_file i p /\ y = file_at p.
Definition opt_names (o : option (item * Z)) (y : str) : Prop :=
  match o with Some (i, _) => item_names i y | None => False end.
Definition noF (y : str) : Prop := False.

Lemma okF_handle : forall addf p file line k mt, addf_okF addf file ->
  okP (file = f) (handle e addf p file line k mt) noF opt_names.
Proof.
  intros addf p file line k mt Ha.
  assert (Hd : forall mk, okP (file = f) (dom i <- new_item (fun n => mk (p n)); ret (Some (i, 0%Z))) noF opt_names).
  { intro mk. apply (okP_new _ _ (fun n => mk (p n)) (fun i => Some (i, 0%Z))). intros n y []. }
  assert (Hinh : forall locs a st, okP (file = f)
      (dom inhname <- liftR (fun s => expand_term e s file a);
       dom r <- inherit_loop e addf locs file inhname line (keep_nonempty (split_char cSP inhname)) [] 0%Z;
       dom i <- new_item (fun n => mk_item (p n) (ip_new (p n)) (PInherit a st (fst r)));
       ret (Some (i, snd r))) noF opt_names).
  { intros locs a st. eapply okP_bind; [apply (okP_same _ _ _ _ (lift_same _ _))|]. intro text.
    eapply okP_bind; [eapply okP_weak; [| |apply okF_inherit; exact Ha]; [intros y []|intros r y H; exact H]|].
    intro r. apply (okP_new _ _ (fun n => mk_item (p n) (ip_new (p n)) (PInherit a st (fst r))) (fun i => Some (i, snd r))).
    intros n x [q [Hq ->]]. exists q. split; [exact Hq|reflexivity]. }
  destruct k; unfold handle;
    try (match goal with |- okP _ (bindM (new_item (fun n => mk_item (p n) (ip_new (p n)) ?pay)) _) _ _ =>
           apply (Hd (fun q => mk_item q (ip_new q) pay)) end).
  - eapply okP_bind; [apply (okP_same _ _ _ _ (lift_same _ _))|]. intro known.
    apply (Hd (fun q => mk_function known q (group "func" mt) (group_str "funcbody" mt)
                                 (matched (group "py" mt)) (matched (group "fr" mt)))).
  - apply Hinh.
  - apply Hinh.
  - eapply okP_bind; [apply (okP_same _ _ _ _ (lift_same _ _))|]. intro text.
    eapply okP_bind; [apply (okP_same _ _ _ _ (find_same _ _ _))|]. intro path.
    assert (Hfin : forall (off : Z) (pre : str -> Prop), (forall y, pre y -> path <> [] /\ y = file_at path) -> okP (file = f)
       (dom i <- new_item (fun n => mk_item (p n) (ip_new (p n))
                   (PInclude (group_str "incname" mt) (group_str "statement" mt) path));
        ret (Some (i, off))) pre opt_names).
    { intros off pre Hp. apply (okP_new _ _ (fun n => mk_item (p n) (ip_new (p n))
                   (PInclude (group_str "incname" mt) (group_str "statement" mt) path)) (fun i => Some (i, off))).
      intros n y H. apply Hp in H. destruct H as [H1 ->].
      exists path. split; [split; [reflexivity|exact H1]|reflexivity]. }
    destruct path as [|c path]; [apply Hfin; intros y []|].
    eapply okP_bind; [apply (okP_same _ _ _ _ (lift_same _ _))|]. intros [|]; [apply okP_ret; intros y []|].
    eapply okP_bind; [apply Ha|]. intro tmp. apply Hfin. intros y [[]| ->]. split; [discriminate|auto].
  - destruct (existsb _ pkg_prefixes); [apply okP_ret; intros y []|].
    apply (Hd (fun q => mk_taskadd q (group_str "func" mt) (group_str "before" mt)
                                     (group_str "after" mt) (group_str "comment" mt))).
  - apply (Hd (fun q => mk_variable q (group_str "varname" mt) (group_str "varval" mt)
                                        (group_str "varop" mt))).
Qed.

Lemma okF_try : forall addf p file line cnt l, addf_okF addf file ->
  okP (file = f) (try_kinds e addf p file line cnt l) noF (fun x => item_names (fst x)).
Proof.
  intros addf p file line cnt l Ha. induction l as [|[k r] l IH]; cbn [try_kinds].
  - apply (okP_new _ _ (fun n => mk_item (p n) (ip_new (p n)) PItem) (fun i => (i, 0%Z))). intros n x [].
  - destruct (re_match r cnt) as [mt|]; [|exact IH].
    eapply okP_bind; [apply okF_handle; exact Ha|].
    intros [[i z]|]; [apply okP_ret; auto|exact IH].
Qed.
Lemma okF_chunks : forall addf file off cs inc new, addf_okF addf file ->
  okF (file = f) (parse_chunks e addf file off inc new cs) named.
Proof.
  intros addf file off cs. induction cs as [|c cs IH]; intros inc new Ha; cbn [parse_chunks].
  - apply okF_none, okF_ret.
  - eapply okF_bind; [apply (proj1 (okF_try _ _ _ _ _ _ Ha))| |].
    + intro x. eapply okF_bind; [apply (IH _ _ Ha)|intro l; apply okF_none, okF_ret|].
      intros s l s1 b s2 _ E y (i & p & Hi & H). inversion E; subst. exists i, p. split; [now right|exact H].
    + intros s x s1 b s2 _ E y [p H]. unfold bindM, ret in E. destruct (parse_chunks _ _ _ _ _ _ _ s1) as [[l|ex|] s3]; try discriminate.
      inversion E; subst. exists (fst x), p. split; [now left|exact H].
Qed.

(** ** The end of a file *)

Lemma match_raise : forall file items s l s', match_appends file items s = (Ok l, s') ->
  exists g, raises g /\ st_list s' = map g (st_list s) /\
    (forall i, g i = i \/ answers (it_origin i) file) /\ exists mx, l = map (fun i => set_line (it_line i + mx) i) items.
Proof.
  intros file items s l s' H.
  assert (Hmx : exists mx, l = map (fun i => set_line (it_line i + mx) i) items).
  { apply match_appends_cases in H. destruct H as (_ & _ & _ & _ & H). now apply H. }
  assert (Hid : st_list s' = st_list s -> exists g, raises g /\ st_list s' = map g (st_list s) /\
    (forall i, g i = i \/ answers (it_origin i) file) /\ exists mx, l = map (fun i => set_line (it_line i + mx) i) items).
  { intro E. exists (fun i => i). rewrite map_id. split; [apply raises_id|]. auto. }
  unfold match_appends in H. destruct (endswith ".bbappend" file).
  - destruct (dyn_pattern (append_pattern file)) as [rx|]; [|discriminate].
    destruct (fold_left _ _ _) as [mp mx]. inversion H; subst. now apply Hid.
  - destruct (endswith ".bb" file) eqn:Eb; [|inversion H; subst; now apply Hid].
    destruct (link_recipe _ _ _ _ _) as [[l0 mp]|ex|] eqn:E; inversion H; subst.
    apply link_recipe_list in E. subst. eexists. split; [apply recipe_raise_raises|]. split; [reflexivity|]. split; [|exact Hmx].
    intro i. unfold recipe_raise. destruct (endswith ".bbappend" (it_origin i)) eqn:Ea; [|now left].
    destruct (dyn_pattern (recipe_pattern (it_origin i))) as [rx|] eqn:Ed; [|now left].
    destruct (matched _) eqn:Em; [|now left]. right. apply recipe_answers; auto. exists rx. auto.
Qed.

Lemma leave_touch : forall file forced items s l s', leave e file forced items s = (Ok l, s') ->
  (forall i, In i items -> it_origin i = file) ->
  touch (forced = Some f) [file] l s s' /\ exists mx, l = map (fun i => set_line (it_line i + mx) i) items.
Proof.
  intros file forced items s l s' H Ho. pose proof (leave_map _ _ _ _ _ _ _ H) as [Hm _].
  apply leave_parts in H. destruct H as (s2 & H & EL & _). apply match_raise in H.
  destruct H as (g & Hg & EL2 & Hi & mx & El). cbn [st_list with_map] in EL2. split; [|now exists mx]. split.
  { intros k0 y [k [E Hy]]. destruct (extends_get _ _ _ _ _ Hm E) as [r [Er _]]. exists (k ++ r). split; [exact Er|]. apply in_or_app. auto. }
  split.
  { intros y Hy. destruct (extends_linked _ _ _ _ _ Hm Hy) as [H|H]; [now left|right].
    destruct H as [[H _]|[[Ha [_ Hk]]|[Hb [-> _]]]]; [now left| |].
    - right. exists file. split; [now left|]. right. now apply append_answers.
    - right. exists file. split; [now left|]. now left. }
  exists g. split; [exact Hg|]. split; [now rewrite EL, EL2|]. split.
  - intro i. destruct (Hi i) as [E|E]; [now left|]. right. exists file. split; [now left|exact E].
  - intros i Hin. left. rewrite El in Hin. apply in_map_iff in Hin. destruct Hin as [j [<- Hj]]. symmetry. cbn. now apply Ho.
Qed.

Lemma touch_X : forall (X Y : Prop) F new s s', (X -> Y \/ exists x, In x F /\ (x = f \/ answers x f)) -> touch X F new s s' -> touch Y F new s s'.
Proof.
  intros X Y F new s s' H (A1 & A2 & A3). split; [exact A1|]. split; [|exact A3].
  intros y Hy. apply A2 in Hy. destruct Hy as [Hy|[Hy|Hy]]; auto.
Qed.
Lemma touch_F : forall X F F' new s s', (forall x, In x F -> In x F') -> touch X F new s s' -> touch X F' new s s'.
Proof.
  intros X F F' new s s' H (A1 & A2 & g & A3 & A4 & A5 & A6). split; [exact A1|]. split.
  - intros y Hy. apply A2 in Hy. destruct Hy as [Hy|[Hy|[x [Hx Hy]]]]; auto. right. right. exists x. auto.
  - exists g. split; [exact A3|]. split; [exact A4|]. split; [|auto].
    intro i. destruct (A5 i) as [E|[x [Hx Hy]]]; [now left|]. right. exists x. auto.
Qed.

Lemma abspath_some : forall cwd p, abspath cwd p <> [].
Proof. intros cwd p. unfold abspath, normpath. cbv zeta. destruct (_ ++ _) eqn:E; [discriminate|]. discriminate. Qed.

Definition unforced (forced : option str) : Prop := forced = None \/ forced = Some [].
Lemma okF_add_file : forall n path off forced s l s', add_file n e path off forced s = (Ok l, s') ->
  exists F new, touch (forced = Some f) F new s s' /\ (forall y, In y F -> y = file_at path \/ named new y) /\
    forall y, In y F -> (unforced forced /\ y = file_at path) \/ exists k, linked s' k y.
Proof.
  induction n as [|n IH]; intros path off forced s l s' E; [discriminate|].
  destruct (skipped e path s) eqn:Es.
  { rewrite add_file_eq in E. cbv zeta in E. rewrite Es in E. inversion E; subst. exists [], [].
    split; [now apply touch_same|]. split; intros y []. }
  destruct (add_file_parts _ _ _ _ _ _ _ _ E Es) as (m & cs & items & s1 & Em & Eg & El & _ & _ & Hps).
  injection Em as <-. set (file := file_at path) in *. apply parsed_origin in Hps. rewrite Forall_forall in Hps.
  apply leave_touch in El; [|exact Hps]. destruct El as [T2 [mx El]].
  unfold get_items, bindM, liftR in Eg. destruct (prepare_file _ _ _ _) as [cs'|ex|]; try discriminate.
  assert (Hown : (unforced forced /\ file = file_at path) \/ exists k, linked s' k file).
  { destruct forced as [[|c g]|]; [left; split; [now right|reflexivity]| |left; split; [now left|reflexivity]].
    right. exists (c :: g). apply (forced_linked _ _ _ _ _ _ _ _ E Es). discriminate. }
  apply okF_chunks in Eg.
  - destruct Eg as (F & new & T1 & H1 & K1).
    assert (T1' : touch (forced = Some f) (F ++ [file]) new (enter file s) s1).
    { eapply touch_X; [|eapply touch_F; [|exact T1]].
      - intros ->. right. exists f. split; [apply in_or_app; right; now left|now left].
      - intros x Hx. apply in_or_app. now left. }
    destruct (touch_trans _ _ _ _ _ _ _ _ T1' T2) as [g [Hg T]]. exists ((F ++ [file]) ++ [file]), (map g new ++ l). split.
    + exact T.
    + split; intros y Hy; apply in_app_or in Hy; destruct Hy as [Hy|[<-|[]]]; try exact Hown; try (now left);
        apply in_app_or in Hy; destruct Hy as [Hy|[<-|[]]]; try exact Hown; try (now left).
      * right. apply named_app. apply H1 in Hy. destruct Hy as [(i & p & Hi & Hy)|Hy]; [right|left; now apply named_map].
        exists (set_line (it_line i + mx) i), p. split; [|exact Hy]. rewrite El. apply in_map_iff. exists i. auto.
      * right. apply K1 in Hy. destruct Hy as [k Hy]. exists k. now apply (proj1 T2).
  - intros p o pre. split; [|auto]. intros s2 a s3 Ea. destruct (IH p o (Some file) s2 a s3 Ea) as (F & new & T & H & K).
    exists F, new. split; [|split].
    + eapply touch_X; [|exact T]. intro Hx. injection Hx as ->. now left.
    + intros y Hy. destruct (H y Hy) as [->|Hn]; [left; now right|now right].
    + intros y Hy. destruct (K y Hy) as [[[D|D] _]|Hk]; [discriminate D| |exact Hk]. injection D as D.
      exfalso. exact (abspath_some _ _ D).
Qed.
End Apart.

Lemma filter_same : forall (A : Type) (p q : A -> bool) l, (forall i, In i l -> p i = q i) -> filter p l = filter q l.
Proof.
  intros A p q l H. induction l as [|x l IH]; [reflexivity|]. simpl. rewrite (H x) by (now left).
  rewrite IH by (intros i Hi; apply H; now right). reflexivity.
Qed.

Lemma C62_apart_lemma : forall n e path off forced s l s' f c a v nolink,
  add_file n e path off forced s = (Ok l, s') -> f <> [] -> forced <> Some f ->
  (forall x, comes e s s' path x -> foreign s f x) ->
  get_items_for e s' (MkQuery (Some f) c a v nolink) = get_items_for e s (MkQuery (Some f) c a v nolink).
Proof.
  intros n e path off forced s l s' f c a v nolink H Hf Hfo Hc.
  pose proof (add_file_grows _ _ _ _ _ _ _ _ H) as (g' & new' & Hg' & EL' & _ & Hrng & _). rewrite app_nil_r in Hrng.
  apply (okF_add_file e f) in H. destruct H as (F & new & (M1 & M2 & g & Hg & EL & Hi & Hn) & HF & _).
  assert (En : new' = new).
  { rewrite EL' in EL. apply app_inv_head_iff with (l := map g (st_list s)).
    assert (El : length (map g' (st_list s)) = length (map g (st_list s))) by (now rewrite !map_length).
    pose proof (f_equal (skipn (length (map g (st_list s)))) EL) as E2.
    rewrite <- El in E2 at 1. rewrite !skipn_app, !skipn_all, !Nat.sub_diag in E2. cbn in E2. now rewrite E2. }
  subst new'. rewrite Forall_forall in Hrng.
  assert (HFc : forall x, In x F -> foreign s f x).
  { intros x Hx. apply Hc. destruct (HF x Hx) as [->|(i & p & Hin & Hp & ->)]; [constructor|].
    apply (comes_named e s s' path i p); [rewrite EL; apply in_or_app; now right|apply (Hrng i Hin)|exact Hp]. }
  assert (HM : forall y, linked s' f y <-> linked s f y).
  { intro y. split; [|apply M1]. intro Hy. destruct (M2 y Hy) as [H|[H|[x [Hx [->|H]]]]]; [exact H|now elim Hfo| |].
    - elim (proj1 (HFc f Hx)). now left.
    - now elim (proj1 (proj2 (HFc x Hx))). }
  unfold get_items_for. rewrite !reduce_eq. f_equal. f_equal. rewrite EL, filter_app.
  set (q := MkQuery (Some f) c a v nolink).
  assert (Hsel : forall i, sel (st_map s') q i = sel (st_map s) q i).
  { intro i. destruct (sel (st_map s) q i) eqn:E1; destruct (sel (st_map s') q i) eqn:E2; try reflexivity; exfalso.
    - assert (E3 : sel (st_map s') q i = true); [|congruence]. apply sel_iff. apply sel_iff in E1. destruct E1 as [E1 E4]. split; [|exact E4].
      unfold of_file in *. cbn [q_file q] in *. destruct E1 as [E1|[E1|[En E1]]]; [now left|right; now left|]. right. right. split; [exact En|]. now apply HM.
    - assert (E3 : sel (st_map s) q i = true); [|congruence]. apply sel_iff. apply sel_iff in E2. destruct E2 as [E1' E4]. split; [|exact E4].
      unfold of_file in *. cbn [q_file q] in *. destruct E1' as [E1'|[E1'|[En E1']]]; [now left|right; now left|]. right. right. split; [exact En|]. now apply HM. }
  assert (Hof : forall i, sel (st_map s) q i = true -> shown_for s f (it_origin i)).
  { intros i Hs. apply sel_iff in Hs. destruct Hs as [Hs _]. unfold of_file in Hs. simpl in Hs.
    destruct Hs as [Hs|[Hs|[_ Hs]]]; [contradiction|now left|now right]. }
  rewrite (filter_none _ _ new), app_nil_r.
  - rewrite (filter_ext _ _ Hsel). apply map_filter_id. intros i Hin Hs.
    assert (Ho : shown_for s f (it_origin i)).
    { destruct Hs as [Hs|Hs]; apply Hof in Hs; [|exact Hs]. now rewrite (raises_it_origin g i Hg) in Hs. }
    destruct (Hi i) as [E|[x [Hx Ha]]]; [exact E|]. elim (proj2 (proj2 (HFc x Hx)) _ Ho Ha).
  - intros i Hin. rewrite Hsel. destruct (sel (st_map s) q i) eqn:E; [|reflexivity]. exfalso.
    apply Hof in E. elim (proj1 (HFc _ (Hn i Hin)) E).
Qed.
