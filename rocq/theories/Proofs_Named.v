(** * Included files and inherited classes named with references: proofs *)

From Verif Require Import PyStr Regex Patterns PyPath Res Inline Const Item Lines Stash
  StrFacts ReFacts LinesFacts ParseFacts ExnFacts HistFacts ReachFacts
  Spec_Parse Spec_Group Spec_Include Proofs_Group Proofs_Query ShapeFacts StmtFacts ClassFacts Spec_Expand ExpandFacts Proofs_Expand
  Spec_Load Proofs_Load Spec_Named.

Lemma add_others : forall db key fn k db' x, add_constants db (CDict [("replacements", CDict [(key, CList [fn])])]) = (db', x) ->
  k <> "replacements" -> cval_step k db' = cval_step k db.
Proof.
  intros db key fn k db' x E Hk. unfold add_constants, lift_upd in E. destruct db as [s|l|a]; try (inversion E; reflexivity).
  remember (CDict [(key, CList [fn])]) as b eqn:Eb.
  assert (H : forall v, dget k (dset "replacements" v a) = dget k a).
  { intro v. apply dget_dset_other. intro E'. now apply Hk. }
  cbn [add_merge] in E.
  destruct (dget "replacements" a) as [av|]; [|inversion E; subst; cbn; now rewrite H].
  rewrite Eb in E. destruct av as [s|l|ad]; try (inversion E; reflexivity).
  destruct (add_merge _ ad) as [ad' [ex|]]; inversion E; subst; cbn; now rewrite H.
Qed.

Section Named.
Context (e : env) (CI II : cval) (B : list (str * str)) (N : nat) (D : str -> bool).

Definition keeps (db : cval) : Prop := class_ignore db = CI /\ include_ignore db = II /\ sets_base db = B.
Definition ignores (s : stash) : Prop := keeps (st_const s).

Lemma ignores_step : forall db db', cval_step "ignore" db' = cval_step "ignore" db -> cval_step "sets" db' = cval_step "sets" db ->
  keeps db -> keeps db'.
Proof.
  intros db db' E1 E2. unfold keeps, class_ignore, include_ignore, ClassIgnore, IncludeIgnore, sets_base, SetsBase.
  change (get_by_path "ignore/classes") with (cval_walk ["ignore"; "classes"]).
  change (get_by_path "ignore/include") with (cval_walk ["ignore"; "include"]).
  change (get_by_path "sets/base") with (cval_walk ["sets"; "base"]). cbn [cval_walk]. now rewrite E1, E2.
Qed.
Lemma add_names_ignores : forall key confs s r s', add_names key confs s = (r, s') -> ignores s -> ignores s'.
Proof.
  intros key confs s r s' H. unfold add_names in H. revert s H.
  induction confs as [|c confs IH]; intros s H Hi.
  - inversion H; subst. exact Hi.
  - cbn in H.
    match type of H with
    | (let (_, _) := ?a in _) = _ => destruct a as [db [x|]] eqn:Eu
    end; pose proof (add_others (st_const s) key (fst (splitext (basename c))) "ignore" db _ Eu ltac:(discriminate)) as Ei;
       pose proof (add_others (st_const s) key (fst (splitext (basename c))) "sets" db _ Eu ltac:(discriminate)) as Ei2.
    + inversion H; subst. exact (ignores_step _ _ Ei Ei2 Hi).
    + apply IH in H; [exact H|]. exact (ignores_step _ _ Ei Ei2 Hi).
Qed.
Lemma distro_ignores : forall path s r s', add_distro_machine e path s = (r, s') -> ignores s -> ignores s'.
Proof.
  intros path s r s' H Hi. unfold add_distro_machine in H.
  destruct (get_layer_root _ _ _) as [[|c root]|]; try (inversion H; subst; exact Hi).
  unfold bindM in H. destruct (add_names _ _ s) as [[u|ex|] s1] eqn:E1; apply add_names_ignores in E1; try exact Hi.
  - now apply add_names_ignores in H.
  - inversion H; subst. exact E1.
  - inversion H; subst. exact E1.
Qed.
Lemma leave_ignores : forall file forced items s r s', leave e file forced items s = (r, s') -> ignores s -> ignores s'.
Proof.
  intros file forced items s r s' H Hi. unfold leave in H. unfold bindM at 1 in H. unfold bindM at 1 in H.
  destruct (match_appends file items _) as [rm s1] eqn:Em. apply match_appends_cases in Em.
  destruct Em as [f [mp [_ [Hs1 _]]]].
  assert (Hi1 : ignores s1) by (rewrite Hs1; exact Hi).
  destruct rm as [items2|ex|]; [|inversion H; subst; exact Hi1|inversion H; subst; exact Hi1].
  unfold bindM at 1 in H.
  destruct (add_distro_machine e file s1) as [[u|ex|] s2] eqn:Ed; apply distro_ignores in Ed; try exact Hi1;
    inversion H; subst; exact Ed.
Qed.

Definition is_D (i : item) : bool := match it_pay i with PVariable n _ _ _ _ _ => D n | _ => false end.
Definition hasD (s : stash) : bool := existsb is_D (st_list s).
Definition fit (s : stash) : Prop := hasD s = false /\ sets_base (st_const s) = B.

Definition named_ok (i : item) : Prop :=
  match it_pay i with
  | PInherit cl st paths => exists s0 text, fit s0 /\ expand_term e s0 (it_origin i) cl = Ok text /\
      forall p, In p paths <-> cval_contains text CI = false /\
        exists w, In w (keep_nonempty (split_char cSP text)) /\ class_found e (dirname (it_origin i)) (class_dirs st) w p
  | PInclude nm st p => exists s0 text, fit s0 /\ expand_term e s0 (it_origin i) nm = Ok text /\
      lookup e (dirname (it_origin i)) text p /\ (p <> [] -> cval_contains text II = false)
  | _ => True
  end.
Definition ninv (s : stash) : Prop := hasD s = false /\ ignores s /\ N <= st_next s /\
  forall i, In i (st_list s) -> N <= it_id i -> named_ok i.

(** What is assigned stays assigned. *)
Definition mono {A} (x : M A) : Prop := forall s r s', x s = (r, s') -> hasD s = true -> hasD s' = true.
Lemma mono_same : forall A (x : M A), (forall s r s', x s = (r, s') -> st_list s' = st_list s) -> mono x.
Proof. intros A x H s r s' E. unfold hasD. now rewrite (H _ _ _ E). Qed.
Lemma mono_ret : forall A (a : A), mono (ret a).
Proof. intros A a. apply mono_same. intros s r s' E. now inversion E. Qed.
Lemma mono_lift : forall A (f : stash -> Res.res A), mono (liftR f).
Proof. intros A f. apply mono_same. intros s r s' E. unfold liftR in E. now inversion E. Qed.
Lemma mono_find : forall n d, mono (find_m e n d).
Proof.
  intros n d. apply mono_same. intros s r s' E. unfold find_m in E. destruct (find_local_or_layer _ _ _ _); now inversion E.
Qed.
Lemma mono_new : forall mk, mono (new_item mk).
Proof. intros mk. apply mono_same. intros s r s' E. unfold new_item, fresh, bindM, ret in E. now inversion E. Qed.
Lemma mono_bind : forall A B (x : M A) (f : A -> M B), mono x -> (forall a, mono (f a)) -> mono (bindM x f).
Proof.
  intros A B' x f Hx Hf s r s' E H. unfold bindM in E. destruct (x s) as [[a|ex|] s1] eqn:Ex; pose proof (Hx _ _ _ Ex H) as H1.
  - exact (Hf a _ _ _ E H1).
  - now inversion E; subst.
  - now inversion E; subst.
Qed.
Definition mono_addf (addf : addfile_t) : Prop := forall p o f, mono (addf p o f).
Ltac mono := repeat (intros; first [ apply mono_ret | apply mono_lift | apply mono_find | apply mono_new | assumption
  | (apply mono_bind; [|intro]) | match goal with |- mono (match ?x with _ => _ end) => destruct x end
  | match goal with |- mono (if ?x then _ else _) => destruct x end
  | match goal with H : mono_addf _ |- _ => apply H end
  | match goal with H : forall _, _ |- _ => apply H; assumption end ]).
Lemma mono_find_class : forall locs w d, mono (find_class e locs w d).
Proof. intros locs w d. induction locs as [|l locs IH]; cbn [find_class]; mono. Qed.
Lemma mono_inherit : forall addf locs file text line l paths off, mono_addf addf ->
  mono (inherit_loop e addf locs file text line l paths off).
Proof.
  intros addf locs file text line l. induction l as [|x l IH]; intros paths off Ha; cbn [inherit_loop]; [mono|].
  apply mono_bind; [apply mono_find_class|]. intro p. destruct p; [now apply IH|].
  apply mono_bind; [apply mono_lift|]. intros [|]; [now apply IH|]. apply mono_bind; [apply Ha|]. intro. now apply IH.
Qed.
Lemma mono_handle : forall addf p file line k mt, mono_addf addf -> mono (handle e addf p file line k mt).
Proof.
  intros addf p file line k mt Ha.
  assert (Hi : forall locs text paths off l, mono (inherit_loop e addf locs file text line l paths off))
    by (intros; now apply mono_inherit).
  destruct k; unfold handle; mono; try (apply mono_bind; [apply Hi|intro]; mono).
Qed.
Lemma mono_try : forall addf p file line cnt l, mono_addf addf -> mono (try_kinds e addf p file line cnt l).
Proof.
  intros addf p file line cnt l Ha. induction l as [|[k r] l IH]; cbn [try_kinds]; [mono|].
  destruct (re_match r cnt); [|exact IH]. apply mono_bind; [now apply mono_handle|]. intros [x|]; [apply mono_ret|exact IH].
Qed.
Lemma mono_chunks : forall addf file off cs inc new, mono_addf addf -> mono (parse_chunks e addf file off inc new cs).
Proof.
  intros addf file off cs. induction cs as [|c cs IH]; intros inc new Ha; cbn [parse_chunks]; [mono|].
  apply mono_bind; [now apply mono_try|]. intro x. apply mono_bind; [now apply IH|]. intro. mono.
Qed.
Lemma is_D_same : forall i j, it_pay i = it_pay j -> is_D i = is_D j.
Proof. intros i j E. unfold is_D. now rewrite E. Qed.
Lemma hasD_app : forall f l1 l, raises f -> existsb is_D (map f l1 ++ l) = existsb is_D l1 || existsb is_D l.
Proof.
  intros f l1 l Hf. rewrite existsb_app. f_equal. induction l1 as [|i l1 IH]; [reflexivity|]. cbn [map existsb].
  rewrite IH. f_equal. apply is_D_same. apply (raises_same f Hf i).
Qed.
Lemma mono_add_file : forall n path off forced, mono (add_file n e path off forced).
Proof.
  induction n as [|n IH]; intros path off forced s r s' E H; [now inversion E; subst|].
  rewrite add_file_eq in E. cbv zeta in E. destruct (skipped e path s); [now inversion E; subst|].
  unfold bindM in E. destruct (get_items e _ _ off (enter _ s)) as [g s1] eqn:Eg.
  assert (H1 : hasD s1 = true).
  { unfold get_items, bindM, liftR in Eg. destruct (prepare_file _ _ _ _) as [cs|ex|]; try (inversion Eg; subst; exact H).
    apply mono_chunks in Eg; [|intros p o f; apply IH]. now apply Eg. }
  destruct g as [items|ex|]; [|now inversion E; subst|now inversion E; subst].
  apply leave_cases in E. destruct E as [f [l1 [Hf [EL _]]]]. unfold hasD. rewrite EL, (hasD_app _ _ _ Hf).
  unfold hasD in H1. now rewrite H1.
Qed.

Definition holds {A} (x : M A) (Q : A -> Prop) : Prop :=
  forall s r s', x s = (r, s') -> hasD s' = false -> ninv s -> ninv s' /\ (forall a, r = Ok a -> Q a).

Lemma holds_weak : forall A (x : M A) (Q Q' : A -> Prop), (forall a, Q a -> Q' a) -> holds x Q -> holds x Q'.
Proof. intros A x Q Q' HQ H s r s' E Hd Hi. destruct (H s r s' E Hd Hi) as [A1 A2]. split; auto. Qed.
Lemma holds_ret : forall A (a : A) (Q : A -> Prop), Q a -> holds (ret a) Q.
Proof. intros A a Q HQ s b s' E Hd Hi. inversion E; subst. split; [exact Hi|]. intros x Ex. now inversion Ex; subst. Qed.
Lemma holds_bind : forall A B (x : M A) (f : A -> M B) (P : A -> Prop) (Q : B -> Prop), (forall a, mono (f a)) ->
  holds x P -> (forall a, P a -> holds (f a) Q) -> holds (bindM x f) Q.
Proof.
  intros A B' x f P Q Hm Hx Hf s b s' E Hd Hi. unfold bindM in E.
  destruct (x s) as [[a|ex|] s1] eqn:Ex.
  - assert (Hd1 : hasD s1 = false).
    { destruct (hasD s1) eqn:E1; [|reflexivity]. now rewrite (Hm a _ _ _ E E1) in Hd. }
    destruct (Hx _ _ _ Ex Hd1 Hi) as [Hi1 HP]. exact (Hf a (HP a eq_refl) _ _ _ E Hd Hi1).
  - inversion E; subst. destruct (Hx _ _ _ Ex Hd Hi) as [Hi1 HP]. split; [exact Hi1|discriminate].
  - inversion E; subst. destruct (Hx _ _ _ Ex Hd Hi) as [Hi1 HP]. split; [exact Hi1|discriminate].
Qed.
Lemma holds_lift : forall A (f : stash -> Res.res A) (Q : A -> Prop),
  (forall s a, ninv s -> f s = Ok a -> Q a) -> holds (liftR f) Q.
Proof.
  intros A f Q HQ s r s' E Hd Hi. unfold liftR in E. inversion E; subst. split; [exact Hi|].
  intros a Ha. now apply (HQ s').
Qed.
Lemma holds_find : forall n d, holds (find_m e n d) (lookup e d n).
Proof.
  intros n d s r s' E Hd Hi. unfold find_m in E. unfold lookup.
  destruct (find_local_or_layer _ _ _ _); inversion E; subst; (split; [exact Hi|]); intros a Ha; now inversion Ha.
Qed.
Ltac mm := mono; repeat (intros; first
  [ apply mono_ret | apply mono_lift | apply mono_find | apply mono_new | apply mono_find_class
  | (apply mono_inherit; assumption) | (apply mono_handle; assumption) | (apply mono_try; assumption)
  | (apply mono_chunks; assumption) | match goal with H : mono_addf _ |- _ => apply H end
  | match goal with |- mono (bindM _ _) => apply mono_bind; [|intro] end
  | match goal with |- mono (match ?x with _ => _ end) => destruct x end
  | match goal with |- mono (if ?x then _ else _) => destruct x end ]).
Lemma holds_find_class : forall locs w d, holds (find_class e locs (class_file w) d)
  (fun p => (p = [] /\ forall x, In x locs -> lookup e d (path_join x (class_file w)) []) \/
            (p <> [] /\ class_found e d locs w p)).
Proof.
  intros locs w d. induction locs as [|l locs IH]; simpl.
  - apply holds_ret. left. split; [reflexivity|]. intros x [].
  - eapply holds_bind; [solve [mm]|apply holds_find|]. intros [|c p] Hp.
    + eapply holds_weak; [|exact IH]. cbn beta. intros q [[-> H]|[Hq [a [loc [b [-> [H1 [H2 H3]]]]]]]].
      * left. split; [reflexivity|]. intros x [<-|Hx]; auto.
      * right. split; [exact Hq|]. exists (l :: a), loc, b. repeat split; auto. intros x [<-|Hx]; auto.
    + apply holds_ret. right. split; [discriminate|]. exists [], l, locs. repeat split; auto; [discriminate|]. intros x [].
Qed.
Definition holds_addf (addf : addfile_t) : Prop := mono_addf addf /\ forall p o f, holds (addf p o f) (fun _ => True).

Lemma holds_inherit : forall addf locs file text line l paths off, holds_addf addf ->
  holds (inherit_loop e addf locs file text line l paths off)
    (fun r => forall p, In p (fst r) <-> In p paths \/
       (cval_contains text CI = false /\ exists w, In w l /\ class_found e (dirname file) locs w p)).
Proof.
  intros addf locs file text line l. induction l as [|x l IH]; intros paths off Ha; pose proof (proj1 Ha) as Hm; simpl.
  - apply holds_ret. intro p. cbn. split; [auto|]. intros [H|[_ [w [[] _]]]]. exact H.
  - change (if endswith ".bbclass" x then x else x ++ ".bbclass") with (class_file x).
    eapply holds_bind; [solve [mm]|apply holds_find_class|].
    intros p Hp. cbn beta in Hp.
    assert (Hskip : cval_contains text CI = true \/ p = [] ->
      holds (inherit_loop e addf locs file text line l paths off)
    (fun r => forall p, In p (fst r) <-> In p paths \/
       (cval_contains text CI = false /\ exists w, (x = w \/ In w l) /\ class_found e (dirname file) locs w p))).
    { intro Hc. eapply holds_weak; [|now apply IH]. cbn beta. intros r Hr q. rewrite Hr. split.
      - intros [H|[Hf [w [Hw H]]]]; [now left|]. right. split; [exact Hf|]. exists w. auto.
      - intros [H|[Hf [w [[<-|Hw] H]]]]; [now left| |right; split; [exact Hf|]; now exists w].
        destruct Hc as [Hc|Hc]; [congruence|]. destruct Hp as [[_ Hp]|[Hp _]]; [|congruence].
        exfalso. now apply (class_found_not e _ _ _ q Hp). }
    destruct p as [|c p]; [now apply Hskip; right|].
    destruct Hp as [[Hp _]|[_ Hp]]; [discriminate|].
    eapply (holds_bind _ _ _ _ (fun b => b = cval_contains text CI)); [solve [mm]| |].
    { apply holds_lift. intros s a Hi E. destruct Hi as [_ [[<- _] _]]. now injection E. }
    intros ign ->. destruct (cval_contains text CI) eqn:Ec; [now apply Hskip; left|].
    eapply holds_bind; [solve [mm]|apply Ha|]. intros tmp _. eapply holds_weak; [|now apply IH]. cbn beta.
    intros r Hr q. rewrite Hr, add_set_In. split.
    + intros [[->|H]|[Hf [w [Hw H]]]]; [|now left|].
      * right. split; [reflexivity|]. exists x. auto.
      * right. split; [exact Hf|]. exists w. auto.
    + intros [H|[Hf [w [[<-|Hw] H]]]]; [left; now right| |right; split; [exact Hf|]; now exists w].
      left. left. exact (class_found_once e _ _ _ _ _ H Hp).
Qed.

Lemma holds_new : forall C mk (g : item -> C) (Q : C -> Prop),
  (forall n, Q (g (mk n))) -> holds (dom i <- new_item mk; ret (g i)) Q.
Proof.
  intros C mk g Q HQ s r s' E Hd Hi. unfold new_item, fresh, bindM, ret in E. inversion E; subst.
  destruct Hi as [H0 [H1 [H2 H3]]]. split.
  - split; [exact H0|]. split; [exact H1|]. split; [|exact H3]. cbn. lia.
  - intros a Ha. inversion Ha. apply HQ.
Qed.

Definition opt_named (o : option (item * Z)) : Prop :=
  match o with Some (i, _) => named_ok i | None => True end.
Definition names_none (pay : payload) : Prop :=
  match pay with PInherit _ _ _ | PInclude _ _ _ => False | _ => True end.
Lemma none_named : forall i, names_none (it_pay i) -> named_ok i.
Proof. intros i H. unfold named_ok. destruct (it_pay i); try exact I; destruct H. Qed.

Lemma holds_handle : forall addf p file line k r cnt mt, holds_addf addf -> (forall n, ip_origin (p n) = file) ->
  In (k, r) order -> re_match r cnt = Some mt ->
  holds (handle e addf p file line k mt) opt_named.
Proof.
  intros addf p file line k r cnt mt Ha Hpo Hin Hm. pose proof (proj1 Ha) as Hmo.
  assert (Hd : forall mk, (forall q, names_none (it_pay (mk q))) ->
                 holds (dom i <- new_item (fun n => mk (p n)); ret (Some (i, 0%Z))) opt_named).
  { intros mk Hmk. apply (holds_new _ (fun n => mk (p n)) (fun i => Some (i, 0%Z))).
    intro n. apply none_named, Hmk. }
  assert (Hpl : forall pay, names_none pay ->
                holds (dom i <- new_item (fun n => mk_item (p n) (ip_new (p n)) pay);
                                 ret (Some (i, 0%Z))) opt_named).
  { intros pay Hpay. apply (holds_new _ (fun n => mk_item (p n) (ip_new (p n)) pay) (fun i => Some (i, 0%Z))).
    intro n. apply none_named, Hpay. }
  assert (Hinh : forall locs a st, class_dirs st = locs -> holds
      (dom inhname <- liftR (fun s => expand_term e s file a);
       dom r <- inherit_loop e addf locs file inhname line (keep_nonempty (split_char cSP inhname)) [] 0%Z;
       dom i <- new_item (fun n => mk_item (p n) (ip_new (p n)) (PInherit a st (fst r)));
       ret (Some (i, snd r))) opt_named).
  { intros locs a st Est.
    eapply (holds_bind _ _ _ _ (fun text => exists s0, fit s0 /\ expand_term e s0 file a = Ok text)); [solve [mm]| |].
    { apply holds_lift. intros s t Hi E. exists s. split; [|exact E]. destruct Hi as [Hi [[_ [_ Hb]] _]]. now split. }
    intros text [s0 [Ft Et]]. eapply holds_bind; [solve [mm]|now apply holds_inherit|]. cbn beta. intros x Hx.
    apply (holds_new _ (fun n => mk_item (p n) (ip_new (p n)) (PInherit a st (fst x)))
                     (fun i => Some (i, snd x))).
    intro n. cbn [opt_named]. unfold named_ok. cbn [it_pay mk_item it_origin]. rewrite Hpo. exists s0, text.
    split; [exact Ft|]. split; [exact Et|]. intro q. rewrite Hx, Est. split; [intros [[]|H]; exact H|now right]. }
  destruct k; unfold handle; try (apply Hpl; exact I).
  - eapply (holds_bind _ _ _ _ (fun _ => True)); [solve [mm]|now apply holds_lift|]. intros known _.
    apply (Hd (fun q => mk_function known q (group "func" mt) (group_str "funcbody" mt)
                                 (matched (group "py" mt)) (matched (group "fr" mt)))).
    intro q. unfold mk_function. destruct (extract_sub_func _ _ _) as [[a b] c]. exact I.
  - apply Hinh. assert (r = re_inherit) as -> by (unfold order in Hin; cbn [In] in Hin; repeat (destruct Hin as [Hin|Hin]; [try discriminate Hin; now injection Hin|]); destruct Hin).
    now rewrite (inherit_word _ _ Hm).
  - apply Hinh. reflexivity.
  - eapply (holds_bind _ _ _ _ (fun text => exists s0, fit s0 /\ expand_term e s0 file (group_str "incname" mt) = Ok text)); [solve [mm]| |].
    { apply holds_lift. intros s t Hi E. exists s. split; [|exact E]. destruct Hi as [Hi [[_ [_ Hb]] _]]. now split. }
    intros text [s0 [Ft Et]]. eapply holds_bind; [solve [mm]|apply holds_find|]. intros path Hpath.
    assert (Hfin : forall off : Z, (path <> [] -> cval_contains text II = false) -> holds
       (dom i <- new_item (fun n => mk_item (p n) (ip_new (p n))
                   (PInclude (group_str "incname" mt) (group_str "statement" mt) path));
        ret (Some (i, off))) opt_named).
    { intros off Hc. apply (holds_new _ (fun n => mk_item (p n) (ip_new (p n))
                   (PInclude (group_str "incname" mt) (group_str "statement" mt) path))
                   (fun i => Some (i, off))).
      intro n. cbn [opt_named]. unfold named_ok. cbn [it_pay mk_item it_origin]. rewrite Hpo.
      exists s0, text. auto. }
    destruct path as [|c path]; [now apply Hfin|].
    eapply (holds_bind _ _ _ _ (fun b => b = cval_contains text II)); [solve [mm]| |].
    { apply holds_lift. intros s a Hi E. destruct Hi as [_ [[_ [<- _]] _]]. now injection E. }
    intros ign ->. destruct (cval_contains text II) eqn:Ec; [now apply holds_ret|].
    eapply holds_bind; [solve [mm]|apply Ha|]. intros tmp _. now apply Hfin.
  - destruct (existsb _ pkg_prefixes); [now apply holds_ret|].
    apply (Hd (fun q => mk_taskadd q (group_str "func" mt) (group_str "before" mt)
                                     (group_str "after" mt) (group_str "comment" mt))). intro q; exact I.
  - apply (Hd (fun q => mk_variable q (group_str "varname" mt) (group_str "varval" mt)
                                        (group_str "varop" mt))). intro q.
    unfold mk_variable. destruct (extract_sub _ _) as [[a b] c]. exact I.
Qed.

Lemma holds_try : forall addf p file line cnt l, holds_addf addf -> (forall n, ip_origin (p n) = file) ->
  incl l order -> holds (try_kinds e addf p file line cnt l) (fun x => named_ok (fst x)).
Proof.
  intros addf p file line cnt l Ha Hpo. pose proof (proj1 Ha) as Hmo. induction l as [|[k r] l IH]; intro Hl; cbn [try_kinds].
  - apply (holds_new _ (fun n => mk_item (p n) (ip_new (p n)) PItem) (fun i => (i, 0%Z))).
    intro n. exact I.
  - assert (Hl' : incl l order) by (intros y Hy; apply Hl; now right).
    destruct (re_match r cnt) as [mt|] eqn:Em; [|exact (IH Hl')].
    eapply holds_bind; [solve [mm]|eapply holds_handle; eauto; apply Hl; now left|].
    intros [[i z]|] Hi; [now apply holds_ret|exact (IH Hl')].
Qed.

Lemma holds_chunks : forall addf file off cs inc new, holds_addf addf ->
  holds (parse_chunks e addf file off inc new cs) (Forall named_ok).
Proof.
  intros addf file off cs. induction cs as [|c cs IH]; intros inc new Ha; pose proof (proj1 Ha) as Hmo; cbn [parse_chunks].
  - apply holds_ret. constructor.
  - eapply holds_bind; [solve [mm]|apply holds_try; [exact Ha|reflexivity|apply incl_refl]|]. intros x Hx.
    eapply holds_bind; [solve [mm]|now apply IH|]. intros l Hl. apply holds_ret. now constructor.
Qed.

Lemma named_same : forall i j, it_pay i = it_pay j -> it_origin i = it_origin j -> named_ok j -> named_ok i.
Proof. intros i j E1 E2. unfold named_ok. now rewrite E1, E2. Qed.

Lemma holds_add_file : forall n path off forced, holds (add_file n e path off forced) (fun _ => True).
Proof.
  induction n as [|n IH]; intros path off forced s r s' E Hd Hi.
  { inversion E; subst. auto. }
  rewrite add_file_eq in E. cbv zeta in E. destruct (skipped e path s); [inversion E; subst; auto|].
  set (file := abspath (fs_cwd (e_fs e)) path) in *. split; [|auto]. unfold bindM in E.
  destruct (get_items e _ file off (enter file s)) as [g s1] eqn:Eg.
  assert (Hd1 : hasD s1 = false).
  { destruct g as [items|ex|]; [|now inversion E; subst|now inversion E; subst].
    apply leave_cases in E. destruct E as [f [l1 [Hf [EL _]]]]. unfold hasD in *. rewrite EL, (hasD_app _ _ _ Hf) in Hd.
    now apply orb_false_iff in Hd. }
  assert (Hg : ninv s1 /\ forall l, g = Ok l -> Forall named_ok l).
  { unfold get_items, bindM, liftR in Eg. destruct (prepare_file _ _ _ _) as [cs|ex|].
    - apply (holds_chunks _ file off cs 0%Z (st_new (enter file s))
        (conj (fun p o f => mono_add_file n p o (Some f)) (fun p o f => IH p o (Some f)))) in Eg; exact (Eg Hd1 Hi).
    - inversion Eg; subst. split; [exact Hi|discriminate].
    - inversion Eg; subst. split; [exact Hi|discriminate]. }
  destruct Hg as [[G0 [G1 [G2 G3]]] Hl]. destruct g as [items|ex|];
    [|inversion E; subst; repeat split; auto; apply G1|inversion E; subst; repeat split; auto; apply G1].
  pose proof (leave_ignores _ _ _ _ _ _ E G1) as L1.
  apply leave_cases in E. destruct E as [f [l1 [Hf [EL [_ [EN [_ [_ [_ [_ [Hl1 _]]]]]]]]]]].
  split; [exact Hd|]. split; [exact L1|]. split; [rewrite EN; exact G2|]. intros i Hx Hid. rewrite EL in Hx. apply in_app_or in Hx.
  destruct Hx as [Hx|Hx].
  - apply in_map_iff in Hx. destruct Hx as [j [<- Hj]].
    destruct (raises_same f Hf j) as [R1 [_ R3]]. apply (named_same _ j R3 R1). apply G3; [exact Hj|].
    rewrite <- (raises_it_id f j Hf). exact Hid.
  - destruct Hl1 as [->|[mx ->]]; [destruct Hx|]. apply in_map_iff in Hx. destruct Hx as [j [<- Hj]].
    apply (named_same _ j); [reflexivity|reflexivity|].
    specialize (Hl items eq_refl). rewrite Forall_forall in Hl. now apply Hl.
Qed.

End Named.

Lemma unassigned_D : forall s ns, unassigned s ns -> hasD (fun k => mem_str k ns) s = false.
Proof.
  intros s ns H. unfold hasD. apply not_true_is_false. intro E. apply existsb_exists in E. destruct E as [i [Hi E]].
  unfold is_D in E. destruct (it_pay i) eqn:Ep; try discriminate E. apply mem_str_In in E. exact (H _ _ _ _ _ _ _ Hi Ep E).
Qed.
Lemma D_unassigned : forall s ns, hasD (fun k => mem_str k ns) s = false -> unassigned s ns.
Proof.
  intros s ns H i n sub subs v op rawn Hi Ep Hn. unfold hasD in H. enough (E : existsb (is_D (fun k => mem_str k ns)) (st_list s) = true) by congruence.
  apply existsb_exists. exists i. split; [exact Hi|]. unfold is_D. rewrite Ep. now apply mem_str_In.
Qed.

Lemma added_settled : forall n e path off forced s r s' i ns, reach e s ->
  add_file n e path off forced s = (r, s') -> added s s' i -> unassigned s' ns ->
  named_ok e (class_ignore (st_const s)) (include_ignore (st_const s)) (sets_base (st_const s)) (fun k => mem_str k ns) i.
Proof.
  intros n e path off forced s r s' i ns Hr E [Hi Hid] Hu. apply unassigned_D in Hu.
  assert (H0 : hasD (fun k => mem_str k ns) s = false).
  { destruct (hasD _ s) eqn:E0; [|reflexivity]. now rewrite (mono_add_file e (fun k => mem_str k ns) n path off forced _ _ _ E E0) in Hu. }
  assert (HN : ninv e (class_ignore (st_const s)) (include_ignore (st_const s)) (sets_base (st_const s)) (st_next s) (fun k => mem_str k ns) s).
  { split; [exact H0|]. split; [repeat split|]. split; [lia|]. intros j Hj Hn. exfalso.
    apply reach_ids in Hr. destruct Hr as [_ Hr]. rewrite Forall_forall in Hr. specialize (Hr j Hj). lia. }
  destruct (holds_add_file e (class_ignore (st_const s)) (include_ignore (st_const s)) (sets_base (st_const s)) (st_next s)
    (fun k => mem_str k ns) n path off forced _ _ _ E Hu HN) as [[_ [_ [_ H]]] _].
  now apply H.
Qed.

(** What the names stand for. *)
Lemma content_base : forall e s file n ns, env_ok e -> unassigned s ns -> In n ns -> n <> [] ->
  content_of e s file n = dget n (sets_base (st_const s)).
Proof.
  intros e s file n ns He Hu Hn Hn0. unfold content_of, first_definition.
  destruct (filter _ (vars_named e s file n)) as [|d l] eqn:E; [reflexivity|]. exfalso.
  assert (Hd : In d (d :: l)) by now left. rewrite <- E in Hd. apply filter_In in Hd. destruct Hd as [Hd _].
  apply vars_sub in Hd; [|exact He|exact Hn0]. destruct Hd as [Hd [sub [subs [v [op [rawn Ep]]]]]].
  exact (Hu _ _ _ _ _ _ _ Hd Ep Hn).
Qed.
Lemma expand_settled : forall e s file ns t text, env_ok e -> unassigned s ns -> no_code t -> ~ In [] ns ->
  settled (sets_base (st_const s)) file ns t text -> expand_term e s file t = Ok text.
Proof.
  intros e s file ns t text He Hu Hc Hne Hs. unfold expand_term. apply expand_term_meaning; [exact He|exact Hc|].
  eapply expands_ext; [|apply Hs].
  - intro k. symmetry. apply builtin_eq.
  - intros k Hk. eapply content_base; [exact He|exact Hu|exact Hk|]. intros ->. now apply Hne.
Qed.

Lemma C92_include_named_lemma : forall n e path off forced s r s' i nm st p ns t, env_ok e -> reach e s ->
  add_file n e path off forced s = (r, s') -> added s s' i -> it_pay i = PInclude nm st p ->
  unassigned s' ns -> ~ In [] ns -> no_code nm ->
  settled (sets_base (st_const s)) (it_origin i) ns nm t -> lookup e (dirname (it_origin i)) t p.
Proof.
  intros n e path off forced s r s' i nm st p ns t He Hr E Hi Ep Hu Hne Hc Ht.
  pose proof (added_settled _ _ _ _ _ _ _ _ _ ns Hr E Hi Hu) as H. unfold named_ok in H. rewrite Ep in H.
  destruct H as [s0 [text [[F1 F2] [Et [H _]]]]]. apply D_unassigned in F1. rewrite <- F2 in Ht.
  rewrite (expand_settled e s0 (it_origin i) ns nm t He F1 Hc Hne Ht) in Et. now injection Et as <-.
Qed.
Lemma C92_inherit_named_lemma : forall n e path off forced s r s' i cl st paths ns t ws, env_ok e -> reach e s ->
  add_file n e path off forced s = (r, s') -> added s s' i -> it_pay i = PInherit cl st paths ->
  unassigned s' ns -> ~ In [] ns -> no_code cl ->
  settled (sets_base (st_const s)) (it_origin i) ns cl t -> words ws t ->
  cval_contains t (class_ignore (st_const s)) = false ->
  forall p, In p paths <-> exists w, In w ws /\ class_found e (dirname (it_origin i)) (class_dirs st) w p.
Proof.
  intros n e path off forced s r s' i cl st paths ns t ws He Hr E Hi Ep Hu Hne Hc Ht Hw Hig p.
  pose proof (added_settled _ _ _ _ _ _ _ _ _ ns Hr E Hi Hu) as H. unfold named_ok in H. rewrite Ep in H.
  destruct H as [s0 [text [[F1 F2] [Et H]]]]. apply D_unassigned in F1. rewrite <- F2 in Ht.
  rewrite (expand_settled e s0 (it_origin i) ns cl t He F1 Hc Hne Ht) in Et. injection Et as <-.
  rewrite H. unfold keep_nonempty. rewrite (words_split _ _ Hw). intuition.
Qed.
