(** * Lines of included files *)

From Verif Require Import PyStr Regex Patterns PyPath Res Inline Const Item Lines Stash
  StrFacts ReFacts LinesFacts ParseFacts OffsetFacts HistFacts.

(** Items from now on are quiet: they add no file and come from no bbappend. *)
Definition quiet (i : item) : Prop := adds_no_file i /\ endswith ".bbappend" (it_origin i) = false.
Definition quiet_from (k : nat) (x : option nat) (s : stash) : Prop :=
  forall t, In t (st_list s) -> k <= it_id t -> Some (it_id t) <> x -> quiet t.

Lemma quiet_back : forall p k x s s', grows p s s' -> quiet_from k x s' -> quiet_from k x s.
Proof.
  intros p k x s s' [f [new [Hf [E _]]]] H t Ht Hk Hx.
  assert (Hq : quiet (f t)).
  { apply H; [|now rewrite raises_it_id|now rewrite raises_it_id]. rewrite E. apply in_or_app. left. now apply in_map. }
  destruct (Hf t) as [Et _]. rewrite Et in Hq. exact Hq.
Qed.

(** ** Nothing is added by items that add no file *)

Lemma inherit_quiet : forall e addf locs file inhname line l off s r s',
  inherit_loop e addf locs file inhname line l [] off s = (Ok r, s') -> fst r = [] -> s' = s /\ snd r = off.
Proof.
  intros e addf locs file inhname line l. induction l as [|x l IH]; intros off s r s' H Hr; cbn [inherit_loop] in H.
  - inversion H; subst. auto.
  - unfold bindM at 1 in H. destruct (find_class _ _ _ _ s) as [[p|ex|] s1] eqn:Ef; try discriminate.
    assert (Hs : s1 = s).
    { clear - Ef. revert s s1 Ef. induction locs as [|a locs IH]; intros s s1 Ef; cbn [find_class] in Ef.
      - now inversion Ef.
      - unfold bindM, find_m at 1 in Ef. destruct (find_local_or_layer _ _ _ _) as [[|c q]|]; try discriminate.
        + now apply IH in Ef.
        + now inversion Ef. }
    subst s1. destruct p as [|c p]; [now apply IH in H|].
    unfold bindM at 1 in H. unfold liftR in H. destruct (cval_contains _ _); [now apply IH in H|].
    unfold bindM at 1 in H. destruct (addf _ _ _ s) as [[tmp|ex|] s2]; try discriminate.
    apply inherit_loop_grows in H; [congruence|]. apply add_set_nonnil.
Qed.

Lemma handle_quiet : forall e addf p file line k mt s o s',
  handle e addf p file line k mt s = (Ok o, s') ->
  (forall i z, o = Some (i, z) -> adds_no_file i) ->
  st_list s' = st_list s /\ forall i z, o = Some (i, z) -> z = 0%Z.
Proof.
  intros e addf p file line k mt s o s' H Hno.
  assert (Hinh : forall locs a st,
      (dom inhname <- liftR (fun s => expand_term e s file a);
       dom r <- inherit_loop e addf locs file inhname line (keep_nonempty (split_char cSP inhname)) [] 0%Z;
       dom i <- new_item (fun n => mk_item (p n) (ip_new (p n)) (PInherit a st (fst r)));
       ret (Some (i, snd r))) s = (Ok o, s') -> st_list s' = st_list s /\ forall i z, o = Some (i, z) -> z = 0%Z).
  { intros locs a st H'. unfold bindM at 1 in H'. unfold liftR in *.
    destruct (expand_term e s file a) as [inh|ex|]; try discriminate.
    unfold bindM at 1 in H'.
    destruct (inherit_loop e addf locs file inh line _ [] 0%Z s) as [[r|ex|] s1] eqn:E; try discriminate.
    unfold bindM, new_item, fresh, ret in H'. simpl in H'. inversion H'; subst. clear H'.
    assert (Hr : fst r = []) by (apply (Hno _ _ eq_refl)).
    apply inherit_quiet in E; [|exact Hr]. destruct E as [-> E]. split; [reflexivity|]. intros i z Ez. inversion Ez; subst. exact E. }
  destruct k; unfold handle in *; try (eapply Hinh; exact H);
    try (unfold bindM, new_item, fresh, ret, liftR in *; simpl in *; inversion H; subst; split; [reflexivity|];
         intros i z Ez; now inversion Ez).
  - unfold bindM at 1 in H. unfold liftR at 1 in H.
    destruct (expand_term e s file _) as [inc|ex|]; try discriminate.
    unfold bindM at 1 in H. unfold find_m in H. destruct (find_local_or_layer _ _ _ _) as [path|]; try discriminate.
    destruct path as [|c path].
    + unfold bindM, new_item, fresh, ret in *. simpl in *. inversion H; subst. split; [reflexivity|]. intros i z Ez. now inversion Ez.
    + unfold bindM at 1 in H. unfold liftR at 1 in H. destruct (cval_contains inc _).
      * unfold ret in *. inversion H; subst. split; [reflexivity|discriminate].
      * exfalso. unfold bindM at 1 in H. destruct (addf _ _ _ s) as [[tmp|ex|] s2]; try discriminate.
        unfold bindM, new_item, fresh, ret in H. simpl in H. inversion H; subst.
        specialize (Hno _ _ eq_refl). discriminate.
  - destruct (existsb _ pkg_prefixes).
    + unfold ret in *. inversion H; subst. split; [reflexivity|discriminate].
    + unfold bindM, new_item, fresh, ret in *. simpl in *. inversion H; subst. split; [reflexivity|]. intros i z Ez. now inversion Ez.
Qed.

Lemma try_quiet : forall e addf p file line cnt l s x s',
  try_kinds e addf p file line cnt l s = (Ok x, s') -> adds_no_file (fst x) -> st_list s' = st_list s /\ snd x = 0%Z.
Proof.
  intros e addf p file line cnt l. induction l as [|[k r] l IH]; intros s x s' H Hno; cbn [try_kinds] in H.
  - unfold bindM, new_item, fresh, ret in *. simpl in *. inversion H; subst. auto.
  - destruct (re_match r cnt) as [mt|]; [|now apply IH in H].
    unfold bindM at 1 in H. destruct (handle e addf p file line k mt s) as [[o|ex|] s1] eqn:E; try discriminate.
    apply handle_quiet in E.
    + destruct E as [E1 E2]. destruct o as [[i z]|].
      * inversion H; subst. split; [exact E1|]. cbn. now apply (E2 i z).
      * apply IH in H; [|exact Hno]. rewrite <- E1. exact H.
    + intros i z ->. unfold ret in H. inversion H; subst. exact Hno.
Qed.

Lemma chunks_quiet : forall e addf file off cs inc new s l s', addf_ok addf ->
  parse_chunks e addf file off inc new cs s = (Ok l, s') -> Forall adds_no_file l ->
  st_list s' = st_list s /\ Forall (fun i => it_line i = (it_infile i + off + inc)%Z) l.
Proof.
  intros e addf file off cs. induction cs as [|c cs IH]; intros inc new s l s' Ha H Hl; cbn [parse_chunks] in H.
  - inversion H; subst. auto.
  - unfold bindM at 1 in H.
    match type of H with match ?t with _ => _ end = _ => destruct t as [[x|ex|] s1] eqn:E; try discriminate end.
    unfold bindM, ret in H.
    match type of H with match ?t with _ => _ end = _ => destruct t as [[l0|ex|] s2] eqn:E2; try discriminate end.
    inversion H; subst. clear H. inversion Hl as [|? ? H1 H2]; subst.
    pose proof E as Em. apply try_kinds_sat in Em; [|exact Ha]. destruct Em as [[n [new' [pay [Ex _]]]] _].
    apply try_quiet in E; [|exact H1]. destruct E as [E3 E4].
    apply IH in E2; [|exact Ha|exact H2]. destruct E2 as [E5 E6]. rewrite E4, Z.add_0_r in E6. split; [now rewrite E5|].
    constructor; [|exact E6]. rewrite Ex. cbn. lia.
Qed.

(** ** A file that adds no other file *)

Lemma leaf : forall n e path off forced s tmp s', add_file n e path off forced s = (Ok tmp, s') -> Forall quiet tmp ->
  exists f, raises f /\ st_list s' = map f (st_list s) ++ tmp /\
    Forall (fun i => it_line i = (off + it_infile i)%Z /\ (1 <= it_infile i)%Z) tmp.
Proof.
  intros n e path off forced s tmp s' H Hq. destruct n as [|n]; [discriminate|]. rewrite add_file_eq in H. cbv zeta in H.
  destruct (skipped e path s) eqn:Es.
  { inversion H; subst. exists (fun i => i). rewrite map_id, app_nil_r. split; [apply raises_id|]. auto. }
  set (file := abspath (fs_cwd (e_fs e)) path) in *. unfold bindM in H.
  destruct (get_items e _ file off (enter file s)) as [[items|ex|] s1] eqn:Eg; try discriminate.
  pose proof H as Hle. apply leave_cases in H. destruct H as [f [l [Hf [L [_ [_ [_ [_ [_ [_ [_ Hl]]]]]]]]]]].
  destruct (Hl tmp eq_refl) as [-> [mx Emx]]. exists f. split; [exact Hf|].
  assert (Hno : Forall adds_no_file items).
  { rewrite Emx in Hq. rewrite Forall_map in Hq. eapply Forall_impl; [|exact Hq]. intros i [Hi _]. exact Hi. }
  pose proof Eg as Ec. apply get_items_sat in Ec; [|apply add_file_addf_ok]. destruct Ec as [cs [Ec1 Ec2]].
  pose proof (parsed_origin _ _ _ _ _ _ Ec2) as Ho.
  apply prepare_file_ok in Ec1. destruct Ec1 as [Ec1 _]. apply (parsed_infile _ _ _ _ _ _ _ Ec1) in Ec2.
  unfold get_items, bindM, liftR in Eg. destruct (prepare_file _ _ _ _) as [cs'|ex|]; try discriminate.
  apply chunks_quiet in Eg; [|apply add_file_addf_ok|exact Hno]. destruct Eg as [Eg1 Eg2].
  rewrite L, Eg1. split; [reflexivity|].
  assert (Hmx : items = [] \/ mx = 0%Z).
  { destruct items as [|i items]; [now left|]. right.
    assert (Hb : endswith ".bbappend" file = false).
    { rewrite Emx in Hq. inversion Hq as [|? ? [_ Hq1] _]; subst. cbn in Hq1. inversion Ho as [|? ? Ho1 _]; subst. rewrite <- Ho1. exact Hq1. }
    unfold leave in Hle. unfold bindM at 1 in Hle. unfold bindM at 1 in Hle.
    match type of Hle with match ?t with _ => _ end = _ => destruct t as [[it2|ex|] s2] eqn:Em; try discriminate end.
    unfold bindM at 1 in Hle. destruct (add_distro_machine e file s2) as [[u|ex|] s3]; try discriminate.
    unfold bindM, ret in Hle. inversion Hle; subst it2. apply match_appends_shift in Em. destruct Em as [mx' [Em Hm']].
    rewrite (Hm' Hb) in Em. rewrite Emx in Em. cbn in Em. inversion Em. lia. }
  destruct Hmx as [->| ->]; [rewrite Emx; constructor|].
  rewrite Emx. rewrite Forall_map. apply Forall_forall. intros i Hi. cbn.
  unfold infile_pos in Ec2. rewrite Forall_forall in Eg2, Ec2. specialize (Eg2 _ Hi). specialize (Ec2 _ Hi). lia.
Qed.

(** ** One statement that adds files *)

Definition beside (line max : Z) (t : item) : Prop :=
  it_line t = (line + it_infile t)%Z /\ (1 <= it_infile t <= max)%Z.
Definition puts (line max : Z) (s s' : stash) : Prop :=
  exists f new, raises f /\ st_list s' = map f (st_list s) ++ new /\ Forall (fun t => quiet t -> beside line max t) new.

Lemma puts_refl : forall line max s s', st_list s' = st_list s -> puts line max s s'.
Proof. intros line max s s' E. exists (fun i => i), []. rewrite map_id, app_nil_r, E. split; [apply raises_id|]. auto. Qed.

Lemma max_infile_ge : forall l i, In i l -> (it_infile i <= max_infile l)%Z.
Proof.
  assert (H : forall l a, (a <= fold_left (fun a x => Z.max a (it_infile x)) l a)%Z /\
            forall i, In i l -> (it_infile i <= fold_left (fun a x => Z.max a (it_infile x)) l a)%Z).
  { induction l as [|x l IH]; intro a; cbn [fold_left]; [split; [lia|intros i []]|].
    destruct (IH (Z.max a (it_infile x))) as [H1 H2]. split; [lia|]. intros i [<-|Hi]; [lia|now apply H2]. }
  intros [|x l] i Hi; [destruct Hi|]. cbn [max_infile]. destruct (H l (it_infile x)) as [H1 H2].
  destruct Hi as [<-|Hi]; [exact H1|now apply H2].
Qed.

Lemma puts_weaken : forall line a b s s', puts line a s s' -> (a <= b)%Z -> puts line b s s'.
Proof.
  intros line a b s s' [f [new [Hf [E H]]]] Hab. exists f, new. split; [exact Hf|]. split; [exact E|].
  eapply Forall_impl; [|exact H]. intros t Ht Hq. destruct (Ht Hq) as [H1 H2]. split; [exact H1|lia].
Qed.
Lemma puts_trans : forall line a s1 s2 s3, puts line a s1 s2 -> puts line a s2 s3 -> puts line a s1 s3.
Proof.
  intros line a s1 s2 s3 [f [n1 [F1 [L1 H1]]]] [g [n2 [F2 [L2 H2]]]].
  exists (fun i => g (f i)), (map g n1 ++ n2). split; [now apply raises_comp|].
  split; [rewrite L2, L1, map_app, map_map, app_assoc; reflexivity|].
  apply Forall_app. split; [|exact H2]. rewrite Forall_map. eapply Forall_impl; [|exact H1].
  intros t Ht Hq. destruct (F2 t) as [E [_ Eb]]. rewrite E in Hq. destruct Hq as [Q1 Q2]. cbn in Q2.
  rewrite (Eb Q2). apply Ht. split; [exact Q1|exact Q2].
Qed.

Section One.
  Context (e : env) (n : nat).
  Let addf : addfile_t := fun p o f => add_file n e p o (Some f).

  Lemma added_puts : forall p o f s tmp s', addf p o f s = (Ok tmp, s') -> quiet_from (st_next s) None s' ->
    puts o (max_infile tmp) s s'.
  Proof.
    intros p o f s tmp s' H Hq. unfold addf in H.
    assert (Ht : Forall quiet tmp).
    { pose proof H as Hg. destruct n as [|m]; [discriminate|]. rewrite add_file_eq in Hg. cbv zeta in Hg.
      destruct (skipped e p s) eqn:Es; [inversion Hg; subst; constructor|].
      set (file := abspath (fs_cwd (e_fs e)) p) in *. unfold bindM in Hg.
      destruct (get_items e _ file o (enter file s)) as [[items|ex|] s1] eqn:Eg; try discriminate.
      apply leave_cases in Hg. destruct Hg as [g [l [Hf [L [_ [_ [_ [_ [_ [_ [_ Hl]]]]]]]]]]].
      destruct (Hl tmp eq_refl) as [-> [mx ->]]. apply Forall_forall. intros t Hti. apply Hq.
      - rewrite L. apply in_or_app. now right.
      - apply in_map_iff in Hti. destruct Hti as [i [<- Hi]]. cbn.
        assert (Hgr : grows items (enter file s) s1).
        { refine (rel_get_items e grows _ _ _ _ _ _ m file o _ (Ok items) _ Eg).
          - apply grows_refl.
          - apply grows_trans.
          - apply grows_drop.
          - intros s0 i0 Hi0 _. now apply grows_new.
          - intros s0 path _. now apply grows_same.
          - intros s0 s2 path forced its r s3 fl _ _ Hg E.
            apply (grows_trans [] [] s0 (enter fl s0)); [now apply grows_same|]. eapply grows_leave; eassumption. }
        destruct Hgr as [_ [new [_ [_ [_ [R _]]]]]]. apply Forall_app in R. destruct R as [_ R]. rewrite Forall_forall in R.
        apply R in Hi. unfold in_range in Hi. cbn in Hi. lia.
      - discriminate. }
    destruct (leaf _ _ _ _ _ _ _ _ H Ht) as [g [Hg [L Hl]]]. exists g, tmp. split; [exact Hg|]. split; [exact L|].
    apply Forall_forall. intros t Hti _. rewrite Forall_forall in Hl. destruct (Hl _ Hti) as [L1 L2]. split; [exact L1|].
    split; [exact L2|now apply max_infile_ge].
  Qed.

  Lemma addf_grows : forall p o f s r s', addf p o f s = (r, s') -> grows [] s s'.
  Proof. intros p o f s r s' H. eapply add_file_grows. exact H. Qed.
  Lemma grows_next : forall p s s', grows p s s' -> st_next s <= st_next s'.
  Proof. intros p s s' [f [new [_ [_ [_ [_ [H _]]]]]]]. exact H. Qed.
  Lemma quiet_mono : forall k k' x s, k <= k' -> quiet_from k x s -> quiet_from k' x s.
  Proof. intros k k' x s Hk H t Ht Hk'. apply H; [exact Ht|lia]. Qed.

  Lemma inherit_puts : forall locs file inhname line l paths off s r s',
    inherit_loop e addf locs file inhname line l paths off s = (Ok r, s') -> quiet_from (st_next s) None s' ->
    grows [] s s' /\ (off <= snd r)%Z /\ puts line (snd r - off) s s'.
  Proof.
    intros locs file inhname line l. induction l as [|x l IH]; intros paths off s r s' H Hq; cbn [inherit_loop] in H.
    - inversion H; subst. split; [apply grows_refl|]. split; [cbn; lia|]. now apply puts_refl.
    - unfold bindM at 1 in H. destruct (find_class _ _ _ _ s) as [[p|ex|] s1] eqn:Ef; try discriminate.
      assert (Hs : s1 = s).
      { clear - Ef. revert s s1 Ef. induction locs as [|a locs IH]; intros s s1 Ef; cbn [find_class] in Ef.
        - now inversion Ef.
        - unfold bindM, find_m at 1 in Ef. destruct (find_local_or_layer _ _ _ _) as [[|c q]|]; try discriminate.
          + now apply IH in Ef.
          + now inversion Ef. }
      subst s1. destruct p as [|c p]; [now apply IH in H|].
      unfold bindM at 1 in H. unfold liftR in H. destruct (cval_contains _ _); [now apply IH in H|].
      unfold bindM at 1 in H. destruct (addf _ _ _ s) as [[tmp|ex|] s2] eqn:Ea; try discriminate.
      pose proof (addf_grows _ _ _ _ _ _ Ea) as G1. pose proof (grows_next _ _ _ G1) as N1.
      apply IH in H; [|eapply quiet_mono; eassumption]. destruct H as [G2 [H1 H2]].
      assert (Hm : (0 <= max_infile tmp)%Z) by (apply max_infile_nonneg; eapply add_file_addf_ok; exact Ea).
      split; [exact (grows_trans [] [] _ _ _ G1 G2)|]. split; [lia|].
      apply puts_trans with (s2 := s2).
      + apply puts_weaken with (a := max_infile tmp); [|lia]. eapply added_puts; [exact Ea|]. eapply quiet_back; eassumption.
      + eapply puts_weaken; [exact H2|lia].
  Qed.

  Lemma handle_puts : forall p file line k mt s o s',
    handle e addf p file line k mt s = (Ok o, s') -> quiet_from (st_next s) None s' ->
    puts line (match o with Some x => snd x | None => 0%Z end) s s'.
  Proof.
    intros p file line k mt s o s' H Hq.
    assert (Hinh : forall locs a st,
      (dom inhname <- liftR (fun s => expand_term e s file a);
       dom r <- inherit_loop e addf locs file inhname line (keep_nonempty (split_char cSP inhname)) [] 0%Z;
       dom i <- new_item (fun n => mk_item (p n) (ip_new (p n)) (PInherit a st (fst r)));
       ret (Some (i, snd r))) s = (Ok o, s') -> puts line (match o with Some x => snd x | None => 0%Z end) s s').
    { intros locs a st H'. unfold bindM at 1 in H'. unfold liftR in *.
      destruct (expand_term e s file a) as [inh|ex|]; try discriminate.
      unfold bindM at 1 in H'.
      destruct (inherit_loop e addf locs file inh line _ [] 0%Z s) as [[r|ex|] s1] eqn:E; try discriminate.
      unfold bindM, new_item, fresh, ret in H'. simpl in H'. inversion H'; subst. clear H'.
      apply inherit_puts in E; [|exact Hq]. destruct E as [_ [_ E]]. rewrite Z.sub_0_r in E. exact E. }
    destruct k; unfold handle in *; try (eapply Hinh; exact H);
      try (unfold bindM, new_item, fresh, ret, liftR in *; simpl in *; inversion H; subst; now apply puts_refl).
    - unfold bindM at 1 in H. unfold liftR at 1 in H.
      destruct (expand_term e s file _) as [inc|ex|]; try discriminate.
      unfold bindM at 1 in H. unfold find_m in H. destruct (find_local_or_layer _ _ _ _) as [path|]; try discriminate.
      destruct path as [|c path].
      + unfold bindM, new_item, fresh, ret in *. simpl in *. inversion H; subst. now apply puts_refl.
      + unfold bindM at 1 in H. unfold liftR at 1 in H. destruct (cval_contains inc _).
        * unfold ret in *. inversion H; subst. now apply puts_refl.
        * unfold bindM at 1 in H. destruct (addf _ _ _ s) as [[tmp|ex|] s2] eqn:Ea; try discriminate.
          unfold bindM, new_item, fresh, ret in H. simpl in H. inversion H; subst. cbn [snd].
          eapply added_puts in Ea; [exact Ea|exact Hq].
    - destruct (existsb _ pkg_prefixes).
      + unfold ret in *. inversion H; subst. now apply puts_refl.
      + unfold bindM, new_item, fresh, ret in *. simpl in *. inversion H; subst. now apply puts_refl.
  Qed.

  Lemma try_puts : forall p file line cnt l s x s',
    try_kinds e addf p file line cnt l s = (Ok x, s') -> quiet_from (st_next s) None s' -> puts line (snd x) s s'.
  Proof.
    intros p file line cnt l. induction l as [|[k r] l IH]; intros s x s' H Hq; cbn [try_kinds] in H.
    - unfold bindM, new_item, fresh, ret in *. simpl in *. inversion H; subst. now apply puts_refl.
    - destruct (re_match r cnt) as [mt|]; [|now apply IH in H].
      unfold bindM at 1 in H. destruct (handle e addf p file line k mt s) as [[o|ex|] s1] eqn:E; try discriminate.
      destruct o as [[i z]|].
      + inversion H; subst. apply handle_puts in E; [exact E|exact Hq].
      + pose proof E as E0. apply handle_quiet in E0; [|discriminate]. destruct E0 as [E0 _].
        assert (Hn : st_next s1 = st_next s).
        { clear - E. destruct k; unfold handle in E;
            try (unfold bindM, new_item, fresh, ret, liftR in E; simpl in E; discriminate);
            try (unfold bindM at 1 in E; unfold liftR at 1 in E; destruct (expand_term e s file _) as [inh|ex|]; try discriminate;
                 unfold bindM at 1 in E; destruct (inherit_loop _ _ _ _ _ _ _ _ _ s) as [[q|ex|] s2]; try discriminate;
                 unfold bindM, new_item, fresh, ret in E; simpl in E; discriminate).
          - unfold bindM at 1 in E. unfold liftR at 1 in E.
            destruct (expand_term e s file _) as [inc|ex|]; try discriminate.
            unfold bindM at 1 in E. unfold find_m in E. destruct (find_local_or_layer _ _ _ _) as [path|]; try discriminate.
            destruct path as [|c path]; [unfold bindM, new_item, fresh, ret in E; simpl in E; discriminate|].
            unfold bindM at 1 in E. unfold liftR at 1 in E. destruct (cval_contains inc _).
            + unfold ret in E. now inversion E.
            + unfold bindM at 1 in E. destruct (addf _ _ _ s) as [[tmp|ex|] s2]; try discriminate.
          - destruct (existsb _ pkg_prefixes); [unfold ret in E; now inversion E|].
            unfold bindM, new_item, fresh, ret in E; simpl in E; discriminate. }
        apply IH in H; [|now rewrite Hn]. destruct H as [f [new [Hf [L Hl]]]]. exists f, new. rewrite <- E0. auto.
  Qed.
End One.

(** ** One such statement in a file *)

Lemma step_grows : forall e n p file line cnt l s x s', (forall k, ip_id (p k) = k) ->
  try_kinds e (fun p o f => add_file n e p o (Some f)) p file line cnt l s = (Ok x, s') -> grows [fst x] s s'.
Proof.
  intros e n p file line cnt l s x s' Hp H.
  refine (rel_try e grows grows_refl grows_trans _ _ p file line cnt l _ Hp s (Ok x) s' H).
  - intros s0 i Hi _. now apply grows_new.
  - intros p0 o f s0 r s0' E. apply add_file_grows in E. destruct r; exact E.
Qed.
Lemma chunks_grows : forall e n file off cs inc new s l s',
  parse_chunks e (fun p o f => add_file n e p o (Some f)) file off inc new cs s = (Ok l, s') -> grows l s s'.
Proof.
  intros e n file off cs inc new s l s' H.
  refine (rel_chunks e grows grows_refl grows_trans grows_drop _ _ file off cs inc new _ s (Ok l) s' H).
  - intros s0 i Hi _. now apply grows_new.
  - intros p0 o f s0 r s0' E. apply add_file_grows in E. destruct r; exact E.
Qed.

Lemma chunks_one : forall e n file off a cs x b inc new s s',
  parse_chunks e (fun p o f => add_file n e p o (Some f)) file off inc new cs s = (Ok (a ++ x :: b), s') ->
  Forall adds_no_file a -> Forall adds_no_file b -> quiet_from (st_next s) None s' ->
  exists mx, puts (it_infile x + off) mx s s' /\ it_line x = (it_infile x + off + inc)%Z /\
    Forall (fun z => it_line z = (it_infile z + off + inc)%Z) a /\
    Forall (fun z => it_line z = (it_infile z + off + inc + mx)%Z) b.
Proof.
  intros e n file off a. induction a as [|y a IH]; intros cs x b inc new s s' H Ha Hb Hq;
    (destruct cs as [|c cs]; cbn [parse_chunks] in H; [discriminate|]);
    unfold bindM at 1 in H;
    (match type of H with match ?t with _ => _ end = _ => destruct t as [[w|ex|] s1] eqn:E; try discriminate end);
    unfold bindM, ret in H;
    (match type of H with match ?t with _ => _ end = _ => destruct t as [[l0|ex|] s2] eqn:E2; try discriminate end);
    cbn in H; inversion H; subst; clear H;
    pose proof (chunks_grows _ _ _ _ _ _ _ _ _ _ E2) as G2; apply grows_drop in G2;
    pose proof E as G1; (apply step_grows in G1; [|intro k; reflexivity]);
    pose proof (grows_next _ _ _ G1) as N1;
    pose proof E as Em; (apply try_kinds_sat in Em; [|apply add_file_addf_ok]); destruct Em as [[i0 [new' [pay [Ex _]]]] _].
  - exists (snd w). assert (Hx : (ck_line c = it_infile (fst w) + off)%Z) by (rewrite Ex; cbn; lia).
    split; [|split; [rewrite Ex; cbn; lia|]].
    + apply try_puts in E; [|eapply quiet_back; eassumption].
      apply chunks_quiet in E2; [|apply add_file_addf_ok|exact Hb]. destruct E2 as [E2 _].
      rewrite Hx in E. destruct E as [f [nw [Hf [L Hl]]]]. exists f, nw. rewrite E2. auto.
    + split; [constructor|].
      apply chunks_quiet in E2; [|apply add_file_addf_ok|exact Hb]. destruct E2 as [_ E2].
      eapply Forall_impl; [|exact E2]. intros z Hz. cbn in Hz. lia.
  - inversion Ha as [|? ? Ha1 Ha2]; subst.
    apply try_quiet in E; [|exact Ha1]. destruct E as [E3 E4].
    apply IH in E2; [|exact Ha2|exact Hb|eapply quiet_mono; eassumption].
    rewrite E4, Z.add_0_r in E2. destruct E2 as [mx [H1 [H2 [H3 H4]]]]. exists mx. split.
    + destruct H1 as [f [nw [Hf [L Hl]]]]. exists f, nw. rewrite <- E3. auto.
    + split; [exact H2|]. split; [constructor; [rewrite Ex; cbn; lia|exact H3]|exact H4].
Qed.

Lemma NoDup_app_r : forall A (a b : list A), NoDup (a ++ b) -> NoDup b.
Proof. intros A a b H. induction a as [|x a IH]; [exact H|]. apply IH. now inversion H. Qed.
Lemma NoDup_app_disj : forall A (a b : list A) x, NoDup (a ++ b) -> In x a -> In x b -> False.
Proof.
  intros A a b x H Ha Hb. induction a as [|y a IH]; [exact Ha|]. inversion H as [|? ? Hn Hd]; subst.
  destruct Ha as [->|Ha]; [apply Hn; apply in_or_app; now right|now apply IH].
Qed.
Lemma app_inv_len : forall A (a b c d : list A), a ++ b = c ++ d -> length a = length c -> a = c /\ b = d.
Proof.
  intros A a. induction a as [|x a IH]; intros b [|y c] d H Hl; try discriminate; [auto|].
  cbn in H, Hl. inversion H; subst. destruct (IH b c d) as [-> ->]; auto.
Qed.
Lemma increasing_mid : forall a x b, increasing (a ++ x :: b) ->
  Forall (fun z => (z < x)%Z) a /\ Forall (fun z => (x < z)%Z) b.
Proof.
  assert (H0 : forall b x, increasing (x :: b) -> Forall (fun z => (x < z)%Z) b).
  { induction b as [|y b IH]; intros x H; [constructor|]. inversion H as [| |? ? ? H1 H2]; subst. constructor; [exact H1|].
    apply IH in H2. eapply Forall_impl; [|exact H2]. intros z Hz. cbn in Hz. lia. }
  induction a as [|y a IH]; intros x b H; [split; [constructor|now apply H0]|].
  cbn [app] in H. pose proof (H0 _ _ H) as H1. apply Forall_app in H1. destruct H1 as [_ H1]. inversion H1; subst.
  assert (H' : increasing (a ++ x :: b)).
  { inversion H as [|? E|? ? ? ? E]; subst; [destruct a; discriminate|exact E]. }
  destruct (IH _ _ H') as [I1 I2]. split; [constructor; assumption|exact I2].
Qed.

(** The items a call of AddFile adds, besides those of the file itself. *)
Lemma between : forall n e path off forced s a x b s',
  add_file n e path off forced s = (Ok (a ++ x :: b), s') ->
  (forall y, In y (st_list s') -> st_next s <= it_id y -> it_id y <> it_id x -> quiet y) ->
  endswith ".bbappend" (it_origin x) = false -> Forall (fun i => it_id i < st_next s) (st_list s) ->
  exists f nw, raises f /\ st_list s' = map f (st_list s) ++ nw ++ a ++ x :: b /\
  Forall (fun y => st_next s <= it_id y) (nw ++ a ++ x :: b) /\
  NoDup (map it_id (nw ++ a ++ x :: b)) /\
  forall y, In y nw -> it_line y = (it_line x + it_infile y)%Z /\ (1 <= it_infile y)%Z /\
    Forall (fun z => (it_line z < it_line x)%Z) a /\ Forall (fun z => (it_line y < it_line z)%Z) b.
Proof.
  intros n e path off forced s a x b s' H Hq Hbb Hold. destruct n as [|n]; [discriminate|]. rewrite add_file_eq in H. cbv zeta in H.
  destruct (skipped e path s) eqn:Es; [destruct a; discriminate|].
  set (file := abspath (fs_cwd (e_fs e)) path) in *. unfold bindM in H.
  destruct (get_items e _ file off (enter file s)) as [[items|ex|] s1] eqn:Eg; try discriminate.
  pose proof H as Hle. apply leave_cases in H. destruct H as [f [l [Hf [L [_ [_ [_ [_ [_ [_ [_ Hl]]]]]]]]]]].
  destruct (Hl _ eq_refl) as [El [mx Emx]]. subst l. clear Hl.
  pose proof Eg as Ec. apply get_items_sat in Ec; [|apply add_file_addf_ok]. destruct Ec as [cs [Ec1 Ec2]].
  pose proof (parsed_origin _ _ _ _ _ _ Ec2) as Ho.
  assert (Hfile : it_origin x = file).
  { rewrite Forall_forall in Ho. assert (Hx : In x (map (fun i => set_line (it_line i + mx) i) items)).
    { rewrite <- Emx. apply in_or_app. right. now left. }
    apply in_map_iff in Hx. destruct Hx as [i [<- Hi]]. cbn. now apply Ho. }
  assert (Hmx : mx = 0%Z).
  { rewrite Hfile in Hbb. unfold leave in Hle. unfold bindM at 1 in Hle. unfold bindM at 1 in Hle.
    match type of Hle with match ?t with _ => _ end = _ => destruct t as [[it2|ex|] s2] eqn:Em; try discriminate end.
    unfold bindM at 1 in Hle. destruct (add_distro_machine e file s2) as [[u|ex|] s3]; try discriminate.
    unfold bindM, ret in Hle. inversion Hle; subst it2. apply match_appends_shift in Em. destruct Em as [mx' [Em Hm']].
    rewrite (Hm' Hbb) in Em. rewrite Emx in Em. destruct items as [|i items]; [destruct a; discriminate|].
    cbn in Em. inversion Em. lia. }
  subst mx. assert (Ei : items = a ++ x :: b).
  { rewrite Emx. rewrite <- (map_id items) at 1. apply map_ext. intro i. destruct i. cbn. now rewrite Z.add_0_r. }
  subst items. clear Emx Hle.
  apply prepare_file_ok in Ec1. destruct Ec1 as [Ec1 _].
  pose proof (parsed_lines _ _ _ _ _ _ _ _ Ec1 Ec2) as Hord.
  unfold get_items, bindM, liftR in Eg. destruct (prepare_file _ _ _ _) as [cs'|ex|]; try discriminate.
  pose proof (chunks_grows _ _ _ _ _ _ _ _ _ _ Eg) as G1. destruct G1 as [f1 [n1 [F1 [L1 [D1 [R1 [N1 _]]]]]]].

  change (st_list (enter file s)) with (st_list s) in L1. change (st_next (enter file s)) with (st_next s) in R1.
  assert (Hfn : forall t, In t n1 -> quiet t /\ f t = t).
  { intros t Ht. assert (Hqt : quiet (f t)).
    { apply Hq.
      - rewrite L, L1, map_app. apply in_or_app. left. apply in_or_app. right. now apply in_map.
      - rewrite raises_it_id by exact Hf. rewrite Forall_forall in R1.
        assert (Hr : In t (n1 ++ a ++ x :: b)) by (apply in_or_app; now left). apply R1 in Hr. unfold in_range in Hr. lia.
      - rewrite raises_it_id by exact Hf. rewrite map_app in D1. intro E. apply (NoDup_app_disj _ _ _ _ D1 (in_map it_id _ _ Ht)).
        rewrite E. apply in_map. apply in_or_app. right. now left. }
    destruct (Hf t) as [Et [_ Eb]]. rewrite Et in Hqt. split; [exact Hqt|]. apply Eb. exact (proj2 Hqt). }
  assert (Hn1 : map f n1 = n1).
  { rewrite <- (map_id n1) at 2. apply map_ext_in. intros t Ht. now apply Hfn. }
  exists (fun i => f (f1 i)), n1. split; [now apply raises_comp|].
  split; [rewrite L, L1, map_app, map_map, Hn1, <- app_assoc; reflexivity|].
  split; [eapply Forall_impl; [|exact R1]; intros y Hy; unfold in_range in Hy; lia|]. split; [exact D1|].
  assert (Hab : Forall adds_no_file a /\ Forall adds_no_file b).
  { assert (Hin : forall y, In y a \/ In y b -> In y (a ++ x :: b) /\ it_id y <> it_id x).
    { intros y Hy. split; [apply in_or_app; destruct Hy; [now left|right; now right]|].
      rewrite map_app in D1. apply NoDup_app_r in D1. rewrite map_app in D1. cbn [map] in D1. apply NoDup_remove_2 in D1.
      intro E. apply D1. rewrite <- E. apply in_or_app. destruct Hy; [left|right]; now apply in_map. }
    split; apply Forall_forall; intros y Hy;
      (destruct (Hin y ltac:(auto)) as [H1 H2]; apply Hq; [rewrite L; apply in_or_app; now right| |exact H2];
       rewrite Forall_forall in R1; assert (Hr : In y (n1 ++ a ++ x :: b)) by (apply in_or_app; now right);
       apply R1 in Hr; unfold in_range in Hr; lia). }
  destruct Hab as [Hna Hnb].
  apply chunks_one in Eg; [|exact Hna|exact Hnb|].
  - destruct Eg as [mx [[f2 [n2 [_ [L2 P2]]]] [Lx [La Lb]]]]. change (st_list (enter file s)) with (st_list s) in L2.
    assert (En : n2 = n1).
    { rewrite L1 in L2. apply app_inv_len in L2; [|now rewrite !map_length]. symmetry. apply L2. }
    subst n2. intros y Hy. rewrite Forall_forall in P2. destruct (Hfn y Hy) as [Hqy _]. destruct (P2 y Hy Hqy) as [B1 B2].
    destruct Hord as [_ [Hinf _]]. rewrite map_app in Hinf. cbn [map] in Hinf. apply increasing_mid in Hinf. destruct Hinf as [I1 I2].
    rewrite Forall_map in I1, I2. rewrite Forall_forall in La, Lb, I1, I2.
    split; [lia|]. split; [lia|]. split; apply Forall_forall; intros z Hz.
    + specialize (La _ Hz). specialize (I1 _ Hz). cbn in *. lia.
    + specialize (Lb _ Hz). specialize (I2 _ Hz). cbn in *. lia.
  - intros t Ht Hk _. rewrite L1 in Ht. apply in_app_or in Ht. destruct Ht as [Ht|Ht].
    + exfalso. apply in_map_iff in Ht. destruct Ht as [t0 [<- Ht]]. rewrite raises_it_id in Hk by exact F1.
      rewrite Forall_forall in Hold. apply Hold in Ht. cbn in Hk. lia.
    + now apply Hfn.
Qed.
