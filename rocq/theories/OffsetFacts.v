(** * AddFile with another line offset *)

From Verif Require Import PyStr Regex Patterns PyPath Res Inline Const Item Lines Stash
  StrFacts ReFacts LinesFacts ParseFacts.

(** Items that made the parser add no further file. *)
Definition adds_no_file (i : item) : Prop :=
  match it_pay i with
  | PInclude _ _ f => f = []
  | PInherit _ _ ps => ps = []
  | _ => True
  end.

Definition shift (d : Z) (i : item) : item := set_line (it_line i + d) i.

Lemma add_set_nonnil : forall x l, add_set x l <> [].
Proof.
  intros x l H. unfold add_set in H. destruct (mem_str x l) eqn:E.
  - subst. discriminate.
  - apply app_eq_nil in H. destruct H. discriminate.
Qed.

Lemma inherit_loop_grows : forall e addf locs file inhname line l paths off s r s',
  inherit_loop e addf locs file inhname line l paths off s = (Ok r, s') ->
  paths <> [] -> fst r <> [].
Proof.
  intros e addf locs file inhname line l. induction l as [|x l IH]; intros paths off s r s' H Hp; simpl in H.
  - inversion H; subst. exact Hp.
  - unfold bindM at 1 in H. destruct (find_class _ _ _ _ s) as [[p|ex|] s1]; try discriminate.
    destruct p as [|c p]; [eapply IH; eassumption|].
    unfold bindM at 1 in H. unfold liftR in H. destruct (cval_contains _ _); [eapply IH; eassumption|].
    unfold bindM at 1 in H. destruct (addf _ _ _ s1) as [[tmp|ex|] s2]; try discriminate.
    eapply IH; [exact H|]. apply add_set_nonnil.
Qed.

Lemma inherit_loop_line : forall e addf locs file inhname line line' l off s r s',
  inherit_loop e addf locs file inhname line l [] off s = (Ok r, s') -> fst r = [] ->
  inherit_loop e addf locs file inhname line' l [] off s = (Ok r, s').
Proof.
  intros e addf locs file inhname line line' l. induction l as [|x l IH]; intros off s r s' H Hr; simpl in *.
  - exact H.
  - unfold bindM at 1 in H. unfold bindM at 1.
    destruct (find_class _ _ _ _ s) as [[p|ex|] s1]; try discriminate.
    destruct p as [|c p]; [now apply IH|].
    unfold bindM at 1 in H. unfold bindM at 1. unfold liftR in *.
    destruct (cval_contains _ _); [now apply IH|].
    unfold bindM at 1 in H. destruct (addf _ line _ s1) as [[tmp|ex|] s2]; try discriminate.
    exfalso. eapply inherit_loop_grows; [exact H|apply add_set_nonnil|exact Hr].
Qed.

(** Parameters of the same chunk at another offset. *)
Definition pshift (d : Z) (p : nat -> iparam) : nat -> iparam :=
  fun n => MkParam (ip_id (p n)) (ip_line (p n) + d) (ip_infile (p n)) (ip_raw (p n))
                   (ip_realraw (p n)) (ip_origin (p n)) (ip_blocks (p n)) (ip_new (p n)).

Definition oshift (d : Z) (o : option (item * Z)) : option (item * Z) :=
  match o with Some (i, z) => Some (shift d i, z) | None => None end.

Lemma mk_item_shift : forall d p n new pay,
  mk_item (pshift d p n) new pay = shift d (mk_item (p n) new pay).
Proof. reflexivity. Qed.

Lemma handle_line : forall e addf p file line line' k mt d s o s',
  handle e addf p file line k mt s = (Ok o, s') ->
  (forall i z, o = Some (i, z) -> adds_no_file i) ->
  handle e addf (pshift d p) file line' k mt s = (Ok (oshift d o), s').
Proof.
  intros e addf p file line line' k mt d s o s' H Hno.
  assert (Hinh : forall locs a st,
      (dom inhname <- liftR (fun s => expand_term e s file a);
       dom r <- inherit_loop e addf locs file inhname line (keep_nonempty (split_char cSP inhname)) [] 0%Z;
       dom i <- new_item (fun n => mk_item (p n) (ip_new (p n)) (PInherit a st (fst r)));
       ret (Some (i, snd r))) s = (Ok o, s') ->
      (dom inhname <- liftR (fun s => expand_term e s file a);
       dom r <- inherit_loop e addf locs file inhname line' (keep_nonempty (split_char cSP inhname)) [] 0%Z;
       dom i <- new_item (fun n => mk_item (pshift d p n) (ip_new (pshift d p n)) (PInherit a st (fst r)));
       ret (Some (i, snd r))) s = (Ok (oshift d o), s')).
  { intros locs a st H'. unfold bindM at 1 in H'. unfold bindM at 1. unfold liftR in *.
    destruct (expand_term e s file a) as [inh|ex|]; try discriminate.
    unfold bindM at 1 in H'. unfold bindM at 1.
    destruct (inherit_loop e addf locs file inh line _ [] 0%Z s) as [[r|ex|] s1] eqn:E; try discriminate.
    unfold bindM, new_item, fresh, ret in H'. simpl in H'. inversion H'; subst. clear H'.
    assert (Hr : fst r = []) by (apply (Hno _ _ eq_refl)).
    rewrite (inherit_loop_line _ _ _ _ _ _ line' _ _ _ _ _ E Hr). reflexivity. }
  destruct k; unfold handle in *; try (apply Hinh; exact H);
    try (unfold bindM, new_item, fresh, ret, liftR in *; simpl in *; inversion H; subst; reflexivity).
  - unfold bindM, new_item, fresh, ret, liftR in *; simpl in *; inversion H; subst. simpl.
    unfold mk_function. destruct (extract_sub_func _ _ _) as [[a b] c]. reflexivity.
  - unfold bindM at 1 in H. unfold bindM at 1. unfold liftR at 1 in H. unfold liftR at 1.
    destruct (expand_term e s file _) as [inc|ex|]; try discriminate.
    unfold bindM at 1 in H. unfold bindM at 1.
    destruct (find_m e inc (dirname file) s) as [[path|ex|] s1]; try discriminate.
    destruct path as [|c path].
    + unfold bindM, new_item, fresh, ret in *. simpl in *. inversion H; subst. reflexivity.
    + unfold bindM at 1 in H. unfold bindM at 1. unfold liftR at 1 in H. unfold liftR at 1.
      destruct (cval_contains inc _).
      * unfold ret in *. inversion H; subst. reflexivity.
      * exfalso. unfold bindM at 1 in H. destruct (addf _ _ _ s1) as [[tmp|ex|] s2]; try discriminate.
        unfold bindM, new_item, fresh, ret in H. simpl in H. inversion H; subst.
        specialize (Hno _ _ eq_refl). discriminate.
  - destruct (existsb _ pkg_prefixes).
    + unfold ret in *. inversion H; subst. reflexivity.
    + unfold bindM, new_item, fresh, ret in *. simpl in *. inversion H; subst. reflexivity.
Qed.

Lemma try_kinds_line : forall e addf p file line line' cnt d l s x s',
  try_kinds e addf p file line cnt l s = (Ok x, s') -> adds_no_file (fst x) ->
  try_kinds e addf (pshift d p) file line' cnt l s = (Ok (shift d (fst x), snd x), s').
Proof.
  intros e addf p file line line' cnt d l. induction l as [|[k r] l IH]; intros s x s' H Hno; simpl in *.
  - unfold bindM, new_item, fresh, ret in *. simpl in *. inversion H; subst. reflexivity.
  - destruct (re_match r cnt) as [mt|]; [|now apply IH].
    unfold bindM at 1 in H. unfold bindM at 1.
    destruct (handle e addf p file line k mt s) as [[o|ex|] s1] eqn:E; try discriminate.
    rewrite (handle_line _ _ _ _ _ line' _ _ d _ _ _ E).
    + destruct o as [[i z]|]; simpl.
      * unfold ret in *. inversion H; subst. reflexivity.
      * now apply IH.
    + intros i z ->. unfold ret in H. inversion H; subst. exact Hno.
Qed.

Lemma parse_chunks_line : forall e addf file off off' cs cs' inc new s l s',
  Forall2 (fun c c' => ck_raw c' = ck_raw c /\ ck_realraw c' = ck_realraw c /\ ck_blocks c' = ck_blocks c
                       /\ ck_cnt c' = ck_cnt c /\ (ck_line c' - off' = ck_line c - off)%Z) cs cs' ->
  parse_chunks e addf file off inc new cs s = (Ok l, s') -> Forall adds_no_file l ->
  parse_chunks e addf file off' inc new cs' s = (Ok (map (shift (off' - off)) l), s').
Proof.
  intros e addf file off off' cs cs' inc new s l s' Hf. revert inc new s l s'.
  induction Hf as [|c c' cs cs' [Er [Err [Eb [Ec El]]]] Hf IH]; intros inc new s l s' H Hno;
    cbn [parse_chunks] in *.
  - unfold ret in *. inversion H; subst. reflexivity.
  - unfold bindM at 1 in H. unfold bindM at 1.
    match type of H with
    | match try_kinds e addf ?p file (ck_line c) (ck_cnt c) order s with _ => _ end = _ => set (P := p) in H
    end.
    destruct (try_kinds e addf P file (ck_line c) (ck_cnt c) order s) as [[x|ex|] s1] eqn:E; try discriminate.
    unfold bindM at 1 in H.
    destruct (parse_chunks e addf file off (inc + snd x) (new || it_new (fst x)) cs s1)
      as [[l1|ex|] s2] eqn:Ep; try discriminate.
    unfold ret in H. inversion H; subst. inversion Hno as [|? ? Hx Hl]; subst.
    apply (try_kinds_line _ _ _ _ _ (ck_line c') _ (off' - off)) in E; [|exact Hx].
    match goal with
    | |- match try_kinds e addf ?p file _ _ order s with _ => _ end = _ =>
        replace (try_kinds e addf p file (ck_line c') (ck_cnt c') order s)
        with (try_kinds e addf (pshift (off' - off) P) file (ck_line c') (ck_cnt c) order s)
    end.
    + rewrite E. cbn [fst snd]. unfold bindM.
      change (it_new (shift (off' - off) (fst x))) with (it_new (fst x)).
      rewrite (IH _ _ _ _ _ Ep Hl). reflexivity.
    + rewrite Ec.
      assert (Hg : forall q q' l, (forall n, q n = q' n) -> forall s,
                 try_kinds e addf q file (ck_line c') (ck_cnt c) l s =
                 try_kinds e addf q' file (ck_line c') (ck_cnt c) l s).
      { clear. intros q q' l Hq. induction l as [|[k r] l IH]; intro s; simpl.
        - unfold bindM, new_item, fresh, ret. simpl. now rewrite Hq.
        - destruct (re_match r (ck_cnt c)) as [mt|]; [|apply IH].
          assert (Hh : handle e addf q file (ck_line c') k mt s = handle e addf q' file (ck_line c') k mt s).
          { destruct k; unfold handle; unfold bindM, new_item, fresh, ret, liftR; simpl; rewrite ?Hq; try reflexivity.
            - destruct (expand_term _ _ _ _); try reflexivity.
              destruct (inherit_loop _ _ _ _ _ _ _ _ _ _) as [[a0|a0|] s1]; try reflexivity. now rewrite Hq.
            - destruct (expand_term _ _ _ _); try reflexivity.
              destruct (inherit_loop _ _ _ _ _ _ _ _ _ _) as [[a0|a0|] s1]; try reflexivity. now rewrite Hq.
            - destruct (expand_term _ _ _ _); try reflexivity.
              destruct (find_m _ _ _ _) as [[[|c0 a0]|a0|] s1]; try reflexivity; [now rewrite Hq|].
              destruct (cval_contains _ _); [reflexivity|].
              destruct (addf _ _ _ _) as [[tmp|ex|] s2]; try reflexivity. now rewrite Hq.
            - match goal with |- context [if ?b then _ else _] => destruct b end; rewrite ?Hq; reflexivity. }
          unfold bindM. rewrite Hh. destruct (handle e addf q' file (ck_line c') k mt s) as [[[o|]|ex|] s1];
            try reflexivity. apply IH. }
      apply Hg. intro n. unfold pshift, P. simpl. rewrite Er, Err, Eb. f_equal; lia.
Qed.

(** Chunks do not depend on the offset apart from their line. *)
Lemma prepare_loop_offset : forall f off off' neg next rest num cs,
  prepare_loop f off neg next rest num = Ok cs ->
  exists cs', prepare_loop f off' neg next rest num = Ok cs'
    /\ Forall2 (fun c c' => ck_raw c' = ck_raw c /\ ck_realraw c' = ck_realraw c /\ ck_blocks c' = ck_blocks c
                       /\ ck_cnt c' = ck_cnt c /\ (ck_line c' - off' = ck_line c - off)%Z) cs cs'.
Proof.
  induction f as [|f IH]; intros off off' neg next rest num cs H; [discriminate|].
  rewrite prepare_loop_eq in *. destruct (line_list next rest) as [|line rest0].
  - inversion H; subst. exists []. split; [reflexivity|constructor].
  - unfold subparser in *. destruct (iterate line rest0) as [[[t n] r]|e|]; simpl in H |- *; try discriminate.
    destruct (inline_blocks_of neg t) as [[raw bs]|]; simpl in H |- *; try discriminate.
    destruct (prepare_loop f off neg n r _) as [cs1|e|] eqn:Ep; simpl in H; try discriminate.
    apply (IH off off') in Ep. destruct Ep as [cs1' [Ep Hf]]. rewrite Ep. simpl.
    inversion H; subst. eexists. split; [reflexivity|]. constructor; [|exact Hf]. simpl. repeat split; lia.
Qed.

Lemma prepare_file_offset : forall e file off off' neg cs,
  prepare_file e file off neg = Ok cs ->
  exists cs', prepare_file e file off' neg = Ok cs'
    /\ Forall2 (fun c c' => ck_raw c' = ck_raw c /\ ck_realraw c' = ck_realraw c /\ ck_blocks c' = ck_blocks c
                       /\ ck_cnt c' = ck_cnt c /\ (ck_line c' - off' = ck_line c - off)%Z) cs cs'.
Proof.
  intros e file off off' neg cs H. unfold prepare_file in *.
  destruct (fs_read (e_fs e) file) as [t| | |]; try discriminate.
  - now apply (prepare_loop_offset _ off off').
  - inversion H; subst. exists []. split; [reflexivity|constructor].
Qed.

Lemma link_recipe_any : forall file bn mx mx' l mp x,
  link_recipe file bn mx l mp = Ok x ->
  exists x', link_recipe file bn mx' l mp = Ok x' /\ snd x' = snd x.
Proof.
  intros file bn mx mx' l. induction l as [|i l IH]; intros mp x H; cbn [link_recipe] in *.
  - inversion H; subst. eexists. split; reflexivity.
  - destruct (endswith ".bbappend" (it_origin i)); [destruct (dyn_pattern _); [|discriminate]; destruct (matched _)|].
    all: match type of H with bind (link_recipe _ _ _ _ ?m) _ = _ =>
           destruct (link_recipe file bn mx l m) as [y|ex|] eqn:E; simpl in H; try discriminate;
           apply IH in E; destruct E as [x' [-> Es]]; inversion H; subst; simpl;
           eexists; split; [reflexivity|exact Es] end.
Qed.

Lemma add_names_list : forall key confs s s0,
  st_const s = st_const s0 ->
  fst (add_names key confs s) = fst (add_names key confs s0)
  /\ st_const (snd (add_names key confs s)) = st_const (snd (add_names key confs s0)).
Proof.
  intros key confs. unfold add_names. induction confs as [|c confs IH]; intros s s0 H; [simpl; auto|].
  cbn - [add_constants]. rewrite H. destruct (add_constants (st_const s0) _) as [db [x|]]; [simpl; auto|].
  apply IH. reflexivity.
Qed.

Lemma add_distro_machine_list : forall e path s s0,
  st_const s = st_const s0 -> fst (add_distro_machine e path s) = fst (add_distro_machine e path s0).
Proof.
  intros e path s s0 H. unfold add_distro_machine.
  destruct (get_layer_root _ _ path) as [[|c root]|]; try reflexivity.
  unfold bindM. destruct (add_names_list "distros" (fs_glob (e_fs e)
     (path_join (path_join (path_join (c :: root) "conf") "distro") "*.conf")) s s0 H) as [H1 H2].
  destruct (add_names "distros" _ s) as [r1 s1], (add_names "distros" _ s0) as [r2 s2].
  simpl in H1, H2. subst. destruct r2; try reflexivity.
  now apply add_names_list.
Qed.

Lemma add_file_offset : forall n e path off off' forced s l s',
  add_file n e path off forced s = (Ok l, s') -> Forall adds_no_file l ->
  exists s2, add_file n e path off' forced s = (Ok (map (shift (off' - off)) l), s2).
Proof.
  intros n e path off off' forced s l s' H Hno. destruct n as [|n]; [discriminate|].
  cbn [add_file] in *. set (file := abspath (fs_cwd (e_fs e)) path) in *.
  destruct (mem_str file (st_seen s) && negb (mem_str (snd (splitext file)) multi_exts)).
  { inversion H; subst. exists s'. reflexivity. }
  destruct (mem_str file (st_seenc s)).
  { inversion H; subst. exists s'. reflexivity. }
  cbv zeta in *.
  match type of H with bindM (get_items _ ?a _ _) _ ?s1 = _ => set (addf := a) in *; set (s1' := s1) in * end.
  unfold bindM at 1 in H. unfold bindM at 1.
  destruct (get_items e addf file off s1') as [[l0|ex|] s2] eqn:Eg; try discriminate.
  unfold bindM at 1 in H. unfold bindM at 1 in H.
  destruct (match_appends file l0 _) as [[l1|ex|] s3] eqn:Em; try discriminate.
  assert (Hno0 : Forall adds_no_file l0).
  { apply match_appends_shift in Em. destruct Em as [mx [-> _]].
    unfold bindM at 1 in H. destruct (add_distro_machine e file s3) as [[u|ex|] s4]; try discriminate.
    unfold bindM, ret in H. inversion H; subst. rewrite Forall_map in Hno.
    eapply Forall_impl; [|exact Hno]. intros i Hi. exact Hi. }
  assert (Eg' : get_items e addf file off' s1' = (Ok (map (shift (off' - off)) l0), s2)).
  { unfold get_items in Eg |- *. unfold bindM, liftR in Eg |- *.
    destruct (prepare_file e file off (st_neg s1')) as [cs|ex|] eqn:Ep; try discriminate.
    apply (prepare_file_offset _ _ off off') in Ep. destruct Ep as [cs' [-> Hf]].
    eapply parse_chunks_line; eassumption. }
  rewrite Eg'. unfold bindM at 1. unfold bindM at 1.
  assert (Em' : exists s3', match_appends file (map (shift (off' - off)) l0)
                  (with_map (link_file file forced (st_map s2)) s2) = (Ok (map (shift (off' - off)) l1), s3')
                  /\ st_const s3' = st_const s3).
  { unfold match_appends in Em |- *. destruct (endswith ".bbappend" file).
    - destruct (dyn_pattern _) as [rx|]; [|discriminate].
      destruct (fold_left _ (dkeys _) _) as [mp mx]. inversion Em; subst.
      eexists. split; [|reflexivity]. f_equal. f_equal. rewrite !map_map. apply map_ext. intro i.
      unfold shift, set_line. simpl. f_equal. lia.
    - destruct (endswith ".bb" file).
      + destruct (link_recipe file _ (max_line l0) _ _) as [[l2 mp]|ex|] eqn:El; try discriminate.
        apply (link_recipe_any _ _ _ (max_line (map (shift (off' - off)) l0))) in El.
        destruct El as [[l2' mp'] [-> _]]. inversion Em; subst. eexists. split; reflexivity.
      + inversion Em; subst. eexists. split; reflexivity. }
  destruct Em' as [s3' [-> Hc]]. unfold bindM at 1 in H. unfold bindM at 1.
  pose proof (add_distro_machine_list e file _ _ Hc) as Hd.
  destruct (add_distro_machine e file s3') as [r1 s4'], (add_distro_machine e file s3) as [r2 s4].
  simpl in Hd. subst. destruct r2 as [u|ex|]; try discriminate.
  unfold bindM, ret in *. inversion H; subst. eexists. reflexivity.
Qed.
