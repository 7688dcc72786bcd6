(** * Facts about the items a file is parsed into *)

From Verif Require Import PyStr Regex Patterns PyPath Res Inline Const Item Lines Stash
  StrFacts ReFacts LinesFacts.

(** ** Partial correctness of stateful computations *)

Definition sat {A} (x : M A) (P : A -> Prop) : Prop := forall s a s', x s = (Ok a, s') -> P a.

Lemma sat_ret : forall A (a : A) (P : A -> Prop), P a -> sat (ret a) P.
Proof. intros A a P H s b s' E. inversion E; subst. exact H. Qed.
Lemma sat_bind : forall A B (x : M A) (f : A -> M B) (P : A -> Prop) (Q : B -> Prop),
  sat x P -> (forall a, P a -> sat (f a) Q) -> sat (bindM x f) Q.
Proof.
  intros A B x f P Q Hx Hf s b s' E. unfold bindM in E.
  destruct (x s) as [[a|ex|] s1] eqn:Ex; try discriminate.
  eapply Hf; [|exact E]. eapply Hx. exact Ex.
Qed.
Lemma sat_any : forall A (x : M A), sat x (fun _ => True).
Proof. intros A x s a s' _. exact I. Qed.
Lemma sat_weaken : forall A (x : M A) (P Q : A -> Prop), sat x P -> (forall a, P a -> Q a) -> sat x Q.
Proof. intros A x P Q H HPQ s a s' E. apply HPQ. eapply H. exact E. Qed.

(** ** One item per chunk *)

(** What every handler guarantees about its item. *)
Definition made (p : nat -> iparam) (i : item) : Prop :=
  exists n new pay, i = mk_item (p n) new pay /\ (ip_new (p n) = true -> new = true).

Lemma made_mk : forall p n pay, made p (mk_item (p n) (ip_new (p n)) pay).
Proof. intros p n pay. exists n, (ip_new (p n)), pay. auto. Qed.
Lemma made_variable : forall p n a b c, made p (mk_variable (p n) a b c).
Proof.
  intros p n a b c. unfold mk_variable, extract_sub.
  eexists n, _, _. split; [reflexivity|]. intros ->. reflexivity.
Qed.
Lemma made_function : forall known p n a b c d, made p (mk_function known (p n) a b c d).
Proof.
  intros known p n a b c d. unfold mk_function, extract_sub_func.
  destruct (str_eqb _ "__anonymous").
  - eexists n, _, _. split; [reflexivity|]. intros ->. reflexivity.
  - destruct (sub_func_loop _ _ _ _ _) as [var suffix].
    eexists n, _, _. split; [reflexivity|]. intros ->. reflexivity.
Qed.

Definition infile_pos (l : list item) : Prop := Forall (fun i => (1 <= it_infile i)%Z) l.
Definition addf_ok (addf : addfile_t) : Prop := forall p o f, sat (addf p o f) infile_pos.

Lemma max_infile_nonneg : forall l, infile_pos l -> (0 <= max_infile l)%Z.
Proof.
  intros [|i l] H; simpl; [lia|]. inversion H as [|? ? Hi Hl]; subst. clear H.
  assert (Hf : forall l a, (a <= fold_left (fun a x => Z.max a (it_infile x)) l a)%Z).
  { clear. induction l as [|x l IH]; intro a; simpl; [lia|]. specialize (IH (Z.max a (it_infile x))). lia. }
  specialize (Hf l (it_infile i)). lia.
Qed.

Lemma inherit_loop_sat : forall e addf locs file inhname line l paths off,
  addf_ok addf -> (0 <= off)%Z ->
  sat (inherit_loop e addf locs file inhname line l paths off) (fun r => (0 <= snd r)%Z).
Proof.
  intros e addf locs file inhname line l. induction l as [|x l IH]; intros paths off Ha Ho; simpl.
  - apply sat_ret. exact Ho.
  - eapply sat_bind; [apply sat_any|]. intros p _. destruct p as [|c p]; [now apply IH|].
    eapply sat_bind; [apply sat_any|]. intros ign _. destruct ign; [now apply IH|].
    eapply sat_bind; [apply Ha|]. intros tmp Ht. apply IH; [assumption|].
    apply max_infile_nonneg in Ht. lia.
Qed.

Lemma new_item_sat : forall mk (P : item -> Prop), (forall n, P (mk n)) -> sat (new_item mk) P.
Proof.
  intros mk P H. unfold new_item. eapply sat_bind; [apply sat_any|]. intros n _. apply sat_ret. apply H.
Qed.

Definition handled (p : nat -> iparam) (o : option (item * Z)) : Prop :=
  match o with None => True | Some (i, d) => made p i /\ (0 <= d)%Z end.

Lemma done_sat : forall (p : nat -> iparam) mk,
  (forall n, made p (mk (p n))) ->
  sat (dom i <- new_item (fun n => mk (p n)); ret (Some (i, 0%Z))) (handled p).
Proof.
  intros p mk H. eapply sat_bind; [apply new_item_sat; exact H|].
  intros i Hi. apply sat_ret. split; [exact Hi|lia].
Qed.

Lemma handle_sat : forall e addf p file line k mt, addf_ok addf ->
  sat (handle e addf p file line k mt) (handled p).
Proof.
  intros e addf p file line k mt Ha.
  assert (Hplain : forall pay, sat (dom i <- new_item (fun n => mk_item (p n) (ip_new (p n)) pay);
                                    ret (Some (i, 0%Z))) (handled p)).
  { intro pay. apply (done_sat p (fun q => mk_item q (ip_new q) pay)). intro n. apply made_mk. }
  assert (Hinh : forall locs a st, sat
      (dom inhname <- liftR (fun s => expand_term e s file a);
       dom r <- inherit_loop e addf locs file inhname line (keep_nonempty (split_char cSP inhname)) [] 0%Z;
       dom i <- new_item (fun n => mk_item (p n) (ip_new (p n)) (PInherit a st (fst r)));
       ret (Some (i, snd r))) (handled p)).
  { intros locs a st. eapply sat_bind; [apply sat_any|]. intros inhname _.
    eapply sat_bind; [apply inherit_loop_sat; [assumption|lia]|]. intros r Hr.
    eapply sat_bind; [apply (new_item_sat _ (made p)); intro n; apply made_mk|].
    intros i Hi. apply sat_ret. split; assumption. }
  destruct k; unfold handle; try apply Hplain; try apply Hinh.
  - (* function *)
    eapply sat_bind; [apply sat_any|]. intros known _.
    apply (done_sat p (fun q => mk_function known q (group "func" mt) (group_str "funcbody" mt)
                                 (matched (group "py" mt)) (matched (group "fr" mt)))).
    intro n. apply made_function.
  - (* include *)
    eapply sat_bind; [apply sat_any|]. intros inc _.
    eapply sat_bind; [apply sat_any|]. intros path _.
    assert (Hfin : forall off, (0 <= off)%Z -> sat
       (dom i <- new_item (fun n => mk_item (p n) (ip_new (p n))
                   (PInclude (group_str "incname" mt) (group_str "statement" mt) path));
        ret (Some (i, off))) (handled p)).
    { intros off Ho. eapply sat_bind; [apply (new_item_sat _ (made p)); intro n; apply made_mk|].
      intros i Hi. apply sat_ret. split; assumption. }
    destruct path as [|c path]; [apply Hfin; lia|].
    eapply sat_bind; [apply sat_any|]. intros ign _. destruct ign; [now apply sat_ret|].
    eapply sat_bind; [apply Ha|]. intros tmp Ht. apply Hfin. now apply max_infile_nonneg.
  - (* addtask *)
    destruct (existsb _ pkg_prefixes); [now apply sat_ret|].
    apply (done_sat p (fun q => mk_taskadd q (group_str "func" mt) (group_str "before" mt)
                                     (group_str "after" mt) (group_str "comment" mt))).
    intro n. apply made_mk.
  - (* variable *)
    apply (done_sat p (fun q => mk_variable q (group_str "varname" mt) (group_str "varval" mt)
                                        (group_str "varop" mt))).
    intro n. apply made_variable.
Qed.

Lemma try_kinds_sat : forall e addf p file line cnt l, addf_ok addf ->
  sat (try_kinds e addf p file line cnt l) (fun x => made p (fst x) /\ (0 <= snd x)%Z).
Proof.
  intros e addf p file line cnt l Ha. induction l as [|[k r] l IH]; simpl.
  - eapply sat_bind; [apply (new_item_sat _ (made p)); intro n; apply made_mk|].
    intros i Hi. apply sat_ret. simpl. split; [exact Hi|lia].
  - destruct (re_match r cnt) as [mt|]; [|exact IH].
    eapply sat_bind; [now apply handle_sat|]. intros [[i d]|] Ho; [|exact IH].
    apply sat_ret. exact Ho.
Qed.

(** ** All chunks *)

(** Relation between the chunks of a file and its items: one item per chunk,
    with text, position and origin of the chunk; the offset [inc] of [Line]
    against the chunk never decreases; the override syntax is sticky. *)
Fixpoint parsed (file : str) (off inc : Z) (new : bool) (cs : list chunk) (l : list item) : Prop :=
  match cs, l with
  | [], [] => True
  | c :: cs', i :: l' =>
      it_raw i = ck_raw c /\ (ck_realraw c <> [] -> it_realraw i = ck_realraw c)
      /\ it_blocks i = ck_blocks c /\ it_origin i = file /\ it_incfrom i = []
      /\ it_infile i = (ck_line c - off)%Z /\ it_line i = (ck_line c + inc)%Z
      /\ (new = true -> it_new i = true)
      /\ exists d, (0 <= d)%Z /\ parsed file off (inc + d) (new || it_new i) cs' l'
  | _, _ => False
  end.

Lemma parse_chunks_sat : forall e addf file off cs inc new, addf_ok addf ->
  sat (parse_chunks e addf file off inc new cs) (parsed file off inc new cs).
Proof.
  intros e addf file off cs. induction cs as [|c cs IH]; intros inc new Ha; cbn [parse_chunks].
  - now apply sat_ret.
  - eapply sat_bind; [now apply try_kinds_sat|]. intros [i d] [Hi Hd]. cbn [fst snd] in *.
    eapply sat_bind; [now apply IH|]. intros l Hl. apply sat_ret.
    destruct Hi as [n [new' [pay [-> Hn]]]]. simpl in *. repeat split; auto.
    + intro Hc. destruct (ck_realraw c); [congruence|reflexivity].
    + exists d. auto.
Qed.

(** ** Consequences for a parsed file *)

(** Number of newlines in the texts of the items before. *)
Fixpoint lines_before (n : Z) (l : list item) : list Z :=
  match l with
  | [] => []
  | i :: r => n :: lines_before (n + Z.of_nat (count_char cNL (it_realraw i))) r
  end.

Lemma parsed_text : forall file off neg cs inc new num l,
  chunks_ok off neg num cs -> parsed file off inc new cs l ->
  map it_realraw l = map ck_realraw cs /\ map it_infile l = lines_before num l
  /\ Forall (fun i => it_realraw i <> [] /\ it_origin i = file /\ it_incfrom i = []) l.
Proof.
  intros file off neg cs. induction cs as [|c cs IH]; intros inc new num l Hc Hp; destruct l as [|i l];
    simpl in Hp; try contradiction; simpl; [auto|].
  destruct Hp as [Hraw [Hrr [Hb [Ho [Hif [Hinf [Hline [Hnew [d [Hd Hp]]]]]]]]]].
  destruct Hc as [[Hl [Hne _]] [_ Hc]]. specialize (Hrr Hne).
  destruct (IH _ _ _ _ Hc Hp) as [I1 [I2 I3]]. rewrite Hrr. repeat split.
  - now rewrite I1.
  - rewrite I2, Hinf, Hl. f_equal. lia.
  - constructor; [|assumption]. rewrite Hrr. auto.
Qed.

Lemma lines_before_ge : forall l n, Forall (fun z => (n <= z)%Z) (lines_before n l).
Proof.
  induction l as [|i l IH]; intro n; simpl; constructor; [lia|].
  eapply Forall_impl; [|apply IH]. intros z Hz. simpl in Hz. lia.
Qed.

Lemma parsed_infile : forall file off neg cs inc new l,
  chunks_ok off neg 1 cs -> parsed file off inc new cs l -> infile_pos l.
Proof.
  intros file off neg cs inc new l Hc Hp. destruct (parsed_text _ _ _ _ _ _ _ _ Hc Hp) as [_ [H _]].
  unfold infile_pos. pose proof (lines_before_ge l 1) as Hl. rewrite <- H in Hl.
  rewrite Forall_map in Hl. exact Hl.
Qed.

(** Sortedness of Line, strict. *)
Inductive increasing : list Z -> Prop :=
| inc_nil : increasing []
| inc_one : forall a, increasing [a]
| inc_cons : forall a b l, (a < b)%Z -> increasing (b :: l) -> increasing (a :: b :: l).

Lemma parsed_lines : forall file off neg cs inc new num l,
  chunks_ok off neg num cs -> parsed file off inc new cs l ->
  increasing (map it_line l) /\ increasing (map it_infile l)
  /\ (forall i r, l = i :: r -> it_line i = (num + off + inc)%Z /\ it_infile i = num).
Proof.
  intros file off neg cs. induction cs as [|c cs IH]; intros inc new num l Hc Hp; destruct l as [|i l];
    simpl in Hp; try contradiction.
  - repeat split; try constructor; intros; discriminate.
  - destruct Hp as [Hraw [Hrr [Hb [Ho [Hif [Hinf [Hline [Hnew [d [Hd Hp]]]]]]]]]].
    destruct Hc as [[Hl [Hne _]] [Hlast Hc]].
    destruct (IH _ _ _ _ Hc Hp) as [I1 [I2 I3]].
    assert (Hhd : forall i0 r, i :: l = i0 :: r -> it_line i0 = (num + off + inc)%Z /\ it_infile i0 = num).
    { intros i0 r E. inversion E; subst. split; lia. }
    destruct l as [|j l]; simpl.
    + repeat split; try constructor; apply (Hhd i0 r H).
    + destruct (I3 j l eq_refl) as [J1 J2]. destruct cs as [|c2 cs]; [contradiction|].
      destruct Hlast as [Hlast|Hlast]; [discriminate|].
      split; [|split; [|exact Hhd]].
      * constructor; [lia|exact I1].
      * constructor; [lia|exact I2].
Qed.

(** ** get_items and AddFile *)

Lemma get_items_sat : forall e addf file off, addf_ok addf ->
  forall s l s', get_items e addf file off s = (Ok l, s') ->
  exists cs, prepare_file e file off (st_neg s) = Ok cs /\ parsed file off 0 (st_new s) cs l.
Proof.
  intros e addf file off Ha s l s' H. unfold get_items in H. unfold bindM, liftR at 1 in H.
  destruct (prepare_file e file off (st_neg s)) as [cs|ex|]; try discriminate.
  exists cs. split; [reflexivity|]. unfold liftR in H.
  eapply parse_chunks_sat; [exact Ha|exact H].
Qed.

Lemma prepare_file_ok : forall e file off neg cs,
  prepare_file e file off neg = Ok cs ->
  chunks_ok off neg 1 cs /\
  ((exists t, fs_read (e_fs e) file = RdText t /\ concat (map ck_realraw cs) = universal_newlines t)
   \/ (fs_read (e_fs e) file = RdNotFound /\ cs = [])).
Proof.
  intros e file off neg cs H. unfold prepare_file in H.
  destruct (fs_read (e_fs e) file) as [t| | |]; try discriminate.
  - apply prepare_text_ok in H. destruct H as [H1 H2]. split; [assumption|]. left. now exists t.
  - inversion H; subst. simpl. split; [exact I|]. right. auto.
Qed.

Lemma match_appends_shift : forall file items s l s',
  match_appends file items s = (Ok l, s') ->
  exists mx, l = map (fun i => set_line (it_line i + mx) i) items /\
             (endswith ".bbappend" file = false -> mx = 0%Z).
Proof.
  intros file items s l s' H. unfold match_appends in H.
  destruct (endswith ".bbappend" file) eqn:Ea.
  - destruct (dyn_pattern (append_pattern file)) as [rx|]; [|discriminate].
    destruct (fold_left _ (dkeys (st_map s)) (st_map s, 0%Z)) as [mp mx]. inversion H; subst.
    exists mx. split; [reflexivity|discriminate].
  - exists 0%Z. split; [|reflexivity].
    assert (E : l = items).
    { destruct (endswith ".bb" file); [|inversion H; subst; reflexivity].
      destruct (link_recipe _ _ _ _ _) as [[l0 mp]|ex|]; inversion H; subst; reflexivity. }
    subst. rewrite <- map_id at 1. apply map_ext. intro i. unfold set_line. rewrite Z.add_0_r.
    now destruct i.
Qed.

(** A call of AddFile that is not skipped. *)
Definition skipped (e : env) (path : str) (s : stash) : bool :=
  let file := abspath (fs_cwd (e_fs e)) path in
  (mem_str file (st_seen s) && negb (mem_str (snd (splitext file)) multi_exts))
  || mem_str file (st_seenc s).

Lemma add_file_inv : forall n e path off forced s l s',
  add_file n e path off forced s = (Ok l, s') ->
  if skipped e path s then l = [] /\ s' = s
  else
    let file := abspath (fs_cwd (e_fs e)) path in
    exists cs l0 mx,
      prepare_file e file off (st_neg s) = Ok cs /\ chunks_ok off (st_neg s) 1 cs /\
      parsed file off 0 (st_new s) cs l0 /\
      l = map (fun i => set_line (it_line i + mx) i) l0 /\
      (endswith ".bbappend" file = false -> mx = 0%Z).
Proof.
  induction n as [|n IH]; intros e path off forced s l s' H; [discriminate|].
  cbn [add_file] in H. unfold skipped. set (file := abspath (fs_cwd (e_fs e)) path) in *.
  destruct (mem_str file (st_seen s) && negb (mem_str (snd (splitext file)) multi_exts)) eqn:E1.
  { inversion H; subst. simpl. auto. }
  destruct (mem_str file (st_seenc s)) eqn:E2.
  { inversion H; subst. simpl. auto. }
  simpl orb.
  assert (Ha : addf_ok (fun p o f => add_file n e p o (Some f))).
  { intros p o f s0 l0 s0' E. apply IH in E. destruct (skipped e p s0).
    - destruct E as [-> _]. constructor.
    - destruct E as [cs [l1 [mx [_ [Hc [Hp [-> _]]]]]]].
      apply (parsed_infile _ _ _ _ _ _ _ Hc) in Hp. unfold infile_pos in *. rewrite Forall_map.
      eapply Forall_impl; [|exact Hp]. intros i Hi. exact Hi. }
  cbv zeta in H |- *.
  match type of H with bindM (get_items _ _ _ _) _ ?s1 = _ => set (s1' := s1) in * end.
  unfold bindM at 1 in H.
  destruct (get_items e _ file off s1') as [[l0|ex|] s2] eqn:Eg; try discriminate.
  apply get_items_sat in Eg; [|exact Ha]. destruct Eg as [cs [Ec Hp]].
  unfold bindM at 1 in H. unfold bindM at 1 in H.
  destruct (match_appends file l0 _) as [[l1|ex|] s3] eqn:Em; try discriminate.
  apply match_appends_shift in Em. destruct Em as [mx [-> Hmx]].
  unfold bindM at 1 in H. destruct (add_distro_machine e file s3) as [[u|ex|] s4]; try discriminate.
  unfold bindM, ret in H. inversion H; subst.
  exists cs, l0, mx. split; [exact Ec|]. split; [|split; [exact Hp|split; [reflexivity|exact Hmx]]].
  now apply prepare_file_ok in Ec.
Qed.
