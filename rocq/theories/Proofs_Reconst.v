(** * Constants changed between calls: proofs *)

From Coq Require Import Lia.
From Verif Require Import PyStr Regex Patterns PyPath Res Inline Const Item Lines Stash
  StrFacts ReachFacts Cache Spec_Cache Proofs_Cache Reconst Spec_Reconst.

(** The tables with other answers of IsImage. *)
Definition with_images (im : list (str * bool)) (t : tables) : tables :=
  MkTables (t_recipes t) (t_lone t) (t_conf t) (t_classes t) (t_linked t) (t_file t) (t_class t) (t_attr t) (t_links t) im (t_group t).
Definition drop (T : list str) (t : tables) : tables :=
  with_images (filter (fun kv => negb (mem_str (fst kv) T)) (t_image t)) t.

(** ** Only IsImage reads its table *)

Lemma linked_images : forall mp x f nl im t,
  linked_c mp x f nl (with_images im t) = (fst (linked_c mp x f nl t), with_images im (snd (linked_c mp x f nl t))) /\
  t_image (snd (linked_c mp x f nl t)) = t_image t.
Proof. intros. unfold linked_c. cbn [t_linked with_images]. destruct (look key_linked _ _); now split. Qed.
Lemma filter_images : forall mp l f nl im t,
  filter_c mp l f nl (with_images im t) = (fst (filter_c mp l f nl t), with_images im (snd (filter_c mp l f nl t))) /\
  t_image (snd (filter_c mp l f nl t)) = t_image t.
Proof.
  intros mp l f nl im. induction l as [|x l IH]; intro t; [now split|]. cbn [filter_c].
  destruct (linked_images mp x f nl im t) as [E1 E2]. rewrite E1. destruct (linked_c mp x f nl t) as [b t1]. cbn [fst snd] in *.
  destruct (IH t1) as [E3 E4]. rewrite E3. destruct (filter_c mp l f nl t1) as [r t2]. cbn [fst snd] in *.
  split; [reflexivity|congruence].
Qed.
Lemma by_file_images : forall mp z l f nl im t,
  by_file_c mp z l f nl (with_images im t) = (fst (by_file_c mp z l f nl t), with_images im (snd (by_file_c mp z l f nl t))) /\
  t_image (snd (by_file_c mp z l f nl t)) = t_image t.
Proof.
  intros. unfold by_file_c. cbn [t_file with_images]. destruct (look key_file _ _); [now split|].
  destruct (filter_images mp l f nl im t) as [E1 E2]. rewrite E1. destruct (filter_c mp l f nl t) as [r t1]. cbn [fst snd] in *.
  now split.
Qed.
Lemma by_class_images : forall l cl im t,
  by_class_c l cl (with_images im t) = (fst (by_class_c l cl t), with_images im (snd (by_class_c l cl t))) /\
  t_image (snd (by_class_c l cl t)) = t_image t.
Proof. intros. unfold by_class_c. cbn [t_class with_images]. destruct (look key_class _ _); now split. Qed.
Lemma by_attr_images : forall l n v im t,
  by_attr_c l n v (with_images im t) = (fst (by_attr_c l n v t), with_images im (snd (by_attr_c l n v t))) /\
  t_image (snd (by_attr_c l n v t)) = t_image t.
Proof. intros. unfold by_attr_c. cbn [t_attr with_images]. destruct (look key_attr _ _); now split. Qed.

Lemma items_images : forall e s q im t,
  items_c e s q (with_images im t) = (fst (items_c e s q t), with_images im (snd (items_c e s q t))) /\
  t_image (snd (items_c e s q t)) = t_image t.
Proof.
  intros e s q im t. unfold items_c. cbv zeta.
  set (o1 := fun t => match q_file q with Some (c :: f) => by_file_c (st_map s) false (st_list s) (c :: f) (q_nolink q) t | _ => (st_list s, t) end).
  change (match q_file q with Some (c :: f) => by_file_c (st_map s) false (st_list s) (c :: f) (q_nolink q) (with_images im t) | _ => (st_list s, with_images im t) end)
    with (o1 (with_images im t)).
  change (match q_file q with Some (c :: f) => by_file_c (st_map s) false (st_list s) (c :: f) (q_nolink q) t | _ => (st_list s, t) end) with (o1 t).
  assert (E1 : o1 (with_images im t) = (fst (o1 t), with_images im (snd (o1 t))) /\ t_image (snd (o1 t)) = t_image t).
  { unfold o1. destruct (q_file q) as [[|c f]|]; [now split|apply by_file_images|now split]. }
  destruct E1 as [E1 I1]. rewrite E1. destruct (o1 t) as [l1 t1]. cbn [fst snd] in I1 |- *.
  set (cl := norm_arg nonempty (q_class q)). set (na := norm_arg nonempty (q_attr q)). set (vl := norm_arg pyval_true (q_val q)).
  set (o2 := fun t => match cl with [] => (l1, t) | _ => by_class_c l1 cl t end).
  change (match cl with [] => (l1, with_images im t1) | _ => by_class_c l1 cl (with_images im t1) end) with (o2 (with_images im t1)).
  change (match cl with [] => (l1, t1) | _ => by_class_c l1 cl t1 end) with (o2 t1).
  assert (E2 : o2 (with_images im t1) = (fst (o2 t1), with_images im (snd (o2 t1))) /\ t_image (snd (o2 t1)) = t_image t1).
  { unfold o2. destruct cl; [now split|apply by_class_images]. }
  destruct E2 as [E2 I2]. rewrite E2. destruct (o2 t1) as [l2 t2]. cbn [fst snd] in I2 |- *.
  destruct na as [|n0 na]; [split; [reflexivity|cbn [fst snd]; congruence]|].
  destruct (by_attr_images l2 (n0 :: na) vl im t2) as [E3 I3]. rewrite E3.
  destruct (by_attr_c l2 (n0 :: na) vl t2) as [l3 t3]. cbn [fst snd] in I3 |- *. split; [reflexivity|congruence].
Qed.

Lemma vars_images : forall e s f vs im t,
  image_vars_c e s f vs (with_images im t) = (fst (image_vars_c e s f vs t), with_images im (snd (image_vars_c e s f vs t))) /\
  t_image (snd (image_vars_c e s f vs t)) = t_image t.
Proof.
  intros e s f vs im. induction vs as [|v vs IH]; intro t; [now split|]. cbn [image_vars_c].
  match goal with |- context[items_c e s ?q t] => destruct (items_images e s q im t) as [E1 I1]; rewrite E1;
    destruct (items_c e s q t) as [l t1] end.
  cbn [fst snd] in I1 |- *. destruct (IH t1) as [E2 I2]. rewrite E2. destruct (image_vars_c e s f vs t1) as [b t2].
  cbn [fst snd] in I2 |- *. split; [reflexivity|congruence].
Qed.

Lemma look_drop : forall f T (t : list (str * bool)), ~ In f T ->
  look str_eqb f (filter (fun kv => negb (mem_str (fst kv) T)) t) = look str_eqb f t.
Proof.
  intros f T t Hf. induction t as [|[k v] t IH]; [reflexivity|]. cbn [filter fst look].
  destruct (str_eqb k f) eqn:E.
  - apply str_eqb_eq in E. subst k. destruct (mem_str f T) eqn:M; [apply mem_str_In in M; contradiction|].
    cbn [negb look]. now rewrite str_eqb_refl.
  - destruct (negb (mem_str k T)); cbn [look]; [now rewrite E|exact IH].
Qed.

(** A query sees the same answers if those of IsImage for [T] are dropped. *)
Lemma query_drop : forall e c s T t, is_query c -> c <> CClasses -> (forall f, c = CImage f -> ~ In f T) ->
  call_c e c (s, drop T t) = (fst (call_c e c (s, t)), (s, drop T (snd (snd (call_c e c (s, t)))))) /\
  fst (snd (call_c e c (s, t))) = s /\
  forall f v, In (f, v) (t_image (snd (snd (call_c e c (s, t))))) -> In (f, v) (t_image t) \/ c = CImage f.
Proof.
  intros e c s T t Hq Hc Hf.
  assert (D : forall t', t_image t' = t_image t -> drop T t' = with_images (filter (fun kv => negb (mem_str (fst kv) T)) (t_image t)) t')
    by (intros t' E; unfold drop; now rewrite E).
  destruct c; try contradiction; try congruence; cbn [call_c]; unfold answer_as.
  - unfold drop at 1 2. destruct (items_images e s q (filter (fun kv => negb (mem_str (fst kv) T)) (t_image t)) t) as [E I].
    rewrite E. cbn [fst snd]. rewrite (D _ I), I. auto.
  - unfold const_c. cbn [t_recipes drop with_images]. destruct (t_recipes t); cbn [fst snd]; auto.
  - unfold const_c. cbn [t_lone drop with_images]. destruct (t_lone t); cbn [fst snd]; auto.
  - unfold const_c. cbn [t_conf drop with_images]. destruct (t_conf t); cbn [fst snd]; auto.
  - unfold links_c. cbn [t_links drop with_images]. destruct (look str_eqb f (t_links t)); [cbn [fst snd]; auto|].
    destruct f as [|c f]; [cbn [fst snd]; auto|].
    unfold drop. destruct (by_file_images (st_map s) true (e_iset e (st_list s)) (c :: f) false (filter (fun kv => negb (mem_str (fst kv) T)) (t_image t)) t) as [E I].
    rewrite E. destruct (by_file_c (st_map s) true (e_iset e (st_list s)) (c :: f) false t) as [l t1]. cbn [fst snd] in I |- *.
    cbn [t_image put_links]. rewrite I. auto.
  - unfold image_c. pose proof (Hf f eq_refl) as Hn. change (drop T t) with (with_images (filter (fun kv => negb (mem_str (fst kv) T)) (t_image t)) t).
    cbn [t_image with_images]. rewrite (look_drop f T (t_image t) Hn).
    destruct (look str_eqb f (t_image t)) as [v|] eqn:El; [cbn [fst snd]; auto|].
    unfold inherits_c.
    match goal with |- context[items_c e s ?q t] => destruct (items_images e s q (filter (fun kv => negb (mem_str (fst kv) T)) (t_image t)) t) as [E1 I1]; rewrite E1;
      destruct (items_c e s q t) as [l t1] end.
    cbn [fst snd] in I1 |- *.
    match goal with |- context[image_vars_c e s f ?vs t1] => destruct (vars_images e s f vs (filter (fun kv => negb (mem_str (fst kv) T)) (t_image t)) t1) as [E2 I2]; rewrite E2;
      destruct (image_vars_c e s f vs t1) as [b t2] end.
    cbn [fst snd] in I2 |- *. split; [|split; [reflexivity|]].
    + unfold drop, put_image. cbn [t_image filter fst]. destruct (mem_str f T) eqn:M; [apply mem_str_In in M; contradiction|].
      cbn [negb]. rewrite I2, I1. reflexivity.
    + cbn [t_image put_image]. rewrite I2, I1. intros g w [Hw|Hw]; [injection Hw as <- <-; now right|now left].
  - unfold group_c. cbn [t_group drop with_images]. destruct (look str_eqb f (t_group t)); [cbn [fst snd]; auto|].
    unfold inherits_c, drop.
    match goal with |- context[items_c e s ?q t] => destruct (items_images e s q (filter (fun kv => negb (mem_str (fst kv) T)) (t_image t)) t) as [E1 I1]; rewrite E1;
      destruct (items_c e s q t) as [l t1] end.
    cbn [fst snd] in I1 |- *. cbn [t_image put_group]. rewrite I1. auto.
Qed.

(** Changed constants make only answers of IsImage stale. *)
Lemma change_fresh : forall e s db T T' t, fresh e s (drop T t) ->
  (forall f v, In (f, v) (t_image t) -> ~ In f T' -> ~ In f T /\ is_image e (with_const db s) f = is_image e s f) ->
  fresh e (with_const db s) (drop T' t).
Proof.
  intros e s db T T' t [F [G (A1 & A2 & A3 & A4 & A5 & A6)]] H.
  split; [exact F|]. split; [exact G|]. split; [exact A1|]. split; [exact A2|]. split; [exact A3|]. split; [exact A4|].
  split; [|exact A6]. cbn [t_image drop with_images]. intros f v Hv. apply filter_In in Hv. destruct Hv as [Hv Hn]. cbn [fst] in Hn.
  assert (Hn' : ~ In f T') by (intro X; apply mem_str_In in X; rewrite X in Hn; discriminate).
  destruct (H f v Hv Hn') as [H1 ->]. apply A5. cbn [t_image drop with_images]. apply filter_In. split; [exact Hv|]. cbn [fst].
  destruct (mem_str f T) eqn:M; [apply mem_str_In in M; contradiction|reflexivity].
Qed.

Lemma drop_nothing : forall e s t, fresh e s t -> fresh e s (drop [] t).
Proof.
  intros e s t [F [G (A1 & A2 & A3 & A4 & A5 & A6)]].
  split; [exact F|]. split; [exact G|]. split; [exact A1|]. split; [exact A2|]. split; [exact A3|]. split; [exact A4|].
  split; [|exact A6]. cbn [t_image drop with_images]. intros f v Hv. apply filter_In in Hv. now apply A5.
Qed.

(** ** Histories *)

Definition kcall_c (e : env) (a : kact) (x : stash * tables) : answer * (stash * tables) :=
  match a with
  | KDo c => call_c e c x
  | KAdd d => let '(b, s) := change add_constants d (fst x) in (b, (s, snd x))
  | KRemove d => let '(b, s) := change remove_constants d (fst x) in (b, (s, snd x))
  | KOverride d => let '(b, s) := change override_constants d (fst x) in (b, (s, snd x))
  end.
Lemma kacts_cons : forall e a r x, kacts_c e (a :: r) x =
  let '(b, x1) := kcall_c e a x in let '(l', x2) := kacts_c e r x1 in (b :: l', x2).
Proof. reflexivity. Qed.
Lemma change_eq : forall e a s t, is_change a ->
  kcall_c e a (s, t) = (fst (kplain e a s), (snd (kplain e a s), t)) /\ exists db, snd (kplain e a s) = with_const db s.
Proof.
  intros e a s t H. destruct a as [c|d|d|d]; [contradiction| | |]; cbn [kcall_c kplain fst snd]; unfold change;
    match goal with |- context[?f (st_const s) d] => destruct (f (st_const s) d) as [db r] end; cbn [fst snd]; eauto.
Qed.

Lemma C130_steps : forall e b A T s l, env_ok e -> known e b A T s l -> forall s0 t, steps e s0 s ->
  (exists nw neg db, s0 = new_stash nw neg db) -> fresh e s (drop T t) -> (forall f v, In (f, v) (t_image t) -> In f A) ->
  (b = true -> clean t) ->
  fst (kacts_c e l (s, t)) = fst (plain_kacts e l s).
Proof.
  intros e b A T s l He H.
  assert (Ids : forall s0 s, steps e s0 s -> (exists nw neg db, s0 = new_stash nw neg db) -> ids_ok (st_list s)).
  { intros s0 s1 Hs (nw & neg & db & ->). apply (reach_ids e). now exists nw, neg, db. }
  assert (Go : forall l a s1 x, kcall_c e a x = (fst (kplain e a s1), (snd (kplain e a s1), snd (snd (kcall_c e a x)))) ->
    (let t1 := snd (snd (kcall_c e a x)) in let s2 := snd (kplain e a s1) in
     fst (kacts_c e l (s2, t1)) = fst (plain_kacts e l s2)) ->
    fst (kacts_c e (a :: l) x) = fst (plain_kacts e (a :: l) s1)).
  { intros cs0 a s1 x E. cbv zeta. rewrite kacts_cons. cbn [plain_kacts]. revert E. destruct (kcall_c e a x) as [a1 [s2 t2]].
    destruct (kplain e a s1) as [a3 s3]. cbn [fst snd]. intro E. injection E as -> ->.
    destruct (kacts_c e cs0 (s3, t2)) as [l0 x2]. destruct (plain_kacts e cs0 s3) as [l' s4]. cbn [fst snd].
    now intros ->. }
  assert (Cl : forall s t, fresh e s (drop [] (clear_cached t))) by (intros; apply drop_nothing, cleared).
  assert (No : forall t, (forall f v, In (f, v) (t_image (clear_cached t)) -> In f ([] : list str))) by (intros t f v []).
  induction H as [b A T s|b A T s cs n path off forced l s' E K _ IH|b A T s cs n path off forced l s' E K _ IH
                 |b A T s cs l Hl Hd _ IH|b A T s cs l s' E _ IH|A T s cs s' E _ IH|b A T s cs f Hf _ IH
                 |b A T s cs c Hq Hi Hc _ IH|b A T T' s cs a Ha Hs' _ IH];
    intros s0 t Hs N F V B.
  - reflexivity.
  - assert (Ke : returns_early e path s = false)
      by (apply Bool.not_true_iff_false; now rewrite early_iff).
    apply Go; cbn [kcall_c call_c kplain plain]; rewrite E; [reflexivity|]. cbn [fst snd]. rewrite Ke.
    apply (IH s0); [now apply (steps_add e s0 n path off forced s (Ok l))|exact N|apply Cl|apply No|now exists t].
  - pose proof (proj2 (early_iff e path s) K) as Ke. pose proof (early_same _ _ _ _ _ _ _ _ E Ke). subst s'.
    apply Go; cbn [kcall_c call_c kplain plain]; rewrite E; [reflexivity|]. cbn [fst snd]. rewrite Ke. now apply (IH s0).
  - apply Go; [reflexivity|]. cbn [kcall_c call_c kplain plain fst snd].
    apply (IH s0); [now apply steps_append|exact N|apply Cl|apply No|now exists t].
  - apply Go; cbn [kcall_c call_c kplain plain]; rewrite E; [reflexivity|]. cbn [fst snd].
    apply (IH s0); [now apply (steps_remove e s0 l s (Ok tt))|exact N|apply Cl|apply No|now exists t].
  - destruct (finalize_c e s t) as [r x] eqn:Ef.
    destruct (finalize_same e s t (Ids _ _ Hs N) (B eq_refl) _ _ Ef) as [E1 E2]. rewrite E in E1. injection E1 as <- E3.
    apply Go; cbn [kcall_c call_c kplain plain]; rewrite E, Ef; cbn [fst snd]; [rewrite E3; now destruct x|].
    destruct (E2 eq_refl) as [t0 Et]. rewrite Et.
    apply (IH s0); [now apply (steps_finalize e s0 s (Ok tt))|exact N|apply Cl|apply No|now exists t0].
  - assert (Hd : forall g, CImage f = CImage g -> ~ In g T) by (intros g Eg; now injection Eg as <-).
    destruct (query_drop e (CImage f) s T t I ltac:(discriminate) Hd) as [D1 [D2 D3]].
    destruct (query_ok e (CImage f) s (drop T t) He (Ids _ _ Hs N) F I ltac:(discriminate)) as [t' [E1 [E2 F']]].
    rewrite E1 in D1. destruct (call_c e (CImage f) (s, t)) as [a1 [s1 t1]] eqn:Ec. cbn [fst snd] in D1, D2, D3.
    pose proof (f_equal fst D1) as Ea. pose proof (f_equal (fun z => snd (snd z)) D1) as Et. cbn [fst snd] in Ea, Et.
    subst s1 t'. apply Go; cbn [kcall_c kplain]; rewrite Ec; cbn [fst snd]; rewrite E2; [now rewrite Ea|].
    apply (IH s0); [exact Hs|exact N|exact F'| |discriminate].
    intros g v Hg. destruct (D3 g v Hg) as [Hv|Eg]; [right; now apply (V g v)|left; now injection Eg as ->].
  - destruct (query_drop e c s T t Hq Hc (fun f Ef => False_ind _ (Hi f Ef))) as [D1 [D2 D3]].
    destruct (query_ok e c s (drop T t) He (Ids _ _ Hs N) F Hq Hc) as [t' [E1 [E2 F']]].
    rewrite E1 in D1. destruct (call_c e c (s, t)) as [a1 [s1 t1]] eqn:Ec. cbn [fst snd] in D1, D2, D3.
    pose proof (f_equal fst D1) as Ea. pose proof (f_equal (fun z => snd (snd z)) D1) as Et. cbn [fst snd] in Ea, Et.
    subst s1 t'. apply Go; cbn [kcall_c kplain]; rewrite Ec; cbn [fst snd]; rewrite E2; [now rewrite Ea|].
    apply (IH s0); [exact Hs|exact N|exact F'| |discriminate].
    intros g v Hg. destruct (D3 g v Hg) as [Hv|Eg]; [now apply (V g v)|now destruct (Hi g)].
  - destruct (change_eq e a s t Ha) as [E1 [db E2]]. apply Go; rewrite E1; [reflexivity|]. cbn [fst snd].
    apply (IH s0); [rewrite E2; now apply steps_const|exact N| |exact V|exact B].
    rewrite E2. apply (change_fresh e s db T); [exact F|]. intros f v Hv Hn. rewrite <- E2. apply Hs'; [now apply (V f v)|exact Hn].
Qed.

Lemma C130_lemma : forall e nw neg db l, env_ok e -> known e true [] [] (new_stash nw neg db) l ->
  fst (kacts_c e l (new_stash nw neg db, no_tables)) = fst (plain_kacts e l (new_stash nw neg db)).
Proof.
  intros e nw neg db l He H.
  apply (C130_steps e true [] [] _ l He H (new_stash nw neg db) no_tables);
    [apply steps_refl|eauto|apply drop_nothing, (cleared e _ no_tables)|intros f v []|].
  intros _. now exists no_tables.
Qed.
