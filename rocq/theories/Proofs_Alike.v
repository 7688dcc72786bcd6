(** * Two readings of one statement: proofs *)

From Verif Require Import PyStr Regex UniTable Patterns PyPath Res Inline Const Item Lines Stash
  StrFacts ReFacts LinesFacts NameFacts ParseFacts HistFacts ReachFacts Spec_Parse ClassFacts
  Spec_Inline Proofs_Inline Spec_Alike.

Lemma extract_sub_flag : forall n1 n2 name, fst (fst (extract_sub n1 name)) = fst (fst (extract_sub n2 name)) ->
  extract_sub n1 name = extract_sub n2 name.
Proof. intros n1 n2 name H. unfold extract_sub in *. cbv zeta in *. cbn [fst] in H. now rewrite H. Qed.

Definition inc_pay (p : payload) : bool := match p with PInclude _ _ _ => true | _ => false end.

Lemma made_alike : forall k mt raw n1 n2 x1 x2 p1 p2, made_of k mt raw n1 (x1, p1) -> made_of k mt raw n2 (x2, p2) ->
  x1 = x2 -> alike p1 p2.
Proof.
  intros k mt raw n1 n2 x1 x2 p1 p2 H1 H2 E. destruct k; cbn [made_of] in H1, H2;
    try (injection H1 as _ ->; injection H2 as _ ->; reflexivity).
  all: try (destruct H1 as [q1 H1]; destruct H2 as [q2 H2]; injection H1 as _ ->; injection H2 as _ ->; cbn [alike]; auto; fail).
  all: try (destruct H1 as [H1 _]; destruct H2 as [H2 _]; injection H1 as _ ->; injection H2 as _ ->; reflexivity).
  all: try (destruct H1 as [k1 H1]; destruct H2 as [k2 H2];
    destruct (extract_sub_func k1 n1 _) as [[a1 b1] c1]; destruct (extract_sub_func k2 n2 _) as [[a2 b2] c2];
    injection H1 as _ ->; injection H2 as _ ->; cbn [alike]; auto; fail).
  pose proof (extract_sub_flag n1 n2 (group_str "varname" mt)) as F.
  destruct (extract_sub n1 (group_str "varname" mt)) as [[a1 b1] c1].
  destruct (extract_sub n2 (group_str "varname" mt)) as [[a2 b2] c2].
  injection H1 as -> ->. injection H2 as -> ->. specialize (F E). injection F as -> -> ->. reflexivity.
Qed.

Lemma made_include : forall k mt raw n o, made_of k mt raw n o -> inc_pay (snd o) = true -> k = KInclude.
Proof.
  intros k mt raw n o H I. destruct k; [..]; try reflexivity; cbn [made_of] in H; exfalso;
    repeat match goal with
    | H : exists _, _ |- _ => destruct H as [? H]
    | H : _ /\ _ |- _ => destruct H as [H _]
    | H : context [match ?t with pair _ _ => _ end] |- _ => destruct t as [[? ?] ?]
    end; rewrite H in I; discriminate.
Qed.
Lemma include_made : forall mt raw n o, made_of KInclude mt raw n o -> inc_pay (snd o) = true.
Proof. intros mt raw n o [p ->]. reflexivity. Qed.

Lemma made_not_falls : forall k mt raw n o, made_of k mt raw n o -> falls k mt -> k = KInclude.
Proof.
  intros k mt raw n o H [->|[-> F]]; [reflexivity|]. cbn [made_of] in H. destruct H as [_ H]. congruence.
Qed.

Lemma outcome_no_include : forall l cnt raw n o,
  forallb (fun x => match fst x with KInclude => false | _ => true end) l = true ->
  outcome l cnt raw n o -> inc_pay (snd o) = false.
Proof.
  induction l as [|[k r] l IH]; intros cnt raw n o F H; cbn [outcome] in H.
  - rewrite H. reflexivity.
  - cbn [forallb fst] in F. apply andb_prop in F. destruct F as [F1 F2].
    destruct (re_match r cnt) as [mt|]; [|eapply IH; eassumption].
    destruct H as [H|[_ H]]; [|eapply IH; eassumption].
    destruct (inc_pay (snd o)) eqn:E; [|reflexivity]. apply (made_include _ _ _ _ _ H) in E. subst k. discriminate.
Qed.

Lemma outcome_alike : forall l cnt raw n1 n2 x1 x2 p1 p2,
  (forall a k r b, l = a ++ (k, r) :: b -> k = KInclude ->
     forallb (fun x => match fst x with KInclude => false | _ => true end) b = true) ->
  outcome l cnt raw n1 (x1, p1) -> outcome l cnt raw n2 (x2, p2) -> x1 = x2 -> inc_pay p1 = inc_pay p2 -> alike p1 p2.
Proof.
  induction l as [|[k r] l IH]; intros cnt raw n1 n2 x1 x2 p1 p2 O H1 H2 E I; cbn [outcome] in H1, H2.
  - injection H1 as _ ->. injection H2 as _ ->. reflexivity.
  - assert (O' : forall a k r b, l = a ++ (k, r) :: b -> k = KInclude ->
       forallb (fun x => match fst x with KInclude => false | _ => true end) b = true).
    { intros a k' r' b El. apply (O ((k, r) :: a) k' r' b). now rewrite El. }
    assert (T : k = KInclude -> forall n o, outcome l cnt raw n o -> inc_pay (snd o) = false).
    { intros Ek n o. apply outcome_no_include. exact (O [] k r l eq_refl Ek). }
    destruct (re_match r cnt) as [mt|]; [|eapply IH; eassumption].
    destruct H1 as [H1|[F1 H1]], H2 as [H2|[F2 H2]].
    + eapply made_alike; eassumption.
    + exfalso. pose proof (made_not_falls _ _ _ _ _ H1 F2) as Ek. subst k. apply include_made in H1. cbn [snd] in H1.
      pose proof (T eq_refl _ _ H2) as Q. cbn [snd] in Q. congruence.
    + exfalso. pose proof (made_not_falls _ _ _ _ _ H2 F1) as Ek. subst k. apply include_made in H2. cbn [snd] in H2.
      pose proof (T eq_refl _ _ H1) as Q. cbn [snd] in Q. congruence.
    + eapply IH; eassumption.
Qed.

Lemma order_one_include : forall a k r b, order = a ++ (k, r) :: b -> k = KInclude ->
  forallb (fun x => match fst x with KInclude => false | _ => true end) b = true.
Proof.
  assert (G : forall (l : list (kind * re)) (q : nat), Nat.leb (length (filter (fun x => match fst x with KInclude => true | _ => false end) l)) 1 = true ->
    forall a k r b, l = a ++ (k, r) :: b -> k = KInclude ->
    forallb (fun x => match fst x with KInclude => false | _ => true end) b = true).
  { intros l _ L a k r b E Ek. subst l k. rewrite filter_app, app_length in L. cbn [filter fst length] in L.
    apply Nat.leb_le in L. rewrite forallb_forall. intros x Hx.
    destruct (fst x) eqn:Ex; try reflexivity. exfalso.
    assert (Hf : In x (filter (fun x => match fst x with KInclude => true | _ => false end) b)).
    { apply filter_In. rewrite Ex. auto. }
    destruct (filter _ b); [destruct Hf|]. cbn [length] in L. lia. }
  apply (G order 0). reflexivity.
Qed.

Lemma inc_pay_iff : forall i, inc_pay (it_pay i) = true <-> an_include i.
Proof.
  intro i. unfold an_include. destruct (it_pay i); cbn [inc_pay]; split; try discriminate; try (intros (a & b & c & H); discriminate H); eauto.
Qed.

Lemma alike_text : forall neg i j, inlined neg i -> inlined neg j -> it_realraw i = it_realraw j ->
  it_raw i = it_raw j /\ it_blocks i = it_blocks j.
Proof.
  intros neg i j Hi Hj E. unfold inlined in *. rewrite E in Hi. rewrite Hi in Hj. injection Hj as -> ->. auto.
Qed.
Lemma alike_pay : forall i j, classified i -> classified j -> it_raw i = it_raw j ->
  it_new i = it_new j -> (an_include i <-> an_include j) -> alike (it_pay i) (it_pay j).
Proof.
  intros i j Hi Hj Er En Ei.
  destruct Hi as [n1 H1]. destruct Hj as [n2 H2]. rewrite !one_line_eq in *. rewrite Er in H1.
  eapply outcome_alike; [exact order_one_include|exact H1|exact H2|exact En|].
  pose proof (inc_pay_iff i) as A. pose proof (inc_pay_iff j) as B.
  destruct (inc_pay (it_pay i)), (inc_pay (it_pay j)); try reflexivity; exfalso.
  - assert (X : false = true) by tauto. discriminate.
  - assert (X : false = true) by tauto. discriminate.
Qed.

Lemma C137_text_lemma : forall e e' neg i j, parsed_with e neg i -> parsed_with e' neg j -> it_realraw i = it_realraw j ->
  it_raw i = it_raw j /\ it_blocks i = it_blocks j.
Proof.
  intros e e' neg i j Hi Hj E. apply (alike_text neg); [eapply parsed_inlined; exact Hi|eapply parsed_inlined; exact Hj|exact E].
Qed.

Lemma C137_lemma : forall e e' neg i j, parsed_with e neg i -> parsed_with e' neg j -> it_realraw i = it_realraw j ->
  it_new i = it_new j -> (an_include i <-> an_include j) -> alike (it_pay i) (it_pay j).
Proof.
  intros e e' neg i j Hi Hj E En Ei. destruct (C137_text_lemma _ _ _ _ _ Hi Hj E) as [Er _].
  apply parsed_with_item in Hi, Hj. apply parsed_classified in Hi, Hj. now apply alike_pay.
Qed.
