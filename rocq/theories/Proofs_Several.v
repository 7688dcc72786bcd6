(** * One statement that brings in several files: proofs *)

From Coq Require Import Sorting.Sorted.
From Verif Require Import Props_Items.
From Verif Require Import PyStr Regex Patterns PyPath Res Inline Const Item Lines Stash
  StrFacts ReFacts LinesFacts ParseFacts HistFacts ReachFacts MapFacts AppendFacts QueryFacts
  Spec_Query Spec_Files Proofs_Files Proofs_Query Spec_Include Proofs_Include Spec_Expand Props_Lines Proofs_Values
  Spec_Compose Proofs_Compose Spec_Appends Proofs_Appends Spec_Load Spec_Causes Proofs_Causes Spec_Apart Proofs_Apart.

(** Links of a stash filled by one call are direct. *)
Lemma direct_links : forall n e path off new neg db l s', add_file n e path off None (new_stash new neg db) = (Ok l, s') ->
  forall f x, linked s' f x -> from_items e (st_list s') f x \/ answers x f.
Proof.
  intros n e path off new neg db l s' H f x Hl.
  pose proof (ok_add_file e true n path off None noL noL _ _ _ H) as C.
  assert (C0 : caused e true (fun f y => noL f y \/ noL f y) (new_stash new neg db)).
  { intros g y [k [E _]]. discriminate E. }
  specialize (C C0 f x Hl). destruct C as [[[]|[[]|[D _]]]|[C|C]]; [discriminate D|now left|now right].
Qed.

Lemma names_loads : forall i p, names_file i p -> loads i.
Proof.
  intros i p H. unfold names_file, loads in *. destruct (it_pay i); try contradiction.
  all: intro E; rewrite E in H; first [exact H|destruct H as [-> H]; now apply H].
Qed.

Lemma own_items : forall n e path off forced s l s', add_file n e path off forced s = (Ok l, s') ->
  forall i, In i l -> it_origin i = file_of e path /\ In i (st_list s').
Proof.
  intros n e path off forced s l s' H i Hi. destruct (skipped e path s) eqn:Sk.
  - destruct n as [|n]; [discriminate|]. rewrite add_file_eq in H. cbv zeta in H. rewrite Sk in H. injection H as <- _. destruct Hi.
  - destruct (add_file_parts _ _ _ _ _ _ _ _ H Sk) as (m & cs & items & s1 & _ & _ & Hv & _ & _ & Hps).
    apply parsed_origin in Hps. rewrite Forall_forall in Hps.
    pose proof (leave_cases _ _ _ _ _ _ _ Hv) as (g & l0 & _ & EL & _ & _ & _ & _ & _ & _ & _ & Hr).
    destruct (Hr l eq_refl) as [<- [mx El]]. split; [|rewrite EL; apply in_or_app; now right].
    rewrite El in Hi. apply in_map_iff in Hi. destruct Hi as [j [<- Hj]]. cbn. now apply Hps.
Qed.

(** Everything in the stash is shown for the file that the call is for. *)
Lemma all_visible : forall n e path off new neg db a x b s',
  add_file n e path off None (new_stash new neg db) = (Ok (a ++ x :: b), s') ->
  (forall y, In y (st_list s') -> endswith ".bbappend" (it_origin y) = false) ->
  (forall y, In y (st_list s') -> loads y -> it_id y = it_id x) ->
  forall y, In y (st_list s') -> visible s' (file_of e path) y.
Proof.
  intros n e path off new neg db a x b s' H Hb Hx y Hy. unfold visible. right.
  assert (Hre : reach e s') by (exists new, neg, db; eapply steps_add; [apply steps_refl|exact H]).
  pose proof (reach_ids _ _ Hre) as [Hids _].
  pose proof (okF_add_file e [] n path off None _ _ _ H) as (F & nw & T & _ & K).
  destruct T as (_ & _ & g & _ & EL & _ & Ho). cbn [st_list new_stash map List.app] in EL.
  assert (HF : In (it_origin y) F) by (apply Ho; now rewrite <- EL).
  destruct (K _ HF) as [[_ E]|[k Hk]]; [now left|]. right.
  destruct (direct_links _ _ _ _ _ _ _ _ _ H _ _ Hk) as [(i & Hi & Eo & p & Hp & Ep)|Ha].
  - assert (E : i = x).
    { assert (Hin : In x (st_list s')) by (apply (own_items _ _ _ _ _ _ _ _ H); apply in_or_app; right; now left).
      apply (Hids _ _ Hi Hin). apply Hx; [exact Hi|]. now apply (names_loads i p). }
    subst i. rewrite <- (proj1 (own_items _ _ _ _ _ _ _ _ H x ltac:(apply in_or_app; right; now left))). now rewrite Eo.
  - exfalso. specialize (Hb y Hy). destruct Ha as [m [Em _]].
    assert (T : endswith ".bbappend" (it_origin y) = true); [|congruence].
    apply endswith_spec. destruct (last_slash (it_origin y)) as [Hs|(d & c & E & Hc)].
    + unfold basename in Em. rewrite NameFacts.rsplit_slash_no in Em by exact Hs. exists m. exact Em.
    + rewrite E in Em |- *. rewrite NameFacts.basename_app in Em by exact Hc. exists (d ++ [cSL] ++ m). now rewrite Em, <- !app_assoc.
Qed.

(** ** The order *)

Lemma split_line : forall z R, StronglySorted by_line R ->
  R = filter (fun i => (it_line i <? z)%Z) R ++ filter (fun i => negb (it_line i <? z)%Z) R.
Proof.
  intros z R H. induction H as [|x R H IH Hx]; [reflexivity|]. cbn [filter]. destruct (it_line x <? z)%Z eqn:E; cbn [negb].
  - cbn [List.app]. now rewrite <- IH.
  - apply Z.ltb_ge in E. rewrite Forall_forall in Hx.
    assert (N : filter (fun i => (it_line i <? z)%Z) R = []).
    { apply filter_none. intros i Hi. apply Hx in Hi. unfold by_line in Hi. apply Z.ltb_ge. lia. }
    rewrite N in *. cbn [List.app] in *. now rewrite <- IH.
Qed.
Lemma sorted_last : forall b (M R : list item), StronglySorted strictly b -> (forall x y, In x M -> In y b -> strictly x y) ->
  StronglySorted by_line R -> NoDup R -> (forall i, In i R <-> In i M \/ In i b) ->
  exists R2, R = R2 ++ b /\ StronglySorted by_line R2 /\ NoDup R2 /\ forall i, In i R2 <-> In i M.
Proof.
  intros [|z b] M R Sb HM SR NR HI.
  - exists R. rewrite app_nil_r. split; [reflexivity|]. split; [exact SR|]. split; [exact NR|]. intro i. rewrite HI. cbn. tauto.
  - pose proof (split_line (it_line z) R SR) as E.
    inversion Sb as [|? ? Sb1 Sb2]; subst. rewrite Forall_forall in Sb2.
    assert (Hb : forall i, In i (z :: b) -> (it_line i <? it_line z)%Z = false).
    { intros i [<-|Hi]; [apply Z.ltb_irrefl|]. apply Sb2 in Hi. unfold strictly in Hi. apply Z.ltb_ge. lia. }
    assert (Hm : forall i, In i M -> (it_line i <? it_line z)%Z = true).
    { intros i Hi. apply Z.ltb_lt. apply (HM i z Hi). now left. }
    assert (Eb : filter (fun i => negb (it_line i <? it_line z)%Z) R = z :: b).
    { apply sorted_same; [exact Sb|now apply sorted_filter|now apply NoDup_filter|].
      intro i. rewrite filter_In, HI. split.
      - intros [[Hi|Hi] Hn]; [|exact Hi]. rewrite (Hm i Hi) in Hn. discriminate.
      - intro Hi. split; [now right|]. now rewrite (Hb i Hi). }
    rewrite Eb in E. exists (filter (fun i => (it_line i <? it_line z)%Z) R). split; [exact E|].
    split; [now apply sorted_filter|]. split; [now apply NoDup_filter|].
    intro i. rewrite filter_In, HI. split.
    + intros [[Hi|Hi] Hn]; [exact Hi|]. rewrite (Hb i Hi) in Hn. discriminate.
    + intro Hi. split; [now left|now apply Hm].
Qed.

Lemma sorted_parts : forall (R : item -> item -> Prop) a b, StronglySorted R (a ++ b) -> StronglySorted R a /\ StronglySorted R b.
Proof.
  intros R a b. induction a as [|x a IH]; intro H; [split; [constructor|exact H]|].
  inversion H as [|? ? H1 H2]; subst. apply Forall_app in H2. destruct (IH H1). split; [constructor; tauto|assumption].
Qed.

Lemma C107_several_lemma : forall n e path off new neg db a x b s', env_ok e ->
  add_file n e path off None (new_stash new neg db) = (Ok (a ++ x :: b), s') ->
  (forall y, In y (st_list s') -> endswith ".bbappend" (it_origin y) = false) ->
  (forall y, In y (st_list s') -> loads y -> it_id y = it_id x) ->
  exists m, items_for e s' (file_of e path) = a ++ x :: m ++ b /\
    NoDup m /\ (forall y, In y m <-> In y (st_list s') /\ ~ In y (a ++ x :: b)) /\
    StronglySorted (fun y z => (it_infile y <= it_infile z)%Z) m.
Proof.
  intros n e path off new neg db a x b s' He H Hb Hx.
  pose proof (all_visible _ _ _ _ _ _ _ _ _ _ _ H Hb Hx) as HV.
  assert (H0 : reach e (new_stash new neg db)) by (exists new, neg, db; apply steps_refl).
  assert (Hre : reach e s') by (exists new, neg, db; eapply steps_add; [apply steps_refl|exact H]).
  assert (Hall : forall y, In y (st_list s') -> Spec_Include.added (new_stash new neg db) s' y).
  { intros y Hy. split; [exact Hy|]. cbn. lia. }
  pose proof (C39_lemma n e path off None (new_stash new neg db) a x b s' H0 H
    (fun y Hy => Hb y (proj1 Hy)) (fun y Hy => Hx y (proj1 Hy))) as P.
  unfold items_for. set (q := MkQuery _ _ _ _ _). destruct (C28_lemma e s' q He Hre) as (Q1 & Q2 & Q3).
  apply NoDup_map_inv in Q2.
  assert (QI : forall i, In i (get_items_for e s' q) <-> In i (st_list s')).
  { intro i. rewrite Q1. split; [tauto|]. intro Hi. split; [exact Hi|]. specialize (HV i Hi).
    unfold selected, of_file, of_class, of_attr, q, visible in *. cbn [q_file q_class q_attr q_nolink]. tauto. }
  pose proof (file_sorted _ _ _ _ _ _ _ _ H) as FS.
  assert (SS : StronglySorted strictly (a ++ x :: b)) by (eapply sorted_weak; [|exact FS]; intros u v [E _]; exact E).
  assert (Hown : forall i, In i (a ++ x :: b) -> In i (st_list s')) by (intros i Hi; apply (own_items _ _ _ _ _ _ _ _ H i Hi)).
  change (x :: b) with ([x] ++ b) in SS. rewrite app_assoc in SS. destruct (sorted_parts _ _ _ SS) as [S1 S2].
  assert (Hdec : forall i, In i (st_list s') -> In i (a ++ x :: b) \/ ~ In i (a ++ x :: b)).
  { intros i Hi. destruct (in_dec Nat.eq_dec (it_id i) (map it_id (a ++ x :: b))) as [D|D].
    - left. apply in_map_iff in D. destruct D as [j [E Hj]]. pose proof (reach_ids _ _ Hre) as [Hids _].
      rewrite <- (Hids j i (Hown j Hj) Hi E). exact Hj.
    - right. intro Hi'. apply D. now apply in_map. }
  set (others := filter (fun i => negb (existsb (Nat.eqb (it_id i)) (map it_id (a ++ x :: b)))) (st_list s')).
  assert (HO : forall i, In i others <-> In i (st_list s') /\ ~ In i (a ++ x :: b)).
  { intro i. unfold others. rewrite filter_In, negb_true_iff. split; intros [Hi Hn]; (split; [exact Hi|]).
    - intro Hin. assert (T : existsb (Nat.eqb (it_id i)) (map it_id (a ++ x :: b)) = true); [|congruence].
      apply existsb_exists. exists (it_id i). split; [now apply in_map|apply Nat.eqb_refl].
    - destruct (existsb _ _) eqn:E; [|reflexivity]. exfalso. apply existsb_exists in E. destruct E as [k [Hk E]].
      apply Nat.eqb_eq in E. subst k. apply in_map_iff in Hk. destruct Hk as [j [E Hj]].
      pose proof (reach_ids _ _ Hre) as [Hids _]. apply Hn. rewrite <- (Hids j i (Hown j Hj) Hi E). exact Hj. }
  assert (PL : forall i, In i others -> it_line i = (it_line x + it_infile i)%Z /\ (it_line x < it_line i)%Z /\
     (forall z, In z a -> (it_line z < it_line x)%Z) /\ (forall z, In z b -> (it_line i < it_line z)%Z)).
  { intros i Hi. apply HO in Hi. destruct Hi as [Hi Hn]. exact (P i (Hall i Hi) Hn). }
  assert (Sax : forall u v, In u (a ++ [x]) -> In v b -> strictly u v).
  { intros u v Hu Hv. apply in_split in Hu. destruct Hu as (u1 & u2 & Eu). rewrite Eu in SS. rewrite <- app_assoc in SS.
    apply sorted_parts in SS. destruct SS as [_ SS]. inversion SS as [|? ? _ F]; subst. rewrite Forall_forall in F. apply F.
    apply in_or_app. now right. }
  destruct (sorted_first (a ++ [x]) (others ++ b) (get_items_for e s' q) S1) as (R2 & E2 & SR2 & NR2 & HR2); auto.
  { intros u v Hu Hv. apply in_app_or in Hv. destruct Hv as [Hv|Hv]; [|now apply Sax].
    destruct (PL v Hv) as (_ & P2 & P3 & _). apply in_app_or in Hu. unfold strictly. destruct Hu as [Hu|[<-|[]]]; [|exact P2].
    specialize (P3 u Hu). lia. }
  { intro i. rewrite QI. split.
    - intro Hi. destruct (Hdec i Hi) as [Hin|Hn].
      + apply in_app_or in Hin. destruct Hin as [Hin|[<-|Hin]]; [left; apply in_or_app; now left|left; apply in_or_app; right; now left|].
        right. apply in_or_app. now right.
      + right. apply in_or_app. left. apply HO. auto.
    - intros [Hi|Hi]; apply in_app_or in Hi; destruct Hi as [Hi|Hi].
      + apply Hown. apply in_or_app. now left.
      + destruct Hi as [<-|[]]. apply Hown. apply in_or_app. right. now left.
      + now apply HO.
      + apply Hown. apply in_or_app. right. now right. }
  destruct (sorted_last b others R2 S2) as (m & -> & Sm & Nm & Hm); auto.
  { intros u v Hu Hv. now apply (PL u Hu). }
  { intro i. rewrite HR2, in_app_iff. tauto. }
  exists m. split; [rewrite E2, <- app_assoc; reflexivity|]. split; [exact Nm|]. split.
  { intro y. rewrite Hm. apply HO. }
  assert (G : forall y, In y m -> it_line y = (it_line x + it_infile y)%Z) by (intros y Hy; apply Hm in Hy; apply (PL y Hy)).
  clear -Sm G. induction Sm as [|y m Sm IH Hy]; constructor.
  - apply IH. intros z Hz. apply G. now right.
  - rewrite Forall_forall in *. intros z Hz. pose proof (Hy z Hz) as L. unfold by_line in L.
    rewrite (G y), (G z) in L by (cbn; auto). lia.
Qed.
