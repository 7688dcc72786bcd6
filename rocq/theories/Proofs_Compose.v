(** * Several files: proofs *)

From Verif Require Import Props_Items.
From Verif Require Import PyStr Regex UniTable Patterns PyPath Res Inline Const Item Lines Stash
  StrFacts ReFacts ItemFacts LinesFacts NameFacts ParseFacts OffsetFacts HistFacts ReachFacts QueryFacts MapFacts AppendFacts Spec_Parse
  Spec_Query Proofs_Query Spec_Const Proofs_Const Spec_Files Proofs_Files Spec_Group Proofs_Group Spec_Func Proofs_Func Proofs_Inline Props_Lines
  Spec_Access Proofs_Access Spec_Expand VarFacts Proofs_Expand Spec_Recipe Proofs_Recipe Proofs_Values Proofs_Parts Proofs_Shows
  Spec_Include IncludeFacts Proofs_Include Spec_Compose.
From Coq Require Import Permutation Sorted.

(** ** Lists *)

Lemma sorted_app : forall (R : item -> item -> Prop) a b, StronglySorted R a -> StronglySorted R b ->
  (forall x y, In x a -> In y b -> R x y) -> StronglySorted R (a ++ b).
Proof.
  intros R a b Ha Hb H. induction Ha as [|x a _ IH Hx]; [exact Hb|]. cbn [app]. constructor.
  - apply IH. intros y z Hy Hz. apply H; [now right|exact Hz].
  - apply Forall_app. split; [exact Hx|]. apply Forall_forall. intros y Hy. apply H; [now left|exact Hy].
Qed.
Lemma sorted_map : forall (R : item -> item -> Prop) f a, (forall x y, In x a -> In y a -> R x y -> R (f x) (f y)) ->
  StronglySorted R a -> StronglySorted R (map f a).
Proof.
  intros R f a H Ha. induction Ha as [|x a Ha IH Hx]; [constructor|]. cbn [map]. constructor.
  - apply IH. intros y z Hy Hz. apply H; now right.
  - rewrite Forall_map. rewrite Forall_forall in *. intros y Hy. apply H; [now left|now right|now apply Hx].
Qed.
Lemma sorted_and : forall (P Q : item -> item -> Prop) a, StronglySorted P a -> StronglySorted Q a ->
  StronglySorted (fun x y => P x y /\ Q x y) a.
Proof.
  intros P Q a HP. induction HP as [|x a _ IH Hx]; intro HQ; [constructor|]. inversion HQ as [|? ? HQ1 HQ2]; subst.
  constructor; [now apply IH|]. rewrite Forall_forall in *. intros y Hy. split; [now apply Hx|now apply HQ2].
Qed.
Lemma sorted_weak : forall (P Q : item -> item -> Prop) a, (forall x y, P x y -> Q x y) -> StronglySorted P a -> StronglySorted Q a.
Proof.
  intros P Q a H HP. induction HP as [|x a _ IH Hx]; constructor; [exact IH|]. rewrite Forall_forall in *. intros y Hy. apply H. now apply Hx.
Qed.

(** ** Items with another line *)

(** What is needed of an item, whatever its line. *)
Definition holds (c : list str * stmt) (i : item) : Prop :=
  says c i /\ proper (snd c) /\ stated_by (snd c) i /\ (restorable c -> valued c i).
Lemma holds_line : forall c i z, holds c i -> holds c (set_line z i).
Proof. intros c i z H. exact H. Qed.
Lemma holds_raises : forall f cs l, raises f -> Forall2 holds cs l -> Forall2 holds cs (map f l).
Proof.
  intros f cs l Hf H. induction H as [|c i cs l Hc _ IH]; cbn [map]; constructor; [|exact IH].
  rewrite (proj1 (Hf i)). now apply holds_line.
Qed.
Lemma coded_holds : forall e neg cs l, Forall2 (stated_as e neg) cs l -> Forall2 holds cs l.
Proof.
  intros e neg cs l H. induction H as [|c i cs l S _ IH]; constructor; [|exact IH].
  pose proof S as (_ & Hp & Hs & Er & Ew). split; [split; [apply Hs|now split]|]. split; [exact Hp|]. split; [exact Hs|]. intro R.
  pose proof (coded_valued e neg [c] [i] ltac:(constructor; [exact S|constructor]) ltac:(intros x [<-|[]]; exact R)) as V.
  inversion V as [|? ? ? ? (_ & _ & V1) _]. exact V1.
Qed.
Lemma holds_valued : forall cs l, Forall2 holds cs l -> (forall c, In c cs -> restorable c) -> Forall2 valued_by cs l.
Proof.
  intros cs l H. induction H as [|c i cs l (_ & Hp & Hs & Hv) _ IH]; intro R; constructor.
  - split; [exact Hp|]. split; [exact Hs|]. apply Hv. apply R. now left.
  - apply IH. intros x Hx. apply R. now right.
Qed.
Lemma holds_says : forall cs l, Forall2 holds cs l -> Forall2 says cs l.
Proof. intros cs l H. induction H as [|c i cs l (Hs & _) _ IH]; constructor; assumption. Qed.

(** ** What is found for a file *)

Lemma picked_all : forall A (P : A -> Prop) cs l r, (forall c, P c) -> picked P cs l r -> r = l.
Proof.
  intros A P cs l r HP H. induction H as [|x i cs l k Hx H IH|x i cs l k Hx H IH]; [reflexivity|now rewrite IH|].
  now destruct (Hx (HP x)).
Qed.
Lemma found : forall e s file (cs : list (list str * stmt)) l, env_ok e -> reach e s -> Forall2 holds cs l -> StronglySorted strictly l ->
  (forall i, In i l <-> In i (st_list s) /\ visible s file i) -> items_for e s file = l.
Proof.
  intros e s file cs l He Hre F SS HV. unfold items_for. set (q := MkQuery _ _ _ _ _).
  destruct (C28_lemma e s q He Hre) as (Q1 & Q2 & Q3).
  apply (picked_all _ (fun _ => True) cs); [intros; exact I|].
  apply (picked_same _ _ (fun _ => True)); [|exact SS|exact Q3|now apply NoDup_map_inv in Q2|].
  - clear -F. induction F; constructor; [tauto|assumption].
  - intro i. rewrite Q1, HV. unfold selected, of_file, of_class, of_attr, q, visible. cbn [q_file q_class q_attr q_nolink]. tauto.
Qed.
Lemma found_values_weak : forall e s s0 file cs l d, env_ok e -> reach e s -> Forall2 holds cs l ->
  StronglySorted by_line l -> StronglySorted strictly (filter isv l) ->
  (forall i, In i l <-> In i (st_list s) /\ visible s file i) ->
  plain_base (st_const s0) -> sets_base (st_const s) = sets_base (st_const s0) -> plain_names cs ->
  expand_var e s (Some file) ANone ANone false = Ok d -> values_are s0 file cs d.
Proof.
  intros e s s0 file cs l d He Hre F SS SV HV (_ & B1 & B2) EB (N1 & N2 & N3) Hd x.
  pose proof (values_of e s file cs l false d He Hre) as G. cbv zeta in G. rewrite EB in G.
  specialize (G B1 B2 (holds_valued _ _ F N1) SS SV HV (or_introl eq_refl) N2 N3 Hd x).
  assert (Est : preset s file x = preset s0 file x) by (unfold preset; now rewrite EB).
  rewrite Est in G. exact G.
Qed.
Lemma found_values : forall e s s0 file cs l d, env_ok e -> reach e s -> Forall2 holds cs l -> StronglySorted strictly l ->
  (forall i, In i l <-> In i (st_list s) /\ visible s file i) ->
  plain_base (st_const s0) -> sets_base (st_const s) = sets_base (st_const s0) -> plain_names cs ->
  expand_var e s (Some file) ANone ANone false = Ok d -> values_are s0 file cs d.
Proof.
  intros e s s0 file cs l d He Hre F SS. apply (found_values_weak e s s0 file cs l d He Hre F).
  - now apply strictly_by_line.
  - now apply sorted_filter.
Qed.

(** ** A file that adds no others *)

Lemma file_added : forall n e path off forced s l s',
  add_file n e path off forced s = (Ok l, s') -> Forall adds_no_file l ->
  exists f, raises f /\ st_list s' = map f (st_list s) ++ l /\ st_neg s' = st_neg s /\
    (endswith ".bbappend" (file_of e path) = false -> endswith ".bb" (file_of e path) = true -> l <> [] ->
     f = recipe_raise (replace ".bb" [] (basename (file_of e path))) (max_line l)).
Proof.
  intros n e path off forced s l s' H Hno.
  assert (Hneg : st_neg s' = st_neg s).
  { apply add_file_grows in H. destruct H as (? & ? & _ & _ & _ & _ & _ & _ & H). exact H. }
  destruct (skipped e path s) eqn:Sk.
  - apply add_file_inv in H as H'. rewrite Sk in H'. destruct H' as [-> ->]. exists (fun i => i).
    split; [apply raises_id|]. rewrite map_id, app_nil_r. split; [reflexivity|]. split; [reflexivity|]. intros _ _ X. now destruct X.
  - destruct (add_file_parts _ _ _ _ _ _ _ _ H Sk) as [m [cs [items [s1 [_ [Hg [Hv _]]]]]]].
    pose proof Hv as Hv'. apply leave_cases in Hv'. destruct Hv' as [f [l0 [Hf [EL [_ [_ [_ [_ [_ [_ [_ Hr]]]]]]]]]]].
    destruct (Hr l eq_refl) as [<- [mx Emx]].
    assert (Hno' : Forall adds_no_file items).
    { rewrite Emx in Hno. rewrite Forall_map in Hno. eapply Forall_impl; [|exact Hno]. intros i Hi. exact Hi. }
    assert (E1 : st_list s1 = st_list s).
    { unfold get_items in Hg. unfold bindM at 1, liftR in Hg. destruct (prepare_file _ _ _ _) as [cs'|ex|]; try discriminate.
      unfold bindM at 1, liftR in Hg. apply parse_chunks_still in Hg; [|exact Hno']. destruct Hg as [Hg _]. exact Hg. }
    destruct (endswith ".bb" (file_of e path)) eqn:Eb, (endswith ".bbappend" (file_of e path)) eqn:Ea;
      try (exists f; rewrite EL, E1; split; [exact Hf|]; split; [reflexivity|]; split; [exact Hneg|]; intros X Y; discriminate).
    destruct (leave_parts _ _ _ _ _ _ _ Hv) as [s2 [Hm [EL2 EM]]]. fold (file_of e path) in Hm.
    destruct (recipe_links _ _ _ _ _ Ea Eb Hm) as [H1 [H2 H3]].
    { destruct (link_file_key (file_of e path) forced (st_map s1)) as [l1 E0]. eapply dget_Some_key. exact E0. }
    exists (recipe_raise (replace ".bb" [] (basename (file_of e path))) (max_line l)). split; [apply recipe_raise_raises|].
    cbn [st_list with_map] in H2. rewrite EL2, H2, E1, H1. split; [reflexivity|]. split; [exact Hneg|]. reflexivity.
Qed.
Lemma taken_considered : forall n e path off forced s l s', add_file n e path off forced s = (Ok l, s') -> l <> [] -> considered e path s.
Proof.
  intros n e path off forced s l s' H Hl. apply skipped_nil in H; [|exact Hl]. unfold skipped in H. fold (file_of e path) in H.
  apply Bool.orb_false_iff in H. destruct H as [H1 H2]. split.
  - intro X. apply mem_str_In in X. congruence.
  - intro X. apply mem_str_In in X. rewrite X in H1. cbn [andb] in H1. apply Bool.negb_false_iff, mem_str_In in H1.
    unfold multi_exts in H1. exact H1.
Qed.
Lemma coded_still : forall e neg cs l, Forall2 (stated_as e neg) cs l -> (forall c, In c cs -> ~ brings (snd c)) -> Forall adds_no_file l.
Proof.
  intros e neg cs l F. induction F as [|x y cs l (_ & _ & Hx & _) _ IH]; intro Hb; constructor.
  - apply (stated_still (snd x)); [exact Hx|]. apply Hb. now left.
  - apply IH. intros c' Hc'. apply Hb. now right.
Qed.
Lemma file_sorted : forall n e path off forced s l s', add_file n e path off forced s = (Ok l, s') ->
  StronglySorted (fun a b => strictly a b /\ (it_infile a < it_infile b)%Z) l.
Proof.
  intros n e path off forced s l s' H. pose proof (C03_lemma n e path off forced s l s' H) as C. clear H.
  induction l as [|x l IH]; [constructor|]. constructor.
  - apply IH. intros pre a mid b post E. apply (C (x :: pre) a mid b post). cbn [app]. now f_equal.
  - apply Forall_forall. intros y Hy. apply in_split in Hy. destruct Hy as [u [v ->]]. apply (C [] x u y v). reflexivity.
Qed.

Lemma loaded_known : forall n e path off forced s l s', add_file n e path off forced s = (Ok l, s') -> l <> [] ->
  file_known s' (file_of e path).
Proof.
  intros n e path off forced s l s' H Hl. pose proof (skipped_nil _ _ _ _ _ _ _ _ H Hl) as Hs.
  destruct (add_file_parts _ _ _ _ _ _ _ _ H Hs) as [m [cs [items [s1 [_ [_ [Hv _]]]]]]].
  pose proof (leave_map _ _ _ _ _ _ _ Hv) as [_ Hk]. now apply file_known_key.
Qed.

Lemma file_infile : forall n e path off forced s l s', add_file n e path off forced s = (Ok l, s') -> Forall (fun i => (1 <= it_infile i)%Z) l.
Proof.
  intros n e path off forced s l s' E. apply add_file_inv in E. destruct (skipped e path s).
  - destruct E as [-> _]. constructor.
  - destruct E as [cs [l1 [mx [_ [Hc [Hp [-> _]]]]]]].
    apply (parsed_infile _ _ _ _ _ _ _ Hc) in Hp. unfold infile_pos in *. rewrite Forall_map.
    eapply Forall_impl; [|exact Hp]. intros i Hi. exact Hi.
Qed.

(** ** A recipe and its bbappend *)

Lemma appended_items : forall e new neg db recipe bba l1 l2 s2 t1 t2 cs1 cs2,
  in_either_order e (new_stash new neg db) recipe l1 bba l2 s2 -> l1 <> [] -> l2 <> [] ->
  applies (file_of e bba) (file_of e recipe) ->
  fs_read (e_fs e) (file_of e recipe) = RdText t1 -> coded neg cs1 (universal_newlines t1) ->
  fs_read (e_fs e) (file_of e bba) = RdText t2 -> coded neg cs2 (universal_newlines t2) ->
  (forall c, In c (cs1 ++ cs2) -> ~ brings (snd c)) ->
  exists L, Forall2 holds (cs1 ++ cs2) L /\ StronglySorted strictly L /\
    (forall i, In i L <-> In i (st_list s2) /\ visible s2 (file_of e recipe) i).
Proof.
  intros e new neg db recipe bba l1 l2 s2 t1 t2 cs1 cs2 Hb N1 N2 Ha R1 C1 R2 C2 Hbr.
  assert (B1 : forall c, In c cs1 -> ~ brings (snd c)) by (intros c Hc; apply Hbr; apply in_or_app; now left).
  assert (B2 : forall c, In c cs2 -> ~ brings (snd c)) by (intros c Hc; apply Hbr; apply in_or_app; now right).
  destruct (applies_append _ _ Ha) as [A1 [A2 [A3 [A4 A5]]]].
  destruct Hb as [n1 [n2 [s1 [[H1 H2]|[H2 H1]]]]].
  - pose proof (coded_stated _ _ _ _ _ _ _ _ _ _ (filled_new e new neg db) H1 (taken_considered _ _ _ _ _ _ _ _ H1 N1) R1 C1) as F1.
    assert (Hf1 : filled e s1) by (eapply filled_add; [apply filled_new|exact H1]).
    destruct (file_added _ _ _ _ _ _ _ _ H1 (coded_still _ _ _ _ F1 B1)) as (f1 & _ & L1 & G1 & _). cbn [st_list new_stash map List.app] in L1.
    assert (Hn1 : st_neg s1 = neg) by exact G1.
    rewrite <- Hn1 in C2.
    pose proof (coded_stated _ _ _ _ _ _ _ _ _ _ Hf1 H2 (taken_considered _ _ _ _ _ _ _ _ H2 N2) R2 C2) as F2.
    destruct (file_added _ _ _ _ _ _ _ _ H2 (coded_still _ _ _ _ F2 B2)) as (f2 & Hf2 & L2 & _ & _).
    pose proof (C04_lemma _ _ _ _ _ _ _ _ H1) as O1. pose proof (C04_lemma _ _ _ _ _ _ _ _ H2) as O2. rewrite Forall_forall in O1, O2.
    assert (E1 : map f2 l1 = l1).
    { rewrite <- map_id. apply map_ext_in. intros i Hi. destruct (Hf2 i) as [Ei [_ Eb]].
      rewrite Ei, Eb; [apply set_line_same|]. now rewrite (proj1 (O1 i Hi)). }
    rewrite L1, E1 in L2. exists (l1 ++ l2). split.
    { apply Forall2_app; [exact (coded_holds _ _ _ _ F1)|exact (coded_holds _ _ _ _ F2)]. }
    destruct (C37_recipe_first_lemma n2 e bba 0 None s1 l2 s2 (file_of e recipe) H2 N2) as [Q1 Q2]; [lia|exact Ha| |].
    { exact (loaded_known _ _ _ _ _ _ _ _ H1 N1). }
    split.
    { apply sorted_app.
      - eapply sorted_weak; [|exact (file_sorted _ _ _ _ _ _ _ _ H1)]. intros x y [X _]. exact X.
      - eapply sorted_weak; [|exact (file_sorted _ _ _ _ _ _ _ _ H2)]. intros x y [X _]. exact X.
      - intros x y Hx Hy. apply Q2; [rewrite L2; apply in_or_app; now left|now apply O1|exact Hy]. }
    intro i. rewrite L2. split; [|tauto]. intro Hi. split; [exact Hi|]. right. apply in_app_or in Hi. destruct Hi as [Hi|Hi].
    + left. now apply O1.
    + right. rewrite (proj1 (O2 i Hi)). exact Q1.
  - pose proof (coded_stated _ _ _ _ _ _ _ _ _ _ (filled_new e new neg db) H2 (taken_considered _ _ _ _ _ _ _ _ H2 N2) R2 C2) as F2.
    assert (Hf1 : filled e s1) by (eapply filled_add; [apply filled_new|exact H2]).
    destruct (file_added _ _ _ _ _ _ _ _ H2 (coded_still _ _ _ _ F2 B2)) as (f1 & _ & L2 & G1 & _). cbn [st_list new_stash map List.app] in L2.
    assert (Hn1 : st_neg s1 = neg) by exact G1.
    rewrite <- Hn1 in C1.
    pose proof (coded_stated _ _ _ _ _ _ _ _ _ _ Hf1 H1 (taken_considered _ _ _ _ _ _ _ _ H1 N1) R1 C1) as F1.
    destruct (file_added _ _ _ _ _ _ _ _ H1 (coded_still _ _ _ _ F1 B1)) as (f & Hf & L1 & _ & Ef).
    specialize (Ef A5 A4 N1). rewrite L2 in L1.
    pose proof (C04_lemma _ _ _ _ _ _ _ _ H1) as O1. pose proof (C04_lemma _ _ _ _ _ _ _ _ H2) as O2. rewrite Forall_forall in O1, O2.
    exists (l1 ++ map f l2). split.
    { apply Forall2_app; [exact (coded_holds _ _ _ _ F1)|]. apply holds_raises; [exact Hf|exact (coded_holds _ _ _ _ F2)]. }
    destruct (C37_append_first_lemma n2 e recipe 0 None s1 l1 s2 (file_of e bba) H1 N1 Ha) as [Q1 Q2].
    { destruct l2 as [|i0 l2]; [congruence|]. exists i0. split; [rewrite L2; now left|]. apply (proj1 (O2 i0 (or_introl eq_refl))). }
    assert (Of : forall i, In i (map f l2) -> it_origin i = file_of e bba).
    { intros i Hi. apply in_map_iff in Hi. destruct Hi as [j [<- Hj]]. rewrite raises_it_origin by exact Hf. now apply O2. }
    split.
    { apply sorted_app.
      - eapply sorted_weak; [|exact (file_sorted _ _ _ _ _ _ _ _ H1)]. intros x y [X _]. exact X.
      - eapply sorted_weak; [|apply sorted_map; [|exact (file_sorted _ _ _ _ _ _ _ _ H2)]]. { intros x y [X _]. exact X. }
        intros x y Hx Hy [X Y]. destruct A2 as [rx [Hrx Hmt]].
        assert (E : forall z, In z l2 -> f z = set_line (Z.max (it_line z) (it_infile z + max_line l1)) z).
        { intros z Hz. rewrite Ef. unfold recipe_raise. rewrite (proj1 (O2 z Hz)), A3, Hrx, Hmt. reflexivity. }
        rewrite (E x Hx), (E y Hy). unfold strictly in *. cbn [it_line it_infile set_line]. lia.
      - intros x y Hx Hy. apply Q2; [rewrite L1; apply in_or_app; now left|now apply Of| |exact Hx].
        apply in_map_iff in Hy. destruct Hy as [j [<- Hj]]. rewrite (proj1 (Hf j)). cbn [it_infile set_line].
        pose proof (file_infile _ _ _ _ _ _ _ _ H2) as P. rewrite Forall_forall in P. now apply P. }
    intro i. rewrite L1. split; [|].
    + intro Hi. apply in_app_or in Hi. split; [apply in_or_app; tauto|]. right. destruct Hi as [Hi|Hi].
      * left. now apply O1.
      * right. rewrite (Of i Hi). exact Q1.
    + intros [Hi _]. apply in_or_app. apply in_app_or in Hi. tauto.
Qed.

Lemma base_twice : forall e new neg db one l1 two l2 s2, plain_base db -> in_either_order e (new_stash new neg db) one l1 two l2 s2 ->
  sets_base (st_const s2) = sets_base db.
Proof.
  intros e new neg db one l1 two l2 s2 (Hn & _) (n1 & n2 & s1 & [[H1 H2]|[H1 H2]]);
    (pose proof (base_kept _ _ _ _ _ (new_stash new neg db) _ _ Hn H1) as E1;
     destruct (C64_lemma _ _ _ _ _ (new_stash new neg db) _ _ Hn H1) as [Hn1 _];
     rewrite (base_kept _ _ _ _ _ _ _ _ Hn1 H2); exact E1).
Qed.
Lemma reach_twice : forall e new neg db one l1 two l2 s2, in_either_order e (new_stash new neg db) one l1 two l2 s2 -> reach e s2.
Proof.
  intros e new neg db one l1 two l2 s2 (n1 & n2 & s1 & [[H1 H2]|[H1 H2]]);
    exists new, neg, db; (eapply steps_add; [|exact H2]); (eapply steps_add; [apply steps_refl|exact H1]).
Qed.
Lemma C108_items_lemma : forall e new neg db recipe bba l1 l2 s2 t1 t2 cs1 cs2, env_ok e ->
  in_either_order e (new_stash new neg db) recipe l1 bba l2 s2 -> l1 <> [] -> l2 <> [] ->
  applies (file_of e bba) (file_of e recipe) ->
  fs_read (e_fs e) (file_of e recipe) = RdText t1 -> coded neg cs1 (universal_newlines t1) ->
  fs_read (e_fs e) (file_of e bba) = RdText t2 -> coded neg cs2 (universal_newlines t2) ->
  (forall c, In c (cs1 ++ cs2) -> ~ brings (snd c)) ->
  Forall2 says (cs1 ++ cs2) (items_for e s2 (file_of e recipe)).
Proof.
  intros e new neg db recipe bba l1 l2 s2 t1 t2 cs1 cs2 He Hb N1 N2 Ha R1 C1 R2 C2 Hbr.
  destruct (appended_items e new neg db recipe bba l1 l2 s2 t1 t2 cs1 cs2 Hb N1 N2 Ha R1 C1 R2 C2 Hbr) as [L (F & SS & HV)].
  rewrite (found e s2 _ _ L He (reach_twice _ _ _ _ _ _ _ _ _ Hb) F SS HV). now apply holds_says.
Qed.
Lemma C108_values_lemma : forall e new neg db recipe bba l1 l2 s2 t1 t2 cs1 cs2 d, env_ok e -> plain_base db ->
  in_either_order e (new_stash new neg db) recipe l1 bba l2 s2 -> l1 <> [] -> l2 <> [] ->
  applies (file_of e bba) (file_of e recipe) ->
  fs_read (e_fs e) (file_of e recipe) = RdText t1 -> coded neg cs1 (universal_newlines t1) ->
  fs_read (e_fs e) (file_of e bba) = RdText t2 -> coded neg cs2 (universal_newlines t2) ->
  (forall c, In c (cs1 ++ cs2) -> ~ brings (snd c)) -> plain_names (cs1 ++ cs2) ->
  expand_var e s2 (Some (file_of e recipe)) ANone ANone false = Ok d ->
  values_are (new_stash new neg db) (file_of e recipe) (cs1 ++ cs2) d.
Proof.
  intros e new neg db recipe bba l1 l2 s2 t1 t2 cs1 cs2 d He Hdb Hb N1 N2 Ha R1 C1 R2 C2 Hbr Hpl Hd.
  destruct (appended_items e new neg db recipe bba l1 l2 s2 t1 t2 cs1 cs2 Hb N1 N2 Ha R1 C1 R2 C2 Hbr) as [L (F & SS & HV)].
  apply (found_values e s2 (new_stash new neg db) _ _ L d He (reach_twice _ _ _ _ _ _ _ _ _ Hb) F SS HV); auto.
  exact (base_twice _ _ _ _ _ _ _ _ _ Hdb Hb).
Qed.

(** ** A recipe with an include *)

(** The file is added, and perhaps again. *)
Inductive again (addf : addfile_t) (p : str) (line : Z) (file : str) : stash -> stash -> Prop :=
| again_no : forall s s', still s s' -> again addf p line file s s'
| again_yes : forall s s1 l s2 s', still s s1 -> addf p line file s1 = (Ok l, s2) -> again addf p line file s2 s' ->
    again addf p line file s s'.
Lemma again_still : forall addf p line file a b c, again addf p line file a b -> still b c -> again addf p line file a c.
Proof.
  intros addf p line file a b c H. induction H as [s s' H|s s1 l s2 s' H1 H2 _ IH]; intro Hc.
  - apply again_no. now apply (still_trans _ s').
  - apply (again_yes _ _ _ _ _ s1 l s2); auto.
Qed.
(** The only file that an item made the parser add. *)
Definition only_file (i : item) (p : str) : Prop :=
  p <> [] /\ match it_pay i with PInclude _ _ f => f = p | PInherit _ _ fs => fs = [p] | _ => False end.

Lemma inherit_loop_paths : forall e addf locs file inh line l paths off s r s',
  inherit_loop e addf locs file inh line l paths off s = (Ok r, s') -> exists more, fst r = paths ++ more.
Proof.
  intros e addf locs file inh line l. induction l as [|x l IH]; intros paths off s r s' H; cbn [inherit_loop] in H.
  - injection H as <- <-. exists []. now rewrite app_nil_r.
  - unfold bindM at 1 in H. destruct (find_class _ _ _ _ s) as [[p|ex|] s1] eqn:E; try discriminate.
    destruct p as [|c p]; [now apply IH in H|].
    unfold bindM at 1 in H. unfold liftR in H. destruct (cval_contains _ _); [now apply IH in H|].
    unfold bindM at 1 in H. destruct (addf _ line _ s1) as [[tmp|ex|] s2]; try discriminate.
    apply IH in H. destruct H as [more H]. unfold add_set in H. destruct (mem_str _ paths); [now exists more|].
    exists ([c :: p] ++ more). now rewrite H, <- app_assoc.
Qed.
Lemma inherit_loop_calls : forall e addf locs file inh line p l off s r s',
  (inherit_loop e addf locs file inh line l [p] off s = (Ok r, s') -> fst r = [p] -> again addf p line file s s') /\
  (inherit_loop e addf locs file inh line l [] off s = (Ok r, s') -> fst r = [p] ->
   exists tmp sb, addf p line file s = (Ok tmp, sb) /\ again addf p line file sb s').
Proof.
  intros e addf locs file inh line p l. induction l as [|x l IH]; intros off s r s'; cbn [inherit_loop].
  - split; intros H Hr; injection H as <- <-; [apply again_no, still_refl|discriminate].
  - unfold bindM, liftR. destruct (find_class _ _ _ _ s) as [[q|ex|] s1] eqn:E; try (split; discriminate).
    apply find_class_still in E. subst s1. destruct q as [|c q]; [apply IH|].
    destruct (cval_contains _ _); [apply IH|].
    destruct (addf (c :: q) line _ s) as [[tmp|ex|] s2] eqn:Ea; try (split; discriminate).
    split; intros H Hr.
    + destruct (inherit_loop_paths _ _ _ _ _ _ _ _ _ _ _ _ H) as [more Hm]. rewrite Hr in Hm.
      unfold add_set in H, Hm. destruct (mem_str (c :: q) [p]) eqn:M; [|discriminate Hm].
      apply mem_str_In in M. destruct M as [M|[]]. apply (again_yes _ _ _ _ _ s tmp s2); [apply still_refl|now rewrite M|].
      apply (IH _ _ _ _) in H; assumption.
    + destruct (inherit_loop_paths _ _ _ _ _ _ _ _ _ _ _ _ H) as [more Hm]. rewrite Hr in Hm. cbn in Hm. injection Hm as Hm _.
      subst p. exists tmp, s2. split; [exact Ea|]. cbn in H. now apply (IH _ _ _ _) in H.
Qed.

Lemma try_call : forall e addf p file line cnt l s x s' q,
  try_kinds e addf p file line cnt l s = (Ok x, s') -> only_file (fst x) q ->
  exists sa tmp sb, still s sa /\ addf q line file sa = (Ok tmp, sb) /\ again addf q line file sb s' /\
    match it_pay (fst x) with PInclude _ _ _ => still sb s' | _ => True end.
Proof.
  intros e addf p file line cnt l s x s' q. revert s x s'.
  induction l as [|[k rx] l IH]; intros s x s' H Hp; cbn [try_kinds] in H.
  - unfold bindM, new_item, fresh, ret in H. simpl in H. injection H as <- _. now destruct Hp.
  - destruct (re_match rx cnt) as [mt|]; [|now apply (IH s x s')].
    unfold bindM at 1 in H. destruct (handle e addf p file line k mt s) as [[o|ex|] s1] eqn:E; try discriminate.
    destruct o as [[i z]|].
    + unfold ret in H. injection H as <- <-. cbn [fst] in Hp.
      destruct k; unfold handle in E;
        try (unfold bindM, new_item, fresh, ret, liftR in E; simpl in E; injection E as <- _ _; destruct Hp as [_ []]);
        try (unfold bindM at 1 in E; unfold liftR at 1 in E; destruct (expand_term e s file _) as [inh|ex|]; try discriminate E;
             unfold bindM at 1 in E; destruct (inherit_loop _ _ _ _ _ _ _ _ _ s) as [[r|ex|] s2] eqn:El; try discriminate E;
             unfold bindM, new_item, fresh, ret in E; simpl in E; injection E as <- _ <-; destruct Hp as [_ Hp]; cbn in Hp;
             apply (inherit_loop_calls _ _ _ _ _ _ q) in El; [|exact Hp]; destruct El as (tmp & sb & E1 & E2);
             exists s, tmp, sb; split; [apply still_refl|]; split; [exact E1|]; split; [|exact I]; apply (again_still _ _ _ _ _ s2); [exact E2|repeat split]).
      * exfalso. unfold bindM, new_item, fresh, ret, liftR in E. simpl in E. injection E as <- _ _.
        unfold mk_function in Hp. destruct (extract_sub_func _ _ _) as [[a b] d]. destruct Hp as [_ []].
      * unfold bindM at 1 in E. unfold liftR at 1 in E. destruct (expand_term e s file _) as [inc|ex|]; try discriminate.
        unfold bindM at 1 in E. destruct (find_m e inc (dirname file) s) as [[path|ex|] s2] eqn:Ef; try discriminate.
        apply find_m_still in Ef. subst s2. destruct path as [|c' path].
        -- unfold bindM, new_item, fresh, ret in E. simpl in E. injection E as <- _ _. destruct Hp as [Hp1 Hp2]. cbn in Hp2. now destruct Hp1.
        -- unfold bindM at 1 in E. unfold liftR at 1 in E. destruct (cval_contains inc _); [discriminate|].
           unfold bindM at 1 in E. destruct (addf _ _ _ s) as [[tmp|ex|] s2] eqn:Ea; try discriminate.
           unfold bindM, new_item, fresh, ret in E. simpl in E. injection E as <- _ <-. destruct Hp as [_ Hp]. cbn in Hp. subst q.
           exists s, tmp, s2. split; [apply still_refl|]. split; [exact Ea|]. split; [apply again_no|]; repeat split.
      * exfalso. destruct (existsb _ pkg_prefixes); [discriminate|].
        unfold bindM, new_item, fresh, ret in E. simpl in E. injection E as <- _ _. destruct Hp as [_ []].
    + apply handle_still in E; [|discriminate]. destruct (IH s1 x s' H Hp) as (sa & tmp & sb & I1 & I2 & I3).
      exists sa, tmp, sb. split; [now apply (still_trans _ s1)|]. now split.
Qed.
Lemma chunks_call : forall e addf file off cs a x b inc new s s' q,
  parse_chunks e addf file off inc new cs s = (Ok (a ++ x :: b), s') -> Forall adds_no_file a -> Forall adds_no_file b ->
  only_file x q ->
  exists line sa tmp sb, still s sa /\ addf q line file sa = (Ok tmp, sb) /\ again addf q line file sb s' /\
    match it_pay x with PInclude _ _ _ => still sb s' | _ => True end.
Proof.
  intros e addf file off cs. induction cs as [|ck cs IH]; intros a x b inc new s s' q H Ha Hb Hp; cbn [parse_chunks] in H.
  { destruct a; discriminate. }
  unfold bindM at 1 in H.
  match type of H with match ?t with _ => _ end = _ => destruct t as [[w|ex|] s1] eqn:E; try discriminate end.
  unfold bindM, ret in H.
  match type of H with match ?t with _ => _ end = _ => destruct t as [[l0|ex|] s2] eqn:E2; try discriminate end.
  destruct a as [|y a]; cbn [List.app] in H; injection H as H1 H2 H3; subst.
  - destruct (try_call _ _ _ _ _ _ _ _ _ _ _ E Hp) as (sa & tmp & sb & I1 & I2 & I3 & I4).
    apply parse_chunks_still in E2; [|exact Hb]. exists (ck_line ck), sa, tmp, sb. split; [exact I1|]. split; [exact I2|].
    split; [now apply (again_still _ _ _ _ _ s1)|]. destruct (it_pay (fst w)); try exact I. now apply (still_trans _ s1).
  - inversion Ha as [|? ? Ha1 Ha2]; subst. apply try_kinds_still in E; [|exact Ha1].
    destruct (IH _ _ _ _ _ _ _ _ E2 Ha2 Hb Hp) as (line & sa & tmp & sb & I1 & I2 & I3).
    exists line, sa, tmp, sb. split; [now apply (still_trans _ s1)|]. now split.
Qed.
(** A class is read once. *)
Lemma get_more : forall n e file off s r s',
  get_items e (fun p o f => add_file n e p o (Some f)) file off s = (r, s') -> incl (st_seenc s) (st_seenc s').
Proof.
  intros n e file off s r s' H. enough (X : seen_more (pend (fun l : list item => l) r) s s') by apply X.
  assert (Ht : forall p q s1 s2 s3, seen_more p s1 s2 -> seen_more q s2 s3 -> seen_more (p ++ q) s1 s3).
  { intros p q s1 s2 s3 [A1 A2] [B1 B2]. split; eapply incl_tran; eassumption. }
  eapply (rel_get_items e seen_more); try exact H; clear H.
  - intro s0. split; apply incl_refl.
  - exact Ht.
  - intros p s0 s1 Hm. exact Hm.
  - intros s0 i _ _. split; apply incl_refl.
  - intros s0 p _. apply enter_more.
  - intros s0 s1 p fc items r0 s2 f0 _ _ Hg E. apply leave_cases in E.
    destruct E as [g [l [_ [_ [_ [_ [_ [_ [E1 [E2 _]]]]]]]]]]. apply (Ht [] [] s0 (enter f0 s0)); [apply enter_more|].
    destruct Hg as [G1 G2]. split; [rewrite E1; exact G1|rewrite E2; exact G2].
Qed.
Lemma class_seen : forall n e path off forced s l s', add_file n e path off forced s = (Ok l, s') ->
  snd (splitext (file_of e path)) = ".bbclass" -> In (file_of e path) (st_seenc s').
Proof.
  intros n e path off forced s l s' H Hx. destruct (skipped e path s) eqn:Sk.
  - apply add_file_inv in H as H'. rewrite Sk in H'. destruct H' as [_ ->]. unfold skipped in Sk. fold (file_of e path) in Sk.
    rewrite Hx in Sk. apply Bool.orb_true_iff in Sk. destruct Sk as [Sk|Sk]; [|now apply mem_str_In].
    apply Bool.andb_true_iff in Sk. destruct Sk as [_ Sk]. discriminate.
  - destruct (add_file_parts _ _ _ _ _ _ _ _ H Sk) as [m [cs [items [s1 [_ [Hg [Hv _]]]]]]]. fold (file_of e path) in Hg, Hv.
    apply leave_cases in Hv. destruct Hv as [f [l0 [Hf [EL [_ [_ [_ [_ [_ [Es [_ Hr]]]]]]]]]]]. rewrite Es.
    apply get_more in Hg. apply Hg. unfold enter. cbn [with_seen st_seenc]. rewrite Hx.
    change (str_eqb ".bbclass" ".bbclass") with true. cbv iota. apply add_set_In. now left.
Qed.
Lemma again_once : forall n e q line file s s', again (fun p o f => add_file n e p o (Some f)) q line file s s' ->
  In (file_of e q) (st_seenc s) -> still s s'.
Proof.
  intros n e q line file s s' H. induction H as [s s' H|s s1 l s2 s' H1 H2 _ IH]; intro Hs; [exact H|].
  assert (Hs1 : In (file_of e q) (st_seenc s1)) by (destruct H1 as (_ & _ & _ & _ & _ & ->); exact Hs).
  destruct n as [|n]; [discriminate|]. rewrite add_file_eq in H2. cbv zeta in H2.
  assert (Sk : skipped e q s1 = true).
  { unfold skipped. fold (file_of e q). apply mem_str_In in Hs1. rewrite Hs1. now rewrite Bool.orb_true_r. }
  rewrite Sk in H2. injection H2 as _ <-. apply (still_trans _ s1); [exact H1|now apply IH].
Qed.

Lemma forced_linked : forall n e path off f s l s', add_file n e path off (Some f) s = (Ok l, s') -> skipped e path s = false -> f <> [] ->
  linked s' f (file_of e path).
Proof.
  intros n e path off f s l s' H Sk Hf. destruct (add_file_parts _ _ _ _ _ _ _ _ H Sk) as [m [cs [items [s1 [_ [_ [Hv _]]]]]]].
  fold (file_of e path) in Hv. set (file := file_of e path) in *. destruct (leave_parts _ _ _ _ _ _ _ Hv) as [s2 [Hm [_ EM]]].
  apply match_appends_map in Hm.
  2:{ cbn [st_map with_map]. destruct (link_file_key file (Some f) (st_map s1)) as [k Ek]. eapply dget_Some_key. exact Ek. }
  cbn [st_map with_map] in Hm. unfold linked. rewrite EM.
  assert (K : exists k, dget f (link_file file (Some f) (st_map s1)) = Some (k ++ [file])).
  { unfold link_file. cbv zeta. set (mp1 := if dhas file _ then _ else _). destruct f as [|c f]; [congruence|].
    set (mp2 := if dhas (c :: f) mp1 then mp1 else _). eexists. apply dget_dset_same. }
  destruct K as [k K]. destruct (extends_get _ _ _ _ _ Hm K) as [r [E _]]. exists ((k ++ [file]) ++ r). split; [exact E|].
  apply in_or_app. left. apply in_or_app. right. now left.
Qed.

Lemma Forall2_len : forall A B (P : A -> B -> Prop) l k, Forall2 P l k -> length l = length k.
Proof. intros A B P l k H. induction H; cbn [length]; congruence. Qed.
Lemma included_items : forall n e path off forced new neg db a x b s' p t1 t2 cs1 c0 cs2 cs3,
  add_file n e path off forced (new_stash new neg db) = (Ok (a ++ x :: b), s') -> length a = length cs1 ->
  brings_file e x p -> file_of e p <> file_of e path ->
  endswith ".bbappend" (file_of e path) = false -> endswith ".bbappend" (file_of e p) = false ->
  fs_read (e_fs e) (file_of e path) = RdText t1 -> coded neg (cs1 ++ c0 :: cs3) (universal_newlines t1) ->
  fs_read (e_fs e) (file_of e p) = RdText t2 -> coded neg cs2 (universal_newlines t2) ->
  (forall c, In c (cs1 ++ cs2 ++ cs3) -> ~ brings (snd c)) ->
  exists L, Forall2 holds (cs1 ++ c0 :: cs2 ++ cs3) L /\ StronglySorted strictly L /\
    (forall i, In i L <-> In i (st_list s') /\ visible s' (file_of e path) i).
Proof.
  intros n e path off forced new neg db a x b s' p t1 t2 cs1 c0 cs2 cs3 H La Hp Nf Bf Bp R1 C1 R2 C2 Hbr.
  assert (B1 : forall c, In c cs1 -> ~ brings (snd c)) by (intros c Hc; apply Hbr; rewrite !in_app_iff; tauto).
  assert (B2 : forall c, In c cs2 -> ~ brings (snd c)) by (intros c Hc; apply Hbr; rewrite !in_app_iff; tauto).
  assert (B3 : forall c, In c cs3 -> ~ brings (snd c)) by (intros c Hc; apply Hbr; rewrite !in_app_iff; tauto).
  assert (Nl : a ++ x :: b <> []) by (destruct a; discriminate).
  pose proof (taken_considered _ _ _ _ _ _ _ _ H Nl) as Hc.
  pose proof (coded_stated _ _ _ _ _ _ _ _ _ _ (filled_new e new neg db) H Hc R1 C1) as F. cbn [st_neg new_stash] in F.
  apply Forall2_app_inv_l in F. destruct F as (u & v & Fa & Fb & Euv).
  assert (Lu : length u = length a) by (apply Forall2_len in Fa; congruence).
  apply app_inv_len in Euv; [|congruence]. destruct Euv as [<- <-].
  inversion Fb as [|? ? ? ? Fx Fb']; subst. clear Fb.
  pose proof (coded_still _ _ _ _ Fa B1) as Sa. pose proof (coded_still _ _ _ _ Fb' B3) as Sb.
  pose proof (skipped_nil _ _ _ _ _ _ _ _ H Nl) as Sk.
  destruct (add_file_parts _ _ _ _ _ _ _ _ H Sk) as [m [cks [items [s1 [_ [Hg [Hv _]]]]]]].
  fold (file_of e path) in Hg, Hv. set (file := file_of e path) in *.
  pose proof Hv as Hv'. apply leave_cases in Hv'. destruct Hv' as [f [l0 [Hf [EL [_ [_ [_ [_ [_ [_ [_ Hr]]]]]]]]]]].
  destruct (Hr _ eq_refl) as [<- [mx Emx]].
  assert (Emap : exists a' x' b', items = a' ++ x' :: b' /\ Forall adds_no_file a' /\ Forall adds_no_file b' /\ it_pay x' = it_pay x).
  { symmetry in Emx. apply map_eq_app in Emx. destruct Emx as (a' & y & -> & Ea & Ey).
    destruct y as [|x' b']; [discriminate|]. cbn [map] in Ey. injection Ey as Ex Eb. exists a', x', b'.
    split; [reflexivity|]. subst a b. rewrite Forall_map in Sa, Sb. split; [exact Sa|]. split; [exact Sb|]. now rewrite <- Ex. }
  destruct Emap as (a' & x' & b' & -> & Sa' & Sb' & Ep').
  assert (Op : only_file x' p).
  { unfold only_file. rewrite Ep'. unfold brings_file in Hp. destruct (it_pay x); try tauto; destruct Hp as [Hp1 Hp2]; split; tauto. }
  unfold get_items in Hg. unfold bindM at 1, liftR in Hg. destruct (prepare_file _ _ _ _) as [cks'|ex|]; try discriminate.
  unfold bindM at 1, liftR in Hg.
  destruct (chunks_call _ _ _ _ _ _ _ _ _ _ _ _ _ Hg Sa' Sb' Op) as (line & sa & tmp & sb & I1 & I2 & I3 & I3').
  destruct I1 as (A1 & A2 & A3 & A4 & A5 & A6). cbn [enter with_seen st_list st_map st_const st_neg st_seen st_seenc new_stash add_set mem_str existsb List.app] in *.
  set (fp := file_of e p) in *.
  assert (Cp : considered e p sa).
  { split.
    - fold fp. rewrite A6. destruct (str_eqb _ _); [|intros []]. intros [X|[]]. now apply Nf.
    - fold fp. rewrite A5. intros [X|[]]. now destruct Nf. }
  assert (I4 : still sb s1).
  { unfold brings_file in Hp. rewrite Ep' in I3'. destruct (it_pay x); try (now destruct Hp).
    destruct Hp as (_ & _ & Hp). apply (again_once _ _ _ _ _ _ _ I3). exact (class_seen _ _ _ _ _ _ _ _ I2 Hp). }
  destruct I4 as (D1 & D2 & D3 & D4 & D5 & D6).
  pose proof (C04_lemma _ _ _ _ _ _ _ _ I2) as O2. rewrite Forall_forall in O2. change (abspath (fs_cwd (e_fs e)) p) with fp in O2.
  pose proof (C04_lemma _ _ _ _ _ _ _ _ H) as O1. rewrite Forall_forall in O1. change (abspath (fs_cwd (e_fs e)) path) with file in O1.
  assert (Hq : forall y, In y tmp -> In y (st_list s')).
  { intros y Hy. rewrite EL, D1. apply in_or_app. left. apply in_map_iff. exists y. split.
    - apply (Hf y). now rewrite (proj1 (O2 y Hy)).
    - eapply add_file_in_stash; eassumption. }
  assert (Hfi : filled e s') by (eapply filled_add; [apply filled_new|exact H]).
  assert (Hneg : st_neg s' = neg).
  { apply add_file_grows in H. destruct H as (? & ? & _ & _ & _ & _ & _ & _ & H). exact H. }
  rewrite <- A4 in C2.
  assert (F2 : Forall2 (stated_as e (st_neg sa)) cs2 tmp).
  { apply (coded_stated_in _ _ _ _ _ _ _ _ t2 cs2 I2); [|exact Cp|exact R2|exact C2].
    intros y Hy. exists s'. split; [exact Hfi|]. split; [congruence|now apply Hq]. }
  pose proof (coded_still _ _ _ _ F2 B2) as St.
  destruct (file_added _ _ _ _ _ _ _ _ I2 St) as (g & Hg2 & EL2 & _ & _). rewrite A1 in EL2. cbn [map List.app] in EL2.
  assert (Ef : map f tmp = tmp).
  { rewrite <- map_id. apply map_ext_in. intros y Hy. apply (Hf y). now rewrite (proj1 (O2 y Hy)). }
  rewrite D1, EL2, Ef in EL.
  assert (Sorts : StronglySorted strictly (a ++ x :: b)).
  { eapply sorted_weak; [|exact (file_sorted _ _ _ _ _ _ _ _ H)]. intros y z [Y _]. exact Y. }
  assert (Sortt : StronglySorted strictly tmp).
  { eapply sorted_weak; [|exact (file_sorted _ _ _ _ _ _ _ _ I2)]. intros y z [Y _]. exact Y. }
  assert (Hre : reach e (new_stash new neg db)) by (exists new, neg, db; apply steps_refl).
  assert (Btw : forall y, In y tmp -> (it_line x < it_line y)%Z /\ (forall z, In z b -> (it_line y < it_line z)%Z)).
  { intros y Hy.
    assert (All : forall z, In z (st_list s') -> In z tmp \/ In z (a ++ x :: b)) by (intros z Hz; rewrite EL in Hz; now apply in_app_or).
    destruct (C39_lemma n e path off forced _ a x b s' Hre H) with (y := y) as [_ [Y1 [_ Y2]]]; [| | | |now split].
    - intros z [Hz _]. destruct (All z Hz) as [Hz'|Hz']; [now rewrite (proj1 (O2 z Hz'))|now rewrite (proj1 (O1 z Hz'))].
    - intros z [Hz _] Hl. destruct (All z Hz) as [Hz'|Hz'].
      + rewrite Forall_forall in St. apply loads_iff in Hl; [contradiction|now apply St].
      + apply in_app_or in Hz'. rewrite Forall_forall in Sa, Sb. destruct Hz' as [Hz'|[<-|Hz']]; [|reflexivity|].
        * apply loads_iff in Hl; [contradiction|now apply Sa].
        * apply loads_iff in Hl; [contradiction|now apply Sb].
    - split; [now apply Hq|]. cbn [st_next new_stash]. lia.
    - intro Hi. apply O1 in Hi. destruct (O2 y Hy) as [Oy _]. apply Nf. destruct Hi as [Hi _]. exact (eq_trans (eq_sym Oy) Hi). }
  exists (a ++ x :: tmp ++ b). split; [|split].
  - apply Forall2_app; [exact (coded_holds _ _ _ _ Fa)|]. constructor.
    + pose proof (coded_holds e neg [c0] [x] ltac:(constructor; [exact Fx|constructor])) as G. now inversion G.
    + apply Forall2_app; [exact (coded_holds _ _ _ _ F2)|exact (coded_holds _ _ _ _ Fb')].
  - assert (Sx : StronglySorted strictly (x :: b)).
    { clear -Sorts. induction a as [|y a IH]; [exact Sorts|]. apply IH. now inversion Sorts. }
    assert (Sab : forall y z, In y a -> In z (x :: b) -> strictly y z).
    { clear -Sorts. induction a as [|w a IH]; [intros y z []|]. cbn [List.app] in Sorts. inversion Sorts as [|? ? S1 S2]; subst.
      intros y z [<-|Hy] Hz; [|now apply IH]. rewrite Forall_forall in S2. apply S2. apply in_or_app. now right. }
    assert (Saa : StronglySorted strictly a).
    { clear -Sorts. induction a as [|w a IH]; [constructor|]. cbn [List.app] in Sorts. inversion Sorts as [|? ? S1 S2]; subst.
      constructor; [now apply IH|]. apply Forall_app in S2. apply S2. }
    inversion Sx as [|? ? Sx1 Sx2]; subst. rewrite Forall_forall in Sx2.
    apply sorted_app; [exact Saa| |].
    + constructor.
      * apply sorted_app; [exact Sortt|exact Sx1|]. intros y z Hy Hz. exact (proj2 (Btw y Hy) z Hz).
      * apply Forall_forall. intros z Hz. apply in_app_or in Hz. destruct Hz as [Hz|Hz]; [exact (proj1 (Btw z Hz))|now apply Sx2].
    + intros y z Hy Hz. destruct Hz as [<-|Hz]; [apply Sab; [exact Hy|now left]|]. apply in_app_or in Hz. destruct Hz as [Hz|Hz].
      * assert (X1 : strictly y x) by (apply Sab; [exact Hy|now left]). destruct (Btw z Hz) as [X2 _]. unfold strictly in *. lia.
      * apply Sab; [exact Hy|now right].
  - intro i. rewrite EL. split.
    + intro Hi. assert (Hi' : In i tmp \/ In i (a ++ x :: b)) by (rewrite in_app_iff in *; cbn [In] in *; rewrite in_app_iff in Hi; tauto).
      split; [apply in_or_app; exact Hi'|]. destruct Hi' as [Hi'|Hi'].
      * destruct (str_eq_dec file []) as [E0|E0]; [now left|]. right. right. rewrite (proj1 (O2 i Hi')).
        assert (Skp : skipped e p sa = false) by (apply (skipped_nil _ _ _ _ _ _ _ _ I2); intro X; rewrite X in Hi'; destruct Hi').
        pose proof (forced_linked _ _ _ _ _ _ _ _ I2 Skp E0) as [k [K1 K2]]. fold fp in K2.
        apply leave_map in Hv. destruct Hv as [Hv _]. rewrite D2 in Hv. destruct (extends_get _ _ _ _ _ Hv K1) as [r [E _]].
        exists (k ++ r). split; [exact E|]. apply in_or_app. now left.
      * right. left. now apply O1.
    + intros [Hi _]. rewrite !in_app_iff in *. cbn [In] in *. rewrite in_app_iff. tauto.
Qed.

Lemma C107_items_lemma : forall n e path off forced new neg db a x b s' p t1 t2 cs1 c0 cs2 cs3, env_ok e ->
  add_file n e path off forced (new_stash new neg db) = (Ok (a ++ x :: b), s') -> length a = length cs1 ->
  brings_file e x p -> file_of e p <> file_of e path ->
  endswith ".bbappend" (file_of e path) = false -> endswith ".bbappend" (file_of e p) = false ->
  fs_read (e_fs e) (file_of e path) = RdText t1 -> coded neg (cs1 ++ c0 :: cs3) (universal_newlines t1) ->
  fs_read (e_fs e) (file_of e p) = RdText t2 -> coded neg cs2 (universal_newlines t2) ->
  (forall c, In c (cs1 ++ cs2 ++ cs3) -> ~ brings (snd c)) ->
  Forall2 says (cs1 ++ c0 :: cs2 ++ cs3) (items_for e s' (file_of e path)).
Proof.
  intros n e path off forced new neg db a x b s' p t1 t2 cs1 c0 cs2 cs3 He H La Hp Nf Bf Bp R1 C1 R2 C2 Hbr.
  destruct (included_items n e path off forced new neg db a x b s' p t1 t2 cs1 c0 cs2 cs3 H La Hp Nf Bf Bp R1 C1 R2 C2 Hbr)
    as [L (F & SS & HV)].
  assert (Hre : reach e s') by (exists new, neg, db; eapply steps_add; [apply steps_refl|exact H]).
  rewrite (found e s' _ _ L He Hre F SS HV). now apply holds_says.
Qed.
Lemma C107_values_lemma : forall n e path off forced new neg db a x b s' p t1 t2 cs1 c0 cs2 cs3 d, env_ok e -> plain_base db ->
  add_file n e path off forced (new_stash new neg db) = (Ok (a ++ x :: b), s') -> length a = length cs1 ->
  brings_file e x p -> file_of e p <> file_of e path ->
  endswith ".bbappend" (file_of e path) = false -> endswith ".bbappend" (file_of e p) = false ->
  fs_read (e_fs e) (file_of e path) = RdText t1 -> coded neg (cs1 ++ c0 :: cs3) (universal_newlines t1) ->
  fs_read (e_fs e) (file_of e p) = RdText t2 -> coded neg cs2 (universal_newlines t2) ->
  (forall c, In c (cs1 ++ cs2 ++ cs3) -> ~ brings (snd c)) -> plain_names (cs1 ++ c0 :: cs2 ++ cs3) ->
  expand_var e s' (Some (file_of e path)) ANone ANone false = Ok d ->
  values_are (new_stash new neg db) (file_of e path) (cs1 ++ c0 :: cs2 ++ cs3) d.
Proof.
  intros n e path off forced new neg db a x b s' p t1 t2 cs1 c0 cs2 cs3 d He Hdb H La Hp Nf Bf Bp R1 C1 R2 C2 Hbr Hpl Hd.
  destruct (included_items n e path off forced new neg db a x b s' p t1 t2 cs1 c0 cs2 cs3 H La Hp Nf Bf Bp R1 C1 R2 C2 Hbr)
    as [L (F & SS & HV)].
  assert (Hre : reach e s') by (exists new, neg, db; eapply steps_add; [apply steps_refl|exact H]).
  apply (found_values e s' (new_stash new neg db) _ _ L d He Hre F SS HV); auto.
  apply (base_kept n e path off forced (new_stash new neg db) (Ok (a ++ x :: b)) s'); [apply Hdb|exact H].
Qed.
