(** * Which variables an expansion depends on: proofs *)

From Verif Require Import PyStr Regex Patterns PyPath Res Const Item Lines Stash StrFacts ReFacts LinesFacts NameFacts ExnFacts
  ReachFacts QueryFacts ExpandFacts Spec_Query Spec_Parse Spec_Expand Proofs_Expand VarFacts Spec_Local.

Lemma occurs_trans : forall a b c, occurs a b -> occurs b c -> occurs a c.
Proof.
  intros a b c (x & y & ->) (p & q & ->). exists (p ++ x), (y ++ q). rewrite <- !app_assoc. reflexivity.
Qed.
Lemma refers_part : forall a b n, refers a n -> occurs a b -> refers b n.
Proof.
  intros a b n [Hn H] Hab. split; [exact Hn|].
  destruct H as [H|[H1 H2]]; [left; exact (occurs_trans _ _ _ H Hab)|right].
  split; [exact (occurs_trans _ _ _ H1 Hab)|exact (occurs_trans _ _ _ H2 Hab)].
Qed.
(** Groups are parts of the text. *)
Lemma group_occurs : forall r s x n, In x (re_finditer r s) -> occurs (group_str n x) s.
Proof.
  intros r s x n H. apply finditer_match in H. destruct H as [b [t [[a ->] Hm]]]. apply match_at_some in Hm.
  destruct Hm as [s' [H ->]]. apply mt_grp_ok in H. destruct H as [_ [new [En Gn]]].
  unfold group_str, group. cbn [g_all]. cbn [m_grp m_rest] in En, Gn. rewrite app_nil_r in En. rewrite En.
  destruct (lookup_group n new) as [v|] eqn:Ev.
  - assert (Hi : exists n', In (n', v) new).
    { clear -Ev. induction new as [|[k w] new IH]; [discriminate|]. simpl in Ev. destruct (str_eqb n k).
      - inversion Ev; subst. exists k. now left.
      - destruct (IH Ev) as [n' Hn]. exists n'. now right. }
    destruct Hi as [n' Hi]. apply Gn in Hi. destruct Hi as [p [q ->]]. exists (a ++ p), q. now rewrite <- !app_assoc.
  - exists [], (a ++ t). reflexivity.
Qed.
Lemma ref1_refers : forall s x, In x (re_finditer re_var_ref s) -> refers s (group_str "1" x).
Proof.
  intros s x H. apply var_ref_found in H. destruct H as (n & Hn & _ & -> & Hs). split; [exact Hn|]. left. exact Hs.
Qed.
Lemma ref2_refers : forall s x, In x (re_finditer re_var_ref2 s) -> refers s (group_str "1" x).
Proof.
  intros s x H. split; [exact (ref2_name s x H)|]. right. split; [|exact (group_occurs _ _ _ _ H)].
  apply finditer_match in H. destruct H as [b [t [[a ->] Hm]]]. apply var_ref2_contains in Hm. destruct Hm as [p [q ->]].
  exists (a ++ p), q. now rewrite <- !app_assoc.
Qed.

Lemma fold_res_same : forall {A B} (f g : A -> B -> Res.res A) l a,
  (forall a x, In x l -> f a x <> NoFuel -> g a x <> NoFuel -> f a x = g a x) ->
  fold_res f l a <> NoFuel -> fold_res g l a <> NoFuel -> fold_res f l a = fold_res g l a.
Proof.
  intros A B f g l. induction l as [|x l IH]; intros a H Hf Hg; [reflexivity|]. cbn [fold_res] in *.
  pose proof (H a x (or_introl eq_refl)) as Hx.
  assert (E : f a x = g a x).
  { apply Hx; intro E; rewrite E in *; cbn [bind] in *; congruence. }
  rewrite <- E in *. destruct (f a x) as [a1|ex|]; cbn [bind] in *; [|reflexivity|reflexivity].
  apply IH; [|exact Hf|exact Hg]. intros b y Hy. apply H. now right.
Qed.

Section Sim.
  Context (e e' : env) (s s' : stash) (file : str) (K : str -> Prop).
  Context (Hfs : e_fs e = e_fs e').
  Context (Hsame : forall n, K n -> content_of e s file n = content_of e' s' file n).
  Context (Hnext : forall m c n, K m -> content_of e s file m = Some c -> refers c n -> K n).

  Lemma expand_sim : forall vf vf' lf spare (value : str) (seen : seen_t),
    (forall n, refers value n -> K n) ->
    expand_f vf e s file lf spare value seen <> NoFuel -> expand_f vf' e' s' file lf spare value seen <> NoFuel ->
    expand_f vf e s file lf spare value seen = expand_f vf' e' s' file lf spare value seen.
  Proof.
    intro vf. induction vf as [vf IHv] using lt_wf_ind. intros vf' lf. induction lf as [lf IHl] using lt_wf_ind.
    intros spare value seen HK. rewrite !expand_f_eq.
    set (rv := fun (cnt : str) (sn : seen_t) => match vf with O => NoFuel | S vf' => expand_f vf' e s file (length cnt) [] cnt sn end).
    set (rv' := fun (cnt : str) (sn : seen_t) => match vf' with O => NoFuel | S vf' => expand_f vf' e' s' file (length cnt) [] cnt sn end).
    assert (Hone : forall quote mt x, refers value (group_str "1" mt) ->
      expand_one e s file rv spare quote x mt <> NoFuel -> expand_one e' s' file rv' spare quote x mt <> NoFuel ->
      expand_one e s file rv spare quote x mt = expand_one e' s' file rv' spare quote x mt).
    { intros quote mt [rs sn] Hr. rewrite !expand_one_eq. cbv zeta. set (n := group_str "1" mt) in *.
      rewrite <- (Hsame n (HK n Hr)).
      destruct (mem_str n spare); [reflexivity|]. destruct (content_of e s file n) as [c|] eqn:Ec; [|reflexivity].
      destruct (dget n sn) as [r|]; [reflexivity|]. intros N1 N2.
      assert (E : rv c (dset n [] sn) = rv' c (dset n [] sn)).
      { assert (M1 : rv c (dset n [] sn) <> NoFuel) by (intro E; rewrite E in N1; exact (N1 eq_refl)).
        assert (M2 : rv' c (dset n [] sn) <> NoFuel) by (intro E; rewrite E in N2; exact (N2 eq_refl)).
        unfold rv, rv' in *. destruct vf as [|vf1]; [destruct (M1 eq_refl)|]. destruct vf' as [|vf2]; [destruct (M2 eq_refl)|].
        apply IHv; [lia| |exact M1|exact M2]. intros k Hk. exact (Hnext n c k (HK n Hr) Ec Hk). }
      rewrite E. reflexivity. }
    intros N1 N2.
    assert (F1 : fold_res (expand_one e s file rv spare []) (re_finditer re_var_ref value) (value, seen)
      = fold_res (expand_one e' s' file rv' spare []) (re_finditer re_var_ref value) (value, seen)).
    { apply fold_res_same.
      - intros a x Hx. apply Hone. exact (ref1_refers value x Hx).
      - intro E. rewrite E in N1. exact (N1 eq_refl).
      - intro E. rewrite E in N2. exact (N2 eq_refl). }
    rewrite <- F1 in *.
    destruct (fold_res (expand_one e s file rv spare []) (re_finditer re_var_ref value) (value, seen)) as [x1|ex|];
      cbn [bind] in *; [|reflexivity|reflexivity].
    assert (F2 : fold_res (expand_one e s file rv spare [cDQ]) (re_finditer re_var_ref2 value) x1
      = fold_res (expand_one e' s' file rv' spare [cDQ]) (re_finditer re_var_ref2 value) x1).
    { apply fold_res_same.
      - intros a x Hx. apply Hone. exact (ref2_refers value x Hx).
      - intro E. rewrite E in N1. exact (N1 eq_refl).
      - intro E. rewrite E in N2. exact (N2 eq_refl). }
    rewrite <- F2 in *.
    destruct (fold_res (expand_one e s file rv spare [cDQ]) (re_finditer re_var_ref2 value) x1) as [x2|ex|];
      cbn [bind] in *; [|reflexivity|reflexivity].
    apply fold_res_same; [|exact N1|exact N2].
    intros [rs sn] mt Hm. unfold read_file_one. destruct lf as [|lf]; [intros M1 _; destruct (M1 eq_refl)|]. intros M1 M2.
    assert (E : expand_f vf e s file lf spare (group_str "file" mt) sn = expand_f vf' e' s' file lf spare (group_str "file" mt) sn).
    { apply IHl; [lia| | |].
      - intros n Hn. apply HK. exact (refers_part _ _ n Hn (group_occurs _ _ _ _ Hm)).
      - intro E. rewrite E in M1. exact (M1 eq_refl).
      - intro E. rewrite E in M2. exact (M2 eq_refl). }
    rewrite E, Hfs. reflexivity.
  Qed.
End Sim.

Lemma C141_lemma : forall e e' s s' file value spare, env_ok e -> env_ok e' -> reach e s -> reach e' s' -> e_fs e = e_fs e' ->
  (forall n, matters s file value n -> agree s s' file n) ->
  expand_term_full e s file value spare [] None = expand_term_full e' s' file value spare [] None.
Proof.
  intros e e' s s' file value spare He He' Hr Hr' Hfs Ha. unfold expand_term_full, expand_seen. cbv zeta.
  assert (NE : forall n, matters s file value n -> n <> []).
  { intros n [m Hm|m c k _ _ Hk]; [apply Hm|apply Hk]. }
  rewrite (expand_sim e e' s s' file (matters s file value) Hfs) with (vf' := expand_fuel s').
  - reflexivity.
  - intros n Hn. apply (Ha n Hn); [now apply content_stands; auto|now apply content_stands; auto].
  - intros m c n Hm Ec Hc. apply (matters_next s file value m c n Hm); [|exact Hc]. rewrite <- Ec.
    apply content_stands; auto.
  - intros n Hn. now apply matters_here.
  - apply expand_total; [exact He|apply unseen_fuel|lia].
  - apply expand_total; [exact He'|apply unseen_fuel|lia].
Qed.

Lemma same_agree : forall s s' file n, same_definitions s s' file n -> agree s s' file n.
Proof.
  intros s s' file n (Hd & Ht & Hb) c c' Hc Hc'.
  apply (stands_unique s file n c c' Ht Hc).
  assert (F : forall i, first_of s' file n i -> first_of s file n i).
  { intros i [H1 H2]. split; [now apply Hd|]. intros j Hj. apply H2. now apply Hd. }
  destruct c' as [c'|]; cbn [stands_for] in *.
  - destruct Hc' as [[i [Hi Ti]]|[Hn E]]; [left; exists i; split; [now apply F|exact Ti]|right].
    split; [|congruence]. intros i Hi. apply (Hn i). now apply Hd.
  - destruct Hc' as [Hn E]. split; [|congruence]. intros i Hi. apply (Hn i). now apply Hd.
Qed.
Lemma C141_items_lemma : forall e e' s s' file value spare, env_ok e -> env_ok e' -> reach e s -> reach e' s' -> e_fs e = e_fs e' ->
  (forall n, matters s file value n -> same_definitions s s' file n) ->
  expand_term_full e s file value spare [] None = expand_term_full e' s' file value spare [] None.
Proof. intros e e' s s' file value spare He He' Hr Hr' Hfs H. apply C141_lemma; auto. intros n Hn. apply same_agree, H, Hn. Qed.

Lemma C141_values_lemma : forall e e' s s' file nolink d d', env_ok e -> env_ok e' -> reach e s -> reach e' s' -> e_fs e = e_fs e' ->
  NoDup (dkeys (sets_base (st_const s))) -> (forall k, In k (dkeys (sets_base (st_const s))) -> plain_text k) ->
  NoDup (dkeys (sets_base (st_const s'))) -> (forall k, In k (dkeys (sets_base (st_const s'))) -> plain_text k) ->
  expand_var e s (Some file) ANone ANone nolink = Ok d -> expand_var e' s' (Some file) ANone ANone nolink = Ok d' ->
  exists l l', statements s file nolink l /\ statements s' file nolink l' /\
    ((forall i, In i (l ++ l') -> plain_text (item_name_nomod i)) ->
     forall n evs v, history n l evs -> history n l' evs -> preset s file n = preset s' file n ->
       (fold_left at_once evs (preset s file n) = None -> forall w, ~ In (LateRemoves w) evs) ->
       assigned (preset s file n) evs = Some v ->
       (forall m, matters s file v m -> agree s s' file m) -> dget n d = dget n d').
Proof.
  intros e e' s s' file nolink d d' He He' Hr Hr' Hfs Nd Pk Nd' Pk' Hd Hd'.
  destruct (C46_lemma e s file ANone ANone nolink d He Hr Nd Pk Hd) as (l & L1 & L2 & L3 & L4).
  destruct (C46_lemma e' s' file ANone ANone nolink d' He' Hr' Nd' Pk' Hd') as (l' & M1 & M2 & M3 & M4).
  exists l, l'. split; [split; [exact L1|split; [exact L2|exact L3]]|]. split; [split; [exact M1|split; [exact M2|exact M3]]|].
  intros Hp n evs v Hh Hh' Ep Hl Ea Hm.
  pose proof (L4 (fun i Hi => Hp i (in_or_app _ _ _ (or_introl Hi))) n evs Hh Hl) as A.
  rewrite Ep in Hl. pose proof (M4 (fun i Hi => Hp i (in_or_app _ _ _ (or_intror Hi))) n evs Hh' Hl) as B.
  rewrite <- Ep in B. rewrite Ea in A, B. destruct A as (w & E1 & ->). destruct B as (w' & E2 & ->).
  assert (E : expand_term e s file v = expand_term e' s' file v) by (apply C141_lemma; auto).
  rewrite E1, E2 in E. injection E as ->. reflexivity.
Qed.
