(** * Lemmas about ExpandVar without a file name *)

From Verif Require Import PyStr Regex Patterns PyPath Res Inline Const Item Lines Stash
  StrFacts ReachFacts HistFacts QueryFacts Spec_Query Proofs_Query Spec_Expand ExpandFacts VarFacts.
From Coq Require Import Permutation Sorted Lia.

Lemma expand_none : forall e s att val nolink,
  expand_var e s None att val nolink =
  match expand_var_items e s None att val nolink with
  | [] => Ok []
  | i :: _ => fold_res (exp_final_one e s (it_origin i))
                (exp_passes (expand_var_items e s None att val nolink) (exp_init s (it_origin i))) []
  end.
Proof. intros. unfold expand_var. destruct (expand_var_items e s None att val nolink); reflexivity. Qed.

(** The first of the items found. *)
Lemma head_of_items : forall e s att val nolink i r, env_ok e -> reach e s ->
  expand_var_items e s None att val nolink = i :: r ->
  In i (st_list s) /\ (selected s (var_query_of None att val nolink) i \/ selected s (unset_query_of None) i) /\
  forall j, In j (st_list s) -> selected s (var_query_of None att val nolink) j ->
    selected s (var_query_of None att val nolink) i /\ by_line i j.
Proof.
  intros e s att val nolink i r He Hr E. unfold expand_var_items in E.
  destruct (C28_lemma e s (var_query_of None att val nolink) He Hr) as [V1 [V2 V3]].
  destruct (C28_lemma e s (unset_query_of None) He Hr) as [U1 [U2 U3]].
  fold (var_query_of None att val nolink) in E. fold (unset_query_of None) in E.
  destruct (get_items_for e s (var_query_of None att val nolink)) as [|v l] eqn:Ev.
  - cbn [List.app] in E. assert (Hi : In i (get_items_for e s (unset_query_of None))) by (rewrite E; now left).
    apply U1 in Hi. destruct Hi as [Hi1 Hi2]. split; [exact Hi1|]. split; [now right|].
    intros j Hj Hs. exfalso. apply (proj2 (V1 j)). now split.
  - cbn [List.app] in E. apply (f_equal (hd i)) in E. cbn [hd] in E. subst v.
    assert (Hi : In i (i :: l)) by now left. apply V1 in Hi. destruct Hi as [Hi1 Hi2].
    split; [exact Hi1|]. split; [now left|]. intros j Hj Hs. split; [exact Hi2|].
    assert (Hin : In j (i :: l)) by (apply V1; now split).
    destruct Hin as [<-|Hin]; [unfold by_line; lia|].
    apply StronglySorted_inv in V3. destruct V3 as [_ V3]. rewrite Forall_forall in V3. now apply V3.
Qed.

Lemma C119_lemma : forall e s att val nolink d, env_ok e -> reach e s ->
  NoDup (dkeys (sets_base (st_const s))) -> (forall k, In k (dkeys (sets_base (st_const s))) -> plain_text k) ->
  expand_var e s None att val nolink = Ok d ->
  exists l,
    (forall i, In i l <-> In i (st_list s) /\
       (selected s (MkQuery None (AOne "Variable") att val nolink) i \/
        selected s (MkQuery None (AOne "Unset") ANone ANone false) i)) /\
    NoDup (map it_id l) /\ StronglySorted by_line l /\
    ((l = [] /\ d = []) \/
     exists i0, In i0 l /\
       (forall j, In j l -> classifier j = "Variable" -> classifier i0 = "Variable" /\ (it_line i0 <= it_line j)%Z) /\
       ((forall i, In i l -> plain_text (item_name_nomod i)) ->
        forall n evs, history n l evs ->
          (fold_left at_once evs (preset s (it_origin i0) n) = None -> forall v, ~ In (LateRemoves v) evs) ->
          match assigned (preset s (it_origin i0) n) evs with
          | Some v => exists w, expand_term e s (it_origin i0) v = Ok w /\ dget n d = Some (safe_linesplit w)
          | None => dget n d = None \/ (left_over evs /\ dget n d = Some [])
          end)).
Proof.
  intros e s att val nolink d He Hr Hb Hbp H. rewrite expand_none in H.
  exists (sort_items (expand_var_items e s None att val nolink)).
  destruct (items_sorted_of e s None att val nolink He Hr) as [L1 [L2 L3]].
  split; [exact L1|]. split; [exact L2|]. split; [exact L3|].
  destruct (expand_var_items e s None att val nolink) as [|i0 r] eqn:E.
  - left. split; [reflexivity|]. now injection H.
  - right. exists i0. destruct (head_of_items e s att val nolink i0 r He Hr E) as (H1 & H2 & H3).
    split; [apply L1; now split|]. split.
    + intros j Hj Hc. apply L1 in Hj. destruct Hj as [Hj1 [Hj2|Hj2]].
      * destruct (H3 j Hj1 Hj2) as [Hs Hl]. split; [|exact Hl].
        destruct Hs as (_ & [Hs|Hs] & _); [discriminate Hs|exact Hs].
      * destruct Hj2 as (_ & [Hj2|Hj2] & _); [discriminate Hj2|]. rewrite Hc in Hj2. discriminate Hj2.
    + rewrite <- E in H. destruct (run_values e s None (it_origin i0) att val nolink d He Hr Hb Hbp H) as (_ & _ & _ & R).
      rewrite E in R. exact R.
Qed.

(** If all that is found belongs to one file, the file may be left out. *)
Lemma filter_same : forall (A : Type) (p q : A -> bool) l, (forall x, In x l -> p x = q x) -> filter p l = filter q l.
Proof.
  intros A p q l H. induction l as [|x l IH]; [reflexivity|]. simpl. rewrite (H x) by now left.
  rewrite IH by (intros y Hy; apply H; now right). reflexivity.
Qed.
Lemma same_query : forall e s f c a v nolink,
  (forall i, In i (st_list s) -> selected s (MkQuery None (AOne c) a v nolink) i -> it_origin i = f) ->
  get_items_for e s (MkQuery None (AOne c) a v nolink) = get_items_for e s (MkQuery (Some f) (AOne c) a v nolink).
Proof.
  intros e s f c a v nolink H. unfold get_items_for. rewrite !reduce_eq. f_equal. f_equal. apply filter_same.
  intros i Hi. destruct (sel (st_map s) (MkQuery None (AOne c) a v nolink) i) eqn:E.
  - symmetry. apply sel_iff in E. apply sel_iff. specialize (H i Hi E). destruct E as (_ & E2 & E3).
    split; [|split; assumption]. right. now left.
  - symmetry. apply Bool.not_true_iff_false. intro E'. apply Bool.not_true_iff_false in E. apply E.
    apply sel_iff in E'. apply sel_iff. destruct E' as (_ & E2 & E3). split; [exact I|]. now split.
Qed.
Lemma C119_one_lemma : forall e s f att val nolink, env_ok e -> reach e s ->
  (forall i, In i (st_list s) -> selected s (MkQuery None (AOne "Variable") att val nolink) i \/ classifier i = "Unset" ->
     it_origin i = f) ->
  (exists i, In i (st_list s) /\ (selected s (MkQuery None (AOne "Variable") att val nolink) i \/ classifier i = "Unset")) ->
  expand_var e s None att val nolink = expand_var e s (Some f) att val nolink.
Proof.
  intros e s f att val nolink He Hr Ho (i & Hi & Hs).
  assert (Hun : forall i, selected s (unset_query_of None) i <-> classifier i = "Unset").
  { intro j. split; [intros (_ & [D|D] & _); [discriminate D|exact D]|]. intro D. split; [exact I|]. split; [now right|exact I]. }
  assert (E : expand_var_items e s None att val nolink = expand_var_items e s (Some f) att val nolink).
  { unfold expand_var_items. rewrite (same_query e s f "Variable"); [rewrite (same_query e s f "Unset"); [reflexivity|]|].
    - intros j Hj Hs2. apply Ho; [exact Hj|]. right. now apply Hun.
    - intros j Hj Hs2. apply Ho; [exact Hj|]. now left. }
  rewrite expand_none. unfold expand_var. rewrite <- E.
  destruct (expand_var_items e s None att val nolink) as [|i0 r] eqn:El.
  - exfalso. destruct (items_sorted_of e s None att val nolink He Hr) as [L1 _]. rewrite El in L1.
    apply (proj2 (L1 i)). split; [exact Hi|]. destruct Hs as [Hs|Hs]; [now left|]. right. now apply Hun.
  - destruct (head_of_items e s att val nolink i0 r He Hr El) as (H1 & H2 & _).
    rewrite (Ho i0 H1); [reflexivity|]. destruct H2 as [H2|H2]; [now left|]. right. now apply Hun.
Qed.
