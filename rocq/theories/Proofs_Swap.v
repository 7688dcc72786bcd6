(** * Changes of the constants in any order: proofs *)

From Coq Require Import Permutation.
From Verif Require Import PyStr Res Const StrFacts Spec_Const ConstFacts Proofs_Const Spec_Swap.

Lemma add_lists : forall db b db' p old l, add_constants db b = (db', None) -> keys_once b -> lists db p old -> gives b p l ->
  lists db' p (old ++ l).
Proof.
  intros db b db' p old l H K L G. destruct (C54_lemma _ _ _ H K) as (_ & A & _ & _ & F). unfold lists in *.
  destruct G as [G|[G ->]]; [now apply A|]. rewrite app_nil_r. now rewrite F.
Qed.
Lemma keep_all : forall l : list str, filter (fun x => negb (mem_str x [])) l = l.
Proof. induction l as [|x l IH]; [reflexivity|]. cbn [filter mem_str existsb negb]. f_equal. exact IH. Qed.
Lemma remove_lists : forall db b db' p old l, remove_constants db b = (db', None) -> keys_once b -> lists db p old -> gives b p l ->
  lists db' p (filter (fun x => negb (mem_str x l)) old).
Proof.
  intros db b db' p old l H K L G. destruct (C55_lemma _ _ _ H K) as (A & _ & F). unfold lists in *.
  destruct G as [G|[G ->]]; [now apply A|]. rewrite F by exact G. rewrite L. now rewrite keep_all.
Qed.

Lemma adds_lists : forall db bs db' p old ls, calls add_constants db bs db' -> Forall keys_once bs ->
  lists db p old -> Forall2 (fun b l => gives b p l) bs ls -> lists db' p (old ++ concat ls).
Proof.
  intros db bs db' p old ls H. revert old ls. induction H as [db|db b db1 bs db2 H1 H2 IH]; intros old ls K L G.
  - inversion G; subst. cbn [concat]. now rewrite app_nil_r.
  - inversion G as [|? l ? ls' G1 G2]; subst. inversion K as [|? ? K1 K2]; subst. cbn [concat]. rewrite app_assoc.
    apply (IH (old ++ l) ls' K2); [|exact G2]. eapply add_lists; eassumption.
Qed.
Lemma removes_lists : forall db bs db' p old ls, calls remove_constants db bs db' -> Forall keys_once bs ->
  lists db p old -> Forall2 (fun b l => gives b p l) bs ls ->
  lists db' p (filter (fun x => negb (mem_str x (concat ls))) old).
Proof.
  intros db bs db' p old ls H. revert old ls. induction H as [db|db b db1 bs db2 H1 H2 IH]; intros old ls K L G.
  - inversion G; subst. cbn [concat]. now rewrite keep_all.
  - inversion G as [|? l ? ls' G1 G2]; subst. inversion K as [|? ? K1 K2]; subst. cbn [concat].
    pose proof (remove_lists _ _ _ _ _ _ H1 K1 L G1) as L1. pose proof (IH _ ls' K2 L1 G2) as R.
    replace (filter (fun x => negb (mem_str x (l ++ concat ls'))) old)
      with (filter (fun x => negb (mem_str x (concat ls'))) (filter (fun x => negb (mem_str x l)) old)); [exact R|].
    assert (M : forall x, mem_str x (l ++ concat ls') = mem_str x l || mem_str x (concat ls')) by
      (intro x; unfold mem_str; apply existsb_app).
    clear -M. induction old as [|x old IH]; [reflexivity|]. cbn [filter]. rewrite (M x).
    destruct (mem_str x l); cbn [negb orb filter]; [exact IH|].
    destruct (mem_str x (concat ls')); cbn [negb]; [exact IH|]. now rewrite IH.
Qed.

Lemma gives_perm : forall p bs bs' ls, Permutation bs bs' -> Forall2 (fun b l => gives b p l) bs ls ->
  exists ls', Forall2 (fun b l => gives b p l) bs' ls' /\ Permutation ls ls'.
Proof.
  intros p bs bs' ls P. revert ls. induction P as [|b bs bs' P IH|a b bs|x y z P1 IH1 P2 IH2]; intros ls G.
  - inversion G; subst. exists []. split; constructor.
  - inversion G as [|? l ? ls0 G1 G2]; subst. destruct (IH _ G2) as [ls' [A B]]. exists (l :: ls'). split; constructor; assumption.
  - inversion G as [|? l ? ls0 G1 G2]; subst. inversion G2 as [|? l' ? ls1 G3 G4]; subst.
    exists (l' :: l :: ls1). split; [constructor; [exact G3|constructor; [exact G1|exact G4]]|apply perm_swap].
  - destruct (IH1 _ G) as [l1 [A1 B1]]. destruct (IH2 _ A1) as [l2 [A2 B2]]. exists l2. split; [exact A2|]. now apply (Permutation_trans B1).
Qed.
Lemma concat_perm : forall l l' : list (list str), Permutation l l' -> Permutation (concat l) (concat l').
Proof.
  intros l l' P. induction P as [|x l l' P IH|x y l|a b c P1 IH1 P2 IH2]; cbn [concat].
  - constructor.
  - now apply Permutation_app_head.
  - rewrite !app_assoc. apply Permutation_app_tail, Permutation_app_comm.
  - now apply (Permutation_trans IH1).
Qed.
Lemma gives_all : forall p bs, Forall (fun b => exists l, gives b p l) bs -> exists ls, Forall2 (fun b l => gives b p l) bs ls.
Proof.
  intros p bs H. induction H as [|b bs [l Hl] H [ls IH]]; [now exists []|]. exists (l :: ls). now constructor.
Qed.

Lemma C138_add_lemma : forall db bs bs' db1 db2 p old, calls add_constants db bs db1 -> calls add_constants db bs' db2 ->
  Permutation bs bs' -> Forall keys_once bs -> lists db p old -> Forall (fun b => exists l, gives b p l) bs ->
  exists l1 l2, lists db1 p (old ++ l1) /\ lists db2 p (old ++ l2) /\ Permutation l1 l2.
Proof.
  intros db bs bs' db1 db2 p old H1 H2 P K L G. apply gives_all in G. destruct G as [ls G].
  destruct (gives_perm p bs bs' ls P G) as [ls' [G' Q]]. exists (concat ls), (concat ls').
  split; [eapply adds_lists; eassumption|]. split; [|now apply concat_perm].
  eapply adds_lists; try eassumption. now apply (Permutation_Forall P).
Qed.
Lemma C138_remove_lemma : forall db bs bs' db1 db2 p old, calls remove_constants db bs db1 -> calls remove_constants db bs' db2 ->
  Permutation bs bs' -> Forall keys_once bs -> lists db p old -> Forall (fun b => exists l, gives b p l) bs ->
  exists l, lists db1 p l /\ lists db2 p l.
Proof.
  intros db bs bs' db1 db2 p old H1 H2 P K L G. apply gives_all in G. destruct G as [ls G].
  destruct (gives_perm p bs bs' ls P G) as [ls' [G' Q]].
  exists (filter (fun x => negb (mem_str x (concat ls))) old).
  split; [eapply removes_lists; eassumption|].
  assert (R : lists db2 p (filter (fun x => negb (mem_str x (concat ls'))) old)).
  { eapply removes_lists; try eassumption. now apply (Permutation_Forall P). }
  replace (filter (fun x => negb (mem_str x (concat ls))) old) with (filter (fun x => negb (mem_str x (concat ls'))) old); [exact R|].
  apply filter_ext. intro x. f_equal. apply Bool.eq_true_iff_eq. rewrite !mem_str_In. apply concat_perm in Q.
  split; apply Permutation_in; [now apply Permutation_sym|exact Q].
Qed.

Lemma C138_mixed_lemma : forall db b b' db1 db12 db2 db21 p old l l', keys_once b -> keys_once b' ->
  add_constants db b = (db1, None) -> remove_constants db1 b' = (db12, None) ->
  remove_constants db b' = (db2, None) -> add_constants db2 b = (db21, None) ->
  lists db p old -> gives b p l -> gives b' p l' -> (forall x, In x l -> ~ In x l') ->
  exists r, lists db12 p r /\ lists db21 p r.
Proof.
  intros db b b' db1 db12 db2 db21 p old l l' K K' A1 R1 R2 A2 L G G' D.
  pose proof (add_lists _ _ _ _ _ _ A1 K L G) as L1. pose proof (remove_lists _ _ _ _ _ _ R1 K' L1 G') as L12.
  pose proof (remove_lists _ _ _ _ _ _ R2 K' L G') as L2. pose proof (add_lists _ _ _ _ _ _ A2 K L2 G) as L21.
  eexists. split; [exact L12|]. rewrite filter_app.
  replace (filter (fun x => negb (mem_str x l')) l) with l; [exact L21|]. clear -D.
  induction l as [|x l IH]; [reflexivity|]. cbn [filter].
  destruct (mem_str x l') eqn:E; [apply mem_str_In in E; exfalso; apply (D x); [now left|exact E]|].
  cbn [negb]. f_equal. apply IH. intros y Hy. apply D. now right.
Qed.
