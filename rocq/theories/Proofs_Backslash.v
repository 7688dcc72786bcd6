(** * Proofs about backslashes in values *)

From Verif Require Import PyStr Regex Patterns PyPath Res Inline Const Item Lines Stash StrFacts Spec_Parse Proofs_Parse Spec_Backslash.

Definition esc (c : N) : N := if N.eqb c cBSL then cESC else c.

Lemma disguised_map : forall s t, disguised s t <-> t = map esc s.
Proof.
  split.
  - intro H. induction H as [|s t H IH|c s t Hc H IH]; cbn [map].
    + reflexivity.
    + rewrite IH. reflexivity.
    + rewrite IH. unfold esc at 2. destruct (N.eqb c cBSL) eqn:E; [|reflexivity]. apply N.eqb_eq in E. now destruct Hc.
  - intros ->. induction s as [|c s IH]; cbn [map]; [constructor|]. unfold esc at 1. destruct (N.eqb c cBSL) eqn:E.
    + apply N.eqb_eq in E. subst c. exact (disguised_bsl _ _ IH).
    + apply N.eqb_neq in E. now constructor.
Qed.

Lemma esc_same : forall s, ~ In cBSL s -> map esc s = s.
Proof.
  induction s as [|c s IH]; intro H; [reflexivity|]. cbn [map]. rewrite IH by (intro Hs; apply H; now right).
  unfold esc. destruct (N.eqb c cBSL) eqn:E; [|reflexivity]. apply N.eqb_eq in E. subst c. destruct H. now left.
Qed.

Lemma blank_no_bsl : forall w, blank w -> ~ In cBSL w.
Proof. intros w H Hi. apply H in Hi. discriminate. Qed.

Lemma assignment_esc : forall name op value text, assignment name op value text -> assignment name op (map esc value) (map esc text).
Proof.
  intros name op value text [-> [[Hn1 Hn2] [w1 [Hop Hw]]]].
  assert (Hname : ~ In cBSL name).
  { intro H. apply Hn2 in H. unfold name_char, letter, digit, between in H. destruct H as [H|[H|H]].
    - unfold cBSL in H. lia.
    - unfold cBSL in H. lia.
    - vm_compute in H. intuition discriminate. }
  destruct Hop as [core [w2 [-> [H1 [H2 [H3 [H4 H5]]]]]]].
  assert (Hcore : ~ In cBSL core).
  { cbn [operators In] in H3. repeat (destruct H3 as [<-|H3]; [vm_compute; intuition discriminate|]). destruct H3. }
  split.
  { rewrite !map_app, (esc_same name Hname), (esc_same core Hcore), (esc_same w1 (blank_no_bsl w1 H1)), (esc_same w2 (blank_no_bsl w2 H2)).
    reflexivity. }
  split; [now split|]. exists w1. split; [|exact Hw]. exists core, w2.
  do 4 (split; [assumption || reflexivity|]). split.
  - intros c t E. destruct value as [|d v]; [discriminate|]. cbn [map] in E. inversion E as [[E1 E2]].
    unfold esc at 1. destruct (N.eqb d cBSL); [reflexivity|]. exact (H4 d v eq_refl).
  - intros Hw2 t. destruct (H5 Hw2 []) as [_ _]. split; intro E.
    + destruct value as [|d v]; [discriminate|]. cbn [map List.app] in E. inversion E as [[E1 E2]].
      unfold esc in E1. destruct (N.eqb d cBSL); [discriminate|]. subst d. exact (proj1 (H5 Hw2 v) eq_refl).
    + destruct value as [|d v]; [discriminate|]. cbn [map List.app] in E. inversion E as [[E1 E2]].
      unfold esc in E1. destruct (N.eqb d cBSL); [discriminate|]. subst d. exact (proj2 (H5 Hw2 v) eq_refl).
Qed.

Lemma filter_line : forall s, ~ In cNL s -> filter (fun c => negb (N.eqb c cNL)) s = s.
Proof.
  induction s as [|c s IH]; intro H; [reflexivity|]. cbn [filter]. rewrite IH by (intro Hs; apply H; now right).
  destruct (N.eqb c cNL) eqn:E; [|reflexivity]. apply N.eqb_eq in E. subst c. destruct H. now left.
Qed.

Lemma one_line_text : forall i text, (it_raw i = text \/ it_raw i = text ++ [10%N]) -> ~ In 10%N text -> one_line i = map esc text.
Proof.
  intros i text Hr Hn. unfold one_line. pose proof (filter_line text Hn) as Hf.
  destruct Hr as [->| ->]; [now rewrite Hf|]. rewrite filter_app, Hf. cbn [filter]. change (N.eqb 10 cNL) with true. cbn [negb].
  now rewrite app_nil_r.
Qed.

Lemma C127_lemma : forall e i name op value, parsed_item e i -> assigned_on_a_line name op value i -> ~ statement_word name ->
  exists vn sub subs shown, disguised value shown /\ it_pay i = PVariable vn sub subs shown op vn.
Proof.
  intros e i name op value Hi [text [Hr [Hn Ha]]] Hs.
  pose proof (assignment_esc name op value text Ha) as He. rewrite <- (one_line_text i text Hr Hn) in He.
  destruct (C10_lemma e i name op (map esc value) Hi He Hs) as [[vn [sub [subs E]]] _].
  exists vn, sub, subs, (map esc value). split; [now apply disguised_map|exact E].
Qed.

Lemma C127_kept_lemma : forall e i name op value, parsed_item e i -> assigned_on_a_line name op value i -> ~ statement_word name ->
  ((exists vn sub subs, it_pay i = PVariable vn sub subs value op vn) <-> ~ In 92%N value).
Proof.
  intros e i name op value Hi Ha Hs. destruct (C127_lemma e i name op value Hi Ha Hs) as [vn [sub [subs [sh [Hd E]]]]].
  apply disguised_map in Hd. split.
  - intros [vn' [sub' [subs' E']]] Hin. rewrite E in E'. inversion E' as [[E1 E2 E3 E4]]. rewrite <- E4, Hd in Hin.
    apply in_map_iff in Hin. destruct Hin as [c [Hc _]]. unfold esc in Hc. destruct (N.eqb c cBSL) eqn:Ec; [discriminate|].
    apply N.eqb_neq in Ec. now apply Ec.
  - intro H. exists vn, sub, subs. rewrite E, Hd. now rewrite esc_same.
Qed.
