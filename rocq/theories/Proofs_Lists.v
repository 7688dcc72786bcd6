(** * Proofs for C124 *)

From Verif Require Import PyStr Res Item Stash StrFacts Proofs_Values Lists ReachFacts Spec_Query Proofs_Query Spec_Lists.
From Coq Require Import Sorted.

(** What an object holds. *)
Definition shows_all (s : stash) (qs : list query) (l : list item) : Prop :=
  (forall i, In i l <-> In i (st_list s) /\ forall q, In q qs -> selected s q i) /\
  NoDup (map it_id l) /\ StronglySorted by_line l.
Definition agree (s : stash) (h : lists) (p : passes) : Prop :=
  forall o, match h o, p o with Some l, Some qs => shows_all s qs l | None, None => True | _, _ => False end.

Lemma reduce_all : forall e s qs l q, env_ok e -> reach e s -> shows_all s qs l -> shows_all s (q :: qs) (reduce_ e s l q).
Proof.
  intros e s qs l q He Hr [H1 _]. destruct (reach_ids _ _ Hr) as [Hids _].
  destruct (C28_reduce_lemma e s l q He) as [R1 R2].
  { intros i j Hi Hj. apply Hids; [apply H1 in Hi|apply H1 in Hj]; tauto. }
  split; [|exact R2]. intro i. rewrite R1, H1. split.
  - intros [[Hi Hq] Hs]. split; [exact Hi|]. intros q' [<-|Hq']; [exact Hs|now apply Hq].
  - intros [Hi Hq]. split; [split; [exact Hi|]|apply Hq; now left]. intros q' Hq'. apply Hq. now right.
Qed.

Lemma step_agree : forall e s c h p, env_ok e -> reach e s -> agree s h p -> agree s (list_step e s c h) (pass_one c p).
Proof.
  intros e s c h p He Hr Ha x. destruct c as [o q|o q|o o' q]; cbn [list_step pass_one]; unfold put_list.
  - destruct (Nat.eqb x o); [|apply Ha]. destruct (C28_lemma e s q He Hr) as [R1 R2]. split; [|exact R2].
    intro i. rewrite R1. split; intros [Hi Hq]; (split; [exact Hi|]); [intros q' [<-|[]]; exact Hq|apply Hq; now left].
  - pose proof (Ha o) as Ho. destruct (h o) as [l|] eqn:E; destruct (p o) as [qs|] eqn:E2; try contradiction.
    + destruct (Nat.eqb x o); [now apply reduce_all|apply Ha].
    + destruct (Nat.eqb x o) eqn:E3; [|apply Ha]. apply Nat.eqb_eq in E3. subst x. now rewrite E.
  - pose proof (Ha o) as Ho. destruct (h o) as [l|] eqn:E; destruct (p o) as [qs|] eqn:E2; try contradiction.
    + destruct (Nat.eqb x o'); [now apply reduce_all|apply Ha].
    + destruct (Nat.eqb x o'); apply Ha.
Qed.

Lemma C124_lemma : forall e s cs o, env_ok e -> reach e s ->
  match list_steps e s cs (fun _ => None) o, passed cs o with
  | Some l, Some qs => (forall i, In i l <-> In i (st_list s) /\ forall q, In q qs -> selected s q i) /\
                       NoDup (map it_id l) /\ StronglySorted by_line l
  | None, None => True
  | _, _ => False
  end.
Proof.
  intros e s cs o He Hr. unfold list_steps, passed. generalize o. clear o.
  assert (H : forall h p, agree s h p ->
    agree s (fold_left (fun h c => list_step e s c h) cs h) (fold_left (fun p c => pass_one c p) cs p)).
  { induction cs as [|c cs IH]; intros h p Ha; [exact Ha|]. cbn [fold_left]. apply IH. now apply step_agree. }
  apply H. intro o. exact I.
Qed.

(** ** C125 *)

Definition narrowed (e : env) (s : stash) (ns : list str) (a v : str) : list item :=
  reduce_ e s (get_items_for e s (by_name ns)) (by_value a v).

Lemma narrowed_In : forall e s ns a v i, env_ok e -> reach e s -> ns <> [] -> a <> [] ->
  (In i (narrowed e s ns a v) <-> In i (st_list s) /\ (exists n, In n ns /\ dget "VarName" (attributes i) = Some (VStr n)) /\
     dget a (attributes i) = Some (VStr v)).
Proof.
  intros e s ns a v i He Hr Hns Ha. unfold narrowed.
  destruct (C30_lemma e s (by_name ns) (by_value a v) He Hr) as [H _]. rewrite H.
  assert (S : forall w u, same_value (VStr w) u <-> u = VStr w).
  { intros w u. split.
    - intros [[t [E1 E2]]|[z [E1 _]]]; [|discriminate E1]. injection E1 as ->. exact E2.
    - intros ->. left. now exists w. }
  assert (H1 : selected s (by_name ns) i <-> exists n, In n ns /\ dget "VarName" (attributes i) = Some (VStr n)).
  { split.
    - intros [_ [_ [E|[u [E V]]]]]; [discriminate E|]. cbn in V. destruct V as [V|[w [Hw V]]].
      + destruct ns; [now destruct Hns|discriminate V].
      + apply in_map_iff in Hw. destruct Hw as [n [<- Hn]]. apply S in V. subst u. now exists n.
    - intros [n [Hn E]]. split; [exact I|]. split; [exact I|]. right. exists (VStr n). split; [exact E|].
      right. exists (VStr n). split; [now apply in_map|]. now apply S. }
  assert (H2 : selected s (by_value a v) i <-> dget a (attributes i) = Some (VStr v)).
  { split.
    - intros [_ [_ [E|[u [E V]]]]]; [now destruct Ha|]. cbn in V. destruct V as [V|[w [[<-|[]] V]]]; [discriminate V|].
      apply S in V. now subst u.
    - intro E. split; [exact I|]. split; [exact I|]. right. exists (VStr v). split; [exact E|].
      right. exists (VStr v). split; [now left|]. now apply S. }
  tauto.
Qed.

Lemma stripped_attr : forall i w, dget "VarValue" (attributes i) = Some (VStr w) ->
  dget "VarValueStripped" (attributes i) = Some (VStr (var_value_stripped w)).
Proof.
  intros i w. unfold attributes, base_attributes. destruct (it_pay i); intro H; try discriminate H.
  change (Some (VStr value) = Some (VStr w)) in H. injection H as <-. reflexivity.
Qed.
Lemma attr_stripped : forall i v, dget "VarValueStripped" (attributes i) = Some (VStr v) ->
  exists w, dget "VarValue" (attributes i) = Some (VStr w) /\ v = var_value_stripped w.
Proof.
  intros i v. unfold attributes, base_attributes. destruct (it_pay i); intro H; try discriminate H.
  exists value. change (Some (VStr (var_value_stripped value)) = Some (VStr v)) in H. injection H as <-. now split.
Qed.
Lemma stripped_around : forall w, exists a b, w = a ++ var_value_stripped w ++ b /\
  (forall c, In c a -> around c) /\ (forall c, In c b -> around c).
Proof.
  intro w. unfold var_value_stripped, rstrip, lstrip, strip_ws, strip_p.
  destruct (lstrip_p_spec py_space w) as [a1 [E1 [A1 _]]]. set (w1 := lstrip_p py_space w) in *.
  destruct (rstrip_p_spec py_space w1) as [b1 [E2 [B1 _]]]. set (w2 := rstrip_p py_space w1) in *.
  destruct (lstrip_p_spec (in_chars [cDQ]) w2) as [a2 [E3 [A2 _]]]. set (w3 := lstrip_p (in_chars [cDQ]) w2) in *.
  destruct (rstrip_p_spec (in_chars [cDQ]) w3) as [b2 [E4 [B2 _]]]. set (w4 := rstrip_p (in_chars [cDQ]) w3) in *.
  exists (a1 ++ a2), (b2 ++ b1). rewrite forallb_forall in A1, A2, B1, B2.
  assert (Q : forall c, in_chars [cDQ] c = true -> around c).
  { intros c Hc. left. unfold in_chars in Hc. cbn [existsb] in Hc. rewrite orb_false_r in Hc. now apply N.eqb_eq in Hc. }
  split; [|split; intros c Hc; apply in_app_or in Hc].
  - rewrite E1, E2, E3, E4 at 1. now rewrite <- !app_assoc.
  - destruct Hc as [Hc|Hc]; [right; now apply A1|now apply Q, A2].
  - destruct Hc as [Hc|Hc]; [now apply Q, B2|right; now apply B1].
Qed.

Lemma C125_lemma : forall e s ns v, env_ok e -> reach e s -> ns <> [] -> ~ In 34%N v ->
  (forall i, In i (st_list s) -> assigns ns (in_double v) i -> In i (narrowed e s ns "VarValueStripped" v)) /\
  (forall i, In i (narrowed e s ns "VarValueStripped" v) ->
     In i (st_list s) /\ exists a b, assigns ns (a ++ v ++ b) i /\
       (forall c, In c a -> around c) /\ (forall c, In c b -> around c)) /\
  (forall i, In i (narrowed e s ns "VarValue" v) -> In i (st_list s) /\ assigns ns v i).
Proof.
  intros e s ns v He Hr Hns Hv. split; [|split].
  - intros i Hi [n [Hn [E1 E2]]]. apply narrowed_In; [exact He|exact Hr|exact Hns|discriminate|].
    split; [exact Hi|]. split; [now exists n|]. apply stripped_attr in E2. rewrite E2. do 2 f_equal.
    apply quoted_stripped. exact Hv.
  - intros i Hi. apply narrowed_In in Hi; [|exact He|exact Hr|exact Hns|discriminate].
    destruct Hi as [Hi [[n [Hn E1]] E2]]. split; [exact Hi|]. apply attr_stripped in E2. destruct E2 as [w [E2 ->]].
    destruct (stripped_around w) as [a [b [E3 [A B]]]]. exists a, b. split; [|now split].
    exists n. split; [exact Hn|]. split; [exact E1|]. now rewrite <- E3.
  - intros i Hi. apply narrowed_In in Hi; [|exact He|exact Hr|exact Hns|discriminate].
    destruct Hi as [Hi [[n [Hn E1]] E2]]. split; [exact Hi|]. now exists n.
Qed.

Lemma not_narrowed : forall e s ns v w, env_ok e -> reach e s -> ns <> [] -> var_value_stripped w <> v ->
  ~ exists i, In i (reduce_ e s (get_items_for e s (by_name ns)) (by_value "VarValueStripped" v)) /\ assigns ns w i.
Proof.
  intros e s ns v w He Hr Hns Hw [i [Hi [n [_ [_ E]]]]].
  apply (narrowed_In e s ns "VarValueStripped" v i) in Hi; [|exact He|exact Hr|exact Hns|discriminate].
  destruct Hi as [_ [_ E2]]. apply stripped_attr in E. congruence.
Qed.
