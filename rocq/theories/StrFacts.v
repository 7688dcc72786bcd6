(** * Facts about strings and dictionaries *)

From Verif Require Import PyStr Res.
From Coq Require Import Permutation Sorted.

(** ** Equality *)

Lemma str_eqb_refl : forall a, str_eqb a a = true.
Proof. induction a as [|x a IH]; simpl; [reflexivity|]. now rewrite N.eqb_refl, IH. Qed.

Lemma str_eqb_eq : forall a b, str_eqb a b = true <-> a = b.
Proof.
  induction a as [|x a IH]; destruct b as [|y b]; simpl; split; intro H;
    try reflexivity; try discriminate.
  - apply andb_prop in H. destruct H as [H1 H2].
    apply N.eqb_eq in H1. apply IH in H2. congruence.
  - inversion H; subst. now rewrite N.eqb_refl, str_eqb_refl.
Qed.

Lemma str_eqb_neq : forall a b, str_eqb a b = false <-> a <> b.
Proof.
  intros a b. destruct (str_eqb a b) eqn:E.
  - apply str_eqb_eq in E. split; congruence.
  - split; [|reflexivity]. intros _ H. apply str_eqb_eq in H. congruence.
Qed.

Lemma str_eqb_sym : forall a b, str_eqb a b = str_eqb b a.
Proof.
  intros a b. destruct (str_eqb a b) eqn:E.
  - apply str_eqb_eq in E. subst. now rewrite str_eqb_refl.
  - apply str_eqb_neq in E. symmetry. apply str_eqb_neq. congruence.
Qed.

Lemma str_eq_dec : forall a b : str, {a = b} + {a <> b}.
Proof.
  intros a b. destruct (str_eqb a b) eqn:E.
  - left. now apply str_eqb_eq.
  - right. now apply str_eqb_neq.
Qed.

Lemma mem_str_In : forall x l, mem_str x l = true <-> In x l.
Proof.
  intros x l. unfold mem_str. rewrite existsb_exists. split.
  - intros [y [H1 H2]]. apply str_eqb_eq in H2. now subst.
  - intro H. exists x. split; [assumption|apply str_eqb_refl].
Qed.

Lemma mem_str_not_In : forall x l, mem_str x l = false <-> ~ In x l.
Proof.
  intros x l. destruct (mem_str x l) eqn:E.
  - apply mem_str_In in E. split; [discriminate|tauto].
  - split; [|reflexivity]. intros _ H. apply mem_str_In in H. congruence.
Qed.

(** ** startswith, endswith *)

Lemma startswith_app : forall p s, startswith p (p ++ s) = true.
Proof. induction p as [|x p IH]; intro s; simpl; [reflexivity|]. now rewrite N.eqb_refl, IH. Qed.

Lemma startswith_spec : forall p s, startswith p s = true <-> exists t, s = p ++ t.
Proof.
  induction p as [|x p IH]; intro s; simpl.
  - split; [|reflexivity]. intros _. now exists s.
  - destruct s as [|y s]; split; intro H.
    + discriminate.
    + destruct H as [t H]. discriminate.
    + apply andb_prop in H. destruct H as [H1 H2]. apply N.eqb_eq in H1.
      apply IH in H2. destruct H2 as [t H2]. exists t. now subst.
    + destruct H as [t H]. inversion H; subst. rewrite N.eqb_refl. apply startswith_app.
Qed.

Lemma startswith_skipn : forall p s, startswith p s = true -> s = p ++ skipn (length p) s.
Proof.
  intros p s H. apply startswith_spec in H. destruct H as [t ->].
  rewrite skipn_app, skipn_all, Nat.sub_diag. reflexivity.
Qed.

Lemma endswith_spec : forall p s, endswith p s = true <-> exists t, s = t ++ p.
Proof.
  intros p s. unfold endswith. rewrite startswith_spec. split; intros [t H].
  - exists (rev t). rewrite <- (rev_involutive s), H, rev_app_distr, rev_involutive. reflexivity.
  - exists (rev t). now rewrite H, rev_app_distr.
Qed.

Lemma endswith_app : forall p s, endswith p (s ++ p) = true.
Proof. intros. apply endswith_spec. now exists s. Qed.

(** ** find *)

Lemma find_str_some : forall p s a b, find_str p s = Some (a, b) -> s = a ++ p ++ b.
Proof.
  induction s as [|c s IH]; intros a b H; simpl in H.
  - destruct (startswith p []) eqn:E; [|discriminate].
    inversion H; subst. apply startswith_skipn in E. exact E.
  - destruct (startswith p (c :: s)) eqn:E.
    + inversion H; subst. now apply startswith_skipn in E.
    + destruct (find_str p s) as [[a' b']|] eqn:F; [|discriminate].
      inversion H; subst. simpl. f_equal. now apply IH.
Qed.

Lemma find_str_none : forall p s, find_str p s = None -> forall a b, s <> a ++ p ++ b.
Proof.
  induction s as [|c s IH]; intros H a b Heq; simpl in H.
  - destruct (startswith p []) eqn:E; [discriminate|].
    destruct a; [|discriminate]. destruct p; [discriminate|discriminate].
  - destruct (startswith p (c :: s)) eqn:E; [discriminate|].
    destruct (find_str p s) as [[a' b']|] eqn:F; [discriminate|].
    destruct a as [|d a]; simpl in Heq.
    + rewrite Heq, startswith_app in E. discriminate.
    + inversion Heq; subst. now apply (IH eq_refl a b).
Qed.

Lemma contains_spec : forall p s, contains p s = true <-> exists a b, s = a ++ p ++ b.
Proof.
  intros p s. unfold contains. destruct (find_str p s) as [[a b]|] eqn:E.
  - split; [|reflexivity]. intros _. exists a, b. now apply find_str_some.
  - split; [discriminate|]. intros [a [b H]]. exfalso. now apply (find_str_none _ _ E a b).
Qed.

Lemma contains_false : forall p s, contains p s = false <-> forall a b, s <> a ++ p ++ b.
Proof.
  intros p s. split; intro H.
  - intros a b Heq. enough (contains p s = true) by congruence. apply contains_spec. now exists a, b.
  - destruct (contains p s) eqn:E; [|reflexivity]. apply contains_spec in E.
    destruct E as [a [b E]]. now apply H in E.
Qed.

(** The first occurrence: no earlier one. *)
Lemma find_str_first : forall p s a b, find_str p s = Some (a, b) ->
  forall a' b', s = a' ++ p ++ b' -> length a <= length a'.
Proof.
  induction s as [|c s IH]; intros a b H a' b' Heq; simpl in H.
  - destruct (startswith p []); [|discriminate]. inversion H; subst. simpl. lia.
  - destruct (startswith p (c :: s)) eqn:E.
    + inversion H; subst. simpl. lia.
    + destruct (find_str p s) as [[a1 b1]|] eqn:F; [|discriminate].
      inversion H; subst. destruct a' as [|d a']; simpl in Heq.
      * rewrite Heq, startswith_app in E. discriminate.
      * inversion Heq; subst. simpl. specialize (IH _ _ eq_refl a' b' eq_refl). lia.
Qed.

(** ** Filters and characters *)

Lemma in_chars_In : forall cs c, in_chars cs c = true <-> In c cs.
Proof.
  intros cs c. unfold in_chars. rewrite existsb_exists. split.
  - intros [x [H1 H2]]. apply N.eqb_eq in H2. now subst.
  - intro H. exists c. split; [assumption|apply N.eqb_refl].
Qed.

Lemma count_char_app : forall c a b, count_char c (a ++ b) = count_char c a + count_char c b.
Proof. induction a as [|x a IH]; intro b; simpl; [reflexivity|]. rewrite IH. lia. Qed.

Lemma count_char_0 : forall c s, count_char c s = 0 <-> ~ In c s.
Proof.
  induction s as [|x s IH]; simpl; [tauto|].
  destruct (N.eqb_spec x c) as [->|Hn]; split; intro H.
  - discriminate.
  - exfalso. apply H. now left.
  - intros [->|H2]; [tauto|]. now apply IH in H2.
  - simpl. apply IH. tauto.
Qed.

(** ** Concatenation *)

Lemma concat_app_one : forall (A : Type) (l : list (list A)) x, concat (l ++ [x]) = concat l ++ x.
Proof. intros. rewrite concat_app. simpl. now rewrite app_nil_r. Qed.

(** ** readlines *)

Lemma readlines_concat : forall s, concat (readlines s) = s.
Proof.
  induction s as [|c s IH]; simpl; [reflexivity|].
  destruct (N.eqb c cNL) eqn:E; simpl; [now rewrite IH|].
  destruct (readlines s) as [|h t]; simpl in *; now rewrite IH.
Qed.

Lemma readlines_nonempty : forall s l, In l (readlines s) -> l <> [].
Proof.
  induction s as [|c s IH]; intros l H; simpl in H; [contradiction|].
  destruct (N.eqb c cNL) eqn:E; simpl in H.
  - destruct H as [<-|H]; [discriminate|]. now apply IH.
  - destruct (readlines s) as [|h t]; simpl in *.
    + destruct H as [<-|[]]. discriminate.
    + destruct H as [<-|H]; [discriminate|]. apply IH. now right.
Qed.

(** Shape of a list of lines: all but the last end in their only newline. *)
Definition full_line (l : str) : Prop := exists t, l = t ++ [cNL] /\ ~ In cNL t.
Inductive lines_ok : list str -> Prop :=
| lines_nil : lines_ok []
| lines_last : forall l, l <> [] -> ~ In cNL l -> lines_ok [l]
| lines_cons : forall l r, full_line l -> lines_ok r -> lines_ok (l :: r).

Lemma readlines_ok : forall s, lines_ok (readlines s).
Proof.
  induction s as [|c s IH]; simpl; [constructor|].
  destruct (N.eqb_spec c cNL) as [->|Hn].
  - apply lines_cons; [|assumption]. exists []. split; [reflexivity|tauto].
  - inversion IH as [H|l Hl Hi H|l r Hf Hr H]; subst.
    + apply lines_last; [discriminate|]. intros [H'|[]]. congruence.
    + apply lines_last; [discriminate|]. intros [H'|H']; [congruence|contradiction].
    + apply lines_cons; [|assumption]. destruct Hf as [t [-> Ht]].
      exists (c :: t). split; [reflexivity|]. intros [H'|H']; [congruence|contradiction].
Qed.

(** ** split and join *)

Lemma split_char_nonnil : forall c s, split_char c s <> [].
Proof.
  intros c s. destruct s as [|x s]; simpl; [discriminate|].
  destruct (N.eqb x c); [discriminate|]. destruct (split_char c s); discriminate.
Qed.

Lemma split_char_join : forall c s, join [c] (split_char c s) = s.
Proof.
  induction s as [|x s IH]; simpl; [reflexivity|].
  pose proof (split_char_nonnil c s) as Hn.
  destruct (N.eqb_spec x c) as [->|Hx].
  - destruct (split_char c s) as [|h t]; [congruence|]. simpl. simpl in IH. now rewrite IH.
  - destruct (split_char c s) as [|h t]; [congruence|].
    destruct t as [|h2 t]; simpl in *; now rewrite IH.
Qed.

Lemma split_char_no_sep : forall c s p, In p (split_char c s) -> ~ In c p.
Proof.
  induction s as [|x s IH]; intros p H; simpl in H.
  - destruct H as [<-|[]]. tauto.
  - destruct (N.eqb_spec x c) as [->|Hx].
    + destruct H as [<-|H]; [tauto|]. now apply IH.
    + destruct (split_char c s) as [|h t]; simpl in *.
      * destruct H as [<-|[]]. intros [H|[]]; congruence.
      * destruct H as [<-|H].
        -- intros [H|H]; [congruence|]. apply (IH h); auto.
        -- apply IH. now right.
Qed.

Lemma split_char_app : forall c a b, ~ In c a ->
  split_char c (a ++ c :: b) = a :: split_char c b.
Proof.
  induction a as [|x a IH]; intros b H; simpl.
  - now rewrite N.eqb_refl.
  - destruct (N.eqb_spec x c) as [->|Hx]; [exfalso; apply H; now left|].
    rewrite IH; [reflexivity|]. intro H'. apply H. now right.
Qed.

Lemma split_char_none : forall c a, ~ In c a -> split_char c a = [a].
Proof.
  induction a as [|x a IH]; intros H; simpl; [reflexivity|].
  destruct (N.eqb_spec x c) as [->|Hx]; [exfalso; apply H; now left|].
  rewrite IH; [reflexivity|]. intro H'. apply H. now right.
Qed.

Lemma split_char_join_parts : forall c l, l <> [] -> (forall p, In p l -> ~ In c p) ->
  split_char c (join [c] l) = l.
Proof.
  induction l as [|x l IH]; intros Hn H; [congruence|].
  destruct l as [|y l].
  - simpl. apply split_char_none. apply H. now left.
  - change (join [c] (x :: y :: l)) with (x ++ c :: join [c] (y :: l)).
    rewrite split_char_app; [|apply H; now left]. f_equal. apply IH; [discriminate|].
    intros p Hp. apply H. now right.
Qed.

(** ** strip *)

Lemma lstrip_p_spec : forall p s, exists a, s = a ++ lstrip_p p s /\ forallb p a = true
  /\ match lstrip_p p s with [] => True | c :: _ => p c = false end.
Proof.
  induction s as [|c s IH]; simpl.
  - exists []. auto.
  - destruct (p c) eqn:E.
    + destruct IH as [a [H1 [H2 H3]]]. exists (c :: a). simpl. rewrite E, H2, <- H1. auto.
    + exists []. simpl. auto.
Qed.

Lemma forallb_rev : forall (A : Type) (p : A -> bool) l, forallb p (rev l) = forallb p l.
Proof.
  induction l as [|x l IH]; simpl; [reflexivity|].
  rewrite forallb_app, IH. simpl. rewrite andb_true_r. apply andb_comm.
Qed.

Lemma rstrip_p_spec : forall p s, exists b, s = rstrip_p p s ++ b /\ forallb p b = true
  /\ match rev (rstrip_p p s) with [] => True | c :: _ => p c = false end.
Proof.
  intros p s. unfold rstrip_p. destruct (lstrip_p_spec p (rev s)) as [a [H1 [H2 H3]]].
  exists (rev a). rewrite <- rev_app_distr, <- H1, rev_involutive, forallb_rev, rev_involutive.
  auto.
Qed.

Lemma lstrip_p_id : forall p s, match s with [] => True | c :: _ => p c = false end -> lstrip_p p s = s.
Proof. intros p [|c s] H; simpl; [reflexivity|]. now rewrite H. Qed.

Lemma lstrip_p_app : forall p a s, forallb p a = true -> lstrip_p p (a ++ s) = lstrip_p p s.
Proof.
  induction a as [|c a IH]; intros s H; simpl in *; [reflexivity|].
  apply andb_prop in H. destruct H as [H1 H2]. rewrite H1. now apply IH.
Qed.

Lemma rstrip_p_app : forall p s b, forallb p b = true -> rstrip_p p (s ++ b) = rstrip_p p s.
Proof.
  intros p s b H. unfold rstrip_p. rewrite rev_app_distr, lstrip_p_app; [reflexivity|].
  now rewrite forallb_rev.
Qed.

Lemma rstrip_p_id : forall p s c, p c = false -> rstrip_p p (s ++ [c]) = s ++ [c].
Proof.
  intros p s c H. unfold rstrip_p. rewrite rev_app_distr. simpl. rewrite H.
  change (c :: rev s) with ([c] ++ rev s). rewrite rev_app_distr, rev_involutive. reflexivity.
Qed.

Lemma join_last : forall c (l : list str) (k : str), k <> [] -> exists a x, join [c] (l ++ [k]) = a ++ [x] /\ In x k.
Proof.
  intros c l k Hk. induction l as [|y l IH].
  - destruct (exists_last Hk) as [k0 [x ->]]. exists k0, x. split; [reflexivity|]. apply in_or_app. right. now left.
  - destruct IH as [a [z [E Hz]]]. exists (y ++ [c] ++ a), z. split; [|exact Hz].
    change ((y :: l) ++ [k]) with (y :: (l ++ [k])).
    destruct (l ++ [k]) as [|y1 l1] eqn:Hn; [destruct l; discriminate Hn|].
    change (join [c] (y :: y1 :: l1)) with (y ++ [c] ++ join [c] (y1 :: l1)). rewrite E, !app_assoc. reflexivity.
Qed.

Lemma join_snoc : forall (sep : list N) (l : list str) (k : str), l <> [] -> join sep (l ++ [k]) = join sep l ++ sep ++ k.
Proof.
  intros sep l k. induction l as [|y l IH]; intro H; [congruence|]. destruct l as [|z l].
  - reflexivity.
  - change (join sep ((y :: z :: l) ++ [k])) with (y ++ sep ++ join sep ((z :: l) ++ [k])).
    rewrite IH by discriminate. change (join sep (y :: z :: l)) with (y ++ sep ++ join sep (z :: l)).
    now rewrite <- !app_assoc.
Qed.
Lemma app_same_length : forall {A} (a b c d : list A), length a = length c -> a ++ b = c ++ d -> a = c /\ b = d.
Proof.
  intros A a. induction a as [|x a IH]; intros b c d Hl H; destruct c as [|y c]; try discriminate Hl.
  - auto.
  - simpl in *. inversion H as [[Hx Hr]]. destruct (IH b c d) as [-> ->]; [lia|exact Hr|auto].
Qed.

(** ** Dictionaries *)

Section Dict.
Context {A : Type}.
Implicit Types (d : list (str * A)) (k : str) (v : A).

Lemma dget_dset_same : forall k v d, dget k (dset k v d) = Some v.
Proof.
  induction d as [|[k' v'] d IH]; simpl.
  - now rewrite str_eqb_refl.
  - destruct (str_eqb k k') eqn:E; simpl; rewrite E; auto.
Qed.

Lemma dget_dset_other : forall k k2 v d, k2 <> k -> dget k2 (dset k v d) = dget k2 d.
Proof.
  induction d as [|[k' v'] d IH]; intro H; simpl.
  - apply str_eqb_neq in H. now rewrite H.
  - destruct (str_eqb k k') eqn:E; simpl.
    + apply str_eqb_eq in E. subst. apply str_eqb_neq in H. now rewrite H.
    + destruct (str_eqb k2 k') eqn:E2; auto.
Qed.

Lemma dget_dset : forall k k2 v d,
  dget k2 (dset k v d) = if str_eqb k2 k then Some v else dget k2 d.
Proof.
  intros. destruct (str_eqb k2 k) eqn:E.
  - apply str_eqb_eq in E. subst. apply dget_dset_same.
  - apply dget_dset_other. now apply str_eqb_neq.
Qed.

Lemma dget_In : forall k v d, dget k d = Some v -> In (k, v) d.
Proof.
  induction d as [|[k' v'] d IH]; simpl; intro H; [discriminate|].
  destruct (str_eqb k k') eqn:E.
  - apply str_eqb_eq in E. inversion H; subst. now left.
  - right. auto.
Qed.

Lemma dget_None : forall k d, dget k d = None <-> ~ In k (dkeys d).
Proof.
  induction d as [|[k' v'] d IH]; simpl; [tauto|].
  destruct (str_eqb k k') eqn:E.
  - apply str_eqb_eq in E. subst. split; [discriminate|]. intro H. exfalso. apply H. now left.
  - apply str_eqb_neq in E. rewrite IH. split; [intros H [H'|H']; [congruence|tauto]|tauto].
Qed.

Lemma dget_Some_key : forall k v d, dget k d = Some v -> In k (dkeys d).
Proof. intros k v d H. apply dget_In in H. apply (in_map fst) in H. exact H. Qed.

Lemma dkey_get : forall k d, In k (dkeys d) -> exists v, dget k d = Some v.
Proof.
  intros k d H. destruct (dget k d) as [v|] eqn:E; [now exists v|].
  apply dget_None in E. contradiction.
Qed.

Lemma dkeys_dset : forall k v d, dkeys (dset k v d) = if dhas k d then dkeys d else dkeys d ++ [k].
Proof.
  unfold dhas, dkeys. induction d as [|[k' v'] d IH]; simpl; [reflexivity|].
  destruct (str_eqb k k') eqn:E; simpl; [reflexivity|]. rewrite IH.
  destruct (dget k d); reflexivity.
Qed.

Lemma dhas_key : forall k d, dhas k d = true <-> In k (dkeys d).
Proof.
  intros k d. unfold dhas. destruct (dget k d) as [v|] eqn:E.
  - apply dget_Some_key in E. tauto.
  - apply dget_None in E. split; [discriminate|tauto].
Qed.

Lemma dkeys_dset_In : forall k k2 v d, In k2 (dkeys (dset k v d)) <-> k2 = k \/ In k2 (dkeys d).
Proof.
  intros. rewrite dkeys_dset. destruct (dhas k d) eqn:E.
  - apply dhas_key in E. split; [tauto|]. intros [->|H]; assumption.
  - rewrite in_app_iff. simpl. split; [intros [H|[H|[]]]; auto|intros [H|H]; auto].
Qed.

Lemma NoDup_dset : forall k v d, NoDup (dkeys d) -> NoDup (dkeys (dset k v d)).
Proof.
  intros. rewrite dkeys_dset. destruct (dhas k d) eqn:E; [assumption|].
  apply Permutation_NoDup with (k :: dkeys d).
  - apply Permutation_cons_append.
  - constructor; [|assumption]. intro H'. apply dhas_key in H'. congruence.
Qed.

Lemma dget_ddel_other : forall k k2 d, k2 <> k -> dget k2 (ddel k d) = dget k2 d.
Proof.
  induction d as [|[k' v'] d IH]; intro H; simpl; [reflexivity|].
  destruct (str_eqb k k') eqn:E; simpl.
  - apply str_eqb_eq in E. subst. apply str_eqb_neq in H. now rewrite H.
  - destruct (str_eqb k2 k') eqn:E2; auto.
Qed.

Lemma dget_ddel_same : forall k d, NoDup (dkeys d) -> dget k (ddel k d) = None.
Proof.
  induction d as [|[k' v'] d IH]; intro H; simpl; [reflexivity|].
  simpl in H. inversion H; subst. destruct (str_eqb k k') eqn:E; simpl.
  - apply str_eqb_eq in E. subst. now apply dget_None.
  - rewrite E. auto.
Qed.

Lemma dkeys_ddel_In : forall k x d, In x (dkeys (ddel k d)) -> In x (dkeys d).
Proof.
  induction d as [|[k' v'] d IH]; simpl; [tauto|].
  destruct (str_eqb k k'); simpl; tauto.
Qed.

Lemma NoDup_ddel : forall k d, NoDup (dkeys d) -> NoDup (dkeys (ddel k d)).
Proof.
  induction d as [|[k' v'] d IH]; simpl; intro H; [constructor|].
  inversion H; subst. destruct (str_eqb k k'); [assumption|]. simpl.
  constructor; [|auto]. intro H'. apply dkeys_ddel_In in H'. contradiction.
Qed.
End Dict.
