(** * Expanding twice, and names that are to stay: proofs *)

From Verif Require Import PyStr Regex Patterns PyPath Res Const Item Lines Stash StrFacts ReachFacts ExpandFacts ExpandText
  Spec_Query Spec_Expand Spec_Again Proofs_Expand.

Lemma expands_chars : forall known builtin sp (b : str), ~ In 36%N b -> expands known builtin sp b b.
Proof.
  intros known builtin sp b. induction b as [|c b IH]; intro H; [apply ex_end|]. apply ex_char.
  - intros ->. apply H. now left.
  - apply IH. intro Hb. apply H. now right.
Qed.
Lemma expands_again : forall known builtin sp v w, expands known builtin sp v w ->
  forall sp', incl sp sp' -> expands known builtin sp' w w.
Proof.
  intros known builtin sp v w H. induction H as [sp|sp c v w Hc H IH|sp c v w Hc Hc2 H IH|sp n v w Hn Hi H IH|sp n c d v w Hn Hi Hk Hc H1 IH1 H2 IH2
      |sp n b v w Hn Hi Hk Hv Hd H IH|sp n v w Hn Hi Hk Hv H IH]; intros sp' Hs.
  - apply ex_end.
  - apply ex_char; auto.
  - apply ex_dollar; auto.
  - apply ex_spare; auto.
  - apply expands_app; [apply IH1; intros x []|auto].
  - apply expands_app; [now apply expands_chars|auto].
  - destruct (mem_str n sp') eqn:E.
    + apply (mem_str_In n sp') in E. apply ex_spare; auto.
    + apply ex_unknown; auto. intro X. apply (mem_str_In n sp') in X. congruence.
Qed.

Lemma C121_lemma : forall e s file, env_ok e -> reach e s ->
  exists known, (forall n, n <> [] -> stands_for s file n (known n)) /\
  forall spare v w, no_code v -> no_code w -> expands known (fun n => dget n (builtins file)) spare v w ->
    expand_term_full e s file v spare [] None = Ok w /\ expand_term_full e s file w spare [] None = Ok w.
Proof.
  intros e s file He Hr. destruct (C45_lemma e s file He Hr) as [known [H1 H2]]. exists known. split; [exact H1|].
  intros spare v w Hv Hw H. split; [now apply H2|]. apply H2; [exact Hw|]. apply (expands_again _ _ spare v w H). apply incl_refl.
Qed.

(** ** Names that are to stay *)

Lemma hide_in : forall sp (f : str -> option str) n, In n sp -> hide sp f n = None.
Proof. intros sp f n H. unfold hide. apply (mem_str_In n sp) in H. now rewrite H. Qed.
Lemma hide_out : forall sp (f : str -> option str) n, ~ In n sp -> hide sp f n = f n.
Proof.
  intros sp f n H. unfold hide. destruct (mem_str n sp) eqn:E; [|reflexivity]. apply (mem_str_In n sp) in E. contradiction.
Qed.
Lemma free_tail : forall sp (a b : str), free_of sp (a ++ b) -> free_of sp b.
Proof. intros sp a b H m x y Hm E. apply (H m (a ++ x) y Hm). rewrite E. now rewrite app_assoc. Qed.
Lemma expands_hidden : forall known builtin sp, (forall n c, n <> [] -> known n = Some c -> free_of sp c) ->
  forall sp0 v w, expands (hide sp known) (hide sp builtin) sp0 v w -> sp0 = [] ->
    expands known builtin sp v w /\ (free_of sp v -> expands known builtin [] v w).
Proof.
  intros known builtin sp Hf sp0 v w H. induction H as [sp0|sp0 c v w Hc H IH|sp0 c v w Hc Hc2 H IH|sp0 n v w Hn Hi H IH|sp0 n c d v w Hn Hi Hk Hc H1 IH1 H2 IH2
      |sp0 n b v w Hn Hi Hk Hv Hd H IH|sp0 n v w Hn Hi Hk Hv H IH]; intros ->.
  - split; [|intros _]; apply ex_end.
  - destruct (IH eq_refl) as [A B]. split; [now apply ex_char|]. intro F. apply ex_char; [exact Hc|]. apply B. exact (free_tail sp [c] v F).
  - destruct (IH eq_refl) as [A B]. split; [now apply ex_dollar|]. intro F. apply ex_dollar; [exact Hc|exact Hc2|]. apply B. exact (free_tail sp [36%N; c] v F).
  - destruct Hi.
  - destruct (IH1 eq_refl) as [_ B1]. destruct (IH2 eq_refl) as [A2 B2].
    assert (Hns : ~ In n sp) by (intro X; rewrite (hide_in sp known n X) in Hk; discriminate).
    rewrite (hide_out sp known n Hns) in Hk. specialize (B1 (Hf n c (proj1 Hn) Hk)). split; [now apply ex_known with (c := c)|].
    intro F. apply ex_known with (c := c); auto. apply B2. exact (free_tail sp (reference n) v F).
  - destruct (IH eq_refl) as [A B].
    assert (Hns : ~ In n sp) by (intro X; rewrite (hide_in sp builtin n X) in Hv; discriminate).
    rewrite (hide_out sp known n Hns) in Hk. rewrite (hide_out sp builtin n Hns) in Hv. split; [now apply ex_builtin|].
    intro F. apply ex_builtin; auto. apply B. exact (free_tail sp (reference n) v F).
  - destruct (IH eq_refl) as [A B]. destruct (mem_str n sp) eqn:E.
    + apply (mem_str_In n sp) in E. split; [now apply ex_spare|]. intro F. exfalso. apply (F n [] v E). reflexivity.
    + assert (Hns : ~ In n sp) by (intro X; apply (mem_str_In n sp) in X; congruence).
      rewrite (hide_out sp known n Hns) in Hk. rewrite (hide_out sp builtin n Hns) in Hv. split; [now apply ex_unknown|].
      intro F. apply ex_unknown; auto. apply B. exact (free_tail sp (reference n) v F).
Qed.
Lemma C122_lemma : forall e s file, env_ok e -> reach e s ->
  exists known, (forall n, n <> [] -> stands_for s file n (known n)) /\
  forall spare v w, no_code v -> (forall n c, n <> [] -> known n = Some c -> free_of spare c) ->
    expands (hide spare known) (hide spare (fun n => dget n (builtins file))) [] v w ->
    expand_term_full e s file v spare [] None = Ok w.
Proof.
  intros e s file He Hr. destruct (C45_lemma e s file He Hr) as [known [H1 H2]]. exists known. split; [exact H1|].
  intros spare v w Hv Hf H. apply H2; [exact Hv|]. now destruct (expands_hidden _ _ spare Hf [] v w H eq_refl).
Qed.
