(** * Proofs about expanding the words of a value *)

From Verif Require Import Props_Items.
From Verif Require Import PyStr Regex Patterns PyPath Res Const Item Lines Stash StrFacts ReachFacts Spec_Query Spec_Expand
  Proofs_Expand Spec_Access Proofs_Access Spec_Each.
From Verif Require Proofs_Values.

Lemma rewords_words : forall f v ws w us, rewords f v ws w us -> Props_Items.words v ws.
Proof.
  intros f v ws w us H. induction H as [|c v ws w us Hs H IH|y u v ws w us Hy Hin Ht Hf H IH].
  - apply words_nil.
  - now apply words_sep.
  - now apply words_run.
Qed.
Lemma separator_dollar : forall c t, Props_Items.separator c t -> c <> 36%N.
Proof. intros c t [H|[H _]] E; subst c; discriminate. Qed.

Lemma rewords_expands : forall k b sp v ws w us, rewords (expands k b sp) v ws w us -> expands k b sp v w /\ Forall2 (expands k b sp) ws us.
Proof.
  intros k b sp v ws w us H. induction H as [|c v ws w us Hs H IH|y u v ws w us Hy Hin Ht Hf H IH].
  - split; [apply ex_end|constructor].
  - destruct IH as [A B]. split; [|exact B]. apply ex_char; [exact (separator_dollar c v Hs)|exact A].
  - destruct IH as [A B]. split; [now apply expands_app|now constructor].
Qed.
Lemma rewords_within : forall f v ws w us, rewords f v ws w us -> forall y, In y ws -> exists a b, v = a ++ y ++ b.
Proof.
  intros f v ws w us H. induction H as [|c v ws w us Hs H IH|y u v ws w us Hy Hin Ht Hf H IH]; intros z Hz.
  - destruct Hz.
  - destruct (IH z Hz) as [a [b E]]. exists (c :: a), b. now rewrite E.
  - destruct Hz as [->|Hz]; [exists [], v; reflexivity|]. destruct (IH z Hz) as [a [b E]]. exists (y ++ a), b. now rewrite E, <- app_assoc.
Qed.
Lemma contains_part : forall p a y b, contains p (a ++ y ++ b) = false -> contains p y = false.
Proof.
  intros p a y b H. destruct (contains p y) eqn:E; [|reflexivity]. apply contains_spec in E. destruct E as [c [d E]].
  assert (X : contains p (a ++ y ++ b) = true).
  { apply contains_spec. exists (a ++ c), (d ++ b). rewrite E. now rewrite <- !app_assoc. }
  congruence.
Qed.

Lemma C129_lemma : forall e s file, env_ok e -> reach e s ->
  exists known, (forall n, n <> [] -> stands_for s file n (known n)) /\
  forall i n sub subs v op r spare ws w us,
    it_pay i = PVariable n sub subs ("""" ++ v ++ """") op r -> ~ In cDQ v -> no_code v -> contains INLINE_BLOCK v = false ->
    rewords (expands known (fun n => dget n (builtins file)) spare) v ws w us ->
    map (fun y => expand_term_full e s file y spare [] (Some i)) (get_items_of i) = map Ok us /\
    expand_term_full e s file (stripped i) spare [] (Some i) = Ok w.
Proof.
  intros e s file He Hr. destruct (C45_lemma e s file He Hr) as [known [H1 H2]]. exists known. split; [exact H1|].
  intros i n sub subs v op r spare ws w us Ep Hq Hc Hb H.
  assert (Hu : unquoted v).
  { split; intros t E; apply Hq; rewrite E; [now left|apply in_or_app; right; now left]. }
  assert (Eg : get_items_of i = ws).
  { unfold get_items_of. rewrite Ep. unfold variable_get_items. change (strip [cDQ] []) with ([] : str). cbn match.
    change ("""" ++ v ++ """") with ([cDQ] ++ v ++ [cDQ]). rewrite strip_quotes by exact Hu. apply C18_lemma. exact (rewords_words _ _ _ _ _ H). }
  assert (Es : stripped i = v).
  { unfold stripped, var_value. rewrite Ep. exact (Proofs_Values.quoted_stripped v Hq). }
  destruct (rewords_expands _ _ _ _ _ _ _ H) as [Hv Hws]. pose proof (rewords_within _ _ _ _ _ H) as Hin. split.
  - rewrite Eg. clear Eg H Hv. induction Hws as [|y u ws us Hyu Hws IH]; [reflexivity|]. cbn [map]. f_equal.
    + destruct (Hin y (or_introl eq_refl)) as [a [b E]]. unfold expand_term_full.
      rewrite E in Hb. rewrite (contains_part _ a y b Hb).
      apply (H2 spare y u); [|exact Hyu]. destruct Hc as [C1 C2]. rewrite E in C1, C2. split; [exact (contains_part _ a y b C1)|exact (contains_part _ a y b C2)].
    + apply IH. intros z Hz. apply Hin. now right.
  - rewrite Es. unfold expand_term_full. rewrite Hb. now apply (H2 spare v w).
Qed.
