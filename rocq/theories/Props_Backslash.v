(** * Property C127: backslashes in values *)

From Verif Require Import Props_Parse.
From Verif Require Import PyStr Regex PyPath Res Const Item Lines Stash Demo ReachFacts Spec_Parse Spec_Backslash Proofs_Backslash.

(** The value of an assignment on one line is the written one with every backslash
    shown as an escape character. *)
Theorem C127_shown_partial : forall e i name op value, parsed_item e i -> assigned_on_a_line name op value i -> ~ statement_word name ->
  exists vn sub subs shown, disguised value shown /\ it_pay i = PVariable vn sub subs shown op vn.
Proof. exact C127_lemma. Qed.
Print Assumptions C127_shown_partial.

(** So it is the written one exactly if there is no backslash in it. *)
Theorem C127_kept_partial : forall e i name op value, parsed_item e i -> assigned_on_a_line name op value i -> ~ statement_word name ->
  ((exists vn sub subs, it_pay i = PVariable vn sub subs value op vn) <-> ~ In 92%N value).
Proof. exact C127_kept_lemma. Qed.
Print Assumptions C127_kept_partial.

(** ** The witness: a quoted dot in a pattern *)

Definition bs_value : str := """^libx\.y""".
Definition bs_env : env := demo_env [("/w/a.bb", "PACKAGES_DYNAMIC = " ++ bs_value ++ nl)] [].
Notation bs_run := (add_file 2 bs_env "/w/a.bb" 0 None demo_stash).
Definition bs_item : item := nth 0 (st_list (snd bs_run)) p_dflt.
Lemma bs_raw : it_raw bs_item = "PACKAGES_DYNAMIC = " ++ bs_value ++ nl.
Proof. vm_compute. reflexivity. Qed.
Lemma bs_len : length (st_list (snd bs_run)) = 1.
Proof. vm_compute. reflexivity. Qed.
Lemma bs_parsed : parsed_item bs_env bs_item.
Proof.
  exists (snd bs_run). split.
  - exact (filled_add bs_env 2 "/w/a.bb" 0 None demo_stash (fst bs_run) (snd bs_run) (filled_new bs_env _ _ _) (surjective_pairing bs_run)).
  - unfold bs_item. apply nth_In. rewrite bs_len. lia.
Qed.
Lemma bs_assigned : assigned_on_a_line "PACKAGES_DYNAMIC" " = " bs_value bs_item.
Proof.
  exists ("PACKAGES_DYNAMIC = " ++ bs_value). split; [right; exact bs_raw|]. split.
  - vm_compute. intuition discriminate.
  - split; [reflexivity|]. split; [split; [discriminate|chars]|]. exists " ".
    split; [|discriminate]. exists "=", " ". split; [reflexivity|]. split; [every|]. split; [every|]. split; [cbn; tauto|].
    split; [indent|discriminate].
Qed.
Lemma bs_word : ~ statement_word "PACKAGES_DYNAMIC".
Proof.
  intros [H|[k H]].
  - cbn [statement_words In] in H. repeat (destruct H as [H|H]; [discriminate|]). destruct H.
  - discriminate.
Qed.

(** The value is not the written one, and the backslash divides the entry, so that
    packages are told to be dynamic that are not. *)
Theorem C127_refuted : exists e i name op value, parsed_item e i /\ assigned_on_a_line name op value i /\ ~ statement_word name /\
  ~ (exists vn sub subs, it_pay i = PVariable vn sub subs value op vn) /\
  value = """^libx\.y""" /\
  exists s, filled e s /\ In i (st_list s) /\ is_dynamic_package e s "/w/a.bb" "zy" = Ok true.
Proof.
  exists bs_env, bs_item, "PACKAGES_DYNAMIC", " = ", bs_value.
  split; [exact bs_parsed|]. split; [exact bs_assigned|]. split; [exact bs_word|]. split.
  - intro H. apply (C127_kept_lemma bs_env bs_item _ _ _ bs_parsed bs_assigned bs_word) in H. apply H. vm_compute. tauto.
  - split; [reflexivity|]. exists (snd bs_run). split.
    + exact (filled_add bs_env 2 "/w/a.bb" 0 None demo_stash (fst bs_run) (snd bs_run) (filled_new bs_env _ _ _) (surjective_pairing bs_run)).
    + split; [unfold bs_item; apply nth_In; rewrite bs_len; lia|]. vm_compute. reflexivity.
Qed.
Print Assumptions C127_refuted.
