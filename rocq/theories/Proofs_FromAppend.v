(** * Proofs about IsFromAppend *)

From Verif Require Import PyStr Regex PyPath Res Const Item Lines Stash StrFacts HistFacts ReachFacts Spec_Query
  Spec_Load Spec_Causes Proofs_Causes Proofs_Several FromAppend.

Lemma C128_file_lemma : forall n e path off forced s l s' i, add_file n e path off forced s = (Ok l, s') -> In i l ->
  (is_from_append i = true <-> exists t, abspath (fs_cwd (e_fs e)) path = t ++ ".bbappend").
Proof.
  intros n e path off forced s l s' i H Hi. destruct (own_items n e path off forced s l s' H i Hi) as [Ho _].
  unfold is_from_append. rewrite Ho. apply endswith_spec.
Qed.

Lemma belongs_last : forall e s f x, belongs e s f x -> f <> x -> exists y, belongs e s f y /\ cause e s y x.
Proof.
  intros e s f x H. induction H as [f|f y x Hc H IH]; intro Hn; [now destruct Hn|].
  destruct (list_eq_dec N.eq_dec y x) as [->|Hy].
  - exists f. split; [constructor|exact Hc].
  - destruct (IH Hy) as [z [Hz Hzx]]. exists z. split; [|exact Hzx]. econstructor; [exact Hc|exact Hz].
Qed.

Lemma C128_lemma : forall e s q f i, env_ok e -> filled e s -> q_file q = Some f -> f <> [] ->
  (forall j p t, In j (st_list s) -> names_file j p -> abspath (fs_cwd (e_fs e)) p <> t ++ ".bbappend") ->
  In i (get_items_for e s q) -> is_from_append i = true ->
  it_origin i = f \/ exists k, belongs e s f k /\ answers (it_origin i) k.
Proof.
  intros e s q f i He Hs Hq Hf Hn Hi Ha. pose proof (C126_lemma e s q f i He Hs Hq Hf Hi) as Hb.
  destruct (list_eq_dec N.eq_dec f (it_origin i)) as [E|E]; [left; now symmetry|]. right.
  destruct (belongs_last _ _ _ _ Hb E) as [k [Hk Hc]]. exists k. split; [exact Hk|].
  inversion Hc as [j p Hj Hp E1 E2|x k' Hx E1 E2]; subst; [|exact Hx].
  unfold is_from_append in Ha. rewrite <- E2 in Ha. apply endswith_spec in Ha. destruct Ha as [t Ha]. now destruct (Hn j p t Hj Hp).
Qed.
