(** * Lines that take the following ones with them: proofs *)

From Verif Require Import PyStr Regex UniTable Patterns PyPath Res Inline Const Item Lines Stash
  StrFacts Demo Props_Lines Spec_Parse Spec_Group Proofs_Group Props_Group.

Lemma taken_app : forall ls gs r, taken ls gs r -> forall gs' u, taken r gs' u -> taken ls (gs ++ gs') u.
Proof.
  intros ls gs r H. induction H as [ls|ls g r gs u B _ IH]; intros gs' u' H'; [exact H'|].
  cbn. apply (taken_more _ g r); [exact B|now apply IH].
Qed.

Lemma unique_items : forall n e path off forced s l s' t gs,
  add_file n e path off forced s = (Ok l, s') -> considered e path s ->
  fs_read (e_fs e) (file_of e path) = RdText t -> taken (readlines (universal_newlines t)) gs [] ->
  map it_realraw l = map (@concat N) gs.
Proof.
  intros n e path off forced s l s' t gs E C R T. pose proof (C83_statements n e path off forced s l s' E C) as H.
  rewrite R in H. destruct H as [gs' [T' ->]]. f_equal.
  refine (proj1 (C83_unique _ _ _ _ T' _ _ T (or_introl eq_refl) (or_introl eq_refl))).
  apply ok_are_lines, readlines_ok.
Qed.

Lemma C118_swallow_lemma : forall n e path off forced s l s' t gs h m,
  add_file n e path off forced s = (Ok l, s') -> considered e path s ->
  fs_read (e_fs e) (file_of e path) = RdText t ->
  taken (readlines (universal_newlines t)) gs (h :: m) ->
  opens h -> ~ carries_on h -> inside m -> m <> [] ->
  map it_realraw l = map (@concat N) gs ++ [concat (h :: m)].
Proof.
  intros n e path off forced s l s' t gs h m E C R T O K I M.
  rewrite (unique_items n e path off forced s l s' t (gs ++ [h :: m]) E C R); [now rewrite map_app|].
  apply (taken_app _ gs (h :: m) T). apply (taken_more _ (h :: m) []); [now apply block_unclosed|constructor].
Qed.

Lemma C118_line_lemma : forall n e path off forced s l s' t gs h r gs',
  add_file n e path off forced s = (Ok l, s') -> considered e path s ->
  fs_read (e_fs e) (file_of e path) = RdText t ->
  taken (readlines (universal_newlines t)) gs (h :: r) -> taken r gs' [] ->
  ~ carries_on h -> ~ opens h -> ~ remark h -> ~ defines h ->
  map it_realraw l = map (@concat N) gs ++ h :: map (@concat N) gs'.
Proof.
  intros n e path off forced s l s' t gs h r gs' E C R T T' K O M D.
  rewrite (unique_items n e path off forced s l s' t (gs ++ [h] :: gs') E C R).
  - rewrite map_app. cbn. now rewrite app_nil_r.
  - apply (taken_app _ gs (h :: r) T). apply (taken_more _ [h] r); [now apply block_line|exact T'].
Qed.
