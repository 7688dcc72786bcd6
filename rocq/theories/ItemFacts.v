(** * Lemmas about items and the splitting of names and values *)

From Verif Require Import PyStr Regex Patterns Res Const PyPath Item StrFacts ReFacts.

(** ** Splitting at single characters *)

Lemma consumed_one : forall b c t g b' g', consumed (MS b (c :: t) g) (MS b' t g') = [c].
Proof. intros b c t g b' g'. exact (consumed_app b [c] t g (MS b' t g') eq_refl). Qed.

(** A character that separates the pieces, given the text behind it. *)
Definition safe_sep (c : N) (t : str) : bool :=
  re_space c || (N.eqb c cESC && match t with x :: _ => negb (N.eqb x 120) | [] => true end).

Lemma safesplit_match : forall b c t,
  match_at re_safesplit b (c :: t) =
  if safe_sep c t then Some (RM [c] []) else None.
Proof.
  intros b c t. unfold match_at, re_safesplit, safe_sep. simpl.
  unfold RSp, tab. simpl.
  destruct (re_space c) eqn:Es; simpl.
  - now rewrite consumed_one.
  - destruct (ch cTAB c) eqn:Et.
    + unfold ch in Et. apply N.eqb_eq in Et. subst c. discriminate.
    + unfold ch. destruct (N.eqb c cESC); simpl; [|reflexivity].
      destruct t as [|x t]; simpl.
      * unfold consumed. reflexivity.
      * unfold oneof. simpl. rewrite Bool.orb_false_r.
        destruct (N.eqb x 120); simpl; [reflexivity|].
        now rewrite consumed_one.
Qed.

Lemma safesplit_nil : forall b, match_at re_safesplit b [] = None.
Proof. intro b. reflexivity. Qed.

(** One pass over the text. *)
Fixpoint split_safe (cur s : str) : list str :=
  match s with
  | [] => [rev cur]
  | c :: t => if safe_sep c t then rev cur :: split_safe [] t else split_safe (c :: cur) t
  end.

Lemma scan_safe : forall s b cur, split_pieces cur (scan re_safesplit 0 b s) = split_safe cur s.
Proof.
  induction s as [|c t IH]; intros b cur.
  - reflexivity.
  - cbn [scan split_safe]. rewrite safesplit_match. destruct (safe_sep c t).
    + simpl. now rewrite IH.
    + simpl. apply IH.
Qed.

Lemma safe_linesplit_eq : forall s, safe_linesplit s = keep_nonempty (split_safe [] s).
Proof. intro s. unfold safe_linesplit, re_split. now rewrite scan_safe. Qed.

(** The tokens of a text. *)
Inductive tokens : str -> list str -> Prop :=
| tok_nil : tokens [] []
| tok_sep : forall c t l, safe_sep c t = true -> tokens t l -> tokens (c :: t) l
| tok_word : forall w t l,
    w <> [] ->
    (forall a c b, w = a ++ c :: b -> safe_sep c (b ++ t) = false) ->
    match t with [] => True | c :: r => safe_sep c r = true end ->
    tokens t l -> tokens (w ++ t) (w :: l).

Lemma split_safe_word : forall w cur t,
  (forall a c b, w = a ++ c :: b -> safe_sep c (b ++ t) = false) ->
  split_safe cur (w ++ t) = split_safe (rev w ++ cur) t.
Proof.
  induction w as [|c w IH]; intros cur t H; [reflexivity|].
  simpl. rewrite (H [] c w eq_refl). rewrite IH.
  - now rewrite <- app_assoc.
  - intros a c' b E. apply (H (c :: a) c' b). now rewrite E.
Qed.

Lemma tokens_split : forall s l, tokens s l -> safe_linesplit s = l.
Proof.
  intros s l H. rewrite safe_linesplit_eq. induction H as [|c t l Hs Ht IH|w t l Hw Hin Ht Htok IH].
  - reflexivity.
  - simpl. rewrite Hs. simpl. exact IH.
  - rewrite split_safe_word by assumption. rewrite app_nil_r.
    destruct t as [|c r].
    + inversion Htok; subst; simpl; rewrite ?rev_involutive.
      * destruct w; [congruence|reflexivity].
      * destruct w0; [congruence|discriminate].
    + simpl. rewrite Ht. simpl. rewrite rev_involutive.
      simpl in IH. rewrite Ht in IH. simpl in IH. rewrite IH.
      destruct w; [congruence|reflexivity].
Qed.

(** The longest prefix without separators. *)
Lemma word_prefix : forall s, exists w t, s = w ++ t
  /\ (forall a c b, w = a ++ c :: b -> safe_sep c (b ++ t) = false)
  /\ match t with [] => True | c :: r => safe_sep c r = true end.
Proof.
  induction s as [|c s [w [t [E [H1 H2]]]]].
  - exists [], []. repeat split. intros [|? a] c b E; discriminate.
  - destruct (safe_sep c s) eqn:Es.
    + exists [], (c :: s). repeat split; [|exact Es]. intros [|? a] c' b E'; discriminate.
    + exists (c :: w), t. subst s. repeat split; [|exact H2].
      intros [|x a] c' b E'; inversion E'; subst; [exact Es|]. now apply (H1 a).
Qed.

Lemma tokens_total : forall n s, length s <= n -> exists l, tokens s l.
Proof.
  induction n as [|n IH]; intros s Hn.
  - destruct s; [|simpl in Hn; lia]. exists []. constructor.
  - destruct (word_prefix s) as [w [t [-> [H1 H2]]]].
    destruct w as [|c w].
    + destruct t as [|c t]; [exists []; constructor|]. simpl in Hn.
      destruct (IH t ltac:(lia)) as [l Hl]. exists l. now constructor.
    + rewrite app_length in Hn. simpl in Hn. destruct (IH t ltac:(lia)) as [l Hl].
      exists ((c :: w) :: l). constructor; [discriminate|assumption..].
Qed.

Lemma tokens_iff : forall s l, tokens s l <-> safe_linesplit s = l.
Proof.
  intros s l. split; [apply tokens_split|]. intros <-.
  destruct (tokens_total (length s) s (le_n _)) as [l Hl].
  now rewrite (tokens_split _ _ Hl).
Qed.

(** The text without its separators. *)
Fixpoint drop_seps (s : str) : str :=
  match s with
  | [] => []
  | c :: t => if safe_sep c t then drop_seps t else c :: drop_seps t
  end.
Lemma keep_nonempty_concat : forall l, concat (keep_nonempty l) = concat l.
Proof. induction l as [|[|c x] l IH]; simpl; [reflexivity|exact IH|now rewrite IH]. Qed.
Lemma keep_nonempty_In : forall x l, In x (keep_nonempty l) <-> In x l /\ x <> [].
Proof.
  intros x l. unfold keep_nonempty. rewrite filter_In. split; intros [H1 H2]; split; auto;
    destruct x; simpl in *; congruence.
Qed.
Lemma split_safe_concat : forall s cur, concat (split_safe cur s) = rev cur ++ drop_seps s.
Proof.
  induction s as [|c t IH]; intro cur; simpl; [reflexivity|].
  destruct (safe_sep c t); simpl; rewrite IH; simpl; [reflexivity|]. now rewrite <- app_assoc.
Qed.

(** ** SafeLineSplit of the stash keeps empty pieces *)
Definition stash_sep (c : N) : bool := re_space c || N.eqb c cESC.
Lemma stashsplit_match : forall b c t,
  match_at re_stash_split b (c :: t) = if stash_sep c then Some (RM [c] []) else None.
Proof.
  intros b c t. unfold match_at, re_stash_split, stash_sep. simpl. unfold RSp, tab. simpl.
  destruct (re_space c) eqn:Es; simpl.
  - now rewrite consumed_one.
  - destruct (ch cTAB c) eqn:Et.
    + unfold ch in Et. apply N.eqb_eq in Et. subst c. discriminate.
    + unfold ch. destruct (N.eqb c cESC); [|reflexivity]. now rewrite consumed_one.
Qed.

(** ** Parts of names *)
Lemma chunk_text_id : forall i, chunk_text i = i.
Proof.
  intro i. unfold chunk_text. destruct (contains "-" i) eqn:E; [|reflexivity].
  pose proof (split_char_join 45 i) as J. destruct (split_char 45 i) as [|h t] eqn:Es.
  - now apply split_char_nonnil in Es.
  - simpl. destruct t as [|h2 t].
    + exfalso. apply contains_spec in E. destruct E as [a [b E]].
      assert (~ In 45%N h).
      { apply (split_char_no_sep 45 i h). rewrite Es. now left. }
      simpl in J. subst h. apply H. rewrite E. apply in_or_app. right. now left.
    + cbn [join] in J. rewrite <- J. reflexivity.
Qed.

Lemma map_chunk_text : forall l, map chunk_text l = l.
Proof. induction l as [|x l IH]; simpl; [reflexivity|]. now rewrite chunk_text_id, IH. Qed.

(** Characters that start an override (cls_item.py:11). *)
Definition id_char (c : N) : bool := low_c c || dig_c c || in_chars "{}$" c.

Lemma re_id_match : forall s,
  matched (re_match re_id s) = match s with c :: _ => id_char c | [] => false end.
Proof.
  intro s. unfold re_match, re_id, RPlus.
  destruct (matched (match_at _ true s)) eqn:E.
  - apply matched_iff in E. destruct E as [s' E]. rewrite mt_seq_iff in E.
    destruct E as [s1 [E _]]. rewrite mt_chr_iff in E. destruct E as [c [t [E1 [E2 _]]]].
    simpl in E1. subst s. unfold por, oneof in E2. unfold id_char. now rewrite <- orb_assoc, E2.
  - destruct s as [|c t]; [reflexivity|]. destruct (id_char c) eqn:Ec; [|reflexivity].
    rewrite <- E. apply matched_iff. exists (MS false t []).
    rewrite mt_seq_iff. exists (MS false t []). split.
    + rewrite mt_chr_iff. exists c, t. repeat split. unfold por, oneof.
      unfold id_char in Ec. now rewrite <- orb_assoc in Ec.
    + rewrite mt_star_chr_iff. exists [], t. repeat split.
Qed.

(** The part before the first dash. *)
Definition before_dash (i : str) : str := hd [] (split_char 45 i).

Lemma before_dash_head : forall i,
  match before_dash i with c :: _ => id_char c | [] => false end
  = match i with c :: _ => id_char c | [] => false end.
Proof.
  intro i. unfold before_dash. destruct i as [|c i]; [reflexivity|]. simpl.
  destruct (N.eqb_spec c 45) as [->|Hn]; [reflexivity|].
  destruct (split_char 45 i) eqn:E; reflexivity.
Qed.

Lemma before_dash_pn : forall i,
  before_dash i = "${PN}" <-> i = "${PN}" \/ exists r, i = "${PN}-" ++ r.
Proof.
  intro i. unfold before_dash. split.
  - intro H. pose proof (split_char_join 45 i) as J.
    destruct (split_char 45 i) as [|h t]; [discriminate|]. simpl in H. subst h.
    destruct t as [|h2 t].
    + left. now rewrite <- J.
    + right. exists (join "-" (h2 :: t)). rewrite <- J. reflexivity.
  - intros [->|[r ->]]; [reflexivity|].
    change ("${PN}-" ++ r) with ("${PN}" ++ 45%N :: r).
    rewrite split_char_app; [reflexivity|]. intro H. simpl in H.
    repeat (destruct H as [H|H]; [discriminate|]). contradiction.
Qed.

(** Override parts: how the code tells them from parts of the name. *)
Definition override_part (first i : str) : Prop :=
  (first <> "pkg" /\ match i with c :: _ => id_char c = true | [] => False end)
  \/ i = "${PN}" \/ exists r, i = "${PN}-" ++ r.

Lemma sub_chunk_iff : forall first i, sub_chunk first i = true <-> override_part first i.
Proof.
  intros first i. unfold sub_chunk, override_part.
  assert (Eh : (if contains "-" i then hd [] (split_char 45 i) else i) = before_dash i).
  { unfold before_dash. destruct (contains "-" i) eqn:E; [reflexivity|].
    rewrite split_char_none; [reflexivity|]. intro H. apply in_split in H.
    destruct H as [a [b H]]. apply (proj1 (contains_false "-" i)) with (a := a) (b := b) in E.
    now apply E. }
  rewrite Eh, Bool.orb_true_iff, Bool.andb_true_iff, re_id_match, before_dash_head, str_eqb_eq,
    before_dash_pn, Bool.negb_true_iff, str_eqb_neq.
  destruct i as [|c i]; intuition congruence.
Qed.

(** Interleaving of two lists. *)
Inductive interleave {A : Type} : list A -> list A -> list A -> Prop :=
| il_nil : interleave [] [] []
| il_left : forall x a b l, interleave a b l -> interleave (x :: a) b (x :: l)
| il_right : forall x a b l, interleave a b l -> interleave a (x :: b) (x :: l).

Lemma interleave_filter : forall A (f : A -> bool) l,
  interleave (filter (fun x => negb (f x)) l) (filter f l) l.
Proof.
  intros A f. induction l as [|x l IH]; simpl; [constructor|].
  destruct (f x); simpl; now constructor.
Qed.

Lemma filter_comm : forall A (f g : A -> bool) l, filter f (filter g l) = filter g (filter f l).
Proof.
  intros A f g. induction l as [|x l IH]; simpl; [reflexivity|].
  destruct (g x) eqn:Eg; destruct (f x) eqn:Ef; simpl; rewrite ?Eg, ?Ef, IH; reflexivity.
Qed.

(** The delimiter does not occur in the parts. *)
Lemma keep_parts_no_sep : forall c s p, In p (keep_nonempty (split_char c s)) -> ~ In c p.
Proof. intros c s p H. apply keep_nonempty_In in H. destruct H as [H _]. now apply split_char_no_sep in H. Qed.

Lemma split_join_keep : forall c l, (forall p, In p l -> ~ In c p /\ p <> []) ->
  keep_nonempty (split_char c (join [c] l)) = l.
Proof.
  intros c l H. destruct l as [|x l]; [reflexivity|].
  rewrite split_char_join_parts; [|discriminate|intros p Hp; now apply H].
  unfold keep_nonempty. assert (E : forall q, In q (x :: l) -> nonempty q = true).
  { intros q Hq. apply H in Hq. destruct q; [now destruct Hq|reflexivity]. }
  clear H. induction (x :: l) as [|y r IH]; [reflexivity|]. simpl.
  rewrite E by now left. now rewrite IH by (intros; apply E; now right).
Qed.

Lemma join_app : forall d a b, a <> [] -> b <> [] -> join d (a ++ b) = join d a ++ d ++ join d b.
Proof.
  intros d a b Ha Hb. induction a as [|x a IH]; [congruence|].
  destruct a as [|y a].
  - simpl. destruct b; [congruence|reflexivity].
  - change (x ++ d ++ join d ((y :: a) ++ b) = (x ++ d ++ join d (y :: a)) ++ d ++ join d b).
    rewrite IH by discriminate. now rewrite !app_assoc.
Qed.
Lemma join_cons_join : forall d a b, a <> [] -> join d (join d a :: b) = join d (a ++ b).
Proof.
  intros d a b Ha. destruct b as [|y b].
  - rewrite app_nil_r. reflexivity.
  - rewrite join_app by (assumption || discriminate). reflexivity.
Qed.

(** What extract_sub yields. *)
Lemma extract_sub_spec : forall new name,
  let new' := new || contains ":" name in
  let parts := split_char (delim new') name in
  let first := hd [] parts in
  let rest := keep_nonempty (tl parts) in
  extract_sub new name =
    (new',
     join (delim_str new') (keep_nonempty [first] ++ filter (fun i => negb (sub_chunk first i)) rest),
     join (delim_str new') (filter (sub_chunk first) rest)).
Proof.
  intros new name. cbv zeta. unfold extract_sub. rewrite !map_chunk_text.
  set (parts := split_char _ name). unfold keep_nonempty.
  rewrite (filter_comm _ nonempty (sub_chunk _)).
  f_equal. f_equal. f_equal. cbn [filter]. rewrite filter_comm.
  destruct (nonempty (hd [] parts)); reflexivity.
Qed.

(** ** textwrap.dedent *)
Lemma take_blank_spec : forall l, exists r, l = take_blank l ++ r
  /\ forallb is_blank_char (take_blank l) = true
  /\ match r with [] => True | c :: _ => is_blank_char c = false end.
Proof.
  induction l as [|c l [r [E [H1 H2]]]]; simpl.
  - exists []. auto.
  - destruct (is_blank_char c) eqn:Ec.
    + exists r. simpl. rewrite Ec. repeat split; [now f_equal|assumption|assumption].
    + exists (c :: l). auto.
Qed.
Lemma common_prefix_spec : forall a b, exists x y, a = common_prefix a b ++ x /\ b = common_prefix a b ++ y
  /\ (forall p u v, a = p ++ u -> b = p ++ v -> length p <= length (common_prefix a b)).
Proof.
  induction a as [|c a IH]; intros [|d b]; simpl.
  - exists [], []. repeat split. intros p u v E _. destruct p; [simpl; lia|discriminate].
  - exists [], (d :: b). repeat split. intros p u v E _. destruct p; [simpl; lia|discriminate].
  - exists (c :: a), []. repeat split. intros p u v _ E. destruct p; [simpl; lia|discriminate].
  - destruct (N.eqb_spec c d) as [->|Hn].
    + destruct (IH b) as [x [y [E1 [E2 H]]]]. exists x, y. simpl. repeat split; [now f_equal..|].
      intros p u v Ea Eb. destruct p as [|z p]; [simpl; lia|].
      inversion Ea; inversion Eb; subst. simpl. apply le_n_S. eapply H; reflexivity.
    + exists (c :: a), (d :: b). repeat split. intros p u v Ea Eb.
      destruct p as [|z p]; [simpl; lia|]. simpl in Ea, Eb. congruence.
Qed.
Lemma prefix_shorter : forall (p x q y : str), p ++ x = q ++ y -> length p <= length q -> exists z, q = p ++ z.
Proof.
  intros p x q y E Hl. apply app_eq_app in E. destruct E as [l [[-> ->]|[-> ->]]].
  - rewrite app_length in Hl. destruct l; [|simpl in Hl; lia]. exists []. now rewrite !app_nil_r.
  - now exists l.
Qed.
Lemma fold_prefix : forall l i,
  let mg := fold_left common_prefix l i in
  (exists x, i = mg ++ x) /\ (forall j, In j l -> exists x, j = mg ++ x)
  /\ (forall p, (exists x, i = p ++ x) -> (forall j, In j l -> exists x, j = p ++ x) -> length p <= length mg).
Proof.
  induction l as [|j l IH]; intros i; cbv zeta; simpl.
  - repeat split; [exists []; now rewrite app_nil_r|intros j []|].
    intros p [x ->] _. rewrite app_length. lia.
  - destruct (IH (common_prefix i j)) as [[x Ex] [Hl Hm]].
    destruct (common_prefix_spec i j) as [u [v [Ei [Ej Hc]]]].
    repeat split.
    + exists (x ++ u). rewrite app_assoc. now rewrite <- Ex.
    + intros k [<-|Hk]; [|now apply Hl]. exists (x ++ v). rewrite app_assoc. now rewrite <- Ex.
    + intros p [pi Epi] Hp. apply Hm.
      * destruct (Hp j (or_introl eq_refl)) as [pj Epj].
        pose proof (Hc p pi pj Epi Epj) as Hlen.
        revert Ei Hlen. generalize (common_prefix i j) as q. intros q Ei Hlen.
        rewrite Epi in Ei. apply (prefix_shorter p pi q u Ei Hlen).
      * intros k Hk. apply Hp. now right.
Qed.
