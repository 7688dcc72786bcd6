(** * Facts about chunking and inline preprocessing *)

From Verif Require Import PyStr Regex Patterns Res Inline Lines StrFacts ReFacts.

#[global] Arguments startswith : simpl never.
#[global] Arguments contains : simpl never.
#[global] Arguments find_str : simpl never.

(** ** iterate conserves the text *)

Definition line_list (next : str) (rest : list str) : list str :=
  match next with [] => rest | _ => next :: rest end.

Lemma line_list_concat : forall n r, concat (line_list n r) = n ++ concat r.
Proof. intros [|c n] r; reflexivity. Qed.

Lemma cont_loop_spec : forall rest res line t r,
  cont_loop res line rest = Ok (t, r) ->
  exists ls, rest = ls ++ r /\ t = res ++ line ++ concat ls.
Proof.
  induction rest as [|l rest IH]; intros res line t r H; simpl in H;
    destruct (is_next_line line) eqn:E; try discriminate.
  - inversion H; subst. exists []. simpl. now rewrite app_nil_r.
  - apply IH in H. destruct H as [ls [-> ->]]. exists (l :: ls). simpl. split; [reflexivity|].
    now rewrite <- !app_assoc.
  - inversion H; subst. exists []. simpl. now rewrite app_nil_r.
Qed.

Lemma func_loop_spec : forall rest res level line t r,
  func_loop res level line rest = (t, r) ->
  exists ls, rest = ls ++ r /\ t = res ++ line ++ concat ls.
Proof.
  induction rest as [|l rest IH]; intros res level line t r H; simpl in H;
    match type of H with (if ?b then _ else _) = _ => destruct b end.
  - inversion H; subst. exists []. simpl. now rewrite app_nil_r.
  - inversion H; subst. exists []. simpl. now rewrite app_nil_r.
  - inversion H; subst. exists []. simpl. now rewrite app_nil_r.
  - apply IH in H. destruct H as [ls [-> ->]]. exists (l :: ls). simpl. split; [reflexivity|].
    now rewrite <- !app_assoc.
Qed.

Lemma comment_loop_spec : forall rest res t n r,
  Forall (fun l => l <> []) rest ->
  comment_loop res rest = (t, n, r) ->
  exists ls, rest = ls ++ line_list n r /\ t = res ++ concat ls.
Proof.
  induction rest as [|l rest IH]; intros res t n r Hne H; simpl in H.
  - inversion H; subst. exists []. simpl. now rewrite app_nil_r.
  - inversion Hne as [|? ? Hl Hr]; subst. destruct (is_comment_pure l).
    + apply IH in H; [|assumption]. destruct H as [ls [-> ->]]. exists (l :: ls). simpl.
      split; [reflexivity|]. now rewrite <- !app_assoc.
    + inversion H; subst. exists []. simpl. rewrite app_nil_r.
      destruct n; [congruence|]. auto.
Qed.

Lemma def_loop_spec : forall rest res t n r,
  Forall (fun l => l <> []) rest ->
  def_loop res rest = (t, n, r) ->
  exists ls, rest = ls ++ line_list n r /\ t = res ++ concat ls.
Proof.
  induction rest as [|l rest IH]; intros res t n r Hne H; simpl in H.
  - inversion H; subst. exists []. simpl. now rewrite app_nil_r.
  - inversion Hne as [|? ? Hl Hr]; subst.
    assert (Hstop : (res, l, rest) = (t, n, r) ->
                    exists ls, l :: rest = ls ++ line_list n r /\ t = res ++ concat ls).
    { intro E. inversion E; subst. exists []. simpl. rewrite app_nil_r.
      destruct n; [congruence|]. auto. }
    destruct (is_valid_func_name l); [auto|]. destruct (startswith "def " l); [auto|].
    apply IH in H; [|assumption]. destruct H as [ls [-> ->]]. exists (l :: ls). simpl.
    split; [reflexivity|]. now rewrite <- !app_assoc.
Qed.

(** A chunk is the current line and some lines behind it. *)
Lemma iterate_spec : forall buf rest t n r,
  buf <> [] -> Forall (fun l => l <> []) rest ->
  iterate buf rest = Ok (t, n, r) ->
  exists ls, rest = ls ++ line_list n r /\ t = buf ++ concat ls.
Proof.
  intros buf rest t n r Hb Hne H. unfold iterate in H.
  destruct (is_next_line buf).
  { destruct rest as [|l rest]; [discriminate|].
    destruct (cont_loop buf l rest) as [[t' r']|e|] eqn:E; simpl in H; try discriminate.
    inversion H; subst. apply cont_loop_spec in E. destruct E as [ls [-> ->]].
    exists (l :: ls). simpl. auto. }
  destruct (is_func_start buf).
  { destruct rest as [|l rest]; [discriminate|].
    destruct (func_loop buf 0 l rest) as [t' r'] eqn:E. inversion H; subst.
    apply func_loop_spec in E. destruct E as [ls [-> ->]]. exists (l :: ls). simpl. auto. }
  destruct (is_comment_pure buf).
  { inversion H as [H']. now apply comment_loop_spec in H'. }
  destruct (is_def_line buf).
  { inversion H as [H']. now apply def_loop_spec in H'. }
  destruct buf as [|c buf]; [congruence|]. inversion H; subst. exists []. simpl.
  now rewrite app_nil_r.
Qed.

(** The only exception is StopIteration. *)
Lemma cont_loop_exn : forall rest res line e, cont_loop res line rest = Raise e -> e = StopIteration.
Proof.
  induction rest as [|l rest IH]; intros res line e H; simpl in H; destruct (is_next_line line);
    try discriminate; [now inversion H|now apply IH in H].
Qed.
Lemma cont_loop_fuel : forall rest res line, cont_loop res line rest <> NoFuel.
Proof.
  induction rest as [|l rest IH]; intros res line H; simpl in H; destruct (is_next_line line);
    try discriminate; now apply IH in H.
Qed.

Lemma iterate_exn : forall buf rest e, iterate buf rest = Raise e -> e = StopIteration.
Proof.
  intros buf rest e H. unfold iterate in H. destruct (is_next_line buf).
  { destruct rest as [|l rest]; [now inversion H|].
    destruct (cont_loop buf l rest) eqn:E; simpl in H; try discriminate.
    inversion H; subst. now apply cont_loop_exn in E. }
  destruct (is_func_start buf).
  { destruct rest as [|l rest]; [now inversion H|].
    destruct (func_loop buf 0 l rest); discriminate. }
  destruct (is_comment_pure buf); [discriminate|]. destruct (is_def_line buf); [discriminate|].
  destruct buf; discriminate.
Qed.

Lemma iterate_fuel : forall buf rest, iterate buf rest <> NoFuel.
Proof.
  intros buf rest H. unfold iterate in H. destruct (is_next_line buf).
  { destruct rest as [|l rest]; [discriminate|].
    destruct (cont_loop buf l rest) eqn:E; simpl in H; try discriminate.
    now apply cont_loop_fuel in E. }
  destruct (is_func_start buf).
  { destruct rest as [|l rest]; [discriminate|]. destruct (func_loop buf 0 l rest); discriminate. }
  destruct (is_comment_pure buf); [discriminate|]. destruct (is_def_line buf); [discriminate|].
  destruct buf; discriminate.
Qed.

(** ** The inline loop terminates *)

Lemma substr_count : forall c t s, substr_of t s -> count_char c t <= count_char c s.
Proof. intros c t s [a [b ->]]. rewrite !count_char_app. lia. Qed.
Lemma substr_length : forall t s, substr_of t s -> length t <= length s.
Proof. intros t s [a [b ->]]. rewrite !app_length. lia. Qed.
Lemma substr_refl : forall s, substr_of s s.
Proof. intro s. exists [], []. simpl. now rewrite app_nil_r. Qed.
Lemma substr_trans : forall a b c, substr_of a b -> substr_of b c -> substr_of a c.
Proof.
  intros a b c [x [y ->]] [z [w ->]]. exists (z ++ x), (y ++ w). now rewrite <- !app_assoc.
Qed.
Lemma substr_nil : forall s, substr_of [] s.
Proof. intro s. now exists [], s. Qed.
Lemma lstrip_p_substr : forall p s, substr_of (lstrip_p p s) s.
Proof.
  intros p s. destruct (lstrip_p_spec p s) as [a [H _]]. exists a, []. now rewrite app_nil_r.
Qed.
Lemma rstrip_p_substr : forall p s, substr_of (rstrip_p p s) s.
Proof. intros p s. destruct (rstrip_p_spec p s) as [b [H _]]. now exists [], b. Qed.
Lemma strip_p_substr : forall p s, substr_of (strip_p p s) s.
Proof.
  intros p s. unfold strip_p. eapply substr_trans; [apply rstrip_p_substr|apply lstrip_p_substr].
Qed.
Lemma group_str_substr : forall r s x n, re_match r s = Some x -> substr_of (group_str n x) s.
Proof.
  intros r s x n H. apply match_at_groups in H. destruct H as [_ H]. unfold group_str.
  destruct (group n x) eqn:E; [now apply (H n)|apply substr_nil].
Qed.

(** Value of an evaluator: part of its input, the digit one, or a reference to
    a part of the input that also contained the call of d.getVar. *)
Definition eval_small (clean v : str) : Prop :=
  substr_of v clean \/ v = "1" \/
  (exists w, substr_of w clean /\ v = "${" ++ w ++ "}" /\ contains "d.getVar" clean = true
             /\ length w + 10 <= length clean).

Lemma eval_two_small : forall needle r neg s v, eval_two needle r neg s = Some v -> eval_small s v.
Proof.
  intros needle r neg s v H. unfold eval_two in H. destruct (contains needle s); [|discriminate].
  destruct (re_match r s) as [x|] eqn:E; [|discriminate]. inversion H; subst. left.
  eapply substr_trans; [apply strip_p_substr|]. now apply (group_str_substr r).
Qed.
Lemma eval_one_small : forall needle r neg s v, eval_one needle r neg s = Some v -> eval_small s v.
Proof.
  intros needle r neg s v H. unfold eval_one in H. destruct (contains needle s); [|discriminate].
  destruct (re_match r s) as [x|] eqn:E; [|discriminate]. inversion H; subst. left.
  destruct neg; [apply substr_nil|].
  eapply substr_trans; [apply strip_p_substr|]. now apply (group_str_substr r).
Qed.
Lemma eval_distro_small : forall needle r neg s v, eval_distro needle r neg s = Some v -> eval_small s v.
Proof.
  intros needle r neg s v H. unfold eval_distro in H. destruct (contains needle s); [|discriminate].
  destruct (re_match r s) as [x|] eqn:E; [|discriminate]. inversion H as [Hv]. clear H.
  assert (Hs : forall n, substr_of (strip_quotes (group_str n x)) s).
  { intro n. eapply substr_trans; [apply strip_p_substr|]. now apply (group_str_substr r). }
  destruct neg; [left; apply Hs|].
  destruct (group_str "trueval" x) eqn:Et; [right; left; reflexivity|]. rewrite <- Et. left. apply Hs.
Qed.

(** A match of the d.getVar pattern has at least ten characters around the group. *)
Lemma mt_lit_length : forall l s s', mt (RLit l) s s' -> length (m_rest s) = length l + length (m_rest s').
Proof.
  induction l as [|c l IH]; intros s s' H; [inversion H; subst; reflexivity|].
  destruct l as [|d l].
  - inversion H as [|p s0 c0 t Hr Hp| | | | | | | | | | ]; subst. rewrite Hr. reflexivity.
  - change (RLit (c :: d :: l)) with (RSeq (RChr (ch c)) (RLit (d :: l))) in H.
    inversion H as [| |a b s0 s1 s2 H1 H2| | | | | | | | | ]; subst.
    inversion H1 as [|p s0 c0 t Hr Hp| | | | | | | | | | ]; subst. apply IH in H2. simpl in *.
    rewrite Hr. simpl. lia.
Qed.

Lemma d_getvar_small : forall s v, d_getvar s = Some v -> eval_small s v.
Proof.
  intros s v H. unfold d_getvar in H. destruct (contains "d.getVar" s) eqn:Ec; [|discriminate].
  destruct (re_match re_d_getvar s) as [x|] eqn:E; [|discriminate]. inversion H; subst.
  right. right. exists (strip_quotes (group_str "val" x)).
  pose proof (group_str_substr _ _ _ "val" E) as Hg.
  split; [eapply substr_trans; [apply strip_p_substr|exact Hg]|].
  split; [reflexivity|]. split; [exact Ec|].
  enough (Hl : length (group_str "val" x) + 10 <= length s).
  { pose proof (substr_length _ _ (strip_p_substr (in_chars [cDQ; cSQ]) (group_str "val" x))) as Hs.
    unfold strip_quotes, strip. lia. }
  clear Hg H Ec. apply match_at_some in E. destruct E as [s' [Hm ->]].
  unfold re_d_getvar, RCat in Hm.
  inversion Hm as [| |a b s0 s1 s2 H1 H2| | | | | | | | | ]; subst. clear Hm.
  inversion H2 as [| |a b s0 s3 s4 H3 H4| | | | | | | | | ]; subst. clear H2.
  inversion H4 as [| |a b s0 s5 s6 H5 H6| | | | | | | | | ]; subst. clear H4.
  inversion H6 as [| |a b s0 s7 s8 H7 H8| | | | | | | | | ]; subst. clear H6.
  inversion H8 as [| |a b s0 s9 s10 H9 H10| | | | | | | | | ]; subst. clear H8.
  apply mt_le in H1. apply (mt_lit_length "d.getVar(") in H3. apply mt_le in H5.
  inversion H7 as [| | | | | | |n r s0 s11 H11| | | | ]; subst. clear H7.
  assert (H12 := mt_le _ _ _ H11). assert (H13 := mt_le _ _ _ H9).
  assert (Hgrp : m_grp s' = m_grp s9).
  { inversion H10; subst. reflexivity. }
  assert (Hgrp2 : m_grp s9 = ("val", consumed s5 s11) :: m_grp s11).
  { unfold sp_star, RSp in H9. apply mt_star_chr_iff in H9. destruct H9 as [w [t [_ [_ ->]]]]. reflexivity. }
  inversion H10 as [|p s0 c t Hr Hp| | | | | | | | | | ]; subst. rewrite Hr in H13. simpl in H13.
  unfold group_str, group. simpl g_all. simpl in Hgrp. rewrite Hgrp2. simpl lookup_group.
  unfold consumed. pose proof (firstn_le_length (length (m_rest s5) - length (m_rest s11)) (m_rest s5)) as Hf.
  rewrite firstn_length. simpl in *. lia.
Qed.

Lemma first_eval_small : forall l s v,
  (forall f, In f l -> forall s v, f s = Some v -> eval_small s v) ->
  first_eval l s = Some v -> eval_small s v.
Proof.
  induction l as [|f l IH]; intros s v Hf H; simpl in H; [discriminate|].
  destruct (f s) as [w|] eqn:E.
  - inversion H; subst. apply (Hf f); [now left|assumption].
  - apply IH; [|assumption]. intros g Hg. apply Hf. now right.
Qed.

Lemma inlinerep_small : forall s neg v, inlinerep s neg = Some v -> eval_small (inline_clean s) v.
Proof.
  intros s neg v H. unfold inlinerep in H. apply first_eval_small in H; [assumption|].
  intros f Hf. simpl in Hf.
  repeat match type of Hf with
         | _ \/ _ => destruct Hf as [<-|Hf]
         end; try contradiction; intros s0 v0 H0;
    first [eapply eval_two_small; exact H0 | eapply eval_one_small; exact H0
          | eapply eval_distro_small; exact H0 | eapply d_getvar_small; exact H0].
Qed.

(** *** replace *)

Lemma replace_go_skip : forall old new k s, replace_go old new k s = replace_go old new 0 (skipn k s).
Proof.
  induction k as [|k IH]; intro s; [reflexivity|].
  destruct s as [|c s]; simpl; [reflexivity|]. apply IH.
Qed.

Lemma replace_go_eq : forall old new s, old <> [] ->
  replace_go old new 0 s =
  if startswith old s then new ++ replace_go old new 0 (skipn (length old) s)
  else match s with [] => [] | c :: t => c :: replace_go old new 0 t end.
Proof.
  intros old new s Ho. destruct s as [|c s].
  - destruct old; [congruence|]. reflexivity.
  - simpl replace_go at 1. destruct (startswith old (c :: s)); [|reflexivity].
    rewrite replace_go_skip. destruct old as [|x old]; [congruence|]. simpl. now rewrite Nat.sub_0_r.
Qed.

Lemma replace_eq : forall old new s, old <> [] -> replace old new s = replace_go old new 0 s.
Proof. intros [|c old] new s H; [congruence|reflexivity]. Qed.

(** A measure that adds up over concatenation goes down by the same amount for
    every replaced occurrence. *)
Lemma replace_measure : forall (f : str -> nat) old new s,
  f [] = 0 -> (forall a b, f (a ++ b) = f a + f b) -> old <> [] ->
  exists n, f (replace old new s) + n * f old = f s + n * f new
            /\ (contains old s = true -> 0 < n).
Proof.
  intros f old new s H0 Happ Ho. rewrite replace_eq by assumption.
  assert (Hl : length s <= length s) by lia. revert Hl. generalize (length s) at 2 as l. intro l.
  revert s. induction l as [|l IH]; intros s Hl.
  - destruct s; [|simpl in Hl; lia]. exists 0. simpl. split; [lia|].
    intro H. apply contains_spec in H. destruct H as [a [b H]].
    destruct a; [|discriminate]. destruct old; [congruence|discriminate].
  - rewrite replace_go_eq by assumption. destruct (startswith old s) eqn:E.
    + assert (Es := startswith_skipn _ _ E). destruct (IH (skipn (length old) s)) as [n [Hn _]].
      { assert (length s = length old + length (skipn (length old) s))
          by (rewrite Es at 1; now rewrite app_length).
        destruct old; [congruence|]. simpl in *. lia. }
      exists (S n). split; [|lia]. rewrite Happ. rewrite Es at 2. rewrite Happ. lia.
    + destruct s as [|c s].
      * exists 0. split; [lia|]. intro H. apply contains_spec in H. destruct H as [a [b H]].
        destruct a; [|discriminate]. destruct old; [congruence|discriminate].
      * destruct (IH s) as [n [Hn Hp]]; [simpl in Hl; lia|]. exists n. split.
        -- change (c :: replace_go old new 0 s) with ([c] ++ replace_go old new 0 s).
           change (c :: s) with ([c] ++ s). rewrite !Happ. lia.
        -- intro H. apply Hp. apply contains_spec in H. destruct H as [a [b H]].
           destruct a as [|d a]; simpl in H.
           ++ rewrite H, startswith_app in E. discriminate.
           ++ inversion H; subst. apply contains_spec. now exists a, b.
Qed.

(** *** One round of the loop *)

Lemma scope_loop_prefix : forall s level, exists t, s = scope_loop level s ++ t.
Proof.
  induction s as [|c s IH]; intro level; simpl; [now exists []|].
  match goal with |- context [if ?b then [c] else _] => destruct b end.
  - now exists s.
  - destruct (IH (if N.eqb c 123 then (level + 1)%Z else if N.eqb c 125 then (level - 1)%Z else level)) as [t Ht].
    exists t. simpl. f_equal. exact Ht.
Qed.

Lemma get_full_scope_prefix : forall s n, exists t, s = get_full_scope s n ++ t.
Proof.
  intros s n. unfold get_full_scope. destruct (scope_loop_prefix (skipn n s) 0) as [t Ht].
  exists t. rewrite <- app_assoc, <- Ht. now rewrite firstn_skipn.
Qed.

Lemma get_full_scope_start : forall p s n, length p <= n ->
  exists t, get_full_scope (p ++ s) n = p ++ t.
Proof.
  intros p s n H. unfold get_full_scope. rewrite firstn_app, firstn_all2 by assumption.
  rewrite <- app_assoc. eexists. reflexivity.
Qed.

Lemma inline_clean_dollar : forall t,
  count_char 36 (inline_clean ("${@" ++ t)) < count_char 36 ("${@" ++ t)
  /\ length (inline_clean ("${@" ++ t)) + 3 <= length ("${@" ++ t).
Proof.
  intro t. unfold inline_clean, lstrip, rstrip.
  rewrite lstrip_p_app by reflexivity.
  assert (H : substr_of (rstrip_p (in_chars "}") (lstrip_p (in_chars "${@") t)) t).
  { eapply substr_trans; [apply rstrip_p_substr|apply lstrip_p_substr]. }
  pose proof (substr_count 36 _ _ H). pose proof (substr_length _ _ H). simpl. lia.
Qed.

Lemma INLINE_BLOCK_no_dollar : count_char 36 INLINE_BLOCK = 0.
Proof. reflexivity. Qed.

(** What a round does with the two measures. *)
Lemma inline_step_measure : forall neg raw raw' b,
  inline_step neg raw = Some (raw', b) ->
  count_char 36 raw' < count_char 36 raw \/
  (count_char 36 raw' <= count_char 36 raw /\ length raw' < length raw).
Proof.
  intros neg raw raw' b H. unfold inline_step in H.
  destruct (find_str "${@" raw) as [[pre post]|] eqn:E; [|discriminate].
  apply find_str_some in E.
  assert (Hskip : skipn (length pre) raw = "${@" ++ post).
  { rewrite E, skipn_app, skipn_all, Nat.sub_diag. reflexivity. }
  rewrite Hskip in H. remember (get_full_scope ("${@" ++ post) 3) as repl eqn:Er.
  destruct (get_full_scope_start "${@" post 3) as [t Ht]; [simpl; lia|].
  rewrite <- Er in Ht.
  destruct (get_full_scope_prefix ("${@" ++ post) 3) as [t2 Ht2]. rewrite <- Er in Ht2.
  assert (Hne : repl <> []) by (rewrite Ht; discriminate).
  assert (Hin : contains repl raw = true).
  { apply contains_spec. exists pre, t2. now rewrite E, Ht2. }
  set (repl' := match inlinerep repl neg with Some v => v | None => INLINE_BLOCK end) in *.
  inversion H; subst raw' b. clear H.
  destruct (replace_measure (count_char 36) repl repl' raw eq_refl (count_char_app 36) Hne)
    as [n [Hn Hp]]. specialize (Hp Hin).
  destruct (replace_measure (@length N) repl repl' raw eq_refl (@app_length N) Hne)
    as [n2 [Hn2 Hp2]]. specialize (Hp2 Hin).
  assert (Hr : count_char 36 repl' < count_char 36 repl \/
               (count_char 36 repl' <= count_char 36 repl /\ length repl' < length repl)).
  { destruct (inline_clean_dollar t) as [Hd Hl]. rewrite <- Ht in Hd, Hl.
    subst repl'. destruct (inlinerep repl neg) as [v|] eqn:Ei.
    - apply inlinerep_small in Ei. destruct Ei as [Ei|[->|[w [Ei [-> [_ Hw]]]]]].
      + left. pose proof (substr_count 36 _ _ Ei). lia.
      + left. simpl. lia.
      + right. pose proof (substr_count 36 _ _ Ei). rewrite !count_char_app, !app_length. simpl. lia.
    - left. rewrite INLINE_BLOCK_no_dollar. lia. }
  destruct Hr as [Hr|[Hr1 Hr2]].
  - left. nia.
  - right. split; nia.
Qed.

Lemma inline_step_none : forall neg raw, inline_step neg raw = None <-> contains "${@" raw = false.
Proof.
  intros neg raw. unfold inline_step, contains. destruct (find_str "${@" raw) as [[pre post]|]; split;
    intro H; try discriminate; reflexivity.
Qed.

Lemma inline_outer_eq : forall d neg l raw blocks,
  inline_outer d neg l raw blocks =
  match inline_step neg raw with
  | None => Some (raw, rev blocks)
  | Some (raw', b) =>
      if Nat.ltb (count_char 36 raw') (count_char 36 raw) then
        match d with O => None | S d' => inline_outer d' neg (length raw') raw' (b :: blocks) end
      else
        match l with O => None | S l' => inline_outer d neg l' raw' (b :: blocks) end
  end.
Proof. intros [|d] neg [|l] raw blocks; reflexivity. Qed.

Lemma inline_outer_some : forall d neg l raw blocks,
  count_char 36 raw <= d -> length raw <= l ->
  exists raw' bs, inline_outer d neg l raw blocks = Some (raw', bs) /\ contains "${@" raw' = false.
Proof.
  induction d as [d IHd] using lt_wf_ind. intros neg l. induction l as [l IHl] using lt_wf_ind.
  intros raw blocks Hd Hl. rewrite inline_outer_eq.
  destruct (inline_step neg raw) as [[raw' b]|] eqn:E.
  - apply inline_step_measure in E.
    destruct (Nat.ltb_spec (count_char 36 raw') (count_char 36 raw)) as [Hlt|Hge].
    + destruct d as [|d]; [lia|]. apply IHd; lia.
    + destruct E as [E|[E1 E2]]; [lia|]. destruct l as [|l]; [lia|]. apply IHl; lia.
  - exists raw, (rev blocks). split; [reflexivity|]. now apply inline_step_none in E.
Qed.

Lemma inline_blocks_total : forall neg raw,
  exists raw' bs, inline_blocks_of neg raw = Some (raw', bs) /\ contains "${@" raw' = false.
Proof. intros neg raw. apply inline_outer_some; lia. Qed.

(** ** The chunk loop *)

Lemma subparser_ok : forall off num neg line rest c next len rest',
  line <> [] -> Forall (fun l => l <> []) rest ->
  subparser off num neg line rest = Ok (c, next, len, rest') ->
  exists ls, rest = ls ++ line_list next rest' /\ ck_realraw c = line ++ concat ls
    /\ ck_line c = (num + off)%Z /\ len = Z.of_nat (count_char cNL (ck_realraw c))
    /\ inline_blocks_of neg (ck_realraw c) = Some (ck_raw c, ck_blocks c)
    /\ ck_cnt c = map_char cBSL cESC (remove_char cNL (ck_raw c)).
Proof.
  intros off num neg line rest c next len rest' Hl Hne H. unfold subparser in H.
  destruct (iterate line rest) as [[[t n] r]|e|] eqn:E; simpl in H; try discriminate.
  destruct (inline_blocks_of neg t) as [[raw bs]|] eqn:Eb; [|discriminate].
  inversion H; subst; simpl. apply iterate_spec in E; try assumption.
  destruct E as [ls [E1 E2]]. exists ls. auto 10.
Qed.

Lemma subparser_fuel : forall off num neg line rest, subparser off num neg line rest <> NoFuel.
Proof.
  intros off num neg line rest H. unfold subparser in H.
  destruct (iterate line rest) as [[[t n] r]|e|] eqn:E; simpl in H; try discriminate.
  - destruct (inline_blocks_total neg t) as [raw [bs [Eb _]]]. rewrite Eb in H. discriminate.
  - now apply iterate_fuel in E.
Qed.

(** Lines still to be parsed, the buffered one first. *)
Definition pending (next : str) (rest : list str) : list str := line_list next rest.

Lemma prepare_loop_eq : forall f off neg next rest num,
  prepare_loop (S f) off neg next rest num =
  match line_list next rest with
  | [] => Ok []
  | line :: rest' =>
      do x <- subparser off num neg line rest';
      let '(c, next, len, rest') := x in
      do cs <- prepare_loop f off neg next rest' (num + len);
      Ok (c :: cs)
  end.
Proof. intros f off neg [|c next] rest num; [destruct rest; reflexivity|reflexivity]. Qed.

Lemma prepare_loop_fuel : forall f off neg next rest num,
  length (line_list next rest) < f -> Forall (fun l => l <> []) (line_list next rest) ->
  prepare_loop f off neg next rest num <> NoFuel.
Proof.
  induction f as [|f IH]; intros off neg next rest num Hf Hne; [lia|].
  rewrite prepare_loop_eq. destruct (line_list next rest) as [|line rest0]; [discriminate|].
  inversion Hne as [|? ? Hl Hr]; subst.
  destruct (subparser off num neg line rest0) as [[[[c n] len] r]|e|] eqn:E; simpl; try discriminate.
  - apply subparser_ok in E; try assumption. destruct E as [ls [E1 _]].
    specialize (IH off neg n r (num + len)%Z).
    destruct (prepare_loop f off neg n r (num + len)) as [cs|e|]; simpl; try discriminate.
    intro H. apply IH; [| |reflexivity].
    + rewrite E1 in Hf. simpl in Hf. rewrite app_length in Hf. lia.
    + rewrite E1 in Hr. now apply Forall_app in Hr.
  - intros _. now apply subparser_fuel in E.
Qed.

(** The chunks of a text: where they start and what they contain. *)
Definition chunk_ok (off : Z) (neg : bool) (num : Z) (c : chunk) : Prop :=
  ck_line c = (num + off)%Z /\ ck_realraw c <> [] /\
  inline_blocks_of neg (ck_realraw c) = Some (ck_raw c, ck_blocks c) /\
  ck_cnt c = map_char cBSL cESC (remove_char cNL (ck_raw c)).

Fixpoint chunks_ok (off : Z) (neg : bool) (num : Z) (cs : list chunk) : Prop :=
  match cs with
  | [] => True
  | c :: r => chunk_ok off neg num c
              /\ (r = [] \/ 0 < count_char cNL (ck_realraw c))
              /\ chunks_ok off neg (num + Z.of_nat (count_char cNL (ck_realraw c))) r
  end.

Lemma lines_ok_app : forall a b, lines_ok (a ++ b) -> lines_ok b.
Proof.
  induction a as [|x a IH]; intros b H; [exact H|]. simpl in H.
  inversion H as [|l Hl Hi E|l r Hf Hr E]; subst.
  - destruct a; [|discriminate]. destruct b; [constructor|discriminate].
  - auto.
Qed.
Lemma lines_ok_ne : forall l, lines_ok l -> Forall (fun l => l <> []) l.
Proof.
  intros l H. induction H as [|l Hl Hi|l r [t [-> Ht]] Hr IH]; constructor; auto.
  destruct t; discriminate.
Qed.
Lemma lines_ok_full : forall l x r, lines_ok (l :: x :: r) -> 0 < count_char cNL l.
Proof.
  intros l x r H. inversion H as [|l0 Hl Hi E|l0 r0 [t [-> Ht]] Hr E]; subst.
  rewrite count_char_app. simpl. lia.
Qed.

Lemma prepare_loop_ok : forall f off neg next rest num cs,
  lines_ok (line_list next rest) ->
  prepare_loop f off neg next rest num = Ok cs ->
  concat (map ck_realraw cs) = concat (line_list next rest) /\ chunks_ok off neg num cs.
Proof.
  induction f as [|f IH]; intros off neg next rest num cs Hlok H; [discriminate|].
  rewrite prepare_loop_eq in H. pose proof (lines_ok_ne _ Hlok) as Hne.
  destruct (line_list next rest) as [|line rest0] eqn:El.
  - inversion H; subst. simpl. auto.
  - inversion Hne as [|? ? Hl Hr]; subst.
    destruct (subparser off num neg line rest0) as [[[[c n] len] r]|e|] eqn:E; simpl in H; try discriminate.
    apply subparser_ok in E; try assumption. destruct E as [ls [E1 [E2 [E3 [E4 [E5 E6]]]]]].
    destruct (prepare_loop f off neg n r (num + len)) as [cs'|e|] eqn:Ep; simpl in H; try discriminate.
    inversion H; subst cs. clear H.
    assert (Hlok' : lines_ok (line_list n r)).
    { apply (lines_ok_app (line :: ls)). simpl. now rewrite <- E1. }
    specialize (IH off neg n r (num + len)%Z cs' Hlok' Ep). destruct IH as [IH1 IH2].
    split.
    + simpl. rewrite IH1, E2, E1, concat_app. now rewrite app_assoc.
    + simpl. split; [|split].
      * repeat split; try assumption. rewrite E2. destruct line; [congruence|discriminate].
      * destruct cs' as [|c2 cs']; [now left|]. right.
        destruct (line_list n r) as [|l2 r2] eqn:El2.
        -- simpl in IH1. destruct IH2 as [[_ [Hc2 _]] _]. apply app_eq_nil in IH1. tauto.
        -- rewrite E2, E1 in *. clear -Hlok. rewrite count_char_app.
           destruct ls as [|l3 ls]; simpl in Hlok; apply lines_ok_full in Hlok; lia.
      * rewrite E4 in IH2. exact IH2.
Qed.

Lemma prepare_text_ok : forall off neg text cs,
  prepare_text off neg text = Ok cs ->
  concat (map ck_realraw cs) = text /\ chunks_ok off neg 1 cs.
Proof.
  intros off neg text cs H. unfold prepare_text in H. apply prepare_loop_ok in H.
  - simpl in H. rewrite readlines_concat in H. exact H.
  - apply readlines_ok.
Qed.

Lemma prepare_text_fuel : forall off neg text, prepare_text off neg text <> NoFuel.
Proof.
  intros off neg text. apply prepare_loop_fuel; simpl; [lia|]. apply lines_ok_ne, readlines_ok.
Qed.

Lemma prepare_loop_exn : forall f off neg next rest num e,
  prepare_loop f off neg next rest num = Raise e -> e = StopIteration.
Proof.
  induction f as [|f IH]; intros off neg next rest num e H; [discriminate|].
  rewrite prepare_loop_eq in H. destruct (line_list next rest) as [|line rest0]; [discriminate|].
  destruct (subparser off num neg line rest0) as [[[[c n] len] r]|e'|] eqn:E; simpl in H; try discriminate.
  - destruct (prepare_loop f off neg n r (num + len)) eqn:Ep; simpl in H; try discriminate.
    inversion H; subst. now apply IH in Ep.
  - inversion H; subst. unfold subparser in E.
    destruct (iterate line rest0) as [[[t n] r]|e'|] eqn:Ei; simpl in E; try discriminate.
    + destruct (inline_blocks_of neg t) as [[raw bs]|]; discriminate.
    + inversion E; subst. now apply iterate_exn in Ei.
Qed.

(** ** Configuration does not matter for the division into chunks *)

Lemma subparser_config : forall off off' num neg neg' line rest c n len r,
  subparser off num neg line rest = Ok (c, n, len, r) ->
  exists c', subparser off' num neg' line rest = Ok (c', n, len, r)
    /\ ck_realraw c' = ck_realraw c /\ (ck_line c' - off' = ck_line c - off)%Z.
Proof.
  intros off off' num neg neg' line rest c n len r H. unfold subparser in *.
  destruct (iterate line rest) as [[[t n0] r0]|e|] eqn:E; simpl in H |- *; try discriminate.
  destruct (inline_blocks_of neg t) as [[raw bs]|] eqn:Eb; [|discriminate].
  destruct (inline_blocks_total neg' t) as [raw' [bs' [Eb' _]]]. rewrite Eb'.
  inversion H; subst. eexists. split; [reflexivity|]. simpl. split; [reflexivity|lia].
Qed.

Lemma prepare_loop_config : forall f off off' neg neg' next rest num cs,
  prepare_loop f off neg next rest num = Ok cs ->
  exists cs', prepare_loop f off' neg' next rest num = Ok cs'
    /\ Forall2 (fun c c' => ck_realraw c' = ck_realraw c /\ (ck_line c' - off' = ck_line c - off)%Z) cs cs'.
Proof.
  induction f as [|f IH]; intros off off' neg neg' next rest num cs H; [discriminate|].
  rewrite prepare_loop_eq in *. destruct (line_list next rest) as [|line rest0].
  - inversion H; subst. exists []. split; [reflexivity|constructor].
  - destruct (subparser off num neg line rest0) as [[[[c n] len] r]|e|] eqn:E; simpl in H; try discriminate.
    apply (subparser_config off off' num neg neg') in E. destruct E as [c' [E [E1 E2]]]. rewrite E.
    destruct (prepare_loop f off neg n r (num + len)) as [cs1|e|] eqn:Ep; simpl in H; try discriminate.
    apply (IH off off' neg neg') in Ep. destruct Ep as [cs1' [Ep Hf]]. simpl. rewrite Ep. simpl.
    inversion H; subst. eexists. split; [reflexivity|]. constructor; auto.
Qed.

Lemma prepare_text_config : forall off off' neg neg' text cs,
  prepare_text off neg text = Ok cs ->
  exists cs', prepare_text off' neg' text = Ok cs'
    /\ Forall2 (fun c c' => ck_realraw c' = ck_realraw c /\ (ck_line c' - off' = ck_line c - off)%Z) cs cs'.
Proof. intros. now apply prepare_loop_config with (off := off) (neg := neg). Qed.
