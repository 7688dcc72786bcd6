(** * Base names and patterns made from them *)

From Verif Require Import PyStr Regex Patterns PyPath Res StrFacts ReFacts LinesFacts.

(** ** str.replace *)

Lemma replace_hit : forall old new a b, old <> [] ->
  (forall a1 a2, a = a1 ++ a2 -> a2 <> [] -> startswith old (a2 ++ old ++ b) = false) ->
  replace old new (a ++ old ++ b) = a ++ new ++ replace old new b.
Proof.
  intros old new a b Ho H. rewrite !replace_eq by exact Ho. induction a as [|c a IH]; simpl app.
  - rewrite (replace_go_eq _ _ (old ++ b)) by exact Ho. rewrite startswith_app.
    now rewrite skipn_app, skipn_all, Nat.sub_diag.
  - rewrite (replace_go_eq _ _ (c :: _)) by exact Ho.
    pose proof (H [] (c :: a) eq_refl ltac:(discriminate)) as H0. simpl app in H0. rewrite H0. f_equal. apply IH. intros a1 a2 E Hn. apply (H (c :: a1)); [|exact Hn]. simpl. now rewrite E.
Qed.

Lemma replace_none : forall old new s, old <> [] -> contains old s = false -> replace old new s = s.
Proof.
  intros old new s Ho H. rewrite replace_eq by exact Ho. induction s as [|c s IH]; [reflexivity|].
  rewrite replace_go_eq by exact Ho. rewrite contains_false in H.
  destruct (startswith old (c :: s)) eqn:E.
  - apply startswith_spec in E. destruct E as [t E]. exfalso. apply (H [] t). exact E.
  - f_equal. apply IH. apply contains_false. intros x y E2. apply (H (c :: x) y). simpl. now rewrite E2.
Qed.

(** Replacing one character. *)
Lemma replace_char_app : forall c new a b, replace [c] new (a ++ b) = replace [c] new a ++ replace [c] new b.
Proof.
  intros c new a b. rewrite !replace_eq by discriminate. 
  assert (Hs : forall x l, startswith [c] (x :: l) = N.eqb c x).
  { intros x l. unfold startswith. now rewrite andb_true_r. }
  induction a as [|x a IH]; [reflexivity|].
  cbn [app replace_go]. rewrite !Hs. simpl Nat.sub. destruct (N.eqb c x); rewrite IH; [now rewrite app_assoc|reflexivity].
Qed.
Lemma replace_char_none : forall c new a, ~ In c a -> replace [c] new a = a.
Proof.
  intros c new a H. apply replace_none; [discriminate|]. apply contains_false. intros x y ->.
  apply H. apply in_or_app. right. now left.
Qed.

(** ** basename *)

Lemma rsplit_slash_no : forall s, ~ In cSL s -> rsplit_slash s = ([], s).
Proof.
  induction s as [|c s IH]; intro H; [reflexivity|]. cbn [rsplit_slash].
  rewrite IH by (intro; apply H; now right). destruct (N.eqb c cSL) eqn:E; [|reflexivity].
  apply N.eqb_eq in E. exfalso. apply H. now left.
Qed.
Lemma rsplit_slash_app : forall d n, ~ In cSL n -> rsplit_slash (d ++ [cSL] ++ n) = (d ++ [cSL], n).
Proof.
  induction d as [|c d IH]; intros n H.
  - cbn [app rsplit_slash]. now rewrite rsplit_slash_no.
  - change ((c :: d) ++ [cSL] ++ n) with (c :: (d ++ [cSL] ++ n)). cbn [rsplit_slash]. rewrite (IH n H).
    cbn [app]. destruct (d ++ [cSL]) eqn:E; [|reflexivity].
    destruct d; discriminate.
Qed.
Lemma basename_app : forall d n, ~ In cSL n -> basename (d ++ [cSL] ++ n) = n.
Proof. intros d n H. unfold basename. now rewrite rsplit_slash_app. Qed.

(** ** Patterns *)

(** Characters that mean themselves in a pattern; the dot is treated apart. *)
Definition special : str := "^$\()[]{}|*+?".
Definition plain_char (c : N) : Prop := ~ In c special.

Definition lit_or_dot (c : N) : re := if N.eqb c 46 then RDot else RChr (ch c).
Fixpoint lits (n : str) (r : re) : re :=
  match n with [] => r | c :: t => RSeq (lit_or_dot c) (lits t r) end.

Definition no_quant (s : str) : Prop :=
  match s with [] => True | c :: _ => ~ In c [42; 43; 63]%N end.
Lemma take_quant_none : forall s, no_quant s -> take_quant s = (QNone, s).
Proof.
  intros [|c s] H; [reflexivity|]. simpl in H. unfold take_quant.
  assert (H1 : N.eqb c 42 = false) by (apply N.eqb_neq; intros ->; apply H; auto).
  assert (H2 : N.eqb c 43 = false) by (apply N.eqb_neq; intros ->; apply H; auto).
  assert (H3 : N.eqb c 63 = false) by (apply N.eqb_neq; intros ->; apply H; auto).
  rewrite H1, H2, H3. destruct s as [|d s]; [reflexivity|]. destruct (N.eqb d 63), (N.eqb d 43); reflexivity.
Qed.

Lemma compile_lits : forall n rest r f, Forall plain_char n -> no_quant rest ->
  compile_pat f rest = Some r -> compile_pat (length n + f) (n ++ rest) = Some (lits n r).
Proof.
  induction n as [|c n IH]; intros rest r f Hn Hq Hr; [exact Hr|].
  inversion Hn as [|? ? Hc Hn']; subst. cbn [length app Nat.add compile_pat].
  assert (Hne : forall x, In x special -> N.eqb c x = false).
  { intros x Hx. apply N.eqb_neq. intros ->. now apply Hc. }
  rewrite (Hne 94%N) by (vm_compute; tauto). rewrite (Hne 36%N) by (vm_compute; tauto).
  rewrite (Hne cBSL) by (vm_compute; tauto).
  assert (Hu : in_chars unsupported_chars c = false).
  { destruct (in_chars unsupported_chars c) eqn:E; [|reflexivity]. apply in_chars_In in E. exfalso. apply Hc.
    unfold unsupported_chars in E. vm_compute in E. vm_compute. tauto. }
  rewrite Hu.
  assert (Hq' : no_quant (n ++ rest)).
  { destruct n as [|d n]; [exact Hq|]. inversion Hn' as [|? ? Hd _]; subst. simpl. intro H. apply Hd.
    vm_compute in H. vm_compute. tauto. }
  rewrite take_quant_none by exact Hq'. rewrite (IH rest r f Hn' Hq Hr).
  cbn [lits]. unfold lit_or_dot. destruct (N.eqb c 46); reflexivity.
Qed.

Lemma compile_more : forall f s r, compile_pat f s = Some r -> forall f', f <= f' -> compile_pat f' s = Some r.
Proof.
  induction f as [|f IH]; intros s r H f' Hf; [discriminate|]. destruct f' as [|f']; [lia|].
  assert (Hle : f <= f') by lia.
  destruct s as [|c t]; [exact H|]. cbn [compile_pat] in *.
  assert (Hat : forall x t, (let '(q, t') := take_quant t in
             match compile_pat f t' with Some r' => Some (RSeq (quantify q x) r') | None => None end) = Some r ->
            (let '(q, t') := take_quant t in
             match compile_pat f' t' with Some r' => Some (RSeq (quantify q x) r') | None => None end) = Some r).
  { intros x t0 E. destruct (take_quant t0) as [q t']. destruct (compile_pat f t') as [r'|] eqn:Ec; [|discriminate].
    now rewrite (IH _ _ Ec _ Hle). }
  assert (Han : forall x t, match take_quant t with
             | (QNone, t') => match compile_pat f t' with Some r' => Some (RSeq x r') | None => None end
             | _ => None end = Some r ->
            match take_quant t with
             | (QNone, t') => match compile_pat f' t' with Some r' => Some (RSeq x r') | None => None end
             | _ => None end = Some r).
  { intros x t0 E. destruct (take_quant t0) as [q t']. destruct q; try discriminate.
    destruct (compile_pat f t') as [r'|] eqn:Ec; [|discriminate]. now rewrite (IH _ _ Ec _ Hle). }
  destruct (N.eqb c 94); [now apply Han|]. destruct (N.eqb c 36); [now apply Han|].
  destruct (N.eqb c 46); [now apply Hat|]. destruct (N.eqb c cBSL).
  - destruct t as [|d t]; [discriminate|]. destruct (is_alnum_ascii d); [discriminate|]. now apply Hat.
  - destruct (in_chars unsupported_chars c); [discriminate|]. now apply Hat.
Qed.

Lemma dyn_lits : forall n rest r f, Forall plain_char n -> no_quant rest ->
  compile_pat f rest = Some r -> f <= S (length rest) -> dyn_pattern (n ++ rest) = Some (lits n r).
Proof.
  intros n rest r f Hn Hq Hr Hf. unfold dyn_pattern. eapply compile_more.
  - apply (compile_lits n rest r f Hn Hq Hr).
  - rewrite app_length. lia.
Qed.

(** Matching: the literal text itself matches. *)
Lemma mt_lits_self : forall n r b t g s', mt r (after b n t g) s' -> ~ In cNL n -> mt (lits n r) (MS b (n ++ t) g) s'.
Proof.
  induction n as [|c n IH]; intros r b t g s' H Hn; [exact H|]. cbn [lits app].
  apply mt_seq_iff. exists (MS false (n ++ t) g). split.
  - unfold lit_or_dot. destruct (N.eqb c 46) eqn:E; apply mt_chr_iff; exists c, (n ++ t); repeat split.
    + unfold dotp. destruct (N.eqb c cNL) eqn:E2; [|reflexivity]. apply N.eqb_eq in E2. exfalso. apply Hn. now left.
    + unfold ch. apply N.eqb_refl.
  - apply IH; [|intro; apply Hn; now right]. destruct n; exact H.
Qed.

(** A match of literals consumes a text of the same length that differs at
    most at the dots. *)
Definition dot_like (n w : str) : Prop := Forall2 (fun c d => d = c \/ c = 46%N) n w.
Lemma mt_lits_inv : forall n r b s g s', mt (lits n r) (MS b s g) s' ->
  exists w t, s = w ++ t /\ dot_like n w /\ mt r (after b w t g) s'.
Proof.
  induction n as [|c n IH]; intros r b s g s' H.
  - exists [], s. split; [reflexivity|]. split; [constructor|exact H].
  - cbn [lits] in H. apply mt_seq_iff in H. destruct H as [s1 [H1 H2]].
    assert (Hc : exists d t, s = d :: t /\ (d = c \/ c = 46%N) /\ s1 = MS false t g).
    { unfold lit_or_dot in H1. destruct (N.eqb c 46) eqn:E; apply mt_chr_iff in H1;
        destruct H1 as [d [t [E1 [E2 E3]]]]; simpl in *; exists d, t; repeat split; auto.
      - right. now apply N.eqb_eq.
      - left. unfold ch in E2. now apply N.eqb_eq. }
    destruct Hc as [d [t [-> [Hd ->]]]]. apply IH in H2. destruct H2 as [w [t' [-> [Hw H2]]]].
    exists (d :: w), t'. split; [reflexivity|]. split; [constructor; auto|].
    destruct w; exact H2.
Qed.
