(** * Proofs about the texts of items and the fingerprint *)

From Coq Require Import Decimal DecimalZ DecimalFacts Permutation.
From Verif Require Import PyStr Regex PyPath Res Const Item Stash Repr StrFacts ItemFacts QueryFacts Spec_Query Spec_Fingerprint HistFacts
  Proofs_Files.

(** ** Texts that can be told apart whatever follows *)

Definition told {A} (f : A -> str) : Prop := forall x y r r', f x ++ r = f y ++ r' -> x = y /\ r = r'.
(** The same, if what follows begins with one of [fs]. *)
Definition begins (fs : str) (r : str) : Prop := exists c r', r = c :: r' /\ In c fs.
Definition told_before {A} (fs : str) (f : A -> str) : Prop :=
  forall x y r r', begins fs r -> begins fs r' -> f x ++ r = f y ++ r' -> x = y /\ r = r'.

Lemma told_weak : forall A fs (f : A -> str), told f -> told_before fs f.
Proof. intros A fs f H x y r r' _ _. apply H. Qed.

Lemma app_split : forall A (a b : list A) x y, length a = length b -> a ++ x = b ++ y -> a = b /\ x = y.
Proof.
  induction a as [|c a IH]; intros [|d b] x y Hl H; try discriminate Hl; simpl in H; [auto|].
  injection H as -> H. injection Hl as Hl. destruct (IH _ _ _ Hl H) as [-> ->]. auto.
Qed.

(** ** Hexadecimal numbers *)
Lemma hex_length : forall w c, length (hex w c) = w.
Proof. induction w as [|w IH]; intro c; simpl; [reflexivity|]. rewrite app_length, IH. simpl. lia. Qed.
Lemma hex_digit_inj : forall d d', (d < 16 -> d' < 16 -> hex_digit d = hex_digit d' -> d = d')%N.
Proof.
  intros d d' H H'. unfold hex_digit.
  destruct (N.ltb_spec d 10), (N.ltb_spec d' 10); lia.
Qed.
Lemma hex_inj : forall w c c', (c < 16 ^ N.of_nat w -> c' < 16 ^ N.of_nat w)%N -> (c < 16 ^ N.of_nat w)%N ->
  hex w c = hex w c' -> c = c'.
Proof.
  induction w as [|w IH]; intros c c' H' H E.
  - specialize (H' H). change (N.of_nat 0) with 0%N in *. rewrite N.pow_0_r in *. lia.
  - specialize (H' H). rewrite Nat2N.inj_succ, N.pow_succ_r' in H, H'. simpl in E.
    apply app_inj_tail in E. destruct E as [E1 E2].
    assert (E3 : (c / 16 = c' / 16)%N).
    { apply IH; [intros _|..]; [| |exact E1]; apply N.div_lt_upper_bound; lia. }
    apply hex_digit_inj in E2; try (apply N.mod_lt; lia).
    rewrite (N.div_mod c 16), (N.div_mod c' 16) by lia. now rewrite E3, E2.
Qed.
Lemma hex_told : forall w c c' r r', (c < 16 ^ N.of_nat w)%N -> (c' < 16 ^ N.of_nat w)%N ->
  hex w c ++ r = hex w c' ++ r' -> c = c' /\ r = r'.
Proof.
  intros w c c' r r' H H' E. apply app_split in E; [|now rewrite !hex_length]. destruct E as [E ->].
  split; [|reflexivity]. now apply (hex_inj w c c').
Qed.

(** ** Texts of strings *)
Lemma hex_digit_range : forall d, (d < 16 -> 48 <= hex_digit d <= 102)%N.
Proof. intros d H. unfold hex_digit. destruct (N.ltb_spec d 10); lia. Qed.

Inductive form (q c : N) : str -> Prop :=
| form_quote : c = q \/ c = 92%N -> form q c [92%N; c]
| form_name : forall k, In (c, k) [(9, 116); (10, 110); (13, 114)]%N -> form q c [92%N; k]
| form_hex : forall w k, In (w, k) [(2%nat, 120%N); (4%nat, 117%N); (8%nat, 85%N)] -> (c < 16 ^ N.of_nat w)%N ->
    form q c (92%N :: k :: hex w c)
| form_self : c <> 92%N -> form q c [c].
Lemma esc_form : forall pr q c, form q c (esc pr q c).
Proof.
  intros pr q c. unfold esc, cBSL.
  assert (H2 : (16 ^ N.of_nat 2 = 256)%N) by reflexivity.
  assert (H4 : (16 ^ N.of_nat 4 = 65536)%N) by reflexivity.
  assert (H8 : (16 ^ N.of_nat 8 = 4294967296)%N) by reflexivity.
  destruct (N.eqb_spec c q) as [Hq|Hq]; cbn [orb]; [constructor; auto|].
  destruct (N.eqb_spec c 92) as [Hb|Hb]; cbn [orb]; [constructor; auto|].
  destruct (N.eqb_spec c 9) as [->|H9]; [apply form_name; simpl; auto|].
  destruct (N.eqb_spec c 10) as [->|H10]; [apply form_name; simpl; auto|].
  destruct (N.eqb_spec c 13) as [->|H13]; [apply form_name; simpl; auto|].
  destruct ((c <? 32)%N || (c =? 127)%N)%bool eqn:E1.
  { apply form_hex; [simpl; auto|]. rewrite H2. apply orb_true_iff in E1.
    destruct E1 as [E1|E1]; [apply N.ltb_lt in E1|apply N.eqb_eq in E1]; lia. }
  destruct (c <? 127)%N; [now constructor|].
  destruct (pr c || (1114112 <=? c)%N)%bool eqn:E2; [now constructor|].
  apply orb_false_iff in E2. destruct E2 as [_ E2]. apply N.leb_gt in E2.
  destruct (N.ltb_spec c 256); [apply form_hex; [simpl; auto|lia]|].
  destruct (N.ltb_spec c 65536); [apply form_hex; [simpl; auto|lia]|].
  apply form_hex; [simpl; auto|lia].
Qed.
Lemma form_told : forall q c d t u r r', (q = cDQ \/ q = cSQ) -> form q c t -> form q d u -> t ++ r = u ++ r' ->
  c = d /\ r = r'.
Proof.
  intros q c d t u r r' Hq Hc Hd E.
  assert (Hk : forall c k, In (c, k) [(9, 116); (10, 110); (13, 114)]%N -> (k = 116 \/ k = 110 \/ k = 114)%N /\ c <> k /\
            (forall c', In (c', k) [(9, 116); (10, 110); (13, 114)]%N -> c = c')).
  { intros c0 k H. simpl in H.
    assert (K : (c0 = 9 /\ k = 116 \/ c0 = 10 /\ k = 110 \/ c0 = 13 /\ k = 114)%N)
      by (destruct H as [H|[H|[H|[]]]]; inversion H; auto).
    split; [lia|]. split; [lia|]. intros c' H'.
    destruct H' as [H'|[H'|[H'|[]]]]; inversion H'; subst; lia. }
  assert (Hw : forall w k, In (w, k) [(2%nat, 120%N); (4%nat, 117%N); (8%nat, 85%N)] -> (k = 120 \/ k = 117 \/ k = 85)%N /\
            (forall w', In (w', k) [(2%nat, 120%N); (4%nat, 117%N); (8%nat, 85%N)] -> w = w')).
  { intros w k H. simpl in H.
    assert (K : (w = 2%nat /\ k = 120%N \/ w = 4%nat /\ k = 117%N \/ w = 8%nat /\ k = 85%N))
      by (destruct H as [H|[H|[H|[]]]]; inversion H; auto).
    split; [lia|]. intros w' H'.
    destruct H' as [H'|[H'|[H'|[]]]]; inversion H'; subst; lia. }
  assert (Hq' : (q = 34 \/ q = 39)%N) by exact Hq.
  destruct Hc as [Hc|k Hc|w k Hc Lc|Hc], Hd as [Hd|k' Hd|w' k' Hd Ld|Hd]; cbn [List.app] in E;
    try (injection E as E1 E2; congruence).
  - injection E as E1 E2. auto.
  - injection E as E1 E2. apply Hk in Hd. lia.
  - injection E as E1 E2. apply Hw in Hd. lia.
  - injection E as E1 E2. apply Hk in Hc. lia.
  - injection E as E1 E2. subst k'. apply Hk in Hc. destruct Hc as [_ [_ Hc]]. split; [now apply Hc|exact E2].
  - injection E as E1 E2. apply Hk in Hc. apply Hw in Hd. lia.
  - injection E as E1 E2. apply Hw in Hc. lia.
  - injection E as E1 E2. apply Hw in Hc. apply Hk in Hd. lia.
  - assert (E1 : k = k') by (injection E; auto). assert (E2 : hex w c ++ r = hex w' d ++ r') by (injection E; auto).
    subst k'. destruct (Hw _ _ Hc) as [_ Hu]. specialize (Hu _ Hd). subst w'. exact (hex_told _ _ _ _ _ Lc Ld E2).
  - injection E as E1 E2. auto.
Qed.
Lemma esc_told : forall pr q, (q = cDQ \/ q = cSQ) -> told (esc pr q).
Proof. intros pr q Hq c d r r' E. exact (form_told q c d _ _ r r' Hq (esc_form pr q c) (esc_form pr q d) E). Qed.

Lemma esc_first : forall pr q c, (q = cDQ \/ q = cSQ) -> exists d t, esc pr q c = d :: t /\ d <> q.
Proof.
  intros pr q c Hq. assert (Hb : cBSL <> q) by (destruct Hq; subst q; discriminate). unfold esc.
  destruct (N.eqb_spec c q); [cbn [orb]; eauto|].
  repeat match goal with |- context [if ?b then _ else _] => destruct b end; eauto.
Qed.

Lemma quote_of_cases : forall s, quote_of s = cDQ \/ quote_of s = cSQ.
Proof. intro s. unfold quote_of. destruct (_ && _)%bool; auto. Qed.

Lemma repr_str_told : forall pr, told (repr_str pr).
Proof.
  intros pr s t r r'. unfold repr_str.
  pose proof (quote_of_cases s) as Hq. set (q := quote_of s) in *. set (q' := quote_of t) in *.
  cbn [List.app]. intro E. assert (Eq : q = q') by (injection E; auto). rewrite <- Eq in E. clearbody q q'. clear Eq q'.
  assert (E' : flat_map (esc pr q) s ++ q :: r = flat_map (esc pr q) t ++ q :: r').
  { injection E as E. rewrite <- !app_assoc in E. exact E. }
  clear E. revert t E'. induction s as [|c s IH]; intros [|d t] E; cbn [flat_map List.app] in E.
  - injection E as ->. auto.
  - exfalso. destruct (esc_first pr q d Hq) as [x [y [Ed Hx]]]. rewrite Ed in E. cbn [List.app] in E. congruence.
  - exfalso. destruct (esc_first pr q c Hq) as [x [y [Ed Hx]]]. rewrite Ed in E. cbn [List.app] in E. congruence.
  - rewrite <- !app_assoc in E. apply (esc_told pr q Hq) in E. destruct E as [-> E].
    apply IH in E. destruct E as [-> ->]. auto.
Qed.

(** ** Texts of numbers and truth values *)
Definition digit (c : N) : Prop := (48 <= c <= 57)%N.
Lemma repr_uint_digits : forall u c, In c (repr_uint u) -> digit c.
Proof. unfold digit. induction u; simpl; intros c H; [destruct H|..]; (destruct H as [<-|H]; [lia|auto]). Qed.
Lemma digits_told : forall u v r r', (forall c x, r = c :: x -> ~ digit c) -> (forall c x, r' = c :: x -> ~ digit c) ->
  repr_uint u ++ r = repr_uint v ++ r' -> u = v /\ r = r'.
Proof.
  induction u; destruct v; intros r r' Hr Hr' E; cbn [repr_uint List.app] in E;
  try (injection E as E; destruct (IHu _ _ _ Hr Hr' E) as [-> ->]; auto);
  try discriminate E; auto;
  exfalso; first [eapply Hr; [exact E|]|eapply Hr'; [symmetry; exact E|]]; unfold digit; lia.
Qed.

Definition after : str := ",}".
Lemma after_no_digit : forall r, begins after r -> forall c x, r = c :: x -> ~ digit c.
Proof.
  intros r [c [x [-> H]]] c' x' E. injection E as -> ->. unfold digit.
  destruct H as [<-|[<-|[]]]; lia.
Qed.
Lemma repr_int_told : told_before after repr_int.
Proof.
  intros x y r r' Hr Hr' E. unfold repr_int in E.
  pose proof (after_no_digit _ Hr) as Nr. pose proof (after_no_digit _ Hr') as Nr'.
  assert (G : Z.to_int x = Z.to_int y -> x = y).
  { intro H. rewrite <- (DecimalZ.of_to x), <- (DecimalZ.of_to y). now f_equal. }
  assert (Hno : forall u r, begins after r -> forall t, repr_uint u ++ r <> 45%N :: t).
  { intros u q Hq t H. destruct (repr_uint u) as [|c w] eqn:Eu.
    - destruct Hq as [c [z [-> H1]]]. injection H as -> _. destruct H1 as [H1|[H1|[]]]; discriminate H1.
    - injection H as -> _. assert (D : digit 45) by (apply (repr_uint_digits u); rewrite Eu; now left).
      unfold digit in D. lia. }
  destruct (Z.to_int x) as [u|u], (Z.to_int y) as [v|v].
  - apply digits_told in E; auto. destruct E as [-> ->]. auto.
  - exfalso. exact (Hno _ _ Hr _ E).
  - exfalso. exact (Hno _ _ Hr' _ (eq_sym E)).
  - injection E as E. apply digits_told in E; auto. destruct E as [-> ->]. auto.
Qed.
Lemma bool_str_told : told bool_str.
Proof.
  intros x y r r' E. destruct x, y; unfold bool_str in E; cbn [List.app] in E; try discriminate E; injection E as E; auto.
Qed.

(** ** Lists *)
Lemma commas_told : forall A (f : A -> str) cl, told f -> (forall x, exists c t, f x = c :: t /\ c <> cl) -> cl <> 44%N ->
  forall l l' r r', commas (map f l) ++ cl :: r = commas (map f l') ++ cl :: r' -> l = l' /\ r = r'.
Proof.
  intros A f cl Hf Hc Hn. unfold commas.
  assert (Hj : forall x l, join ", " (map f (x :: l)) = f x ++ match l with [] => [] | _ => ", " ++ join ", " (map f l) end).
  { intros x [|y l]; cbn [map join]; [now rewrite app_nil_r|reflexivity]. }
  induction l as [|x l IH]; intros [|y l'] r r' E.
  - cbn [map join List.app] in E. injection E as ->. auto.
  - exfalso. rewrite Hj in E. destruct (Hc y) as [c [t [Ec Hn']]]. rewrite Ec in E. cbn [map join List.app] in E. congruence.
  - exfalso. rewrite Hj in E. destruct (Hc x) as [c [t [Ec Hn']]]. rewrite Ec in E. cbn [map join List.app] in E. congruence.
  - rewrite !Hj, <- !app_assoc in E. apply Hf in E. destruct E as [-> E].
    destruct l as [|x' l], l' as [|y' l'].
    + cbn [List.app] in E. injection E as ->. auto.
    + exfalso. cbn [List.app] in E. injection E as E1 _. now apply Hn.
    + exfalso. cbn [List.app] in E. injection E as E1 _. now apply Hn.
    + rewrite <- !app_assoc in E. apply app_inv_head in E. apply IH in E. destruct E as [-> ->]. auto.
Qed.

Lemma repr_str_first : forall pr s, exists c t, repr_str pr s = c :: t /\ (c = cDQ \/ c = cSQ).
Proof. intros pr s. unfold repr_str. eexists _, _. split; [reflexivity|apply quote_of_cases]. Qed.

Lemma repr_pair_told : forall pr, told (repr_pair pr).
Proof.
  intros pr [a b] [a' b'] r r' E. unfold repr_pair in E. cbn [fst snd] in E. rewrite <- !app_assoc in E.
  apply app_inv_head in E. apply repr_str_told in E. destruct E as [-> E].
  apply app_inv_head in E. apply repr_str_told in E. destruct E as [-> E]. apply app_inv_head in E. auto.
Qed.

(** ** Values *)

(** Same form and same contents; sets have the same members. *)
Definition same_obj (o o' : list str -> list str) (v w : pobj) : Prop :=
  match v, w with
  | OBool a, OBool b => a = b
  | OInt a, OInt b => a = b
  | OStr a, OStr b => a = b
  | OList a, OList b => a = b
  | OPairs a, OPairs b => a = b
  | OSet a, OSet b => o a = o' b /\ (a = [] <-> b = [])
  | OPaths a, OPaths b => o a = o' b /\ (a = [] <-> b = [])
  | _, _ => True
  end.
Definition same_form (v w : pobj) : Prop :=
  match v, w with
  | OBool _, OBool _ | OInt _, OInt _ | OStr _, OStr _ | OList _, OList _ | OPairs _, OPairs _
  | OSet _, OSet _ | OPaths _, OPaths _ => True
  | _, _ => False
  end.

Lemma strs_told : forall pr cl, (cl = 93 \/ cl = 125)%N -> forall l l' r r',
  commas (map (repr_str pr) l) ++ cl :: r = commas (map (repr_str pr) l') ++ cl :: r' -> l = l' /\ r = r'.
Proof.
  intros pr cl Hcl. apply commas_told; [apply repr_str_told|..].
  - intro x. destruct (repr_str_first pr x) as [c [t [E H]]]. exists c, t. split; [exact E|].
    destruct H, Hcl; subst; discriminate.
  - destruct Hcl; subst; discriminate.
Qed.

(** Orders of sets leave nothing out. *)
Definition keeps (o : list str -> list str) : Prop := forall l, Permutation (o l) (dedup_str l).
Lemma keeps_nil : forall o l, keeps o -> (o l = [] <-> l = []).
Proof.
  intros o l H. specialize (H l). split; intro E.
  - rewrite E in H. apply Permutation_nil in H. destruct l; [reflexivity|discriminate H].
  - subst l. simpl in H. apply Permutation_sym in H. now apply Permutation_nil.
Qed.

Lemma obj_told : forall pr o o' v w r r', keeps o -> keeps o' -> same_form v w -> begins after r -> begins after r' ->
  repr_obj pr o v ++ r = repr_obj pr o' w ++ r' -> same_obj o o' v w /\ r = r'.
Proof.
  intros pr o o' v w r r' Ho Ho' Hf Hr Hr' E.
  assert (Hset : forall a b, "{" ++ commas (map (repr_str pr) (o a)) ++ "}" ++ r =
                             "{" ++ commas (map (repr_str pr) (o' b)) ++ "}" ++ r' ->
                 (o a = o' b /\ (a = [] <-> b = [])) /\ r = r').
  { intros a b E'. cbn [List.app] in E'. injection E' as E'.
    apply (strs_told pr 125 (or_intror eq_refl)) in E'. destruct E' as [E1 ->]. split; [|reflexivity]. split; [exact E1|].
    rewrite <- (keeps_nil o a Ho), <- (keeps_nil o' b Ho'). now rewrite E1. }
  destruct v, w; try (destruct Hf; fail); cbn [repr_obj] in E; cbn [same_obj].
  - now apply bool_str_told in E.
  - now apply repr_int_told in E.
  - now apply repr_str_told in E.
  - rewrite <- !app_assoc in E. cbn [List.app] in E. injection E as E. exact (strs_told pr 93 (or_introl eq_refl) _ _ _ _ E).
  - rewrite <- !app_assoc in E. cbn [List.app] in E. injection E as E. revert E.
    apply commas_told; [apply repr_pair_told|..|discriminate].
    intros [x y]. unfold repr_pair. eexists _, _. split; [reflexivity|discriminate].
  - destruct l as [|a l], l0 as [|b l0].
    + cbn [List.app] in E. injection E as ->. split; [|reflexivity]. split; [|tauto].
      now rewrite (proj2 (keeps_nil o [] Ho) eq_refl), (proj2 (keeps_nil o' [] Ho') eq_refl).
    + discriminate E.
    + discriminate E.
    + apply Hset. rewrite <- !app_assoc in E. exact E.
  - apply Hset. assert (G : forall o a, keeps o -> match a with [] => "{}" | _ :: _ => "{" ++ commas (map (repr_str pr) (o a)) ++ "}" end
      = "{" ++ commas (map (repr_str pr) (o a)) ++ "}").
    { intros o1 [|a l1] H1; [|reflexivity]. now rewrite (proj2 (keeps_nil o1 [] H1) eq_refl). }
    rewrite !G in E by assumption. rewrite <- !app_assoc in E. exact E.
Qed.

Lemma begins_comma : forall r, begins after (", " ++ r).
Proof. intro r. exists 44%N, (" " ++ r). split; [reflexivity|now left]. Qed.
Lemma begins_close : forall r, begins after ("}" ++ r).
Proof. intro r. exists 125%N, r. split; [reflexivity|right; now left]. Qed.

Lemma entry_told : forall pr o o' a b r r', keeps o -> keeps o' -> same_form (snd a) (snd b) ->
  begins after r -> begins after r' -> repr_entry pr o a ++ r = repr_entry pr o' b ++ r' ->
  fst a = fst b /\ same_obj o o' (snd a) (snd b) /\ r = r'.
Proof.
  intros pr o o' [n v] [m w] r r' Ho Ho' Hf Hr Hr' E. unfold repr_entry in E. cbn [fst snd] in *.
  rewrite <- !app_assoc in E. apply repr_str_told in E. destruct E as [-> E].
  apply app_inv_head in E. apply obj_told in E; auto.
Qed.

Lemma entries_told : forall pr o o' d d' r r', keeps o -> keeps o' ->
  Forall2 (fun a b => same_form (snd a) (snd b)) d d' ->
  commas (map (repr_entry pr o) d) ++ "}" ++ r = commas (map (repr_entry pr o') d') ++ "}" ++ r' ->
  Forall2 (fun a b => same_obj o o' (snd a) (snd b)) d d' /\ r = r'.
Proof.
  intros pr o o' d d' r r' Ho Ho' Hd. unfold commas.
  induction Hd as [|a b d d' Hab Hd IH]; intro E.
  - cbn [map join List.app] in E. injection E as ->. auto.
  - destruct Hd as [|a' b' d d' Hab' Hd].
    + cbn [map join] in E. apply entry_told in E; auto using begins_close. destruct E as [_ [H E]].
      cbn [List.app] in E. injection E as ->. auto.
    + assert (G : forall o a x d, join ", " (map (repr_entry pr o) (a :: x :: d))
                  = repr_entry pr o a ++ ", " ++ join ", " (map (repr_entry pr o) (x :: d))) by reflexivity.
      rewrite !G, <- !app_assoc in E. apply entry_told in E; auto using begins_comma.
      destruct E as [_ [H E]]. apply app_inv_head in E. apply IH in E. destruct E as [E ->].
      split; [constructor; assumption|reflexivity].
Qed.

(** ** Items *)

Lemma split_at : forall (c : N) a b r r', ~ In c a -> ~ In c b -> a ++ c :: r = b ++ c :: r' -> a = b /\ r = r'.
Proof.
  intros c. induction a as [|x a IH]; intros [|y b] r r' Ha Hb E; cbn [List.app] in E.
  - injection E as ->. auto.
  - exfalso. injection E as -> _. apply Hb. now left.
  - exfalso. injection E as -> _. apply Ha. now left.
  - injection E as -> E. apply IH in E; [destruct E as [-> ->]; auto|..]; intro H; [apply Ha|apply Hb]; now right.
Qed.
Lemma classifier_word : forall i, ~ In cSP (classifier i).
Proof.
  intro i. assert (H : existsb (N.eqb cSP) (classifier i) = false) by (unfold classifier; destruct (it_pay i); reflexivity).
  intro Hi. assert (existsb (N.eqb cSP) (classifier i) = true) by (apply existsb_exists; exists cSP; auto using N.eqb_refl). congruence.
Qed.

Definition same_text (o o' : list str -> list str) (i j : item) : Prop :=
  classifier i = classifier j /\
  Forall2 (fun a b => same_obj o o' (snd a) (snd b)) (own_dict i ++ base_dict i) (own_dict j ++ base_dict j).

Lemma same_forms : forall i j, classifier i = classifier j ->
  Forall2 (fun a b => same_form (snd a) (snd b)) (own_dict i ++ base_dict i) (own_dict j ++ base_dict j).
Proof.
  intros i j H. apply Forall2_app; [|repeat constructor].
  unfold classifier, own_dict in *. destruct (it_pay i), (it_pay j); try discriminate H; repeat constructor.
Qed.

Lemma item_repr_told : forall pr o o' i j r r', keeps o -> keeps o' ->
  item_repr pr o i ++ r = item_repr pr o' j ++ r' -> same_text o o' i j /\ r = r'.
Proof.
  intros pr o o' i j r r' Ho Ho' E. unfold item_repr in E. rewrite <- !app_assoc in E.
  assert (G : forall x : str, (" -- {" : str) ++ x = cSP :: ("-- {" : str) ++ x) by reflexivity.
  rewrite !G in E. apply split_at in E; [|apply classifier_word..]. destruct E as [Ec E]. apply app_inv_head in E.
  apply entries_told in E; auto using same_forms. destruct E as [E E2].
  cbn [List.app] in E2. injection E2 as ->. repeat split; assumption.
Qed.

Lemma Forall2_cons_iff' : forall A B (P : A -> B -> Prop) a l b l', Forall2 P (a :: l) (b :: l') <-> P a b /\ Forall2 P l l'.
Proof. intros. split; [intro H; inversion H; auto|intros [H1 H2]; now constructor]. Qed.

Definition alike_line (i j : item) : Prop := alike i j /\ it_line i = it_line j.

Lemma keeps_members : forall o o' l l', keeps o -> keeps o' -> o l = o' l' -> forall x, In x l <-> In x l'.
Proof.
  intros o o' l l' Ho Ho' E x.
  assert (G : forall o l x, keeps o -> (In x (o l) <-> In x l)).
  { intros o1 l1 y H. specialize (H l1). split; intro Hi.
    - apply dedup_str_In. eapply Permutation_in; [exact H|exact Hi].
    - eapply Permutation_in; [apply Permutation_sym; exact H|]. now apply dedup_str_In. }
  rewrite <- (G o l x Ho), <- (G o' l' x Ho'), E. reflexivity.
Qed.

Lemma same_text_own : forall o o' i j, keeps o -> keeps o' -> classifier i = classifier j ->
  Forall2 (fun a b => same_obj o o' (snd a) (snd b)) (own_dict i) (own_dict j) -> same_kind (it_pay i) (it_pay j).
Proof.
  intros o o' i j Ho Ho' Hc H. unfold classifier, own_dict in *.
  destruct (it_pay i), (it_pay j); try discriminate Hc; clear Hc;
  repeat (rewrite Forall2_cons_iff' in H); cbn [snd same_obj] in H; cbn [same_kind];
  repeat match goal with H : _ /\ _ |- _ => destruct H end; try congruence.
  split; [assumption|]. split; [assumption|]. now apply (keeps_members o o').
Qed.
Lemma own_length : forall i j, classifier i = classifier j -> length (own_dict i) = length (own_dict j).
Proof.
  intros i j H. unfold classifier, own_dict in *. destruct (it_pay i), (it_pay j); try discriminate H; reflexivity.
Qed.
Lemma Forall2_split : forall A B (P : A -> B -> Prop) a b x y, length a = length b -> Forall2 P (a ++ x) (b ++ y) ->
  Forall2 P a b /\ Forall2 P x y.
Proof.
  induction a as [|c a IH]; intros [|d b] x y Hl H; try discriminate Hl; [auto|].
  cbn [List.app] in H. rewrite Forall2_cons_iff' in H. destruct H as [H1 H2]. injection Hl as Hl.
  destruct (IH _ _ _ Hl H2). auto.
Qed.
Lemma same_text_alike : forall o o' i j, keeps o -> keeps o' -> same_text o o' i j -> alike_line i j.
Proof.
  intros o o' i j Ho Ho' [Hc H]. apply Forall2_split in H; [|now apply own_length]. destruct H as [H1 H2].
  apply same_text_own in H1; auto. unfold base_dict in H2.
  repeat (rewrite Forall2_cons_iff' in H2). cbn [snd same_obj] in H2.
  destruct H2 as [A1 [A2 [A3 [A4 [A5 [A6 [A7 [A8 [A9 _]]]]]]]]]. unfold alike_line, alike. auto 12.
Qed.

(** ** Histories *)

Lemma filled_fed : forall e new neg s, filled e new neg s ->
  exists l, Forall2 only_line_raised l (st_list s) /\
    st_fp s = (bool_str new ++ ":" ++ bool_str neg) :: map (e_repr e) l.
Proof.
  intros e new neg s H. induction H as [db|n path off forced s r s' _ [l [IH1 IH2]] H|db s _ IH].
  - exists []. split; [constructor|reflexivity].
  - apply C57_add_lemma in H. destruct H as [old [nw [p [E1 [E2 [E3 E4]]]]]].
    exists (l ++ p). split.
    + rewrite E1. apply Forall2_app; [|exact E3]. clear -IH1 E2. revert old E2.
      induction IH1 as [|x y l l' Hxy _ IH]; intros old E2; inversion E2; subst; constructor; auto.
      eapply olr_trans; eassumption.
    + rewrite E4, IH2, map_app. reflexivity.
  - exact IH.
Qed.

Lemma texts_told : forall pr o o' l l', keeps o -> keeps o' ->
  concat (map (item_repr pr o) l) = concat (map (item_repr pr o') l') -> Forall2 alike_line l l'.
Proof.
  intros pr o o' l l' Ho Ho'. revert l'.
  assert (Hne : forall o i r, item_repr pr o i ++ r <> []).
  { intros o1 i r H. unfold item_repr in H. destruct (classifier i) eqn:E; [|discriminate H].
    unfold classifier in E. destruct (it_pay i); discriminate E. }
  induction l as [|i l IH]; intros [|j l'] E; cbn [map concat] in E.
  - constructor.
  - exfalso. exact (Hne _ _ _ (eq_sym E)).
  - exfalso. exact (Hne _ _ _ E).
  - apply item_repr_told in E; auto. destruct E as [E1 E2]. constructor; [|now apply IH].
    exact (same_text_alike o o' i j Ho Ho' E1).
Qed.

Lemma alike_lines : forall i j i' j', only_line_raised i i' -> only_line_raised j j' -> alike_line i j -> alike i' j'.
Proof.
  intros i j i' j' (A1 & A2 & A3 & A4 & A5 & A6 & A7 & A8 & A9 & A10 & A11)
    (B1 & B2 & B3 & B4 & B5 & B6 & B7 & B8 & B9 & B10 & B11) [(C1 & C2 & C3 & C4 & C5 & C6 & C7 & C8) C9].
  unfold alike. rewrite A2, A3, A4, A5, A7, A8, A9, B2, B3, B4, B5, B7, B8, B9.
  repeat (split; [assumption|]). intro H. rewrite A11 by exact H. rewrite B11; [exact C9|]. rewrite <- C4. exact H.
Qed.

Lemma C112_identifies_lemma : forall pr e e' new neg new' neg' s s', env_ok e -> env_ok e' -> prints e pr -> prints e' pr ->
  filled e new neg s -> filled e' new' neg' s' -> digested s = digested s' ->
  new = new' /\ neg = neg' /\ Forall2 alike (st_list s) (st_list s').
Proof.
  intros pr e e' new neg new' neg' s s' He He' Hp Hp' Hs Hs' E.
  apply filled_fed in Hs. destruct Hs as [l [Hl Fl]]. apply filled_fed in Hs'. destruct Hs' as [l' [Hl' Fl']].
  unfold digested in E. rewrite Fl, Fl' in E. cbn [concat] in E. rewrite <- !app_assoc in E.
  apply bool_str_told in E. destruct E as [-> E]. apply app_inv_head in E.
  apply bool_str_told in E. destruct E as [-> E]. split; [reflexivity|]. split; [reflexivity|].
  rewrite (map_ext _ _ Hp), (map_ext _ _ Hp') in E.
  apply texts_told in E; [|exact (proj2 He)|exact (proj2 He')].
  clear Fl Fl'. revert l' Hl' E. generalize (st_list s'). induction Hl as [|x y l m Hxy _ IH]; intros m' l' Hl' E.
  - inversion E; subst. inversion Hl'; subst. constructor.
  - inversion E as [|? z ? l2 Hxz E2]; subst. inversion Hl' as [|? w ? m2 Hzw E3]; subst.
    constructor; [|eapply IH; eassumption]. exact (alike_lines _ _ _ _ Hxy Hzw Hxz).
Qed.

(** ** The same items give the same text *)
Lemma keeps_one : forall o l, keeps o -> (forall x y, In x l -> In y l -> x = y) -> o l = dedup_str l.
Proof.
  intros o l Ho H1. specialize (Ho l). destruct l as [|x l].
  - simpl in *. apply Permutation_sym, Permutation_nil in Ho. now rewrite Ho.
  - assert (E : dedup_str (x :: l) = [x]).
    { pose proof (dedup_str_NoDup (x :: l)) as Hn. pose proof (fun y => proj1 (dedup_str_In (x :: l) y)) as Hi.
      destruct (dedup_str (x :: l)) as [|a [|b m]] eqn:Ed.
      - exfalso. assert (H : In x (dedup_str (x :: l))) by (apply dedup_str_In; now left). rewrite Ed in H. destruct H.
      - f_equal. apply H1; [apply Hi; now left|now left].
      - exfalso. inversion Hn as [|? ? Ha _]; subst. apply Ha. left.
        apply H1; apply Hi; [right; now left|now left]. }
    rewrite E in *. apply Permutation_sym, Permutation_length_1_inv in Ho. exact Ho.
Qed.
Lemma obj_order : forall pr o o' v, keeps o -> keeps o' ->
  (forall l, v = OSet l \/ v = OPaths l -> forall x y, In x l -> In y l -> x = y) -> repr_obj pr o v = repr_obj pr o' v.
Proof.
  intros pr o o' v Ho Ho' H. destruct v as [| | | | |l|l]; try reflexivity; destruct l as [|x l]; try reflexivity;
  cbn [repr_obj]; rewrite (keeps_one o), (keeps_one o'); eauto.
Qed.
Lemma item_order : forall pr o o' i j, keeps o -> keeps o' -> it_incfrom i = [] -> one_path (it_pay i) -> shown_same i j ->
  item_repr pr o i = item_repr pr o' j.
Proof.
  intros pr o o' i j Ho Ho' Hi Hp (E1 & E2 & E3 & E4 & E5 & E6 & E7 & E8 & E9).
  assert (Ej : own_dict i ++ base_dict i = own_dict j ++ base_dict j).
  { unfold own_dict, base_dict. rewrite E1, E2, E3, E4, E5, E6, E7, E8, E9. reflexivity. }
  unfold item_repr. rewrite Ej. unfold classifier. rewrite E8.
  do 3 f_equal. unfold commas. f_equal. apply map_ext_in. intros [n v] Hin. unfold repr_entry. cbn [fst snd]. f_equal. f_equal.
  apply obj_order; auto. rewrite <- Ej in Hin. intros l Hl.
  assert (Hin' : In (n, v) (own_dict i) \/ In (n, v) (base_dict i)) by now apply in_app_or.
  destruct Hin' as [Hin'|Hin'].
  - unfold own_dict in Hin'. unfold one_path in Hp.
    destruct (it_pay i); simpl in Hin';
      repeat (destruct Hin' as [Hin'|Hin']; [inversion Hin'; subst; destruct Hl as [Hl|Hl]; inversion Hl; subst; assumption|]);
      destruct Hin'.
  - unfold base_dict in Hin'. rewrite Hi in Hin'. simpl in Hin'.
    repeat (destruct Hin' as [Hin'|Hin']; [inversion Hin'; subst; destruct Hl as [Hl|Hl]; inversion Hl; subst; intros x y []|]).
    destruct Hin'.
Qed.

Lemma olr_line : forall i j, only_line_raised i j -> (forall d, it_origin j <> d ++ ".bbappend") -> shown_same j i.
Proof.
  intros i j (A1 & A2 & A3 & A4 & A5 & A6 & A7 & A8 & A9 & A10 & A11) H. unfold shown_same.
  rewrite A11 by (now rewrite <- A5). repeat split; assumption.
Qed.

Lemma C112_seed_lemma : forall pr e e' new neg s s', env_ok e -> env_ok e' -> prints e pr -> prints e' pr ->
  filled e new neg s -> filled e' new neg s' -> Forall2 shown_same (st_list s) (st_list s') ->
  Forall (fun i => it_incfrom i = [] /\ one_path (it_pay i) /\ forall d, it_origin i <> d ++ ".bbappend") (st_list s) ->
  digested s = digested s'.
Proof.
  intros pr e e' new neg s s' He He' Hp Hp' Hs Hs' E Hi.
  apply filled_fed in Hs. destruct Hs as [l [Hl Fl]]. apply filled_fed in Hs'. destruct Hs' as [l' [Hl' Fl']].
  unfold digested. rewrite Fl, Fl'. cbn [concat]. f_equal.
  rewrite (map_ext _ _ Hp), (map_ext _ _ Hp'). f_equal. clear Fl Fl' Hp Hp'.
  revert l l' Hl Hl' Hi. induction E as [|x y m m' Hxy _ IH]; intros l l' Hl Hl' Hi;
    inversion Hl as [|i x' li mi Hix Hli]; inversion Hl' as [|j y' lj mj Hjy Hlj]; subst; [reflexivity|].
  inversion Hi as [|? ? [A [B C]] Hi']; subst. cbn [map]. f_equal; [|now apply IH].
  assert (Cy : forall d, it_origin y <> d ++ ".bbappend").
  { destruct Hxy as (_ & _ & _ & _ & Eo & _). rewrite <- Eo. exact C. }
  pose proof (olr_line _ _ Hix C) as S1. pose proof (olr_line _ _ Hjy Cy) as S2.
  rewrite <- (item_order pr (e_sset e) (e_sset e) x i (proj2 He) (proj2 He) A B S1).
  apply (item_order pr _ _ x j (proj2 He) (proj2 He') A B).
  unfold shown_same in *. decompose [and] Hxy. decompose [and] S2. repeat split; congruence.
Qed.
