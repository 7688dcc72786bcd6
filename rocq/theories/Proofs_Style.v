(** * Names in the old and in the new override syntax: proofs *)

From Verif Require Import Props_Items.
From Verif Require Import PyStr Regex Patterns PyPath Res Inline Const Item Lines Stash StrFacts ItemFacts ParseFacts
  Spec_Parse Proofs_Parse Spec_Group Spec_Func Proofs_Func Spec_Access Proofs_Access Spec_Expand Spec_Style.

Lemma under_colon : forall l : list str, (forall x, In x l -> ~ In 58%N x) -> ~ In 58%N (join "_" l).
Proof.
  intros l H. induction l as [|x l IH]; [intros []|]. destruct l as [|y l]; [apply H; now left|].
  change (join "_" (x :: y :: l)) with (x ++ "_" ++ join "_" (y :: l)). intro Hin.
  apply in_app_or in Hin. destruct Hin as [Hin|Hin]; [now apply (H x (or_introl eq_refl))|].
  apply in_app_or in Hin. destruct Hin as [[Hin|[]]|Hin]; [discriminate|].
  apply IH; [|exact Hin]. intros z Hz. apply H. now right.
Qed.
Lemma base_nonempty : forall bs : list str, bs <> [] -> (forall x, In x bs -> x <> []) -> base_of bs <> [].
Proof.
  intros [|b [|y r]] H Hp; [congruence|apply Hp; now left|].
  unfold base_of. change (join "_" (b :: y :: r)) with (b ++ "_" ++ join "_" (y :: r)).
  intro E. apply app_eq_nil in E. destruct E as [_ E]. discriminate.
Qed.
Lemma no_colon_contains : forall s : str, ~ In 58%N s -> contains ":" s = false.
Proof.
  intros s H. destruct (contains ":" s) eqn:E; [|reflexivity]. apply contains_spec in E. destruct E as (a & b & ->).
  destruct H. apply in_or_app. right. now left.
Qed.
Lemma filter_all : forall (A : Type) (f : A -> bool) (l : list A), (forall x, In x l -> f x = true) -> filter f l = l.
Proof.
  intros A f l H. induction l as [|x l IH]; [reflexivity|]. cbn [filter]. rewrite H by now left. f_equal.
  apply IH. intros y Hy. apply H. now right.
Qed.
Lemma filter_none : forall (A : Type) (f : A -> bool) (l : list A), (forall x, In x l -> f x = false) -> filter f l = [].
Proof.
  intros A f l H. induction l as [|x l IH]; [reflexivity|]. cbn [filter]. rewrite H by now left.
  apply IH. intros y Hy. apply H. now right.
Qed.
Lemma starts_sub : forall f x, f <> "pkg" -> starts_override x -> sub_chunk f x = true.
Proof.
  intros f x Hf (c & r & -> & H). apply is_override_iff. left. split; [exact Hf|]. exists c, r. split; [reflexivity|exact H].
Qed.
Lemma starts_not_sub : forall f x, ~ starts_override x -> sub_chunk f x = false.
Proof.
  intros f x H. destruct (sub_chunk f x) eqn:E; [|reflexivity]. apply is_override_iff in E. destruct H.
  destruct E as [[_ (c & r & -> & E)]|[->|[r ->]]].
  - exists c, r. split; [reflexivity|exact E].
  - exists 36%N, "{PN}". split; [reflexivity|]. right. right. cbn. auto.
  - exists 36%N, ("{PN}-" ++ r). split; [reflexivity|]. right. right. cbn. auto.
Qed.

(** ** Variables *)

Lemma old_made : forall e i bs os op value, parsed_item e i -> usual_parts bs os -> it_new i = false ->
  assignment (old_name bs os) op value (one_line i) -> ~ statement_word (old_name bs os) ->
  it_pay i = PVariable (base_of bs) (join "_" os) os value op (base_of bs).
Proof.
  intros e i bs os op value Hi ((Hb & Ho & Hp) & Hbs & Hos) Hn Ha Hw.
  destruct (C10_lemma e i _ op value Hi Ha Hw) as [_ [p [E1 E2]]].
  destruct (mk_variable_spec p (old_name bs os) value op) as [S1 [S2 _]].
  rewrite <- E2, Hn in S1. rewrite <- S1 in S2. unfold delim, delim_str in S2. cbn match in S2.
  assert (Sp : split_char 95 (old_name bs os) = bs ++ os).
  { unfold old_name. apply split_char_join_parts; [intro E; apply app_eq_nil in E; tauto|]. intros q Hq. apply Hp, Hq. }
  rewrite Sp in S2. destruct bs as [|b r]; [congruence|]. cbn [List.app hd tl] in S2.
  destruct (Hbs b r eq_refl) as [Hpk Hr].
  rewrite !keep_all in S2.
  all: try (intros x [<-|[]]; apply Hp; now left).
  all: try (intros x Hx; apply Hp; right; exact Hx).
  rewrite !filter_app in S2.
  rewrite (filter_all _ (fun i => negb (sub_chunk b i)) r) in S2 by (intros x Hx; rewrite starts_not_sub by auto; reflexivity).
  rewrite (filter_none _ (fun i => negb (sub_chunk b i)) os) in S2 by (intros x Hx; rewrite starts_sub by auto; reflexivity).
  rewrite (filter_none _ (sub_chunk b) r) in S2 by (intros x Hx; apply starts_not_sub; auto).
  rewrite (filter_all _ (sub_chunk b) os) in S2 by (intros x Hx; apply starts_sub; auto).
  rewrite app_nil_r in S2. rewrite E1. exact S2.
Qed.

Lemma new_made : forall e j bs os op value, parsed_item e j -> usual_parts bs os ->
  assignment (new_name bs os) op value (one_line j) -> ~ statement_word (new_name bs os) ->
  it_pay j = PVariable (base_of bs) (join ":" os) os value op (base_of bs).
Proof.
  intros e j bs os op value Hj ((Hb & Ho & Hp) & Hbs & Hos) Ha Hw.
  refine (proj1 (overridden_made e j _ op value (base_of bs) os Hj Ha Hw _)).
  split; [reflexivity|]. split; [apply base_nonempty; [exact Hb|intros x Hx; apply Hp, in_or_app; now left]|].
  split; [apply under_colon; intros x Hx; apply Hp, in_or_app; now left|]. split.
  - destruct bs as [|b [|y r]]; [congruence|apply (Hbs b [] eq_refl)|].
    unfold base_of. change (join "_" (b :: y :: r)) with (b ++ "_" ++ join "_" (y :: r)). intro E.
    assert (Hin : In 95%N ("pkg" : str)) by (rewrite <- E; apply in_or_app; right; now left).
    cbn in Hin. intuition discriminate.
  - split; [exact Ho|]. intros x Hx. split; [apply Hp, in_or_app; now right|apply Hos, Hx].
Qed.

Lemma C140_variable_lemma : forall e e' i j bs os op value, parsed_item e i -> parsed_item e' j ->
  usual_parts bs os -> it_new i = false ->
  assignment (old_name bs os) op value (one_line i) -> ~ statement_word (old_name bs os) ->
  assignment (new_name bs os) op value (one_line j) -> ~ statement_word (new_name bs os) ->
  it_pay i = PVariable (base_of bs) (join "_" os) os value op (base_of bs) /\
  it_pay j = PVariable (base_of bs) (join ":" os) os value op (base_of bs).
Proof.
  intros e e' i j bs os op value Hi Hj Hu Hn Ha Hw Ha' Hw'. split.
  - exact (old_made e i bs os op value Hi Hu Hn Ha Hw).
  - exact (new_made e' j bs os op value Hj Hu Ha' Hw').
Qed.

(** ** Functions *)

Lemma from_first_app : forall x (a b : list str), ~ In x a -> from_first x (a ++ b) = from_first x b.
Proof.
  intros x a b H. induction a as [|y a IH]; [reflexivity|]. cbn [List.app from_first].
  destruct (str_eqb y x) eqn:E; [apply str_eqb_eq in E; destruct H; now left|]. apply IH. intro Hx. apply H. now right.
Qed.
Lemma from_first_hd : forall x (r : list str), from_first x (x :: r) = x :: r.
Proof. intros x r. cbn [from_first]. now rewrite str_eqb_refl. Qed.
Lemma not_marker : forall x, ~ marker x -> mem_str x func_markers = false.
Proof. intros x H. destruct (mem_str x func_markers) eqn:E; [|reflexivity]. apply mem_str_In in E. destruct (H E). Qed.
Lemma is_marker : forall x, marker x -> mem_str x func_markers = true.
Proof. intros x H. now apply mem_str_In. Qed.
Lemma not_known : forall x known, ~ In x known -> cval_contains x (CList known) = false.
Proof. intros x known H. cbn [cval_contains]. destruct (mem_str x known) eqn:E; [|reflexivity]. apply mem_str_In in E. contradiction. Qed.

Lemma loop_base : forall known chunks (more done : list str) o r, done <> [] ->
  (forall x, In x more -> ~ marker x) ->
  (forall a b, more = a ++ b -> b <> [] -> ~ In (join "_" (done ++ a)) known) ->
  (marker o \/ In (join "_" (done ++ more)) known) ->
  sub_func_loop (CList known) "_" chunks done (more ++ o :: r) = (done ++ more, from_first o chunks).
Proof.
  intros known chunks more. induction more as [|m more IH]; intros done o r Hd Hm Hk Ho.
  - cbn [List.app sub_func_loop]. rewrite app_nil_r in *. 
    assert (E : mem_str o func_markers || cval_contains (join "_" done) (CList known) = true).
    { apply Bool.orb_true_iff. destruct Ho as [Ho|Ho]; [left; now apply is_marker|right; now apply mem_str_In]. }
    rewrite E. reflexivity.
  - cbn [List.app sub_func_loop]. rewrite not_marker by (apply Hm; now left).
    rewrite not_known by (rewrite <- (app_nil_r done); apply (Hk [] (m :: more)); [reflexivity|discriminate]).
    cbn [orb].
    pose proof (IH (done ++ [m]) o r) as IH'. rewrite <- app_assoc in IH'. cbn [List.app] in IH'. apply IH'.
    + intro E. apply app_eq_nil in E. destruct E. discriminate.
    + intros x Hx. apply Hm. now right.
    + intros a b E Hb. rewrite <- app_assoc. cbn [List.app]. apply (Hk (m :: a) b); [now rewrite E|exact Hb].
    + exact Ho.
Qed.

Lemma not_anonymous : forall l : list str, l <> [] -> (forall x, In x l -> part x) -> str_eqb (join "_" l) "__anonymous" = false.
Proof.
  intros l Hl Hp. destruct (str_eqb (join "_" l) "__anonymous") eqn:E; [|reflexivity]. apply str_eqb_eq in E.
  assert (S : split_char 95 (join "_" l) = l) by (apply split_char_join_parts; [exact Hl|intros q Hq; apply Hp, Hq]).
  rewrite E in S. vm_compute in S. rewrite <- S in Hp. destruct (Hp [] (or_introl eq_refl)) as [H _]. congruence.
Qed.

Lemma C140_function_lemma : forall known bs os p q body py fr, function_parts known bs os ->
  (forall x c, In x (bs ++ os) -> In c x -> func_char c) -> ip_new p = false ->
  let i := mk_function (CList known) p (Some (old_name bs os)) body py fr in
  let j := mk_function (CList known) q (Some (new_name bs os)) body py fr in
  it_pay i = PFunction py fr (base_of bs) (join "_" os) os body (func_body_raw (ip_raw p)) /\
  it_pay j = PFunction py fr (base_of bs) (join ":" os) os body (func_body_raw (ip_raw q)).
Proof.
  intros known bs os p q body py fr ((Hb & Ho & Hp) & Hm & Hk & o & r & Eo & Nb & Nn & Hx) Hc Hn i j.
  assert (Hbo : bs ++ os <> []) by (intro E; apply app_eq_nil in E; tauto).
  assert (Pos : forall y, In y os -> part y) by (intros y Hy; apply Hp, in_or_app; now right).
  assert (Pbs : forall y, In y bs -> part y) by (intros y Hy; apply Hp, in_or_app; now left).
  assert (FC : forall d (l : list str), (forall c, In c d -> func_char c) ->
    (forall x c, In x l -> In c x -> func_char c) -> forall c, In c (join d l) -> func_char c).
  { intros d l Hd. induction l as [|x l IH]; intros Hl c Hin; [destruct Hin|]. destruct l as [|y l].
    - apply (Hl x c); [now left|exact Hin].
    - change (join d (x :: y :: l)) with (x ++ d ++ join d (y :: l)) in Hin.
      apply in_app_or in Hin. destruct Hin as [Hin|Hin]; [apply (Hl x c); [now left|exact Hin]|].
      apply in_app_or in Hin. destruct Hin as [Hin|Hin]; [now apply Hd|]. apply IH; [|exact Hin].
      intros z k Hz. apply Hl. now right. }
  assert (Hu : forall c, In c ("_" : str) -> func_char c) by (intros c [<-|[]]; right; right; cbn; auto).
  assert (Hco : forall c, In c (":" : str) -> func_char c) by (intros c [<-|[]]; right; right; cbn; auto 10).
  split.
  - unfold i, mk_function. rewrite func_name_strip by (exact (FC "_" (bs ++ os) Hu Hc)).
    unfold extract_sub_func. rewrite Hn.
    assert (NC : contains ":" (old_name bs os) = false)
      by (apply no_colon_contains, under_colon; intros x Hx'; apply Hp, Hx').
    rewrite NC. cbn [orb]. unfold old_name at 1. rewrite not_anonymous by assumption.
    unfold delim, delim_str. cbn match.
    assert (Sp : split_char 95 (old_name bs os) = bs ++ os).
    { unfold old_name. apply split_char_join_parts; [exact Hbo|]. intros y Hy. apply Hp, Hy. }
    rewrite Sp. destruct bs as [|b bs]; [congruence|]. cbn [List.app hd tl].
    assert (L : sub_func_loop (CList known) "_" (b :: bs ++ os) [b] (bs ++ o :: r) = ([b] ++ bs, from_first o (b :: bs ++ os))).
    { apply loop_base.
      + discriminate.
      + intros x Hx'. apply Hm. now right.
      + intros a c E Hne. apply (Hk (b :: a) c); [cbn; now rewrite E|discriminate|exact Hne].
      + exact Hx. }
    rewrite <- Eo in L. change (b :: bs ++ os) with ((b :: bs) ++ os) in L. rewrite from_first_app in L by exact Nb.
    assert (FF : from_first o os = os) by (rewrite Eo; apply from_first_hd). rewrite FF in L.
    match goal with |- context [sub_func_loop ?k ?d ?c ?v ?w] => 
      replace (sub_func_loop k d c v w) with ([b] ++ bs, os) by (symmetry; exact L) end.
    cbn [List.app].
    assert (S2 : split_char 95 (join "_" os) = os)
      by (apply split_char_join_parts; [exact Ho|intros y Hy; apply Pos, Hy]).
    assert (K1 : keep_nonempty (b :: bs) = b :: bs) by (apply keep_all; intros y Hy; apply Pbs, Hy).
    assert (K2 : keep_nonempty os = os) by (apply keep_all; intros y Hy; apply Pos, Hy).
    change (it_pay (mk_item p false (PFunction py fr (join "_" (keep_nonempty (b :: bs))) (join "_" (keep_nonempty os))
      (keep_nonempty (split_char 95 (join "_" (keep_nonempty os)))) body (func_body_raw (ip_raw p))))
      = PFunction py fr (base_of (b :: bs)) (join "_" os) os body (func_body_raw (ip_raw p))).
    rewrite K1, K2, S2, K2. reflexivity.
  - assert (Hbase : ~ In 58%N (base_of bs)) by (apply under_colon; intros x Hx'; apply Pbs, Hx').
    unfold j, mk_function. rewrite func_name_strip.
    2:{ refine (FC ":" (base_of bs :: os) Hco _). intros x c [<-|Hin] Hcx.
        - refine (FC "_" bs Hu _ c Hcx). intros y k Hy. apply Hc, in_or_app. now left.
        - apply (Hc x c); [apply in_or_app; now right|exact Hcx]. }
    unfold extract_sub_func.
    assert (NC : ip_new q || contains ":" (new_name bs os) = true)
      by (unfold new_name; rewrite join_colon by exact Ho; apply Bool.orb_true_r).
    rewrite NC.
    assert (A : str_eqb (new_name bs os) "__anonymous" = false).
    { destruct (str_eqb (new_name bs os) "__anonymous") eqn:E; [|reflexivity]. apply str_eqb_eq in E.
      pose proof (join_colon (base_of bs) os Ho) as J. fold (new_name bs os) in J. rewrite E in J. vm_compute in J. discriminate. }
    rewrite A. unfold delim, delim_str. cbn match.
    assert (Sp : split_char 58 (new_name bs os) = base_of bs :: os)
      by (apply split_overridden; [exact Hbase|intros y Hy; apply Pos, Hy]).
    rewrite Sp. cbn [hd tl].
    assert (L : sub_func_loop (CList known) ":" (base_of bs :: os) [base_of bs] os = ([base_of bs], os)).
    { rewrite Eo. cbn [sub_func_loop].
      assert (E : mem_str o func_markers || cval_contains (join ":" [base_of bs]) (CList known) = true).
      { apply Bool.orb_true_iff. destruct Hx as [Hx|Hx]; [left; now apply is_marker|right; now apply mem_str_In]. }
      rewrite E. f_equal. apply from_first_skip. exact Nn. }
    match goal with |- context [sub_func_loop ?k ?d ?c ?v ?w] => 
      replace (sub_func_loop k d c v w) with ([base_of bs], os) by (symmetry; exact L) end.
    assert (S2 : split_char 58 (join ":" os) = os)
      by (apply split_char_join_parts; [exact Ho|intros y Hy; apply Pos, Hy]).
    assert (K1 : keep_nonempty [base_of bs] = [base_of bs])
      by (apply keep_all; intros y [<-|[]]; apply base_nonempty; [exact Hb|intros z Hz; apply Pbs, Hz]).
    assert (K2 : keep_nonempty os = os) by (apply keep_all; intros y Hy; apply Pos, Hy).
    change (it_pay (mk_item q true (PFunction py fr (join ":" (keep_nonempty [base_of bs])) (join ":" (keep_nonempty os))
      (keep_nonempty (split_char 58 (join ":" (keep_nonempty os)))) body (func_body_raw (ip_raw q))))
      = PFunction py fr (base_of bs) (join ":" os) os body (func_body_raw (ip_raw q))).
    rewrite K1, K2, S2, K2. reflexivity.
Qed.

(** ** Values *)

Lemma operations_only : forall d n (os : list str), (forall x, In x os -> operation x) -> var_name_nomod d n os = n.
Proof.
  intros d n os H. unfold var_name_nomod. rewrite filter_none; [reflexivity|]. intros x Hx.
  assert (M : mem_str x modifiers = true).
  { apply mem_str_In. destruct (H x Hx) as [<-|[<-|[<-|[]]]]; cbn; auto. }
  now rewrite M.
Qed.
Lemma restyled_sym : forall i j, restyled i j -> restyled j i.
Proof.
  intros i j [H1 H2 H3|n s s' os v op H1 H2 H3 H4]; [apply same_pay; congruence|].
  exact (other_style j i n s' s os v op H2 H1 H3 H4).
Qed.
Lemma restyled_about : forall i j n, restyled i j -> about n i -> about n j.
Proof.
  intros i j n [H1 H2 H3|m s s' os v op H1 H2 H3 H4] H.
  - revert H. unfold about, item_name_nomod, Stash.var_name, var_subs. rewrite H1, H2. exact (fun h => h).
  - revert H. unfold about, item_name_nomod, Stash.var_name, var_subs. rewrite H1, H2, !operations_only by exact H3.
    exact (fun h => h).
Qed.
Lemma restyled_does : forall i j n x, restyled i j -> does n i x -> does n j x.
Proof.
  intros i j n x [H1 H2 H3|m s s' os v op H1 H2 H3 H4] H.
  - assert (EN : item_name_nomod j = item_name_nomod i) by (unfold item_name_nomod, Stash.var_name, var_subs; now rewrite H1, H2).
    assert (ES : stripped i = stripped j) by (unfold stripped, var_value; now rewrite H1).
    assert (ER : reverse_inline_block i = reverse_inline_block j) by (unfold reverse_inline_block; rewrite H3, ES; reflexivity).
    destruct H as [E|? ? ? ? ? ? ? E|? ? ? ? ? ? E|? ? ? ? ? ? E|? ? ? ? ? ? E|? ? ? ? ? ? E|? ? ? ? ? ? E];
      rewrite ?ES, ?ER in *; rewrite H1 in E.
    + now apply does_unset.
    + eapply does_now; eauto; congruence.
    + eapply does_code; eauto; congruence.
    + eapply does_nothing; eauto; congruence.
    + eapply does_append; eauto; congruence.
    + eapply does_prepend; eauto; congruence.
    + eapply does_remove; eauto; congruence.
  - assert (EN : item_name_nomod j = item_name_nomod i).
    { unfold item_name_nomod, Stash.var_name, var_subs. rewrite H1, H2, !operations_only by exact H3. reflexivity. }
    assert (ES : stripped i = stripped j) by (unfold stripped, var_value; now rewrite H1, H2).
    assert (NO : forall a b c d f g, it_pay i = PVariable a b c d f g ->
      (forall x, In x (["append"; "prepend"; "remove"] : list str) -> ~ In x c) -> False).
    { intros a b c d f g E. rewrite H1 in E. injection E as <- <- <- <- <-. destruct os as [|y os]; [congruence|].
      intro Hno. apply (Hno y); [apply H3; now left|now left]. }
    destruct H as [E|? ? ? ? ? ? ? E ? Hn|? ? ? ? ? ? E ? Hn|? ? ? ? ? ? E ? Hn|? ? ? ? ? ? E|? ? ? ? ? ? E|? ? ? ? ? ? E].
    + rewrite H1 in E. discriminate.
    + destruct (NO _ _ _ _ _ _ E Hn).
    + destruct (NO _ _ _ _ _ _ E Hn).
    + destruct (NO _ _ _ _ _ _ E Hn).
    + rewrite ES. rewrite H1 in E. injection E as <- <- <- <- <- <-. eapply does_append; eauto; congruence.
    + rewrite ES. rewrite H1 in E. injection E as <- <- <- <- <- <-. eapply does_prepend; eauto; congruence.
    + rewrite ES. rewrite H1 in E. injection E as <- <- <- <- <- <-. eapply does_remove; eauto; congruence.
Qed.
Lemma restyled_history : forall l l' n evs, Forall2 restyled l l' -> history n l evs -> history n l' evs.
Proof.
  intros l l' n evs F. revert evs. induction F as [|i j l l' Hr F IH]; intros evs H; inversion H; subst.
  - constructor.
  - apply hist_other; [|now apply IH]. intro Hj. apply restyled_sym in Hr. pose proof (restyled_about j i n Hr Hj). contradiction.
  - apply hist_does; [exact (restyled_does i j n _ Hr ltac:(eassumption))|now apply IH].
Qed.
Lemma C140_history_lemma : forall l l' n evs, Forall2 restyled l l' -> (history n l evs <-> history n l' evs).
Proof.
  intros l l' n evs F. split; [now apply restyled_history|]. apply restyled_history.
  clear -F. induction F; constructor; auto using restyled_sym.
Qed.
