(** * Methods of items: proofs *)

From Verif Require Import Props_Items.
From Verif Require Import PyStr Regex UniTable Patterns PyPath Res Inline Const Item Lines Stash
  StrFacts ReFacts ItemFacts LinesFacts NameFacts ParseFacts HistFacts ReachFacts QueryFacts Spec_Parse ClassFacts
  MatchFacts Spec_Query Proofs_Query StmtFacts Proofs_Parse Proofs_Stmt2 Proofs_Paths Spec_Group Proofs_Group Spec_Func Proofs_Func ChunkFacts Access Spec_Access.
From Coq Require Import Permutation.
From Verif Require Spec_Const ConstFacts.

(** ** C87 *)

Lemma strip_quotes : forall v, unquoted v -> strip [cDQ] ([cDQ] ++ v ++ [cDQ]) = v.
Proof.
  intros v [H1 H2]. unfold strip, strip_p. rewrite lstrip_p_app by reflexivity.
  destruct v as [|c v]; [reflexivity|].
  assert (Hc : in_chars [cDQ] c = false).
  { cbn. rewrite orb_false_r. apply N.eqb_neq. intros ->. now apply (H1 v). }
  rewrite lstrip_p_id by exact Hc. rewrite rstrip_p_app by reflexivity.
  destruct (exists_last (l := c :: v)) as [a [x E]]; [discriminate|]. rewrite E. apply rstrip_p_id.
  cbn. rewrite orb_false_r. apply N.eqb_neq. intros ->. now apply (H2 a).
Qed.

Lemma variable_of : forall e i name op value, parsed_item e i -> assignment name op value (one_line i) ->
  ~ statement_word name -> exists vn sub subs, it_pay i = PVariable vn sub subs value op vn.
Proof. intros e i name op value H1 H2 H3. exact (proj1 (C10_lemma e i name op value H1 H2 H3)). Qed.

Lemma C87_lemma : forall e i name op v l, parsed_item e i ->
  assignment name op ([cDQ] ++ v ++ [cDQ]) (one_line i) -> ~ statement_word name -> unquoted v ->
  (get_items_of i = l <-> Props_Items.words v l).
Proof.
  intros e i name op v l Hi Ha Hn Hu. destruct (variable_of _ _ _ _ _ Hi Ha Hn) as [vn [sub [subs E]]].
  unfold get_items_of. rewrite E. unfold variable_get_items. change (strip [cDQ] []) with ([] : str). cbn match.
  rewrite strip_quotes by exact Hu. apply C18_lemma.
Qed.

Lemma C87_override_lemma : forall i o l, (exists n s subs v op r, it_pay i = PVariable n s subs v op r) ->
  o <> [] -> unquoted o -> (variable_words i o false = l <-> Props_Items.words o l).
Proof.
  intros i o l [n [s [subs [v [op [r E]]]]]] Ho [H1 H2]. unfold variable_words, variable_get_items. rewrite E.
  assert (S : strip [cDQ] o = o).
  { destruct o as [|c o]; [congruence|]. unfold strip, strip_p.
    assert (Hc : in_chars [cDQ] c = false).
    { cbn. rewrite orb_false_r. apply N.eqb_neq. intros ->. now apply (H1 o). }
    rewrite lstrip_p_id by exact Hc. destruct (exists_last (l := c :: o)) as [a [x E2]]; [discriminate|].
    rewrite E2. apply rstrip_p_id. cbn. rewrite orb_false_r. apply N.eqb_neq. intros ->. now apply (H2 a). }
  rewrite S. destruct o as [|c o]; [congruence|]. apply C18_lemma.
Qed.

(** Removal of versions *)

Definition sub_v (b : bool) (s : str) : str :=
  flat_map (fun x => match x with inl c => [c] | inr _ => [] end) (scan re_versioned 0 b s).

Lemma sub_nil : forall b, sub_v b [] = [].
Proof.
  intro b. unfold sub_v. cbn [scan]. destruct (match_at re_versioned b []) as [x|]; reflexivity.
Qed.
Lemma match_at_fails : forall r b s, fails r (MS b s []) -> match_at r b s = None.
Proof. intros r b s H. unfold match_at. now rewrite H. Qed.
Lemma match_at_first : forall r b s s', first r (MS b s []) s' ->
  match_at r b s = Some (RM (consumed (MS b s []) s') (m_grp s')).
Proof. intros r b s s' H. unfold match_at. now rewrite (H _ (fun x => Some x) s' eq_refl). Qed.

Lemma sub_char : forall b c t, fails re_versioned (MS b (c :: t) []) -> sub_v b (c :: t) = c :: sub_v false t.
Proof. intros b c t H. unfold sub_v. cbn [scan]. now rewrite match_at_fails. Qed.

Lemma scan_skip : forall r g b t, scan r (length g) b (g ++ t) = scan r 0 (match g with [] => b | _ => false end) t.
Proof.
  intros r g. induction g as [|c g IH]; intros b t; [reflexivity|]. cbn [length app scan]. rewrite IH. now destruct g.
Qed.
Lemma sub_hit : forall b g t grp, g <> [] -> first re_versioned (MS b (g ++ t) []) (MS false t grp) ->
  sub_v b (g ++ t) = sub_v false t.
Proof.
  intros b g t grp Hg H. destruct g as [|c g]; [congruence|]. unfold sub_v. cbn [app scan].
  apply match_at_first in H. cbn [app] in H. rewrite H.
  pose proof (consumed_app b (c :: g) t [] (MS false t grp) eq_refl) as C. cbn [app] in C. rewrite C.
  cbn [g0 length]. cbn [flat_map]. rewrite scan_skip. now destruct g.
Qed.


Lemma versioned_shape : forall b s g s', mt re_versioned (MS b s g) s' ->
  exists u r, s = u ++ 40%N :: r /\ Spec_Parse.blank u.
Proof.
  intros b s g s' H. unfold re_versioned in H. cbn [RCat] in H. rewrite mt_seq_iff in H. destruct H as [s1 [H1 H]].
  unfold sp_star in H1. unfold RSp in H1. apply mt_star_chr_iff in H1. destruct H1 as [u [r [E [Hu ->]]]]. cbn [m_rest] in E.
  rewrite mt_seq_iff in H. destruct H as [s2 [H2 _]]. unfold RC in H2.
  apply mt_chr_iff in H2. destruct H2 as [c [r2 [E2 [Hc _]]]]. exists u, r2.
  assert (c = 40%N) as -> by (cbn in Hc; rewrite orb_false_r in Hc; now apply N.eqb_eq in Hc). split.
  - rewrite E. f_equal. destruct u; exact E2.
  - intros d Hd. rewrite forallb_forall in Hu. now apply Hu.
Qed.

(** No white space and then a parenthesis at the beginning *)
Definition no_bound (s : str) : Prop := forall u r, s = u ++ 40%N :: r -> ~ Spec_Parse.blank u.
Lemma no_bound_fails : forall b s g, no_bound s -> fails re_versioned (MS b s g).
Proof.
  intros b s g H. apply fails_mt. intros s' Hm. apply versioned_shape in Hm. destruct Hm as [u [r [E Hu]]].
  now apply (H u r).
Qed.

Lemma separator_hd : forall c r r', hd_error r = hd_error r' -> separator c r -> separator c r'.
Proof.
  intros c r r' E [H|[H1 H2]]; [now left|right]. split; [exact H1|]. intros q ->. cbn in E.
  destruct r as [|x r]; [discriminate|]. injection E as ->. now apply (H2 r).
Qed.

Lemma plain_hd : forall c w t, plain_word (c :: w) t -> re_space c = false /\ c <> 40%N.
Proof.
  intros c w t [_ [H1 H2]]. split.
  - destruct (re_space c) eqn:E; [|reflexivity]. destruct (H2 [] c w eq_refl). now left.
  - intros ->. apply H1. now left.
Qed.
Lemma plain_no_bound : forall w t, plain_word w t -> no_bound (w ++ t).
Proof.
  intros w t H u r E Hu. destruct w as [|c w]; [now destruct H|]. destruct (plain_hd _ _ _ H) as [H1 H2].
  destruct u as [|d u]; cbn [app] in E; injection E as E1 E2; [congruence|]. subst d.
  rewrite (Hu c) in H1 by now left. discriminate.
Qed.
Lemma listed_no_bound : forall s l, listed s l -> no_bound s.
Proof.
  intros s l H. induction H as [|c t l Hs Ht IH|w t l Hw He Ht IH|w b v t l Hw Hb Hv1 Hv2 He Ht IH].
  - intros [|d u] r E; discriminate.
  - intros u r E Hu. destruct u as [|d u]; cbn [app] in E; injection E as E1 E2.
    + subst c. destruct Hs as [Hs|[Hs _]]; discriminate.
    + apply (IH u r E2). intros x Hx. apply Hu. now right.
  - now apply plain_no_bound.
  - now apply plain_no_bound.
Qed.

Lemma sub_word : forall w b t, plain_word w t -> sub_v b (w ++ t) = w ++ sub_v false t.
Proof.
  intro w. induction w as [|c w IH]; intros b t H; [now destruct H|]. cbn [app].
  rewrite sub_char by (apply no_bound_fails; exact (plain_no_bound (c :: w) t H)). f_equal.
  destruct w as [|d w]; [reflexivity|]. apply IH. destruct H as [_ [H1 H2]]. split; [discriminate|]. split.
  - intro Hx. apply H1. now right.
  - intros a x b' E. apply (H2 (c :: a)). cbn [app]. now rewrite E.
Qed.

Lemma first_bound : forall b u v t, Spec_Parse.blank u -> ~ In 41%N v -> ~ In cNL v ->
  first re_versioned (MS b (u ++ "(" ++ v ++ ")" ++ t) []) (MS false t []).
Proof.
  intros b u v t Hu Hv1 Hv2. unfold re_versioned. cbn [RCat]. eapply first_seq.
  - apply first_star.
    + apply forallb_forall. exact Hu.
    + intros c r E. injection E as <- _. reflexivity.
  - unfold after. eapply first_seq; [now apply first_chr|]. intros A k x Hk. cbn [m].
    apply star_class_lazy.
    + apply forallb_forall. intros c Hc. cbn. apply negb_true_iff, N.eqb_neq. intros ->. now apply Hv2.
    + unfold after. cbn [app]. rewrite (m_chr (oneof ")")) by reflexivity. exact Hk.
    + intros u' v' E Hn. destruct v' as [|c v']; [congruence|]. unfold after. cbn [app].
      apply (m_chr_no (oneof ")")). cbn. rewrite orb_false_r. apply N.eqb_neq. intros ->.
      apply Hv1. rewrite E. apply in_app_iff. right. now left.
Qed.

Lemma run_reduced : forall w t t' l, plain_word w t -> (forall r, t <> 120%N :: r) -> ends_word t' -> Props_Items.words t' l ->
  Props_Items.words (w ++ t') (w :: l).
Proof.
  intros w t t' l [H1 [_ H2]] Hx He Hl. apply Props_Items.words_run; [exact H1| |exact He|exact Hl].
  intros a c b E Hs. apply (H2 a c b E). destruct b as [|d b].
  - destruct Hs as [Hs|[Hs _]]; [now left|]. right. split; [exact Hs|]. exact Hx.
  - now apply (separator_hd c ((d :: b) ++ t')).
Qed.
Lemma ends_no_x : forall t, ends_word t -> forall r, t <> 120%N :: r.
Proof. intros t H r ->. destruct (H _ _ eq_refl) as [Hs|[Hs _]]; discriminate. Qed.
Lemma plain_not_ends : forall w t, plain_word w t -> ~ ends_word (w ++ t).
Proof. intros [|c w] t [H1 [_ H2]] He; [congruence|]. apply (H2 [] c w eq_refl). now apply He. Qed.

Lemma sub_listed : forall s l, listed s l -> hd_error (sub_v false s) = hd_error s /\
  (ends_word s -> ends_word (sub_v false s)) /\ forall b, Props_Items.words (sub_v b s) l.
Proof.
  intros s l H. induction H as [|c t l Hs Ht IH|w t l Hw He Ht IH|w u v t l Hw Hb Hv1 Hv2 He Ht IH].
  - rewrite sub_nil. repeat split; [|intro b; rewrite sub_nil; constructor]. intros H c r E. discriminate.
  - destruct IH as [IH1 [IH2 IH3]].
    assert (E : forall b, sub_v b (c :: t) = c :: sub_v false t).
    { intro b. apply sub_char, no_bound_fails. apply (listed_no_bound _ l). now constructor. }
    assert (S : separator c (sub_v false t)) by now apply (separator_hd c t).
    split; [now rewrite E|]. split.
    + intros _ d r E2. rewrite E in E2. injection E2 as <- <-. exact S.
    + intro b. rewrite E. apply Props_Items.words_sep; [exact S|apply IH3].
  - destruct IH as [IH1 [IH2 IH3]].
    assert (E : forall b, sub_v b (w ++ t) = w ++ sub_v false t) by (intro b; now apply sub_word).
    split; [rewrite E; destruct w; [now destruct Hw|reflexivity]|]. split.
    + intro H. now apply plain_not_ends in Hw.
    + intro b. rewrite E. apply (run_reduced _ t); [exact Hw|now apply ends_no_x|now apply IH2|apply IH3].
  - destruct IH as [IH1 [IH2 IH3]].
    assert (E : forall b, sub_v b (w ++ u ++ "(" ++ v ++ ")" ++ t) = w ++ sub_v false t).
    { intro b. rewrite sub_word by exact Hw. f_equal.
      replace (u ++ "(" ++ v ++ ")" ++ t) with ((u ++ "(" ++ v ++ ")") ++ t) by now rewrite <- !app_assoc.
      apply (sub_hit _ _ _ []); [destruct u; discriminate|]. rewrite <- !app_assoc. now apply first_bound. }
    split; [rewrite E; destruct w; [now destruct Hw|reflexivity]|]. split.
    + intro H. now apply plain_not_ends in Hw.
    + intro b. rewrite E. apply (run_reduced _ (u ++ "(" ++ v ++ ")" ++ t)); [exact Hw| |now apply IH2|apply IH3].
      intros r E2. destruct u as [|d u]; cbn in E2; [discriminate|]. injection E2 as -> _.
      specialize (Hb 120%N (or_introl eq_refl)). discriminate.
Qed.

Lemma C87_versioned_lemma : forall e i name op v l, parsed_item e i ->
  assignment name op ([cDQ] ++ v ++ [cDQ]) (one_line i) -> ~ statement_word name -> unquoted v ->
  listed v l -> variable_words i [] true = l.
Proof.
  intros e i name op v l Hi Ha Hn Hu Hl. destruct (variable_of _ _ _ _ _ Hi Ha Hn) as [vn [sub [subs E]]].
  unfold variable_words. rewrite E. unfold variable_get_items. change (strip [cDQ] []) with ([] : str). cbn match.
  rewrite strip_quotes by exact Hu. apply C18_lemma. exact (proj2 (proj2 (sub_listed v l Hl)) true).
Qed.

(** ** C88 *)

Lemma lines_nl : forall h t, lines (h :: t) -> t <> [] -> exists l, h = l ++ [cNL].
Proof. intros h t H Hn. inversion H as [|l H1 H2|l r H1 H2]; subst; [now elim Hn|now exists l]. Qed.
Lemma lines_ne : forall t, lines t -> t <> [] -> concat t <> [].
Proof.
  intros t H Hn. destruct H as [|l H1 H2|l r H1 H2]; [congruence| |]; cbn [concat]; intro E; apply app_eq_nil in E;
    destruct E as [E _]; [exact (H1 E)|]. apply app_eq_nil in E. now destruct E.
Qed.
Lemma ends_carries : forall a, carries_on (a ++ [cBSL; cNL]).
Proof. intro a. exists a, []. split; [reflexivity|]. intros c []. Qed.

(** A line that does not carry on is the only one of a tidy statement. *)
Lemma tidy_alone : forall h m r, lines (h :: m ++ r) -> tidy (concat (h :: m)) -> ~ carries_on h -> m = [].
Proof.
  intros h m r Hl Ht Hh. destruct m as [|x m]; [reflexivity|]. exfalso. apply Hh.
  destruct (lines_nl _ _ Hl) as [l E]; [discriminate|]. apply (lines_tail [h]) in Hl.
  assert (Hne : concat (x :: m) <> []).
  { intro E2. cbn [concat] in E2. apply app_eq_nil in E2. destruct E2 as [E2 _]. subst x.
    clear - Hl. cbn in Hl. inversion Hl as [|y H1 H2|y q H1 H2]; [now apply H1|]. now destruct y. }
  destruct (Ht l (concat (x :: m))) as [a' Ea]; [|exact Hne|].
  - cbn [concat]. now rewrite E, <- !app_assoc.
  - rewrite E, Ea, <- app_assoc. apply ends_carries.
Qed.

Lemma concat_nl : forall g r, lines (g ++ r) -> g <> [] -> r <> [] -> exists c, concat g = c ++ [cNL].
Proof.
  intros g r H Hg Hr. destruct (exists_last Hg) as [a [x ->]]. rewrite <- app_assoc in H. apply lines_tail in H.
  destruct (lines_nl x r H Hr) as [l ->]. exists (concat a ++ l). rewrite concat_app. cbn [concat]. now rewrite app_nil_r, app_assoc.
Qed.
Lemma block_tidy : forall ls g r a, lines ls -> block ls g r -> tidy (concat g) -> concat g <> a ++ [cBSL; cNL].
Proof.
  intros ls g r a Hl Hb Ht E.
  assert (K : forall h m r', lines (h :: m ++ r') -> tidy (concat (h :: m)) -> ~ carries_on h ->
    concat (h :: m) <> a ++ [cBSL; cNL]).
  { intros h m r' Hl' Ht' Hh E'. rewrite (tidy_alone _ _ _ Hl' Ht' Hh) in E'. cbn [concat] in E'. rewrite app_nil_r in E'.
    apply Hh. rewrite E'. apply ends_carries. }
  destruct Hb as [h m z r H1 H2 H3|h m z r H1 H2 H3|h m H1 H2 H3 H4|h m r H1 H2 H3 H4 H5|h m r H1 H2 H3 H4 H5 H6|h r H1 H2 H3 H4].
  - apply H3. assert (Hz : z <> []).
    { replace (h :: m ++ z :: r) with ((h :: m) ++ z :: r) in Hl by reflexivity. apply lines_tail in Hl.
      intros ->. inversion Hl as [|y I1 I2|y q I1 I2]; [now apply I1|]. now destruct y. }
    replace (concat (h :: m ++ [z])) with (concat (h :: m) ++ z) in E
      by (cbn [concat]; rewrite concat_app; cbn [concat]; now rewrite app_nil_r, app_assoc).
    apply (f_equal (@rev N)) in E. rewrite !rev_app_distr in E. cbn [rev app] in E.
    assert (Hn : lines (z :: r)) by (apply (lines_tail (h :: m)); exact Hl).
    destruct (rev z) as [|x1 [|x2 q]] eqn:Ez.
    + exfalso. apply Hz. rewrite <- (rev_involutive z), Ez. reflexivity.
    + destruct (concat_nl (h :: m) (z :: r) Hl ltac:(discriminate) ltac:(discriminate)) as [c Ec].
      rewrite Ec, rev_app_distr in E. cbn [rev app] in E. injection E as _ E _. discriminate.
    + cbn [app] in E. injection E as -> -> E. rewrite <- (rev_involutive z), Ez. cbn [rev]. rewrite <- app_assoc. apply ends_carries.
  - refine (K h (m ++ [z]) r _ Ht H1 E). rewrite <- app_assoc. exact Hl.
  - refine (K h m [] _ Ht H1 E). now rewrite app_nil_r.
  - exact (K h m r Hl Ht H1 E).
  - exact (K h m r Hl Ht H1 E).
  - refine (K h [] r Hl Ht H1 E).
Qed.

Lemma C88_lemma : forall e i, parsed_item e i -> no_inline (it_realraw i) -> tidy (it_realraw i) ->
  (forall a b, it_realraw i <> a ++ [cBSL; 120%N; 49%N; 98%N] ++ b) ->
  (in_several_lines i = true <-> several_lines (it_realraw i)).
Proof.
  intros e i Hi Hin Ht Hx. destruct (parsed_stated e i Hi) as [neg [ls [g [r [Hl [Hb [Er Hraw]]]]]]].
  rewrite (blocks_none neg _ Hin) in Hraw. injection Hraw as Eraw _. unfold in_several_lines, is_multiline.
  rewrite <- Eraw, Bool.orb_true_iff, !contains_spec. split.
  - intros [[a [b E]]|[a [b E]]]; [now apply Hx in E|]. exists (a ++ [cBSL]), b. rewrite <- app_assoc. split; [exact E|].
    intros ->. rewrite app_nil_r in E. rewrite Er in *. now apply (block_tidy ls g r a Hl Hb Ht).
  - intros [a [b [E Hn]]]. right. destruct (Ht a b E Hn) as [a' ->]. exists a', b. rewrite E. now rewrite <- app_assoc.
Qed.

(** ** C89 *)

Lemma first_filter : forall (P : str -> Prop) f l, (forall x, In x l -> (f x = true <-> P x)) ->
  first_with P l (hd [] (filter f l)).
Proof.
  intros P f l. induction l as [|x l IH]; intro H; [now right|]. cbn [filter].
  destruct (f x) eqn:E.
  - left. exists [], l. cbn [hd app]. split; [reflexivity|]. split; [apply H; [now left|exact E]|intros y []].
  - assert (Hx : ~ P x) by (intro Hp; apply H in Hp; [congruence|now left]).
    destruct IH as [[a [b [E1 [E2 E3]]]]|[E1 E2]]; [intros y Hy; apply H; now right| |].
    + left. exists (x :: a), b. cbn [app]. split; [now f_equal|]. split; [exact E2|]. intros y [<-|Hy]; auto.
    + right. split; [exact E1|]. intros y [<-|Hy]; auto.
Qed.

Lemma join_colon : forall n (os : list str), os <> [] -> contains ":" (join ":" (n :: os)) = true.
Proof.
  intros n [|o os] H; [congruence|]. apply contains_spec. exists n, (join ":" (o :: os)). reflexivity.
Qed.
Lemma keep_all : forall l : list str, (forall x, In x l -> x <> []) -> keep_nonempty l = l.
Proof.
  intros l H. unfold keep_nonempty. induction l as [|x l IH]; [reflexivity|]. cbn [filter].
  destruct x as [|c x]; [now destruct (H [] (or_introl eq_refl))|]. cbn [nonempty]. f_equal. apply IH. intros y Hy. apply H. now right.
Qed.
Lemma split_overridden : forall n (os : list str), ~ In 58%N n -> (forall x, In x os -> ~ In 58%N x) ->
  split_char 58 (join ":" (n :: os)) = n :: os.
Proof.
  intros n os Hn Ho. apply split_char_join_parts; [discriminate|]. intros q [<-|Hq]; auto.
Qed.

Lemma mem_str_iff : forall x l, mem_str x l = true <-> In x l.
Proof. intros x l. apply mem_str_In. Qed.
Lemma nomachine_iff : forall x, negb (mem_str x nomachine_var) = true <-> for_machine x.
Proof.
  intro x. rewrite Bool.negb_true_iff, <- Bool.not_true_iff_false, mem_str_In. unfold nomachine_var, for_machine, for_class, operation.
  cbn [In]. intuition congruence.
Qed.

Lemma overridden_made : forall e i name op value n os, parsed_item e i ->
  assignment name op value (one_line i) -> ~ statement_word name -> overridden name n os ->
  it_pay i = PVariable n (join ":" os) os value op n /\ it_new i = true.
Proof.
  intros e i name op value n os Hi Ha Hw [En [Hn [Hc [Hp [Ho Hos]]]]].
  destruct (C10_lemma e i name op value Hi Ha Hw) as [_ [p [E1 E2]]].
  destruct (mk_variable_spec p name value op) as [S1 [S2 _]].
  assert (N : ip_new p || contains ":" name = true) by (rewrite En, join_colon by exact Ho; apply Bool.orb_true_r).
  rewrite N in *. unfold delim, delim_str in *. cbn match in S2. rewrite En in S2.
  rewrite split_overridden in S2; [|exact Hc|intros x Hx; now apply Hos]. cbn [hd tl] in S2.
  rewrite !keep_all in S2.
  all: try (intros x [<-|[]]; exact Hn).
  all: try (intros x Hx; destruct (Hos x Hx) as [_ [c [r [-> _]]]]; discriminate).
  assert (A : forall x, In x os -> sub_chunk n x = true).
  { intros x Hx. apply is_override_iff. left. split; [exact Hp|]. destruct (Hos x Hx) as [_ [c [r [-> H]]]].
    exists c, r. split; [reflexivity|]. exact H. }
  assert (F1 : filter (sub_chunk n) os = os).
  { clear - A. induction os as [|x os IH]; [reflexivity|]. cbn [filter]. rewrite A by now left. f_equal. apply IH.
    intros y Hy. apply A. now right. }
  assert (F2 : filter (fun i => negb (sub_chunk n i)) os = []).
  { clear - A. induction os as [|x os IH]; [reflexivity|]. cbn [filter]. rewrite A by now left. cbn [negb]. apply IH.
    intros y Hy. apply A. now right. }
  rewrite F1, F2 in S2. rewrite E1, E2, En, S2, <- En, S1. auto.
Qed.

Lemma C89_variable_lemma : forall e i name op value n os known db, parsed_item e i ->
  Spec_Const.at_path ["replacements"; "distros"] db = Some (CList known) ->
  assignment name op value (one_line i) -> ~ statement_word name -> overridden name n os ->
  (exists s, it_pay i = PVariable n s os value op n) /\
  first_with for_class os (class_override i) /\ first_with for_machine os (machine_entry i) /\
  first_with (fun x => In x known) os (distro_entry db i).
Proof.
  intros e i name op value n os known db Hi Hk Ha Hw Ho. destruct (overridden_made _ _ _ _ _ _ _ Hi Ha Hw Ho) as [E _].
  unfold class_override, machine_entry, distro_entry, sub_items. rewrite E, (ConstFacts.distros_at _ _ Hk). split; [now eexists|].
  unfold get_class_override, get_machine_entry, get_distro_entry. repeat split; apply first_filter; intros x _.
  - apply mem_str_In.
  - apply nomachine_iff.
  - apply mem_str_In.
Qed.

Lemma from_first_skip : forall x n (r : list str), x <> n -> from_first x (n :: x :: r) = x :: r.
Proof.
  intros x n r H. cbn [from_first]. destruct (str_eqb n x) eqn:E; [apply str_eqb_eq in E; congruence|].
  now rewrite str_eqb_refl.
Qed.

Lemma marked_made : forall e i qs name body n os, parsed_item e i ->
  function_text qs name body (one_line i) -> own_name name -> marked name n os ->
  exists py fr raw, it_pay i = PFunction py fr n (join ":" os) os body raw /\ it_new i = true.
Proof.
  intros e i qs name body n os Hi Ht Ho [En [Hd [[x [r [Eos Hm]]] Hp]]].
  assert (Hf : forall c, In c name -> func_char c).
  { destruct Ht as [head [rest [_ [[w0 [w1 [w2 [_ [_ [_ [_ [_ [H _]]]]]]]]] _]]]]. exact H. }
  destruct (function_made e i qs name body Hi Ht Ho) as [known [p [py [fr [_ [_ [_ [E1 E2]]]]]]]].
  unfold mk_function in E1, E2. rewrite (func_name_strip name Hf) in E1, E2. unfold extract_sub_func in E1, E2.
  assert (Hne : os <> []) by (rewrite Eos; discriminate).
  assert (N : ip_new p || contains ":" name = true) by (rewrite En, join_colon by exact Hne; apply Bool.orb_true_r).
  rewrite N in *.
  assert (A : str_eqb name "__anonymous" = false).
  { destruct (str_eqb name "__anonymous") eqn:E; [|reflexivity]. apply str_eqb_eq in E. pose proof (join_colon n os Hne) as J.
    rewrite <- En, E in J. vm_compute in J. discriminate. }
  rewrite A in E1, E2. unfold delim, delim_str in E1, E2. cbn match in E1, E2.
  assert (S : split_char 58 name = n :: os).
  { rewrite En. apply split_overridden; [apply Hp; now left|intros y Hy; apply Hp; now right]. }
  rewrite S in E1, E2. cbn [hd tl] in E1, E2. rewrite Eos in E1, E2. cbn [sub_func_loop] in E1, E2.
  assert (M : mem_str x func_markers = true) by (apply mem_str_In; exact Hm).
  rewrite M in E1, E2. cbn [orb] in E1, E2. rewrite from_first_skip in E1, E2.
  2,3: intros ->; rewrite Eos in Hd; inversion Hd as [|y l H1 H2]; apply H1; now left.
  rewrite <- Eos in E1, E2. 
  rewrite !keep_all in E1.
  all: try (intros y Hy; apply Hp; now right).
  all: try (intros y [<-|[]]; apply Hp; now left).
  all: assert (S2 : split_char 58 (join [delim true] os) = os)
    by (apply split_char_join_parts; [exact Hne|intros y Hy; apply Hp; now right]).
  2:{ intros y Hy. rewrite S2 in Hy. apply Hp. now right. }
  cbn [it_pay it_new mk_item] in E1, E2. rewrite S2 in E1. rewrite E1, E2. now repeat eexists.
Qed.

Lemma existsb_iff : forall (l l' : list str), existsb (fun x => mem_str x l') l = true <-> exists x, In x l /\ In x l'.
Proof.
  intros l l'. rewrite existsb_exists. split; intros [x [H1 H2]]; exists x; (split; [exact H1|]); now apply mem_str_In.
Qed.

Lemma C89_function_lemma : forall e i qs name body n os known db, parsed_item e i ->
  Spec_Const.at_path ["replacements"; "distros"] db = Some (CList known) ->
  function_text qs name body (one_line i) -> own_name name -> marked name n os ->
  (exists py fr s raw, it_pay i = PFunction py fr n s os body raw) /\
  (appends_function i = true <-> In ("append" : str) os \/ In ("prepend" : str) os) /\
  (~ In ("class-nativesdk" : str) os -> first_with for_machine os (machine_entry i)) /\
  first_with (fun x => In x known) os (distro_entry db i).
Proof.
  intros e i qs name body n os known db Hi Hk Ht Ho Hm.
  destruct (marked_made _ _ _ _ _ _ _ Hi Ht Ho Hm) as [py [fr [raw [E _]]]].
  unfold appends_function, machine_entry, distro_entry, sub_items. rewrite E, (ConstFacts.distros_at _ _ Hk). split; [now repeat eexists|]. split; [|split].
  - unfold func_is_append. rewrite existsb_iff. split.
    + intros [x [H1 [<-|[<-|[]]]]]; auto.
    + intros [H|H]; [exists "append"|exists "prepend"]; (split; [exact H|]); [now left|right; now left].
  - intro Hs. unfold get_machine_entry. apply first_filter. intros x Hx.
    rewrite <- nomachine_iff. rewrite !Bool.negb_true_iff, <- !Bool.not_true_iff_false, !mem_str_In.
    unfold nomachine_var, nomachine_func. cbn [In].
    assert (x <> "class-nativesdk") by (intros ->; contradiction). intuition congruence.
  - unfold get_distro_entry. apply first_filter. intros x _. apply mem_str_In.
Qed.

(** ** C90 *)

Lemma C90_lemma : forall e i arg fs, parsed_item e i ->
  statement_at_start "EXPORT_FUNCTIONS" arg (one_line i) -> Spec_Parse.words fs arg ->
  get_items_of i = fs /\
  forall cls, class_file (it_origin i) cls -> unaliased i = map (fun f => cls ++ "-" ++ f) fs.
Proof.
  intros e i arg fs Hi Hs Hw. pose proof (C12_functions_lemma e i arg Hi Hs) as E. apply words_split in Hw.
  unfold get_items_of, unaliased, exports_unaliased. rewrite E. unfold keep_nonempty. rewrite Hw. split; [reflexivity|].
  intros cls [d [Ef [Hsl Hd]]]. rewrite Ef.
  assert (Hb : ~ In cSL (cls ++ [cDOT] ++ "bbclass")).
  { rewrite !in_app_iff. intros [H|[H|H]]; [contradiction| |]; cbn in H; intuition discriminate. }
  change (cls ++ ".bbclass") with (cls ++ [cDOT] ++ "bbclass"). change "/" with [cSL].
  rewrite basename_app by exact Hb. rewrite splitext_base; [reflexivity|exact Hb| |exact Hd].
  cbn. intuition discriminate.
Qed.

(** ** C91 *)

Lemma NoDup_map_filter : forall (f : item -> bool) l, NoDup (map it_id l) -> NoDup (map it_id (filter f l)).
Proof.
  intros f l. induction l as [|x l IH]; cbn [map filter]; intro H; [constructor|].
  inversion H as [|? ? H1 H2]; subst. destruct (f x); [|now apply IH]. cbn [map]. constructor; [|now apply IH].
  intro Hx. apply H1. apply in_map_iff in Hx. destruct Hx as [y [E Hy]]. rewrite <- E. apply in_map.
  now apply filter_In in Hy.
Qed.

Lemma C91_lemma : forall e s f, env_ok e -> reach e s -> f <> [] ->
  exists js, get_links_for_file e s f = map it_origin js /\ NoDup (map it_id js) /\
    forall i, In i js <-> In i (st_list s) /\ it_origin i <> f /\ linked s f (it_origin i).
Proof.
  intros e s f He Hs Hf. destruct f as [|c f]; [congruence|].
  pose proof (proj1 (reach_ids e s Hs)) as Hids. destruct He as [He _]. specialize (He (st_list s)).
  assert (Hn : NoDup (map it_id (e_iset e (st_list s)))).
  { apply (Permutation_NoDup (l := map it_id (dedup_items (st_list s)))); [|apply dedup_items_NoDup].
    apply Permutation_map. now symmetry. }
  assert (Hin : forall i, In i (e_iset e (st_list s)) <-> In i (st_list s)).
  { intro i. rewrite <- (dedup_items_In (st_list s) i Hids). split; apply Permutation_in; [exact He|now symmetry]. }
  unfold get_links_for_file, by_file. eexists. split; [reflexivity|]. split.
  - apply NoDup_map_filter, NoDup_map_filter. exact Hn.
  - intro i. rewrite !filter_In, Hin. unfold is_linked_to.
    rewrite Bool.orb_true_iff, Bool.andb_true_iff, linked_iff, str_eqb_eq, !Bool.negb_true_iff.
    assert (X : str_eqb (it_origin i) (c :: f) = false <-> it_origin i <> c :: f).
    { rewrite <- (str_eqb_eq (it_origin i) (c :: f)). symmetry. apply Bool.not_true_iff_false. }
    rewrite X. intuition congruence.
Qed.
