(** * How the lines of a file form statements: proofs *)

From Verif Require Import PyStr Regex Patterns PyPath Res Inline Const Item Lines Stash
  StrFacts ReFacts LinesFacts ParseFacts ExnFacts MatchFacts Props_Lines Spec_Parse Spec_Group.

(** ** Shapes of lines *)

Definition line_like (l : str) : Prop := full_line l \/ ~ In cNL l.

Lemma lines_are_ok : forall ls, lines ls -> lines_ok ls.
Proof.
  intros ls H. induction H as [|l Hn Hi|l r Hi Hr IH]; constructor; auto. now exists l.
Qed.
Lemma ok_are_lines : forall ls, lines_ok ls -> lines ls.
Proof.
  intros ls H. induction H as [|l Hn Hi|l r [t [-> Hi]] Hr IH]; constructor; auto.
Qed.
Lemma lines_like : forall ls, lines_ok ls -> Forall line_like ls.
Proof.
  intros ls H. induction H as [|l Hn Hi|l r Hf Hr IH]; constructor; auto; [now right|now left].
Qed.

Lemma full_end : forall t a b, t ++ [cNL] = a ++ [cNL] ++ b -> ~ In cNL t -> b = [].
Proof.
  intros t a b E Hi. destruct b as [|c b] using rev_ind; [reflexivity|]. exfalso. apply Hi.
  rewrite app_assoc in E. rewrite app_assoc in E. apply app_inj_tail in E. destruct E as [-> _].
  apply in_or_app. left. apply in_or_app. right. now left.
Qed.

Lemma carries_iff : forall l, line_like l -> (is_next_line l = true <-> carries_on l).
Proof.
  intros l Hl. rewrite is_next_line_iff. unfold continues, carries_on. split.
  - intros [a [w [b [E Hw]]]]. exists a, w. apply blank_forallb in Hw. split; [|exact Hw].
    destruct Hl as [[t [Et Hi]]|Hi].
    + rewrite Et in E. assert (Eb : b = []).
      { apply (full_end t (a ++ [cBSL] ++ w) b); [|exact Hi]. rewrite E, <- !app_assoc. reflexivity. }
      subst b. rewrite Et, E. reflexivity.
    + exfalso. apply Hi. rewrite E. apply in_or_app. right. apply in_or_app. right. apply in_or_app. right. now left.
  - intros [a [w [E Hw]]]. exists a, w, []. split; [exact E|]. now apply blank_forallb.
Qed.

Lemma opens_iff : forall l, line_like l -> (is_func_start l = true <-> opens l).
Proof.
  intros l Hl. split.
  - intro H. apply is_func_start_header in H. destruct H as [a [w1 [w2 [b [E [H1 H2]]]]]].
    exists a, w1, w2, b. rewrite !blank_forallb. auto.
  - intros [a [w1 [w2 [b [E [H1 H2]]]]]]. apply header_is_func_start; [exact Hl|].
    exists a, w1, w2, b. rewrite !blank_forallb in *. auto.
Qed.

Lemma search_bol : forall r s, matched (re_search (RSeq RBol r) s) = matched (re_match (RSeq RBol r) s).
Proof.
  intros r s. apply Bool.eq_iff_eq_true. unfold re_search. rewrite search_iff. unfold re_match. rewrite matched_iff. split.
  - intros [a [t [s' [E H]]]]. rewrite mt_seq_iff in H. destruct H as [s1 [H1 H2]].
    apply mt_bol_iff in H1. destruct H1 as [-> Hb]. cbn [m_bol] in Hb. destruct a as [|c a]; [|discriminate].
    cbn in E. subst t. exists s'. apply mt_seq_iff. eexists. split; [|exact H2]. now apply mt_bol_iff.
  - intros [s' H]. exists [], s, s'. auto.
Qed.

Lemma remark_iff : forall l, is_comment_pure l = true <-> remark l.
Proof.
  intro l. unfold is_comment_pure, re_comments_pure. cbn [RCat]. rewrite search_bol. unfold remark. split.
  - intro H. unfold re_match in H. apply matched_iff in H. destruct H as [s' H].
    apply mt_seq_iff in H. destruct H as [s1 [H1 H]]. apply mt_bol_iff in H1. destruct H1 as [-> _].
    apply mt_seq_iff in H. destruct H as [s2 [H2 _]]. unfold RPlus in H2.
    apply mt_seq_iff in H2. destruct H2 as [s3 [H2 _]]. apply mt_chr_iff in H2.
    destruct H2 as [c [t [E [Ec _]]]]. unfold oneof in Ec. apply in_chars_In in Ec. destruct Ec as [<-|[]].
    exists t. exact E.
  - intros [t ->]. unfold re_match. apply matched_iff.
    exists (MS false t [("body", [])]).
    apply mt_seq_iff. eexists. split; [now apply mt_bol_iff|].
    apply mt_seq_iff. exists (MS false t []). split.
    { apply mt_seq_iff. exists (MS false t []). split; [apply mt_chr_iff; now exists 35%N, t|].
      apply mt_star_chr_iff. now exists [], t. }
    apply mt_seq_iff. exists (MS false t []). split; [apply mt_star_chr_iff; now exists [], t|].
    apply mt_grp_iff. exists (MS false t []). split; [apply mt_star_chr_iff; now exists [], t|].
    unfold consumed. cbn [m_rest m_bol m_grp]. now rewrite Nat.sub_diag.
Qed.

Lemma white_forallb : forall w, white w <-> forallb py_space w = true.
Proof. intro w. unfold white. rewrite forallb_forall. reflexivity. Qed.

Lemma lstrip_all : forall p s, forallb p s = true -> lstrip_p p s = [].
Proof. intros p s H. rewrite <- (app_nil_r s). rewrite lstrip_p_app by exact H. reflexivity. Qed.

Lemma defines_iff : forall l, is_def_line l = true <-> defines l.
Proof.
  intro l. unfold is_def_line, defines, strip_ws, strip_p. split.
  - intro H. apply startswith_spec in H. destruct H as [t H].
    destruct (lstrip_p_spec py_space l) as [w [E [Hw _]]].
    destruct (rstrip_p_spec py_space (lstrip_p py_space l)) as [b [E2 [Hb Hn]]].
    rewrite H in E2, Hn. exists w, (t ++ b). split; [|split].
    + rewrite E at 1. rewrite E2, <- app_assoc. reflexivity.
    + now apply white_forallb.
    + intro Hx. destruct t as [|c t _] using rev_ind; [discriminate Hn|].
      change (("def " : str) ++ t ++ [c]) with (([100; 101; 102; 32]%N ++ t ++ [c]) : list N) in Hn.
      rewrite app_assoc, rev_app_distr in Hn. cbn [rev app] in Hn.
      rewrite Hx in Hn; [discriminate|]. apply in_or_app. left. apply in_or_app. right. now left.
  - intros [w [t [-> [Hw Ht]]]]. apply white_forallb in Hw. rewrite lstrip_p_app by exact Hw.
    rewrite (lstrip_p_id py_space ("def " ++ t)) by reflexivity.
    destruct (rstrip_p_spec py_space t) as [b [E [Hb Hn]]].
    destruct (rstrip_p py_space t) as [|c x _] using rev_ind.
    { exfalso. apply Ht. apply white_forallb. now rewrite E. }
    rewrite rev_app_distr in Hn. cbn [rev app] in Hn. subst t.
    apply startswith_spec. exists (x ++ [c]).
    rewrite app_assoc, rstrip_p_app by exact Hb. rewrite app_assoc, rstrip_p_id by exact Hn.
    now rewrite <- app_assoc.
Qed.

Lemma up_iff : forall c, (por up_c (por low_c (por dig_c (oneof "#")))) c = true <-> letter c \/ digit c \/ c = 35%N.
Proof.
  intro c. unfold por, up_c, low_c, dig_c, range, oneof, letter, digit, between. rewrite !Bool.orb_true_iff, !Bool.andb_true_iff, !N.leb_le, in_chars_In.
  simpl. split.
  - intros [H|[H|[H|[H|[]]]]]; auto.
  - intros [[H|H]|[H|H]]; auto.
Qed.

Lemma valid_iff : forall l, is_valid_func_name l = true <-> top_level l.
Proof.
  intro l. unfold is_valid_func_name, re_match, re_valid_func_name. rewrite matched_iff. split.
  - intros [s' H]. apply mt_seq_iff in H. destruct H as [s1 [H1 H]]. apply mt_bol_iff in H1. destruct H1 as [-> _].
    apply mt_seq_iff in H. destruct H as [s2 [H _]]. apply mt_chr_iff in H. destruct H as [c [t [E [Hc _]]]].
    exists c, t. split; [exact E|]. now apply up_iff.
  - intros [c [t [-> Hc]]]. apply up_iff in Hc. exists (MS false t []). apply mt_seq_iff. eexists.
    split; [now apply mt_bol_iff|]. apply mt_seq_iff. exists (MS false t []).
    split; [apply mt_chr_iff; now exists c, t|]. apply mt_star_chr_iff. now exists [], t.
Qed.
Lemma def_top : forall l, startswith "def " l = true -> top_level l.
Proof.
  intros l H. apply startswith_spec in H. destruct H as [t ->]. exists 100%N, ("ef " ++ t).
  split; [reflexivity|]. left. right. unfold between. lia.
Qed.

(** ** Braces *)

Lemma number_count : forall c s, number c s = Z.of_nat (count_char c s).
Proof.
  intros c s. unfold number. f_equal. induction s as [|x s IH]; [reflexivity|]. simpl.
  destruct (N.eq_dec x c) as [->|Hn]; rewrite IH.
  - now rewrite N.eqb_refl.
  - destruct (N.eqb_spec x c); [congruence|reflexivity].
Qed.
Lemma depth_app : forall a b, depth (a ++ b) = (depth a + depth b)%Z.
Proof. intros a b. unfold depth. rewrite !number_count, concat_app, !count_char_app. lia. Qed.
Lemma depth_one : forall l, depth [l] = (Z.of_nat (count_char 123 l) - Z.of_nat (count_char 125 l))%Z.
Proof. intro l. unfold depth. rewrite !number_count. simpl. now rewrite app_nil_r. Qed.

Lemma inside_nil : inside [].
Proof. intros a b H. destruct a; [|discriminate]. unfold depth, number. simpl. lia. Qed.
Lemma inside_snoc : forall d l, inside d -> (0 <= depth (d ++ [l]))%Z -> inside (d ++ [l]).
Proof.
  intros d l Hd Hl a b E. destruct b as [|x b _] using rev_ind.
  - rewrite app_nil_r in E. now subst.
  - rewrite app_assoc in E. apply app_inj_tail in E. destruct E as [-> _]. now apply (Hd a b).
Qed.
Lemma inside_app : forall a b, inside (a ++ b) -> inside a.
Proof. intros a b H x y E. apply (H x (y ++ b)). now rewrite E, app_assoc. Qed.

(** ** The loops *)

Lemma next_line_like : forall x ls, Forall line_like (x :: ls) ->
  line_like x /\ Forall line_like ls.
Proof. intros x ls H. now inversion H. Qed.

Lemma cont_loop_taken : forall rest res line t r, Forall line_like (line :: rest) ->
  cont_loop res line rest = Ok (t, r) ->
  exists m z, line :: rest = m ++ z :: r /\ Forall carries_on m /\ ~ carries_on z /\
              t = res ++ concat (m ++ [z]).
Proof.
  induction rest as [|l rest IH]; intros res line t r Hl H; cbn [cont_loop] in H;
    destruct (next_line_like _ _ Hl) as [Hx Hr];
    pose proof (carries_iff line Hx) as Hc; destruct (is_next_line line); try discriminate.
  - injection H as <- <-. exists [], line. cbn. rewrite app_nil_r. repeat split; auto.
    intro C. apply Hc in C. discriminate.
  - apply IH in H; [|exact Hr]. destruct H as [m [z [E [Hm [Hz ->]]]]].
    exists (line :: m), z. rewrite E. repeat split; auto.
    + constructor; [now apply Hc|exact Hm].
    + cbn. now rewrite <- app_assoc.
  - injection H as <- <-. exists [], line. cbn. rewrite app_nil_r. repeat split; auto.
    intro C. apply Hc in C. discriminate.
Qed.

Lemma cont_loop_run : forall m res z r, Forall line_like (m ++ z :: r) ->
  Forall carries_on m -> ~ carries_on z ->
  match m ++ z :: r with
  | [] => True
  | line :: rest => cont_loop res line rest = Ok (res ++ concat (m ++ [z]), r)
  end.
Proof.
  induction m as [|h m IH]; intros res z r Hl Hm Hz.
  - cbn [app]. destruct (next_line_like _ _ Hl) as [Hx _].
    destruct r as [|y r]; cbn [cont_loop];
    (destruct (is_next_line z) eqn:E; [apply (carries_iff z Hx) in E; contradiction|]);
      cbn; now rewrite app_nil_r.
  - cbn [app] in *. destruct (next_line_like _ _ Hl) as [Hx Hr].
    inversion Hm as [|? ? H1 H2]; subst. apply (carries_iff h Hx) in H1.
    specialize (IH (res ++ h) z r Hr H2 Hz). destruct (m ++ z :: r) as [|line rest] eqn:E.
    { destruct m; discriminate. }
    cbn [cont_loop]. rewrite H1. rewrite IH. cbn [concat]. now rewrite <- app_assoc.
Qed.

Lemma func_loop_taken : forall rest res d line t r,
  inside d -> func_loop res (depth d) line rest = (t, r) ->
  (exists m z, line :: rest = m ++ z :: r /\ t = res ++ concat (m ++ [z]) /\
               inside (d ++ m) /\ (depth (d ++ m ++ [z]) < 0)%Z)
  \/ (r = [] /\ t = res ++ concat (line :: rest) /\ inside (d ++ line :: rest)).
Proof.
  induction rest as [|l rest IH]; intros res d line t r Hd H; cbn [func_loop] in H;
    replace (depth d + Z.of_nat (count_char 123 line) - Z.of_nat (count_char 125 line))%Z
      with (depth (d ++ [line])) in H by (rewrite depth_app, depth_one; lia);
    destruct (Z.ltb_spec (depth (d ++ [line])) 0) as [Hlt|Hge].
  - injection H as <- <-. left. exists [], line. rewrite !app_nil_r. cbn. rewrite app_nil_r. auto.
  - injection H as <- <-. right. cbn. rewrite app_nil_r. split; [reflexivity|]. split; [reflexivity|].
    now apply inside_snoc.
  - injection H as <- <-. left. exists [], line. rewrite !app_nil_r. cbn. rewrite app_nil_r. auto.
  - apply IH in H; [|now apply inside_snoc].
    destruct H as [[m [z [E [-> [H1 H2]]]]]|[-> [-> H1]]].
    + left. exists (line :: m), z. rewrite E. repeat split.
      * cbn. now rewrite <- app_assoc.
      * now rewrite <- app_assoc in H1.
      * rewrite <- app_assoc in H2. exact H2.
    + right. repeat split.
      * cbn. now rewrite <- app_assoc.
      * now rewrite <- app_assoc in H1.
Qed.

Lemma func_loop_run : forall m res d z r, inside (d ++ m) -> (depth (d ++ m ++ [z]) < 0)%Z ->
  match m ++ z :: r with
  | [] => True
  | line :: rest => func_loop res (depth d) line rest = (res ++ concat (m ++ [z]), r)
  end.
Proof.
  induction m as [|h m IH]; intros res d z r Hi Hz.
  - cbn [app]. destruct r as [|y r]; cbn [func_loop];
    (replace (depth d + Z.of_nat (count_char 123 z) - Z.of_nat (count_char 125 z))%Z
      with (depth (d ++ [z])) by (rewrite depth_app, depth_one; lia));
    (destruct (Z.ltb_spec (depth (d ++ [z])) 0) as [Hlt|Hge]; [|cbn in Hz; lia]);
    cbn; now rewrite app_nil_r.
  - cbn [app]. assert (Hh : (0 <= depth (d ++ [h]))%Z).
    { apply (Hi (d ++ [h]) m). now rewrite <- app_assoc. }
    assert (E0 : (d ++ [h]) ++ m = d ++ h :: m) by now rewrite <- app_assoc.
    assert (E1 : (d ++ [h]) ++ m ++ [z] = d ++ (h :: m) ++ [z]) by now rewrite <- app_assoc.
    specialize (IH (res ++ h) (d ++ [h]) z r). rewrite E0, E1 in IH. specialize (IH Hi Hz).
    destruct (m ++ z :: r) as [|line rest] eqn:E; [destruct m; discriminate|].
    cbn [func_loop].
    replace (depth d + Z.of_nat (count_char 123 h) - Z.of_nat (count_char 125 h))%Z
      with (depth (d ++ [h])) by (rewrite depth_app, depth_one; lia).
    destruct (Z.ltb_spec (depth (d ++ [h])) 0) as [Hlt|Hge]; [lia|].
    rewrite IH. cbn [concat]. now rewrite <- app_assoc.
Qed.
Lemma func_loop_rest : forall rest res d line, inside (d ++ line :: rest) ->
  func_loop res (depth d) line rest = (res ++ concat (line :: rest), []).
Proof.
  induction rest as [|l rest IH]; intros res d line Hi; cbn [func_loop];
    (replace (depth d + Z.of_nat (count_char 123 line) - Z.of_nat (count_char 125 line))%Z
      with (depth (d ++ [line])) by (rewrite depth_app, depth_one; lia));
    (assert (Hh : (0 <= depth (d ++ [line]))%Z)
      by (first [apply (Hi (d ++ [line]) []); now rewrite app_nil_r
                |apply (Hi (d ++ [line]) (l :: rest)); now rewrite <- app_assoc]));
    (destruct (Z.ltb_spec (depth (d ++ [line])) 0) as [Hlt|Hge]; [lia|]).
  - cbn. now rewrite app_nil_r.
  - rewrite IH by now rewrite <- app_assoc. cbn [concat]. now rewrite <- app_assoc.
Qed.

Lemma comment_loop_taken : forall rest res t n r, Forall (fun l => l <> []) rest ->
  comment_loop res rest = (t, n, r) ->
  exists m, rest = m ++ line_list n r /\ Forall remark m /\ next_is (fun l => ~ remark l) (line_list n r)
            /\ t = res ++ concat m.
Proof.
  induction rest as [|l rest IH]; intros res t n r Hne H; cbn [comment_loop] in H.
  - injection H as <- <- <-. exists []. cbn. rewrite app_nil_r. repeat split; auto. intros x y E. discriminate.
  - inversion Hne as [|? ? Hl Hr]; subst. destruct (is_comment_pure l) eqn:E.
    + apply IH in H; [|exact Hr]. destruct H as [m [-> [Hm [Hn ->]]]].
      exists (l :: m). repeat split; auto.
      * constructor; [now apply remark_iff|exact Hm].
      * cbn. now rewrite <- app_assoc.
    + injection H as <- <- <-. exists []. cbn [concat app]. rewrite app_nil_r.
      destruct l as [|c l]; [congruence|]. repeat split; auto.
      intros x y Ex. cbn [line_list] in Ex. injection Ex as <- <-. rewrite <- remark_iff. congruence.
Qed.
Lemma comment_loop_run : forall m res r, Forall remark m -> next_is (fun l => ~ remark l) r ->
  Forall (fun l => l <> []) r ->
  exists n r', comment_loop res (m ++ r) = (res ++ concat m, n, r') /\ line_list n r' = r.
Proof.
  induction m as [|h m IH]; intros res r Hm Hn Hr.
  - cbn [app concat]. rewrite app_nil_r. destruct r as [|l r]; [now exists [], []|]. cbn [comment_loop].
    destruct (is_comment_pure l) eqn:E; [apply remark_iff in E; now apply (Hn l r) in E|].
    inversion Hr as [|? ? Hl _]; subst. exists l, r. split; [reflexivity|]. now destruct l.
  - inversion Hm as [|? ? H1 H2]; subst. cbn [app comment_loop]. apply remark_iff in H1. rewrite H1.
    destruct (IH (res ++ h) r H2 Hn Hr) as [n [r' [E1 E2]]]. exists n, r'. rewrite E1. cbn [concat].
    now rewrite <- app_assoc.
Qed.

Lemma def_loop_taken : forall rest res t n r, Forall (fun l => l <> []) rest ->
  def_loop res rest = (t, n, r) ->
  exists m, rest = m ++ line_list n r /\ Forall (fun l => ~ top_level l) m /\ next_is top_level (line_list n r)
            /\ t = res ++ concat m.
Proof.
  induction rest as [|l rest IH]; intros res t n r Hne H; cbn [def_loop] in H.
  - injection H as <- <- <-. exists []. cbn. rewrite app_nil_r. repeat split; auto. intros x y E. discriminate.
  - inversion Hne as [|? ? Hl Hr]; subst. destruct (is_valid_func_name l) eqn:E.
    + injection H as <- <- <-. exists []. cbn [concat app]. rewrite app_nil_r.
      destruct l as [|c l]; [congruence|]. repeat split; auto.
      intros x y Ex. cbn [line_list] in Ex. injection Ex as <- <-. now apply valid_iff.
    + destruct (startswith "def " l) eqn:Es.
      { exfalso. apply def_top in Es. apply valid_iff in Es. congruence. }
      apply IH in H; [|exact Hr]. destruct H as [m [-> [Hm [Hn ->]]]].
      exists (l :: m). repeat split; auto.
      * constructor; [rewrite <- valid_iff; congruence|exact Hm].
      * cbn. now rewrite <- app_assoc.
Qed.
Lemma def_loop_run : forall m res r, Forall (fun l => ~ top_level l) m -> next_is top_level r ->
  Forall (fun l => l <> []) r ->
  exists n r', def_loop res (m ++ r) = (res ++ concat m, n, r') /\ line_list n r' = r.
Proof.
  induction m as [|h m IH]; intros res r Hm Hn Hr.
  - cbn [app concat]. rewrite app_nil_r. destruct r as [|l r]; [now exists [], []|]. cbn [def_loop].
    destruct (is_valid_func_name l) eqn:E; [|specialize (Hn l r eq_refl); apply valid_iff in Hn; congruence].
    inversion Hr as [|? ? Hl _]; subst. exists l, r. split; [reflexivity|]. now destruct l.
  - inversion Hm as [|? ? H1 H2]; subst. cbn [app def_loop].
    destruct (is_valid_func_name h) eqn:E; [apply valid_iff in E; contradiction|].
    destruct (startswith "def " h) eqn:Es; [apply def_top in Es; contradiction|].
    destruct (IH (res ++ h) r H2 Hn Hr) as [n [r' [E1 E2]]]. exists n, r'. rewrite E1. cbn [concat].
    now rewrite <- app_assoc.
Qed.

(** ** One statement *)

Ltac not_true L H := match type of H with ?b = false =>
  let C := fresh in intro C; apply L in C; rewrite C in H; discriminate H end.

Lemma iterate_block : forall (buf : str) (rest : list str) t n r,
  buf <> [] -> Forall line_like (buf :: rest) -> Forall (fun l => l <> []) rest ->
  iterate buf rest = Ok (t, n, r) ->
  exists g, block (buf :: rest) g (line_list n r) /\ t = concat g.
Proof.
  intros buf rest t n r Hb Hl Hne H. destruct (next_line_like _ _ Hl) as [Hx Hr].
  unfold iterate in H. destruct (is_next_line buf) eqn:En.
  { destruct rest as [|l rest]; [discriminate|].
    destruct (cont_loop buf l rest) as [[t' r']|e|] eqn:E; cbn [bind fst snd] in H; try discriminate.
    injection H as <- <- <-. apply cont_loop_taken in E; [|exact Hr].
    destruct E as [m [z [E [Hm [Hz ->]]]]]. cbn [line_list]. rewrite E.
    exists (buf :: m ++ [z]). split; [|reflexivity].
    constructor; auto. now apply carries_iff. }
  assert (Hc : ~ carries_on buf) by not_true (carries_iff buf Hx) En.
  destruct (is_func_start buf) eqn:Ef.
  { apply opens_iff in Ef; [|exact Hx]. destruct rest as [|l rest]; [discriminate|].
    destruct (func_loop buf 0 l rest) as [t' r'] eqn:E. injection H as <- <- <-.
    apply (func_loop_taken rest buf [] l t' r' inside_nil) in E. cbn [app line_list] in *.
    destruct E as [[m [z [E [-> [H1 H2]]]]]|[-> [-> H1]]].
    - rewrite E. exists (buf :: m ++ [z]). split; [|reflexivity]. apply block_function; auto. now split.
    - exists (buf :: l :: rest). split; [|reflexivity]. apply block_unclosed; auto. discriminate. }
  assert (Ho : ~ opens buf) by not_true (opens_iff buf Hx) Ef.
  destruct (is_comment_pure buf) eqn:Ec.
  { apply remark_iff in Ec. injection H as H. apply comment_loop_taken in H; [|exact Hne].
    destruct H as [m [-> [Hm [Hn ->]]]]. exists (buf :: m). split; [|reflexivity]. now apply block_comment. }
  assert (Hm : ~ remark buf) by not_true (remark_iff buf) Ec.
  destruct (is_def_line buf) eqn:Ed.
  { apply defines_iff in Ed. injection H as H. apply def_loop_taken in H; [|exact Hne].
    destruct H as [m [-> [Hm' [Hn ->]]]]. exists (buf :: m). split; [|reflexivity]. now apply block_def. }
  assert (Hd : ~ defines buf) by not_true (defines_iff buf) Ed.
  destruct buf as [|c buf]; [congruence|]. injection H as <- <- <-. cbn [line_list].
  exists [c :: buf]. split; [now apply block_line|]. cbn. now rewrite app_nil_r.
Qed.

Lemma block_app : forall ls g r, block ls g r -> ls = g ++ r.
Proof.
  intros ls g r H. destruct H; cbn [app]; try reflexivity; try (now rewrite <- app_assoc).
  now rewrite app_nil_r.
Qed.
Lemma block_ne : forall ls g r, block ls g r -> g <> [].
Proof. intros ls g r H. destruct H; discriminate. Qed.

Lemma Forall_mid : forall (P : str -> Prop) a b, Forall P (a ++ b) -> Forall P b.
Proof. intros P a b H. apply Forall_app in H. tauto. Qed.

Lemma block_iterate : forall (buf : str) (rest : list str) g u,
  Forall line_like (buf :: rest) -> Forall (fun l => l <> []) (buf :: rest) ->
  block (buf :: rest) g u ->
  exists n r, iterate buf rest = Ok (concat g, n, r) /\ line_list n r = u.
Proof.
  intros buf rest g u Hl Hne H. destruct (next_line_like _ _ Hl) as [Hx Hr].
  assert (Hne' : Forall (fun l => l <> []) rest) by now inversion Hne.
  assert (Hb : buf <> []) by now inversion Hne.
  pose proof (carries_iff buf Hx) as Ic. pose proof (opens_iff buf Hx) as Io.
  pose proof (remark_iff buf) as Ir. pose proof (defines_iff buf) as Id.
  remember (buf :: rest) as ls eqn:Els.
  destruct H as [h m z r Hh Hm Hz|h m z r Hh Ho Hz|h m Hh Ho Hi Hm|h m r Hh Ho Hk Hm Hn|h m r Hh Ho Hk Hd Hm Hn|h r Hh Ho Hk Hd];
    injection Els as -> <-; unfold iterate.
  - rewrite (proj2 Ic Hh). pose proof (cont_loop_run m buf z r Hr Hm Hz) as E.
    destruct (m ++ z :: r) as [|l rest] eqn:Em; [destruct m; discriminate|].
    rewrite E. cbn [bind fst snd]. now exists [], r.
  - destruct (is_next_line buf); [exfalso; tauto|]. rewrite (proj2 Io Ho). destruct Hz as [H1 H2].
    pose proof (func_loop_run m buf [] z r H1 H2) as E.
    destruct (m ++ z :: r) as [|l rest] eqn:Em; [destruct m; discriminate|].
    change (depth []) with 0%Z in E. rewrite E. now exists [], r.
  - destruct (is_next_line buf); [exfalso; tauto|]. rewrite (proj2 Io Ho).
    destruct m as [|l m]; [congruence|].
    pose proof (func_loop_rest m buf [] l Hi) as E. change (depth []) with 0%Z in E. rewrite E. now exists [], [].
  - destruct (is_next_line buf); [exfalso; tauto|]. destruct (is_func_start buf); [exfalso; tauto|].
    rewrite (proj2 Ir Hk).
    destruct (comment_loop_run m buf r Hm Hn (Forall_mid _ _ _ Hne')) as [n [r' [E1 E2]]].
    exists n, r'. rewrite E1. auto.
  - destruct (is_next_line buf); [exfalso; tauto|]. destruct (is_func_start buf); [exfalso; tauto|].
    destruct (is_comment_pure buf); [exfalso; tauto|]. rewrite (proj2 Id Hd).
    destruct (def_loop_run m buf r Hm Hn (Forall_mid _ _ _ Hne')) as [n [r' [E1 E2]]].
    exists n, r'. rewrite E1. auto.
  - destruct (is_next_line buf); [exfalso; tauto|]. destruct (is_func_start buf); [exfalso; tauto|].
    destruct (is_comment_pure buf); [exfalso; tauto|]. destruct (is_def_line buf); [exfalso; tauto|].
    destruct buf as [|c buf]; [congruence|]. exists [], r. cbn. rewrite app_nil_r. auto.
Qed.

(** The statement at the beginning of lines is unique. *)
Lemma block_unique : forall ls g r g' r', lines ls ->
  block ls g r -> block ls g' r' -> g = g' /\ r = r'.
Proof.
  intros ls g r g' r' Hl H H'. apply lines_are_ok in Hl.
  destruct ls as [|buf rest]; [inversion H|].
  pose proof (lines_like _ Hl) as H1. pose proof (lines_ok_ne _ Hl) as H2.
  destruct (block_iterate _ _ _ _ H1 H2 H) as [n [r1 [E1 <-]]].
  destruct (block_iterate _ _ _ _ H1 H2 H') as [n' [r1' [E1' <-]]].
  rewrite E1 in E1'. injection E1' as _ <- <-. split; [|reflexivity].
  apply block_app in H. apply block_app in H'. rewrite H in H'.
  now apply app_inv_tail in H'.
Qed.

Lemma lines_tail : forall g r, lines (g ++ r) -> lines r.
Proof. intros g r H. apply ok_are_lines. apply (lines_ok_app g). now apply lines_are_ok. Qed.

Lemma waiting_iff : forall u, lines_ok u -> (waiting u <-> stuck u).
Proof.
  intros u Hu. pose proof (lines_like _ Hu) as Hl. unfold waiting, stuck. split.
  - intros [[H1 H2]|[h [-> [H1 H2]]]].
    + left. split; [exact H1|]. rewrite Forall_forall in *. intros x Hx.
      apply is_next_line_iff. apply carries_iff; auto.
    + right. exists h. split; [reflexivity|]. assert (Hh : line_like h) by now inversion Hl.
      apply (opens_iff h Hh) in H2. apply is_func_start_header in H2. split; [exact H2|].
      intro C. apply H1. apply carries_iff; [exact Hh|]. now apply is_next_line_iff.
  - intros [[H1 H2]|[h [-> [H1 H2]]]].
    + left. split; [exact H1|]. rewrite Forall_forall in *. intros x Hx.
      apply carries_iff; auto. apply is_next_line_iff; auto.
    + right. exists h. split; [reflexivity|]. assert (Hh : line_like h) by now inversion Hl. split.
      * intro C. apply H2. apply is_next_line_iff. now apply carries_iff.
      * apply opens_iff; [exact Hh|]. apply header_is_func_start; [exact Hh|exact H1].
Qed.
Lemma waiting_no_block : forall u g r, lines u -> waiting u -> block u g r -> False.
Proof.
  intros u g r Hu Hw H. apply lines_are_ok in Hu. apply waiting_iff in Hw; [|exact Hu].
  destruct u as [|buf rest]; [inversion H|]. pose proof (lines_like _ Hu) as H1. pose proof (lines_ok_ne _ Hu) as H2.
  destruct (block_iterate _ _ _ _ H1 H2 H) as [n [r1 [E1 _]]].
  destruct (next_line_like _ _ H1) as [Hx _]. apply (iterate_stuck buf rest Hx) in Hw. congruence.
Qed.

(** The statements of lines, and whether they end, are unique. *)
Lemma taken_unique : forall ls gs u, lines ls -> taken ls gs u -> forall gs' u', taken ls gs' u' ->
  (u = [] \/ waiting u) -> (u' = [] \/ waiting u') -> gs = gs' /\ u = u'.
Proof.
  intros ls gs u Hl H. induction H as [ls|ls g r gs u H1 H2 IH]; intros gs' u' H' Hu Hu'.
  - inversion H' as [l0|l0 g' r' gs1 u1 H1' H2']; subst; [auto|]. exfalso.
    destruct Hu as [->|Hw]; [inversion H1'|]. now apply (waiting_no_block ls g' r').
  - inversion H' as [l0|l0 g' r' gs1 u1 H1' H2']; subst.
    + exfalso. destruct Hu' as [->|Hw]; [inversion H1|]. now apply (waiting_no_block u' g r).
    + destruct (block_unique _ _ _ _ _ Hl H1 H1') as [<- <-].
      assert (Hr : lines r) by (apply (lines_tail g); now rewrite <- (block_app _ _ _ H1)).
      destruct (IH Hr _ _ H2' Hu Hu') as [-> ->]. auto.
Qed.
Lemma taken_app : forall ls gs u, taken ls gs u -> ls = concat gs ++ u.
Proof.
  intros ls gs u H. induction H as [ls|ls g r gs u H1 H2 IH]; [reflexivity|].
  apply block_app in H1. cbn. now rewrite <- app_assoc, <- IH.
Qed.

(** ** All statements *)

Lemma prepare_loop_taken : forall f off neg next rest num cs,
  lines_ok (line_list next rest) -> prepare_loop f off neg next rest num = Ok cs ->
  exists gs, taken (line_list next rest) gs [] /\ map ck_realraw cs = map (@concat N) gs.
Proof.
  induction f as [|f IH]; intros off neg next rest num cs Hok H; [discriminate|].
  rewrite prepare_loop_eq in H. destruct (line_list next rest) as [|line rest0] eqn:El.
  - injection H as <-. exists []. split; [constructor|reflexivity].
  - pose proof (lines_ok_ne _ Hok) as Hne. inversion Hne as [|? ? Hl Hr]; subst.
    destruct (subparser off num neg line rest0) as [[[[c n] len] r]|e|] eqn:E; cbn [bind] in H; try discriminate.
    unfold subparser in E. destruct (iterate line rest0) as [[[t n'] r']|e|] eqn:Ei; cbn [bind] in E; try discriminate.
    destruct (inline_blocks_of neg t) as [[raw bl]|]; [|discriminate]. injection E as <- <- <- <-.
    apply iterate_block in Ei; [|exact Hl|now apply lines_like|exact Hr]. destruct Ei as [g [Hs ->]].
    destruct (prepare_loop f off neg n' r' _) as [cs'|e|] eqn:Ep; cbn [bind] in H; try discriminate.
    injection H as <-. apply IH in Ep.
    2:{ apply (lines_ok_app g). now rewrite <- (block_app _ _ _ Hs). }
    destruct Ep as [gs [Hg Em]]. exists (g :: gs). split; [econstructor; eassumption|].
    cbn [map ck_realraw]. now rewrite Em.
Qed.

Lemma readlines_unique : forall ls, lines ls -> ls = readlines (concat ls).
Proof.
  assert (G : forall l s, ~ In cNL l -> readlines ((l ++ [cNL]) ++ s) = (l ++ [cNL]) :: readlines s).
  { induction l as [|c l IH]; intros s H.
    - cbn [app readlines]. now rewrite N.eqb_refl.
    - cbn [app readlines]. destruct (N.eqb_spec c cNL) as [->|Hn]; [exfalso; apply H; now left|].
      rewrite IH by (intro Hi; apply H; now right). reflexivity. }
  intros ls H. induction H as [|l Hn Hi|l r Hi Hr IH]; [reflexivity| |].
  - cbn [concat]. rewrite app_nil_r. destruct l as [|c l]; [congruence|]. clear Hn.
    revert c Hi. induction l as [|d l IH]; intros c Hi.
    + cbn [readlines]. destruct (N.eqb_spec c cNL) as [->|]; [exfalso; apply Hi; now left|reflexivity].
    + change (readlines (c :: d :: l)) with
        (if N.eqb c cNL then [c] :: readlines (d :: l)
         else match readlines (d :: l) with h :: t => (c :: h) :: t | [] => [[c]] end).
      destruct (N.eqb_spec c cNL) as [->|]; [exfalso; apply Hi; now left|].
      rewrite <- IH by (intro; apply Hi; now right). reflexivity.
  - cbn [concat]. rewrite G by exact Hi. now rewrite <- IH.
Qed.

Lemma taken_prefix : forall ls gs u gs0, lines ls -> taken ls gs u -> taken ls gs0 [] ->
  exists gs1, gs0 = gs ++ gs1 /\ taken u gs1 [].
Proof.
  intros ls gs u gs0 Hl H. revert gs0. induction H as [ls|ls g r gs u H1 H2 IH]; intros gs0 H0.
  - now exists gs0.
  - inversion H0 as [l0|l0 g' r' gs1 u1 H1' H2']; subst; [inversion H1|].
    destruct (block_unique _ _ _ _ _ Hl H1 H1') as [<- <-].
    assert (Hr : lines r) by (apply (lines_tail g); now rewrite <- (block_app _ _ _ H1)).
    destruct (IH Hr gs1 H2') as [gs2 [-> H3]]. now exists gs2.
Qed.
Lemma lines_after : forall ls gs u, lines ls -> taken ls gs u -> lines u.
Proof. intros ls gs u Hl H. apply taken_app in H. rewrite H in Hl. now apply lines_tail in Hl. Qed.

(** Every text has statements. *)
Lemma block_exists : forall ls, lines ls -> ls = [] \/ waiting ls \/ exists g r, block ls g r.
Proof.
  intros [|buf rest] Hl; [now left|right]. apply lines_are_ok in Hl.
  pose proof (lines_like _ Hl) as H1. pose proof (lines_ok_ne _ Hl) as H2.
  inversion H2 as [|? ? Hb Hr]; subst. destruct (next_line_like _ _ H1) as [Hx _].
  destruct (iterate buf rest) as [[[t n] r]|ex|] eqn:E.
  - right. apply iterate_block in E; auto. destruct E as [g [Hg _]]. eauto.
  - left. pose proof (iterate_exn _ _ _ E) as ->. apply waiting_iff; [exact Hl|]. now apply iterate_stuck.
  - now apply iterate_fuel in E.
Qed.
Lemma taken_exists : forall ls, lines ls -> exists gs u, taken ls gs u /\ (u = [] \/ waiting u).
Proof.
  intro ls. remember (length ls) as n eqn:En. assert (Hn : length ls <= n) by lia. clear En. revert ls Hn.
  induction n as [|n IH]; intros ls Hn Hl.
  - destruct ls; [|cbn in Hn; lia]. exists [], []. split; [constructor|now left].
  - destruct (block_exists ls Hl) as [->|[Hw|[g [r Hb]]]].
    + exists [], []. split; [constructor|now left].
    + exists [], ls. split; [constructor|now right].
    + pose proof (block_app _ _ _ Hb) as E. pose proof (block_ne _ _ _ Hb) as Hg.
      assert (Hr : lines r) by (apply (lines_tail g); now rewrite <- E).
      destruct (IH r) as [gs [u [H1 H2]]]; [|exact Hr|].
      * rewrite E, app_length in Hn. destruct g; [congruence|]. cbn [length] in Hn. lia.
      * exists (g :: gs), u. split; [econstructor; eassumption|exact H2].
Qed.

(** ** AddFile *)

Lemma add_file_taken : forall n e path off forced s l s',
  add_file n e path off forced s = (Ok l, s') -> considered e path s ->
  match fs_read (e_fs e) (file_of e path) with
  | RdText t => exists gs, taken (readlines (universal_newlines t)) gs [] /\ map it_realraw l = map (@concat N) gs
  | _ => l = []
  end.
Proof.
  intros n e path off forced s l s' H Hc. apply add_file_inv in H.
  rewrite (considered_skipped _ _ _ Hc) in H. destruct H as [cs [l0 [mx [Hp [Hck [Hpa [-> _]]]]]]].
  destruct (parsed_text _ _ _ _ _ _ _ _ Hck Hpa) as [Hr _]. unfold file_of.
  assert (E : map it_realraw (map (fun i => set_line (it_line i + mx) i) l0) = map it_realraw l0)
    by (rewrite map_map; now apply map_ext).
  unfold prepare_file in Hp. destruct (fs_read (e_fs e) _) as [t| | |]; try discriminate.
  - unfold prepare_text in Hp. apply prepare_loop_taken in Hp; [|apply readlines_ok].
    destruct Hp as [gs [Hg Eg]]. exists gs. split; [exact Hg|]. now rewrite E, Hr.
  - injection Hp as <-. destruct l0; [reflexivity|contradiction].
Qed.

Lemma prepare_waiting : forall off neg text,
  prepare_text off neg text = Raise StopIteration <->
  exists gs u, taken (readlines text) gs u /\ waiting u.
Proof.
  intros off neg text. assert (Hl : lines (readlines text)) by (apply ok_are_lines, readlines_ok). split.
  - intro H. destruct (taken_exists _ Hl) as [gs [u [H1 [->|H2]]]]; [exfalso|eauto].
    apply prepare_text_stuck in H. destruct H as [u [Hs Hu]].
    assert (G : forall L gs u, lines L -> starts L u -> taken L gs [] -> exists gs', taken u gs' []).
    { clear. intros L gs u Hl Hs. revert gs. induction Hs as [L|buf rest t n r u Hi Hs IH]; intros gs Ht; [eauto|].
      pose proof (lines_are_ok _ Hl) as Ho. pose proof (lines_ok_ne _ Ho) as Hne. inversion Hne as [|? ? Hb Hr]; subst.
      apply iterate_block in Hi; [|exact Hb|now apply lines_like|exact Hr]. destruct Hi as [g [Hg _]].
      inversion Ht as [l0|l0 g' r' gs1 u1 H1' H2']; subst.
      destruct (block_unique _ _ _ _ _ Hl Hg H1') as [<- <-]. apply (IH (lines_tail g _ (eq_ind _ lines Hl _ (block_app _ _ _ Hg))) gs1 H2'). }
    destruct (G _ _ _ Hl Hs H1) as [gs' Hg].
    assert (Hlu : lines u).
    { destruct (starts_suffix _ _ (lines_are_ok _ Hl) Hs) as [p Ep]. rewrite Ep in Hl. now apply lines_tail in Hl. }
    apply waiting_iff in Hu; [|now apply lines_are_ok]. inversion Hg as [l0|l0 g' r' gs1 u1 H1' H2']; subst.
    + destruct Hu as [[Hu _]|[h [Hu _]]]; congruence.
    + now apply (waiting_no_block u g' r').
  - intros [gs [u [H1 H2]]]. apply prepare_text_stuck. exists u. split.
    + revert Hl H1. generalize (readlines text) as ls. intros ls Hl H. induction H as [ls|ls g r gs u Hb Ht IH]; [constructor|].
      pose proof (lines_are_ok _ Hl) as Ho. destruct ls as [|buf rest]; [inversion Hb|].
      destruct (block_iterate buf rest g r (lines_like _ Ho) (lines_ok_ne _ Ho) Hb) as [n [r1 [Ei <-]]].
      eapply starts_next; [exact Ei|]. apply IH; [exact H2|].
      apply (lines_tail g). now rewrite <- (block_app _ _ _ Hb).
    + apply waiting_iff; [apply lines_are_ok; now apply (lines_after _ _ _ Hl H1)|exact H2].
Qed.
