(** * Proofs about keyword statements *)

From Verif Require Import PyStr Regex UniTable Patterns PyPath Res Inline Const Item Lines Stash
  StrFacts ReFacts LinesFacts ParseFacts HistFacts ReachFacts Spec_Parse ClassFacts MatchFacts ShapeFacts Proofs_Parse
  ExpandFacts Proofs_Stmt StmtFacts.

(** From a parsed item to the pattern of its keyword. *)
Lemma reach_kw : forall e i kw arg l0 l1, parsed_item e i -> statement kw arg (one_line i) ->
  kw <> [] -> forallb K_c kw = true -> kw <> "INHERIT" ->
  (forall t, startswith "python" (kw ++ t) = false) -> (forall t, startswith "fakeroot" (kw ++ t) = false) ->
  order = l0 ++ l1 -> (forall k, In k (map fst l0) -> ~ kind_key k kw) ->
  exists w b new, one_line i = w ++ kw ++ b ++ arg /\ blank w /\ blanks b /\ not_indented arg /\ oneline arg /\
    outcome l1 (w ++ kw ++ b ++ arg) (it_raw i) new (it_new i, it_pay i).
Proof.
  intros e i kw arg l0 l1 Hi [w [b [Et [Hw [Hb [Ha Hp]]]]]] Hk0 Hk Hih Hpy Hfr E Hl.
  pose proof (one_line_dots i) as Hd. apply parsed_classified in Hi. destruct Hi as [new Ho]. exists w, b, new.
  split; [exact Et|]. split; [exact Hw|]. split; [exact Hb|]. split; [exact Ha|]. split.
  { intros c Hc. apply Hd. rewrite Et, !in_app_iff. auto. }
  rewrite Et in Ho. apply (stmt_reach w kw b arg Hw Hk0 Hk Hb Ha Hp (Hpy _) (Hfr _) Hih l0 l1 _ _ _ E); [|exact Ho].
  intros k r Hin. apply Hl. apply in_map_iff. now exists (k, r).
Qed.

Lemma inherit_not : forall k, In k [KComment; KFunc] -> forall kw, ~ kind_key k kw.
Proof. intros k [<-|[<-|[]]] kw H; exact H. Qed.

(** ** inherit *)
Fixpoint defers (n : nat) : str := match n with O => [] | S n => "_defer" ++ defers n end.
Lemma defers_concat : forall n, concat (repeat ("_defer" : str) n) = defers n.
Proof. induction n as [|n IH]; [reflexivity|]. cbn [repeat concat defers]. now rewrite IH. Qed.

Lemma first_defers : forall n t g, startswith "_defer" t = false ->
  first (RStar true (RLit "_defer")) (MS false (defers n ++ t) g) (MS false t g).
Proof.
  induction n as [|n IH]; intros t g Ht.
  - cbn [defers app]. apply first_star_none. intros A k. now apply m_lit_no.
  - cbn [defers]. rewrite <- app_assoc. eapply first_star_step.
    + apply first_lit.
    + rewrite after_ne by discriminate. cbn [m_rest]. rewrite !app_length. cbn [length]. lia.
    + rewrite after_ne by discriminate. now apply IH.
Qed.

Lemma K_defers : forall n, forallb K_c (defers n) = true.
Proof. induction n as [|n IH]; [reflexivity|]. cbn [defers]. now rewrite forallb_app, IH. Qed.

Lemma grp_seq : forall n r1 r2 b w t g b' , first (RSeq r1 r2) (MS b (w ++ t) g) (MS b' t g) ->
  first (RGrp n (RSeq r1 r2)) (MS b (w ++ t) g) (MS b' t ((n, w) :: g)).
Proof. intros. now apply first_grp_app. Qed.

Lemma match_inherit : forall w n b arg, blank w -> blanks b -> not_indented arg -> oneline arg -> arg <> [] ->
  exists mt, re_match re_inherit (w ++ ("inherit" ++ defers n) ++ b ++ arg) = Some mt /\
    group_str "statement" mt = "inherit" ++ defers n /\ group_str "inhname" mt = arg.
Proof.
  intros w n b arg Hw Hb Ha Hd Hn0.
  assert (F : first re_inherit (MS true (w ++ ("inherit" ++ defers n) ++ b ++ arg) [])
                (MS false [] [("inhname", arg); ("statement", "inherit" ++ defers n)])).
  { unfold re_inherit. cbn [RCat]. eapply first_seq; [apply first_bol|]. eapply first_seq.
    { apply (first_req _ _ _ _ req_sp_tab). apply first_star; [now apply space_forallb|].
      intros c r E. inversion E; subst. reflexivity. }
    eapply first_seq.
    { unfold after. apply grp_seq. rewrite <- app_assoc. eapply first_seq; [apply first_lit|].
      rewrite after_ne by discriminate. apply first_defers.
      destruct b as [|c b]; [destruct Hb; congruence|]. assert (Hc : re_space c = true) by (apply Hb; now left).
      destruct (startswith "_defer" ((c :: b) ++ arg)) eqn:E; [|reflexivity].
      apply startswith_spec in E. destruct E as [r E]. inversion E; subst. discriminate. }
    eapply first_seq; [now apply first_blanks1|].
    rewrite <- (app_nil_r arg) at 1. apply first_grp_app. rewrite app_nil_r. now apply first_dots1. }
  apply first_match in F. eexists. split; [exact F|]. unfold group_str, group. cbn. auto.
Qed.

Lemma C12_inherit_lemma : forall e i n arg, parsed_item e i -> arg <> [] ->
  statement ("inherit" ++ concat (repeat ("_defer" : str) n)) arg (one_line i) ->
  exists paths, it_pay i = PInherit arg ("inherit" ++ concat (repeat ("_defer" : str) n)) paths.
Proof.
  intros e i n arg Hi Hn0 Hs. rewrite defers_concat in *.
  destruct (reach_kw e i _ arg (firstn 2 order) (skipn 2 order) Hi Hs) as [w [b [new [Et [Hw [Hb [Ha [Hd Ho]]]]]]]].
  - discriminate.
  - rewrite forallb_app, K_defers. reflexivity.
  - discriminate.
  - intro t. reflexivity.
  - intro t. reflexivity.
  - reflexivity.
  - intros k Hk. exact (inherit_not k Hk _).
  - destruct (match_inherit w n b arg Hw Hb Ha Hd Hn0) as [mt [Em [G1 G2]]].
    change (skipn 2 order) with ((KInherit, re_inherit) :: skipn 3 order) in Ho.
    apply (outcome_hit KInherit _ _ _ _ _ _ mt Em) in Ho; [|intros [H|[H _]]; discriminate].
    cbn [made_of] in Ho. rewrite G1, G2 in Ho. destruct Ho as [paths Ho]. exists paths. now injection Ho as _ Ho.
Qed.

(** ** INHERIT *)
Lemma first_quote : forall q t g, quote_char q -> first quote_alt (MS false (q :: t) g) (MS false t g).
Proof.
  intros q t g [-> | ->].
  - apply first_altr; [intros A k; reflexivity|]. now apply first_chr.
  - apply first_altl. now apply first_chr.
Qed.
Lemma quote_dot : forall q, quote_char q -> dotp q = true.
Proof. intros q [-> | ->]; reflexivity. Qed.
Lemma no_quote : forall t g, (forall c r, t = c :: r -> ~ quote_char c) -> fails quote_alt (MS false t g).
Proof.
  intros t g H A k. unfold quote_alt. cbn [m m_rest]. destruct t as [|c t]; [reflexivity|].
  specialize (H c t eq_refl).
  assert (E : ch cSQ c = false /\ ch cDQ c = false).
  { unfold ch, quote_char in *. split; apply N.eqb_neq; intro; apply H; auto. }
  destruct E as [-> ->]. reflexivity.
Qed.

Lemma match_inherit_glob : forall op classes q1 q2 t w1, quote_char q1 -> quote_char q2 ->
  (forall c, In c t -> ~ quote_char c) -> op_value op ([q1] ++ classes ++ [q2] ++ t) w1 -> oneline classes ->
  exists mt, re_match re_inherit_glob ("INHERIT" ++ op ++ [q1] ++ classes ++ [q2] ++ t) = Some mt /\
    group_str "inhname" mt = classes.
Proof.
  intros op classes q1 q2 t w1 Hq1 Hq2 Ht Hop Hc.
  assert (F : first re_inherit_glob (MS true ("INHERIT" ++ op ++ [q1] ++ classes ++ [q2] ++ t) [])
                (MS false t [("inhname", classes); ("varop", op)])).
  { unfold re_inherit_glob. cbn [RCat]. eapply first_seq; [apply first_bol|]. eapply first_seq; [apply first_lit|].
    rewrite after_ne by discriminate. eapply first_seq.
    { apply (first_req _ _ _ _ req_varop).
      destruct (op_value_first op _ w1 false [] Hop) as [_ [_ [Hf _]]]. exact Hf. }
    cbn [app]. eapply first_seq; [now apply first_quote|]. apply first_greedy_grp0.
    - now apply forallb_forall.
    - now apply first_quote.
    - intros u v E Hu _. apply no_quote. intros c r ->. apply Ht.
      destruct u as [|x u]; [congruence|]. cbn in E. injection E as _ ->. apply in_or_app. right. now left. }
  apply first_match in F. eexists. split; [exact F|]. unfold group_str, group. cbn. auto.
Qed.

Lemma C12_inherit_all_lemma : forall e i op classes, parsed_item e i -> inherit_assignment op classes (one_line i) ->
  exists paths, it_pay i = PInherit classes "INHERIT" paths.
Proof.
  intros e i op classes Hi [q1 [q2 [t [w1 [Et [Hq1 [Hq2 [Ht Hop]]]]]]]].
  assert (Hd : oneline classes). { intros c Hc. apply (one_line_dots i). rewrite Et, !in_app_iff. auto. }
  destruct (match_inherit_glob op classes q1 q2 t w1 Hq1 Hq2 Ht Hop Hd) as [mt [Em G]].
  destruct (op_value_first op _ w1 false [] Hop) as [pre [t2 [_ [Eop [Hw1 Hpre]]]]].
  apply parsed_classified in Hi. destruct Hi as [new Ho]. rewrite Et in Ho.
  apply outcome_skip in Ho.
  2:{ eapply not_matched; [intros x Hx; apply shape_comments in Hx; exact Hx|]. now apply no_hashed. }
  apply outcome_skip in Ho.
  2:{ eapply not_matched; [intros x Hx; apply shape_func in Hx; exact Hx|]. rewrite Eop.
      replace ("INHERIT" ++ w1 ++ pre ++ "=" ++ t2) with ((("INHERIT" ++ w1) ++ pre) ++ 61%N :: t2)
        by (now rewrite <- !app_assoc).
      apply no_parens; [|reflexivity|discriminate]. intro Hin. rewrite !in_app_iff in Hin. rewrite forallb_forall in Hpre.
      destruct Hin as [[Hin|Hin]|Hin].
      - cbn in Hin. intuition discriminate.
      - apply Hw1 in Hin. discriminate.
      - apply Hpre in Hin. discriminate. }
  apply outcome_skip in Ho.
  2:{ eapply not_matched; [intros x Hx; apply shape_inherit in Hx; exact Hx|]. intro Hk.
      apply (keyed_name _ "INHERIT") in Hk.
      - destruct Hk as [[n E] _]. discriminate.
      - intros k Hk'. apply any_key_K. now right.
      - discriminate.
      - reflexivity.
      - intros c r E. rewrite Eop in E. destruct w1 as [|x w1].
        + destruct pre as [|x pre]; cbn in E; injection E as <- _; [reflexivity|].
          cbn [forallb] in Hpre. apply andb_prop in Hpre. destruct Hpre as [Hx _]. apply ops_cases in Hx. cbn [In] in Hx.
          destruct Hx as [<-|[<-|[<-|[<-|[]]]]]; reflexivity.
        + cbn in E. injection E as <- _. assert (Hs : re_space x = true) by (apply Hw1; now left).
          destruct (K_c x) eqn:Ek; [|reflexivity]. apply K_name in Ek. rewrite (space_not_name x Hs) in Ek. discriminate.
      - intro E. apply (f_equal (@length N)) in E. rewrite !app_length in E. cbn in E. lia. }
  apply (outcome_hit KInheritGlob _ _ _ _ _ _ mt Em) in Ho; [|intros [H|[H _]]; discriminate].
  cbn [made_of] in Ho. rewrite G in Ho. destruct Ho as [paths Ho]. exists paths. now injection Ho as _ Ho.
Qed.

(** Keywords other than the one of a statement. *)
Lemma not_inherit : forall kw, startswith "inherit" kw = false -> ~ is_inherit kw.
Proof. intros kw H [n ->]. rewrite startswith_app in H. discriminate. Qed.
Lemma not_include : forall kw, kw <> "include" -> kw <> "require" -> ~ is_include kw.
Proof. intros kw H1 H2 [H|H]; congruence. Qed.

Ltac kinds :=
  let k := fresh "k" in let Hk := fresh "Hk" in
  intros k Hk; cbn [firstn order map fst In] in Hk;
  repeat (destruct Hk as [Hk|Hk]; [subst k; cbn [kind_key]; try (intro; discriminate); try (intro; assumption);
    try (apply not_inherit; reflexivity); try (apply not_include; discriminate)|]);
  try destruct Hk.

(** ** EXPORT_FUNCTIONS *)
Lemma C12_functions_lemma : forall e i arg, parsed_item e i ->
  statement_at_start "EXPORT_FUNCTIONS" arg (one_line i) -> it_pay i = PFunctionExports arg.
Proof.
  intros e i arg Hi [b0 [Et [Hb [Ha Hp]]]].
  assert (Hd : oneline arg). { intros c Hc. apply (one_line_dots i). rewrite Et, !in_app_iff. auto. }
  apply parsed_classified in Hi. destruct Hi as [new Ho]. rewrite Et in Ho.
  assert (Hw : blank []) by (intros c []).
  apply (stmt_reach [] "EXPORT_FUNCTIONS" b0 arg Hw ltac:(discriminate) eq_refl Hb Ha Hp eq_refl eq_refl ltac:(discriminate)
          (firstn 13 order) (skipn 13 order) _ _ _ eq_refl) in Ho.
  - assert (F : first re_export_func (MS true ("EXPORT_FUNCTIONS" ++ b0 ++ arg) []) (MS false [] [("func", arg)])).
    { unfold re_export_func. cbn [RCat]. eapply first_seq; [apply first_bol|]. eapply first_seq; [apply first_lit|].
      rewrite after_ne by discriminate. eapply first_seq; [now apply first_sp_plus|].
      rewrite <- (app_nil_r arg) at 1. apply first_grp_app. rewrite app_nil_r.
      pose proof (first_dots arg false [] Hd) as X. rewrite after_false in X. exact X. }
    apply first_match in F.
    change (skipn 13 order) with ((KExportfunc, re_export_func) :: skipn 14 order) in Ho.
    apply (outcome_hit KExportfunc _ _ _ _ _ _ _ F) in Ho; [|intros [H|[H _]]; discriminate].
    cbn in Ho. now injection Ho as _ Ho.
  - intros k r Hin. assert (Hk : In k (map fst (firstn 13 order))) by (apply in_map_iff; now exists (k, r)).
    clear Hin. revert k Hk. kinds.
Qed.

(** ** deltask *)
Definition task_c : N -> bool := por re_word (oneof "-").
Lemma task_char_imp : forall c, task_char c -> task_c c = true.
Proof.
  intros c H. unfold task_c, por.
  assert (A : (c < 128)%N).
  { unfold task_char, letter, digit, between in H. cbn [In] in H.
    destruct H as [[H|H]|[H|[H|[H|[]]]]]; lia. }
  assert (X : forallb (fun x => implb ((N.leb 65 x && N.leb x 90) || (N.leb 97 x && N.leb x 122)
       || (N.leb 48 x && N.leb x 57) || in_chars "_-" x) (re_word x || oneof "-" x)) (map N.of_nat (seq 0 128)) = true)
    by (vm_compute; reflexivity).
  rewrite forallb_forall in X. specialize (X c).
  assert (I : In c (map N.of_nat (seq 0 128))).
  { apply in_map_iff. exists (N.to_nat c). split; [apply N2Nat.id|]. apply in_seq. lia. }
  specialize (X I). rewrite implb_true_iff in X. apply X.
  unfold task_char, letter, digit, between in H. rewrite !orb_true_iff, !andb_true_iff, !N.leb_le. unfold in_chars.
  rewrite existsb_exists. destruct H as [[H|H]|[H|H]]; auto. right. exists c. split; [exact H|apply N.eqb_refl].
Qed.
Lemma task_name_c : forall n, task_name n -> n <> [] /\ forallb task_c n = true.
Proof. intros n [H0 H]. split; [exact H0|]. apply forallb_forall. intros c Hc. apply task_char_imp. now apply H. Qed.
Lemma space_not_task : forall c, re_space c = true -> task_c c = false.
Proof. intros c. apply space_not. vm_compute. reflexivity. Qed.

(** What ends a task name. *)
Lemma trailing_stops : forall t comment, trailing t comment -> stops task_c t.
Proof.
  intros t comment H c r ->. destruct H as [[H _]|[w [c0 [E [Hw Hc]]]]].
  - apply space_not_task. apply H. now left.
  - destruct w as [|x w].
    + subst comment. inversion E; subst. reflexivity.
    + inversion E; subst. apply space_not_task. apply Hw. now left.
Qed.

Lemma first_nothing : forall r g, fails r (MS false [] g) -> first (RStar true r) (MS false [] g) (MS false [] g).
Proof. intros r g H. now apply first_star_none. Qed.

Lemma match_deltask : forall w b name t comment, blank w -> blanks b -> task_name name -> trailing t comment -> oneline t ->
  exists mt, re_match re_deltask (w ++ "deltask" ++ b ++ name ++ t) = Some mt /\
    group_str "func" mt = name /\ group_str "comment" mt = comment.
Proof.
  intros w b name t comment Hw Hb Hn Ht Hd. apply task_name_c in Hn. destruct Hn as [Hn0 Hn].
  pose proof (trailing_stops _ _ Ht) as Hst.
  assert (G : exists g, first (RSeq sp_star (RStar true (RGrp "comment" (RSeq (RC "#") dot_star))))
                          (MS false t [("func", name)]) (MS false [] g) /\
                        lookup_group "func" g = Some name /\
                        (match lookup_group "comment" g with Some v => v | None => [] end) = comment).
  { destruct Ht as [[Ht ->]|[w2 [c0 [-> [Hw2 Hc]]]]].
    - exists [("func", name)]. split; [|split; reflexivity]. eapply first_seq.
      + rewrite <- (app_nil_r t). apply first_sp_star; [exact Ht|]. intros c r E. discriminate.
      + apply first_nothing. intros A k. reflexivity.
    - exists [("comment", comment); ("func", name)]. split; [|split; reflexivity]. eapply first_seq.
      + apply first_sp_star; [exact Hw2|]. intros c r E. subst comment. inversion E; subst. reflexivity.
      + assert (Hdc : oneline c0). { intros c Hin. apply Hd. subst comment. rewrite !in_app_iff. auto. }
        eapply first_star_step.
        * rewrite <- (app_nil_r comment) at 1. apply first_grp_app. rewrite app_nil_r. rewrite Hc. cbn [app].
          eapply first_seq; [apply first_chr; reflexivity|].
          pose proof (first_dots c0 false [("func", name)] Hdc) as X. rewrite after_false in X. exact X.
        * rewrite Hc. cbn [m_rest length app]. lia.
        * apply first_nothing. intros A k. reflexivity. }
  destruct G as [g [G [G1 G2]]].
  assert (F : first re_deltask (MS true (w ++ "deltask" ++ b ++ name ++ t) []) (MS false [] g)).
  { unfold re_deltask. cbn [RCat]. apply lead_blanks0; [discriminate|intros c k E; inversion E; subst; reflexivity|exact Hw|].
    eapply first_seq.
    { apply first_sp_plus; [exact Hb|]. intros c r E. destruct name as [|x name]; [congruence|]. inversion E; subst.
      cbn [forallb] in Hn. apply andb_prop in Hn. destruct Hn as [Hc _].
      destruct (re_space c) eqn:Es; [|reflexivity]. rewrite (space_not_task c Es) in Hc. discriminate. }
    eapply first_seq; [|exact G]. apply first_grp_app. now apply first_plus. }
  apply first_match in F. eexists. split; [exact F|]. unfold group_str, group. cbn [g_all m_grp]. rewrite G1. split; [reflexivity|exact G2].
Qed.

Lemma C12_deltask_lemma : forall e i name t comment, parsed_item e i -> task_name name -> trailing t comment ->
  statement "deltask" (name ++ t) (one_line i) -> it_pay i = PTaskDel name comment.
Proof.
  intros e i name t comment Hi Hn Ht Hs.
  destruct (reach_kw e i _ _ (firstn 10 order) (skipn 10 order) Hi Hs) as [w [b [new [Et [Hw [Hb [Ha [Hd Ho]]]]]]]];
    [discriminate|reflexivity|discriminate|reflexivity|reflexivity|reflexivity|kinds|].
  destruct (match_deltask w b name t comment Hw Hb Hn Ht) as [mt [Em [G1 G2]]].
  { intros c Hc. apply Hd. apply in_app_iff. now right. }
  change (skipn 10 order) with ((KDeltask, re_deltask) :: skipn 11 order) in Ho.
  apply (outcome_hit KDeltask _ _ _ _ _ _ mt Em) in Ho; [|intros [H|[H _]]; discriminate].
  cbn [made_of] in Ho. rewrite G1, G2 in Ho. now injection Ho as _ Ho.
Qed.

(** ** include_all *)
Lemma C12_include_all_lemma : forall e i arg, parsed_item e i -> arg <> [] ->
  statement_at_start "include_all" arg (one_line i) -> it_pay i = PIncludeAll arg.
Proof.
  intros e i arg Hi Ha0 [b0 [Et [Hb [Ha Hp]]]].
  assert (Hd : oneline arg). { intros c Hc. apply (one_line_dots i). rewrite Et, !in_app_iff. auto. }
  apply parsed_classified in Hi. destruct Hi as [new Ho]. rewrite Et in Ho.
  assert (Hw : blank []) by (intros c []).
  apply (stmt_reach [] "include_all" b0 arg Hw ltac:(discriminate) eq_refl Hb Ha Hp eq_refl eq_refl ltac:(discriminate)
          (firstn 8 order) (skipn 8 order) _ _ _ eq_refl) in Ho.
  - assert (F : first re_includeall (MS true ("include_all" ++ b0 ++ arg) []) (MS false [] [("file", arg)])).
    { unfold re_includeall. cbn [RCat]. eapply first_seq; [apply first_lit|].
      rewrite after_ne by discriminate. eapply first_seq; [now apply first_sp_plus|].
      rewrite <- (app_nil_r arg) at 1. apply first_grp_app. rewrite app_nil_r. now apply first_dots1. }
    apply first_match in F.
    change (skipn 8 order) with ((KIncludeAll, re_includeall) :: skipn 9 order) in Ho.
    apply (outcome_hit KIncludeAll _ _ _ _ _ _ _ F) in Ho; [|intros [H|[H _]]; discriminate].
    cbn in Ho. now injection Ho as _ Ho.
  - intros k r Hin. assert (Hk : In k (map fst (firstn 8 order))) by (apply in_map_iff; now exists (k, r)).
    clear Hin. revert k Hk. kinds.
Qed.

(** ** export *)
Lemma chr_fails : forall p b c t g r, p c = false -> fails (RSeq (RChr p) r) (MS b (c :: t) g).
Proof. intros p b c t g r H A k. cbn [m m_rest]. now rewrite H. Qed.

(** An equals sign and a quoted value need two double quotes. *)
Definition export_tail : re :=
  RSeq sp_star (RSeq (RC "=") (RSeq sp_star (RSeq (RChr (ch cDQ)) (RSeq (RGrp "value" dot_star) (RChr (ch cDQ)))))).
Lemma export_tail_quotes : forall s s', mt export_tail s s' -> exists a v t,
  m_rest s = a ++ cDQ :: v ++ cDQ :: t /\ forallb (por re_space (oneof "=")) a = true /\ In 61%N a.
Proof.
  intros s s' H. unfold export_tail in H.
  rewrite mt_seq_iff in H. destruct H as [s1 [H1 H]]. rewrite mt_seq_iff in H. destruct H as [s2 [H2 H]].
  rewrite mt_seq_iff in H. destruct H as [s3 [H3 H]]. rewrite mt_seq_iff in H. destruct H as [s4 [H4 H]].
  rewrite mt_seq_iff in H. destruct H as [s5 [H5 H6]]. rewrite mt_grp_iff in H5. destruct H5 as [s6 [H5 ->]].
  unfold RC in H2. rewrite mt_chr_iff in H2, H4, H6.
  apply mt_star_chr_iff in H1. apply mt_star_chr_iff in H3. apply mt_star_chr_iff in H5.
  destruct H1 as [w1 [t1 [E1 [W1 ->]]]]. destruct H2 as [c2 [t2 [E2 [C2 ->]]]]. destruct H3 as [w3 [t3 [E3 [W3 ->]]]].
  destruct H4 as [c4 [t4 [E4 [C4 ->]]]]. destruct H5 as [w5 [t5 [E5 [W5 ->]]]]. destruct H6 as [c6 [t6 [E6 [C6 _]]]].
  cbn [m_rest after] in *. unfold after in *. cbn [m_rest] in *.
  unfold ch in C4, C6. apply N.eqb_eq in C4, C6. subst c4 c6.
  unfold oneof, in_chars in C2. cbn [existsb] in C2. rewrite orb_false_r in C2. apply N.eqb_eq in C2. subst c2.
  exists (w1 ++ 61%N :: w3), w5, t6. split; [|split].
  - rewrite E1, E2, E3, E4, E5, E6. rewrite <- !app_assoc. reflexivity.
  - rewrite forallb_app. cbn [forallb]. change (por re_space (oneof "=") 61) with true.
    assert (X : forall w, forallb re_space w = true -> forallb (por re_space (oneof "=")) w = true).
    { intros w. rewrite !forallb_forall. intros Hw x Hx. unfold por. now rewrite (Hw x Hx). }
    rewrite (X w1 W1). cbn [andb]. now apply X.
  - apply in_mid.
Qed.

Lemma space_py : forall c, re_space c = true -> py_space c = true.
Proof.
  intros c H. apply space_cases in H. assert (X : forallb py_space spaces = true) by (vm_compute; reflexivity).
  rewrite forallb_forall in X. now apply X.
Qed.
Lemma name_not_py : forall c, name_char c -> py_space c = false.
Proof.
  intros c H. unfold name_char, letter, digit, between in H. cbn [In] in H.
  assert (A : (33 <= c /\ c < 128)%N) by (destruct H as [[H|H]|[H|H]]; [lia|lia|lia|]; repeat (destruct H as [H|H]; [lia|]); destruct H).
  unfold py_space. destruct A as [A1 A2].
  repeat rewrite orb_false_iff. repeat rewrite andb_false_iff. repeat rewrite N.leb_gt. repeat rewrite N.eqb_neq. lia.
Qed.
Lemma strip_blank : forall n w1, trimmed n -> blank w1 -> strip_ws (n ++ w1) = n.
Proof.
  intros n w1 [T1 T2] Hw. assert (Hp : forallb py_space w1 = true).
  { apply forallb_forall. intros c Hc. apply space_py. now apply Hw. }
  unfold strip_ws, strip_p. destruct n as [|x n'] eqn:En.
  - cbn [app]. rewrite <- (app_nil_r w1), lstrip_p_app by exact Hp. reflexivity.
  - rewrite lstrip_p_id by (cbn [app]; exact (T1 x n' eq_refl)). rewrite rstrip_p_app by exact Hp.
    destruct (exists_last (l := x :: n') ltac:(discriminate)) as [m [c E]]. rewrite E. apply rstrip_p_id. now apply (T2 c m).
Qed.
Lemma name_trimmed : forall n, var_name n -> trimmed n.
Proof.
  intros n [_ H]. split; intros c t ->; apply name_not_py; apply H; [now left|apply in_app_iff; right; now left].
Qed.

Lemma match_export : forall w b name w1 w2 value tail, blank w -> blanks b ->
  not_indented (name ++ w1 ++ "=" ++ w2 ++ [cDQ] ++ value ++ [cDQ] ++ tail) ->
  oneline (name ++ w1 ++ "=" ++ w2 ++ [cDQ] ++ value ++ [cDQ] ++ tail) -> name <> [] ->
  blank w1 -> blank w2 -> ~ In cDQ value -> ~ In cDQ tail ->
  exists mt, re_match re_export_wval (w ++ "export" ++ b ++ name ++ w1 ++ "=" ++ w2 ++ [cDQ] ++ value ++ [cDQ] ++ tail) = Some mt /\
    group_str "name" mt = name ++ w1 /\ group_str "value" mt = value.
Proof.
  intros w b name w1 w2 value tail Hw Hb Ha Hd Hn0 Hw1 Hw2 Hv Ht.
  assert (Hd1 : forall l, (forall c, In c l -> In c (name ++ w1 ++ "=" ++ w2 ++ [cDQ] ++ value ++ [cDQ] ++ tail)) -> forallb dotp l = true).
  { intros l Hl. apply forallb_forall. intros c Hc. apply Hd. now apply Hl. }
  assert (F : exists g, first re_export_wval
      (MS true (w ++ "export" ++ b ++ name ++ w1 ++ "=" ++ w2 ++ [cDQ] ++ value ++ [cDQ] ++ tail) [])
      (MS false tail (("value", value) :: ("name", name ++ w1) :: g)) /\ g = []).
  { exists []. split; [|reflexivity].
    unfold re_export_wval. cbn [RCat]. apply lead_lazy; [discriminate|intros c k E; inversion E; subst; reflexivity|exact Hw|].
    eapply first_seq; [now apply first_blanks1|].
    replace (name ++ w1 ++ "=" ++ w2 ++ [cDQ] ++ value ++ [cDQ] ++ tail)
      with ((name ++ w1) ++ "=" ++ w2 ++ [cDQ] ++ value ++ [cDQ] ++ tail) by (now rewrite <- !app_assoc).
    apply first_greedy_grp.
    - apply Hd1. intros c Hc. apply in_app_iff in Hc. rewrite !in_app_iff. tauto.
    - intro E. apply app_eq_nil in E. now destruct E.
    - eapply first_seq.
      { change ("=" ++ w2 ++ [cDQ] ++ value ++ [cDQ] ++ tail) with ([] ++ "=" ++ w2 ++ [cDQ] ++ value ++ [cDQ] ++ tail).
        apply first_sp_star; [intros c []|]. intros c r E. inversion E; subst. reflexivity. }
      eapply first_seq; [apply first_chr; reflexivity|].
      eapply first_seq; [apply first_sp_star; [exact Hw2|]; intros c r E; inversion E; subst; reflexivity|].
      eapply first_seq; [apply first_chr; reflexivity|].
      apply (first_greedy_grp0 "value" dotp value (RChr (ch cDQ)) ([cDQ] ++ tail)).
      + apply Hd1. intros c Hc. rewrite !in_app_iff. auto 10.
      + apply first_chr. reflexivity.
      + intros u v E Hu _. destruct u as [|x u]; [congruence|]. cbn [app] in E. injection E as Ex E.
        apply fails_mt. intros s' H. rewrite mt_chr_iff in H. destruct H as [c [t [E2 [Hc _]]]]. cbn [m_rest] in E2.
        unfold ch in Hc. apply N.eqb_eq in Hc. subst c. apply Ht. rewrite E, E2. apply in_mid.
    - intros u v E Hu _. apply fails_mt. intros s' H. apply export_tail_quotes in H.
      destruct H as [a [v1 [t1 [E2 [Ha1 Heq]]]]]. cbn [m_rest] in E2. subst v.
      destruct u as [|x u]; [congruence|]. cbn [app] in E. injection E as <- E.
      assert (E' : w2 ++ cDQ :: value ++ cDQ :: tail = (u ++ a) ++ cDQ :: v1 ++ cDQ :: t1) by (rewrite <- app_assoc; exact E).
      destruct (app_cases _ _ _ _ _ _ _ E') as [[X _]|[[z [_ X]]|[z [X _]]]].
      + assert (Y : re_space 61 = true) by (apply Hw2; rewrite X; apply in_app_iff; now right). discriminate.
      + destruct (app_cases _ _ _ _ _ _ _ X) as [[_ [_ Y]]|[[z2 [_ Y]]|[z2 [Y _]]]].
        * apply Ht. rewrite Y. apply in_mid.
        * apply Ht. rewrite Y. apply in_mid.
        * apply Hv. rewrite Y. apply in_mid.
      + assert (Y : re_space cDQ = true) by (apply Hw2; rewrite X; apply in_mid). discriminate. }
  destruct F as [g [F ->]]. apply first_match in F. eexists. split; [exact F|]. unfold group_str, group. cbn. auto.
Qed.

Lemma C12_export_lemma : forall e i name value arg, parsed_item e i -> var_name name -> export_value name value arg ->
  statement "export" arg (one_line i) -> it_pay i = PExport name value.
Proof.
  intros e i name value arg Hi Hn [w1 [w2 [tail [Ea [Hw1 [Hw2 [Hv Ht]]]]]]] Hs.
  destruct (reach_kw e i _ _ (firstn 4 order) (skipn 4 order) Hi Hs) as [w [b [new [Et [Hw [Hb [Ha [Hd Ho]]]]]]]];
    [discriminate|reflexivity|discriminate|reflexivity|reflexivity|reflexivity|kinds|].
  subst arg. destruct (match_export w b name w1 w2 value tail Hw Hb Ha Hd (proj1 Hn) Hw1 Hw2 Hv Ht) as [mt [Em [G1 G2]]].
  change (skipn 4 order) with ((KExport, re_export_wval) :: skipn 5 order) in Ho.
  apply (outcome_hit KExport _ _ _ _ _ _ mt Em) in Ho; [|intros [H|[H _]]; discriminate].
  cbn [made_of] in Ho. rewrite G1, G2, strip_blank in Ho by (auto using name_trimmed). now injection Ho as _ Ho.
Qed.

Lemma C12_export_name_lemma : forall e i name t, parsed_item e i -> trimmed name -> name <> [] -> blank t -> ~ In cDQ name ->
  statement "export" (name ++ t) (one_line i) -> it_pay i = PExport name [].
Proof.
  intros e i name tl Hi Hn Hn0 Htl Hq Hs.
  destruct (reach_kw e i _ _ (firstn 4 order) (skipn 4 order) Hi Hs) as [w [b [new [Et [Hw [Hb [Ha [Hd Ho]]]]]]]];
    [discriminate|reflexivity|discriminate|reflexivity|reflexivity|reflexivity|kinds|].
  change (skipn 4 order) with ((KExport, re_export_wval) :: (KExportNoval, re_export_woval) :: skipn 6 order) in Ho.
  assert (Hnq : ~ In cDQ (w ++ "export" ++ b ++ name ++ tl)).
  { rewrite !in_app_iff. intros [H|[H|[H|[H|H]]]].
    - apply Hw in H. discriminate.
    - cbn in H. intuition discriminate.
    - apply Hb in H. discriminate.
    - contradiction.
    - apply Htl in H. discriminate. }
  apply outcome_skip in Ho.
  - assert (F : first re_export_woval (MS true (w ++ "export" ++ b ++ name ++ tl) []) (MS false [] [("name", name ++ tl)])).
    { unfold re_export_woval. cbn [RCat]. apply lead_lazy; [discriminate|intros c k E; inversion E; subst; reflexivity|exact Hw|].
      eapply first_seq; [now apply first_blanks1|].
      assert (Hne : name ++ tl <> []) by (intro E; apply app_eq_nil in E; now destruct E).
      eapply first_seq.
      { rewrite <- (app_nil_r (name ++ tl)) at 1. apply first_grp_app. rewrite app_nil_r. now apply first_dots1. }
      eapply first_seq.
      { change (MS false [] [("name", name ++ tl)]) with (MS false ([] ++ []) [("name", name ++ tl)]) at 1.
        apply first_sp_star; [intros c []|]. intros c r E. discriminate. }
      intros A k x Hk. exact Hk. }
    apply first_match in F. apply (outcome_hit KExportNoval _ _ _ _ _ _ _ F) in Ho; [|intros [H|[H _]]; discriminate].
    cbn [made_of] in Ho. unfold group_str, group in Ho. cbn [g_all m_grp] in Ho.
    change (lookup_group "name" [("name", name ++ tl)]) with (Some (name ++ tl)) in Ho.
    change (strip_ws match Some (name ++ tl) with Some v => v | None => [] end) with (strip_ws (name ++ tl)) in Ho.
    rewrite (strip_blank name tl) in Ho by auto. now injection Ho as _ Ho.
  - apply no_match. intros s' H. unfold re_export_wval in H. cbn [RCat] in H.
    rewrite mt_seq_iff in H. destruct H as [s1 [H1 H]]. rewrite mt_bol_iff in H1. destruct H1 as [-> _].
    rewrite mt_seq_iff in H. destruct H as [s1 [H1 H]]. rewrite mt_seq_iff in H. destruct H as [s2 [H2 H]].
    rewrite mt_seq_iff in H. destruct H as [s3 [H3 H]]. rewrite mt_seq_iff in H. destruct H as [s4 [H4 H]].
    pose proof (proj1 (mt_grp_ok _ _ _ H1)) as S1. pose proof (proj1 (mt_grp_ok _ _ _ H2)) as S2.
    pose proof (proj1 (mt_grp_ok _ _ _ H3)) as S3. pose proof (proj1 (mt_grp_ok _ _ _ H4)) as S4.
    apply export_tail_quotes in H. destruct H as [a [v1 [t1 [E _]]]].
    assert (S : suffix_of (m_rest s4) (w ++ "export" ++ b ++ name ++ tl)).
    { eapply suffix_trans; [exact S4|]. eapply suffix_trans; [exact S3|]. eapply suffix_trans; [exact S2|exact S1]. }
    destruct S as [a0 S]. apply Hnq. rewrite S, E. rewrite in_app_iff. right. apply in_mid.
Qed.

(** ** addpylib *)
Lemma C12_addpylib_lemma : forall e i p c ns, parsed_item e i -> p <> [] -> re_space c = true ->
  (forall x, In x ns -> re_space x = false) ->
  statement "addpylib" ("${LAYERDIR}/" ++ p ++ [c] ++ ns) (one_line i) ->
  it_pay i = PAddPylib ("${LAYERDIR}/" ++ p) ns.
Proof.
  intros e i p c ns Hi Hp0 Hc Hns Hs.
  destruct (reach_kw e i _ _ (firstn 14 order) (skipn 14 order) Hi Hs) as [w [b [new [Et [Hw [Hb [Ha [Hd Ho]]]]]]]];
    [discriminate|reflexivity|discriminate|reflexivity|reflexivity|reflexivity|kinds|].
  change (skipn 14 order) with ((KAddpylib, re_addpylib) :: skipn 15 order) in Ho.
  assert (Hdp : forallb dotp p = true) by (apply forallb_forall; intros x Hx; apply Hd; rewrite !in_app_iff; tauto).
  assert (Hdn : oneline ns) by (intros x Hx; apply Hd; rewrite !in_app_iff; tauto).
  assert (F : first re_addpylib (MS true (w ++ "addpylib" ++ b ++ "${LAYERDIR}/" ++ p ++ [c] ++ ns) [])
                (MS false [] [("namespace", ns); ("path", "${LAYERDIR}/" ++ p)])).
  { unfold re_addpylib. cbn [RCat]. apply lead_plus_tab; [discriminate|intros x k E; inversion E; subst; reflexivity|exact Hw|].
    eapply first_seq; [now apply first_blanks1|].
    intros A k x Hk.
    change (m (RSeq (RLit "${LAYERDIR}/") dot_plus) A
              (fun s' => m (RSeq blanks1 (RGrp "namespace" dot_star)) A k
                 (MS (m_bol s') (m_rest s') (("path", consumed (MS false ("${LAYERDIR}/" ++ p ++ [c] ++ ns) []) s') :: m_grp s')))
              (MS false ("${LAYERDIR}/" ++ p ++ [c] ++ ns) []) = Some x).
    change (m (RLit "${LAYERDIR}/") A (fun s1 => m dot_plus A
              (fun s' => m (RSeq blanks1 (RGrp "namespace" dot_star)) A k
                 (MS (m_bol s') (m_rest s') (("path", consumed (MS false ("${LAYERDIR}/" ++ p ++ [c] ++ ns) []) s') :: m_grp s'))) s1)
              (MS false ("${LAYERDIR}/" ++ p ++ [c] ++ ns) []) = Some x).
    rewrite m_lit, after_false. destruct p as [|y p']; [congruence|]. cbn [forallb] in Hdp. apply andb_prop in Hdp. destruct Hdp as [Hy Hdp].
    unfold dot_plus, RPlus. set (k2 := fun s' : mstate => _).
    change (m (RDot) A (fun s1 => m (RStar true RDot) A k2 s1) (MS false (y :: p' ++ [c] ++ ns) []) = Some x).
    unfold RDot. rewrite m_chr by exact Hy. apply star_class_greedy; [exact Hdp| |].
    - rewrite after_false. subst k2. cbn [m_bol m_rest m_grp].
      replace ("${LAYERDIR}/" ++ (y :: p') ++ [c] ++ ns) with (("${LAYERDIR}/" ++ y :: p') ++ [c] ++ ns) by (now rewrite <- !app_assoc).
      rewrite (consumed_app false ("${LAYERDIR}/" ++ y :: p') ([c] ++ ns) []) by reflexivity.
      revert A k x Hk. cbv zeta.
      refine (_ : first (RSeq blanks1 (RGrp "namespace" dot_star)) _ _).
      eapply first_seq.
      + apply first_blanks1; [split; [discriminate|]; intros z [<-|[]]; exact Hc|]. intros z r E. apply Hns. rewrite E. now left.
      + rewrite <- (app_nil_r ns) at 1. apply first_grp_app. rewrite app_nil_r.
        pose proof (first_dots ns false [("path", "${LAYERDIR}/" ++ y :: p')] Hdn) as X. rewrite after_false in X. exact X.
    - intros u v E Hu _. subst k2. cbn [m_bol m_rest m_grp]. destruct u as [|z u]; [congruence|]. cbn [app] in E. injection E as <- E.
      match goal with |- m _ _ _ (MS false v ?g) = None =>
        enough (X : fails (RSeq blanks1 (RGrp "namespace" dot_star)) (MS false v g)) by apply X end.
      apply fails_mt. intros s' H. rewrite mt_seq_iff in H. destruct H as [s1 [H _]].
      assert (Y : exists z0 r, v = z0 :: r /\ re_space z0 = true).
      { unfold blanks1 in H. rewrite mt_alt_iff in H. destruct H as [H|H]; unfold sp_plus, tab_plus, RPlus in H;
          rewrite mt_seq_iff in H; destruct H as [s2 [H _]]; unfold RSp, tab in H; rewrite mt_chr_iff in H;
          destruct H as [z0 [r [E2 [Hz _]]]]; cbn [m_rest] in E2; exists z0, r; (split; [exact E2|]); [exact Hz|].
        unfold ch in Hz. apply N.eqb_eq in Hz. now subst z0. }
      destruct Y as [z0 [r [-> Hz]]]. rewrite (Hns z0) in Hz; [discriminate|]. rewrite E. apply in_mid. }
  apply first_match in F. apply (outcome_hit KAddpylib _ _ _ _ _ _ _ F) in Ho; [|intros [H|[H _]]; discriminate].
  cbn [made_of] in Ho. unfold group_str, group in Ho. cbn in Ho. now injection Ho as _ Ho.
Qed.
