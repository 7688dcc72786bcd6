(** * What function items say: proofs *)

From Verif Require Import Props_Items.
From Verif Require Import PyStr Regex UniTable Patterns PyPath Res Inline Const Item Lines Stash
  StrFacts ReFacts LinesFacts ParseFacts HistFacts ReachFacts ClassFacts MatchFacts StmtFacts Spec_Parse
  ShapeFacts Proofs_Parse Proofs_Stmt Proofs_Inline Props_Lines Spec_Parse Spec_Group Proofs_Group Spec_Func.

(** ** The head *)

Definition fword : re := RAlt (RSeq (RGrp "py" (RLit "python")) sp_star)
                              (RGrp "fr" (RSeq (RLit "fakeroot") sp_star)).

Lemma after_any : forall b w t g, exists b', after b w t g = MS b' t g.
Proof. intros b [|c w] t g; [now exists b|now exists false]. Qed.

Lemma fails_lit : forall l b t g, (forall r, t <> l ++ r) -> fails (RLit l) (MS b t g).
Proof.
  intros l b t g H. apply fails_mt. intros s' Hm. apply mt_lit_iff in Hm. destruct Hm as [r [E _]].
  now apply (H r) in E.
Qed.
Lemma fails_seq : forall a b s, fails a s -> fails (RSeq a b) s.
Proof. intros a b s H A k. cbn [m]. apply H. Qed.
Lemma fails_grp : forall n r s, fails r s -> fails (RGrp n r) s.
Proof. intros n r s H A k. cbn [m]. apply H. Qed.
Lemma fails_alt : forall a b s, fails a s -> fails b s -> fails (RAlt a b) s.
Proof. intros a b s Ha Hb A k. cbn [m]. rewrite Ha. apply Hb. Qed.

Lemma fword_fails : forall b t g, own_name t -> fails fword (MS b t g).
Proof.
  intros b t g H. apply fails_alt.
  - apply fails_seq, fails_grp, fails_lit. intro r. apply (H r).
  - apply fails_grp, fails_seq, fails_lit. intro r. apply (H r).
Qed.

Lemma fword_first : forall k w b t g, In k (["python"; "fakeroot"] : list str) -> blank w -> stops re_space t ->
  exists v, first fword (MS b (k ++ w ++ t) g)
                  (MS false t ((if str_eqb k "python" then "py" else "fr" : str, v) :: g)).
Proof.
  intros k w b t g [<-|[<-|[]]] Hw Ht; cbn [str_eqb]; [exists "python"|exists ("fakeroot" ++ w)].
  - apply first_altl. eapply first_seq.
    + apply (first_grp_app "py" (RLit "python") b "python" (w ++ t) g false g).
      exact (first_lit "python" b (w ++ t) g).
    + exact (first_sp_star w t _ Hw Ht).
  - apply first_altr.
    { apply fails_seq, fails_grp, fails_lit. intros r E. discriminate. }
    change (("fakeroot" : str) ++ w ++ t) with ((("fakeroot" : str) ++ w) ++ t).
    apply (first_grp_app "fr" (RSeq (RLit "fakeroot") sp_star) b ("fakeroot" ++ w) t g false g).
    eapply first_seq; [exact (first_lit "fakeroot" b (w ++ t) g)|]. exact (first_sp_star w t g Hw Ht).
Qed.

Definition stack (qs : list (str * str)) (g : list (str * str)) : Prop :=
  (matched (lookup_group "py" g) = true <-> has_word "python" qs) /\
  (matched (lookup_group "fr" g) = true <-> has_word "fakeroot" qs) /\
  lookup_group "func" g = None.

Lemma qualified_cons : forall k w qs t, qualified ((k, w) :: qs) ++ t = k ++ w ++ qualified qs ++ t.
Proof. intros. unfold qualified. cbn [map concat fst snd]. now rewrite <- !app_assoc. Qed.

Lemma word_start : forall k, In k (["python"; "fakeroot"] : list str) -> exists c r, k = c :: r /\ re_space c = false.
Proof. intros k [<-|[<-|[]]]; eexists; eexists; (split; [reflexivity|reflexivity]). Qed.

Lemma qualified_stops : forall qs t, qualifiers qs -> stops re_space t -> stops re_space (qualified qs ++ t).
Proof.
  intros [|[k w] qs] t Hq Ht; [exact Ht|]. rewrite qualified_cons.
  destruct (Hq k w) as [Hk _]; [now left|]. destruct (word_start k Hk) as [c [r [-> Hc]]].
  intros c0 r0 E. injection E as <- _. exact Hc.
Qed.

Lemma fwords_first : forall qs b t g, qualifiers qs -> stops re_space t -> own_name t ->
  exists b' g', first (RStar true fword) (MS b (qualified qs ++ t) g) (MS b' t g') /\
    (matched (lookup_group "py" g') = true <-> matched (lookup_group "py" g) = true \/ has_word "python" qs) /\
    (matched (lookup_group "fr" g') = true <-> matched (lookup_group "fr" g) = true \/ has_word "fakeroot" qs) /\
    (lookup_group "func" g' = lookup_group "func" g).
Proof.
  induction qs as [|[k w] qs IH]; intros b t g Hq Hs Ho.
  - exists b, g. split; [apply first_star_none; now apply fword_fails|].
    unfold has_word. split; [|split]; [| |reflexivity]; (split; [tauto|]); intros [H|[w []]]; exact H.
  - assert (Hq' : qualifiers qs) by (intros k' w' Hi; apply Hq; now right).
    destruct (Hq k w) as [Hk Hw]; [now left|].
    destruct (fword_first k w b (qualified qs ++ t) g Hk Hw (qualified_stops qs t Hq' Hs)) as [v Hf].
    destruct (IH false t (((if str_eqb k "python" then "py" else "fr") : str, v) :: g) Hq' Hs Ho) as [b' [g' [H1 [H2 [H3 H4]]]]].
    exists b', g'. split.
    { rewrite qualified_cons. eapply first_star_step; [exact Hf| |exact H1].
      cbn [m_rest]. rewrite !app_length. destruct (word_start k Hk) as [c [r [-> _]]]. cbn [length]. lia. }
    rewrite H2, H3, H4. destruct Hk as [<-|[<-|[]]]; cbn -[has_word]; unfold has_word.
    + split; [|split]; [| |reflexivity].
      * split; [intros _; right; exists w; now left|intros _; left; reflexivity].
      * split; [intros [H|[x H]]; [now left|right; exists x; now right]|].
        intros [H|[x [H|H]]]; [now left|discriminate|right; now exists x].
    + split; [|split]; [| |reflexivity].
      * split; [intros [H|[x H]]; [now left|right; exists x; now right]|].
        intros [H|[x [H|H]]]; [now left|discriminate|right; now exists x].
      * split; [intros _; right; exists w; now left|intros _; left; reflexivity].
Qed.

(** ** The whole pattern *)

Lemma fchar_iff : forall c, func_char c -> fchar c = true.
Proof.
  assert (A : forall c, (c < 128)%N -> letter c \/ digit c \/ In c ("_.-+{}:$" : str) -> fchar c = true).
  { intros c Hc H.
    assert (F : forallb (fun x => implb ((N.leb 65 x && N.leb x 90) || (N.leb 97 x && N.leb x 122)
       || (N.leb 48 x && N.leb x 57) || in_chars "_.-+{}:$" x) (fchar x)) (map N.of_nat (seq 0 128)) = true)
      by (vm_compute; reflexivity).
    rewrite forallb_forall in F. specialize (F c).
    assert (Hin : In c (map N.of_nat (seq 0 128))).
    { apply in_map_iff. exists (N.to_nat c). split; [apply N2Nat.id|]. apply in_seq. lia. }
    specialize (F Hin). cbv beta in F.
    match type of F with implb ?x _ = true => assert (Hx : x = true) end.
    { rewrite !Bool.orb_true_iff, !Bool.andb_true_iff, !N.leb_le, in_chars_In.
      unfold letter, digit, between in H. tauto. }
    rewrite Hx in F. exact F. }
  intros c H. apply A; [|exact H]. unfold func_char, letter, digit, between in H. cbn [In] in H.
  destruct H as [[H|H]|[H|H]]; lia.
Qed.

Lemma own_name_app : forall name x, own_name name -> (forall c r, x = c :: r -> ~ letter c) -> own_name (name ++ x).
Proof.
  assert (G : forall k name x r, (forall c, In c k -> letter c) -> (forall t, name <> k ++ t) ->
              (forall c r, x = c :: r -> ~ letter c) -> name ++ x <> k ++ r).
  { induction k as [|c k IH]; intros name x r Hk Hn Hx E.
    - now apply (Hn name).
    - destruct name as [|d name].
      + cbn [app] in E. subst x. apply (Hx c (k ++ r) eq_refl). apply Hk. now left.
      + cbn [app] in E. injection E as -> E. revert E. apply IH; [intros y Hy; apply Hk; now right| |exact Hx].
        intros t Et. apply (Hn t). now rewrite Et. }
  intros name x Hn Hx t. split; apply G; auto; try (intro t'; apply (Hn t'));
    intros c Hc; unfold letter, between; repeat (destruct Hc as [<-|Hc]; [lia|]); destruct Hc.
Qed.

Lemma space_not_letter : forall c, re_space c = true -> ~ letter c.
Proof.
  intros c Hs Hl. assert (name_char c) by now left. apply name_char_iff in H. now apply space_not_name in Hs; rewrite H in Hs.
Qed.

Definition tailre : re := RCat [sp_star; RC "("; sp_star; RC ")"; sp_star; RC "{"; RGrp "funcbody" dot_star; sp_star; RC "}"].

Lemma first_tail : forall b w0 w1 w2 body rest g, blank w0 -> blank w1 -> blank w2 -> oneline body -> ~ In 125%N rest ->
  first tailre (MS b (w0 ++ "(" ++ w1 ++ ")" ++ w2 ++ "{" ++ body ++ "}" ++ rest) g)
        (MS false rest (("funcbody", body) :: g)).
Proof.
  intros b w0 w1 w2 body rest g H0 H1 H2 Hb Hr. unfold tailre. cbn [RCat].
  eapply first_seq.
  { apply (first_star re_space w0 b (("(" : str) ++ w1 ++ ")" ++ w2 ++ "{" ++ body ++ "}" ++ rest) g); [now apply blank_forallb|].
    intros c r E. injection E as <- _. reflexivity. }
  destruct (after_any b w0 (("(" : str) ++ w1 ++ ")" ++ w2 ++ "{" ++ body ++ "}" ++ rest) g) as [b' ->].
  eapply first_seq; [apply first_chr; reflexivity|].
  eapply first_seq; [apply (first_sp_star w1 ((")" : str) ++ w2 ++ "{" ++ body ++ "}" ++ rest)); [exact H1|intros c r E; injection E as <- _; reflexivity]|].
  eapply first_seq; [apply first_chr; reflexivity|].
  eapply first_seq; [apply (first_sp_star w2 (("{" : str) ++ body ++ "}" ++ rest)); [exact H2|intros c r E; injection E as <- _; reflexivity]|].
  eapply first_seq; [apply first_chr; reflexivity|].
  apply (first_greedy_grp0 "funcbody" dotp body (RSeq sp_star (RC "}")) (("}" : str) ++ rest)).
  - now apply oneline_forallb.
  - eapply first_seq; [apply (first_sp_star [] (("}" : str) ++ rest)); [intros c []|intros c r E; injection E as <- _; reflexivity]|].
    apply first_chr. reflexivity.
  - intros u v E Hu _. apply fails_mt. intros s' Hm. apply mt_seq_iff in Hm. destruct Hm as [s1 [M1 M2]].
    unfold sp_star, RSp in M1. apply mt_star_chr_iff in M1. destruct M1 as [w [t [Ew [_ ->]]]].
    unfold RC in M2. apply mt_chr_iff in M2. destruct M2 as [c [t' [Ec [Hc _]]]].
    unfold oneof in Hc. apply in_chars_In in Hc. destruct Hc as [<-|[]]. cbn [m_rest] in Ew.
    cbn [m_bol m_grp] in Ec. rewrite after_false in Ec. cbn [m_rest] in Ec. subst t v.
    destruct u as [|x u]; [congruence|]. cbn [app] in E. injection E as _ E. apply Hr. rewrite E.
    apply in_or_app. right. apply in_or_app. right. now left.
Qed.

Lemma first_func : forall qs name body text, function_text qs name body text -> own_name name -> oneline text ->
  exists mt, re_match re_func text = Some mt /\
    (matched (group "py" mt) = true <-> has_word "python" qs) /\
    (matched (group "fr" mt) = true <-> has_word "fakeroot" qs) /\
    group_str "func" mt = name /\ group_str "funcbody" mt = body.
Proof.
  intros qs name body text [head [rest [-> [[w0 [w1 [w2 [-> [Hq [H0 [H1 [H2 [Hc [He Hn]]]]]]]]]] Hr]]]] Ho Hl.
  set (t := (w0 ++ "(" ++ w1 ++ ")" ++ w2 ++ "{" ++ body ++ "}" ++ rest) : str).
  assert (Et : (qualified qs ++ name ++ w0 ++ "(" ++ w1 ++ ")" ++ w2 ++ "{") ++ body ++ "}" ++ rest = qualified qs ++ name ++ t).
  { unfold t. rewrite <- !app_assoc. reflexivity. }
  rewrite Et in *.
  assert (Hb : oneline body).
  { intros c Hi. apply Hl. apply in_or_app. right. apply in_or_app. right. unfold t.
    rewrite !in_app_iff. tauto. }
  assert (Hnt : forall c r, t = c :: r -> ~ letter c /\ (name = [] -> re_space c = false) /\ fchar c = false).
  { intros c r E. unfold t in E. destruct w0 as [|x w0].
    - cbn [app] in E. injection E as <- _. split; [unfold letter, between; lia|]. split; reflexivity.
    - cbn [app] in E. injection E as <- _. assert (Hx : re_space x = true) by (apply H0; now left).
      split; [now apply space_not_letter|]. split; [intro En; specialize (He En); discriminate|].
      now apply space_not_fchar. }
  assert (Hs : stops re_space (name ++ t)).
  { destruct name as [|c name].
    - intros x r E. now apply (Hnt x r E).
    - intros x r E. cbn [app] in E. injection E as <- _. assert (F : fchar c = true) by (apply fchar_iff; apply Hc; now left).
      destruct (re_space c) eqn:Es; [|reflexivity]. apply space_not_fchar in Es. congruence. }
  assert (Hot : own_name (name ++ t)) by (apply own_name_app; [exact Ho|intros c r E; now apply (Hnt c r E)]).
  destruct (fwords_first qs true (name ++ t) [] Hq Hs Hot) as [b' [g' [F1 [F2 [F3 F4]]]]].
  assert (F5 : exists b2 g2, first (ROpt true (RGrp "func" (RPlus true (RChr fchar)))) (MS b' (name ++ t) g') (MS b2 t g2) /\
     matched (lookup_group "py" g2) = matched (lookup_group "py" g') /\
     matched (lookup_group "fr" g2) = matched (lookup_group "fr" g') /\
     match lookup_group "func" g2 with Some v => v | None => [] end = name).
  { destruct name as [|c name].
    - exists b', g'. split; [|rewrite F4; auto]. unfold ROpt. apply first_altr; [|apply first_eps].
      apply fails_grp, fails_seq. apply fails_mt. intros s' M. apply mt_chr_iff in M. destruct M as [c [r [E [Hf _]]]].
      cbn [m_rest app] in E. destruct (Hnt c r E) as [_ [_ F]]. congruence.
    - exists false, (("func", c :: name) :: g'). split; [|cbn; auto]. unfold ROpt. apply first_altl.
      apply first_grp_app. apply first_plus; [|discriminate|intros x r E; now apply (Hnt x r E)].
      apply forallb_forall. intros x Hx. apply fchar_iff. now apply Hc. }
  destruct F5 as [b2 [g2 [G1 [G2 [G3 G4]]]]].
  pose proof (first_tail b2 w0 w1 w2 body rest g2 H0 H1 H2 Hb Hr) as T. fold t in T.
  eexists. split.
  { apply first_match. unfold re_func. cbn [RCat].
    eapply first_seq; [apply first_bol|]. eapply first_seq; [exact F1|].
    eapply first_seq; [exact G1|exact T]. }
  unfold group, group_str, group. cbn [g_all m_grp lookup_group str_eqb].
  split; [|split; [|split]].
  - change (matched (lookup_group "py" g2) = true <-> has_word "python" qs).
    rewrite G2, F2. cbn. intuition discriminate.
  - change (matched (lookup_group "fr" g2) = true <-> has_word "fakeroot" qs).
    rewrite G3, F3. cbn. intuition discriminate.
  - exact G4.
  - reflexivity.
Qed.

(** ** Items *)

Lemma not_hashed : forall qs name body text, function_text qs name body text -> re_match re_comments text = None.
Proof.
  intros qs name body text H. destruct (re_match re_comments text) as [x|] eqn:E; [exfalso|reflexivity].
  apply shape_comments in E. destruct E as [w [t [E Hw]]].
  destruct H as [head [rest [-> [[w0 [w1 [w2 [-> [Hq [H0 [_ [_ [Hc [He _]]]]]]]]]] _]]]].
  rewrite <- !app_assoc in E.
  assert (G : forall c r, re_space c = false -> c <> 35%N -> c :: r <> w ++ "#" ++ t).
  { intros c r Hs Hn X. destruct w as [|y w].
    - injection X as X _. contradiction.
    - injection X as <- _. rewrite (Hw c) in Hs; [discriminate|now left]. }
  destruct qs as [|[k v] qs].
  - cbn [qualified map concat app] in E. destruct name as [|c name].
    + rewrite (He eq_refl) in E. cbn [app] in E. revert E. apply G; [reflexivity|discriminate].
    + cbn [app] in E. revert E. assert (F : func_char c) by (apply Hc; now left). apply G.
      * apply fchar_iff in F. destruct (re_space c) eqn:Es; [|reflexivity]. apply space_not_fchar in Es. congruence.
      * intros ->. destruct F as [[F|F]|[F|F]]; try (unfold between in F; lia).
        -- unfold digit, between in F. lia.
        -- cbn in F. intuition discriminate.
  - destruct (Hq k v) as [Hk _]; [now left|]. rewrite qualified_cons in E.
    destruct Hk as [<-|[<-|[]]]; cbn [app] in E; revert E; apply G; try reflexivity; discriminate.
Qed.

Lemma function_made : forall e i qs name body, parsed_item e i ->
  function_text qs name body (one_line i) -> own_name name ->
  exists known p py fr, (py = true <-> has_word "python" qs) /\ (fr = true <-> has_word "fakeroot" qs) /\
    ip_raw p = it_raw i /\
    it_pay i = it_pay (mk_function known p (Some name) body py fr) /\
    it_new i = it_new (mk_function known p (Some name) body py fr).
Proof.
  intros e i qs name body Hi Ht Ho.
  assert (Hl : oneline (one_line i)) by (intros c Hc; now apply (one_line_dots i)).
  destruct (first_func _ _ _ _ Ht Ho Hl) as [mt [Em [Hp [Hf [Hn Hb]]]]].
  apply parsed_classified in Hi. destruct Hi as [new Hc]. unfold order in Hc.
  apply outcome_skip in Hc; [|now apply (not_hashed qs name body)].
  apply (outcome_hit KFunc _ _ _ _ _ _ mt Em) in Hc; [|intros [H|[H _]]; discriminate].
  cbn [made_of] in Hc. destruct Hc as [known Hc].
  change (match group "func" mt with Some n => n | None => [] end) with (group_str "func" mt) in Hc.
  rewrite Hn, Hb in Hc. clear Hn Hb.
  exists known, (MkParam 0 0 0 (it_raw i) [] [] [] new), (matched (group "py" mt)), (matched (group "fr" mt)).
  split; [exact Hp|]. split; [exact Hf|]. split; [reflexivity|].
  unfold mk_function. cbn [ip_new ip_raw]. destruct (extract_sub_func known new (strip_ws name)) as [[new' var] sub].
  cbn [it_pay it_new mk_item]. now injection Hc as <- <-.
Qed.

Lemma fchar_py_space : forall c, func_char c -> py_space c = false.
Proof.
  intros c H. unfold func_char, letter, digit, between in H. cbn [In] in H. unfold py_space.
  apply Bool.not_true_iff_false. rewrite !Bool.orb_true_iff, !Bool.andb_true_iff, !N.eqb_eq, !N.leb_le.
  destruct H as [[H|H]|[H|H]]; lia.
Qed.
Lemma func_name_strip : forall name, (forall c, In c name -> func_char c) -> strip_ws name = name.
Proof.
  intros name H. unfold strip_ws, strip_p.
  rewrite (lstrip_p_id py_space name).
  - destruct name as [|c name _] using rev_ind; [reflexivity|]. apply rstrip_p_id. apply fchar_py_space, H.
    apply in_or_app. right. now left.
  - destruct name as [|c name]; [exact I|]. apply fchar_py_space, H. now left.
Qed.

Lemma C84_lemma : forall e i qs name body, parsed_item e i ->
  function_text qs name body (one_line i) -> own_name name ->
  (is_python i <-> has_word "python" qs) /\ (is_fakeroot i <-> has_word "fakeroot" qs) /\
  func_body i body /\ (name <> "__anonymous" -> parted (separator_of i) name -> func_name i name).
Proof.
  intros e i qs name body Hi Ht Ho. assert (Hc : forall c, In c name -> func_char c).
  { destruct Ht as [head [rest [_ [[w0 [w1 [w2 [_ [_ [_ [_ [_ [Hc _]]]]]]]]] _]]]]. exact Hc. }
  destruct (function_made _ _ _ _ _ Hi Ht Ho) as [known [p [py [fr [Hp [Hf [_ [Ep En]]]]]]]].
  unfold is_python, is_fakeroot, func_body, func_name, separator_of.
  pose proof (C67_lemma known p name body py fr) as L. cbv zeta in L. rewrite (func_name_strip name Hc) in L.
  unfold func_complete_name in L. unfold mk_function in *. rewrite (func_name_strip name Hc) in *.
  destruct (extract_sub_func known (ip_new p) name) as [[new var] sub] eqn:Ex. cbn [it_pay it_new mk_item] in *.
  rewrite Ep, En. split; [|split; [|split]].
  - rewrite <- Hp. split; [intros [f [n [s [l [b [r E]]]]]]; now injection E|]. intros ->. repeat eexists.
  - rewrite <- Hf. split; [intros [f [n [s [l [b [r E]]]]]]; now injection E|]. intros ->. repeat eexists.
  - repeat eexists.
  - intros Hne [parts [Ej [Hne2 [Hd Hparts]]]]. do 7 eexists. split; [reflexivity|].
    assert (En2 : new = ip_new p || contains ":" name).
    { unfold extract_sub_func in Ex. destruct (str_eqb name "__anonymous"); [now injection Ex|].
      destruct (sub_func_loop _ _ _ _ _) in Ex. now injection Ex. }
    specialize (L (delim new) Hne). unfold delim_str in L. change (if new then 58%N else 95%N) with (delim new) in *.
    rewrite L.
    + unfold parts_of. rewrite Ej. rewrite split_char_join_parts; [|exact Hne2|intros q Hq; now apply Hparts].
      f_equal. symmetry. clear Ej Hne2 Hd. induction parts as [|q parts IH]; [reflexivity|]. cbn [filter].
      destruct (Hparts q) as [Hq _]; [now left|]. destruct q as [|c q]; [congruence|]. cbn [nonempty].
      rewrite IH; [reflexivity|]. intros x Hx. apply Hparts. now right.
    + rewrite En2. apply delim_spec.
    + rewrite Ej, split_char_join_parts; [exact Hd|exact Hne2|intros q Hq; now apply Hparts].
    + rewrite Ej, split_char_join_parts; [|exact Hne2|intros q Hq; now apply Hparts].
      destruct parts as [|q parts]; [congruence|]. cbn [hd]. apply Hparts. now left.
Qed.

(** ** Files *)

Lemma flat_app : forall a b, flat (a ++ b) = flat a ++ flat b.
Proof. intros a b. unfold flat. now rewrite filter_app, map_app. Qed.
Lemma flat_id : forall s, ~ In cNL s -> ~ In cBSL s -> flat s = s.
Proof.
  unfold flat. induction s as [|c s IH]; intros Hn Hb; [reflexivity|]. cbn [filter].
  destruct (N.eqb_spec c cNL) as [->|E]; [exfalso; apply Hn; now left|]. cbn [negb map].
  destruct (N.eqb_spec c cBSL) as [->|E2]; [exfalso; apply Hb; now left|].
  rewrite IH; [reflexivity| |]; intro H; [apply Hn|apply Hb]; now right.
Qed.
Lemma flat_not_in : forall s c, c <> cESC -> ~ In c s -> ~ In c (flat s).
Proof.
  intros s c Hc H Hi. unfold flat in Hi. apply in_map_iff in Hi. destruct Hi as [x [E Hx]].
  apply filter_In in Hx. destruct Hx as [Hx _]. destruct (N.eqb x cBSL); congruence.
Qed.

Lemma blocks_none : forall neg t, no_inline t -> inline_blocks_of neg t = Some (t, []).
Proof.
  intros neg t H. unfold inline_blocks_of. rewrite inline_outer_eq.
  assert (E : inline_step neg t = None) by (apply inline_step_none; now apply contains_false). now rewrite E.
Qed.

Lemma add_file_parsed : forall n e path off forced s l s' i, filled e s ->
  add_file n e path off forced s = (Ok l, s') -> In i l -> classified i /\ inlined (st_neg s) i.
Proof.
  intros n e path off forced s l s' i Hf H Hi. split.
  - pose proof (proj2 (keeps_add_file n e path off forced s _ s' H (filled_classified e s Hf)) l eq_refl) as F.
    rewrite Forall_forall in F. auto.
  - pose proof (proj2 (keeps_inlined (st_neg s) n e path off forced s _ s' H (filled_inlined e s Hf)) l eq_refl) as F.
    rewrite Forall_forall in F. auto.
Qed.

Lemma add_file_in_stash : forall n e path off forced s l s' i,
  add_file n e path off forced s = (Ok l, s') -> In i l -> In i (st_list s').
Proof.
  intros [|n] e path off forced s l s' i E Hi; [discriminate|]. rewrite add_file_eq in E. cbv zeta in E.
  destruct (skipped e path s); [injection E as <- <-; destruct Hi|].
  unfold bindM at 1 in E. destruct (get_items _ _ _ _ _) as [[items|ex|] s1]; try discriminate.
  apply leave_cases in E. destruct E as [f [l0 [_ [EL [_ [_ [_ [_ [_ [_ [_ Hr]]]]]]]]]]].
  destruct (Hr l eq_refl) as [-> _]. rewrite EL. apply in_or_app. now right.
Qed.

Lemma ends_balanced : forall m z, inside m -> depth m = 0%Z -> (depth [z] < 0)%Z -> ends_function m z.
Proof. intros m z Hi Hd Hz. split; [exact Hi|]. rewrite depth_app. lia. Qed.

Lemma C14_cover_lemma : forall n e path off forced s l s' t ls gs h m z post,
  add_file n e path off forced s = (Ok l, s') -> considered e path s ->
  fs_read (e_fs e) (file_of e path) = RdText t -> lines ls -> concat ls = universal_newlines t ->
  taken ls gs (h :: m ++ z :: post) -> ~ carries_on h -> opens h ->
  inside m -> depth m = 0%Z -> (depth [z] < 0)%Z ->
  exists l1 i l2, l = l1 ++ i :: l2 /\ map it_realraw l1 = map (@concat N) gs /\
    it_realraw i = concat (h :: m ++ [z]).
Proof.
  intros n e path off forced s l s' t ls gs h m z post H Hc Hr Hl El Ht Hh Ho Hi Hd Hz.
  apply add_file_taken in H; [|exact Hc]. rewrite Hr in H. destruct H as [gs0 [H0 E0]].
  rewrite <- El, <- (readlines_unique ls Hl) in H0.
  destruct (taken_prefix _ _ _ _ Hl Ht H0) as [gs1 [-> H1]].
  assert (Hb : block (h :: m ++ z :: post) (h :: m ++ [z]) post)
    by (apply block_function; [exact Hh|exact Ho|now apply ends_balanced]).
  pose proof (lines_after _ _ _ Hl Ht) as Hl1.
  inversion H1 as [l0|l0 g r gs2 u Hg Hg2]; subst.
  destruct (block_unique _ _ _ _ _ Hl1 Hb Hg) as [<- <-].
  rewrite map_app in E0. cbn [map] in E0. apply map_eq_app in E0. destruct E0 as [l1 [l2 [-> [E1 E2]]]].
  apply map_eq_cons in E2. destruct E2 as [i [l3 [-> [E2 _]]]].
  exists l1, i, l3. auto.
Qed.

Lemma head_plain : forall qs name head, function_head qs name head -> forall x, In x head ->
  func_char x \/ re_space x = true \/ In x ("(){" : str).
Proof.
  intros qs name head [w0 [w1 [w2 [-> [Hq [H0 [H1 [H2 [Hc _]]]]]]]]] x Hx.
  rewrite !in_app_iff in Hx. destruct Hx as [Hx|[Hx|[Hx|[Hx|[Hx|[Hx|[Hx|Hx]]]]]]].
  - clear -Hq Hx. induction qs as [|[k w] qs IH]; [destruct Hx|].
    destruct (Hq k w) as [Hk Hw]; [now left|]. unfold qualified in Hx. cbn [map concat fst snd] in Hx.
    rewrite !in_app_iff in Hx. destruct Hx as [[Hx|Hx]|Hx].
    + left. left. right. unfold between. destruct Hk as [<-|[<-|[]]];
        repeat (destruct Hx as [<-|Hx]; [lia|]); destruct Hx.
    + right. left. now apply Hw.
    + apply IH; [|exact Hx]. intros k' w' Hi. apply Hq. now right.
  - left. now apply Hc.
  - right. left. now apply H0.
  - right. right. destruct Hx as [<-|[]]. now left.
  - right. left. now apply H1.
  - right. right. destruct Hx as [<-|[]]. right. now left.
  - right. left. now apply H2.
  - right. right. destruct Hx as [<-|[]]. right. right. now left.
Qed.
Lemma head_no_bsl : forall qs name head, function_head qs name head -> ~ In cBSL head.
Proof.
  intros qs name head H Hi. destruct (head_plain _ _ _ H _ Hi) as [F|[F|F]].
  - unfold func_char, letter, digit, between, cBSL in F. cbn [In] in F. lia.
  - discriminate.
  - unfold cBSL in F. cbn [In] in F. lia.
Qed.

Lemma head_opens : forall qs name head b, function_head qs name head -> opens (head ++ b).
Proof.
  intros qs name head b [w0 [w1 [w2 [-> [_ [_ [H1 [H2 _]]]]]]]].
  exists (qualified qs ++ name ++ w0), w1, w2, b. split; [now rewrite <- !app_assoc|]. auto.
Qed.
Lemma head_no_nl : forall qs name head b, function_head qs name head -> line_like (head ++ b) -> ~ In cNL head.
Proof.
  intros qs name head b [w0 [w1 [w2 [E _]]]] Hl Hi.
  assert (E2 : exists x, head = x ++ [123%N]).
  { exists (qualified qs ++ name ++ w0 ++ "(" ++ w1 ++ ")" ++ w2). rewrite E, <- !app_assoc. reflexivity. }
  destruct E2 as [x Ex]. rewrite Ex in Hi. apply in_app_iff in Hi. destruct Hi as [Hi|[Hi|[]]]; [|discriminate].
  destruct Hl as [[y [Ey Hn]]|Hn].
  - rewrite Ex, <- app_assoc in Ey. destruct b as [|c b _] using rev_ind.
    + cbn [app] in Ey. apply app_inj_tail in Ey. destruct Ey as [_ Ey]. discriminate.
    + rewrite !app_assoc in Ey. apply app_inj_tail in Ey. destruct Ey as [<- _]. apply Hn.
      rewrite <- app_assoc. apply in_or_app. now left.
  - apply Hn. rewrite Ex, !in_app_iff. auto.
Qed.

Lemma one_line_flat : forall i, one_line i = flat (it_raw i).
Proof. reflexivity. Qed.

Lemma C14_lemma : forall n e path off forced s l s' t ls gs h m z post qs name head b z1 z2,
  filled e s -> add_file n e path off forced s = (Ok l, s') -> considered e path s ->
  fs_read (e_fs e) (file_of e path) = RdText t -> lines ls -> concat ls = universal_newlines t ->
  taken ls gs (h :: m ++ z :: post) -> ~ carries_on h ->
  h = head ++ b -> function_head qs name head -> own_name name ->
  inside m -> depth m = 0%Z -> (depth [z] < 0)%Z -> z = z1 ++ "}" ++ z2 -> ~ In 125%N z2 ->
  no_inline (concat (h :: m ++ [z])) ->
  exists l1 i l2, l = l1 ++ i :: l2 /\ map it_realraw l1 = map (@concat N) gs /\
    it_realraw i = concat (h :: m ++ [z]) /\
    (is_python i <-> has_word "python" qs) /\ (is_fakeroot i <-> has_word "fakeroot" qs) /\
    func_body i (flat (b ++ concat m ++ z1)) /\
    (name <> "__anonymous" -> parted (separator_of i) name -> func_name i name).
Proof.
  intros n e path off forced s l s' t ls gs h m z post qs name head b z1 z2
    Hf H Hc Hr Hl El Ht Hh Eh Hhd Hown Hi Hd Hz Ez Hz2 Hin.
  destruct (C14_cover_lemma n e path off forced s l s' t ls gs h m z post) as [l1 [i [l2 [E1 [E2 E3]]]]]; auto.
  { rewrite Eh. now apply (head_opens qs name). }
  exists l1, i, l2. split; [exact E1|]. split; [exact E2|]. split; [exact E3|].
  assert (Hil : In i l) by (rewrite E1; apply in_or_app; right; now left).
  destruct (add_file_parsed _ _ _ _ _ _ _ _ i Hf H Hil) as [_ Hinl].
  assert (Hpi : parsed_item e i).
  { exists s'. split; [eapply filled_add; eassumption|]. eapply add_file_in_stash; eassumption. }
  unfold inlined in Hinl. rewrite E3, (blocks_none _ _ Hin) in Hinl. injection Hinl as Eraw _.
  apply (C84_lemma e i qs name); [exact Hpi| |exact Hown].
  exists head, (flat z2). split; [|split; [exact Hhd|]].
  - rewrite one_line_flat, <- Eraw. cbn [concat]. rewrite concat_app. cbn [concat]. rewrite app_nil_r, Eh, Ez.
    rewrite !flat_app. rewrite (flat_id head).
    + rewrite <- !app_assoc. reflexivity.
    + apply (head_no_nl qs name head b Hhd).
      pose proof (lines_after _ _ _ Hl Ht) as Hl1. apply lines_are_ok, lines_like in Hl1. inversion Hl1. now subst.
    + now apply (head_no_bsl qs name).
  - apply flat_not_in; [discriminate|exact Hz2].
Qed.

(** ** FuncBodyRaw *)

Lemma head_brace : forall qs name head, function_head qs name head -> ~ In 123%N name ->
  exists x, head = x ++ "{" /\ ~ In 123%N x.
Proof.
  intros qs name head [w0 [w1 [w2 [-> [Hq [H0 [H1 [H2 _]]]]]]]] Hn.
  exists (qualified qs ++ name ++ w0 ++ "(" ++ w1 ++ ")" ++ w2). split; [now rewrite <- !app_assoc|].
  assert (B : forall w, Spec_Parse.blank w -> ~ In 123%N w) by (intros w Hw Hi; apply Hw in Hi; discriminate).
  rewrite !in_app_iff. intros [Hx|[Hx|[Hx|[Hx|[Hx|[Hx|Hx]]]]]].
  - clear -Hq Hx B. induction qs as [|[k w] qs IH]; [destruct Hx|].
    destruct (Hq k w) as [Hk Hw]; [now left|]. unfold qualified in Hx. cbn [map concat fst snd] in Hx.
    rewrite !in_app_iff in Hx. destruct Hx as [[Hx|Hx]|Hx].
    + destruct Hk as [<-|[<-|[]]]; cbn in Hx; intuition discriminate.
    + now apply B in Hx.
    + apply IH; [|exact Hx]. intros k' w' Hi. apply Hq. now right.
  - contradiction.
  - now apply B in Hx.
  - cbn in Hx. intuition discriminate.
  - now apply B in Hx.
  - cbn in Hx. intuition discriminate.
  - now apply B in Hx.
Qed.

Lemma find_char : forall x (c : N) r, ~ In c x -> find_str [c] (x ++ c :: r) = Some (x, r).
Proof.
  intros x c r Hx. destruct (find_str [c] (x ++ c :: r)) as [[a b]|] eqn:E.
  - pose proof (find_str_some [c] _ _ _ E) as E1.
    pose proof (find_str_first [c] _ _ _ E x r eq_refl) as E2.
    assert (H : exists y, x = a ++ y).
    { clear -E1 E2. revert a E1 E2. induction x as [|d x IH]; intros a E1 E2.
      - destruct a; [now exists []|cbn in E2; lia].
      - destruct a as [|d' a]; [now exists (d :: x)|]. injection E1 as -> E1. cbn in E2.
        destruct (IH a E1) as [y ->]; [lia|]. now exists y. }
    destruct H as [y ->]. destruct y as [|d y].
    + rewrite app_nil_r in *. apply app_inv_head in E1. now injection E1 as <-.
    + exfalso. rewrite <- app_assoc in E1. apply app_inv_head in E1. injection E1 as <- _.
      apply Hx. apply in_or_app. right. now left.
  - exfalso. exact (find_str_none [c] _ E x r eq_refl).
Qed.

Lemma C85_lemma : forall e i qs name head inner ws, parsed_item e i ->
  it_raw i = head ++ inner ++ "}" ++ ws -> function_head qs name head -> ~ In cNL head -> own_name name ->
  ~ In 123%N name -> white ws -> (forall a, inner <> a ++ "}") ->
  exists ls, dedented (split_char cNL inner) ls /\ raw_body i (join [cNL] ls).
Proof.
  intros e i qs name head inner ws Hi Er Hh Hn Ho Hb Hw Hl.
  assert (Hws : ~ In 125%N ws) by (intro H; apply Hw in H; discriminate).
  assert (Ht : function_text qs name (flat inner) (one_line i)).
  { exists head, (flat ws). split; [|split; [exact Hh|apply flat_not_in; [discriminate|exact Hws]]].
    rewrite one_line_flat, Er, !flat_app. rewrite (flat_id head Hn (head_no_bsl _ _ _ Hh)). reflexivity. }
  destruct (function_made _ _ _ _ _ Hi Ht Ho) as [known [p [py [fr [_ [_ [Eraw [Ep _]]]]]]]].
  destruct (dedent_lemma inner) as [ls [E1 E2]]. exists ls. split; [exact E2|].
  unfold raw_body. rewrite Ep. unfold mk_function.
  destruct (extract_sub_func known (ip_new p) _) as [[new var] sub]. cbn [it_pay mk_item].
  assert (G : func_body_raw (ip_raw p) = join [cNL] ls).
  { rewrite Eraw, Er. destruct (head_brace _ _ _ Hh Hb) as [x [-> Hx]]. unfold func_body_raw.
    rewrite <- app_assoc. cbn [app]. rewrite (find_char x 123%N _ Hx). rewrite <- E1. f_equal.
    unfold rstrip_ws. change (inner ++ 125%N :: ws) with (inner ++ [125%N] ++ ws).
    rewrite app_assoc, rstrip_p_app by now apply white_forallb. rewrite rstrip_p_id by reflexivity.
    unfold rstrip. rewrite rstrip_p_app by reflexivity.
    destruct inner as [|c y _] using rev_ind; [reflexivity|]. apply rstrip_p_id.
    apply Bool.not_true_iff_false. rewrite in_chars_In. intros [<-|[]]. now apply (Hl y). }
  rewrite G. repeat eexists.
Qed.
