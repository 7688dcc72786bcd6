(** * Proofs about the items of statements *)

From Verif Require Import PyStr Regex UniTable Patterns PyPath Res Inline Const Item Lines Stash
  StrFacts ReFacts LinesFacts ParseFacts HistFacts ReachFacts Spec_Parse ClassFacts MatchFacts ShapeFacts.

(** ** Splitting a text at two places *)

Lemma app_cases : forall A (a b : list A) x y s t, a ++ x :: s = b ++ y :: t ->
  (a = b /\ x = y /\ s = t) \/ (exists z, b = a ++ x :: z /\ s = z ++ y :: t)
  \/ (exists z, a = b ++ y :: z /\ t = z ++ x :: s).
Proof.
  intros A a. induction a as [|u a IH]; intros b x y s t H; destruct b as [|v b]; cbn in H; inversion H; subst.
  - auto.
  - right. left. exists b. auto.
  - right. right. exists a. auto.
  - destruct (IH b x y s t H2) as [[-> [-> ->]]|[[z [-> ->]]|[z [-> ->]]]]; [auto|right; left|right; right]; now exists z.
Qed.
Lemma in_mid : forall A (a b : list A) x, In x (a ++ x :: b).
Proof. intros. apply in_app_iff. right. now left. Qed.

(** White space *)
Definition spaces : list N :=
  [9; 10; 11; 12; 13; 32; 133; 160; 5760; 8192; 8193; 8194; 8195; 8196; 8197; 8198; 8199; 8200; 8201; 8202;
   8232; 8233; 8239; 8287; 12288]%N.
Lemma space_cases : forall c, re_space c = true -> In c spaces.
Proof.
  intros c H. unfold re_space in H.
  repeat (apply orb_prop in H; destruct H as [H|H]); try (apply N.eqb_eq in H; subst c; cbn; tauto).
  - apply andb_prop in H. destruct H as [H1 H2]. apply N.leb_le in H1. apply N.leb_le in H2.
    assert (X : (c = 9 \/ c = 10 \/ c = 11 \/ c = 12 \/ c = 13)%N) by lia. cbn. intuition.
  - apply andb_prop in H. destruct H as [H1 H2]. apply N.leb_le in H1. apply N.leb_le in H2.
    assert (X : (c = 8192 \/ c = 8193 \/ c = 8194 \/ c = 8195 \/ c = 8196 \/ c = 8197 \/ c = 8198 \/ c = 8199
                 \/ c = 8200 \/ c = 8201 \/ c = 8202)%N) by lia. cbn. intuition.
Qed.
Lemma space_not : forall (p : N -> bool) c, forallb (fun c => negb (p c)) spaces = true ->
  re_space c = true -> p c = false.
Proof.
  intros p c H Hc. apply space_cases in Hc. rewrite forallb_forall in H. apply H in Hc.
  now apply Bool.negb_true_iff.
Qed.
Lemma space_not_name : forall c, re_space c = true -> name_c c = false.
Proof. intros c. apply space_not. vm_compute. reflexivity. Qed.
Lemma space_not_ops : forall c, re_space c = true -> ops_c c = false.
Proof. intros c. apply space_not. vm_compute. reflexivity. Qed.

Lemma name_char_iff : forall c, name_char c <-> name_c c = true.
Proof.
  intro c. unfold name_char, letter, digit, between, name_c, name_cls, por, up_c, low_c, dig_c, range.
  rewrite !orb_true_iff, !andb_true_iff, !N.leb_le. unfold oneof, in_chars. rewrite !existsb_exists.
  assert (E : In c ("_.-:${}" : str) <-> (exists x, In x ("_.-" : str) /\ N.eqb c x = true)
                                        \/ exists x, In x ("${}:" : str) /\ N.eqb c x = true).
  { split.
    - cbn [In]. intros [<-|[<-|[<-|[<-|[<-|[<-|[<-|[]]]]]]]];
        first [left; eexists; split; [|apply N.eqb_refl]; cbn; tauto
              |right; eexists; split; [|apply N.eqb_refl]; cbn; tauto].
    - intros [[x [Hx E]]|[x [Hx E]]]; apply N.eqb_eq in E; subst x; cbn [In] in *; intuition. }
  rewrite E. tauto.
Qed.
Lemma var_name_iff : forall n, var_name n <-> n <> [] /\ forallb name_c n = true.
Proof.
  intro n. unfold var_name. rewrite forallb_forall. split; intros [H1 H2]; (split; [exact H1|]);
    intros c Hc; apply name_char_iff; auto.
Qed.

Lemma flag_char_imp : forall c, flag_char c -> flag_c c = true.
Proof.
  intros c H. unfold flag_c, por. 
  assert (A : forall c, (c < 128)%N -> letter c \/ digit c \/ In c ("_-./@" : str) -> re_word c || oneof "-./@_" c = true).
  { clear. intros c Hc H.
    assert (X : forallb (fun x => implb ((N.leb 65 x && N.leb x 90) || (N.leb 97 x && N.leb x 122)
       || (N.leb 48 x && N.leb x 57) || in_chars "_-./@" x) (re_word x || oneof "-./@_" x)) (map N.of_nat (seq 0 128)) = true)
      by (vm_compute; reflexivity).
    rewrite forallb_forall in X. specialize (X c).
    assert (I : In c (map N.of_nat (seq 0 128))).
    { apply in_map_iff. exists (N.to_nat c). split; [apply N2Nat.id|]. apply in_seq. lia. }
    specialize (X I). rewrite implb_true_iff in X. apply X.
    unfold letter, digit, between in H. rewrite !orb_true_iff, !andb_true_iff, !N.leb_le. unfold in_chars.
    rewrite existsb_exists. destruct H as [[H|H]|[H|H]]; auto. right. exists c. split; [exact H|apply N.eqb_refl]. }
  apply A; [|exact H]. unfold flag_char, letter, digit, between in H. cbn [In] in H.
  destruct H as [[H|H]|[H|H]]; lia.
Qed.

(** ** Texts of some shape are not of another one *)

Definition K_c (c : N) : bool := por up_c (por low_c (oneof "_")) c.

Lemma K_name : forall c, K_c c = true -> name_c c = true.
Proof.
  intros c H. apply name_char_iff. unfold K_c, por, up_c, low_c, range in H.
  rewrite !orb_true_iff, !andb_true_iff, !N.leb_le in H. unfold name_char, letter, between.
  destruct H as [H|[H|H]]; [tauto|tauto|]. unfold oneof, in_chars in H. simpl in H. rewrite orb_false_r in H.
  apply N.eqb_eq in H. subst c. right. right. cbn. tauto.
Qed.

(** A keyword in front of a name. *)
Lemma keyed_name : forall (K : str -> Prop) n rest,
  (forall k, K k -> forallb K_c k = true /\ k <> []) ->
  n <> [] -> forallb name_c n = true -> (forall c t, rest = c :: t -> K_c c = false) -> rest <> [] ->
  keyed K (n ++ rest) -> K n /\ exists b t, rest = b :: t /\ re_space b = true.
Proof.
  intros K n rest HK Hn Hnc Hr Hr0 [w [k [b [t [E [Hw [Hk Hb]]]]]]].
  destruct (HK k Hk) as [Hkc Hk0].
  assert (Ew : w = []).
  { destruct w as [|c w]; [reflexivity|]. destruct n as [|x n]; [congruence|]. cbn in E. inversion E; subst.
    cbn [forallb] in Hnc. apply andb_prop in Hnc. destruct Hnc as [Hc _].
    rewrite (space_not_name c) in Hc; [discriminate|]. apply Hw. now left. }
  subst w. cbn [app] in E. destruct rest as [|y rest]; [congruence|].
  destruct (app_cases _ _ _ _ _ _ _ E) as [[-> [-> ->]]|[[z [-> Ez]]|[z [-> Ez]]]].
  - split; [exact Hk|]. exists b, t. auto.
  - exfalso. rewrite forallb_app in Hkc. cbn [forallb] in Hkc. rewrite (Hr y rest eq_refl) in Hkc.
    rewrite andb_false_r in Hkc. discriminate.
  - exfalso. rewrite forallb_app in Hnc. cbn [forallb] in Hnc. rewrite (space_not_name b Hb) in Hnc.
    rewrite andb_false_r in Hnc. discriminate.
Qed.

(** A character that cannot be part of a function header comes first. *)
Lemma no_parens : forall p c q, ~ In 40%N p -> func_c c = false -> c <> 40%N -> ~ parens (p ++ c :: q).
Proof.
  intros p c q Hp Hc Hc2 [u [t [E Hu]]]. cbn [app] in E.
  destruct (app_cases _ _ _ _ _ _ _ E) as [[_ [E2 _]]|[[z [-> _]]|[z [-> _]]]].
  - congruence.
  - rewrite forallb_app in Hu. cbn [forallb] in Hu. rewrite Hc, andb_false_r in Hu. discriminate.
  - apply Hp. apply in_mid.
Qed.
Lemma no_parens_all : forall s, ~ In 40%N s -> ~ parens s.
Proof. intros s Hs [u [t [-> _]]]. apply Hs. apply in_mid. Qed.

Lemma no_hashed : forall c t, re_space c = false -> c <> 35%N -> ~ hashed (c :: t).
Proof.
  intros c t Hc Hc2 [w [t2 [E Hw]]]. destruct w as [|x w]; cbn in E; inversion E; subst; [congruence|].
  rewrite Hw in Hc; [discriminate|now left].
Qed.

Lemma no_bracketed : forall w n c t, blank w -> forallb name_c n = true -> n <> [] -> name_c c = false -> c <> 91%N ->
  ~ bracketed (w ++ n ++ c :: t).
Proof.
  intros w n c t Hw Hn Hn0 Hc Hc2 [w2 [n2 [t2 [E [Hw2 [Hn2 Hn20]]]]]].
  assert (E0 : w = w2).
  { destruct n as [|x n]; [congruence|]. destruct n2 as [|x2 n2]; [congruence|]. cbn [app forallb] in *.
    apply andb_prop in Hn. apply andb_prop in Hn2. destruct Hn as [Hx _]. destruct Hn2 as [Hx2 _].
    destruct (app_cases _ _ _ _ _ _ _ E) as [[-> _]|[[z [-> _]]|[z [-> _]]]]; [reflexivity| |].
    - rewrite (space_not_name x) in Hx; [discriminate|]. apply Hw2. apply in_mid.
    - rewrite (space_not_name x2) in Hx2; [discriminate|]. apply Hw. apply in_mid. }
  subst w2. apply app_inv_head in E. cbn [app] in E.
  destruct (app_cases _ _ _ _ _ _ _ E) as [[_ [E2 _]]|[[z [-> _]]|[z [-> _]]]].
  - congruence.
  - rewrite forallb_app in Hn2. cbn [forallb] in Hn2. rewrite Hc, andb_false_r in Hn2. discriminate.
  - rewrite forallb_app in Hn. cbn [forallb] in Hn. change (name_c 91) with false in Hn. rewrite andb_false_r in Hn. discriminate.
Qed.

(** ** Skipping patterns *)

Lemma outcome_skip : forall k r l cnt raw new o, re_match r cnt = None ->
  outcome ((k, r) :: l) cnt raw new o -> outcome l cnt raw new o.
Proof. intros k r l cnt raw new o H Ho. cbn [outcome] in Ho. now rewrite H in Ho. Qed.
Lemma outcome_hit : forall k r l cnt raw new o mt, re_match r cnt = Some mt -> ~ falls k mt ->
  outcome ((k, r) :: l) cnt raw new o -> made_of k mt raw new o.
Proof. intros k r l cnt raw new o mt H Hf Ho. cbn [outcome] in Ho. rewrite H in Ho. tauto. Qed.
Lemma not_matched : forall r cnt (S : Prop), (forall x, re_match r cnt = Some x -> S) -> ~ S -> re_match r cnt = None.
Proof. intros r cnt S H Hn. destruct (re_match r cnt) as [x|]; [|reflexivity]. exfalso. apply Hn. now apply (H x). Qed.

(** Everything a text must not be to reach the patterns of assignments. *)
Definition any_key (k : str) : Prop := In k (tl statement_words) \/ is_inherit k.
Lemma keyed_weaken : forall (K K2 : str -> Prop) s, (forall k, K k -> K2 k) -> keyed K s -> keyed K2 s.
Proof. intros K K2 s H [w [k [b [t [E [Hw [Hk Hb]]]]]]]. exists w, k, b, t. auto. Qed.

Ltac skip_key L Ho := match type of Ho with outcome _ ?cnt _ _ _ => apply outcome_skip in Ho;
  [|apply (not_matched _ cnt (keyed any_key cnt)); [|assumption]; intros x Hx; apply L in Hx; revert Hx;
    apply keyed_weaken; intros k Hk; first [right; exact Hk | left; subst; cbn [statement_words tl In]; now auto 20
      | left; destruct Hk; subst; cbn [statement_words tl In]; now auto 20]] end.
Ltac skip L Ho := apply outcome_skip in Ho; [|eapply not_matched; [intros x Hx; apply L in Hx; exact Hx|assumption]].

Lemma reach_unset : forall cnt raw new o, ~ hashed cnt -> ~ parens cnt -> ~ keyed any_key cnt -> ~ operated "INHERIT" cnt ->
  outcome order cnt raw new o -> outcome (skipn 12 order) cnt raw new o.
Proof.
  intros cnt raw new o H1 H2 H3 H4 Ho. unfold order in *. cbn [skipn].
  skip shape_comments Ho. skip shape_func Ho. skip_key shape_inherit Ho. skip shape_inherit_glob Ho.
  skip_key shape_export_wval Ho. skip_key shape_export_woval Ho. skip_key shape_python Ho.
  skip_key shape_include Ho. skip_key shape_includeall Ho. skip_key shape_addtask Ho. skip_key shape_deltask Ho.
  skip_key shape_unset Ho. exact Ho.
Qed.

Lemma reach_var : forall cnt raw new o, ~ hashed cnt -> ~ parens cnt -> ~ keyed any_key cnt -> ~ operated "INHERIT" cnt ->
  ~ bracketed cnt ->
  outcome order cnt raw new o -> outcome [(KVars, re_var)] cnt raw new o.
Proof.
  intros cnt raw new o H1 H2 H3 H4 H5 Ho. apply reach_unset in Ho; [|assumption..]. unfold order in Ho. cbn [skipn] in Ho.
  skip shape_flagass Ho. skip_key shape_export_func Ho. skip_key shape_addpylib Ho. skip_key shape_addfragments Ho. exact Ho.
Qed.

Lemma any_key_K : forall k, any_key k -> forallb K_c k = true /\ k <> [].
Proof.
  intros k [H|[n ->]].
  - cbn [statement_words tl In] in H.
    repeat (destruct H as [<-|H]; [split; [reflexivity|discriminate]|]). destruct H.
  - split; [|discriminate]. rewrite forallb_app. rewrite andb_true_iff. split; [reflexivity|].
    induction n as [|n IH]; [reflexivity|]. cbn [repeat concat]. rewrite forallb_app, IH. reflexivity.
Qed.

(** ** C09 *)

Lemma filter_app_inv : forall A (f : A -> bool) l a x b, filter f l = a ++ x :: b ->
  exists l1 l2, l = l1 ++ x :: l2 /\ filter f l1 = a.
Proof.
  intros A f l. induction l as [|y l IH]; intros a x b H; cbn in H.
  - destruct a; discriminate.
  - destruct (f y) eqn:Ef.
    + destruct a as [|z a]; cbn in H; inversion H; subst.
      * exists [], l. auto.
      * destruct (IH a x b H2) as [l1 [l2 [-> E]]]. exists (z :: l1), l2. cbn. rewrite Ef, E. auto.
    + destruct (IH a x b H) as [l1 [l2 [-> E]]]. exists (y :: l1), l2. cbn. rewrite Ef, E. auto.
Qed.

Lemma comment_one_line : forall i, comment_text (it_raw i) <-> hashed (one_line i).
Proof.
  intro i. unfold one_line. set (g := fun c => if N.eqb c cBSL then cESC else c). split.
  - intros [w [t [E Hw]]]. rewrite E. cbn [app]. rewrite filter_app, map_app. cbn [filter].
    change (negb (N.eqb 35 cNL)) with true. cbn [map]. change (g 35%N) with 35%N.
    exists (map g (filter (fun c => negb (N.eqb c cNL)) w)), (map g (filter (fun c => negb (N.eqb c cNL)) t)).
    split; [reflexivity|]. intros c Hc. apply in_map_iff in Hc. destruct Hc as [x [<- Hx]].
    apply filter_In in Hx. destruct Hx as [Hx _]. apply Hw in Hx. unfold g.
    destruct (N.eqb_spec x cBSL) as [->|]; [discriminate|exact Hx].
  - intros [w [t [E Hw]]]. cbn [app] in E.
    assert (X : exists l1 y l2, filter (fun c => negb (N.eqb c cNL)) (it_raw i) = l1 ++ y :: l2 /\ map g l1 = w /\ g y = 35%N).
    { revert E. generalize (filter (fun c => negb (N.eqb c cNL)) (it_raw i)). clear Hw. intro l. revert w.
      induction l as [|z l IH]; intros w E; [destruct w; discriminate|]. destruct w as [|x w]; cbn in E; inversion E.
      - exists [], z, l. auto.
      - destruct (IH w H1) as [l1 [y [l2 [-> [E1 E2]]]]]. exists (z :: l1), y, l2. cbn. rewrite E1. auto. }
    destruct X as [l1 [y [l2 [E1 [E2 E3]]]]]. unfold g in E3. destruct (N.eqb y cBSL); [discriminate|]. subst y.
    apply filter_app_inv in E1. destruct E1 as [a [b [Ea Ef]]]. exists a, b. split; [exact Ea|].
    intros c Hc. destruct (N.eqb_spec c cNL) as [->|Hn]; [reflexivity|].
    assert (Hin : In (g c) w).
    { rewrite <- E2, <- Ef. apply in_map. apply filter_In. split; [exact Hc|]. now apply Bool.negb_true_iff, N.eqb_neq. }
    apply Hw in Hin. unfold g in Hin. destruct (N.eqb c cBSL); [discriminate|exact Hin].
Qed.

Lemma match_comments : forall s, hashed s -> exists mt, re_match re_comments s = Some mt.
Proof.
  intros s [w [t [-> Hw]]].
  assert (M : matched (match_at re_comments true (w ++ "#" ++ t)) = true).
  { apply matched_iff. unfold re_comments. cbn [RCat].
    assert (S1 : exists s1, mt (RSeq (RPlus true (RC "#")) (RSeq sp_star (RGrp "body" dot_star))) (after true w ("#" ++ t) []) s1).
    { eexists. rewrite mt_seq_iff. eexists. split.
      - unfold RPlus. rewrite mt_seq_iff. eexists. split; [unfold RC; rewrite mt_chr_iff; exists 35%N, t; repeat split|].
        unfold RC. rewrite mt_star_chr_iff. exists [], t. repeat split.
      - rewrite mt_seq_iff. eexists. split; [unfold sp_star, RSp; rewrite mt_star_chr_iff; exists [], t; repeat split|].
        rewrite mt_grp_iff. eexists. split; [|reflexivity]. unfold dot_star, RDot. rewrite mt_star_chr_iff.
        exists [], t. repeat split. }
    destruct S1 as [s1 S1]. exists s1. rewrite mt_seq_iff. exists (MS true (w ++ "#" ++ t) []).
    split; [rewrite mt_bol_iff; auto|]. rewrite mt_seq_iff. exists (after true w ("#" ++ t) []). split; [|exact S1].
    clear S1. unfold sp_tab_star.
    revert Hw. generalize true at 2 3 as b. induction w as [|c w IH]; intros b Hw.
    - apply mt_star0.
    - apply (mt_star1 _ _ _ (MS false (w ++ "#" ++ t) [])).
      + apply mt_altl. apply (mt_chr re_space (MS b ((c :: w) ++ "#" ++ t) []) c (w ++ "#" ++ t)); [reflexivity|].
        apply Hw. now left.
      + cbn. rewrite app_length. lia.
      + specialize (IH false). unfold after in *. destruct w; apply IH; intros x Hx; apply Hw; now right. }
  unfold re_match. destruct (match_at re_comments true (w ++ "#" ++ t)) as [x|]; [|discriminate]. now exists x.
Qed.

Lemma not_comment_later : forall l cnt raw new o, (forall k r, In (k, r) l -> k <> KComment) ->
  outcome l cnt raw new o -> snd o <> PComment.
Proof.
  induction l as [|[k r] l IH]; intros cnt raw new o Hl Ho; cbn [outcome] in Ho.
  - subst o. discriminate.
  - assert (Hk : k <> KComment) by (apply (Hl k r); now left).
    assert (Hl2 : forall k r, In (k, r) l -> k <> KComment) by (intros k0 r0 H0; apply (Hl k0 r0); now right).
    destruct (re_match r cnt) as [mt|]; [|now apply (IH _ _ _ _ Hl2 Ho)].
    destruct Ho as [Ho|[_ Ho]]; [|now apply (IH _ _ _ _ Hl2 Ho)].
    destruct k; cbn [made_of] in Ho; try congruence;
      repeat match goal with
             | H : _ /\ _ |- _ => destruct H
             | H : exists _, _ |- _ => destruct H
             | H : context [extract_sub ?a ?b] |- _ => destruct (extract_sub a b) as [[? ?] ?]
             | H : context [extract_sub_func ?a ?b ?c] |- _ => destruct (extract_sub_func a b c) as [[? ?] ?]
             end; subst o; discriminate.
Qed.

Lemma C09_lemma : forall e i, parsed_item e i -> (it_pay i = PComment <-> comment_text (it_raw i)).
Proof.
  intros e i Hi. apply parsed_classified in Hi. destruct Hi as [new Ho]. rewrite comment_one_line. split.
  - intro E. destruct (re_match re_comments (one_line i)) as [mt|] eqn:Em; [now apply shape_comments in Em|].
    exfalso. unfold order in Ho. apply outcome_skip in Ho; [|exact Em].
    apply not_comment_later in Ho; [now apply Ho|]. intros k r Hin. cbn [In] in Hin. intro Ek. subst k.
    repeat (destruct Hin as [Hin|Hin]; [discriminate|]). destruct Hin.
  - intro Hh. apply match_comments in Hh. destruct Hh as [mt Em]. unfold order in Ho.
    apply (outcome_hit KComment _ _ _ _ _ _ mt Em) in Ho; [|intros [H|[H _]]; discriminate].
    cbn in Ho. now inversion Ho.
Qed.

(** ** C10 *)

Lemma ops_not_eq : ops_c 61 = false.
Proof. reflexivity. Qed.

Lemma core_split : forall core, In core operators -> exists pre post,
  core = pre ++ "=" ++ post /\ forallb ops_c pre = true /\ forallb post_c post = true.
Proof.
  intros core H. unfold operators in H. cbn [In] in H.
  repeat (destruct H as [<-|H]).
  - exists [], []. auto.
  - exists ":", []. auto.
  - exists "?", []. auto.
  - exists "??", []. auto.
  - exists "+", []. auto.
  - exists [], "+". auto.
  - exists ".", []. auto.
  - exists [], ".". auto.
  - destruct H.
Qed.

Lemma op_value_first : forall op value w1 b g, op_value op value w1 -> exists pre t2,
  first varop_n (MS b (op ++ value) g) (MS false value (("varop", op) :: g)) /\
  op ++ value = w1 ++ pre ++ "=" ++ t2 /\ blank w1 /\ forallb ops_c pre = true.
Proof.
  intros op value w1 b g [core [w2 [-> [Hw1 [Hw2 [Hc [Hv Hp]]]]]]].
  destruct (core_split core Hc) as [pre [post [-> [H1 H2]]]]. exists pre, (post ++ w2 ++ value). split.
  - replace (w1 ++ (pre ++ "=" ++ post) ++ w2) with (w1 ++ pre ++ "=" ++ post ++ w2) by (now rewrite <- !app_assoc).
    apply (first_varop b w1 pre post w2 value g); auto.
    intros E c t Ec. subst value. destruct (post_c c) eqn:Es; [|reflexivity]. exfalso.
    unfold post_c, oneof, in_chars in Es. simpl in Es. rewrite orb_false_r in Es.
    destruct (Hp E t) as [P1 P2].
    apply orb_prop in Es. destruct Es as [Es|Es]; apply N.eqb_eq in Es; subst c; [now apply P1|now apply P2].
  - split; [|auto]. rewrite <- !app_assoc. reflexivity.
Qed.

Lemma ops_cases : forall c, ops_c c = true -> In c ("+?:." : str).
Proof.
  intros c H. unfold ops_c, oneof, in_chars in H. rewrite existsb_exists in H. destruct H as [x [Hx E]].
  apply N.eqb_eq in E. now subst x.
Qed.

(** Two ways to find the operator: the text in front of the first equals sign. *)
Lemma front_eq : forall a b (x y : str), ~ In 61%N a -> ~ In 61%N b -> a ++ 61%N :: x = b ++ 61%N :: y -> a = b.
Proof.
  intros a b x y Ha Hb E. destruct (app_cases _ _ _ _ _ _ _ E) as [[-> _]|[[z [-> _]]|[z [-> _]]]]; [reflexivity| |].
  - exfalso. apply Hb. apply in_mid.
  - exfalso. apply Ha. apply in_mid.
Qed.
Lemma no_eq : forall (p : N -> bool) w, p 61%N = false -> forallb p w = true -> ~ In 61%N w.
Proof. intros p w Hp Hw Hin. rewrite forallb_forall in Hw. apply Hw in Hin. congruence. Qed.

(** A piece of a name in front of the operator cannot belong to it. *)
Lemma tail_fails : forall v w1 pre t, v <> [] -> forallb name_c v = true ->
  (w1 = [] -> forall n c, v = n ++ [c] -> ops_c c = false) -> blank w1 -> forallb ops_c pre = true ->
  forall w p2 t2, v ++ w1 ++ pre ++ "=" ++ t = w ++ p2 ++ "=" ++ t2 -> blank w -> forallb ops_c p2 = true -> False.
Proof.
  intros v w1 pre t Hv Hn Hl Hw1 Hpre w p2 t2 E Hw Hp2.
  assert (Ew : w = []).
  { destruct w as [|c w]; [reflexivity|]. destruct v as [|x v]; [congruence|]. cbn in E. inversion E; subst.
    cbn [forallb] in Hn. apply andb_prop in Hn. destruct Hn as [Hc _].
    rewrite (space_not_name c) in Hc; [discriminate|]. apply Hw. now left. }
  subst w. cbn [app] in E. rewrite !app_assoc in E. rewrite <- (app_assoc v w1 pre) in E.
  apply front_eq in E.
  - assert (Hall : forallb ops_c (v ++ w1 ++ pre) = true) by now rewrite E.
    rewrite !forallb_app in Hall. apply andb_prop in Hall. destruct Hall as [Hov Hall].
    apply andb_prop in Hall. destruct Hall as [Hw1o _].
    assert (E1 : w1 = []).
    { destruct w1 as [|c w1]; [reflexivity|]. cbn [forallb] in Hw1o. apply andb_prop in Hw1o. destruct Hw1o as [Hc _].
      rewrite (space_not_ops c) in Hc; [discriminate|]. apply Hw1. now left. }
    destruct (exists_last Hv) as [n [c Ev]]. specialize (Hl E1 n c Ev). subst v.
    rewrite forallb_app in Hov. cbn [forallb] in Hov. rewrite Hl, andb_false_r in Hov. discriminate.
  - intro Hin. apply in_app_iff in Hin. destruct Hin as [Hin|Hin].
    + revert Hin. now apply (no_eq name_c).
    + apply in_app_iff in Hin. destruct Hin as [Hin|Hin].
      * apply Hw1 in Hin. discriminate.
      * revert Hin. now apply (no_eq ops_c).
  - now apply (no_eq ops_c).
Qed.

Lemma name_last : forall name w1, (w1 = ([] : str) -> forall n, name <> n ++ "." /\ name <> n ++ ":") ->
  forallb name_c name = true -> w1 = [] -> forall n c, name = n ++ [c] -> ops_c c = false.
Proof.
  intros name w1 H Hn E n c En. destruct (ops_c c) eqn:Eo; [|reflexivity]. exfalso.
  destruct (H E n) as [H1 H2]. apply ops_cases in Eo. cbn [In] in Eo.
  destruct Eo as [<-|[<-|[<-|[<-|[]]]]]; subst name; try (now apply H1); try (now apply H2);
  rewrite forallb_app in Hn; cbn [forallb] in Hn; rewrite andb_false_r in Hn || (apply andb_prop in Hn; destruct Hn as [_ Hn]); discriminate.
Qed.

Definition re_var_n : re :=
  RSeq RBol (RSeq (RGrp "varname" (RPlus false (RChr name_c))) (RSeq varop_n (RGrp "varval" dot_star))).
Lemma req_var : req re_var re_var_n.
Proof.
  unfold re_var, re_var_n. cbn [RCat]. apply req_seq; [apply req_refl|].
  apply req_seq; [apply req_grp; apply req_plus; apply req_name|]. apply req_seq; [apply req_varop|apply req_refl].
Qed.

Lemma match_var : forall name op value w1, forallb name_c name = true -> name <> [] ->
  op_value op value w1 -> (w1 = [] -> forall n c, name = n ++ [c] -> ops_c c = false) -> oneline value ->
  exists mt, re_match re_var (name ++ op ++ value) = Some mt /\ group_str "varname" mt = name /\
             group_str "varop" mt = op /\ group_str "varval" mt = value.
Proof.
  intros name op value w1 Hn Hn0 Hop Hl Hv.
  destruct (op_value_first op value w1 false (("varname", name) :: []) Hop) as [pre [t2 [Hf [Eop [Hw1 Hpre]]]]].
  assert (F : first re_var (MS true (name ++ op ++ value) [])
               (MS (match value with [] => false | _ => false end) [] [("varval", value); ("varop", op); ("varname", name)])).
  { apply (first_req _ _ _ _ req_var). unfold re_var_n. eapply first_seq; [apply first_bol|].
    apply first_lazy_grp; [exact Hn|exact Hn0| |].
    - eapply first_seq; [exact Hf|].
      assert (G : first (RGrp "varval" dot_star) (MS false (value ++ []) [("varop", op); ("varname", name)])
                  (MS (match value with [] => false | _ => false end) [] [("varval", value); ("varop", op); ("varname", name)])).
      { apply first_grp_app. rewrite app_nil_r. exact (first_dots value false [("varop", op); ("varname", name)] Hv). }
      rewrite app_nil_r in G. exact G.
    - intros u v E Hu Hv0. apply fails_mt. intros s' H. rewrite mt_seq_iff in H. destruct H as [s1 [H _]].
      assert (H2 : exists s2, mt varop_re (MS false (v ++ op ++ value) [("varname", u)]) s2).
      { eapply req_mt; [|exact H]. apply req_sym. apply req_varop. }
      destruct H2 as [s2 H2]. apply mt_varop in H2. destruct H2 as [w [p2 [t3 [E2 [Hw Hp2]]]]]. cbn [m_rest] in E2.
      rewrite Eop in E2.
      apply (tail_fails v w1 pre t2 Hv0) with (w := w) (p2 := p2) (t2 := t3); auto.
      + rewrite E, forallb_app in Hn. now apply andb_prop in Hn.
      + intros E1 n c En. apply (Hl E1 (u ++ n) c). rewrite E, En. now rewrite app_assoc. }
  apply first_match in F. eexists. split; [exact F|]. unfold group_str, group. cbn. auto.
Qed.

Lemma one_line_dots : forall i c, In c (one_line i) -> dotp c = true.
Proof.
  intros i c H. unfold one_line in H. apply in_map_iff in H. destruct H as [x [<- Hx]].
  apply filter_In in Hx. destruct Hx as [_ Hx]. unfold dotp. destruct (N.eqb x cBSL); [reflexivity|exact Hx].
Qed.

Lemma func_not_eq : func_c 61 = false.
Proof. reflexivity. Qed.

Lemma any_key_word : forall k, any_key k -> statement_word k.
Proof. intros k [H|H]; [left; now right|right; exact H]. Qed.

Lemma C10_lemma : forall e i name op value, parsed_item e i -> assignment name op value (one_line i) ->
  ~ statement_word name ->
  (exists vn sub subs, it_pay i = PVariable vn sub subs value op vn) /\
  exists p, it_pay i = it_pay (mk_variable p name value op) /\ it_new i = it_new (mk_variable p name value op).
Proof.
  intros e i name op value Hi [Et [Hn [w1 [Hop Hl]]]] Hkw. apply var_name_iff in Hn. destruct Hn as [Hn0 Hn].
  pose proof (one_line_dots i) as Hdots. rewrite Et in Hdots.
  assert (Hv : oneline value) by (intros c Hc; apply Hdots; apply in_app_iff; right; apply in_app_iff; now right).
  apply parsed_classified in Hi. destruct Hi as [new Ho]. rewrite Et in Ho.
  destruct (op_value_first op value w1 false [] Hop) as [pre [t2 [_ [Eop [Hw1 Hpre]]]]].
  pose proof (name_last name w1 Hl Hn) as Hlast.
  assert (Hrest : forall c t, op ++ value = c :: t -> K_c c = false).
  { intros c t E. rewrite Eop in E. destruct w1 as [|x w1].
    - destruct pre as [|x pre]; cbn in E; inversion E; subst; [reflexivity|].
      cbn [forallb] in Hpre. apply andb_prop in Hpre. destruct Hpre as [Hx _]. apply ops_cases in Hx. cbn [In] in Hx.
      destruct Hx as [<-|[<-|[<-|[<-|[]]]]]; reflexivity.
    - cbn in E. inversion E; subst. assert (Hs : re_space c = true) by (apply Hw1; now left).
      destruct (K_c c) eqn:Ek; [|reflexivity]. apply K_name in Ek. rewrite (space_not_name c Hs) in Ek. discriminate. }
  assert (Hr0 : op ++ value <> []).
  { rewrite Eop. intro E. apply app_eq_nil in E. destruct E as [_ E]. apply app_eq_nil in E. destruct E as [_ E]. discriminate. }
  apply reach_var in Ho.
  - destruct (match_var name op value w1 Hn Hn0 Hop Hlast Hv) as [mt [Em [G1 [G2 G3]]]].
    apply (outcome_hit KVars _ _ _ _ _ _ mt Em) in Ho; [|intros [H|[H _]]; discriminate].
    cbn [made_of] in Ho. rewrite G1, G2, G3 in Ho.
    destruct (extract_sub new name) as [[nw var] sub] eqn:Ex. injection Ho as Ho1 Ho2. split.
    + eexists _, _, _. exact Ho2.
    + exists (MkParam 0 0 0 [] [] [] [] new). unfold mk_variable. cbn [ip_new]. rewrite Ex. cbn.
      rewrite Ho2, Ho1. auto.
  - destruct name as [|c name]; [congruence|]. cbn [app]. cbn [forallb] in Hn. apply andb_prop in Hn. destruct Hn as [Hc _].
    apply no_hashed; [|intros ->; discriminate].
    destruct (re_space c) eqn:Es; [|reflexivity]. rewrite (space_not_name c Es) in Hc. discriminate.
  - rewrite Eop. replace (name ++ w1 ++ pre ++ "=" ++ t2) with (((name ++ w1) ++ pre) ++ 61%N :: t2)
      by (now rewrite <- !app_assoc). apply no_parens; [|reflexivity|discriminate].
    intro Hin. rewrite !in_app_iff in Hin. rewrite forallb_forall in Hn, Hpre.
    destruct Hin as [[Hin|Hin]|Hin].
    + apply Hn in Hin. discriminate.
    + apply Hw1 in Hin. discriminate.
    + apply Hpre in Hin. discriminate.
  - intro Hk. apply Hkw. apply any_key_word.
    now apply (keyed_name any_key name (op ++ value) any_key_K) in Hk.
  - intros [w [p2 [t3 [E [Hw Hp2]]]]]. rewrite Eop in E.
    (* the word INHERIT is a prefix of the name *)
    destruct name as [|c0 name0] eqn:En0; [congruence|]. rewrite <- En0 in *.
    assert (Hx : exists y s, w1 ++ pre ++ "=" ++ t2 = y :: s /\ K_c y = false).
    { rewrite <- Eop. destruct (op ++ value) as [|y s]; [congruence|]. exists y, s. split; [reflexivity|]. now apply (Hrest y s). }
    assert (Hx2 : exists y s, w ++ p2 ++ "=" ++ t3 = y :: s /\ K_c y = false).
    { destruct w as [|x w].
      - destruct p2 as [|x p2]; [exists 61%N, t3; auto|]. exists x, (p2 ++ "=" ++ t3). split; [reflexivity|].
        cbn [forallb] in Hp2. apply andb_prop in Hp2. destruct Hp2 as [Hp2 _]. apply ops_cases in Hp2. cbn [In] in Hp2.
        destruct Hp2 as [<-|[<-|[<-|[<-|[]]]]]; reflexivity.
      - exists x, (w ++ p2 ++ "=" ++ t3). split; [reflexivity|]. assert (Hs : re_space x = true) by (apply Hw; now left).
        destruct (K_c x) eqn:Ek; [|reflexivity]. apply K_name in Ek. rewrite (space_not_name x Hs) in Ek. discriminate. }
    destruct Hx as [y [s [Es Hy]]]. destruct Hx2 as [y2 [s2 [Es2 Hy2]]].
    assert (E' : name ++ y :: s = "INHERIT" ++ y2 :: s2) by (rewrite <- Es, <- Es2; exact E).
    destruct (app_cases _ _ _ _ _ _ _ E') as [[E1 _]|[[z [Ez _]]|[z [Ez Et2]]]].
    + apply Hkw. left. rewrite E1. now left.
    + assert (X : forallb K_c "INHERIT" = true) by reflexivity. rewrite Ez, forallb_app in X. cbn [forallb] in X.
      rewrite Hy, andb_false_r in X. discriminate.
    + (* name = INHERIT ++ y2 :: z *)
      rewrite Ez in E. rewrite <- app_assoc in E. apply app_inv_head in E.
      apply (tail_fails (y2 :: z) w1 pre t2) with (w := w) (p2 := p2) (t2 := t3); auto; [discriminate| |].
      * rewrite Ez, forallb_app in Hn. now apply andb_prop in Hn.
      * intros E1 n c En. apply (Hlast E1 ("INHERIT" ++ n) c). rewrite Ez, En. now rewrite app_assoc.
  - rewrite Eop. destruct (w1 ++ pre ++ "=" ++ t2) as [|y s] eqn:Ey.
    { apply app_eq_nil in Ey. destruct Ey as [_ Ey]. apply app_eq_nil in Ey. destruct Ey as [_ Ey]. discriminate. }
    (* the bracket would have to come before the equals sign *)
    intros [w2 [n2 [t4 [E [Hw2 [Hn2 Hn20]]]]]].
    assert (E' : (name ++ w1 ++ pre) ++ 61%N :: t2 = (w2 ++ n2) ++ 91%N :: t4).
    { rewrite <- !app_assoc. cbn [app] in E. rewrite <- E, <- Ey. reflexivity. }
    destruct (app_cases _ _ _ _ _ _ _ E') as [[_ [X _]]|[[z [X _]]|[z [X _]]]].
    + discriminate.
    + assert (I : In 61%N (w2 ++ n2)) by (rewrite X; apply in_mid). apply in_app_iff in I. destruct I as [I|I].
      * apply Hw2 in I. discriminate.
      * rewrite forallb_forall in Hn2. apply Hn2 in I. discriminate.
    + assert (I : In 91%N (name ++ w1 ++ pre)) by (rewrite X; apply in_mid).
      rewrite forallb_forall in Hn, Hpre. rewrite !in_app_iff in I. destruct I as [I|[I|I]].
      * apply Hn in I. discriminate.
      * apply Hw1 in I. discriminate.
      * apply Hpre in I. discriminate.
Qed.
