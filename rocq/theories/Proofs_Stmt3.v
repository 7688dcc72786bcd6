(** * Proofs about addtask, def, addfragments and unset *)

From Verif Require Import PyStr Regex UniTable Patterns PyPath Res Inline Const Item Lines Stash
  StrFacts ReFacts LinesFacts ParseFacts HistFacts ReachFacts Spec_Parse ClassFacts MatchFacts ShapeFacts Proofs_Parse
  ExpandFacts Proofs_Stmt StmtFacts Proofs_Stmt2.

(** ** addtask *)
Definition nh : N -> bool := fun c => negb (N.eqb c 35) && negb (N.eqb c cNL).
Definition tailc (c : str) : Prop := c = [] \/ exists t, c = "#" ++ t.

Lemma nh_hash : forall u, forallb nh u = true -> ~ In 35%N u.
Proof. intros u H I. rewrite forallb_forall in H. apply H in I. discriminate. Qed.

(** A marker word: its first letter occurs only once in it. *)
Definition marker (l : str) : Prop := exists h l', l = h :: l' /\ ~ In h l' /\ re_space h = false /\ ~ In 35%N l.

Lemma marker_before : marker "before".
Proof. exists 98%N, ("efore" : str). repeat split; try reflexivity; cbn; intuition discriminate. Qed.
Lemma marker_after : marker "after".
Proof. exists 97%N, ("fter" : str). repeat split; try reflexivity; cbn; intuition discriminate. Qed.

Lemma occurs_skip : forall h l' p x, ~ In h p -> occurs (h :: l') (p ++ x) -> occurs (h :: l') x.
Proof.
  intros h l' p x. induction p as [|c p IH]; intros Hp [a [b E]]; [now exists a, b|].
  cbn [app] in E. destruct a as [|y a].
  - injection E as -> _. exfalso. apply Hp. now left.
  - injection E as -> E. apply IH; [intro I; apply Hp; now right|]. now exists a, b.
Qed.
Lemma marker_skip : forall l w2 x, marker l -> blank w2 -> ~ occurs l x -> ~ occurs l (tl l ++ w2 ++ x).
Proof.
  intros l w2 x [h [l' [-> [Hh [Hs _]]]]] Hw Hx H. apply Hx. cbn [tl] in H.
  apply occurs_skip in H; [|exact Hh]. apply occurs_skip in H; [exact H|]. intro I. apply Hw in I. congruence.
Qed.

Lemma no_start : forall l x comment u v, marker l -> ~ occurs l x -> tailc comment -> x ++ comment = u ++ v ->
  forallb nh u = true -> startswith l v = false.
Proof.
  intros l x comment u v [h [l' [El [_ [_ Hl]]]]] Hx Hc E Hu. destruct (startswith l v) eqn:Es; [exfalso|reflexivity].
  apply startswith_spec in Es. destruct Es as [r ->]. apply Hx.
  destruct Hc as [->|[t ->]].
  - rewrite app_nil_r in E. now exists u, r.
  - assert (Hh : ~ In 35%N (u ++ l)) by (rewrite in_app_iff; intros [I|I]; [now apply (nh_hash u Hu)|contradiction]).
    change (x ++ 35%N :: t = u ++ l ++ r) in E.
    replace (u ++ l ++ r) with ((u ++ l) ++ r) in E by (now rewrite <- app_assoc). destruct r as [|y r].
    + rewrite app_nil_r in E. exfalso. apply Hh. rewrite <- E. apply in_mid.
    + destruct (app_cases _ _ _ _ _ _ _ E) as [[-> _]|[[z [X _]]|[z [-> _]]]].
      * exists u, []. now rewrite app_nil_r.
      * exfalso. apply Hh. rewrite X. apply in_mid.
      * exists u, (y :: z). now rewrite <- app_assoc.
Qed.

Lemma no_later : forall l w2 x comment u v, marker l -> blank w2 -> ~ occurs l x -> tailc comment ->
  l ++ w2 ++ x ++ comment = u ++ v -> u <> [] -> forallb nh u = true -> startswith l v = false.
Proof.
  intros l w2 x comment u v Hm Hw Hx Hc E Hu0 Hu. pose proof (marker_skip l w2 x Hm Hw Hx) as Hx'.
  pose proof Hm as [h [l' [El _]]]. subst l. cbn [tl] in Hx'. destruct u as [|y u]; [congruence|].
  cbn [app] in E. injection E as _ E. cbn [forallb] in Hu. apply andb_prop in Hu. destruct Hu as [_ Hu].
  apply (no_start (h :: l') (l' ++ w2 ++ x) comment u v Hm Hx' Hc); [|exact Hu]. now rewrite <- !app_assoc.
Qed.

Lemma first_look : forall r s s', first r s s' -> first (RLook true r) s s.
Proof. intros r s s' H A k x Hk. cbn [m]. now rewrite (H mstate (fun x => Some x) s' eq_refl). Qed.
Lemma fails_look : forall r s, fails r s -> fails (RLook true r) s.
Proof. intros r s H A k. cbn [m]. now rewrite H. Qed.

Definition clause_grp (n l : str) : re := RGrp n (RAlt (RSeq no_hash_nl (RLook true (RLit l))) no_hash_nl).

Lemma clause_cut : forall n l x w2 y comment g, marker l -> forallb nh x = true -> blank w2 -> ~ occurs l y -> tailc comment ->
  first (clause_grp n l) (MS false (x ++ l ++ w2 ++ y ++ comment) g) (MS false (l ++ w2 ++ y ++ comment) ((n, x) :: g)).
Proof.
  intros n l x w2 y comment g Hm Hx Hw Hy Hc. apply first_grp_app. apply first_altl. apply first_greedy.
  - exact Hx.
  - rewrite after_false. eapply first_look. apply first_lit.
  - intros u v E Hu Hn. apply fails_look. intros A k. apply m_lit_no. now apply (no_later l w2 y comment u v).
Qed.

Lemma clause_end : forall n l x comment g, marker l -> forallb nh x = true -> ~ occurs l x -> tailc comment ->
  first (clause_grp n l) (MS false (x ++ comment) g) (MS false comment ((n, x) :: g)).
Proof.
  intros n l x comment g Hm Hx Hox Hc. apply first_grp_app. apply first_altr.
  - intros A k. change (m no_hash_nl A (fun s' => m (RLook true (RLit l)) A k s') (MS false (x ++ comment) g) = None).
    apply star_class_fail. intros u v E Hu. rewrite after_false. cbn [m]. rewrite m_lit_no; [reflexivity|].
    now apply (no_start l x comment u v).
  - assert (X : first (RStar true (RChr nh)) (MS false (x ++ comment) g) (after false x comment g)).
    { apply first_star; [exact Hx|]. intros c r E. destruct Hc as [->|[t ->]]; [discriminate|]. inversion E; subst. reflexivity. }
    rewrite after_false in X. exact X.
Qed.

Definition clause_re : re :=
  RAlt (RSeq (RLit "before") (RSeq sp_star (clause_grp "before" "after")))
       (RSeq (RLit "after") (RSeq sp_star (clause_grp "after" "before"))).

Lemma clause_none : forall comment g, tailc comment -> first (RStar true clause_re) (MS false comment g) (MS false comment g).
Proof.
  intros comment g Hc. apply first_star_none. intros A k. unfold clause_re.
  change (match m (RLit "before") A (fun s' => m (RSeq sp_star (clause_grp "before" "after")) A k s') (MS false comment g) with
          | Some x => Some x
          | None => m (RLit "after") A (fun s' => m (RSeq sp_star (clause_grp "after" "before")) A k s') (MS false comment g)
          end = None).
  rewrite !m_lit_no; [reflexivity| |]; destruct Hc as [->|[t ->]]; reflexivity.
Qed.

Lemma stops_sp : forall x t, not_indented x -> stops re_space t -> stops re_space (x ++ t).
Proof. intros x t Hx Ht c r E. destruct x as [|y x]; [now apply (Ht c r)|]. inversion E; subst. now apply (Hx c x). Qed.
Lemma tailc_sp : forall c, tailc c -> stops re_space c.
Proof. intros c [->|[t ->]] y r E; [discriminate|]. inversion E; subst. reflexivity. Qed.

(** One clause taken. *)
Lemma step_before : forall w t x t' g s2, blank w -> stops re_space t -> length t' <= length t ->
  first (clause_grp "before" "after") (MS false t g) (MS false t' (("before", x) :: g)) ->
  first (RStar true clause_re) (MS false t' (("before", x) :: g)) s2 ->
  first (RStar true clause_re) (MS false ("before" ++ w ++ t) g) s2.
Proof.
  intros w t x t' g s2 Hw Ht Hl Hg Hs. eapply first_star_step; [|  |exact Hs].
  - apply first_altl. eapply first_seq; [apply first_lit|]. rewrite after_false. eapply first_seq; [now apply first_sp_star|exact Hg].
  - cbn [m_rest]. rewrite !app_length. cbn [length]. lia.
Qed.
Lemma step_after : forall w t x t' g s2, blank w -> stops re_space t -> length t' <= length t ->
  first (clause_grp "after" "before") (MS false t g) (MS false t' (("after", x) :: g)) ->
  first (RStar true clause_re) (MS false t' (("after", x) :: g)) s2 ->
  first (RStar true clause_re) (MS false ("after" ++ w ++ t) g) s2.
Proof.
  intros w t x t' g s2 Hw Ht Hl Hg Hs. eapply first_star_step; [|  |exact Hs].
  - apply first_altr.
    + intros A k. change (m (RLit "before") A (fun s' => m (RSeq sp_star (clause_grp "before" "after")) A k s')
        (MS false ("after" ++ w ++ t) g) = None). apply m_lit_no. reflexivity.
    + eapply first_seq; [apply first_lit|]. rewrite after_false. eapply first_seq; [now apply first_sp_star|exact Hg].
  - cbn [m_rest]. rewrite !app_length. cbn [length]. lia.
Qed.

Lemma oneline_nh : forall x, oneline x -> no_hash x -> forallb nh x = true.
Proof.
  intros x Hd Hh. apply forallb_forall. intros c Hc. unfold nh. pose proof (Hd c Hc) as H. unfold dotp in H. rewrite H, andb_true_r.
  destruct (N.eqb_spec c 35) as [->|]; [contradiction|reflexivity].
Qed.

Lemma first_clauses : forall cl before after comment g, clauses cl before after -> tailc comment ->
  forallb nh before = true -> forallb nh after = true ->
  exists g', first (RStar true clause_re) (MS false (cl ++ comment) g) (MS false comment (g' ++ g)) /\
    (g' = [] /\ before = [] /\ after = [] \/ g' = [("before", before)] /\ after = [] \/ g' = [("after", after)] /\ before = []
     \/ g' = [("after", after); ("before", before)] \/ g' = [("before", before); ("after", after)]).
Proof.
  intros cl before after comment g H Hc Hb Ha.
  destruct H as [[-> [-> ->]]|[[w [-> [Hw [Hi [-> Ho]]]]]|[[w [-> [Hw [Hi [-> Ho]]]]]|[[w [w2 [-> [Hw [Hw2 [Hib [Hia [Ho1 Ho2]]]]]]]]|
    [w [w2 [-> [Hw [Hw2 [Hib [Hia [Ho1 Ho2]]]]]]]]]]]].
  - exists []. split; [now apply clause_none|]. left. auto.
  - exists [("before", before)]. split; [|auto]. rewrite <- !app_assoc.
    eapply (step_before w (before ++ comment)); [exact Hw|apply stops_sp; [exact Hi|now apply tailc_sp]| | |now apply clause_none].
    + rewrite !app_length. lia.
    + apply clause_end; auto. apply marker_after.
  - exists [("after", after)]. split; [|auto]. rewrite <- !app_assoc.
    eapply (step_after w (after ++ comment)); [exact Hw|apply stops_sp; [exact Hi|now apply tailc_sp]| | |now apply clause_none].
    + rewrite !app_length. lia.
    + apply clause_end; auto. apply marker_before.
  - exists [("after", after); ("before", before)]. split; [|auto 10]. rewrite <- !app_assoc.
    eapply (step_before w (before ++ "after" ++ w2 ++ after ++ comment) before ("after" ++ w2 ++ after ++ comment)).
    + exact Hw.
    + apply stops_sp; [exact Hib|]. intros c r E. inversion E; subst. reflexivity.
    + rewrite !app_length. lia.
    + apply clause_cut; auto. apply marker_after.
    + eapply (step_after w2 (after ++ comment)); [exact Hw2|apply stops_sp; [exact Hia|now apply tailc_sp]| | |now apply clause_none].
      * rewrite !app_length. lia.
      * apply clause_end; auto. apply marker_before.
  - exists [("before", before); ("after", after)]. split; [|auto 10]. rewrite <- !app_assoc.
    eapply (step_after w (after ++ "before" ++ w2 ++ before ++ comment) after ("before" ++ w2 ++ before ++ comment)).
    + exact Hw.
    + apply stops_sp; [exact Hia|]. intros c r E. inversion E; subst. reflexivity.
    + rewrite !app_length. lia.
    + apply clause_cut; auto. apply marker_before.
    + eapply (step_before w2 (before ++ comment)); [exact Hw2|apply stops_sp; [exact Hib|now apply tailc_sp]| | |now apply clause_none].
      * rewrite !app_length. lia.
      * apply clause_end; auto. apply marker_after.
Qed.

Definition comment_re : re := RGrp "comment" (RAlt (RSeq (RC "#") dot_star) dot_star_lazy).
Lemma first_comment : forall comment g, tailc comment -> oneline comment ->
  first comment_re (MS false comment g) (MS false [] (("comment", comment) :: g)).
Proof.
  intros comment g Hc Hd. rewrite <- (app_nil_r comment) at 1. apply first_grp_app. rewrite app_nil_r.
  destruct Hc as [->|[t ->]].
  - apply first_altr; [intros A k; reflexivity|]. intros A k x Hk. exact Hk.
  - apply first_altl. cbn [app]. eapply first_seq; [apply first_chr; reflexivity|].
    assert (Ht : oneline t) by (intros c Hin; apply Hd; now right).
    pose proof (first_dots t false g Ht) as X. rewrite after_false in X. exact X.
Qed.

Lemma clauses_in : forall cl before after c, clauses cl before after -> In c before \/ In c after -> In c cl.
Proof.
  intros cl before after c H I.
  destruct H as [[-> [-> ->]]|[[w [-> [Hw [Hi [-> Ho]]]]]|[[w [-> [Hw [Hi [-> Ho]]]]]|[[w [w2 [-> _]]]|[w [w2 [-> _]]]]]]].
  - destruct I as [[]|[]].
  - destruct I as [I|[]]. rewrite !in_app_iff. auto.
  - destruct I as [[]|I]. rewrite !in_app_iff. auto.
  - rewrite !in_app_iff. tauto.
  - rewrite !in_app_iff. tauto.
Qed.

Lemma clauses_sp : forall cl before after comment, clauses cl before after -> tailc comment -> stops re_space (cl ++ comment).
Proof.
  intros cl before after comment H Hc.
  destruct H as [[-> _]|[[w [-> _]]|[[w [-> _]]|[[w [w2 [-> _]]]|[w [w2 [-> _]]]]]]]; [now apply tailc_sp|..];
    intros c r E; inversion E; subst; reflexivity.
Qed.

Lemma match_addtask : forall w b name t before after comment, blank w -> blanks b -> task_name name ->
  task_tail t before after comment -> oneline t ->
  exists mt, re_match re_addtask (w ++ "addtask" ++ b ++ name ++ t) = Some mt /\
    group_str "func" mt = name /\ group_str "before" mt = before /\ group_str "after" mt = after /\ group_str "comment" mt = comment.
Proof.
  intros w b name t before after comment Hw Hb Hn [w0 [cl [-> [Hw0 [Hw0n [Hcl [Hc [Hhb Hha]]]]]]]] Hd.
  apply task_name_c in Hn. destruct Hn as [Hn0 Hn].
  assert (Hdb : forallb nh before = true).
  { apply oneline_nh; [|exact Hhb]. intros c I. apply Hd. rewrite !in_app_iff. right. left. apply (clauses_in _ _ _ c Hcl). now left. }
  assert (Hda : forallb nh after = true).
  { apply oneline_nh; [|exact Hha]. intros c I. apply Hd. rewrite !in_app_iff. right. left. apply (clauses_in _ _ _ c Hcl). now right. }
  destruct (first_clauses cl before after comment [("func", name)] Hcl Hc Hdb Hda) as [g' [Fc Hg]].
  assert (F : first re_addtask (MS true (w ++ "addtask" ++ b ++ name ++ w0 ++ cl ++ comment) [])
                (MS false [] (("comment", comment) :: g' ++ [("func", name)]))).
  { unfold re_addtask. cbn [RCat]. apply lead_blanks0; [discriminate|intros c k E; inversion E; subst; reflexivity|exact Hw|].
    eapply first_seq.
    { apply first_sp_plus; [exact Hb|]. intros c r E. destruct name as [|x name]; [congruence|]. inversion E; subst.
      cbn [forallb] in Hn. apply andb_prop in Hn. destruct Hn as [Hx _].
      destruct (re_space c) eqn:Es; [|reflexivity]. rewrite (space_not_task c Es) in Hx. discriminate. }
    eapply first_seq.
    { apply first_grp_app. apply first_plus; [exact Hn|exact Hn0|]. intros c r E. destruct w0 as [|y w0].
      - destruct cl as [|y cl]; [|exfalso; now apply Hw0n]. destruct Hc as [->|[t ->]]; [discriminate|]. inversion E; subst. reflexivity.
      - inversion E; subst. apply space_not_task. apply Hw0. now left. }
    eapply first_seq.
    { apply first_sp_star; [exact Hw0|]. exact (clauses_sp _ _ _ _ Hcl Hc). }
    eapply first_seq; [exact Fc|]. apply first_comment; [exact Hc|]. intros c I. apply Hd. rewrite !in_app_iff. auto. }
  apply first_match in F. eexists. split; [exact F|]. unfold group_str, group. cbn [g_all m_grp].
  destruct Hg as [[-> [-> ->]]|[[-> ->]|[[-> ->]|[->| ->]]]]; cbn; auto.
Qed.

Lemma C12_addtask_lemma : forall e i name t before after comment bl al, parsed_item e i -> task_name name ->
  ~ package_script name -> task_tail t before after comment -> words bl before -> words al after ->
  statement "addtask" (name ++ t) (one_line i) -> it_pay i = PTaskAdd name bl al comment.
Proof.
  intros e i name t before after comment bl al Hi Hn Hpk Ht Hbl Hal Hs.
  destruct (reach_kw e i _ _ (firstn 9 order) (skipn 9 order) Hi Hs) as [w [b [new [Et [Hw [Hb [Ha [Hd Ho]]]]]]]];
    [discriminate|reflexivity|discriminate|reflexivity|reflexivity|reflexivity|kinds|].
  destruct (match_addtask w b name t before after comment Hw Hb Hn Ht) as [mt [Em [G1 [G2 [G3 G4]]]]].
  { intros c Hc. apply Hd. apply in_app_iff. now right. }
  change (skipn 9 order) with ((KAddtask, re_addtask) :: skipn 10 order) in Ho.
  apply (outcome_hit KAddtask _ _ _ _ _ _ mt Em) in Ho.
  - cbn [made_of] in Ho. rewrite G1, G2, G3, G4 in Ho. destruct Ho as [Ho _].
    apply words_split in Hbl. apply words_split in Hal. unfold keep_nonempty in Ho. rewrite Hbl, Hal in Ho. now injection Ho as _ Ho.
  - intros [H|[_ H]]; [discriminate|]. rewrite G1 in H. apply existsb_exists in H. destruct H as [p [Hp H]].
    apply startswith_spec in H. destruct H as [r H]. apply Hpk. exists p, r. split; [exact Hp|exact H].
Qed.

(** ** def *)
Lemma occurs_dec : forall x s, occurs x s \/ ~ occurs x s.
Proof.
  intros x s. destruct (contains x s) eqn:E.
  - left. apply contains_spec in E. destruct E as [a [b E]]. now exists a, b.
  - right. intros [a [b H]]. assert (X : contains x s = true) by (apply contains_spec; now exists a, b). congruence.
Qed.
Lemma last_occ : forall x s, x <> [] -> occurs x s -> exists a r, s = a ++ x ++ r /\
  forall u v, x ++ r = u ++ v -> u <> [] -> startswith x v = false.
Proof.
  intros x s Hx. induction s as [|c s IH]; intros [a [b E]].
  - destruct a; [|discriminate]. destruct x; [congruence|discriminate].
  - destruct (occurs_dec x s) as [H|H].
    + destruct (IH H) as [a' [r [-> Hr]]]. now exists (c :: a'), r.
    + destruct a as [|y a]; [|injection E as _ E; exfalso; apply H; now exists a, b].
      exists [], b. split; [exact E|]. intros u v E2 Hu. destruct (startswith x v) eqn:Es; [exfalso|reflexivity].
      apply startswith_spec in Es. destruct Es as [r ->]. cbn [app] in E. rewrite <- E in E2.
      destruct u as [|z u]; [congruence|]. injection E2 as _ E2. apply H. now exists u, r.
Qed.

Definition def_c : N -> bool := por low_c (por dig_c (oneof "_-")).
Lemma def_char_imp : forall c, def_char c -> def_c c = true.
Proof.
  intros c H. unfold def_c, por, low_c, dig_c, range. unfold def_char, digit, between in H. cbn [In] in H.
  rewrite !orb_true_iff, !andb_true_iff, !N.leb_le.
  destruct H as [H|[H|[H|[H|[]]]]]; subst; auto.
Qed.
Lemma space_not_def : forall c, re_space c = true -> def_c c = false.
Proof. intros c. apply space_not. vm_compute. reflexivity. Qed.

Lemma lit2 : forall a b r t g, (forall s2, first r (MS false t g) s2 ->
  first (RSeq (RChr (ch a)) (RSeq (RChr (ch b)) r)) (MS false (a :: b :: t) g) s2).
Proof.
  intros a b r t g s2 H. eapply first_seq; [apply first_chr; unfold ch; apply N.eqb_refl|].
  eapply first_seq; [apply first_chr; unfold ch; apply N.eqb_refl|exact H].
Qed.

Lemma C12_def_lemma : forall e i name w2 args rest, parsed_item e i -> def_name name -> blank w2 ->
  statement "def" (name ++ w2 ++ "(" ++ args ++ "):" ++ rest) (one_line i) -> it_pay i = PPythonBlock name.
Proof.
  intros e i name w2 args rest Hi [Hn0 Hn] Hw2 Hs.
  destruct (reach_kw e i _ _ (firstn 6 order) (skipn 6 order) Hi Hs) as [w [b [new [Et [Hw [Hb [Ha [Hd Ho]]]]]]]];
    [discriminate|reflexivity|discriminate|reflexivity|reflexivity|reflexivity|kinds|].
  change (skipn 6 order) with ((KPython, re_python) :: skipn 7 order) in Ho.
  assert (Hnc : forallb def_c name = true) by (apply forallb_forall; intros c Hc; apply def_char_imp; now apply Hn).
  assert (Hoc : occurs "):" (args ++ "):" ++ rest)) by (now exists args, rest).
  destruct (last_occ "):" _ ltac:(discriminate) Hoc) as [a [r [Ear Hlast]]].
  assert (F : first re_python (MS true (w ++ "def" ++ b ++ name ++ w2 ++ "(" ++ args ++ "):" ++ rest) [])
                (MS false r [("funcname", name)])).
  { unfold re_python. cbn [RCat]. apply lead_blanks0; [discriminate|intros c k E; inversion E; subst; reflexivity|exact Hw|].
    eapply first_seq; [now apply first_blanks1|].
    eapply first_seq.
    { apply first_grp_app. apply first_plus; [exact Hnc|exact Hn0|]. intros c t E. destruct w2 as [|y w2].
      - inversion E; subst. reflexivity.
      - inversion E; subst. apply space_not_def. apply Hw2. now left. }
    eapply first_seq.
    { apply first_altl. apply first_star; [now apply space_forallb|]. intros c t E. inversion E; subst. reflexivity. }
    rewrite after_false. eapply first_seq; [apply first_chr; reflexivity|].
    rewrite Ear. apply (first_greedy dotp a).
    - apply forallb_forall. intros c Hc. apply Hd. rewrite Ear, !in_app_iff. auto 10.
    - rewrite after_false. cbn [app]. eapply first_seq; apply first_chr; reflexivity.
    - intros u v E Hu _. apply fails_mt. intros s' H. rewrite mt_seq_iff in H. destruct H as [s1 [H1 H2]].
      unfold RC in H1, H2. rewrite mt_chr_iff in H1, H2. destruct H1 as [c1 [t1 [E1 [C1 ->]]]]. destruct H2 as [c2 [t2 [E2 [C2 _]]]].
      cbn [m_rest] in E1, E2. unfold oneof, in_chars in C1, C2. cbn [existsb] in C1, C2. rewrite orb_false_r in C1, C2.
      apply N.eqb_eq in C1, C2. subst. pose proof (Hlast u _ E Hu) as X. discriminate. }
  apply first_match in F. apply (outcome_hit KPython _ _ _ _ _ _ _ F) in Ho; [|intros [H|[H _]]; discriminate].
  cbn in Ho. now injection Ho as _ Ho.
Qed.

(** ** addfragments *)
Definition nsp (s : str) : nat := length (filter re_space s).
Lemma nsp_suffix : forall a b, suffix_of a b -> nsp a <= nsp b.
Proof. intros a b [x ->]. unfold nsp. rewrite filter_app, app_length. lia. Qed.
Lemma sp_plus_count : forall s s', mt sp_plus s s' -> nsp (m_rest s') + 1 <= nsp (m_rest s).
Proof.
  intros s s' H. unfold sp_plus, RPlus in H. rewrite mt_seq_iff in H. destruct H as [s1 [H1 H2]].
  unfold RSp in H1. rewrite mt_chr_iff in H1. destruct H1 as [c [t [E [Hc ->]]]].
  pose proof (nsp_suffix _ _ (proj1 (mt_grp_ok _ _ _ H2))) as X. cbn [m_rest] in X. rewrite E. unfold nsp in *. cbn [filter].
  rewrite Hc. cbn [length]. lia.
Qed.
Lemma nsp_none : forall s, (forall c, In c s -> re_space c = false) -> nsp s = 0.
Proof.
  induction s as [|c s IH]; intros H; [reflexivity|]. unfold nsp in *. cbn [filter]. rewrite (H c) by now left.
  apply IH. intros x Hx. apply H. now right.
Qed.

Lemma C12_addfragments_lemma : forall e i p c1 var c2 flagged, parsed_item e i -> p <> [] -> re_space c1 = true -> one_word var ->
  re_space c2 = true -> one_word flagged ->
  statement_at_start "addfragments" (p ++ [c1] ++ var ++ [c2] ++ flagged) (one_line i) ->
  it_pay i = PAddFragements p var flagged.
Proof.
  intros e i p c1 var c2 flagged Hi Hp0 Hc1 [Hv0 Hv] Hc2 [Hf0 Hf] [b0 [Et [Hb [Ha Hp]]]].
  assert (Hd : oneline (p ++ [c1] ++ var ++ [c2] ++ flagged)).
  { intros c Hc. apply (one_line_dots i). rewrite Et, in_app_iff. right. apply in_app_iff. now right. }
  apply parsed_classified in Hi. destruct Hi as [new Ho]. rewrite Et in Ho.
  assert (Hw : blank []) by (intros c []).
  apply (stmt_reach [] "addfragments" b0 _ Hw ltac:(discriminate) eq_refl Hb Ha Hp eq_refl eq_refl ltac:(discriminate)
          (firstn 15 order) (skipn 15 order) _ _ _ eq_refl) in Ho.
  - assert (Hdl : forall l, (forall c, In c l -> In c (p ++ [c1] ++ var ++ [c2] ++ flagged)) -> forallb dotp l = true).
    { intros l Hl. apply forallb_forall. intros c Hc. apply Hd. now apply Hl. }
    assert (F : first re_addfragments (MS true ("addfragments" ++ b0 ++ p ++ [c1] ++ var ++ [c2] ++ flagged) [])
                  (MS false [] [("flagged", flagged); ("variable", var); ("path", p)])).
    { unfold re_addfragments. cbn [RCat]. eapply first_seq; [apply first_lit|].
      rewrite after_ne by discriminate. eapply first_seq; [now apply first_sp_plus|].
      apply first_greedy_grp; [apply Hdl; intros c Hc; apply in_app_iff; now left|exact Hp0| |].
      - eapply first_seq.
        { apply first_sp_plus; [split; [discriminate|]; intros z [<-|[]]; exact Hc1|].
          intros z r E. destruct var as [|x var]; [congruence|]. inversion E; subst. apply Hv. now left. }
        apply first_greedy_grp; [apply Hdl; intros c Hc; rewrite !in_app_iff; auto|exact Hv0| |].
        + eapply first_seq.
          { apply first_sp_plus; [split; [discriminate|]; intros z [<-|[]]; exact Hc2|].
            intros z r E. destruct flagged as [|x fl]; [congruence|]. inversion E; subst. apply Hf. now left. }
          rewrite <- (app_nil_r flagged) at 1. apply first_grp_app. rewrite app_nil_r. apply first_dots1; [|exact Hf0].
          intros c Hc. apply Hd. rewrite !in_app_iff. auto 10.
        + intros u v E Hu _. destruct u as [|z u]; [congruence|]. cbn [app] in E. injection E as _ E.
          apply fails_mt. intros s' H. rewrite mt_seq_iff in H. destruct H as [s1 [H _]]. apply sp_plus_count in H. cbn [m_rest] in H.
          pose proof (nsp_suffix v flagged (ex_intro _ u E)) as X. rewrite (nsp_none flagged Hf) in X. lia.
      - intros u v E Hu _. destruct u as [|z u]; [congruence|]. cbn [app] in E. injection E as _ E.
        apply fails_mt. intros s' H. rewrite mt_seq_iff in H. destruct H as [s1 [H1 H]]. rewrite mt_seq_iff in H. destruct H as [s2 [H2 H]].
        rewrite mt_seq_iff in H. destruct H as [s3 [H3 _]]. apply sp_plus_count in H1. apply sp_plus_count in H3.
        pose proof (nsp_suffix _ _ (proj1 (mt_grp_ok _ _ _ H2))) as X2. cbn [m_rest] in H1.
        pose proof (nsp_suffix v _ (ex_intro _ u E)) as X. 
        assert (Y : nsp (var ++ c2 :: flagged) = 1).
        { pose proof (nsp_none var Hv) as Y1. pose proof (nsp_none flagged Hf) as Y2. unfold nsp in *.
          rewrite filter_app, app_length. cbn [filter]. rewrite Hc2. cbn [length]. lia. }
        lia. }
    apply first_match in F.
    change (skipn 15 order) with ((KAddfragments, re_addfragments) :: skipn 16 order) in Ho.
    apply (outcome_hit KAddfragments _ _ _ _ _ _ _ F) in Ho; [|intros [H|[H _]]; discriminate].
    cbn in Ho. now injection Ho as _ Ho.
  - intros k r Hin. assert (Hk : In k (map fst (firstn 15 order))) by (apply in_map_iff; now exists (k, r)).
    clear Hin. revert k Hk. kinds.
Qed.

(** ** C13 *)
Definition unset_flag : re := RSeq (RStar true (RC "[")) (RSeq (RGrp "flag" dot_plus) (RC "]")).

Lemma unset_bracket : forall s s', mt unset_flag s s' -> In 93%N (tl (m_rest s)).
Proof.
  intros s s' H. unfold unset_flag in H. rewrite mt_seq_iff in H. destruct H as [s1 [H1 H]].
  rewrite mt_seq_iff in H. destruct H as [s2 [H2 H3]]. apply (proj1 (mt_star_chr_iff _ _ _ _)) in H1.
  destruct H1 as [w [t [E1 [_ ->]]]]. rewrite mt_grp_iff in H2. destruct H2 as [s3 [H2 ->]].
  unfold dot_plus, RPlus in H2. rewrite mt_seq_iff in H2. destruct H2 as [s4 [H2 H4]].
  unfold RDot in H2. rewrite mt_chr_iff in H2. destruct H2 as [c [t2 [E2 [_ ->]]]].
  pose proof (proj1 (mt_grp_ok _ _ _ H4)) as [a Es]. unfold RC in H3. rewrite mt_chr_iff in H3.
  destruct H3 as [c3 [t3 [E3 [C3 _]]]]. cbn [m_rest after] in *. unfold after in *. cbn [m_rest] in *.
  unfold oneof, in_chars in C3. cbn [existsb] in C3. rewrite orb_false_r in C3. apply N.eqb_eq in C3. subst c3.
  rewrite E3 in Es. rewrite E1, E2, Es. destruct w as [|x w]; cbn [app tl]; [apply in_mid|]. rewrite in_app_iff. right. right. apply in_mid.
Qed.

Lemma reach_unset_stmt : forall e i arg, parsed_item e i -> statement "unset" arg (one_line i) ->
  exists w b new, blank w /\ blanks b /\ not_indented arg /\ oneline arg /\
    outcome ((KUnset, re_unset) :: skipn 12 order) (w ++ "unset" ++ b ++ arg) (it_raw i) new (it_new i, it_pay i).
Proof.
  intros e i arg Hi Hs.
  destruct (reach_kw e i _ _ (firstn 11 order) (skipn 11 order) Hi Hs) as [w [b [new [Et [Hw [Hb [Ha [Hd Ho]]]]]]]];
    [discriminate|reflexivity|discriminate|reflexivity|reflexivity|reflexivity|kinds|].
  now exists w, b, new.
Qed.

Lemma first_unset : forall w b c x s2, blank w -> blanks b -> re_space c = false -> dotp c = true ->
  first (RStar true unset_flag) (MS false x [("varname", [c])]) s2 ->
  first re_unset (MS true (w ++ "unset" ++ b ++ c :: x) []) s2.
Proof.
  intros w b c x s2 Hw Hb Hc Hd Hs. unfold re_unset. cbn [RCat].
  apply lead_many; [discriminate|intros y k E; inversion E; subst; reflexivity|exact Hw|].
  assert (Hni : not_indented (c :: x)) by (intros y r E; inversion E; subst; exact Hc).
  eapply first_seq.
  { unfold RPlus at 1. eapply first_seq; [now apply first_blanks1|]. apply first_star_none.
    intros A k. unfold blanks1, sp_plus, tab_plus, RPlus. cbn [m]. unfold RSp, tab. cbn [m m_rest]. rewrite Hc. unfold ch.
    destruct (N.eqb_spec c cTAB) as [->|]; [discriminate|reflexivity]. }
  change (c :: x) with ([c] ++ x). apply first_lazy_grp; [cbn [forallb]; now rewrite Hd|discriminate|exact Hs|].
  intros u v E Hu Hv. destruct u as [|y u]; [congruence|]. destruct v as [|z v]; [congruence|]. destruct u; discriminate.
Qed.

Lemma C13_name_lemma : forall e i c n, parsed_item e i -> no_bracket n ->
  statement "unset" (c :: n) (one_line i) -> it_pay i = PUnset [c] [].
Proof.
  intros e i c n Hi Hn Hs. destruct (reach_unset_stmt e i _ Hi Hs) as [w [b [new [Hw [Hb [Ha [Hd Ho]]]]]]].
  assert (F : first re_unset (MS true (w ++ "unset" ++ b ++ c :: n) []) (MS false n [("varname", [c])])).
  { apply first_unset; auto; [now apply (Ha c n)|apply Hd; now left|]. apply first_star_none. apply fails_mt. intros s' H.
    apply unset_bracket in H. cbn [m_rest] in H. apply Hn. destruct n; [destruct H|now right]. }
  apply first_match in F. apply (outcome_hit KUnset _ _ _ _ _ _ _ F) in Ho; [|intros [H|[H _]]; discriminate].
  cbn in Ho. now injection Ho as _ Ho.
Qed.

(** With a flag: [x] is the text up to the closing bracket. *)
Lemma C13_flag_lemma : forall e i c br y, parsed_item e i -> (forall z, In z br -> z = 91%N) -> y <> [] ->
  (forall t, y <> "[" ++ t) -> no_bracket y -> statement "unset" (c :: br ++ y ++ "]") (one_line i) ->
  it_pay i = PUnset [c] (strip "[]" y).
Proof.
  intros e i c br y Hi Hbr Hy0 Hy Hyb Hs. destruct (reach_unset_stmt e i _ Hi Hs) as [w [b [new [Hw [Hb [Ha [Hd Ho]]]]]]].
  assert (F : first re_unset (MS true (w ++ "unset" ++ b ++ c :: br ++ y ++ "]") []) (MS false [] [("flag", y); ("varname", [c])])).
  { apply first_unset; auto; [now apply (Ha c (br ++ y ++ "]"))|apply Hd; now left|].
    eapply first_star_step; [| |apply first_star_none; apply fails_mt; intros s' H; apply unset_bracket in H; exact H].
    - eapply first_seq.
      { apply (first_star (oneof "[") br false (y ++ "]")).
        - apply forallb_forall. intros z Hz. apply Hbr in Hz. now subst z.
        - intros z r E. destruct y as [|y0 y]; [congruence|]. cbn [app] in E. injection E as -> _.
          unfold oneof, in_chars. cbn [existsb]. rewrite orb_false_r. destruct (N.eqb_spec z 91) as [->|]; [|reflexivity].
          exfalso. now apply (Hy y). }
      rewrite after_false. apply (first_greedy_grp "flag" dotp y (RC "]")).
      + apply forallb_forall. intros z Hz. apply Hd. right. rewrite !in_app_iff. auto.
      + exact Hy0.
      + apply first_chr. reflexivity.
      + intros u v E Hu _. destruct u as [|z u]; [congruence|]. cbn [app] in E. injection E as _ E.
        destruct u; [|discriminate]. cbn [app] in E. subst v. intros A k. reflexivity.
    - cbn [m_rest]. rewrite !app_length. cbn [length]. lia. }
  apply first_match in F. apply (outcome_hit KUnset _ _ _ _ _ _ _ F) in Ho; [|intros [H|[H _]]; discriminate].
  cbn in Ho. now injection Ho as _ Ho.
Qed.

Lemma strip_id : forall cs x, (forall c t, x = c :: t -> in_chars cs c = false) ->
  (forall c t, x = t ++ [c] -> in_chars cs c = false) -> strip cs x = x.
Proof.
  intros cs x H1 H2. unfold strip, strip_p. destruct x as [|c x']; [reflexivity|].
  rewrite lstrip_p_id by (now apply (H1 c x')). destruct (exists_last (l := c :: x') ltac:(discriminate)) as [t [d E]].
  rewrite E. apply rstrip_p_id. now apply (H2 d t).
Qed.

Lemma plain_not_bracket : forall c, name_char c \/ flag_char c -> c <> 91%N /\ c <> 93%N.
Proof.
  intros c H. unfold name_char, flag_char, letter, digit, between in H. cbn [In] in H.
  assert (A : c = 91%N \/ c = 93%N -> False); [|split; intro; subst; now apply A; auto].
  intros [->| ->]; intuition lia.
Qed.
Lemma bracket_chars : forall c, c <> 91%N -> c <> 93%N -> in_chars "[]" c = false.
Proof.
  intros c H1 H2. unfold in_chars. cbn [existsb]. destruct (N.eqb_spec c 91); [contradiction|]. destruct (N.eqb_spec c 93); [contradiction|reflexivity].
Qed.

Lemma C13_unset_flag_lemma : forall e i c n flag, parsed_item e i -> var_name (c :: n) -> flag <> [] ->
  (forall x, In x flag -> flag_char x) -> statement "unset" (c :: n ++ "[" ++ flag ++ "]") (one_line i) ->
  it_pay i = PUnset [c] (match n with [] => flag | _ => n ++ "[" ++ flag end).
Proof.
  intros e i c n flag Hi [_ Hn] Hf0 Hf Hs.
  assert (Hlast : forall p d t, p ++ flag = t ++ [d] -> In d flag).
  { intros p d t E. destruct (exists_last Hf0) as [f' [z Ez]]. rewrite Ez, app_assoc in E. apply app_inj_tail in E.
    destruct E as [_ ->]. rewrite Ez. apply in_app_iff. right. now left. }
  assert (Hfb : forall x, In x flag -> x <> 91%N /\ x <> 93%N) by (intros x Hx; apply plain_not_bracket; right; now apply Hf).
  destruct n as [|y n].
  - rewrite (C13_flag_lemma e i c "[" flag Hi); auto.
    + f_equal. apply strip_id; intros x t E.
      * destruct (Hfb x) as [? ?]; [rewrite E; now left|]. now apply bracket_chars.
      * destruct (Hfb x) as [? ?]; [exact (Hlast [] x t E)|]. now apply bracket_chars.
    + intros z [<-|[]]. reflexivity.
    + intros t E. destruct (Hfb 91%N) as [H _]; [rewrite E; now left|]. now apply H.
    + intro I. destruct (Hfb _ I) as [_ H]. now apply H.
  - assert (Hnb : forall x, In x (y :: n) -> x <> 91%N /\ x <> 93%N).
    { intros x Hx. apply plain_not_bracket. left. apply Hn. now right. }
    rewrite (C13_flag_lemma e i c [] ((y :: n) ++ "[" ++ flag) Hi).
    + f_equal. apply strip_id; intros x t E.
      * inversion E; subst. destruct (Hnb x) as [? ?]; [now left|]. now apply bracket_chars.
      * assert (E' : ((y :: n) ++ "[") ++ flag = t ++ [x]) by (rewrite <- app_assoc; exact E).
        destruct (Hfb x) as [? ?]; [exact (Hlast _ x t E')|]. now apply bracket_chars.
    + intros z [].
    + discriminate.
    + intros t E. inversion E; subst. destruct (Hnb 91%N) as [H _]; [now left|]. now apply H.
    + intro I. apply in_app_iff in I. destruct I as [I|[I|I]].
      * destruct (Hnb _ I) as [_ H]. now apply H.
      * discriminate.
      * destruct (Hfb _ I) as [_ H]. now apply H.
    + cbn [app]. rewrite <- app_assoc. exact Hs.
Qed.

(** ** include and require *)
Definition file_c : N -> bool := por (range 65 122) (por dig_c (oneof "-./${}")).
Lemma file_char_imp : forall c, file_char c -> file_c c = true /\ re_space c = false /\ c <> 61%N /\ c <> 40%N.
Proof.
  intros c H.
  assert (A : (33 <= c /\ c < 128)%N).
  { unfold file_char, letter, digit, between in H. cbn [In] in H. destruct H as [[H|H]|[H|H]]; [lia|lia|lia|].
    repeat (destruct H as [H|H]; [lia|]); destruct H. }
  assert (X : forallb (fun x => implb ((N.leb 65 x && N.leb x 90) || (N.leb 97 x && N.leb x 122)
       || (N.leb 48 x && N.leb x 57) || in_chars "_-./${}" x)
         (file_c x && negb (re_space x) && negb (N.eqb x 61) && negb (N.eqb x 40))) (map N.of_nat (seq 0 128)) = true)
    by (vm_compute; reflexivity).
  rewrite forallb_forall in X. specialize (X c).
  assert (I : In c (map N.of_nat (seq 0 128))).
  { apply in_map_iff. exists (N.to_nat c). split; [apply N2Nat.id|]. apply in_seq. lia. }
  specialize (X I). rewrite implb_true_iff in X.
  assert (Y : file_c c && negb (re_space c) && negb (N.eqb c 61) && negb (N.eqb c 40) = true).
  { apply X. unfold file_char, letter, digit, between in H. rewrite !orb_true_iff, !andb_true_iff, !N.leb_le. unfold in_chars.
    rewrite existsb_exists. destruct H as [[H|H]|[H|H]]; auto. right. exists c. split; [exact H|apply N.eqb_refl]. }
  rewrite !andb_true_iff, !negb_true_iff in Y. destruct Y as [[[Y1 Y2] Y3] Y4]. apply N.eqb_neq in Y3, Y4. auto.
Qed.
Lemma space_not_file : forall c, re_space c = true -> file_c c = false.
Proof. intros c. apply space_not. vm_compute. reflexivity. Qed.
Lemma space_ops : forall c, re_space c = true -> ops_c c = false.
Proof. intros c. apply space_not. vm_compute. reflexivity. Qed.

(** Two runs of blanks exclude an assignment. *)
Lemma no_var : forall w kw b arg t, blank w -> forallb K_c kw = true -> kw <> [] -> blanks b -> arg <> [] ->
  (forall c, In c arg -> re_space c = false /\ c <> 61%N) -> (t = [] \/ exists x t', t = x :: t' /\ re_space x = true) ->
  re_match re_var (w ++ kw ++ b ++ arg ++ t) = None.
Proof.
  intros w kw b arg t Hw Hk Hk0 [Hb0 Hb] Ha0 Ha Ht. destruct (re_match re_var _) as [mt|] eqn:Em; [exfalso|reflexivity].
  apply shape_var in Em. destruct Em as [n [[w' [pre [t3 [E [Hw' Hpre]]]]] [Hn Hn0]]].
  assert (Nn : forall c, In c n -> re_space c = false).
  { intros c Hc. rewrite forallb_forall in Hn. apply Hn in Hc. destruct (re_space c) eqn:Es; [|reflexivity].
    rewrite (space_not_name c Es) in Hc. discriminate. }
  assert (Np : forall c, In c pre -> re_space c = false).
  { intros c Hc. rewrite forallb_forall in Hpre. apply Hpre in Hc. destruct (re_space c) eqn:Es; [|reflexivity].
    rewrite (space_ops c Es) in Hc. discriminate. }
  assert (Nk : forall c, In c kw -> re_space c = false /\ c <> 61%N).
  { intros c Hc. rewrite forallb_forall in Hk. apply Hk in Hc. split; [now apply K_not_space|]. intros ->. discriminate. }
  destruct w as [|x w]; [|destruct n as [|y n]; [congruence|]; cbn [app] in E; injection E as -> _;
    pose proof (Nn y ltac:(now left)) as X; rewrite (Hw y) in X; [discriminate|now left]].
  cbn [app] in E.
  assert (Hno : ~ In 61%N (kw ++ b ++ arg)).
  { rewrite !in_app_iff. intros [I|[I|I]]; [now apply Nk in I|apply Hb in I; discriminate|now apply Ha in I]. }
  assert (E' : (kw ++ b ++ arg) ++ t = (n ++ w' ++ pre) ++ 61%N :: t3) by (rewrite <- !app_assoc; exact E).
  destruct Ht as [->|[x [t' [-> Hx]]]].
  { rewrite app_nil_r in E'. apply Hno. rewrite E'. apply in_mid. }
  destruct (app_cases _ _ _ _ _ _ _ E') as [[_ [X _]]|[[z [X _]]|[z [X _]]]].
  - subst x. discriminate.
  - destruct b as [|b1 b']; [congruence|]. destruct arg as [|a1 arg']; [congruence|].
    assert (Hb1 : re_space b1 = true) by (apply Hb; now left).
    assert (Ha1 : re_space a1 = false) by (apply Ha; now left).
    assert (X' : n ++ w' ++ pre = kw ++ b1 :: b' ++ a1 :: arg' ++ x :: z).
    { rewrite X. cbn [app]. rewrite <- !app_assoc. cbn [app]. rewrite <- !app_assoc. reflexivity. }
    destruct w' as [|y w''].
    { cbn [app] in X'. assert (I : In b1 (n ++ pre)) by (rewrite X'; apply in_mid). apply in_app_iff in I.
      destruct I as [I|I]; [apply Nn in I|apply Np in I]; congruence. }
    assert (Hy : re_space y = true) by (apply Hw'; now left). cbn [app] in X'.
    destruct (app_cases _ _ _ _ _ _ _ X') as [[_ [_ Y]]|[[z2 [Y _]]|[z2 [Y _]]]].
    + destruct pre as [|p1 pre'].
      { rewrite app_nil_r in Y. assert (I : In a1 w'') by (rewrite Y; apply in_mid).
        rewrite (Hw' a1) in Ha1; [discriminate|now right]. }
      destruct (app_cases _ _ _ _ _ _ _ Y) as [[_ [_ Z]]|[[z3 [Z _]]|[z3 [Z _]]]].
      * rewrite (Np x) in Hx; [discriminate|]. right. rewrite Z. apply in_mid.
      * pose proof (Np p1 ltac:(now left)) as Q. rewrite (Hb p1) in Q; [discriminate|]. right. rewrite Z. apply in_mid.
      * rewrite (Hw' a1) in Ha1; [discriminate|]. right. rewrite Z. apply in_mid.
    + assert (I : In y kw) by (rewrite Y; apply in_mid). apply Nk in I. destruct I as [I _]. congruence.
    + assert (I : In b1 n) by (rewrite Y; apply in_mid). apply Nn in I. congruence.
  - apply Hno. rewrite X. apply in_mid.
Qed.

Lemma outcome_none : forall l cnt raw new o, (forall k r, In (k, r) l -> re_match r cnt = None) ->
  outcome l cnt raw new o -> o = (new, PItem).
Proof.
  induction l as [|[k r] l IH]; intros cnt raw new o H Ho; [exact Ho|]. cbn [outcome] in Ho.
  rewrite (H k r) in Ho by now left. apply IH in Ho; [exact Ho|]. intros k0 r0 H0. apply (H k0 r0). now right.
Qed.

Lemma C12_include_lemma : forall e i kw name t, parsed_item e i -> kw = "include" \/ kw = "require" -> file_name name ->
  (t = [] \/ exists x t', t = x :: t' /\ re_space x = true) -> statement kw (name ++ t) (one_line i) ->
  (exists path, it_pay i = PInclude name kw path) \/ it_pay i = PItem.
Proof.
  intros e i kw name t Hi Hkw [Hn0 Hn] Ht Hs.
  assert (Hkk : kw <> [] /\ forallb K_c kw = true /\ kw <> "INHERIT" /\ (forall t, startswith "python" (kw ++ t) = false) /\
                (forall t, startswith "fakeroot" (kw ++ t) = false) /\ re_space (hd 0%N kw) = false).
  { destruct Hkw as [->| ->]; repeat split; try discriminate; try (intros; reflexivity). }
  destruct Hkk as [Hk0 [Hk [Hih [Hpy [Hfr Hhd]]]]].
  pose proof Hs as Hs0. 
  destruct (reach_kw e i _ _ (firstn 7 order) (skipn 7 order) Hi Hs) as [w [b [new [Et [Hw [Hb [Ha [Hd Ho]]]]]]]]; auto.
  { destruct Hkw as [->| ->]; kinds. }
  assert (Hnc : forallb file_c name = true).
  { apply forallb_forall. intros c Hc. now apply file_char_imp, Hn. }
  assert (F : first re_include (MS true (w ++ kw ++ b ++ name ++ t) []) (MS false t [("incname", name); ("statement", kw)])).
  { unfold re_include. cbn [RCat]. eapply first_seq; [apply first_bol|].
    eapply first_seq.
    { apply first_altl. apply first_star; [now apply space_forallb|]. intros c r E. destruct kw as [|k0 kw']; [congruence|].
      inversion E; subst. exact Hhd. }
    eapply first_seq.
    { unfold after. apply first_grp_app. destruct Hkw as [->| ->].
      - apply first_altl. pose proof (first_lit "include" (match w with [] => true | _ => false end) (b ++ name ++ t) []) as X.
        rewrite after_ne in X by discriminate. exact X.
      - apply first_altr; [intros A k; apply m_lit_no; reflexivity|].
        pose proof (first_lit "require" (match w with [] => true | _ => false end) (b ++ name ++ t) []) as X.
        rewrite after_ne in X by discriminate. exact X. }
    eapply first_seq; [now apply first_blanks1|]. apply first_grp_app. apply first_plus; [exact Hnc|exact Hn0|].
    intros c r E. destruct Ht as [->|[x [t' [-> Hx]]]]; [discriminate|]. inversion E; subst. now apply space_not_file. }
  apply first_match in F.
  change (skipn 7 order) with ((KInclude, re_include) :: skipn 8 order) in Ho. cbn [outcome] in Ho. rewrite F in Ho.
  destruct Ho as [[path Ho]|[_ Ho]].
  - left. exists path. cbn in Ho. now injection Ho as _ Ho.
  - right. apply outcome_none in Ho; [now injection Ho as _ Ho|].
    intros k r Hin.
    assert (Hio : In (k, r) order) by (change order with (firstn 8 order ++ skipn 8 order); apply in_app_iff; now right).
    assert (Hcase : k = KVars \/ k <> KVars) by (destruct k; (now left) || (right; discriminate)).
    destruct Hcase as [->|Hv].
    + assert (r = re_var). { unfold order in Hin. cbn [skipn In] in Hin.
        repeat (destruct Hin as [Hin|Hin]; [inversion Hin; subst; clear Hin; try reflexivity|]). destruct Hin. }
      subst r. apply no_var; auto. intros c Hc. apply Hn in Hc. apply file_char_imp in Hc. tauto.
    + destruct Hs0 as [_ [_ [_ [_ [_ [_ Hp]]]]]].
      apply (stmt_none w kw b (name ++ t) Hw Hk0 Hk Hb Ha Hp (Hpy _) (Hfr _) Hih k r Hio).
      assert (Hk8 : In k (map fst (skipn 8 order))) by (apply in_map_iff; now exists (k, r)).
      unfold order in Hk8. cbn [skipn map fst In] in Hk8.
      destruct Hkw as [->| ->]; intro Hkk; repeat (destruct Hk8 as [Hk8|Hk8]; [subst k; cbn [kind_key] in Hkk; (discriminate || congruence || contradiction)|]); destruct Hk8.
Qed.

Lemma C13_short_lemma : forall e i c flag, parsed_item e i -> name_char c ->
  (statement "unset" [c] (one_line i) -> it_pay i = PUnset [c] []) /\
  (flag <> [] -> (forall x, In x flag -> flag_char x) -> statement "unset" ([c] ++ "[" ++ flag ++ "]") (one_line i) ->
   it_pay i = PUnset [c] flag).
Proof.
  intros e i c flag Hi Hc. split.
  - intro Hs. apply (C13_name_lemma e i c [] Hi); [intros []|exact Hs].
  - intros Hf0 Hf Hs. apply (C13_unset_flag_lemma e i c [] flag Hi); auto. split; [discriminate|].
    intros x [<-|[]]. exact Hc.
Qed.
