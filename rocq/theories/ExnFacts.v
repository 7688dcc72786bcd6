(** * Which exceptions can leave AddFile, and when StopIteration does *)

From Verif Require Import PyStr Regex Patterns PyPath Res Inline Const Item Lines Stash
  StrFacts ReFacts LinesFacts ParseFacts.

(** ** Shapes of lines *)

(** A line that continues: a backslash, white space, newline. *)
Definition continues (l : str) : Prop :=
  exists a w b, l = a ++ [cBSL] ++ w ++ [cNL] ++ b /\ forallb re_space w = true.
(** A function header: two parentheses and a brace, with white space at most. *)
Definition header (l : str) : Prop :=
  exists a w1 w2 b, l = a ++ "(" ++ w1 ++ ")" ++ w2 ++ "{" ++ b
                    /\ forallb re_space w1 = true /\ forallb re_space w2 = true.

Lemma is_next_line_iff : forall l, is_next_line l = true <-> continues l.
Proof.
  intro l. unfold is_next_line, re_search. rewrite search_iff. unfold re_next_line, RCat, sp_star, RSp.
  split.
  - intros [a [t [s' [E H]]]]. apply mt_seq_iff in H. destruct H as [s1 [H1 H2]].
    apply mt_chr_iff in H1. destruct H1 as [c [t1 [E1 [Ec ->]]]]. unfold ch in Ec. apply N.eqb_eq in Ec.
    apply mt_seq_iff in H2. destruct H2 as [s2 [H2 H3]].
    apply mt_star_chr_iff in H2. destruct H2 as [w [t2 [E2 [Hw ->]]]].
    apply mt_chr_iff in H3. destruct H3 as [d [t3 [E3 [Ed ->]]]]. unfold ch in Ed. apply N.eqb_eq in Ed.
    unfold after in *. simpl in *. subst. exists a, w, t3. split; [reflexivity|assumption].
  - intros [a [w [b [E Hw]]]]. exists a, ([cBSL] ++ w ++ [cNL] ++ b), (MS false b []).
    split; [assumption|]. apply mt_seq_iff. exists (MS false (w ++ [cNL] ++ b) []). split.
    + apply mt_chr_iff. exists cBSL, (w ++ [cNL] ++ b). auto.
    + apply mt_seq_iff. exists (after false w ([cNL] ++ b) []). split.
      * apply mt_star_chr_iff. exists w, ([cNL] ++ b). auto.
      * apply mt_chr_iff. exists cNL, b. auto.
Qed.

Lemma forallb_dotp : forall a, ~ In cNL a -> forallb dotp a = true.
Proof.
  induction a as [|c a IH]; intro H; [reflexivity|]. simpl. unfold dotp at 1.
  destruct (N.eqb_spec c cNL) as [->|Hc]; simpl; [exfalso; apply H; now left|].
  apply IH. intro Hi. apply H. now right.
Qed.

Lemma is_func_start_header : forall l, is_func_start l = true -> header l.
Proof.
  intros l H. unfold is_func_start, re_match in H. apply matched_iff in H. destruct H as [s' H].
  unfold re_func_start, RCat in H. apply mt_seq_iff in H. destruct H as [s1 [H1 H]].
  apply mt_seq_iff in H. destruct H as [s2 [H2 H]]. apply mt_seq_iff in H. destruct H as [s3 [H3 H]].
  apply mt_seq_iff in H. destruct H as [s4 [H4 H]]. apply mt_seq_iff in H. destruct H as [s5 [H5 H]].
  apply mt_seq_iff in H. destruct H as [s6 [H6 H]]. apply mt_seq_iff in H. destruct H as [s7 [H7 H]].
  apply mt_seq_iff in H. destruct H as [s8 [H8 H9]].
  assert (Hs : suffix_of (m_rest s4) l).
  { assert (G : forall r a b, mt r a b -> suffix_of (m_rest b) (m_rest a)).
    { clear. induction r as [|p|a IHa b IHb|a IHa b IHb|g r IH|n r IH| | |b r IH|r IH]; intros s s' H.
      - apply mt_eps_iff in H. subst. apply suffix_refl.
      - apply mt_chr_iff in H. destruct H as [c [t [E [_ ->]]]]. exists [c]. exact E.
      - apply mt_seq_iff in H. destruct H as [s1 [H1 H2]]. eapply suffix_trans; eauto.
      - apply mt_alt_iff in H. destruct H; eauto.
      - remember (RStar g r) as rr eqn:Er.
        induction H as [| | | | |g0 r0 s|g0 r0 s s1 s2 H1 _ Hl H2 IH2| | | | | ]; try discriminate.
        + apply suffix_refl.
        + inversion Er; subst. eapply suffix_trans; [apply IH2; reflexivity|]. now apply IH.
      - apply mt_grp_iff in H. destruct H as [s1 [H ->]]. now apply IH in H.
      - apply mt_bol_iff in H. destruct H as [-> _]. apply suffix_refl.
      - apply mt_eol_iff in H. destruct H as [-> _]. apply suffix_refl.
      - inversion H; subst. apply suffix_refl.
      - inversion H as [| | | | | | | | | | |r0 s0 s2 Hs]; subst. apply m_sound in Hs.
        destruct Hs as [s1 [Hs He]]. inversion He; subst. now apply IH. }
    apply G in H1. apply G in H2. apply G in H3. apply G in H4.
    eapply suffix_trans; [exact H4|]. eapply suffix_trans; [exact H3|].
    eapply suffix_trans; [exact H2|]. exact H1. }
  destruct Hs as [a Ha]. unfold sp_star, RSp, RC in *.
  apply mt_chr_iff in H5. destruct H5 as [c5 [t5 [E5 [C5 ->]]]].
  apply mt_star_chr_iff in H6. destruct H6 as [w1 [t6 [E6 [C6 ->]]]].
  apply mt_chr_iff in H7. destruct H7 as [c7 [t7 [E7 [C7 ->]]]].
  apply mt_star_chr_iff in H8. destruct H8 as [w2 [t8 [E8 [C8 ->]]]].
  apply mt_chr_iff in H9. destruct H9 as [c9 [t9 [E9 [C9 ->]]]].
  unfold oneof in C5, C7, C9. apply in_chars_In in C5, C7, C9. simpl in C5, C7, C9.
  destruct C5 as [C5|[]], C7 as [C7|[]], C9 as [C9|[]]. unfold after in *. simpl in *. subst.
  rewrite E5. exists a, w1, w2, t9. auto.
Qed.

Lemma header_is_func_start : forall l, (full_line l \/ ~ In cNL l) -> header l -> is_func_start l = true.
Proof.
  intros l Hl [a [w1 [w2 [b [E [Hw1 Hw2]]]]]].
  assert (Ha : ~ In cNL a).
  { intro Hi. destruct Hl as [[t [Et Ht]]|Hl].
    - apply in_split in Hi. destruct Hi as [x [y ->]]. rewrite Et in E.
      assert (Hin : In cNL t).
      { rewrite <- app_assoc in E. simpl in E.
        assert (Hb : exists b' z, y ++ "(" ++ w1 ++ ")" ++ w2 ++ "{" ++ b = b' ++ [z]).
        { destruct (exists_last (l := y ++ "(" ++ w1 ++ ")" ++ w2 ++ "{" ++ b)) as [b' [z Hz]].
          - destruct y; discriminate.
          - now exists b', z. }
        destruct Hb as [b' [z Hz]]. simpl in Hz, E. rewrite Hz in E.
        change (cNL :: b' ++ [z]) with ((cNL :: b') ++ [z]) in E. rewrite app_assoc in E.
        apply app_inj_tail in E. destruct E as [E _]. rewrite E. apply in_app_iff. right. now left. }
      contradiction.
    - apply Hl. rewrite E. apply in_app_iff. now left. }
  unfold is_func_start, re_match. apply matched_iff. unfold re_func_start, RCat.
  exists (MS false b []). unfold dot_star, sp_star, RSp, RDot, RC.
  apply mt_seq_iff. exists (after true a ("(" ++ w1 ++ ")" ++ w2 ++ "{" ++ b) []). split.
  { apply mt_star_chr_iff. exists a, ("(" ++ w1 ++ ")" ++ w2 ++ "{" ++ b). split; [assumption|].
    split; [now apply forallb_dotp|reflexivity]. }
  set (s1 := after true a ("(" ++ w1 ++ ")" ++ w2 ++ "{" ++ b) []).
  apply mt_seq_iff. exists s1. split; [apply mt_star0|].
  apply mt_seq_iff. exists s1. split; [apply mt_altr; constructor|].
  apply mt_seq_iff. exists s1. split; [apply mt_star0|].
  apply mt_seq_iff. exists (MS false (w1 ++ ")" ++ w2 ++ "{" ++ b) []). split.
  { apply mt_chr_iff. eexists _, _. split; [reflexivity|]. split; reflexivity. }
  apply mt_seq_iff. exists (after false w1 (")" ++ w2 ++ "{" ++ b) []). split.
  { apply mt_star_chr_iff. eexists _, _. split; [reflexivity|]. split; [assumption|reflexivity]. }
  apply mt_seq_iff. exists (MS false (w2 ++ "{" ++ b) []). split.
  { apply mt_chr_iff. eexists _, _. split; [reflexivity|]. split; reflexivity. }
  apply mt_seq_iff. exists (after false w2 ("{" ++ b) []). split.
  { apply mt_star_chr_iff. eexists _, _. split; [reflexivity|]. split; [assumption|reflexivity]. }
  apply mt_chr_iff. eexists _, _. split; [reflexivity|]. split; reflexivity.
Qed.

(** ** Where the chunk loop stops *)

(** Positions at which a chunk starts. *)
Inductive starts : list str -> list str -> Prop :=
| starts_here : forall L, starts L L
| starts_next : forall buf rest t n r u,
    iterate buf rest = Ok (t, n, r) -> starts (line_list n r) u -> starts (buf :: rest) u.

(** Lines that wait for a further line. *)
Definition stuck (u : list str) : Prop :=
  (u <> [] /\ Forall continues u) \/ (exists h, u = [h] /\ header h /\ ~ continues h).

Lemma cont_loop_stuck : forall rest res line,
  cont_loop res line rest = Raise StopIteration <->
  Forall continues (line :: rest).
Proof.
  induction rest as [|l rest IH]; intros res line; simpl; destruct (is_next_line line) eqn:E.
  - split; [|reflexivity]. intros _. constructor; [now apply is_next_line_iff|constructor].
  - split; [discriminate|]. intro H. inversion H as [|? ? H1 H2]; subst.
    apply is_next_line_iff in H1. congruence.
  - rewrite IH. split; intro H.
    + constructor; [now apply is_next_line_iff|assumption].
    + now inversion H.
  - split; [discriminate|]. intro H. inversion H as [|? ? H1 H2]; subst.
    apply is_next_line_iff in H1. congruence.
Qed.

Lemma iterate_stuck : forall buf rest, (full_line buf \/ ~ In cNL buf) ->
  (iterate buf rest = Raise StopIteration <-> stuck (buf :: rest)).
Proof.
  intros buf rest Hb. unfold iterate, stuck. destruct (is_next_line buf) eqn:E.
  - assert (Hc : continues buf) by now apply is_next_line_iff.
    destruct rest as [|l rest].
    + split; [|reflexivity]. intros _. left. split; [discriminate|]. repeat constructor. exact Hc.
    + destruct (cont_loop buf l rest) as [x|e|] eqn:Ec; simpl.
      * split; [discriminate|]. intros [[_ H]|[h [H _]]]; [|discriminate].
        inversion H as [|? ? H1 H2]; subst. apply (cont_loop_stuck rest buf l) in H2. congruence.
      * split; intro H.
        -- inversion H; subst. left. split; [discriminate|]. constructor; [exact Hc|].
           now apply cont_loop_stuck in Ec.
        -- f_equal. now apply cont_loop_exn in Ec.
      * now apply cont_loop_fuel in Ec.
  - assert (Hc : ~ continues buf) by (intro H; apply is_next_line_iff in H; congruence).
    destruct (is_func_start buf) eqn:Ef.
    + destruct rest as [|l rest].
      * split; [|reflexivity]. intros _. right. exists buf.
        split; [reflexivity|]. split; [now apply is_func_start_header|assumption].
      * destruct (func_loop buf 0 l rest) as [t r]. split; [discriminate|].
        intros [[_ H]|[h [H _]]]; [|discriminate]. inversion H; subst. contradiction.
    + assert (Hn : stuck (buf :: rest) -> False).
      { intros [[_ H]|[h [H [H1 H2]]]]; [inversion H; subst; contradiction|].
        inversion H; subst. apply header_is_func_start in H1; [congruence|assumption]. }
      unfold stuck in Hn. split; [|intro H; now apply Hn in H].
      destruct (is_comment_pure buf); [discriminate|]. destruct (is_def_line buf); [discriminate|].
      destruct buf; discriminate.
Qed.

Lemma lines_ok_head : forall l r, lines_ok (l :: r) -> full_line l \/ ~ In cNL l.
Proof. intros l r H. inversion H as [|? Hl Hi|? ? Hf Hr]; subst; auto. Qed.

Lemma prepare_loop_stuck : forall f off neg next rest num,
  length (line_list next rest) < f -> lines_ok (line_list next rest) ->
  (prepare_loop f off neg next rest num = Raise StopIteration <->
   exists u, starts (line_list next rest) u /\ stuck u).
Proof.
  induction f as [|f IH]; intros off neg next rest num Hf Hok; [lia|].
  rewrite prepare_loop_eq. pose proof (lines_ok_ne _ Hok) as Hne.
  destruct (line_list next rest) as [|line rest0] eqn:El.
  - split; [discriminate|]. intros [u [Hs Hu]]. inversion Hs; subst.
    destruct Hu as [[Hu _]|[h [Hu _]]]; [congruence|discriminate].
  - inversion Hne as [|? ? Hl Hr]; subst. pose proof (lines_ok_head _ _ Hok) as Hh.
    pose proof (iterate_stuck line rest0 Hh) as Hi.
    unfold subparser. destruct (iterate line rest0) as [[[t n] r]|e|] eqn:E; simpl.
    + destruct (inline_blocks_total neg t) as [raw [bs [Eb _]]]. rewrite Eb. simpl.
      assert (Hsp := E). apply iterate_spec in Hsp; [|assumption|assumption]. destruct Hsp as [ls [E1 E2]].
      assert (Hok' : lines_ok (line_list n r)).
      { apply (lines_ok_app (line :: ls)). simpl. now rewrite <- E1. }
      assert (Hlen : length (line_list n r) < f).
      { rewrite E1 in Hf. simpl in Hf. rewrite app_length in Hf. lia. }
      specialize (IH off neg n r (num + Z.of_nat (count_char cNL t))%Z Hlen Hok').
      assert (Hst : (exists u, starts (line :: rest0) u /\ stuck u) <-> (exists u, starts (line_list n r) u /\ stuck u)).
      { split; intros [u [Hs Hu]].
        - inversion Hs as [|? ? t' n' r' ? E' Hs']; subst.
          + apply Hi in Hu. discriminate.
          + rewrite E in E'. inversion E'; subst. now exists u.
        - exists u. split; [|assumption]. eapply starts_next; eassumption. }
      rewrite Hst, <- IH. clear.
      destruct (prepare_loop f off neg n r _); simpl; split; intro H; try discriminate; congruence.
    + assert (He := iterate_exn _ _ _ E). subst. split; [|reflexivity]. intros _.
      exists (line :: rest0). split; [constructor|]. now apply Hi.
    + now apply iterate_fuel in E.
Qed.

Lemma prepare_text_stuck : forall off neg text,
  prepare_text off neg text = Raise StopIteration <->
  exists u, starts (readlines text) u /\ stuck u.
Proof.
  intros off neg text. unfold prepare_text. rewrite prepare_loop_stuck; simpl.
  - reflexivity.
  - lia.
  - apply readlines_ok.
Qed.

(** The waiting lines are the last ones, so the last line waits. *)
Lemma starts_suffix : forall L u, lines_ok L -> starts L u -> exists p, L = p ++ u.
Proof.
  intros L u Hok H. induction H as [L|buf rest t n r u E Hs IH].
  - now exists [].
  - pose proof (lines_ok_ne _ Hok) as Hne. inversion Hne as [|? ? Hb Hr]; subst.
    apply iterate_spec in E; try assumption. destruct E as [ls [E1 _]].
    destruct IH as [p Hp].
    { apply (lines_ok_app (buf :: ls)). simpl. now rewrite <- E1. }
    exists (buf :: ls ++ p). simpl. now rewrite E1, Hp, app_assoc.
Qed.

Definition waits (l : str) : Prop := continues l \/ header l.

Lemma stuck_last : forall L u, lines_ok L -> starts L u -> stuck u ->
  exists p l, L = p ++ [l] /\ waits l.
Proof.
  intros L u Hok Hs Hu. destruct (starts_suffix _ _ Hok Hs) as [p ->].
  destruct Hu as [[Hne Hf]|[h [-> [Hh _]]]].
  - destruct (exists_last Hne) as [u' [x ->]]. exists (p ++ u'), x. split; [now rewrite app_assoc|].
    apply Forall_app in Hf. destruct Hf as [_ Hf]. inversion Hf; subst. now left.
  - exists p, h. split; [reflexivity|]. now right.
Qed.

(** ** Exceptions of stateful computations *)

Definition exns {A} (x : M A) (Q : exn -> Prop) : Prop := forall s ex s', x s = (Raise ex, s') -> Q ex.

Lemma exns_ret : forall A (a : A) Q, exns (ret a) Q.
Proof. intros A a Q s ex s' H. discriminate. Qed.
Lemma exns_bind : forall A B (x : M A) (f : A -> M B) Q,
  exns x Q -> (forall a, exns (f a) Q) -> exns (bindM x f) Q.
Proof.
  intros A B x f Q Hx Hf s ex s' H. unfold bindM in H.
  destruct (x s) as [[a|e|] s1] eqn:E; try discriminate.
  - eapply Hf. exact H.
  - inversion H; subst. eapply Hx. exact E.
Qed.
Lemma exns_lift : forall A (f : stash -> res A) (Q : exn -> Prop),
  (forall s ex, f s = Raise ex -> Q ex) -> exns (liftR f) Q.
Proof. intros A f Q H s ex s' E. unfold liftR in E. inversion E as [[E1 E2]]. eapply H. exact E1. Qed.

Lemma fold_res_exn : forall A B (f : A -> B -> res A) l a ex (Q : exn -> Prop),
  (forall a b ex, f a b = Raise ex -> Q ex) -> fold_res f l a = Raise ex -> Q ex.
Proof.
  intros A B f l. induction l as [|x l IH]; intros a ex Q Hf H; simpl in H; [discriminate|].
  destruct (f a x) as [a'|e|] eqn:E; simpl in H; try discriminate.
  - eapply IH; eassumption.
  - inversion H; subst. eapply Hf. exact E.
Qed.

Lemma expand_f_eq : forall vf e s file lf spare value seen,
  expand_f vf e s file lf spare value seen =
  (do x1 <- fold_res (expand_one e s file
               (fun cnt sn => match vf with O => NoFuel | S vf' => expand_f vf' e s file (length cnt) [] cnt sn end)
               spare []) (re_finditer re_var_ref value) (value, seen);
   do x2 <- fold_res (expand_one e s file
               (fun cnt sn => match vf with O => NoFuel | S vf' => expand_f vf' e s file (length cnt) [] cnt sn end)
               spare [cDQ]) (re_finditer re_var_ref2 value) x1;
   fold_res (read_file_one (e_fs e)
               (fun v sn => match lf with O => NoFuel | S lf' => expand_f vf e s file lf' spare v sn end))
            (re_finditer re_read_file value) x2).
Proof. intros [|vf] e s file [|lf] spare value seen; reflexivity. Qed.

Lemma expand_one_exn : forall e s file rec spare q x mt ex (Q : exn -> Prop),
  (forall c sn ex, rec c sn = Raise ex -> Q ex) ->
  expand_one e s file rec spare q x mt = Raise ex -> Q ex.
Proof.
  intros e s file rec spare q [r seen] mt ex Q Hr H. unfold expand_one in H.
  destruct (mem_str _ spare); [discriminate|].
  assert (Ht : forall cnt, (match dget (group_str "1" mt) seen with
      | Some r0 => Ok (replace (g0 mt) r0 r, seen)
      | None => do y <- rec cnt (dset (group_str "1" mt) [] seen);
                Ok (replace (g0 mt) (fst y) r, dset (group_str "1" mt) (fst y) (snd y))
      end) = Raise ex -> Q ex).
  { intros cnt H'. destruct (dget (group_str "1" mt) seen); [discriminate|].
    destruct (rec cnt _) as [y|e'|] eqn:E; simpl in H'; try discriminate.
    inversion H'; subst. eapply Hr. exact E. }
  destruct (first_definition e s file _); [now apply Ht in H|].
  destruct (dget _ (sets_base _)); [now apply Ht in H|].
  destruct (builtin_value _ _ _); discriminate.
Qed.

Lemma read_file_one_exn : forall w rec x mt ex,
  (forall c sn ex, rec c sn = Raise ex -> ex = OSError) ->
  read_file_one w rec x mt = Raise ex -> ex = OSError.
Proof.
  intros w rec [r sn] mt ex Hr H. unfold read_file_one in H.
  destruct (rec (group_str "file" mt) sn) as [y|e|] eqn:E; simpl in H; try discriminate.
  - destruct (fs_read _ _); inversion H; reflexivity.
  - inversion H; subst. now apply Hr in E.
Qed.

Lemma bind_exn : forall A B (x : res A) (f : A -> res B) ex (Q : exn -> Prop),
  (forall ex, x = Raise ex -> Q ex) -> (forall a ex, f a = Raise ex -> Q ex) -> bind x f = Raise ex -> Q ex.
Proof.
  intros A B [a|e|] f ex Q Hx Hf H; simpl in H; try discriminate.
  - eapply Hf. exact H.
  - inversion H; subst. now apply Hx.
Qed.

Lemma expand_f_exn : forall vf e s file lf spare value seen ex,
  expand_f vf e s file lf spare value seen = Raise ex -> ex = OSError.
Proof.
  induction vf as [vf IHv] using lt_wf_ind. intros e s file lf. induction lf as [lf IHl] using lt_wf_ind.
  intros spare value seen ex H. rewrite expand_f_eq in H.
  assert (Hv : forall c sn ex, match vf with O => NoFuel | S vf' => expand_f vf' e s file (length c) [] c sn end = Raise ex -> ex = OSError).
  { intros c sn ex0 E. destruct vf as [|vf]; [discriminate|]. eapply IHv; [|exact E]. lia. }
  revert H. apply (bind_exn _ _ _ _ _ (fun ex => ex = OSError)).
  - intros ex1. apply (fold_res_exn _ _ _ _ _ _ (fun ex => ex = OSError)). intros a b ex2.
    apply (expand_one_exn _ _ _ _ _ _ _ _ _ (fun ex => ex = OSError)). exact Hv.
  - intros x1 ex1. apply (bind_exn _ _ _ _ _ (fun ex => ex = OSError)).
    + intros ex2. apply (fold_res_exn _ _ _ _ _ _ (fun ex => ex = OSError)). intros a b ex3.
      apply (expand_one_exn _ _ _ _ _ _ _ _ _ (fun ex => ex = OSError)). exact Hv.
    + intros x2 ex2. apply (fold_res_exn _ _ _ _ _ _ (fun ex => ex = OSError)). intros a b ex3.
      apply read_file_one_exn. intros c sn ex4 E. destruct lf as [|lf]; [discriminate|].
      eapply IHl; [|exact E]. lia.
Qed.

Lemma expand_term_exn : forall e s file v ex, expand_term e s file v = Raise ex -> ex = OSError.
Proof.
  intros e s file v ex H. unfold expand_term, expand_term_full, expand_seen in H.
  destruct (expand_f _ _ _ _ _ _ _ _) as [y|e1|] eqn:E; simpl in H; try discriminate.
  inversion H; subst. now apply expand_f_exn in E.
Qed.

(** *** AddFile *)

(** Some readable file has a last line that waits for a further one. *)
Definition stop_cause (e : env) (ex : exn) : Prop :=
  ex = StopIteration ->
  exists file t, fs_read (e_fs e) file = RdText t /\
    exists p l, readlines (universal_newlines t) = p ++ [l] /\ waits l.

Lemma other_exn : forall e ex, ex <> StopIteration -> stop_cause e ex.
Proof. intros e ex H H'. contradiction. Qed.

Lemma find_m_exns : forall e n d Q, exns (find_m e n d) Q.
Proof. intros e n d Q s ex s' H. unfold find_m in H. destruct (find_local_or_layer _ _ _ _); discriminate. Qed.
Lemma find_class_exns : forall e locs i d Q, exns (find_class e locs i d) Q.
Proof.
  intros e locs i d Q. induction locs as [|l locs IH]; simpl; [apply exns_ret|].
  apply exns_bind; [apply find_m_exns|]. intros [|c p]; [exact IH|apply exns_ret].
Qed.

Lemma inherit_loop_exns : forall e addf locs file inhname line l paths off Q,
  (forall p o f, exns (addf p o f) Q) ->
  exns (inherit_loop e addf locs file inhname line l paths off) Q.
Proof.
  intros e addf locs file inhname line l. induction l as [|x l IH]; intros paths off Q Ha; simpl.
  - apply exns_ret.
  - apply exns_bind; [apply find_class_exns|]. intros [|c p]; [now apply IH|].
    apply exns_bind; [apply exns_lift; intros; discriminate|]. intros [|]; [now apply IH|].
    apply exns_bind; [apply Ha|]. intro tmp. now apply IH.
Qed.

Lemma new_item_exns : forall mk Q, exns (new_item mk) Q.
Proof. intros mk Q s ex s' H. discriminate. Qed.

Lemma handle_exns : forall e addf p file line k mt (Q : exn -> Prop),
  Q OSError -> (forall p o f, exns (addf p o f) Q) ->
  exns (handle e addf p file line k mt) Q.
Proof.
  intros e addf p file line k mt Q HO Ha.
  assert (Hd : forall mk, exns (dom i <- new_item mk; ret (Some (i, 0%Z))) Q).
  { intro mk. apply exns_bind; [apply new_item_exns|]. intro i. apply exns_ret. }
  assert (Hx : forall a, exns (liftR (fun s => expand_term e s file a)) Q).
  { intro a. apply exns_lift. intros s ex E. apply expand_term_exn in E. now subst. }
  assert (Hinh : forall locs a st, exns
      (dom inhname <- liftR (fun s => expand_term e s file a);
       dom r <- inherit_loop e addf locs file inhname line (keep_nonempty (split_char cSP inhname)) [] 0%Z;
       dom i <- new_item (fun n => mk_item (p n) (ip_new (p n)) (PInherit a st (fst r)));
       ret (Some (i, snd r))) Q).
  { intros locs a st. apply exns_bind; [apply Hx|]. intro inhname.
    apply exns_bind; [now apply inherit_loop_exns|]. intro r.
    apply exns_bind; [apply new_item_exns|]. intro i. apply exns_ret. }
  destruct k; unfold handle; try apply Hd; try apply Hinh.
  - apply exns_bind; [apply exns_lift; intros; discriminate|]. intro known. apply Hd.
  - apply exns_bind; [apply Hx|]. intro inc. apply exns_bind; [apply find_m_exns|]. intro path.
    assert (Hfin : forall off : Z, exns
       (dom i <- new_item (fun n => mk_item (p n) (ip_new (p n))
                   (PInclude (group_str "incname" mt) (group_str "statement" mt) path));
        ret (Some (i, off))) Q).
    { intro off. apply exns_bind; [apply new_item_exns|]. intro i. apply exns_ret. }
    destruct path as [|c path]; [apply Hfin|].
    apply exns_bind; [apply exns_lift; intros; discriminate|]. intros [|]; [apply exns_ret|].
    apply exns_bind; [apply Ha|]. intro tmp. apply Hfin.
  - destruct (existsb _ pkg_prefixes); [apply exns_ret|]. apply Hd.
Qed.

Lemma try_kinds_exns : forall e addf p file line cnt l (Q : exn -> Prop),
  Q OSError -> (forall p o f, exns (addf p o f) Q) ->
  exns (try_kinds e addf p file line cnt l) Q.
Proof.
  intros e addf p file line cnt l Q HO Ha. induction l as [|[k r] l IH]; simpl.
  - apply exns_bind; [apply new_item_exns|]. intro i. apply exns_ret.
  - destruct (re_match r cnt) as [mt|]; [|exact IH].
    apply exns_bind; [now apply handle_exns|]. intros [x|]; [apply exns_ret|exact IH].
Qed.

Lemma parse_chunks_exns : forall e addf file off cs inc new (Q : exn -> Prop),
  Q OSError -> (forall p o f, exns (addf p o f) Q) ->
  exns (parse_chunks e addf file off inc new cs) Q.
Proof.
  intros e addf file off cs. induction cs as [|c cs IH]; intros inc new Q HO Ha; cbn [parse_chunks].
  - apply exns_ret.
  - apply exns_bind; [now apply try_kinds_exns|]. intro x.
    apply exns_bind; [now apply IH|]. intro l. apply exns_ret.
Qed.

Lemma prepare_file_exn : forall e file off neg ex,
  prepare_file e file off neg = Raise ex -> stop_cause e ex.
Proof.
  intros e file off neg ex H. unfold prepare_file in H.
  destruct (fs_read (e_fs e) file) as [t| | |] eqn:E; try discriminate;
    try (inversion H; subst; apply other_exn; discriminate).
  intros ->. exists file, t. split; [exact E|]. apply prepare_text_stuck in H. destruct H as [u [Hs Hu]].
  eapply stuck_last; [apply readlines_ok|eassumption|eassumption].
Qed.

Lemma add_names_exns : forall key confs e, exns (add_names key confs) (stop_cause e).
Proof.
  intros key confs e s ex s' H. unfold add_names in H. revert s H.
  induction confs as [|c confs IH]; intros s H; [discriminate|]. cbn in H.
  match type of H with
  | (let (_, _) := ?a in _) = _ => destruct a as [db [x|]] eqn:Ea
  end.
  - inversion H; subst. apply other_exn. intros ->. clear -Ea.
    unfold add_constants, lift_upd in Ea. destruct (st_const s) as [v|v|d]; [discriminate|discriminate|].
    cbn in Ea. destruct (dget "replacements" d) as [[v|v|ad]|]; cbn in Ea; try discriminate.
    destruct (dget key ad) as [[v|v|d2]|]; cbn in Ea; discriminate.
  - eapply IH. exact H.
Qed.

Lemma link_recipe_exn : forall file bn mx l mp ex,
  link_recipe file bn mx l mp = Raise ex -> ex = RegexUnsupported.
Proof.
  intros file bn mx l. induction l as [|i l IH]; intros mp ex H; cbn [link_recipe] in H; [discriminate|].
  assert (Hk : forall mp' (g : list item * list (str * list str) -> list item * list (str * list str)), (do x <- link_recipe file bn mx l mp'; Ok (g x)) = Raise ex ->
               ex = RegexUnsupported).
  { intros mp' g H'. destruct (link_recipe file bn mx l mp') as [x|e|] eqn:E; simpl in H'; try discriminate.
    inversion H'; subst. now apply IH in E. }
  destruct (endswith ".bbappend" (it_origin i)).
  - destruct (dyn_pattern _); [|now inversion H].
    destruct (matched _); [eapply (Hk _ (fun x => (_ :: fst x, snd x)))|eapply (Hk _ (fun x => (i :: fst x, snd x)))]; exact H.
  - eapply (Hk _ (fun x => (i :: fst x, snd x))). exact H.
Qed.

Lemma add_file_exns : forall n e path off forced, exns (add_file n e path off forced) (stop_cause e).
Proof.
  induction n as [|n IH]; intros e path off forced s ex s' H; [discriminate|].
  cbn [add_file] in H.
  destruct (mem_str _ (st_seen s) && negb _); [discriminate|].
  destruct (mem_str _ (st_seenc s)); [discriminate|].
  cbv zeta in H.
  match type of H with bindM ?x ?f ?s1 = _ =>
    assert (G : exns (bindM x f) (stop_cause e)); [|eapply G; exact H] end.
  clear H. apply exns_bind.
  { unfold get_items. apply exns_bind.
    - apply exns_lift. intros s0 ex0 E. eapply prepare_file_exn. exact E.
    - intro cs. apply exns_bind; [apply exns_lift; intros; discriminate|]. intro new.
      apply parse_chunks_exns; [apply other_exn; discriminate|]. intros p o f. apply IH. }
  intro items. apply exns_bind; [intros s0 ex0 s0' E; discriminate|]. intros _.
  apply exns_bind.
  { intros s0 ex0 s0' E. unfold match_appends in E. apply other_exn. intros ->.
    destruct (endswith ".bbappend" _).
    - destruct (dyn_pattern _); [|discriminate].
      destruct (fold_left _ _ _); discriminate.
    - destruct (endswith ".bb" _); [|discriminate].
      destruct (link_recipe _ _ _ _ _) as [[l0 mp]|e0|] eqn:El; try discriminate.
      apply link_recipe_exn in El. inversion E; subst. discriminate. }
  intro items2. apply exns_bind.
  { unfold add_distro_machine. destruct (get_layer_root _ _ _) as [[|c root]|].
    - apply exns_ret.
    - apply exns_bind; [apply add_names_exns|]. intros _. apply add_names_exns.
    - intros s0 ex0 s0' E. discriminate. }
  intros _. apply exns_bind; [intros s0 ex0 s0' E; discriminate|]. intros _. apply exns_ret.
Qed.
