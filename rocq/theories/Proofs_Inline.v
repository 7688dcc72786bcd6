(** * Inline code: proofs *)

From Verif Require Import PyStr Regex UniTable Patterns PyPath Res Inline Const Item Lines Stash
  StrFacts ReFacts LinesFacts NameFacts ParseFacts HistFacts ReachFacts Spec_Parse ClassFacts
  MatchFacts Proofs_Parse Proofs_Stmt Proofs_Stmt2 Proofs_Stmt3 Proofs_Name Spec_Inline InlineFacts InlineEval InlineText.
From Verif Require Import Spec_Query Spec_Expand Proofs_Expand.

(** ** The text of an item comes from its RealRaw *)

Definition inlined (neg : bool) (i : item) : Prop :=
  inline_blocks_of neg (it_realraw i) = Some (it_raw i, it_blocks i).
Definition all_inlined (neg : bool) (s : stash) : Prop := st_neg s = neg /\ Forall (inlined neg) (st_list s).

Lemma chunks_inlined : forall file off neg cs inc new num l,
  chunks_ok off neg num cs -> parsed file off inc new cs l -> Forall (inlined neg) l.
Proof.
  intros file off neg cs. induction cs as [|c cs IH]; intros inc new num l Hc Hp; destruct l as [|i l];
    simpl in Hp; try contradiction; [constructor|].
  destruct Hp as [Hraw [Hrr [Hb [Ho [Hif [Hinf [Hline [Hnew [d [Hd Hp]]]]]]]]]].
  destruct Hc as [Hc1 [_ Hc]]. constructor; [|eapply IH; eassumption].
  unfold inlined. destruct Hc1 as [_ [Hne [Hi _]]]. rewrite (Hrr Hne), Hraw, Hb. exact Hi.
Qed.

Lemma keeps_inlined : forall neg n e path off forced,
  keeps (all_inlined neg) (add_file n e path off forced) (Forall (inlined neg)).
Proof.
  intros neg. induction n as [|n IH]; intros e path off forced s r s' E Hi.
  - inversion E; subst. split; [exact Hi|]. intros a Ea. discriminate.
  - rewrite add_file_eq in E. cbv zeta in E.
    destruct (skipped e path s).
    { inversion E; subst. split; [exact Hi|]. intros a Ea. inversion Ea; subst. constructor. }
    set (file := abspath (fs_cwd (e_fs e)) path) in *.
    revert E Hi. change (all_inlined neg s) with (all_inlined neg (enter file s)).
    generalize (enter file s). clear s. intros s E Hi. revert s r s' E Hi.
    apply (keeps_bind (all_inlined neg) (list item) (list item) _ _ (Forall (inlined neg))).
    + intros s r s' E Hi. pose proof E as E0. unfold get_items in E. unfold bindM at 1, liftR at 1 in E.
      destruct (prepare_file e file off (st_neg s)) as [cs|ex|] eqn:Ep.
      * unfold bindM, liftR in E. pose proof Ep as Ec. apply prepare_file_cnt in Ep.
        assert (K : keeps (all_inlined neg) (parse_chunks e (fun p o f => add_file n e p o (Some f)) file off 0 (st_new s) cs) (Forall classified)).
        { apply keeps_chunks; [intros k x Hx; exact Hx| |exact Ep].
          intros p o f. eapply keeps_weaken; [apply IH|auto]. }
        destruct (K _ _ _ E Hi) as [K1 _]. split; [exact K1|]. intros a ->.
        apply get_items_sat in E0; [|apply add_file_addf_ok]. destruct E0 as [cs' [E1 E2]].
        apply prepare_file_ok in E1. destruct E1 as [E1 _]. destruct Hi as [Hn _]. rewrite Hn in E1.
        eapply chunks_inlined; eassumption.
      * inversion E; subst. split; [exact Hi|]. intros a Ea. discriminate.
      * inversion E; subst. split; [exact Hi|]. intros a Ea. discriminate.
    + intros items Hit s r s' E Hi. apply leave_cases in E.
      destruct E as [f [l [Hf [EL [_ [_ [_ [En [_ [_ [Hl Hr]]]]]]]]]]].
      assert (Hcl : Forall (inlined neg) l).
      { destruct Hl as [->|[mx ->]]; [constructor|]. rewrite Forall_map.
        eapply Forall_impl; [|exact Hit]. intros i H. exact H. }
      destruct Hi as [Hn Hi]. split.
      * split; [congruence|]. rewrite EL. apply Forall_app. split; [|exact Hcl].
        rewrite Forall_map. eapply Forall_impl; [|exact Hi]. intros i H. destruct (Hf i) as [E _]. cbn beta. rewrite E. exact H.
      * intros a Ea. apply Hr in Ea. destruct Ea as [-> _]. exact Hcl.
Qed.

Lemma filled_inlined : forall e s, filled e s -> all_inlined (st_neg s) s.
Proof.
  intros e s H. induction H as [new neg db|n path off forced s r s' _ IH E|l s r s' _ IH E|s r s' _ IH E|db s _ IH].
  - split; constructor.
  - pose proof (proj1 (keeps_inlined (st_neg s) n e path off forced s r s' E IH)) as [E1 E2]. split; [reflexivity|]. now rewrite E1.
  - apply remove_items_shape in E. destruct E as [E1 E2]. assert (En : st_neg s' = st_neg s) by (rewrite E2; reflexivity).
    split; [reflexivity|]. rewrite En. destruct IH as [_ IH]. rewrite Forall_forall in *. auto.
  - apply finalize_shape in E. destruct E as [g [mp [Hg [-> _]]]]. split; [reflexivity|]. cbn. rewrite Forall_map.
    destruct IH as [_ IH]. eapply Forall_impl; [|exact IH]. intros i Hi. cbn beta. destruct (Hg i) as [v ->]. exact Hi.
  - exact IH.
Qed.

Lemma parsed_inlined : forall e neg i, parsed_with e neg i -> inlined neg i.
Proof.
  intros e neg i [s [Hs [<- Hi]]]. apply filled_inlined in Hs. destruct Hs as [_ Hs]. rewrite Forall_forall in Hs. auto.
Qed.
Lemma parsed_with_item : forall e neg i, parsed_with e neg i -> parsed_item e i.
Proof. intros e neg i [s [Hs [_ Hi]]]. now exists s. Qed.

(** ** C15, C16 *)

Lemma shown_good : forall neg l l', shown neg l l' -> good neg l /\ put (shows neg) l = l'.
Proof.
  intros neg l l' H. induction H as [|[p b] [p' v] l l' [E [Hp [Hb [Hv Hq]]]] H [IH1 IH2]]; [split; [constructor|reflexivity]|].
  cbn [fst snd] in *. subst p'. pose proof (evaluates_shows _ _ _ Hv) as Es. split.
  - constructor; [|exact IH1]. cbn [fst snd]. rewrite Es. auto.
  - unfold put in *. cbn [map fst snd]. now rewrite Es, IH2.
Qed.

Lemma C16_text_lemma : forall e neg i l l' rest, parsed_with e neg i -> it_realraw i = written l rest ->
  shown neg l l' -> ~ occurs "${@" rest -> it_raw i = written l' rest.
Proof.
  intros e neg i l l' rest Hi E Hl Hr. apply parsed_inlined in Hi. unfold inlined in Hi. rewrite E in Hi.
  destruct (shown_good _ _ _ Hl) as [G P]. rewrite (blocks_written neg rest Hr l G), P in Hi. now inversion Hi.
Qed.

Lemma C15_lemma : forall e neg i p b var item at_ af t f d q, parsed_with e neg i -> it_realraw i = p ++ b ++ q ->
  quiet p -> block b -> ~ occurs "${@" q -> quiet (if neg then f else t) ->
  calls "bb.utils.contains" [var; item; at_; af; [d]] b -> quoted t at_ -> quoted f af ->
  it_raw i = p ++ (if neg then f else t) ++ q.
Proof.
  intros e neg i p b var item at_ af t f d q Hi E Hp Hb Hq Hr Hc Qt Qf.
  apply (C16_text_lemma e neg i [(p, b)] [(p, if neg then f else t)] q Hi E); [|exact Hq].
  constructor; [|constructor]. cbn [fst snd]. repeat split; try apply Hp; try exact Hb; try apply Hr.
  apply (ev_helper neg b _ _ _ Hc). now constructor.
Qed.

(** ** C17: putting the code back *)

Lemma occurs_past : forall (x A R a b : str) c, x <> [] -> ~ In c x -> ~ occurs x A ->
  A ++ c :: R = a ++ x ++ b -> length A < length a.
Proof.
  intros x A R a b c Hx Hc HA E. apply app_eq_app in E. destruct E as [z [[E1 E2]|[E1 E2]]].
  - exfalso. apply app_eq_app in E2. destruct E2 as [w [[F1 F2]|[F1 F2]]].
    + destruct w as [|d w].
      * rewrite app_nil_r in F1. subst z. apply HA. exists a, []. now rewrite app_nil_r.
      * inversion F2; subst d. apply Hc. rewrite F1. apply in_app_iff. right. now left.
    + apply HA. exists a, w. now rewrite E1, F1.
  - rewrite E1, app_length. destruct z as [|d z]; [|cbn [length]; lia]. exfalso. cbn [app] in E2.
    destruct x as [|y x]; [congruence|]. inversion E2; subst. apply Hc. now left.
Qed.
Lemma occurs_snoc : forall (x A : str) c, x <> [] -> ~ In c x -> ~ occurs x A -> ~ occurs x (A ++ [c]).
Proof.
  intros x A c Hx Hc HA [a [b E]]. pose proof (occurs_past x A [] a b c Hx Hc HA E) as L.
  apply (f_equal (@length N)) in E. rewrite !app_length in E. cbn [length] in E. destruct x; [congruence|cbn [length] in E; lia].
Qed.

Lemma marker_at : forall P T a b, ~ occurs "inlineblock" P -> P ++ INLINE_BLOCK ++ T = a ++ INLINE_BLOCK ++ b -> length P <= length a.
Proof.
  intros P T a b HP E.
  assert (N : ~ In 33%N ("inlineblock" : str)) by (cbn; intuition discriminate).
  assert (H2 : ~ occurs "inlineblock" ((P ++ "!") ++ "!")) by (apply occurs_snoc; [discriminate|exact N|]; apply occurs_snoc; [discriminate|exact N|exact HP]).
  pose proof (occurs_past "inlineblock" ((P ++ "!") ++ "!") ("inlineblock" ++ "!!!" ++ T) (a ++ "!!!") ("!!!" ++ b) 33%N
                ltac:(discriminate) N H2) as L.
  rewrite !app_length in L. cbn [length] in L. unfold INLINE_BLOCK in E. cbn [app] in E, L.
  rewrite <- !app_assoc in L. cbn [app] in L. specialize (L E). lia.
Qed.

Lemma marker_replaced : forall P T v, ~ occurs "inlineblock" P -> replace1 INLINE_BLOCK v (P ++ INLINE_BLOCK ++ T) = P ++ v ++ T.
Proof.
  intros P T v HP. unfold replace1. destruct (find_str INLINE_BLOCK (P ++ INLINE_BLOCK ++ T)) as [[a b]|] eqn:E.
  - pose proof (find_str_first _ _ _ _ E P T eq_refl) as L. apply find_str_some in E.
    pose proof (marker_at P T a b HP E) as L2.
    assert (Ea : a = P /\ INLINE_BLOCK ++ b = INLINE_BLOCK ++ T).
    { apply app_eq_app in E. destruct E as [z [[E1 E2]|[E1 E2]]]; destruct z as [|c z];
        rewrite ?app_nil_r in E1; cbn [app] in E2; try (split; congruence);
        apply (f_equal (@length N)) in E1; rewrite app_length in E1; cbn [length] in E1; lia. }
    destruct Ea as [-> Eb]. apply app_inv_head in Eb. now subst b.
  - exfalso. now apply (find_str_none _ _ E P T).
Qed.

Lemma restored : forall l A rest, ~ occurs "inlineblock" (A ++ written l rest) ->
  reverse_blocks (map (fun pb => (snd pb, INLINE_BLOCK)) l) (A ++ written (put (fun _ => INLINE_BLOCK) l) rest)
  = A ++ written l rest.
Proof.
  induction l as [|[p b] l IH]; intros A rest H; [reflexivity|].
  cbn [map put written fst snd] in *. unfold reverse_blocks. cbn [fold_left fst snd].
  assert (HP : ~ occurs "inlineblock" (A ++ p)).
  { intros [x [y E]]. apply H. exists x, (y ++ b ++ written l rest). rewrite !app_assoc. rewrite (app_assoc x) in E.
    rewrite E, <- !app_assoc. reflexivity. }
  replace (A ++ p ++ INLINE_BLOCK ++ written (map (fun pb : str * str => (fst pb, INLINE_BLOCK)) l) rest)
    with ((A ++ p) ++ INLINE_BLOCK ++ written (put (fun _ => INLINE_BLOCK) l) rest) by (now rewrite <- app_assoc).
  rewrite marker_replaced by exact HP.
  pose proof (IH ((A ++ p) ++ b) rest) as X. rewrite <- !app_assoc in X. rewrite <- !app_assoc. exact (X H).
Qed.

(** ** The value of an item *)

Lemma put_out : forall f l rest c, (forall b, In b (map snd l) -> ~ In c (f b)) -> ~ In c (written l rest) ->
  ~ In c (written (put f l) rest).
Proof.
  intros f l rest c Hf H. induction l as [|[p b] l IH]; [exact H|]. cbn [put map written fst snd] in *.
  intro X. rewrite !in_app_iff in X, H. destruct X as [X|[X|X]]; [tauto| |].
  - revert X. apply Hf. now left.
  - revert X. apply IH; [intros b' Hb'; apply Hf; now right|tauto].
Qed.

Lemma one_line_plain : forall i t, it_raw i = t ++ [cNL] -> ~ In cNL t -> ~ In cBSL t -> one_line i = t.
Proof.
  intros i t E Hn Hb. unfold one_line. rewrite E, filter_app. cbn [filter app]. change (negb (cNL =? cNL)%N) with false. cbn iota.
  rewrite app_nil_r. clear E. induction t as [|c t IH]; [reflexivity|]. cbn [filter].
  assert (c <> cNL /\ c <> cBSL) as [C1 C2] by (split; intros ->; [apply Hn|apply Hb]; now left).
  apply N.eqb_neq in C1, C2. rewrite C1. cbn [negb map]. rewrite C2. f_equal. apply IH; intro X; [apply Hn|apply Hb]; now right.
Qed.

Lemma stripped_quoted : forall s, unquoted s -> var_value_stripped ([cDQ] ++ s ++ [cDQ]) = s.
Proof.
  intros s [H1 H2]. unfold var_value_stripped, strip_ws, strip_p, rstrip, lstrip.
  rewrite (lstrip_p_id py_space) by reflexivity. rewrite app_assoc, (rstrip_p_id py_space) by reflexivity. rewrite <- app_assoc.
  rewrite lstrip_p_app by reflexivity.
  destruct s as [|c s]; [reflexivity|]. cbn [app]. rewrite lstrip_p_id.
  - change (c :: s ++ [cDQ]) with ((c :: s) ++ [cDQ]). rewrite rstrip_p_app by reflexivity.
    destruct (exists_last (l := c :: s) ltac:(discriminate)) as [t [d E]]. rewrite E. apply rstrip_p_id.
    pose proof (H2 d t E) as X. unfold in_chars. cbn [existsb]. apply N.eqb_neq in X. now rewrite X.
  - pose proof (H1 c s eq_refl) as X. unfold in_chars. cbn [existsb]. apply N.eqb_neq in X. now rewrite X.
Qed.

Lemma written_cons : forall l rest c t, written l rest = c :: t -> l = [] /\ rest = c :: t \/
  exists p b r, l = (p, b) :: r /\ ((exists q, p = c :: q) \/ (p = [] /\ ((exists q, b = c :: q) \/ b = []))).
Proof.
  intros [|[p b] r] rest c t E; [left; auto|right]. exists p, b, r. split; [reflexivity|].
  cbn [written] in E. destruct p as [|d p]; [|left; inversion E; subst; now exists p]. right. split; [reflexivity|].
  destruct b as [|d b]; [now right|left]. inversion E; subst. now exists b.
Qed.

Lemma marker_unquoted : forall l rest, unquoted (written l rest) -> Forall (fun pb => block (snd pb)) l ->
  unquoted (written (put (fun _ => INLINE_BLOCK) l) rest).
Proof.
  intros l rest [H1 H2] Hb. split.
  - intros c t E. destruct l as [|[p b] r]; [now apply (H1 c t)|]. cbn [put map written fst snd] in *.
    destruct p as [|d p]; [inversion E; discriminate|]. inversion E; subst. now apply (H1 c (p ++ b ++ written r rest)).
  - clear H1. induction l as [|[p b] r IH]; [exact H2|]. inversion Hb as [|? ? Hb1 Hb2]; subst. cbn [snd] in Hb1.
    cbn [put map written fst snd] in *. intros c t E.
    destruct (written (put (fun _ => INLINE_BLOCK) r) rest) as [|y z] eqn:Ez.
    + unfold put in Ez. rewrite Ez, app_nil_r in E. unfold INLINE_BLOCK in E.
      change ("!!!inlineblock!!!" : str) with (("!!!inlineblock!!" : str) ++ "!") in E. rewrite app_assoc in E.
      apply app_inj_tail in E. destruct E as [_ <-]. discriminate.
    + destruct (exists_last (l := y :: z) ltac:(discriminate)) as [u [d Eu]]. unfold put in Ez. rewrite Ez, Eu, !app_assoc in E.
      apply app_inj_tail in E. destruct E as [_ <-]. apply IH with (t := u); [|exact Hb2|now rewrite <- Eu].
      intros c' t' E'. apply (H2 c' (p ++ b ++ t')). rewrite E', !app_assoc. reflexivity.
Qed.

Lemma marker_quiet : quiet INLINE_BLOCK.
Proof.
  split; [|split].
  - intros [a [b E]]. assert (X : contains "${@" INLINE_BLOCK = true) by (apply contains_spec; eauto). discriminate.
  - intros q E. change INLINE_BLOCK with (("!!!inlineblock!!" : str) ++ "!") in E. apply app_inj_tail in E. destruct E. discriminate.
  - intros q E. change INLINE_BLOCK with (("!!!inlineblock!!" : str) ++ "!") in E. change (q ++ "${") with (q ++ ("$" ++ "{")) in E.
    rewrite app_assoc in E. apply app_inj_tail in E. destruct E. discriminate.
Qed.

Lemma no_at : forall s, ~ In 64%N s -> ~ occurs "${@" s.
Proof. intros s H [a [b E]]. apply H. rewrite E. rewrite !in_app_iff. right. left. cbn. tauto. Qed.

Lemma head_quiet : forall name op value text, assignment name op value text -> quiet (name ++ op ++ [cDQ]).
Proof.
  intros name op value text [_ [[_ Hn] [w1 [[core [w2 [-> [H1 [H2 [H3 _]]]]]] _]]]].
  assert (A1 : ~ In 64%N name) by (intro X; apply Hn in X; apply name_char_quote in X; intuition).
  assert (A2 : ~ In 64%N w1) by (intro X; apply H1 in X; discriminate).
  assert (A3 : ~ In 64%N w2) by (intro X; apply H2 in X; discriminate).
  assert (A4 : ~ In 64%N core).
  { intro X. unfold operators in H3. cbn [In] in H3. repeat (destruct H3 as [H3|H3]; [subst core; cbn in X; intuition discriminate|]). destruct H3. }
  rewrite !app_assoc. apply quiet_end; [|discriminate|discriminate]. apply no_at. intro X. rewrite !in_app_iff in X.
  cbn [In] in X. intuition discriminate.
Qed.

Lemma assignment_value : forall name op v v' text, assignment name op ([cDQ] ++ v) text ->
  assignment name op ([cDQ] ++ v') (name ++ op ++ [cDQ] ++ v').
Proof.
  intros name op v v' text [_ [Hn [w1 [[core [w2 [E [H1 [H2 [H3 [H4 H5]]]]]]] H6]]]]. split; [reflexivity|]. split; [exact Hn|].
  exists w1. split; [|exact H6]. exists core, w2. repeat split; try assumption.
  - intros c t Ec. inversion Ec; subst. reflexivity.
  - discriminate.
  - discriminate.
Qed.

Lemma code_blocks : forall neg head l rest tl, code_value l rest -> quiet head -> ~ occurs "${@" (rest ++ tl) ->
  inline_blocks_of neg (head ++ written l rest ++ tl) =
    Some (head ++ written (put (fun _ => INLINE_BLOCK) l) rest ++ tl, map (fun pb => (snd pb, INLINE_BLOCK)) l).
Proof.
  intros neg head l rest tl [Hl [Hn [Hr [Hi Hu]]]] Hh Ht.
  assert (W : forall m, written m rest ++ tl = written m (rest ++ tl)).
  { induction m as [|[p b] m IH]; [reflexivity|]. cbn [written]. now rewrite <- !app_assoc, IH. }
  assert (S : forall m, Forall (fun pb => quiet (fst pb) /\ block (snd pb) /\ unknown (snd pb)) m ->
            put (shows neg) m = put (fun _ => INLINE_BLOCK) m).
  { intros m Hm. induction Hm as [|[p b] m [_ [_ H]] Hm IH]; [reflexivity|]. unfold put in *. cbn [map fst snd] in *.
    rewrite IH. unfold shows. now rewrite unknown_eval. }
  rewrite !W. destruct l as [|[p b] l].
  - cbn [put map written]. exact (blocks_written neg (head ++ rest ++ tl) (quiet_free _ _ Hh Ht) [] (Forall_nil _)).
  - assert (Hl' : Forall (fun pb => quiet (fst pb) /\ block (snd pb) /\ unknown (snd pb)) ((head ++ p, b) :: l)).
    { inversion Hl as [|? ? [A1 [A2 A3]] A4]; subst. cbn [fst snd] in *. constructor; [|exact A4]. cbn [fst snd].
      split; [now apply quiet_app|auto]. }
    pose proof (blocks_written neg (rest ++ tl) Ht ((head ++ p, b) :: l)) as B.
    assert (G : good neg ((head ++ p, b) :: l)).
    { unfold good. eapply Forall_impl; [|exact Hl']. intros [p' b'] [A1 [A2 A3]]. cbn [fst snd] in *. repeat split; try apply A1; try exact A2.
      all: unfold shows; rewrite unknown_eval by exact A3; apply marker_quiet. }
    specialize (B G). rewrite fresh_nodup in B; [|exact Hn|intros x _ []]. rewrite (S _ Hl') in B.
    cbn [written put map fst snd] in *. rewrite <- !app_assoc in B. rewrite B. f_equal. f_equal.
    f_equal; [unfold shows; rewrite unknown_eval; [reflexivity|]|].
    + inversion Hl as [|? ? [_ [_ A3]] _]; subst. exact A3.
    + apply map_ext_in. intros [p' b'] Hin. cbn [snd]. inversion Hl as [|? ? _ A4]; subst. rewrite Forall_forall in A4.
      destruct (A4 _ Hin) as [_ [_ A3]]. unfold shows. now rewrite unknown_eval.
Qed.

Lemma C17_lemma : forall e neg i name op l rest, parsed_with e neg i ->
  it_realraw i = name ++ op ++ [cDQ] ++ written l rest ++ [cDQ; cNL] ->
  assignment name op ([cDQ] ++ written l rest ++ [cDQ]) (name ++ op ++ [cDQ] ++ written l rest ++ [cDQ]) ->
  ~ statement_word name -> ~ In cNL (op ++ written l rest) -> ~ In cBSL (op ++ written l rest) ->
  code_value l rest -> text_of i (written l rest).
Proof.
  intros e neg i name op l rest Hi E Ha Hs Hn Hb Hc.
  pose proof (parsed_inlined _ _ _ Hi) as Hin. unfold inlined in Hin. rewrite E in Hin.
  pose proof (head_quiet _ _ _ _ Ha) as Hh. pose proof Hc as [C1 [C2 [C3 [C4 C5]]]].
  assert (Ht : ~ occurs "${@" (rest ++ [cDQ; cNL])).
  { change [cDQ; cNL] with ([cDQ] ++ [cNL]). rewrite app_assoc.
    apply occurs_snoc; [discriminate|cbn; intuition discriminate|]. apply occurs_snoc; [discriminate|cbn; intuition discriminate|exact C3]. }
  replace (name ++ op ++ [cDQ] ++ written l rest ++ [cDQ; cNL]) with ((name ++ op ++ [cDQ]) ++ written l rest ++ [cDQ; cNL]) in Hin
    by (rewrite <- !app_assoc; reflexivity).
  rewrite (code_blocks neg _ l rest _ Hc Hh Ht) in Hin. injection Hin as E1 E2.
  set (V := written (put (fun _ => INLINE_BLOCK) l) rest) in *.
  assert (N : forall c, ~ In c INLINE_BLOCK -> ~ In c (written l rest) -> ~ In c V).
  { intros c H1 H2. apply put_out; [intros b _; exact H1|exact H2]. }
  assert (Hname : forall c, In c name -> c <> cNL /\ c <> cBSL).
  { intros c X. destruct Ha as [_ [[_ Ha] _]]. apply Ha in X. split; [apply name_char_quote in X; tauto|].
    intros ->. apply name_char_iff in X. discriminate. }
  assert (O : one_line i = name ++ op ++ [cDQ] ++ V ++ [cDQ]).
  { apply one_line_plain.
    - rewrite <- E1. rewrite <- !app_assoc. reflexivity.
    - rewrite !in_app_iff in *. intros [X|[X|[[X|[]]|[X|[X|[]]]]]]; try discriminate.
      + apply Hname in X. tauto.
      + tauto.
      + revert X. apply N; [cbn; intuition discriminate|tauto].
    - rewrite !in_app_iff in *. intros [X|[X|[[X|[]]|[X|[X|[]]]]]]; try discriminate.
      + apply Hname in X. tauto.
      + tauto.
      + revert X. apply N; [cbn; intuition discriminate|tauto]. }
  pose proof (assignment_value name op _ (V ++ [cDQ]) _ Ha) as Ha'. rewrite <- O in Ha'.
  destruct (C10_lemma e i name op _ (parsed_with_item _ _ _ Hi) Ha' Hs) as [[vn [sub [subs Ep]]] _].
  assert (St : stripped i = V).
  { unfold stripped, var_value. rewrite Ep. apply stripped_quoted. apply marker_unquoted; [exact C5|].
    eapply Forall_impl; [|exact C1]. intros x Hx. apply Hx. }
  unfold text_of. rewrite St. split; intro H.
  - destruct l as [|[p b] l]; [reflexivity|]. exfalso. rewrite contains_false in H. subst V. cbn [put map written fst snd] in H.
    now apply (H p (written (map (fun pb : str * str => (fst pb, INLINE_BLOCK)) l) rest)).
  - unfold reverse_inline_block. rewrite St, <- E2. symmetry. exact (restored l [] rest C4).
Qed.

Lemma C17_expand_lemma : forall e s file i v spare seen, env_ok e -> reach e s -> text_of i v -> no_code v ->
  (forall n, n <> [] -> (exists a b, v = a ++ reference n ++ b) ->
     In n spare \/ (stands_for s file n None /\ ~ In n ["PN"; "BPN"; "PV"; "FILE"; "THISDIR"])) ->
  expand_term_full e s file (stripped i) spare seen (Some i) = Ok v.
Proof.
  intros e s file i v spare seen He Hr [T1 T2] Hc Hn. rewrite <- (C44_lemma e s file v spare seen He Hr Hc Hn).
  unfold expand_term_full. destruct (contains INLINE_BLOCK (stripped i)); [now rewrite <- T2|now rewrite <- T1].
Qed.

(** ** C65: values with evaluated code *)

Lemma C65_known_lemma : forall e neg i name op l l' rest, parsed_with e neg i ->
  it_realraw i = name ++ op ++ [cDQ] ++ written l rest ++ [cDQ; cNL] ->
  assignment name op ([cDQ] ++ written l rest ++ [cDQ]) (name ++ op ++ [cDQ] ++ written l rest ++ [cDQ]) ->
  ~ statement_word name -> ~ In cNL (op ++ written l' rest) -> ~ In cBSL (op ++ written l' rest) ->
  shown neg l l' -> ~ occurs "${@" rest -> unquoted (written l' rest) -> ~ occurs "!!!inlineblock!!!" (written l' rest) ->
  text_of i (written l' rest).
Proof.
  intros e neg i name op l l' rest Hi E Ha Hs Hn Hb Hl Hr Hu Hm.
  pose proof (head_quiet _ _ _ _ Ha) as Hh.
  assert (W : forall m tl, written m rest ++ tl = written m (rest ++ tl)).
  { induction m as [|[p b] m IH]; intro tl; [reflexivity|]. cbn [written]. now rewrite <- !app_assoc, IH. }
  assert (Ht : ~ occurs "${@" (rest ++ [cDQ; cNL])).
  { change [cDQ; cNL] with ([cDQ] ++ [cNL]). rewrite app_assoc.
    apply occurs_snoc; [discriminate|cbn; intuition discriminate|]. apply occurs_snoc; [discriminate|cbn; intuition discriminate|exact Hr]. }
  assert (R : it_raw i = (name ++ op ++ [cDQ]) ++ written l' rest ++ [cDQ; cNL]).
  { replace (name ++ op ++ [cDQ] ++ written l rest ++ [cDQ; cNL]) with ((name ++ op ++ [cDQ]) ++ written l rest ++ [cDQ; cNL]) in E
      by (rewrite <- !app_assoc; reflexivity).
    rewrite W in E. rewrite W. destruct Hl as [|[p b] [p' v] l l' [E1 [Hp [Hbl [Hv Hq]]]] Hl].
    - apply (C16_text_lemma e neg i [] [] ((name ++ op ++ [cDQ]) ++ rest ++ [cDQ; cNL]) Hi E); [constructor|now apply quiet_free].
    - cbn [fst snd] in *. subst p'.
      pose proof (C16_text_lemma e neg i (((name ++ op ++ [cDQ]) ++ p, b) :: l) (((name ++ op ++ [cDQ]) ++ p, v) :: l') (rest ++ [cDQ; cNL]) Hi) as X.
      cbn [written] in X, E. cbn [written]. rewrite !app_assoc in X, E. rewrite !app_assoc. apply X; [exact E| |exact Ht].
      constructor; [|exact Hl]. cbn [fst snd]. repeat split; try apply Hbl; try exact Hv; try apply Hq.
      all: rewrite <- (app_assoc name op); apply (quiet_app _ _ Hh Hp). }
  assert (Hname : forall c, In c name -> c <> cNL /\ c <> cBSL).
  { intros c X. destruct Ha as [_ [[_ Ha] _]]. apply Ha in X. split; [apply name_char_quote in X; tauto|].
    intros ->. apply name_char_iff in X. discriminate. }
  assert (O : one_line i = name ++ op ++ [cDQ] ++ written l' rest ++ [cDQ]).
  { apply one_line_plain.
    - rewrite R. rewrite <- !app_assoc. reflexivity.
    - rewrite !in_app_iff in *. intros [X|[X|[[X|[]]|[X|[X|[]]]]]]; try discriminate; [apply Hname in X| |]; tauto.
    - rewrite !in_app_iff in *. intros [X|[X|[[X|[]]|[X|[X|[]]]]]]; try discriminate; [apply Hname in X| |]; tauto. }
  pose proof (assignment_value name op _ (written l' rest ++ [cDQ]) _ Ha) as Ha'. rewrite <- O in Ha'.
  destruct (C10_lemma e i name op _ (parsed_with_item _ _ _ Hi) Ha' Hs) as [[vn [sub [subs Ep]]] _].
  assert (St : stripped i = written l' rest).
  { unfold stripped, var_value. rewrite Ep. now apply stripped_quoted. }
  unfold text_of. rewrite St. split; [reflexivity|]. intro H. exfalso. apply Hm. now apply contains_spec.
Qed.
