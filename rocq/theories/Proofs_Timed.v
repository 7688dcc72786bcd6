(** * Proofs about parsing with time limits *)

From Verif Require Import PyStr Regex Patterns PyPath Res Inline Const Item Lines Stash
  StrFacts ReFacts LinesFacts ParseFacts Timed Spec_Timed.

Section timed.
Context (clk : clock).

(** ** iterate *)

Lemma cont_loop_t_spec : forall rest res line k t r k',
  cont_loop_t clk res line rest k = (Ok (t, r), k') ->
  exists ls, rest = ls ++ r /\ t = res ++ line ++ concat ls.
Proof.
  induction rest as [|l rest IH]; intros res line k t r k' H; simpl in H;
    destruct (negb (clk k) && is_next_line line); try discriminate.
  - inversion H; subst. exists []. simpl. now rewrite app_nil_r.
  - apply IH in H. destruct H as [ls [-> ->]]. exists (l :: ls). simpl. split; [reflexivity|].
    now rewrite <- !app_assoc.
  - inversion H; subst. exists []. simpl. now rewrite app_nil_r.
Qed.

Lemma comment_loop_t_spec : forall rest res k t n r k',
  Forall (fun l => l <> []) rest ->
  comment_loop_t clk res rest k = (t, n, r, k') ->
  exists ls, rest = ls ++ line_list n r /\ t = res ++ concat ls.
Proof.
  induction rest as [|l rest IH]; intros res k t n r k' Hne H; simpl in H.
  - inversion H; subst. exists []. simpl. now rewrite app_nil_r.
  - inversion Hne as [|? ? Hl Hr]; subst. destruct (negb (clk k) && is_comment_pure l).
    + apply IH in H; [|assumption]. destruct H as [ls [-> ->]]. exists (l :: ls). simpl.
      split; [reflexivity|]. now rewrite <- !app_assoc.
    + inversion H; subst. exists []. simpl. rewrite app_nil_r.
      destruct n; [congruence|]. auto.
Qed.

Lemma def_loop_t_spec : forall rest res k t n r k',
  Forall (fun l => l <> []) rest ->
  def_loop_t clk res rest k = (t, n, r, k') ->
  exists ls, rest = ls ++ line_list n r /\ t = res ++ concat ls.
Proof.
  induction rest as [|l rest IH]; intros res k t n r k' Hne H; simpl in H.
  - inversion H; subst. exists []. simpl. now rewrite app_nil_r.
  - inversion Hne as [|? ? Hl Hr]; subst.
    assert (Hstop : forall k0, (res, l, rest, k0) = (t, n, r, k') ->
                    exists ls, l :: rest = ls ++ line_list n r /\ t = res ++ concat ls).
    { intros k0 E. inversion E; subst. exists []. simpl. rewrite app_nil_r.
      destruct n; [congruence|]. auto. }
    destruct (negb (clk k) && is_valid_func_name l); [eauto|]. destruct (startswith "def " l); [eauto|].
    apply IH in H; [|assumption]. destruct H as [ls [-> ->]]. exists (l :: ls). simpl.
    split; [reflexivity|]. now rewrite <- !app_assoc.
Qed.

Lemma iterate_t_spec : forall buf rest k t n r k',
  buf <> [] -> Forall (fun l => l <> []) rest ->
  iterate_t clk buf rest k = (Ok (t, n, r), k') ->
  exists ls, rest = ls ++ line_list n r /\ t = buf ++ concat ls.
Proof.
  intros buf rest k t n r k' Hb Hne H. unfold iterate_t, ask in H.
  destruct (negb (clk k) && is_next_line buf).
  { destruct rest as [|l rest]; [discriminate|].
    destruct (cont_loop_t clk buf l rest (S k)) as [[[t' r']|e|] k1] eqn:E; simpl in H; try discriminate.
    inversion H; subst. apply cont_loop_t_spec in E. destruct E as [ls [-> ->]].
    exists (l :: ls). simpl. auto. }
  destruct (negb (clk (S k)) && is_func_start buf).
  { destruct rest as [|l rest]; [discriminate|].
    destruct (func_loop buf 0 l rest) as [t' r'] eqn:E. inversion H; subst.
    apply func_loop_spec in E. destruct E as [ls [-> ->]]. exists (l :: ls). simpl. auto. }
  destruct (negb (clk (S (S k))) && is_comment_pure buf).
  { destruct (comment_loop_t clk buf rest (S (S (S k)))) as [x k1] eqn:E. inversion H; subst.
    now apply comment_loop_t_spec in E. }
  destruct (is_def_line buf).
  { destruct (def_loop_t clk buf rest (S (S (S k)))) as [x k1] eqn:E. inversion H; subst.
    now apply def_loop_t_spec in E. }
  destruct buf as [|c buf]; [congruence|]. inversion H; subst. exists []. simpl.
  now rewrite app_nil_r.
Qed.

Lemma cont_loop_t_bad : forall rest res line k x k',
  cont_loop_t clk res line rest k = (x, k') -> (exists y, x = Ok y) \/ x = Raise StopIteration.
Proof.
  induction rest as [|l rest IH]; intros res line k x k' H; simpl in H;
    destruct (negb (clk k) && is_next_line line); first [now apply IH in H|inversion H; subst; eauto].
Qed.

Lemma iterate_t_bad : forall buf rest k x k',
  iterate_t clk buf rest k = (x, k') -> (exists y, x = Ok y) \/ x = Raise StopIteration.
Proof.
  intros buf rest k x k' H. unfold iterate_t, ask in H.
  destruct (negb (clk k) && is_next_line buf).
  { destruct rest as [|l rest]; [inversion H; subst; eauto|].
    destruct (cont_loop_t clk buf l rest (S k)) as [y k1] eqn:E. inversion H; subst.
    apply cont_loop_t_bad in E. destruct E as [[y' ->]| ->]; simpl; eauto. }
  destruct (negb (clk (S k)) && is_func_start buf).
  { destruct rest as [|l rest]; [inversion H; subst; eauto|].
    destruct (func_loop buf 0 l rest). inversion H; subst; eauto. }
  destruct (negb (clk (S (S k))) && is_comment_pure buf).
  { destruct (comment_loop_t clk buf rest (S (S (S k)))). inversion H; subst; eauto. }
  destruct (is_def_line buf).
  { destruct (def_loop_t clk buf rest (S (S (S k)))). inversion H; subst; eauto. }
  destruct buf; inversion H; subst; eauto.
Qed.

(** ** Inline code *)

Lemma first_eval_t_small : forall l s k v k',
  (forall a f, In (a, f) l -> forall s v, f s = Some v -> eval_small s v) ->
  first_eval_t clk l s k = (Some v, k') -> eval_small s v.
Proof.
  induction l as [|[a f] l IH]; intros s k v k' Hf H; simpl in H; [discriminate|].
  set (x := if contains a s then ask_match clk (f s) k else (None, k)) in *.
  assert (Hx : forall w, fst x = Some w -> eval_small s w).
  { intros w Hw. apply (Hf a f); [now left|]. unfold x, ask_match in Hw.
    destruct (contains a s); [|discriminate]. simpl in Hw. destruct (clk k); [discriminate|exact Hw]. }
  clearbody x. destruct x as [o k1]. destruct (first_eval_t clk l s k1) as [o2 k2] eqn:E.
  destruct o as [w|]; inversion H; subst; [now apply Hx|].
  apply (IH s k1 v k'); [|exact E]. intros b g Hg. apply (Hf b). now right.
Qed.

Lemma inlinerep_t_small : forall s neg k v k',
  inlinerep_t clk s neg k = (Some v, k') -> eval_small (inline_clean s) v.
Proof.
  intros s neg k v k' H. unfold inlinerep_t in H. apply first_eval_t_small in H; [assumption|].
  intros a f Hf. unfold inline_evals_t in Hf. cbn [In] in Hf.
  repeat match type of Hf with
         | _ \/ _ => destruct Hf as [Hf|Hf]
         end; try contradiction; apply (f_equal snd) in Hf; cbn [snd] in Hf; subst f; intros s0 v0 H0;
    first [eapply eval_two_small; exact H0 | eapply eval_one_small; exact H0
          | eapply eval_distro_small; exact H0 | eapply d_getvar_small; exact H0].
Qed.

Lemma inline_step_t_measure : forall neg raw k raw' b k',
  inline_step_t clk neg raw k = (Some (raw', b), k') ->
  count_char 36 raw' < count_char 36 raw \/
  (count_char 36 raw' <= count_char 36 raw /\ length raw' < length raw).
Proof.
  intros neg raw k raw' b k' H. unfold inline_step_t in H.
  destruct (find_str "${@" raw) as [[pre post]|] eqn:E; [|discriminate].
  apply find_str_some in E.
  assert (Hskip : skipn (length pre) raw = "${@" ++ post).
  { rewrite E, skipn_app, skipn_all, Nat.sub_diag. reflexivity. }
  rewrite Hskip in H. remember (get_full_scope ("${@" ++ post) 3) as repl eqn:Er.
  destruct (get_full_scope_start "${@" post 3) as [t Ht]; [simpl; lia|].
  rewrite <- Er in Ht.
  destruct (get_full_scope_prefix ("${@" ++ post) 3) as [t2 Ht2]. rewrite <- Er in Ht2.
  assert (Hne : repl <> []) by (rewrite Ht; discriminate).
  assert (Hin : contains repl raw = true).
  { apply contains_spec. exists pre, t2. now rewrite E, Ht2. }
  destruct (inlinerep_t clk repl neg k) as [o k1] eqn:Eo.
  set (repl' := match o with Some v => v | None => INLINE_BLOCK end) in *.
  inversion H; subst raw' b k1. clear H.
  destruct (replace_measure (count_char 36) repl repl' raw eq_refl (count_char_app 36) Hne)
    as [n [Hn Hp]]. specialize (Hp Hin).
  destruct (replace_measure (@length N) repl repl' raw eq_refl (@app_length N) Hne)
    as [n2 [Hn2 Hp2]]. specialize (Hp2 Hin).
  assert (Hr : count_char 36 repl' < count_char 36 repl \/
               (count_char 36 repl' <= count_char 36 repl /\ length repl' < length repl)).
  { destruct (inline_clean_dollar t) as [Hd Hl]. rewrite <- Ht in Hd, Hl.
    subst repl'. destruct o as [v|].
    - apply inlinerep_t_small in Eo. destruct Eo as [Ei|[->|[w [Ei [-> [_ Hw]]]]]].
      + left. pose proof (substr_count 36 _ _ Ei). lia.
      + left. simpl. lia.
      + right. pose proof (substr_count 36 _ _ Ei). rewrite !count_char_app, !app_length. simpl. lia.
    - left. rewrite INLINE_BLOCK_no_dollar. lia. }
  destruct Hr as [Hr|[Hr1 Hr2]].
  - left. nia.
  - right. split; nia.
Qed.

Lemma inline_step_t_none : forall neg raw k k',
  inline_step_t clk neg raw k = (None, k') -> contains "${@" raw = false.
Proof.
  intros neg raw k k' H. unfold inline_step_t in H. unfold contains.
  destruct (find_str "${@" raw) as [[pre post]|]; [|reflexivity].
  destruct (inlinerep_t clk _ neg k). discriminate.
Qed.

Lemma inline_outer_t_eq : forall d neg l raw blocks k,
  inline_outer_t clk d neg l raw blocks k =
  let '(o, k) := inline_step_t clk neg raw k in
  match o with
  | None => (Some (raw, rev blocks), k)
  | Some (raw', b) =>
      if Nat.ltb (count_char 36 raw') (count_char 36 raw) then
        match d with O => (None, k) | S d' => inline_outer_t clk d' neg (length raw') raw' (b :: blocks) k end
      else
        match l with O => (None, k) | S l' => inline_outer_t clk d neg l' raw' (b :: blocks) k end
  end.
Proof. intros [|d] neg [|l] raw blocks k; reflexivity. Qed.

Lemma inline_outer_t_some : forall d neg l raw blocks k,
  count_char 36 raw <= d -> length raw <= l ->
  exists raw' bs k', inline_outer_t clk d neg l raw blocks k = (Some (raw', bs), k')
    /\ contains "${@" raw' = false.
Proof.
  induction d as [d IHd] using lt_wf_ind. intros neg l. induction l as [l IHl] using lt_wf_ind.
  intros raw blocks k Hd Hl. rewrite inline_outer_t_eq.
  destruct (inline_step_t clk neg raw k) as [[[raw' b]|] k1] eqn:E.
  - apply inline_step_t_measure in E.
    destruct (Nat.ltb_spec (count_char 36 raw') (count_char 36 raw)) as [Hlt|Hge].
    + destruct d as [|d]; [lia|]. apply IHd; lia.
    + destruct E as [E|[E1 E2]]; [lia|]. destruct l as [|l]; [lia|]. apply IHl; lia.
  - exists raw, (rev blocks), k1. split; [reflexivity|]. now apply inline_step_t_none in E.
Qed.

Lemma inline_blocks_t_total : forall neg raw k,
  exists raw' bs k', inline_blocks_t clk neg raw k = (Some (raw', bs), k')
    /\ contains "${@" raw' = false.
Proof. intros neg raw k. apply inline_outer_t_some; lia. Qed.

(** ** Chunks *)

Lemma subparser_t_ok : forall off num neg line rest k c next len rest' k',
  line <> [] -> Forall (fun l => l <> []) rest ->
  subparser_t clk off num neg line rest k = (Ok (c, next, len, rest'), k') ->
  exists ls, rest = ls ++ line_list next rest' /\ ck_realraw c = line ++ concat ls
    /\ ck_line c = (num + off)%Z /\ len = Z.of_nat (count_char cNL (ck_realraw c))
    /\ contains "${@" (ck_raw c) = false.
Proof.
  intros off num neg line rest k c next len rest' k' Hl Hne H. unfold subparser_t in H.
  destruct (iterate_t clk line rest k) as [[[[t n] r]|e|] k1] eqn:E; try discriminate.
  destruct (inline_blocks_t_total neg t k1) as [raw [bs [k2 [Eb Hc]]]]. rewrite Eb in H.
  inversion H; subst; simpl. apply iterate_t_spec in E; try assumption.
  destruct E as [ls [E1 E2]]. exists ls. auto 10.
Qed.

Lemma subparser_t_bad : forall off num neg line rest k x k',
  subparser_t clk off num neg line rest k = (x, k') -> (exists y, x = Ok y) \/ x = Raise StopIteration.
Proof.
  intros off num neg line rest k x k' H. unfold subparser_t in H.
  destruct (iterate_t clk line rest k) as [y k1] eqn:E. apply iterate_t_bad in E.
  destruct E as [[[[t n] r] ->]| ->]; [|inversion H; subst; auto].
  destruct (inline_blocks_t_total neg t k1) as [raw [bs [k2 [Eb Hc]]]]. rewrite Eb in H.
  inversion H; subst. eauto.
Qed.

Lemma prepare_loop_t_eq : forall f off neg next rest num k,
  prepare_loop_t clk (S f) off neg next rest num k =
  match line_list next rest with
  | [] => (Ok [], k)
  | line :: rest' =>
      match subparser_t clk off num neg line rest' k with
      | (Raise ex, k) => (Raise ex, k)
      | (NoFuel, k) => (NoFuel, k)
      | (Ok (c, next, len, rest'), k) =>
          let '(x, k) := prepare_loop_t clk f off neg next rest' (num + len) k in
          (do cs <- x; Ok (c :: cs), k)
      end
  end.
Proof. intros f off neg [|c next] rest num k; [destruct rest; reflexivity|reflexivity]. Qed.

Lemma prepare_loop_t_bad : forall f off neg next rest num k x k',
  length (line_list next rest) < f -> Forall (fun l => l <> []) (line_list next rest) ->
  prepare_loop_t clk f off neg next rest num k = (x, k') ->
  (exists y, x = Ok y) \/ x = Raise StopIteration.
Proof.
  induction f as [|f IH]; intros off neg next rest num k x k' Hf Hne H; [lia|].
  rewrite prepare_loop_t_eq in H. destruct (line_list next rest) as [|line rest0].
  { inversion H; subst. eauto. }
  inversion Hne as [|? ? Hl Hr]; subst.
  destruct (subparser_t clk off num neg line rest0 k) as [y k1] eqn:E.
  destruct (subparser_t_bad _ _ _ _ _ _ _ _ E) as [[[[[c n] len] r] ->]| ->];
    [|inversion H; subst; auto].
  apply subparser_t_ok in E; try assumption. destruct E as [ls [E1 _]].
  destruct (prepare_loop_t clk f off neg n r (num + len) k1) as [z k2] eqn:Ep. inversion H; subst x k2.
  apply IH in Ep.
  - destruct Ep as [[cs ->]| ->]; simpl; eauto.
  - rewrite E1 in Hf. simpl in Hf. rewrite app_length in Hf. lia.
  - rewrite E1 in Hr. now apply Forall_app in Hr.
Qed.

(** The chunks of a text: where they start and what they contain. *)
Fixpoint chunks_at (off num : Z) (cs : list chunk) : Prop :=
  match cs with
  | [] => True
  | c :: r => (ck_line c = (num + off)%Z /\ ck_realraw c <> [] /\ contains "${@" (ck_raw c) = false)
              /\ (r = [] \/ 0 < count_char cNL (ck_realraw c))
              /\ chunks_at off (num + Z.of_nat (count_char cNL (ck_realraw c))) r
  end.

Lemma prepare_loop_t_ok : forall f off neg next rest num k cs k',
  lines_ok (line_list next rest) ->
  prepare_loop_t clk f off neg next rest num k = (Ok cs, k') ->
  concat (map ck_realraw cs) = concat (line_list next rest) /\ chunks_at off num cs.
Proof.
  induction f as [|f IH]; intros off neg next rest num k cs k' Hlok H; [discriminate|].
  rewrite prepare_loop_t_eq in H. pose proof (lines_ok_ne _ Hlok) as Hne.
  destruct (line_list next rest) as [|line rest0] eqn:El.
  - inversion H; subst. simpl. auto.
  - inversion Hne as [|? ? Hl Hr]; subst.
    destruct (subparser_t clk off num neg line rest0 k) as [[[[[c n] len] r]|e|] k1] eqn:E; try discriminate.
    apply subparser_t_ok in E; try assumption. destruct E as [ls [E1 [E2 [E3 [E4 E5]]]]].
    destruct (prepare_loop_t clk f off neg n r (num + len) k1) as [[cs'|e|] k2] eqn:Ep; simpl in H; try discriminate.
    inversion H; subst cs. clear H.
    assert (Hlok' : lines_ok (line_list n r)).
    { apply (lines_ok_app (line :: ls)). simpl. now rewrite <- E1. }
    specialize (IH off neg n r (num + len)%Z k1 cs' k2 Hlok' Ep). destruct IH as [IH1 IH2].
    split.
    + simpl. rewrite IH1, E2, E1, concat_app. now rewrite app_assoc.
    + simpl. split; [|split].
      * repeat split; try assumption. rewrite E2. destruct line; [congruence|discriminate].
      * destruct cs' as [|c2 cs']; [now left|]. right.
        destruct (line_list n r) as [|l2 r2] eqn:El2.
        -- simpl in IH1. destruct IH2 as [[_ [Hc2 _]] _]. apply app_eq_nil in IH1. tauto.
        -- rewrite E2, E1 in *. clear -Hlok. rewrite count_char_app.
           destruct ls as [|l3 ls]; simpl in Hlok; apply lines_ok_full in Hlok; lia.
      * rewrite E4 in IH2. exact IH2.
Qed.

Lemma prepare_text_t_ok : forall off neg text k cs k',
  prepare_text_t clk off neg text k = (Ok cs, k') ->
  concat (map ck_realraw cs) = text /\ chunks_at off 1 cs.
Proof.
  intros off neg text k cs k' H. unfold prepare_text_t in H. apply prepare_loop_t_ok in H.
  - simpl in H. rewrite readlines_concat in H. exact H.
  - apply readlines_ok.
Qed.

Lemma prepare_text_t_bad : forall off neg text k x k',
  prepare_text_t clk off neg text k = (x, k') -> (exists y, x = Ok y) \/ x = Raise StopIteration.
Proof.
  intros off neg text k x k' H. eapply prepare_loop_t_bad; [| |exact H]; simpl; [lia|].
  apply lines_ok_ne, readlines_ok.
Qed.

Lemma prepare_file_t_ok : forall e file off neg k cs k',
  prepare_file_t clk e file off neg k = (Ok cs, k') ->
  chunks_at off 1 cs /\
  ((exists t, fs_read (e_fs e) file = RdText t /\ concat (map ck_realraw cs) = universal_newlines t)
   \/ (fs_read (e_fs e) file = RdNotFound /\ cs = [])).
Proof.
  intros e file off neg k cs k' H. unfold prepare_file_t in H.
  destruct (fs_read (e_fs e) file) as [t| | |]; try discriminate.
  - apply prepare_text_t_ok in H. destruct H as [H1 H2]. split; [assumption|]. left. now exists t.
  - inversion H; subst. simpl. split; [exact I|]. right. auto.
Qed.

(** ** Items *)

Definition satT {A} (x : TM A) (P : A -> Prop) : Prop := forall w a w', x w = (Ok a, w') -> P a.

Lemma satT_ret : forall A (a : A) (P : A -> Prop), P a -> satT (retT a) P.
Proof. intros A a P H w b w' E. inversion E; subst. exact H. Qed.
Lemma satT_bind : forall A B (x : TM A) (f : A -> TM B) (P : A -> Prop) (Q : B -> Prop),
  satT x P -> (forall a, P a -> satT (f a) Q) -> satT (bindT x f) Q.
Proof.
  intros A B x f P Q Hx Hf w b w' E. unfold bindT in E.
  destruct (x w) as [[a|ex|] w1] eqn:Ex; try discriminate.
  eapply Hf; [|exact E]. eapply Hx. exact Ex.
Qed.

Definition addf_t_ok (addf : addfile_tt) : Prop := forall p o f, satT (addf p o f) infile_pos.

Lemma carries_mk : forall q new pay, (ip_new q = true -> new = true) -> carries q (mk_item q new pay).
Proof.
  intros q new pay H. unfold carries, mk_item. simpl. repeat split; auto.
  intro Hne. destruct (ip_realraw q); [congruence|reflexivity].
Qed.

Context (hd : handler) (Hhd : handler_ok hd).

Lemma try_kinds_t_sat : forall addf p file line cnt l, addf_t_ok addf ->
  satT (try_kinds_t clk hd addf p file line cnt l)
       (fun x => (exists n, carries (p n) (fst x)) /\ (0 <= snd x)%Z).
Proof.
  intros addf p file line cnt l Ha. induction l as [|[kd r] l IH]; simpl.
  - intros [k s] [i d] [k' s'] H. unfold bindT, liftM, new_item, bindM, ret, retT in H. simpl in H.
    inversion H; subst. simpl. split; [|lia]. eexists. apply carries_mk. auto.
  - intros [k s] a w' H. simpl in H.
    destruct (if clk k then None else re_match r cnt) as [mt|].
    + unfold bindT in H. destruct (hd addf p file line kd mt (S k, s)) as [[[[i d]|]|ex|] w1] eqn:E; try discriminate.
      * inversion H; subst. simpl. apply (Hhd addf p file line kd mt) in E; [exact E|].
        intros path off link w l0 w0 E0. eapply Ha. exact E0.
      * eapply IH. exact H.
    + eapply IH. exact H.
Qed.

Lemma parse_chunks_t_sat : forall addf file off cs inc new, addf_t_ok addf ->
  satT (parse_chunks_t clk hd addf file off inc new cs) (parsed file off inc new cs).
Proof.
  intros addf file off cs. induction cs as [|c cs IH]; intros inc new Ha; cbn [parse_chunks_t].
  - now apply satT_ret.
  - eapply satT_bind; [now apply try_kinds_t_sat|]. intros [i d] [[n Hi] Hd]. cbn [fst snd] in *.
    eapply satT_bind; [now apply IH|]. intros l Hl. apply satT_ret.
    destruct Hi as [H1 [H2 [H3 [H4 [H5 [H6 [H7 H8]]]]]]]. simpl in *. repeat split; auto.
    exists d. auto.
Qed.

Lemma get_items_t_sat : forall e addf file off, addf_t_ok addf ->
  forall w l w', get_items_t clk hd e addf file off w = (Ok l, w') ->
  exists cs k', prepare_file_t clk e file off (st_neg (snd w)) (fst w) = (Ok cs, k')
    /\ parsed file off 0 (st_new (snd w)) cs l.
Proof.
  intros e addf file off Ha [k s] l w' H. unfold get_items_t in H. unfold bindT at 1 in H. simpl fst in H. simpl snd in H.
  destruct (prepare_file_t clk e file off (st_neg s) k) as [[cs|ex|] k1] eqn:E; try discriminate.
  exists cs, k1. split; [exact E|]. unfold bindT, liftM, liftR in H. simpl in H.
  eapply parse_chunks_t_sat; [exact Ha|exact H].
Qed.

Lemma parsed_text_t : forall file off cs inc new num l,
  chunks_at off num cs -> parsed file off inc new cs l ->
  map it_realraw l = map ck_realraw cs /\ map it_infile l = lines_before num l
  /\ Forall (fun i => it_realraw i <> [] /\ it_origin i = file /\ it_incfrom i = []
                      /\ contains "${@" (it_raw i) = false) l.
Proof.
  intros file off cs. induction cs as [|c cs IH]; intros inc new num l Hc Hp; destruct l as [|i l];
    simpl in Hp; try contradiction; simpl; [auto|].
  destruct Hp as [Hraw [Hrr [Hb [Ho [Hif [Hinf [Hline [Hnew [d [Hd Hp]]]]]]]]]].
  destruct Hc as [[Hl [Hne Hm]] [_ Hc]]. specialize (Hrr Hne).
  destruct (IH _ _ _ _ Hc Hp) as [I1 [I2 I3]]. rewrite Hrr. repeat split.
  - now rewrite I1.
  - rewrite I2, Hinf, Hl. f_equal. lia.
  - constructor; [|assumption]. rewrite Hrr, Hraw. auto.
Qed.

Lemma parsed_infile_t : forall file off cs inc new l,
  chunks_at off 1 cs -> parsed file off inc new cs l -> infile_pos l.
Proof.
  intros file off cs inc new l Hc Hp. destruct (parsed_text_t _ _ _ _ _ _ _ Hc Hp) as [_ [H _]].
  unfold infile_pos. pose proof (lines_before_ge l 1) as Hl. rewrite <- H in Hl.
  rewrite Forall_map in Hl. exact Hl.
Qed.

Lemma parsed_lines_t : forall file off cs inc new num l,
  chunks_at off num cs -> parsed file off inc new cs l ->
  increasing (map it_line l) /\ increasing (map it_infile l)
  /\ (forall i r, l = i :: r -> it_line i = (num + off + inc)%Z /\ it_infile i = num).
Proof.
  intros file off cs. induction cs as [|c cs IH]; intros inc new num l Hc Hp; destruct l as [|i l];
    simpl in Hp; try contradiction.
  - repeat split; try constructor; intros; discriminate.
  - destruct Hp as [Hraw [Hrr [Hb [Ho [Hif [Hinf [Hline [Hnew [d [Hd Hp]]]]]]]]]].
    destruct Hc as [[Hl [Hne _]] [Hlast Hc]].
    destruct (IH _ _ _ _ Hc Hp) as [I1 [I2 I3]].
    assert (Hhead : forall i0 r, i :: l = i0 :: r -> it_line i0 = (num + off + inc)%Z /\ it_infile i0 = num).
    { intros i0 r E. inversion E; subst. split; lia. }
    destruct l as [|j l]; simpl.
    + repeat split; try constructor; apply (Hhead i0 r H).
    + destruct (I3 j l eq_refl) as [J1 J2]. destruct cs as [|c2 cs]; [contradiction|].
      destruct Hlast as [Hlast|Hlast]; [discriminate|].
      split; [|split; [|exact Hhead]].
      * constructor; [lia|exact I1].
      * constructor; [lia|exact I2].
Qed.

Lemma match_appends_t_shift : forall file items w l w',
  match_appends_t clk file items w = (Ok l, w') ->
  exists mx, l = map (fun i => set_line (it_line i + mx) i) items.
Proof.
  intros file items [k s] l w' H. unfold match_appends_t in H. simpl in H.
  destruct (endswith ".bbappend" file) eqn:Ea.
  - destruct (dyn_pattern (append_pattern file)) as [rx|]; [|discriminate].
    destruct (fold_left _ (dkeys (st_map s)) (st_map s, 0%Z, k)) as [[mp mx] k1]. inversion H; subst.
    now exists mx.
  - exists 0%Z.
    assert (E : l = items).
    { destruct (endswith ".bb" file); [|inversion H; subst; reflexivity].
      destruct (link_recipe_t _ _ _ _ _ _ _) as [[[l0 mp]|ex|] k1]; inversion H; subst; reflexivity. }
    subst. rewrite <- map_id at 1. apply map_ext. intro i. unfold set_line. rewrite Z.add_0_r.
    now destruct i.
Qed.

Lemma add_file_t_inv : forall n e path off forced w l w',
  add_file_t clk hd n e path off forced w = (Ok l, w') ->
  if skipped e path (snd w) then l = [] /\ w' = w
  else
    let file := abspath (fs_cwd (e_fs e)) path in
    exists cs k' l0 mx,
      prepare_file_t clk e file off (st_neg (snd w)) (fst w) = (Ok cs, k') /\ chunks_at off 1 cs /\
      parsed file off 0 (st_new (snd w)) cs l0 /\
      l = map (fun i => set_line (it_line i + mx) i) l0.
Proof.
  induction n as [|n IH]; intros e path off forced [k s] l w' H; [discriminate|].
  cbn [add_file_t] in H. cbn [fst snd] in *. unfold skipped. set (file := abspath (fs_cwd (e_fs e)) path) in *.
  destruct (mem_str file (st_seen s) && negb (mem_str (snd (splitext file)) multi_exts)) eqn:E1.
  { inversion H; subst. simpl. auto. }
  destruct (mem_str file (st_seenc s)) eqn:E2.
  { inversion H; subst. simpl. auto. }
  simpl orb.
  assert (Ha : addf_t_ok (fun p o f => add_file_t clk hd n e p o (Some f))).
  { intros p o f w0 l0 w0' E. apply IH in E. destruct (skipped e p (snd w0)).
    - destruct E as [-> _]. constructor.
    - destruct E as [cs [k' [l1 [mx [_ [Hc [Hp ->]]]]]]].
      apply (parsed_infile_t _ _ _ _ _ _ Hc) in Hp. unfold infile_pos in *. rewrite Forall_map.
      eapply Forall_impl; [|exact Hp]. intros i Hi. exact Hi. }
  cbv zeta in H |- *.
  match type of H with bindT (get_items_t _ _ _ _ _ _) _ ?s1 = _ => set (s1' := s1) in * end.
  unfold bindT at 1 in H.
  destruct (get_items_t clk hd e _ file off s1') as [[l0|ex|] s2] eqn:Eg; try discriminate.
  apply get_items_t_sat in Eg; [|exact Ha]. destruct Eg as [cs [k' [Ec Hp]]].
  unfold bindT at 1 in H. unfold liftM at 1 in H. unfold bindT at 1 in H.
  destruct (match_appends_t clk file l0 _) as [[l1|ex|] s3] eqn:Em; try discriminate.
  apply match_appends_t_shift in Em. destruct Em as [mx ->].
  unfold bindT at 1 in H. destruct (liftM (add_distro_machine e file) s3) as [[u|ex|] s4]; try discriminate.
  unfold bindT, liftM, retT in H. inversion H; subst.
  exists cs, k', l0, mx. split; [exact Ec|]. split; [|split; [exact Hp|reflexivity]].
  now apply prepare_file_t_ok in Ec.
Qed.
End timed.

(** ** The handler of the model *)

Lemma plain_handler_ok : forall e, handler_ok (plain_handler e).
Proof.
  intros e addf p file line kd mt Ha [k s] i d w' H. unfold plain_handler in H. cbn [fst snd] in H.
  match type of H with context [handle e ?f p file line kd mt s] => set (addf' := f) in * end.
  destruct (handle e addf' p file line kd mt s) as [x s1] eqn:E.
  assert (Ha' : addf_ok addf').
  { intros path off link s0 l s0' E0. unfold addf' in E0.
    destruct (addf path off link (k, s0)) as [y w0] eqn:Ey. inversion E0; subst.
    exact (Ha _ _ _ _ _ _ Ey). }
  inversion H; subst. pose proof (handle_sat e addf' p file line kd mt Ha' _ _ _ E) as [Hm Hd].
  split; [|exact Hd]. destruct Hm as [n [new [pay [-> Hn]]]]. exists n. now apply carries_mk.
Qed.

(** ** Without timeouts *)

Section untimed.
Notation no := in_time.

Lemma cont_loop_no : forall rest res line k,
  exists k', cont_loop_t no res line rest k = (cont_loop res line rest, k').
Proof.
  induction rest as [|l rest IH]; intros res line k; simpl; destruct (is_next_line line); eauto.
Qed.
Lemma comment_loop_no : forall rest res k,
  exists k', comment_loop_t no res rest k = (comment_loop res rest, k').
Proof.
  induction rest as [|l rest IH]; intros res k; simpl; [eauto|]. destruct (is_comment_pure l); eauto.
Qed.
Lemma def_loop_no : forall rest res k,
  exists k', def_loop_t no res rest k = (def_loop res rest, k').
Proof.
  induction rest as [|l rest IH]; intros res k; simpl; [eauto|]. destruct (is_valid_func_name l); [eauto|].
  destruct (startswith "def " l); eauto.
Qed.
Lemma iterate_no : forall buf rest k, exists k', iterate_t no buf rest k = (iterate buf rest, k').
Proof.
  intros buf rest k. unfold iterate_t, ask, iterate. change (no k) with false. change (no (S k)) with false.
  change (no (S (S k))) with false. cbn [negb andb].
  destruct (is_next_line buf).
  { destruct rest as [|l r]; [eauto|]. destruct (cont_loop_no r buf l (S k)) as [k' ->]. eauto. }
  destruct (is_func_start buf).
  { destruct rest as [|l r]; [eauto|]. destruct (func_loop buf 0 l r); eauto. }
  destruct (is_comment_pure buf).
  { destruct (comment_loop_no rest buf (S (S (S k)))) as [k' ->]. eauto. }
  destruct (is_def_line buf).
  { destruct (def_loop_no rest buf (S (S (S k)))) as [k' ->]. eauto. }
  destruct buf; eauto.
Qed.

Lemma first_eval_no : forall l s k,
  (forall a f, In (a, f) l -> contains a s = false -> f s = None) ->
  exists k', first_eval_t no l s k = (first_eval (map snd l) s, k').
Proof.
  induction l as [|[a f] l IH]; intros s k Hl; simpl; [eauto|].
  assert (Hr : forall b g, In (b, g) l -> contains b s = false -> g s = None)
    by (intros b g Hg; apply Hl; now right).
  destruct (contains a s) eqn:Ea; simpl.
  - destruct (IH s (S k) Hr) as [k' ->]. destruct (f s); eauto.
  - rewrite (Hl a f (or_introl eq_refl) Ea). destruct (IH s k Hr) as [k' ->]. eauto.
Qed.
Lemma inlinerep_no : forall s neg k, exists k', inlinerep_t no s neg k = (inlinerep s neg, k').
Proof.
  intros s neg k. apply first_eval_no. intros a f Hf Ha. unfold inline_evals_t in Hf. cbn [In] in Hf.
  repeat match type of Hf with
         | _ \/ _ => destruct Hf as [Hf|Hf]
         end; try contradiction;
    pose proof (f_equal fst Hf) as Hx; cbn [fst] in Hx; subst a;
    apply (f_equal snd) in Hf; cbn [snd] in Hf; subst f;
    cbv [bb_utils_contains bb_utils_contains_any bb_utils_filter oe_utils_all_distro_features
         oe_utils_any_distro_features oe_utils_both_contain oe_utils_conditional oe_utils_ifelse
         oe_utils_less_or_equal oe_utils_vartrue oe_utils_version_less_or_equal d_getvar
         eval_one eval_two eval_distro];
    now rewrite Ha.
Qed.
Lemma inline_step_no : forall neg raw k, exists k', inline_step_t no neg raw k = (inline_step neg raw, k').
Proof.
  intros neg raw k. unfold inline_step_t, inline_step. destruct (find_str "${@" raw) as [[pre post]|]; [|eauto].
  cbv zeta. destruct (inlinerep_no (get_full_scope (skipn (length pre) raw) 3) neg k) as [k' ->]. eauto.
Qed.
Lemma inline_outer_no : forall d neg l raw blocks k,
  exists k', inline_outer_t no d neg l raw blocks k = (inline_outer d neg l raw blocks, k').
Proof.
  induction d as [d IHd] using lt_wf_ind. intros neg l. induction l as [l IHl] using lt_wf_ind.
  intros raw blocks k. rewrite inline_outer_t_eq, inline_outer_eq.
  destruct (inline_step_no neg raw k) as [k' ->]. destruct (inline_step neg raw) as [[raw' b]|]; [|eauto].
  destruct (Nat.ltb _ _).
  - destruct d as [|d]; [eauto|]. apply IHd. lia.
  - destruct l as [|l]; [eauto|]. apply IHl. lia.
Qed.
Lemma subparser_no : forall off num neg line rest k,
  exists k', subparser_t no off num neg line rest k = (subparser off num neg line rest, k').
Proof.
  intros off num neg line rest k. unfold subparser_t, subparser.
  destruct (iterate_no line rest k) as [k' ->].
  destruct (iterate line rest) as [[[t n] r]|ex|]; simpl; eauto.
  destruct (inline_outer_no (count_char 36 t) neg (length t) t [] k') as [k2 E]. unfold inline_blocks_t.
  rewrite E. unfold inline_blocks_of. destruct (inline_outer _ _ _ _ _) as [[raw bs]|]; eauto.
Qed.
Lemma prepare_loop_no : forall f off neg next rest num k,
  exists k', prepare_loop_t no f off neg next rest num k = (prepare_loop f off neg next rest num, k').
Proof.
  induction f as [|f IH]; intros off neg next rest num k; [simpl; eauto|].
  rewrite prepare_loop_t_eq, prepare_loop_eq. destruct (line_list next rest) as [|line rest0]; [eauto|].
  destruct (subparser_no off num neg line rest0 k) as [k' ->].
  destruct (subparser off num neg line rest0) as [[[[c n] len] r]|ex|]; simpl; eauto.
  destruct (IH off neg n r (num + len)%Z k') as [k2 ->]. eauto.
Qed.
Lemma prepare_file_no : forall e file off neg k,
  exists k', prepare_file_t no e file off neg k = (prepare_file e file off neg, k').
Proof.
  intros e file off neg k. unfold prepare_file_t, prepare_file.
  destruct (fs_read (e_fs e) file) as [t| | |]; eauto. apply prepare_loop_no.
Qed.

(** A computation that does what another one does without searches. *)
Definition same {A} (x : TM A) (y : M A) : Prop :=
  forall k s, exists k', x (k, s) = (fst (y s), (k', snd (y s))).

Lemma same_ret : forall A (a : A), same (retT a) (ret a).
Proof. intros A a k s. exists k. reflexivity. Qed.
Lemma same_lift : forall A (x : M A), same (liftM x) x.
Proof. intros A x k s. exists k. unfold liftM. simpl. now destruct (x s). Qed.
Lemma same_bind : forall A B (x : TM A) (y : M A) (f : A -> TM B) (g : A -> M B),
  same x y -> (forall a, same (f a) (g a)) -> same (bindT x f) (bindM y g).
Proof.
  intros A B x y f g H Hf k s. unfold bindT, bindM. destruct (H k s) as [k1 ->].
  destruct (y s) as [[a|ex|] s1]; cbn [fst snd]; [|eauto|eauto]. apply Hf.
Qed.

Definition addf_same (a : addfile_tt) (b : addfile_t) : Prop := forall p o f, same (a p o f) (b p o f).

(** Handlers see the added files only through what they return. *)
Section ext.
Context (e : env) (a b : addfile_t) (Hab : forall p o f s, a p o f s = b p o f s).

Lemma bindM_ext : forall A B (x y : M A) (f g : A -> M B) s,
  (forall s, x s = y s) -> (forall v s, f v s = g v s) -> bindM x f s = bindM y g s.
Proof.
  intros A B x y f g s Hx Hf. unfold bindM. rewrite Hx. destruct (y s) as [[v|ex|] s']; auto.
Qed.

Lemma inherit_loop_ext : forall locs file inhname line l paths off s,
  inherit_loop e a locs file inhname line l paths off s = inherit_loop e b locs file inhname line l paths off s.
Proof.
  intros locs file inhname line l. induction l as [|x l IH]; intros paths off s; cbn [inherit_loop]; [reflexivity|].
  cbv zeta. apply bindM_ext; [reflexivity|]. intros v s1. destruct v as [|c v]; [apply IH|].
  apply bindM_ext; [reflexivity|]. intros ign s2. destruct ign; [apply IH|].
  apply bindM_ext; [apply Hab|]. intros tmp s3. apply IH.
Qed.

Lemma handle_ext : forall p file line kd mt s,
  handle e a p file line kd mt s = handle e b p file line kd mt s.
Proof.
  intros p file line kd mt s. unfold handle. cbv zeta. destruct kd; try reflexivity.
  - apply bindM_ext; [reflexivity|]. intros v s1. apply bindM_ext; [|reflexivity].
    intro s2. apply inherit_loop_ext.
  - apply bindM_ext; [reflexivity|]. intros v s1. apply bindM_ext; [|reflexivity].
    intro s2. apply inherit_loop_ext.
  - apply bindM_ext; [reflexivity|]. intros v s1. apply bindM_ext; [reflexivity|]. intros v2 s2.
    destruct v2; [reflexivity|].
    apply bindM_ext; [reflexivity|]. intros ign s3. destruct ign; [reflexivity|].
    apply bindM_ext; [apply Hab|]. reflexivity.
Qed.
End ext.

Lemma handler_no : forall e a b p file line kd mt, addf_same a b ->
  same (plain_handler e a p file line kd mt) (handle e b p file line kd mt).
Proof.
  intros e a b p file line kd mt Hab k s. exists k. unfold plain_handler. cbn [fst snd].
  rewrite (handle_ext e _ b); [now destruct (handle e b p file line kd mt s)|].
  intros p0 o f s0. destruct (Hab p0 o f k s0) as [k' ->]. now destruct (b p0 o f s0).
Qed.

Lemma try_kinds_no : forall e a b p file line cnt l, addf_same a b ->
  same (try_kinds_t no (plain_handler e) a p file line cnt l) (try_kinds e b p file line cnt l).
Proof.
  intros e a b p file line cnt l Hab. induction l as [|[kd r] l IH].
  - apply same_bind; [apply same_lift|]. intro i. apply same_ret.
  - intros k s. simpl. destruct (re_match r cnt) as [mt|]; [|apply IH].
    apply (same_bind _ _ (plain_handler e a p file line kd mt) (handle e b p file line kd mt)
             (fun o => match o with Some x => retT x | None => try_kinds_t no (plain_handler e) a p file line cnt l end)
             (fun o => match o with Some x => ret x | None => try_kinds e b p file line cnt l end)).
    + now apply handler_no.
    + intros [x|]; [apply same_ret|exact IH].
Qed.

Lemma parse_chunks_no : forall e a b file off cs inc new, addf_same a b ->
  same (parse_chunks_t no (plain_handler e) a file off inc new cs) (parse_chunks e b file off inc new cs).
Proof.
  intros e a b file off cs. induction cs as [|c cs IH]; intros inc new Hab; [apply same_ret|].
  cbn [parse_chunks_t parse_chunks]. cbv zeta. apply same_bind; [now apply try_kinds_no|]. intro x.
  apply same_bind; [now apply IH|]. intro l. apply same_ret.
Qed.

Lemma get_items_no : forall e a b file off, addf_same a b ->
  same (get_items_t no (plain_handler e) e a file off) (get_items e b file off).
Proof.
  intros e a b file off Hab. unfold get_items_t, get_items. apply same_bind.
  - intros k s. cbn [fst snd liftR]. destruct (prepare_file_no e file off (st_neg s) k) as [k' ->]. eauto.
  - intro cs. apply same_bind; [apply same_lift|]. intro new. now apply parse_chunks_no.
Qed.

Lemma link_append_no : forall rx file l ks mp mx k,
  exists k', fold_left (link_append_t no rx file l) ks (mp, mx, k)
             = (fold_left (link_append rx file l) ks (mp, mx), k').
Proof.
  intros rx file l ks. induction ks as [|x ks IH]; intros mp mx k; simpl; [eauto|].
  destruct (matched (re_match rx (basename x))); apply IH.
Qed.
Lemma link_recipe_no : forall file bn mx l mp k,
  exists k', link_recipe_t no file bn mx l mp k = (link_recipe file bn mx l mp, k').
Proof.
  intros file bn mx l. induction l as [|i l IH]; intros mp k; simpl; [eauto|].
  destruct (endswith ".bbappend" (it_origin i)).
  - destruct (dyn_pattern (recipe_pattern (it_origin i))) as [rx|]; [|eauto].
    destruct (matched (re_match rx bn)).
    + match goal with |- context [link_recipe_t no file bn mx l ?m ?k0] => destruct (IH m k0) as [k' ->] end. eauto.
    + destruct (IH mp (S k)) as [k' ->]. eauto.
  - destruct (IH mp k) as [k' ->]. eauto.
Qed.
Lemma match_appends_no : forall file items, same (match_appends_t no file items) (match_appends file items).
Proof.
  intros file items k s. unfold match_appends_t, match_appends. cbn [fst snd].
  destruct (endswith ".bbappend" file).
  - destruct (dyn_pattern (append_pattern file)) as [rx|]; [|eauto].
    destruct (link_append_no rx file (st_list s) (dkeys (st_map s)) (st_map s) 0%Z k) as [k' ->].
    destruct (fold_left (link_append rx file (st_list s)) _ _) as [mp mx]. eauto.
  - destruct (endswith ".bb" file); [|eauto].
    match goal with |- context [link_recipe_t no ?f ?bn ?mx ?l ?mp ?k0] =>
      destruct (link_recipe_no f bn mx l mp k0) as [k' ->] end.
    destruct (link_recipe _ _ _ _ _) as [[l mp]|ex|]; eauto.
Qed.

Lemma add_file_no : forall n e path off forced,
  same (add_file_t no (plain_handler e) n e path off forced) (add_file n e path off forced).
Proof.
  induction n as [|n IH]; intros e path off forced k s; [simpl; eauto|].
  cbn [add_file_t add_file fst snd]. cbv zeta.
  destruct (mem_str _ (st_seen s) && _); [eauto|]. destruct (mem_str _ (st_seenc s)); [eauto|].
  match goal with |- exists k', bindT ?x ?f (k, ?s1) = (fst (bindM ?y ?g ?s1), _) =>
    assert (H : same (bindT x f) (bindM y g)); [|exact (H k s1)] end.
  apply same_bind; [apply get_items_no; intros p o f; apply IH|]. intro items.
  apply same_bind; [apply same_lift|]. intros _.
  apply same_bind; [apply match_appends_no|]. intro items2.
  apply same_bind; [apply same_lift|]. intros _.
  apply same_bind; [apply same_lift|]. intros _. apply same_ret.
Qed.
End untimed.
