(** * What negative_inline has an effect on: proofs *)

From Coq Require Import Lia Wf_nat.
From Verif Require Import PyStr Regex Patterns PyPath Res Inline Const Item Lines Stash StrFacts ReFacts LinesFacts Spec_Inline InlineEval
  HistFacts ReachFacts Spec_Query Shared Proofs_Shared Spec_Negative.

(** ** Texts without helpers *)

Definition hp : str := ".utils.".
Notation wh := without_helpers.
Lemma wh_part : forall a y b, wh (a ++ y ++ b) -> wh y.
Proof. intros a y b H c d E. apply (H (a ++ c) (d ++ b)). rewrite E. now rewrite <- !app_assoc. Qed.
Lemma wh_sub : forall a b, substr_of a b -> wh b -> wh a.
Proof. intros a b [x [y ->]] H. now apply wh_part in H. Qed.
Lemma wh_tail : forall a b, wh (a ++ b) -> wh b.
Proof. intros a b H. apply (wh_part a b []). now rewrite app_nil_r. Qed.
Lemma wh_head : forall a b, wh (a ++ b) -> wh a.
Proof. intros a b H. now apply (wh_part [] a b). Qed.
Lemma split_at : forall (a x : str) c y z b, ~ In c z -> z <> [] -> x ++ c :: y = a ++ z ++ b ->
  (exists b', x = a ++ z ++ b') \/ (exists a', y = a' ++ z ++ b).
Proof.
  induction a as [|d a IH]; intros x c y z b Hc Hz E.
  - left. cbn [List.app] in E |- *. revert x E. induction z as [|d z IHz]; intros x E; [congruence|].
    destruct x as [|d' x]; [injection E as -> _; destruct Hc; now left|]. injection E as -> E.
    destruct z as [|d2 z]; [now exists x|].
    destruct (IHz ltac:(intro K; apply Hc; now right) ltac:(discriminate) x E) as [b' Hb]. exists b'. cbn [List.app]. f_equal. exact Hb.
  - destruct x as [|d' x].
    + injection E as _ E. right. exists a. exact E.
    + injection E as -> E. destruct (IH x c y z b Hc Hz E) as [[b' H]|[a' H]]; [left|right].
      * exists b'. cbn [List.app]. f_equal. exact H.
      * exists a'. exact H.
Qed.
Lemma wh_join : forall x c y, ~ In c hp -> wh x -> wh y -> wh (x ++ c :: y).
Proof.
  intros x c y Hc Hx Hy a b E. destruct (split_at a x c y hp b Hc ltac:(discriminate) E) as [[b' K]|[a' K]].
  - exact (Hx _ _ K).
  - exact (Hy _ _ K).
Qed.
Lemma wh_nil : wh [].
Proof. intros a b E. destruct a; discriminate. Qed.
Lemma wh_newlines : forall t, wh t -> wh (universal_newlines t).
Proof.
  intro t. remember (length t) as n eqn:En. revert t En. induction n as [n IH] using lt_wf_ind. intros t -> H.
  (* the text up to the first carriage return is kept *)
  assert (D : ~ In 13%N t \/ exists p u, t = p ++ 13%N :: u /\ ~ In 13%N p).
  { clear IH H. induction t as [|c t IHt]; [now left|]. destruct (N.eq_dec c 13) as [->|Hc].
    - right. exists [], t. now split.
    - destruct IHt as [K|(p & u & -> & K)].
      + left. intros [E|E]; [now apply Hc|now apply K].
      + right. exists (c :: p), u. split; [reflexivity|]. intros [E|E]; [now apply Hc|now apply K]. }
  assert (K0 : forall p u, ~ In 13%N p -> universal_newlines (p ++ u) = p ++ universal_newlines u).
  { induction p as [|c p IHp]; intros u Hp; [reflexivity|]. cbn [List.app universal_newlines].
    destruct (N.eqb_spec c 13) as [->|_]; [destruct Hp; now left|]. f_equal. apply IHp. intro K. apply Hp. now right. }
  assert (Hnl : ~ In cNL hp) by (vm_compute; intuition discriminate).
  destruct D as [D|(p & u & -> & D)].
  - pose proof (K0 t [] D) as E. rewrite app_nil_r in E. rewrite E. cbn [universal_newlines]. now rewrite app_nil_r.
  - rewrite K0 by exact D. cbn [universal_newlines N.eqb Pos.eqb].
    apply wh_join; [exact Hnl|now apply wh_head in H|]. apply wh_tail in H. pose proof (wh_tail [13%N] u H) as Hu.
    destruct u as [|d u]; [apply wh_nil|]. rewrite app_length in IH. cbn [length] in IH. destruct (N.eqb d cNL).
    + apply (IH (length u)); [lia|reflexivity|]. exact (wh_tail [d] u Hu).
    + apply (IH (S (length u))); [lia|reflexivity|exact Hu].
Qed.

(** ** Inline code *)

Definition ends_apart (v : str) : Prop := exists c m d, v = c :: m ++ [d] /\ ~ In c hp /\ ~ In d hp /\ wh m.
Lemma wh_around : forall x v y, ends_apart v -> wh x -> wh y -> wh (x ++ v ++ y).
Proof.
  intros x v y (c & m & d & -> & Hc & Hd & Hm) Hx Hy. cbn [List.app]. rewrite <- app_assoc. cbn [List.app].
  apply wh_join; [exact Hc|exact Hx|]. now apply wh_join.
Qed.
Lemma wh_replace : forall old new, old <> [] -> ends_apart new -> forall s p, wh (p ++ s) -> wh (p ++ replace old new s).
Proof.
  intros old new Ho Hn s. rewrite replace_eq by exact Ho.
  remember (length s) as n eqn:En. revert s En. induction n as [n IH] using lt_wf_ind. intros s -> p H.
  rewrite replace_go_eq by exact Ho. destruct (startswith old s) eqn:E.
  - apply startswith_spec in E. destruct E as [r ->]. rewrite skipn_app, skipn_all, Nat.sub_diag. cbn [skipn List.app].
    apply wh_around; [exact Hn|now apply wh_head in H|].
    apply (IH (length r)) with (p := []); [|reflexivity|].
    + rewrite app_length. destruct old; [congruence|]. cbn [length]. lia.
    + cbn [List.app]. now apply wh_tail, wh_tail in H.
  - destruct s as [|c s]; [exact H|]. specialize (IH (length s) ltac:(cbn; lia) s eq_refl (p ++ [c])).
    rewrite <- !app_assoc in IH. cbn [List.app] in IH. now apply IH.
Qed.

Lemma needle_none : forall n x, (exists p q, n = p ++ hp ++ q) -> wh x -> contains n x = false.
Proof.
  intros n x (p & q & ->) H. apply contains_false. intros a b ->. apply (H (a ++ p) (q ++ b)). now rewrite <- !app_assoc.
Qed.
Lemma eval_known : forall neg x, wh x -> first_eval (inline_evals neg) x = d_getvar x.
Proof.
  intros neg x H.
  assert (T : forall n r, (exists p q, n = p ++ hp ++ q) -> eval_two n r neg x = None) by
    (intros n r Hn; unfold eval_two; now rewrite needle_none).
  assert (O : forall n r, (exists p q, n = p ++ hp ++ q) -> eval_one n r neg x = None) by
    (intros n r Hn; unfold eval_one; now rewrite needle_none).
  assert (D : forall n r, (exists p q, n = p ++ hp ++ q) -> eval_distro n r neg x = None) by
    (intros n r Hn; unfold eval_distro; now rewrite needle_none).
  assert (B : forall q, exists p q', ("bb.utils." ++ q : str) = p ++ hp ++ q') by (intro q; now exists ("bb" : str), q).
  assert (E : forall q, exists p q', ("oe.utils." ++ q : str) = p ++ hp ++ q') by (intro q; now exists ("oe" : str), q).
  unfold inline_evals. cbn [first_eval].
  unfold bb_utils_contains. rewrite (T _ _ (B "contains")).
  unfold bb_utils_contains_any. rewrite (T _ _ (B "contains_any")).
  unfold bb_utils_filter. rewrite (O _ _ (B "filter")).
  unfold oe_utils_all_distro_features. rewrite (D _ _ (E "all_distro_features")).
  unfold oe_utils_any_distro_features. rewrite (D _ _ (E "any_distro_features")).
  unfold oe_utils_both_contain. rewrite (O _ _ (E "both_contain")).
  unfold oe_utils_conditional. rewrite (T _ _ (E "conditional")).
  unfold oe_utils_ifelse. rewrite (T _ _ (E "ifelse")).
  unfold oe_utils_less_or_equal. rewrite (T _ _ (E "less_or_equal")).
  unfold oe_utils_vartrue. rewrite (T _ _ (E "vartrue")).
  unfold oe_utils_version_less_or_equal. rewrite (T _ _ (E "version_less_or_equal")).
  destruct (d_getvar x); reflexivity.
Qed.
Lemma sub_inline_clean : forall b, substr_of (inline_clean b) b.
Proof. intro b. unfold inline_clean. eapply substr_trans; [apply rstrip_p_substr|apply lstrip_p_substr]. Qed.
Lemma step_same : forall neg raw, wh raw ->
  inline_step neg raw = inline_step false raw /\ (forall raw' b, inline_step neg raw = Some (raw', b) -> wh raw').
Proof.
  intros neg raw H. unfold inline_step. destruct (find_str "${@" raw) as [[pre post]|] eqn:E; [|split; [reflexivity|discriminate]].
  set (rest := skipn (length pre) raw). set (repl := get_full_scope rest 3).
  assert (Er : rest = "${@" ++ post).
  { unfold rest. apply find_str_some in E. rewrite E. now rewrite skipn_app, skipn_all, Nat.sub_diag. }
  assert (Hr : wh repl).
  { destruct (get_full_scope_prefix rest 3) as [t Ht]. apply (wh_head repl t). unfold repl. rewrite <- Ht. unfold rest.
    apply (wh_tail (firstn (length pre) raw)). now rewrite firstn_skipn. }
  assert (Hc : wh (inline_clean repl)) by exact (wh_sub _ _ (sub_inline_clean repl) Hr).
  assert (Ho : repl <> []).
  { destruct (get_full_scope_start "${@" post 3 (le_n _)) as [t Ht]. unfold repl. rewrite Er, Ht. discriminate. }
  unfold inlinerep. rewrite !eval_known by exact Hc. split; [reflexivity|].
  intros raw' b K. apply (f_equal (fun o => match o with Some (r, _) => r | None => [] end)) in K. cbv beta iota zeta in K. rewrite <- K.
  apply (wh_replace repl _ Ho) with (p := []); [|exact H].
  destruct (d_getvar (inline_clean repl)) as [v|] eqn:Ev.
  - unfold d_getvar in Ev. destruct (contains _ _); [|discriminate]. destruct (re_match _ _) as [x|] eqn:Em; [|discriminate].
    apply (f_equal (fun o => match o with Some r => r | None => [] end)) in Ev. rewrite <- Ev.
    exists 36%N, ([123%N] ++ strip_quotes (group_str "val" x)), 125%N. split; [reflexivity|].
    split; [vm_compute; intuition discriminate|]. split; [vm_compute; intuition discriminate|].
    apply (wh_join [] 123%N); [vm_compute; intuition discriminate|apply wh_nil|].
    apply (wh_sub _ (inline_clean repl)); [|exact Hc]. eapply substr_trans; [apply strip_p_substr|now apply (group_str_substr _ _ _ "val" Em)].
  - exists 33%N, ("!!inlineblock!!" : str), 33%N. split; [reflexivity|]. split; [vm_compute; intuition discriminate|].
    split; [vm_compute; intuition discriminate|].
    intros a b0 X. assert (Y : contains ".utils." ("!!inlineblock!!" : str) = true) by (apply contains_spec; exists a, b0; exact X).
    vm_compute in Y. discriminate.
Qed.
Lemma outer_same : forall d neg l raw blocks, wh raw -> inline_outer d neg l raw blocks = inline_outer d false l raw blocks.
Proof.
  induction d as [d IHd] using lt_wf_ind. intros neg l. induction l as [l IHl] using lt_wf_ind. intros raw blocks H.
  rewrite !inline_outer_eq. destruct (step_same neg raw H) as [E K]. rewrite <- E.
  destruct (inline_step neg raw) as [[raw' b]|]; [|reflexivity]. specialize (K raw' b eq_refl).
  destruct (Nat.ltb _ _).
  - destruct d as [|d]; [reflexivity|]. apply IHd; [lia|exact K].
  - destruct l as [|l]; [reflexivity|]. apply IHl; [lia|exact K].
Qed.
Lemma subparser_same : forall off num neg line rest, line <> [] -> Forall (fun l => l <> []) rest -> wh (line ++ concat rest) ->
  subparser off num neg line rest = subparser off num false line rest.
Proof.
  intros off num neg line rest Hl Hne H. unfold subparser. destruct (iterate line rest) as [[[t n] r]| |] eqn:E; [|reflexivity|reflexivity].
  cbn [bind]. unfold inline_blocks_of. rewrite outer_same; [reflexivity|].
  apply iterate_spec in E; [|exact Hl|exact Hne]. destruct E as [ls [E1 E2]].
  rewrite E1, concat_app, app_assoc, <- E2 in H. now apply wh_head in H.
Qed.
Lemma loop_same : forall f off neg next rest num, Forall (fun l => l <> []) (line_list next rest) -> wh (concat (line_list next rest)) ->
  prepare_loop f off neg next rest num = prepare_loop f off false next rest num.
Proof.
  induction f as [|f IH]; intros off neg next rest num Hne H; [reflexivity|]. rewrite !prepare_loop_eq.
  destruct (line_list next rest) as [|line rest0]; [reflexivity|]. inversion Hne as [|? ? Hl Hr]; subst. cbn [concat] in H.
  rewrite subparser_same by assumption. destruct (subparser off num false line rest0) as [[[[c n] len] r]| |] eqn:E; [|reflexivity|reflexivity].
  cbn [bind]. apply subparser_ok in E; try assumption. destruct E as [ls [E1 _]]. rewrite IH; [reflexivity| |].
  - rewrite E1 in Hr. now apply Forall_app in Hr.
  - rewrite E1, concat_app in H. now apply wh_tail, wh_tail in H.
Qed.
Lemma prepare_same : forall e file off neg, no_helpers e -> prepare_file e file off neg = prepare_file e file off false.
Proof.
  intros e file off neg He. unfold prepare_file. destruct (fs_read (e_fs e) file) as [t| | |] eqn:E; try reflexivity.
  unfold prepare_text. apply loop_same.
  - cbn [line_list]. apply lines_ok_ne. apply readlines_ok.
  - cbn [line_list]. rewrite readlines_concat. apply wh_newlines. exact (He file t E).
Qed.

(** ** AddFile *)

Section Switch.
Context (e : env) (He : no_helpers e) (g g' : list str).
Notation sw := (differ_in_switch g g').

Definition swm {A} (m : M A) : Prop := forall s s', sw s s' -> fst (m s') = fst (m s) /\ sw (snd (m s)) (snd (m s')).
(** A stash with another switch, written out. *)
Definition turned (b : bool) (f : list str) (s : stash) : stash :=
  MkStash (st_list s) (st_seen s) (st_seenc s) (st_map s) (st_new s) b f (st_const s) (st_next s).
Lemma sw_turned : forall s s', sw s s' -> s' = turned (st_neg s') (st_fp s') s.
Proof. intros s [l a b mp nw ng fp db nx] (H1 & H2 & H3 & H4 & H5 & H6 & H7 & _). cbn in *. subst. reflexivity. Qed.
Lemma turned_sw : forall b l s, st_fp s = g ++ l -> sw s (turned b (g' ++ l) s).
Proof. intros b l s H. repeat (split; [reflexivity|]). now exists l. Qed.
Lemma sw_form : forall s s', sw s s' -> exists b l, st_fp s = g ++ l /\ s' = turned b (g' ++ l) s.
Proof. intros s s' H. pose proof (sw_turned _ _ H) as E. destruct H as (_ & _ & _ & _ & _ & _ & _ & l & H1 & H2). exists (st_neg s'), l. rewrite <- H2. now split. Qed.

Lemma swm_ret : forall A (a : A), swm (ret a).
Proof. intros A a s s' H. now split. Qed.
Lemma swm_lift : forall A (f : stash -> Res.res A), (forall s s', sw s s' -> f s' = f s) -> swm (liftR f).
Proof. intros A f Hf s s' H. unfold liftR. cbn [fst snd]. split; [now apply Hf|exact H]. Qed.
Lemma swm_bind : forall A B (x : M A) (f : A -> M B), swm x -> (forall a, swm (f a)) -> swm (bindM x f).
Proof.
  intros A B x f Hx Hf s s' H. destruct (Hx s s' H) as [E K]. unfold bindM.
  destruct (x s) as [r t], (x s') as [r' t']. cbn [fst snd] in E, K. subst r'.
  destruct r as [a|ex|]; [now apply Hf| |]; now split.
Qed.
Lemma swm_find : forall n d, swm (find_m e n d).
Proof. intros n d s s' H. unfold find_m. destruct (find_local_or_layer _ _ _ _); now split. Qed.
Lemma swm_find_class : forall locs i d, swm (find_class e locs i d).
Proof.
  intros locs i d. induction locs as [|l locs IH]; cbn [find_class]; [apply swm_ret|].
  apply swm_bind; [apply swm_find|]. intros [|c p]; [exact IH|apply swm_ret].
Qed.
Lemma swm_new : forall mk, swm (new_item mk).
Proof.
  intros mk s s' H. destruct (sw_form _ _ H) as (b & l & Hl & ->). split; [reflexivity|].
  repeat (split; [reflexivity|]). now exists l.
Qed.
Definition swm_addf (addf : addfile_t) : Prop := forall p o f, swm (addf p o f).

Lemma turned_expand : forall b f s file vf lf spare v seen,
  expand_f vf e (turned b f s) file lf spare v seen = expand_f vf e s file lf spare v seen.
Proof.
  intros b f s file vf. induction vf as [|vf IHv]; intro lf; (induction lf as [|lf IHl]; intros spare v seen; cbn [expand_f]).
  1,2: set (rec := fun (_ : str) (_ : seen_t) => @NoFuel (str * seen_t)).
  3,4: set (rec := fun (cnt : str) (sn : seen_t) => expand_f vf e s file (length cnt) [] cnt sn).
  all: assert (X : forall quote rec' a x, (forall v sn, rec' v sn = rec v sn) ->
         expand_one e (turned b f s) file rec' spare quote a x = expand_one e s file rec spare quote a x) by
       (intros quote rec' [res sn] mt Hr; unfold expand_one; destruct (mem_str _ spare); [reflexivity|];
        change (first_definition e (turned b f s)) with (first_definition e s); change (st_const (turned b f s)) with (st_const s);
        destruct (first_definition e s file _);
          [destruct (dget _ sn); [reflexivity|]; now rewrite Hr|];
        destruct (dget _ (sets_base (st_const s))); [|reflexivity]; destruct (dget _ sn); [reflexivity|]; now rewrite Hr);
   rewrite (fold_res_ext _ (expand_one e s file rec spare [])) by
     (intros a x; apply X; first [reflexivity|intros w sn; apply IHv]);
   match goal with |- bind ?a _ = bind ?b _ => change a with b; destruct b as [x1| |]; cbn [bind]; try reflexivity end;
   rewrite (fold_res_ext _ (expand_one e s file rec spare [cDQ])) by
     (intros a x; apply X; first [reflexivity|intros w sn; apply IHv]);
   match goal with |- bind ?a _ = bind ?b _ => change a with b; destruct b as [x2| |]; cbn [bind]; try reflexivity end;
   apply fold_res_ext; intros [a sn] x; unfold read_file_one; try reflexivity; now rewrite IHl.
Qed.
Lemma turned_full : forall b f s file v spare seen o,
  expand_term_full e (turned b f s) file v spare seen o = expand_term_full e s file v spare seen o.
Proof.
  intros. unfold expand_term_full, expand_seen, expand_fuel.
  change (st_list (turned b f s)) with (st_list s). change (st_const (turned b f s)) with (st_const s). now rewrite turned_expand.
Qed.
Lemma sw_term : forall s s' file v, sw s s' -> expand_term e s' file v = expand_term e s file v.
Proof. intros s s' file v H. rewrite (sw_turned _ _ H). apply turned_full. Qed.
Lemma sw_const : forall s s', sw s s' -> st_const s' = st_const s.
Proof. intros s s' H. apply H. Qed.

Lemma swm_inherit : forall addf locs file inhname line l paths off, swm_addf addf ->
  swm (inherit_loop e addf locs file inhname line l paths off).
Proof.
  intros addf locs file inhname line l. induction l as [|x l IH]; intros paths off Ha; cbn [inherit_loop]; [apply swm_ret|].
  apply swm_bind; [apply swm_find_class|]. intros [|c p]; [now apply IH|].
  apply swm_bind; [|intros [|]; [now apply IH|]; apply swm_bind; [apply Ha|intro; now apply IH]].
  apply swm_lift. intros s s' H. now rewrite (sw_const _ _ H).
Qed.
Lemma swm_handle : forall addf p file line k mt, swm_addf addf -> swm (handle e addf p file line k mt).
Proof.
  intros addf p file line k mt Ha.
  assert (N : forall B mk (g : item -> B), swm (dom i <- new_item mk; ret (g i)))
    by (intros; apply swm_bind; [apply swm_new|intro; apply swm_ret]).
  assert (T : forall v, swm (liftR (fun s => expand_term e s file v)))
    by (intro v; apply swm_lift; intros s s' H; now apply sw_term).
  assert (Hinh : forall locs a st, swm
      (dom inhname <- liftR (fun s => expand_term e s file a);
       dom r <- inherit_loop e addf locs file inhname line (keep_nonempty (split_char cSP inhname)) [] 0%Z;
       dom i <- new_item (fun n => mk_item (p n) (ip_new (p n)) (PInherit a st (fst r)));
       ret (Some (i, snd r)))).
  { intros locs a st. apply swm_bind; [apply T|]. intro inhname. apply swm_bind; [now apply swm_inherit|]. intro r. apply N. }
  destruct k; unfold handle; try apply Hinh; try apply N.
  - apply swm_bind; [|intro; apply N]. apply swm_lift. intros s s' H. now rewrite (sw_const _ _ H).
  - apply swm_bind; [apply T|]. intro inc. apply swm_bind; [apply swm_find|]. intros [|c path]; [apply N|].
    apply swm_bind; [|intros [|]; [apply swm_ret|]; apply swm_bind; [apply Ha|intro; apply N]].
    apply swm_lift. intros s s' H. now rewrite (sw_const _ _ H).
  - destruct (existsb _ pkg_prefixes); [apply swm_ret|apply N].
Qed.
Lemma swm_try : forall addf p file line cnt l, swm_addf addf -> swm (try_kinds e addf p file line cnt l).
Proof.
  intros addf p file line cnt l Ha. induction l as [|[k r] l IH]; cbn [try_kinds].
  - apply swm_bind; [apply swm_new|intro; apply swm_ret].
  - destruct (re_match r cnt) as [mt|]; [|exact IH]. apply swm_bind; [now apply swm_handle|]. intros [x|]; [apply swm_ret|exact IH].
Qed.
Lemma swm_chunks : forall addf file off cs inc new, swm_addf addf -> swm (parse_chunks e addf file off inc new cs).
Proof.
  intros addf file off cs. induction cs as [|c cs IH]; intros inc new Ha; cbn [parse_chunks]; [apply swm_ret|].
  apply swm_bind; [now apply swm_try|]. intro x. apply swm_bind; [now apply IH|]. intro l. apply swm_ret.
Qed.
Lemma swm_items : forall addf file off, swm_addf addf -> swm (get_items e addf file off).
Proof.
  intros addf file off Ha. unfold get_items. apply swm_bind.
  - apply swm_lift. intros s s' _. rewrite prepare_same by exact He. symmetry. now apply prepare_same.
  - intro cs. apply swm_bind; [|intro new; now apply swm_chunks]. apply swm_lift. intros s s' H. f_equal. apply H.
Qed.
Lemma swm_appends : forall file items, swm (match_appends file items).
Proof.
  intros file items s s' H. destruct (sw_form _ _ H) as (b & f & Hf & ->). unfold match_appends. cbn [st_list st_map turned].
  destruct (endswith ".bbappend" file).
  - destruct (dyn_pattern _) as [rx|]; [|now split]. destruct (fold_left _ _ _) as [mp mx]. split; [reflexivity|].
    repeat (split; [reflexivity|]). now exists f.
  - destruct (endswith ".bb" file); [|now split]. destruct (link_recipe _ _ _ _ _) as [[l mp]|ex|]; (split; [reflexivity|]).
    + repeat (split; [reflexivity|]). now exists f.
    + exact H.
    + exact H.
Qed.
Lemma swm_names : forall key l, swm (add_names key l).
Proof.
  intros key l. unfold add_names. induction l as [|c l IH]; intros s s' H; [now split|].
  rewrite (sw_const _ _ H). destruct (add_constants _ _) as [db [ex|]].
  - split; [reflexivity|]. destruct (sw_form _ _ H) as (b & f & Hf & ->). repeat (split; [reflexivity|]). now exists f.
  - apply IH. destruct (sw_form _ _ H) as (b & f & Hf & ->). repeat (split; [reflexivity|]). now exists f.
Qed.
Lemma swm_distro : forall path, swm (add_distro_machine e path).
Proof.
  intro path. unfold add_distro_machine. destruct (get_layer_root _ _ path) as [[|c root]|]; try (intros s s' H; now split).
  apply swm_bind; [apply swm_names|]. intros _. apply swm_names.
Qed.
Lemma swm_add : forall n path off forced, swm (add_file n e path off forced).
Proof.
  induction n as [|n IH]; intros path off forced; [intros s s' H; now split|].
  intros s s' H. destruct (sw_form _ _ H) as (b & f & Hf & ->). cbn [add_file]. cbv zeta. cbn [st_seen st_seenc turned].
  destruct (_ && _); [now split|]. destruct (mem_str _ (st_seenc s)); [now split|].
  set (file := abspath (fs_cwd (e_fs e)) path). set (a := add_set file (st_seen s)).
  set (c := if str_eqb _ _ then add_set file (st_seenc s) else st_seenc s).
  assert (K : sw (with_seen a c s) (with_seen a c (turned b (g' ++ f) s))) by (repeat (split; [reflexivity|]); now exists f).
  revert K. generalize (with_seen a c s) as s0, (with_seen a c (turned b (g' ++ f) s)) as s1.
  apply swm_bind; [apply swm_items; intros p o fo; apply IH|]. intro items.
  apply swm_bind.
  { intros t t' K. destruct (sw_form _ _ K) as (b0 & f0 & Hf0 & ->). split; [reflexivity|]. repeat (split; [reflexivity|]). now exists f0. }
  intros _. apply swm_bind; [apply swm_appends|]. intro items'. apply swm_bind; [apply swm_distro|].
  intros _. apply swm_bind; [|intros _; apply swm_ret].
  intros t t' K. destruct (sw_form _ _ K) as (b0 & f0 & Hf0 & ->). split; [reflexivity|]. repeat (split; [reflexivity|]).
  exists (f0 ++ map (e_repr e) items'). cbn [st_fp with_fp with_list turned]. rewrite Hf0, <- !app_assoc. now split.
Qed.
Lemma sw_mark : forall mp s s', sw s s' -> sw (fold_left (mark_file e) mp s) (fold_left (mark_file e) mp s').
Proof.
  induction mp as [|kv mp IH]; intros s s' H; [exact H|]. cbn [fold_left]. apply IH.
  destruct (sw_form _ _ H) as (b & f & Hf & ->). repeat (split; [reflexivity|]). now exists f.
Qed.
Lemma swm_finalize : swm (finalize e).
Proof.
  intros s s' H. unfold finalize. replace (st_map s') with (st_map s) by (symmetry; apply H).
  assert (K : forall mp, sw (with_map mp s) (with_map mp s')).
  { intro mp. destruct (sw_form _ _ H) as (b & f & Hf & ->). repeat (split; [reflexivity|]). now exists f. }
  destruct (link_all _ _ _) as [[u|ex|] mp]; (split; [reflexivity|]); cbn [snd]; [apply sw_mark|idtac|idtac]; apply K.
Qed.
Lemma sw_all : forall n ps s s', sw s s' -> sw (add_all n e ps s) (add_all n e ps s').
Proof.
  intros n ps. induction ps as [|p ps IH]; intros s s' H; [exact H|]. cbn [add_all fold_left]. apply IH.
  now apply swm_add.
Qed.
Lemma sw_answers : forall s s', sw s s' ->
  (forall q, get_items_for e s' q = get_items_for e s q) /\
  (forall file v spare seen o, expand_term_full e s' file v spare seen o = expand_term_full e s file v spare seen o) /\
  (forall file att val nolink, expand_var e s' file att val nolink = expand_var e s file att val nolink) /\
  (forall file strip, valid_package_names e s' file strip = valid_package_names e s file strip) /\
  (forall file, valid_named_resources e s' file = valid_named_resources e s file) /\
  (forall file, is_image e s' file = is_image e s file).
Proof.
  intros s s' H. destruct (sw_form _ _ H) as (b & l & _ & ->). set (f := g' ++ l). clearbody f.
  split; [reflexivity|]. split; [intros; apply turned_full|]. split; [|split; [|split; reflexivity]].
  - intros file att val nolink. unfold expand_var. change (expand_var_items e (turned b f s)) with (expand_var_items e s). cbv zeta.
    assert (X : forall fn, fold_res (exp_final_one e (turned b f s) fn) (exp_passes (expand_var_items e s file att val nolink) (exp_init (turned b f s) fn)) [] =
      fold_res (exp_final_one e s fn) (exp_passes (expand_var_items e s file att val nolink) (exp_init s fn)) []).
    { intro fn. change (exp_init (turned b f s) fn) with (exp_init s fn). apply fold_res_ext. intros a x.
      unfold exp_final_one, expand_term. now rewrite !turned_full. }
    destruct file as [fn|]; [apply X|]. destruct (expand_var_items e s None att val nolink) as [|i r]; [reflexivity|apply X].
  - intros file st. unfold valid_package_names. change (vars_named e (turned b f s)) with (vars_named e s). cbv zeta.
    apply fold_res_ext. intros a x. apply fold_res_ext. intros c y. now rewrite turned_full.
Qed.
End Switch.

Lemma new_sw : forall new db, differ_in_switch [bool_str new ++ ":" ++ bool_str false] [bool_str new ++ ":" ++ bool_str true]
  (new_stash new false db) (new_stash new true db).
Proof. intros new db. repeat (split; [reflexivity|]). now exists []. Qed.
Lemma C134_add_lemma : forall n e g g' path off forced s s', no_helpers e -> differ_in_switch g g' s s' ->
  fst (add_file n e path off forced s') = fst (add_file n e path off forced s) /\
  differ_in_switch g g' (snd (add_file n e path off forced s)) (snd (add_file n e path off forced s')).
Proof. intros n e g g' path off forced s s' He. now apply swm_add. Qed.
Lemma C134_history_lemma : forall n e new db ps, no_helpers e ->
  let g := [bool_str new ++ ":" ++ bool_str false] in let g' := [bool_str new ++ ":" ++ bool_str true] in
  let s := add_all n e ps (new_stash new false db) in let s' := add_all n e ps (new_stash new true db) in
  differ_in_switch g g' s s' /\
  fst (finalize e s') = fst (finalize e s) /\ differ_in_switch g g' (snd (finalize e s)) (snd (finalize e s')).
Proof.
  intros n e new db ps He g g' s s'. assert (H : differ_in_switch g g' s s') by (now apply sw_all, new_sw).
  split; [exact H|]. now apply swm_finalize.
Qed.
