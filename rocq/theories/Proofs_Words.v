(** * Proofs for C49, C75, C76 and C77 *)

From Verif Require Import PyStr Regex Patterns PyPath Res Const Item Lines Stash StrFacts ReFacts LinesFacts NameFacts ItemFacts
  ReachFacts Spec_Query Spec_Expand Proofs_Expand VarFacts.
From Coq Require Import Permutation Sorted.

(** ** Removing a word from a text *)

Lemma sep_space : forall c t, c <> cESC -> safe_sep c t = re_space c.
Proof. intros c t H. unfold safe_sep. apply N.eqb_neq in H. rewrite H. cbn. apply orb_false_r. Qed.

Lemma starts_inside : forall (r w t : str), no_space r -> match t with [] => True | c :: _ => re_space c = true end ->
  startswith r (w ++ t) = true -> startswith r w = true.
Proof.
  induction r as [|c r IH]; intros w t Hr Ht H; [reflexivity|]. destruct w as [|x w].
  - cbn [app] in H. destruct t as [|x t]; [discriminate H|]. cbn [startswith] in H. apply andb_true_iff in H. destruct H as [H _].
    apply N.eqb_eq in H. subst x. rewrite (Hr c (or_introl eq_refl)) in Ht. discriminate Ht.
  - change (N.eqb c x && startswith r (w ++ t) = true) in H. change (N.eqb c x && startswith r w = true). apply andb_true_iff in H. destruct H as [H1 H2]. rewrite H1. cbn [andb]. apply (IH w t); auto.
    intros y Hy. apply Hr. now right.
Qed.

Lemma replace_word : forall (r w t : str), r <> [] -> no_space r -> match t with [] => True | c :: _ => re_space c = true end ->
  contains r w = false -> replace r [] (w ++ t) = w ++ replace r [] t.
Proof.
  intros r w t Hr Hs Ht. rewrite !replace_eq by exact Hr. induction w as [|c w IH]; intro H; [reflexivity|].
  cbn [app]. rewrite replace_go_eq by exact Hr. rewrite contains_false in H.
  destruct (startswith r (c :: w ++ t)) eqn:E.
  - apply (starts_inside r (c :: w) t Hs Ht) in E. apply startswith_spec in E. destruct E as [q E]. exfalso. exact (H [] q E).
  - f_equal. apply IH. apply contains_false. intros a b E2. apply (H (c :: a) b). cbn. now rewrite E2.
Qed.

Lemma words_removed : forall r u l, r <> [] -> no_space r -> ~ In cESC u -> tokens u l ->
  (forall w, In w l -> contains r w = true -> w = r) ->
  tokens (replace r [] u) (filter (fun w => negb (str_eqb w r)) l).
Proof.
  intros r u l Hr Hs He H. induction H as [|c t l Hc Ht IH|w t l Hw Hin Ht Htok IH]; intro Hl.
  - destruct r; [congruence|]. apply tok_nil.
  - assert (Hc' : re_space c = true) by (rewrite sep_space in Hc; [exact Hc|intros ->; apply He; now left]).
    rewrite replace_eq by exact Hr. rewrite replace_go_eq by exact Hr.
    assert (E : startswith r (c :: t) = false).
    { destruct r as [|x r]; [congruence|]. change (N.eqb x c && startswith r t = false). destruct (N.eqb x c) eqn:E; [|reflexivity]. apply N.eqb_eq in E. subst x.
      rewrite (Hs c (or_introl eq_refl)) in Hc'. discriminate Hc'. }
    rewrite E. rewrite <- replace_eq by exact Hr. apply tok_sep.
    + unfold safe_sep. now rewrite Hc'.
    + apply IH; [intro; apply He; now right|exact Hl].
  - assert (He' : ~ In cESC t) by (intro X; apply He; apply in_or_app; now right).
    assert (Ht' : match t with [] => True | c :: _ => re_space c = true end).
    { destruct t as [|c q]; [exact I|]. rewrite sep_space in Ht; [exact Ht|]. intros ->. apply He'. now left. }
    specialize (IH He' (fun w Hi => Hl w (or_intror Hi))). cbn [filter]. destruct (str_eqb w r) eqn:E.
    + apply str_eqb_eq in E. subst w. cbn [negb].
      rewrite <- (app_nil_l (r ++ t)). rewrite replace_hit; [exact IH|exact Hr|].
      intros a1 a2 E Ha. destruct a1; [|discriminate E]. cbn in E. subst a2. congruence.
    + cbn [negb]. assert (Ec : contains r w = false).
      { destruct (contains r w) eqn:Ec; [|reflexivity]. rewrite (Hl w (or_introl eq_refl) Ec) in E. rewrite str_eqb_refl in E. discriminate E. }
      rewrite replace_word by assumption.
      assert (Hd : match replace r [] t with [] => True | c :: _ => re_space c = true end).
      { destruct t as [|c q]; [destruct r; [congruence|exact I]|].
        rewrite replace_eq by exact Hr. rewrite replace_go_eq by exact Hr.
        destruct (startswith r (c :: q)) eqn:E2; [|exact Ht'].
        destruct r as [|x r]; [congruence|]. cbn [startswith] in E2. apply andb_true_iff in E2. destruct E2 as [E2 _]. apply N.eqb_eq in E2. subst x.
        rewrite (Hs c (or_introl eq_refl)) in Ht'. discriminate Ht'. }
      apply tok_word; [exact Hw| | |exact IH].
      * intros a c b E2. rewrite sep_space by (intros ->; apply He; rewrite E2; apply in_or_app; left; apply in_or_app; right; now left).
        specialize (Hin a c b E2). rewrite sep_space in Hin by (intros ->; apply He; rewrite E2; apply in_or_app; left; apply in_or_app; right; now left).
        exact Hin.
      * destruct (replace r [] t) as [|c q]; [exact I|]. unfold safe_sep. now rewrite Hd.
Qed.

Lemma replace_sub : forall r (u : str) c, r <> [] -> In c (replace r [] u) -> In c u.
Proof.
  intros r u c Hr. rewrite replace_eq by exact Hr. assert (L : length u <= length u) by lia. revert L. generalize (length u) at 2 as k.
  intro k. revert u. induction k as [|k IH]; intros u Hk H.
  - destruct u; [|cbn in Hk; lia]. rewrite replace_go_eq in H by exact Hr. destruct r; [congruence|]. exact H.
  - rewrite replace_go_eq in H by exact Hr. destruct (startswith r u) eqn:E.
    + cbn [app] in H. apply IH in H.
      * rewrite <- (firstn_skipn (length r) u). apply in_or_app. now right.
      * rewrite skipn_length. destruct r; [congruence|]. cbn [length] in *. destruct u; cbn in *; lia.
    + destruct u as [|x u]; [exact H|]. destruct H as [<-|H]; [now left|right]. apply IH; [cbn in Hk; lia|exact H].
Qed.

(** Texts that occur in a text occur in one of its words. *)
Lemma in_word : forall p u l, p <> [] -> no_space p -> ~ In cESC u -> tokens u l ->
  contains p u = true -> exists w, In w l /\ contains p w = true.
Proof.
  intros p u l Hp Hs He H. induction H as [|c t l Hc Ht IH|w t l Hw Hin Ht Htok IH]; intro E.
  - destruct p; [congruence|discriminate E].
  - assert (Hc' : re_space c = true) by (rewrite sep_space in Hc; [exact Hc|intros ->; apply He; now left]).
    apply IH; [intro; apply He; now right|]. apply contains_spec in E. destruct E as [a [b E]]. destruct a as [|x a].
    + destruct p as [|x p]; [congruence|]. cbn in E. injection E as -> _. rewrite (Hs x (or_introl eq_refl)) in Hc'. discriminate Hc'.
    + injection E as _ E. apply contains_spec. now exists a, b.
  - assert (He' : ~ In cESC t) by (intro X; apply He; apply in_or_app; now right).
    assert (Ht' : match t with [] => True | c :: _ => re_space c = true end).
    { destruct t as [|c q]; [exact I|]. rewrite sep_space in Ht; [exact Ht|]. intros ->. apply He'. now left. }
    destruct (contains p w) eqn:Ew; [exists w; split; [now left|exact Ew]|].
    destruct (contains p t) eqn:Et; [destruct (IH He' eq_refl) as [w' [H1 H2]]; exists w'; split; [now right|exact H2]|].
    exfalso. clear -E Ew Et Hs Ht' Hp. revert E Ew. induction w as [|c w IHw]; intros E Ew; [cbn in E; congruence|].
    apply contains_spec in E. destruct E as [a [b E]]. destruct a as [|x a].
    + assert (Sw : startswith p ((c :: w) ++ t) = true) by (apply startswith_spec; now exists b).
      apply (starts_inside p (c :: w) t Hs Ht') in Sw. apply startswith_spec in Sw. destruct Sw as [q Sw].
      rewrite contains_false in Ew. exact (Ew [] q Sw).
    + injection E as _ E. apply IHw; [apply contains_spec; now exists a, b|]. rewrite contains_false in *. intros a2 b2 E2.
      apply (Ew (c :: a2) b2). cbn. now rewrite E2.
Qed.

(** ** ExpandVar *)

Lemma late_words : forall evs u l, ~ In cESC u -> tokens u l ->
  (forall r, In (LateRemoves r) evs -> r <> [] /\ no_space r /\ forall w, In w l -> contains r w = true -> w = r) ->
  exists v, fold_left late_remove evs (Some u) = Some v /\ ~ In cESC v /\ tokens v (filter (fun w => negb (gone evs w)) l).
Proof.
  induction evs as [|x evs IH]; intros u l He Hu H.
  - exists u. split; [reflexivity|]. split; [exact He|]. replace (filter _ l) with l; [exact Hu|].
    clear. induction l as [|w l IHl]; [reflexivity|]. cbn [filter gone existsb negb]. now f_equal.
  - cbn [fold_left].
    assert (G : (exists r, x = LateRemoves r) \/ (late_remove (Some u) x = Some u /\ forall w, gone (x :: evs) w = gone evs w))
      by (destruct x; (left; now eexists) || (right; now split)).
    destruct G as [[r ->]|[E Eg]].
    + destruct (H r (or_introl eq_refl)) as (R1 & R2 & R3). cbn [late_remove txt].
      destruct (IH (replace r [] u) (filter (fun w => negb (str_eqb w r)) l)) as [v (V1 & V2 & V3)].
      * intro X. apply He. now apply (replace_sub r).
      * now apply words_removed.
      * intros q Hq. destruct (H q (or_intror Hq)) as (Q1 & Q2 & Q3). split; [exact Q1|]. split; [exact Q2|].
        intros w Hw. apply filter_In in Hw. now apply Q3.
      * exists v. split; [exact V1|]. split; [exact V2|].
        replace (filter (fun w => negb (gone (LateRemoves r :: evs) w)) l)
          with (filter (fun w => negb (gone evs w)) (filter (fun w => negb (str_eqb w r)) l)); [exact V3|].
        clear. induction l as [|w l IHl]; [reflexivity|]. cbn [filter gone existsb]. destruct (str_eqb w r); cbn [negb orb filter].
        -- exact IHl.
        -- fold (gone evs w). destruct (gone evs w); cbn [negb]; now rewrite IHl.
    + rewrite E. destruct (IH u l He Hu) as [v (V1 & V2 & V3)]; [intros q Hq; apply H; now right|].
      exists v. split; [exact V1|]. split; [exact V2|].
      replace (filter (fun w => negb (gone (x :: evs) w)) l) with (filter (fun w => negb (gone evs w)) l); [exact V3|].
      apply filter_ext. intro w. now rewrite Eg.
Qed.

Lemma plain_words : forall u l v m, plain_text u -> ~ In cESC u -> ~ In cESC v -> tokens u l -> tokens v m -> incl m l -> plain_text v.
Proof.
  intros u l v m [[P1 P2] P3] Hu Hv Tu Tv Hi.
  assert (G : forall p, p <> [] -> no_space p -> contains p u = false -> contains p v = false).
  { intros p Hp Hs E. destruct (contains p v) eqn:Ev; [|reflexivity]. exfalso.
    destruct (in_word p v m Hp Hs Hv Tv Ev) as [w [W1 W2]]. apply Hi in W1.
    assert (X : contains p u = true); [|congruence]. clear -Tu W1 W2. induction Tu as [|c t l Hc Ht IH|w' t l Hw Hin Ht Htok IH].
    - destruct W1.
    - apply contains_spec. destruct (proj1 (contains_spec _ _) (IH W1)) as [a [b E]]. exists (c :: a), b. cbn. now rewrite E.
    - destruct W1 as [->|W1].
      + apply contains_spec in W2. destruct W2 as [a [b E]]. apply contains_spec. exists a, (b ++ t). rewrite E. now rewrite !app_assoc.
      + apply contains_spec. destruct (proj1 (contains_spec _ _) (IH W1)) as [a [b E]]. exists (w' ++ a), b. rewrite E. now rewrite !app_assoc. }
  assert (N : forall (p : str), forallb (fun c => negb (re_space c)) p = true -> no_space p).
  { intros p Hp c Hc. rewrite forallb_forall in Hp. apply Hp in Hc. now apply negb_true_iff in Hc. }
  split; [split|]; apply G; try discriminate; try assumption; apply N; vm_compute; reflexivity.
Qed.

Lemma C75_lemma : forall e s file att val nolink d, env_ok e -> reach e s ->
  NoDup (dkeys (sets_base (st_const s))) -> (forall k, In k (dkeys (sets_base (st_const s))) -> plain_text k) ->
  expand_var e s (Some file) att val nolink = Ok d ->
  exists l,
    (forall i, In i l <-> In i (st_list s) /\ (selected s (var_query file att val nolink) i \/ selected s (unset_query file) i)) /\
    NoDup (map it_id l) /\ StronglySorted by_line l /\
    ((forall i, In i l -> plain_text (item_name_nomod i)) ->
     forall n evs u, history n l evs -> fold_left at_once evs (preset s file n) <> None ->
       fold_left late_add evs (fold_left at_once evs (preset s file n)) = Some u -> plain_text u -> ~ In cESC u ->
       (forall r, In (LateRemoves r) evs ->
          r <> [] /\ no_space r /\ forall w, In w (safe_linesplit u) -> contains r w = true -> w = r) ->
       dget n d = Some (filter (fun w => negb (gone evs w)) (safe_linesplit u))).
Proof.
  intros e s file att val nolink d He Hr Hb Hbp H. destruct (C46_lemma e s file att val nolink d He Hr Hb Hbp H) as [l (L1 & L2 & L3 & L4)].
  exists l. split; [exact L1|]. split; [exact L2|]. split; [exact L3|]. intros Hp n evs u Hh Hn Hu Pu Eu Hw.
  specialize (L4 Hp n evs Hh (fun E => match Hn E with end)).
  pose proof (proj2 (tokens_iff u _) eq_refl) as Tu.
  destruct (late_words evs u (safe_linesplit u) Eu Tu Hw) as [v (V1 & V2 & V3)].
  assert (A : assigned (preset s file n) evs = Some v) by (unfold assigned; rewrite Hu; exact V1). rewrite A in L4.
  destruct L4 as [w [W1 W2]].
  assert (Pv : plain_text v).
  { apply (plain_words u (safe_linesplit u) v _ Pu Eu V2 Tu V3). intros x Hx. now apply filter_In in Hx. }
  rewrite (plain_key e s file v Pv) in W1. injection W1 as <-. rewrite W2. f_equal. now apply tokens_iff.
Qed.

(** Statements that do nothing can be left out. *)
Lemma effective_assigned : forall evs start, assigned start (filter effective evs) = assigned start evs.
Proof.
  intros evs start. unfold assigned.
  assert (G : forall f : option str -> event -> option str, (forall c, f c Ignored = c) ->
    forall evs c, fold_left f (filter effective evs) c = fold_left f evs c).
  { intros f Hf l. induction l as [|x l IH]; intro c; [reflexivity|]. cbn [filter]. destruct x; cbn [effective fold_left]; try apply IH.
    rewrite Hf. apply IH. }
  now rewrite !G.
Qed.

Lemma C49_lemma : forall e s file att val nolink d, env_ok e -> reach e s ->
  NoDup (dkeys (sets_base (st_const s))) -> (forall k, In k (dkeys (sets_base (st_const s))) -> plain_text k) ->
  expand_var e s (Some file) att val nolink = Ok d ->
  exists l,
    (forall i, In i l <-> In i (st_list s) /\ (selected s (var_query file att val nolink) i \/ selected s (unset_query file) i)) /\
    NoDup (map it_id l) /\ StronglySorted by_line l /\
    ((forall i, In i l -> plain_text (item_name_nomod i)) ->
     forall n evs, history n l evs ->
       (fold_left at_once evs (preset s file n) = None -> forall v, ~ In (LateRemoves v) evs) ->
       match assigned (preset s file n) (filter effective evs) with
       | Some v => exists w, expand_term e s file v = Ok w /\ dget n d = Some (safe_linesplit w)
       | None => dget n d = None \/ dget n d = Some []
       end).
Proof.
  intros e s file att val nolink d He Hr Hb Hbp H. destruct (C46_lemma e s file att val nolink d He Hr Hb Hbp H) as [l (L1 & L2 & L3 & L4)].
  exists l. split; [exact L1|]. split; [exact L2|]. split; [exact L3|]. intros Hp n evs Hh Hn.
  specialize (L4 Hp n evs Hh Hn). rewrite effective_assigned.
  destruct (assigned (preset s file n) evs); [exact L4|]. destruct L4 as [L4|[_ L4]]; [now left|now right].
Qed.

(** What acts at once before a statement that sets the value does not matter. *)
Lemma prompt_late : forall f before, f = late_add \/ f = late_remove -> prompt before -> forall c, fold_left f before c = c.
Proof.
  intros f before Hf. induction before as [|x l IH]; intros H c; [reflexivity|]. cbn [fold_left].
  replace (f c x) with c.
  - apply IH. intro v. destruct (H v) as (P1 & P2 & P3). repeat split; intro X; [apply P1|apply P2|apply P3]; now right.
  - destruct x as [|v|v|v|v|v|v|v|v|v|]; destruct Hf as [-> | ->]; try reflexivity; exfalso;
      destruct (H v) as (P1 & P2 & P3); (now apply P1; left) || (now apply P2; left) || (now apply P3; left).
Qed.
Lemma sets_assigned : forall start before v after, prompt before ->
  assigned start (before ++ Sets v :: after) = assigned (Some v) after.
Proof.
  intros start before v after H. unfold assigned. rewrite !fold_left_app. cbn [fold_left at_once late_add late_remove].
  rewrite !(prompt_late late_add before) by auto. rewrite !(prompt_late late_remove before) by auto. reflexivity.
Qed.
Lemma default_assigned : forall start before v, prompt before ->
  assigned start (before ++ [Defaults v]) = match assigned start before with Some w => Some w | None => Some v end.
Proof.
  intros start before v H. unfold assigned. rewrite !fold_left_app. cbn [fold_left at_once late_add late_remove].
  rewrite !(prompt_late late_add before) by auto. rewrite !(prompt_late late_remove before) by auto. reflexivity.
Qed.

Lemma C77_lemma : forall e s file att val nolink d, env_ok e -> reach e s ->
  NoDup (dkeys (sets_base (st_const s))) -> (forall k, In k (dkeys (sets_base (st_const s))) -> plain_text k) ->
  expand_var e s (Some file) att val nolink = Ok d ->
  exists l,
    (forall i, In i l <-> In i (st_list s) /\ (selected s (var_query file att val nolink) i \/ selected s (unset_query file) i)) /\
    NoDup (map it_id l) /\ StronglySorted by_line l /\
    ((forall i, In i l -> plain_text (item_name_nomod i)) ->
     forall n before i after m sub subs v op rawn evs evs', l = before ++ i :: after ->
       it_pay i = PVariable m sub subs v op rawn -> item_name_nomod i = n ->
       (forall x, In x ["append"; "prepend"; "remove"] -> ~ In x subs) -> contains INLINE_BLOCK (stripped i) = true ->
       history n before evs -> prompt evs -> history n after evs' ->
       (fold_left at_once evs' (Some (reverse_inline_block i)) = None -> forall v, ~ In (LateRemoves v) evs') ->
       match assigned (Some (reverse_inline_block i)) evs' with
       | Some v => exists w, expand_term e s file v = Ok w /\ dget n d = Some (safe_linesplit w)
       | None => dget n d = None \/ dget n d = Some []
       end).
Proof.
  intros e s file att val nolink d He Hr Hb Hbp H. destruct (C46_lemma e s file att val nolink d He Hr Hb Hbp H) as [l (L1 & L2 & L3 & L4)].
  exists l. split; [exact L1|]. split; [exact L2|]. split; [exact L3|].
  intros Hp n before i after m sub subs v op rawn evs evs' El Ei En Hs Hc H1 Hl H2 Hn.
  assert (Hh : history n l (evs ++ Sets (reverse_inline_block i) :: evs')).
  { rewrite El. apply history_app; [exact H1|]. apply hist_does; [|exact H2]. eapply does_code; eassumption. }
  specialize (L4 Hp n _ Hh). rewrite sets_assigned in L4 by exact Hl.
  assert (Hg : fold_left at_once (evs ++ Sets (reverse_inline_block i) :: evs') (preset s file n) = None ->
               forall v, ~ In (LateRemoves v) (evs ++ Sets (reverse_inline_block i) :: evs')).
  { rewrite fold_left_app. cbn [fold_left at_once]. intros E v0 Hv. apply in_app_or in Hv. destruct Hv as [Hv|[Hv|Hv]].
    - exact (proj2 (proj2 (Hl v0)) Hv).
    - discriminate Hv.
    - exact (Hn E v0 Hv). }
  specialize (L4 Hg). destruct (assigned (Some (reverse_inline_block i)) evs'); [exact L4|].
  destruct L4 as [L4|[_ L4]]; [now left|now right].
Qed.

Lemma C76_lemma : forall e s file att val nolink d, env_ok e -> reach e s ->
  NoDup (dkeys (sets_base (st_const s))) -> (forall k, In k (dkeys (sets_base (st_const s))) -> plain_text k) ->
  expand_var e s (Some file) att val nolink = Ok d ->
  exists l,
    (forall i, In i l <-> In i (st_list s) /\ (selected s (var_query file att val nolink) i \/ selected s (unset_query file) i)) /\
    NoDup (map it_id l) /\ StronglySorted by_line l /\
    ((forall i, In i l -> plain_text (item_name_nomod i)) ->
     forall n before i m sub subs v rawn evs, l = before ++ [i] ->
       it_pay i = PVariable m sub subs v " ??= " rawn -> item_name_nomod i = n ->
       (forall x, In x ["append"; "prepend"; "remove"] -> ~ In x subs) -> contains INLINE_BLOCK (stripped i) = false ->
       history n before evs -> prompt evs ->
       exists w, expand_term e s file (match assigned (preset s file n) evs with Some w => w | None => stripped i end) = Ok w /\
                 dget n d = Some (safe_linesplit w)).
Proof.
  intros e s file att val nolink d He Hr Hb Hbp H. destruct (C46_lemma e s file att val nolink d He Hr Hb Hbp H) as [l (L1 & L2 & L3 & L4)].
  exists l. split; [exact L1|]. split; [exact L2|]. split; [exact L3|].
  intros Hp n before i m sub subs v rawn evs El Ei En Hs Hc H1 Hl.
  assert (Hh : history n l (evs ++ [Defaults (stripped i)])).
  { rewrite El. apply history_app; [exact H1|]. apply hist_does; [|apply hist_nil]. eapply does_now; try eassumption. constructor. }
  specialize (L4 Hp n _ Hh). rewrite default_assigned in L4 by exact Hl.
  assert (Hg : fold_left at_once (evs ++ [Defaults (stripped i)]) (preset s file n) = None ->
               forall v, ~ In (LateRemoves v) (evs ++ [Defaults (stripped i)])).
  { rewrite fold_left_app. cbn [fold_left at_once]. destruct (fold_left at_once evs (preset s file n)); discriminate. }
  specialize (L4 Hg). destruct (assigned (preset s file n) evs); exact L4.
Qed.
