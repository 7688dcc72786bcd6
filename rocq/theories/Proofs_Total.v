(** * Proofs for C96 *)

From Verif Require Import PyStr Regex Patterns PyPath Res Inline Const Item Lines Stash
  StrFacts ReFacts LinesFacts ParseFacts HistFacts NameFacts ExnFacts Spec_Expand Proofs_Expand Spec_Const Proofs_Const
  Spec_Group Proofs_Group Spec_Include Proofs_Include Spec_Total.

(** ** Patterns of bbappends *)

Inductive fair : str -> Prop :=
| fair_nil : fair []
| fair_char : forall c p, plain_char c -> fair p -> fair (c :: p)
| fair_any : forall p, fair p -> fair (".*" ++ p)
| fair_end : forall p, fair p -> fair (36%N :: p).

Lemma fair_no_quant : forall p, fair p -> no_quant p.
Proof.
  intros p H. destruct H as [|c p Hc H|p H|p H]; cbn; [exact I| | |].
  - intro Hi. apply Hc. vm_compute in Hi. vm_compute. tauto.
  - intro Hi. vm_compute in Hi. intuition discriminate.
  - intro Hi. vm_compute in Hi. intuition discriminate.
Qed.

Lemma fair_compiles : forall p, fair p -> exists r, compile_pat (S (length p)) p = Some r.
Proof.
  intros p H. induction H as [|c p Hc H [r IH]|p H [r IH]|p H [r IH]].
  - exists REps. reflexivity.
  - pose proof (compile_lits [c] p r (S (length p)) (Forall_cons _ Hc (Forall_nil _)) (fair_no_quant p H) IH) as E.
    eexists. exact E.
  - assert (Eq : take_quant (42%N :: p) = (QStar true false, p)).
    { pose proof (fair_no_quant p H) as Hq. destruct p as [|d p]; [reflexivity|]. cbn in Hq. unfold take_quant.
      assert (H1 : N.eqb d 43 = false) by (apply N.eqb_neq; intros ->; apply Hq; auto).
      assert (H2 : N.eqb d 63 = false) by (apply N.eqb_neq; intros ->; apply Hq; auto).
      rewrite H1, H2. reflexivity. }
    apply (fun E => compile_more _ _ _ E (S (S (length p))) (Nat.le_succ_diag_r _)) in IH.
    exists (RSeq (quantify (QStar true false) RDot) r).
    change (length (".*" ++ p)) with (S (S (length p))). change (".*" ++ p) with (46%N :: 42%N :: p).
    revert IH. generalize (S (S (length p))) as fu. intros fu IH. cbn [compile_pat]. change (N.eqb 46 94) with false. change (N.eqb 46 36) with false. change (N.eqb 46 46) with true.
    cbv iota. rewrite Eq. rewrite IH. reflexivity.
  - exists (RSeq REol r). change (length (36%N :: p)) with (S (length p)).
    revert IH. generalize (S (length p)) as fu. intros fu IH. cbn [compile_pat]. change (N.eqb 36 94) with false. change (N.eqb 36 36) with true.
    cbv iota. rewrite take_quant_none by now apply fair_no_quant. now rewrite IH.
Qed.

Lemma Forall_skipn : forall (P : N -> Prop) (s : list N) n, Forall P s -> Forall P (skipn n s).
Proof.
  intros P s. induction s as [|c s IH]; intros [|n] H; cbn; auto. inversion H; subst. now apply IH.
Qed.
Lemma replace_Forall : forall (P : N -> Prop) old new s, old <> [] -> Forall P new -> Forall P s -> Forall P (replace old new s).
Proof.
  intros P old new s Ho Hn Hs. rewrite replace_eq by exact Ho.
  assert (G : forall n s, length s <= n -> Forall P s -> forall k, Forall P (replace_go old new k s)).
  { clear s Hs. induction n as [|n IH]; intros s Hl Hs k.
    - destruct s; [constructor|cbn in Hl; lia].
    - destruct s as [|c s]; [constructor|]. cbn in Hl. inversion Hs as [|? ? Hc Hs']; subst. cbn [replace_go]. destruct k as [|k].
      + destruct (startswith old (c :: s)).
        * apply Forall_app. split; [exact Hn|]. apply IH; [lia|exact Hs'].
        * constructor; [exact Hc|]. apply IH; [lia|exact Hs'].
      + apply IH; [lia|exact Hs']. }
  now apply (G (length s)).
Qed.

Definition mild (c : N) : Prop := plain_char c \/ c = 36%N.
Lemma mild_fair : forall s, Forall mild s -> fair (replace "%" ".*" s).
Proof.
  induction s as [|c s IH]; intro H; [constructor|]. inversion H as [|? ? Hc Hs]; subst.
  change (c :: s) with ([c] ++ s). change ("%" : str) with ([37%N] : str). rewrite replace_char_app.
  destruct (N.eq_dec c 37) as [->|Hn].
  - change (replace [37%N] ".*" [37%N]) with (".*" : str). now apply fair_any, IH.
  - rewrite replace_char_none by (intros [E|[]]; congruence). cbn [app].
    destruct Hc as [Hc| ->]; [now apply fair_char, IH|now apply fair_end, IH].
Qed.

Lemma plain_mild : forall s, Forall plain_char s -> Forall mild s.
Proof. intros s H. eapply Forall_impl; [|exact H]. intros c Hc. now left. Qed.

Lemma plain_append : forall f, Forall plain_char (basename f) -> dyn_pattern (append_pattern f) <> None.
Proof.
  intros f H. unfold dyn_pattern, append_pattern.
  destruct (fair_compiles (replace "%" ".*" (replace ".bbappend" ".bb$" (basename f)))) as [r E]; [|rewrite E; discriminate].
  apply mild_fair, replace_Forall; [discriminate| |now apply plain_mild].
  apply Forall_forall. intros c Hc.
  destruct Hc as [<-|[<-|[<-|[<-|[]]]]]; [left|left|left|now right]; intro Hi; vm_compute in Hi; intuition discriminate.
Qed.
Lemma plain_recipe : forall f, Forall plain_char (basename f) -> dyn_pattern (recipe_pattern f) <> None.
Proof.
  intros f H. unfold dyn_pattern, recipe_pattern.
  destruct (fair_compiles (replace "%" ".*" (replace ".bbappend" [] (basename f)))) as [r E]; [|rewrite E; discriminate].
  apply mild_fair, replace_Forall; [discriminate|constructor|now apply plain_mild].
Qed.

Lemma odd_or_plain : forall s : str, (exists c, In c s /\ In c special) \/ Forall plain_char s.
Proof.
  induction s as [|c s [[d [D1 D2]]|IH]]; [right; constructor|left; exists d; split; [now right|exact D2]|].
  destruct (in_dec N.eq_dec c special) as [H|H]; [left; exists c; split; [now left|exact H]|right; now constructor].
Qed.

(** ** What is raised *)

Lemma prepare_loop_only : forall f off neg next rest num ex,
  prepare_loop f off neg next rest num = Raise ex -> ex = StopIteration.
Proof.
  induction f as [|f IH]; intros off neg next rest num ex H; [discriminate|].
  rewrite prepare_loop_eq in H. destruct (line_list next rest) as [|line rest0]; [discriminate|].
  unfold subparser in H. destruct (iterate line rest0) as [[[t n] r]|e|] eqn:E; cbn in H; [| |discriminate].
  - destruct (inline_blocks_total neg t) as [raw [bs [Eb _]]]. rewrite Eb in H. cbn in H.
    destruct (prepare_loop f off neg n r _) eqn:Ep; cbn in H; try discriminate. inversion H; subst. eapply IH. exact Ep.
  - inversion H; subst. eapply iterate_exn. exact E.
Qed.

Lemma prepare_file_fine : forall T e f off neg,
  fine T (fun ex => (ex = StopIteration /\ unfinished e f) \/ (ex = OSError /\ unreadable e f)) (prepare_file e f off neg).
Proof.
  intros T e f off neg. unfold prepare_file. destruct (fs_read (e_fs e) f) as [t| | |] eqn:Er.
  - destruct (prepare_text off neg (universal_newlines t)) as [cs|ex|] eqn:E; [exact I| |].
    + left. assert (ex = StopIteration) by (unfold prepare_text in E; eapply prepare_loop_only; exact E). subst ex.
      split; [reflexivity|]. apply prepare_waiting in E. destruct E as [gs [u [H1 H2]]]. exists t, gs, u. auto.
    + now apply prepare_text_fuel in E.
  - exact I.
  - right. split; [reflexivity|now left].
  - right. split; [reflexivity|now right].
Qed.

Lemma expand_f_other : forall vf e s file lf spare value seen ex,
  expand_f vf e s file lf spare value seen = Raise ex -> exists p, fs_read (e_fs e) p = RdOther.
Proof.
  induction vf as [vf IHv] using lt_wf_ind. intros e s file lf. induction lf as [lf IHl] using lt_wf_ind.
  intros spare value seen ex H. rewrite expand_f_eq in H.
  assert (Hv : forall c sn ex, match vf with O => NoFuel | S vf' => expand_f vf' e s file (length c) [] c sn end = Raise ex ->
    exists p, fs_read (e_fs e) p = RdOther).
  { intros c sn ex0 E. destruct vf as [|vf]; [discriminate|]. eapply IHv; [|exact E]. lia. }
  revert H. apply (bind_exn _ _ _ _ _ (fun _ => exists p, fs_read (e_fs e) p = RdOther)).
  - intros ex1. apply (fold_res_exn _ _ _ _ _ _ (fun _ => exists p, fs_read (e_fs e) p = RdOther)). intros a b ex2.
    apply (expand_one_exn _ _ _ _ _ _ _ _ _ (fun _ => exists p, fs_read (e_fs e) p = RdOther)). exact Hv.
  - intros x1 ex1. apply (bind_exn _ _ _ _ _ (fun _ => exists p, fs_read (e_fs e) p = RdOther)).
    + intros ex2. apply (fold_res_exn _ _ _ _ _ _ (fun _ => exists p, fs_read (e_fs e) p = RdOther)). intros a b ex3.
      apply (expand_one_exn _ _ _ _ _ _ _ _ _ (fun _ => exists p, fs_read (e_fs e) p = RdOther)). exact Hv.
    + intros x2 ex2. apply (fold_res_exn _ _ _ _ _ _ (fun _ => exists p, fs_read (e_fs e) p = RdOther)). intros [r sn] mt ex3 E.
      unfold read_file_one in E.
      destruct lf as [|lf]; cbn in E; [discriminate|].
      destruct (expand_f vf e s file lf spare (group_str "file" mt) sn) as [y|e0|] eqn:Ey; cbn in E; try discriminate.
      * destruct (fs_read (e_fs e) _) eqn:Er; try discriminate. eexists. exact Er.
      * eapply IHl; [|exact Ey]. lia.
Qed.

Lemma expand_term_fine : forall (T : Prop) e s f v, (T -> env_ok e) ->
  fine T (fun ex => ex = OSError /\ exists p, fs_read (e_fs e) p = RdOther) (expand_term e s f v).
Proof.
  intros T e s f v He. destruct (expand_term e s f v) as [w|ex|] eqn:E; cbn; [exact I| |].
  - split; [now apply expand_term_exn in E|]. unfold expand_term, expand_term_full, expand_seen in E.
    destruct (expand_f _ _ _ _ _ _ _ _) as [y|e1|] eqn:E1; simpl in E; try discriminate. eapply expand_f_other. exact E1.
  - intro t. destruct (C42_lemma e s f v [] [] None (He t)) as [[w Hw]|Hw]; unfold expand_term in E; congruence.
Qed.

(** ** The state *)

Lemma leave_names : forall e file forced items s, names_ok (st_const s) -> names_ok (st_const (snd (leave e file forced items s))).
Proof.
  intros e file forced items s Hn. destruct (leave e file forced items s) as [r s'] eqn:E. cbn.
  destruct (leave_named _ _ _ _ _ _ _ Hn E) as [fs [F _]]. apply F.
Qed.

Lemma leave_origins : forall e file forced items s (P : str -> Prop), P file -> Forall (fun i => it_origin i = file) items ->
  Forall (fun i => P (it_origin i)) (st_list s) -> Forall (fun i => P (it_origin i)) (st_list (snd (leave e file forced items s))).
Proof.
  intros e file forced items s P Hf Hi Hs. destruct (leave e file forced items s) as [r s'] eqn:E. cbn.
  apply leave_cases in E. destruct E as [f [l [Hr [L [_ [_ [_ [_ [_ [_ [Hl _]]]]]]]]]]]. rewrite L.
  apply Forall_app. split.
  - rewrite Forall_map. eapply Forall_impl; [|exact Hs]. intros i H. cbn beta in *. now rewrite raises_it_origin.
  - destruct Hl as [->|[mx ->]]; [constructor|]. rewrite Forall_map. eapply Forall_impl; [|exact Hi]. intros i H. cbn in *. now rewrite H.
Qed.

Lemma raises_why : forall n e path off forced s ex s', names_ok (st_const s) ->
  add_file n e path off forced s = (Raise ex, s') ->
  (ex = StopIteration /\ exists f, read_by e path f /\ unfinished e f) \/
  (ex = OSError /\ exists f, unreadable e f /\ (read_by e path f \/ fs_read (e_fs e) f = RdOther)) \/
  (ex = RegexUnsupported /\ exists f, odd_name f /\ (read_by e path f \/ exists i, In i (st_list s) /\ it_origin i = f)).
Proof.
  intros n e path off forced s ex s' Hn H.
  set (old := fun f => read_by e path f \/ exists i, In i (st_list s) /\ it_origin i = f).
  set (Q := fun ex => (ex = StopIteration /\ exists f, read_by e path f /\ unfinished e f) \/
    (ex = OSError /\ exists f, unreadable e f /\ (read_by e path f \/ fs_read (e_fs e) f = RdOther)) \/
    (ex = RegexUnsupported /\ exists f, odd_name f /\ old f)).
  assert (G : fine False Q (fst (add_file n e path off forced s))); [|rewrite H in G; exact G].
  apply (raises_lemma e (read_by e path) Q (fun s => names_ok (st_const s) /\ Forall (fun i => old (it_origin i)) (st_list s))).
  - intros f g Hf Hp. eapply read_pulled; eassumption.
  - intros f s0 v Hf. eapply fine_impl; [apply expand_term_fine; intros []|].
    intros ex0 [-> [p Hp]]. right. left. split; [reflexivity|]. exists p. split; [now right|now right].
  - intros f o neg Hf. eapply fine_impl; [apply prepare_file_fine|]. intros ex0 [[-> Hu]|[-> Hu]].
    + left. split; [reflexivity|]. exists f. auto.
    + right. left. split; [reflexivity|]. exists f. auto.
  - intros k s0 H0. exact H0.
  - intros f s0 Hf H0. exact H0.
  - intros f s0 ex0 Hf [N0 O0] [[-> [Hb Hd]]|[[-> [i [Hi [Hb Hd]]]]|Hc]].
    + right. right. split; [reflexivity|]. exists f. split; [|now left]. split; [exact Hb|].
      destruct (odd_or_plain (basename f)) as [Ho|Hp]; [exact Ho|]. exfalso. now apply (plain_append f Hp).
    + right. right. split; [reflexivity|]. exists (it_origin i). rewrite Forall_forall in O0. split; [|now apply O0].
      split; [exact Hb|]. destruct (odd_or_plain (basename (it_origin i))) as [Ho|Hp]; [exact Ho|].
      exfalso. now apply (plain_recipe (it_origin i) Hp).
    + contradiction.
  - intros f fc items s0 Hf [N0 O0] Ho. split; [now apply leave_names|].
    apply (leave_origins e f fc items s0 old); [now left|exact Ho|exact O0].
  - apply read_itself.
  - split; [exact Hn|]. apply Forall_forall. intros i Hi. right. exists i. auto.
Qed.

Lemma completes : forall e F rank path off forced s, env_ok e -> fs_isdir (e_fs e) [] = false ->
  ranked e F rank -> (forall f, In f F -> startswith [cSL; cSL] f = false) -> In (abspath (fs_cwd (e_fs e)) path) F ->
  names_ok (st_const s) ->
  (forall f, In f F -> ~ unfinished e f) -> (forall f, ~ unreadable e f) ->
  (forall f, In f F \/ (exists i, In i (st_list s) /\ it_origin i = f) -> ~ odd_name f) ->
  exists n, forall m, n <= m -> exists l s', add_file m e path off forced s = (Ok l, s').
Proof.
  intros e F rank path off forced s He Hd Hr Hs HF Hn Hu Hre Ho.
  destruct (C40_lemma e F rank path off forced s He Hd Hr Hs HF) as [n Hm]. exists n. intros m Hle.
  specialize (Hm m Hle). destruct (add_file m e path off forced s) as [[l|ex|] s'] eqn:E; [eauto| |cbn in Hm; congruence].
  exfalso.
  assert (Hc : forall f, read_by e path f -> In f F).
  { intros f Hf. induction Hf as [|f g Hf IH Hp]; [exact HF|]. destruct Hr as [Hcl _]. eapply Hcl; eassumption. }
  apply raises_why in E; [|exact Hn]. destruct E as [[_ [f [Hf Hx]]]|[[_ [f [Hx _]]]|[_ [f [Hx Hf]]]]].
  - apply (Hu f); [now apply Hc|exact Hx].
  - now apply (Hre f).
  - apply (Ho f); [|exact Hx]. destruct Hf as [Hf|Hf]; [left; now apply Hc|now right].
Qed.
