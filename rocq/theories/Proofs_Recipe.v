(** * Recipes of ordinary statements: proofs *)

From Verif Require Import Props_Items.
From Verif Require InlineText.
From Verif Require Import PyStr Regex UniTable Patterns PyPath Res Inline Const Item Lines Stash
  StrFacts ReFacts ItemFacts LinesFacts NameFacts ParseFacts HistFacts ReachFacts QueryFacts Spec_Parse ClassFacts
  MatchFacts Spec_Query Proofs_Query StmtFacts Proofs_Parse Proofs_Stmt Proofs_Stmt2 Proofs_Stmt3 Proofs_Inline Spec_Group Proofs_Group
  Spec_Func Proofs_Func Props_Lines Access Spec_Access Proofs_Access Spec_Expand Spec_Recipe.

(** ** Lines *)

Lemma continued_lines : forall vs h, ~ In cNL h -> (forall v, In v vs -> ~ In cNL v) -> Forall whole_line (continued h vs).
Proof.
  assert (N : forall x, In x [cDQ; cBSL] -> ~ In cNL [x]).
  { intros x [<-|[<-|[]]] [H|[]]; discriminate. }
  induction vs as [|v r IH]; intros h Hh Hv; cbn [continued].
  - constructor; [|constructor]. exists (h ++ [cDQ]). split; [reflexivity|]. rewrite in_app_iff. intros [H|H]; [auto|].
    apply (N cDQ) in H; [exact H|now left].
  - destruct r as [|v' r].
    + constructor; [|constructor]. exists (h ++ v ++ [cDQ]). split; [reflexivity|]. rewrite !in_app_iff. intros [H|[H|H]].
      * auto.
      * apply (Hv v); [now left|exact H].
      * apply (N cDQ) in H; [exact H|now left].
    + constructor.
      * exists (h ++ v ++ [cBSL]). split; [reflexivity|]. rewrite !in_app_iff. intros [H|[H|H]].
        -- auto.
        -- apply (Hv v); [now left|exact H].
        -- apply (N cBSL) in H; [exact H|right; now left].
      * apply IH; [intros []|]. intros x Hx. apply Hv. now right.
Qed.

Lemma name_char_not : forall c, name_char c -> c <> cNL /\ c <> cBSL /\ c <> 35%N /\ re_space c = false /\ py_space c = false.
Proof.
  intros c H. pose proof (name_not_py c H) as P. split; [|split; [|split; [|split; [|exact P]]]].
  - intros ->. discriminate.
  - intros ->. unfold name_char, letter, digit, between, cBSL in H. cbn [In] in H. lia.
  - intros ->. unfold name_char, letter, digit, between in H. cbn [In] in H. lia.
  - apply name_char_iff in H. destruct (re_space c) eqn:E; [|reflexivity]. exfalso.
    apply name_char_iff in H. unfold re_space in E. unfold name_char, letter, digit, between in H. cbn [In] in H.
    rewrite !Bool.orb_true_iff, ?Bool.andb_true_iff, ?N.eqb_eq, ?N.leb_le in E. lia.
Qed.
Lemma flag_char_not : forall c, flag_char c -> c <> cNL /\ c <> cBSL.
Proof. intros c H. unfold flag_char, letter, digit, between in H. cbn [In] in H. unfold cNL, cBSL. lia. Qed.
Lemma task_char_not : forall c, task_char c -> c <> cNL /\ c <> cBSL.
Proof. intros c H. unfold task_char, letter, digit, between in H. cbn [In] in H. unfold cNL, cBSL. lia. Qed.
Lemma op_seg : forall op, In op (dkeys canonical) -> segment op /\ exists r, op = cSP :: r.
Proof.
  intros op H. assert (A : forall c, In c op -> c <> cNL /\ c <> cBSL).
  { cbn in H. repeat (destruct H as [<-|H]; [cbn; intros c Hc; repeat (destruct Hc as [<-|Hc]; [split; discriminate|]); destruct Hc|]).
    destruct H. }
  split; [split; intro X; apply A in X; destruct X; congruence|].
  cbn in H. repeat (destruct H as [<-|H]; [eexists; reflexivity|]). destruct H.
Qed.

Lemma seg_app : forall a b, segment a -> segment b -> segment (a ++ b).
Proof. intros a b [A1 A2] [B1 B2]. split; rewrite in_app_iff; tauto. Qed.
Lemma seg_lit : forall a, forallb (fun c => negb (N.eqb c cNL || N.eqb c cBSL)) a = true -> segment a.
Proof.
  intros a H. rewrite forallb_forall in H. split; intro X; apply H in X; discriminate.
Qed.
Lemma seg_chars : forall (P : N -> Prop) a, (forall c, P c -> c <> cNL /\ c <> cBSL) -> (forall c, In c a -> P c) -> segment a.
Proof. intros P a HP Ha. split; intro X; apply Ha, HP in X; destruct X; congruence. Qed.
Lemma seg_full : forall t, segment t -> whole_line (line t).
Proof. intros t [H _]. now exists t. Qed.
Lemma seg_name : forall n, var_name n -> segment n.
Proof. intros n [_ H]. apply (seg_chars name_char); [|exact H]. intros c Hc. apply name_char_not in Hc. tauto. Qed.
Lemma seg_task : forall n, task_name n -> segment n.
Proof. intros n [_ H]. apply (seg_chars task_char); [|exact H]. exact task_char_not. Qed.
Lemma seg_quoted : forall v, segment v -> segment (quoted v).
Proof. intros v H. unfold quoted. apply seg_app; [now apply seg_lit|]. apply seg_app; [exact H|now apply seg_lit]. Qed.

Lemma seg_plain : forall p, plain_ok p -> segment (plain_line p).
Proof.
  assert (D : forall d, segment (concat (repeat ("_defer" : str) d))).
  { induction d as [|d IH]; [now apply seg_lit|]. cbn [repeat concat]. apply seg_app; [now apply seg_lit|exact IH]. }
  intros [d c|kw n|n|pa ns|pa v f|n|n f|op q c] H; cbn [plain_line plain_ok] in *.
  - apply seg_app; [apply seg_app; [now apply seg_lit|apply D]|]. apply seg_app; [now apply seg_lit|apply H].
  - destruct H as [H [_ Hn]]. apply seg_app; [destruct H as [->| ->]; now apply seg_lit|]. apply seg_app; [now apply seg_lit|].
    apply (seg_chars file_char); [|exact Hn]. intros c Hc. unfold file_char, letter, digit, between in Hc. cbn [In] in Hc.
    unfold cNL, cBSL. lia.
  - apply seg_app; [now apply seg_lit|apply H].
  - destruct H as [_ [H1 [H2 _]]]. apply seg_app; [now apply seg_lit|]. apply seg_app; [exact H1|]. apply seg_app; [now apply seg_lit|exact H2].
  - destruct H as [[_ [H1 _]] [_ [H2 [_ H3]]]]. apply seg_app; [now apply seg_lit|]. apply seg_app; [exact H1|].
    apply seg_app; [now apply seg_lit|]. apply seg_app; [exact H2|]. apply seg_app; [now apply seg_lit|exact H3].
  - apply seg_app; [now apply seg_lit|now apply seg_name].
  - destruct H as [H1 H2]. apply seg_app; [now apply seg_lit|]. apply seg_app; [now apply seg_name|].
    destruct f as [|c f]; [now apply seg_lit|]. apply seg_app; [now apply seg_lit|]. apply seg_app; [|now apply seg_lit].
    apply (seg_chars flag_char); [exact flag_char_not|exact H2].
  - destruct H as [H1 [H2 H3]]. apply seg_app; [now apply seg_lit|]. apply seg_app; [now apply op_seg|].
    assert (Q : segment [q]) by (destruct H2 as [->| ->]; now apply seg_lit).
    apply seg_app; [exact Q|]. apply seg_app; [exact H3|exact Q].
Qed.
Lemma seg_def : forall name args rest, def_name name -> segment args -> segment rest ->
  segment ("def " ++ name ++ "(" ++ args ++ "):" ++ rest).
Proof.
  intros name args rest [_ Hn] Ha Hr. apply seg_app; [now apply seg_lit|]. apply seg_app.
  { apply (seg_chars def_char); [|exact Hn]. intros c Hc. unfold def_char, digit, between in Hc. cbn [In] in Hc.
    unfold cNL, cBSL. lia. }
  apply seg_app; [now apply seg_lit|]. apply seg_app; [exact Ha|]. apply seg_app; [now apply seg_lit|exact Hr].
Qed.

(** The text of the statements on one line. *)
Lemma one_text : forall x, proper x ->
  match x with
  | Flag name flag op v => segment (name ++ "[" ++ flag ++ "]" ++ op ++ quoted v)
  | Export name v => segment ("export " ++ name ++ " = " ++ quoted v)
  | Functions fs => segment ("EXPORT_FUNCTIONS " ++ fs)
  | Deltask name => segment ("deltask " ++ name)
  | Addtask name t _ _ => segment ("addtask " ++ name ++ t)
  | Plain p => segment (plain_line p)
  | Define name args rest _ => segment ("def " ++ name ++ "(" ++ args ++ "):" ++ rest)
  | _ => True
  end.
Proof.
  intros [name op vs|name flag op v|name v|fs|name|name t bl al|qs name head b m z1 z2|h m| |p|name args rest m] [_ [H _]]; try exact I.
  - destruct H as [Hn [_ [Hf [Ho Hv]]]]. apply seg_app; [now apply seg_name|]. apply seg_app; [now apply seg_lit|].
    apply seg_app; [now apply (seg_chars flag_char); [exact flag_char_not|]|]. apply seg_app; [now apply seg_lit|].
    apply seg_app; [now apply op_seg|now apply seg_quoted].
  - destruct H as [Hn [Hv _]]. apply seg_app; [now apply seg_lit|]. apply seg_app; [now apply seg_name|].
    apply seg_app; [now apply seg_lit|now apply seg_quoted].
  - apply seg_app; [now apply seg_lit|apply H].
  - apply seg_app; [now apply seg_lit|now apply seg_task].
  - destruct H as [Hn [_ [Ht _]]]. apply seg_app; [now apply seg_lit|]. apply seg_app; [now apply seg_task|exact Ht].
  - now apply seg_plain.
  - destruct H as [H1 [H2 [H3 _]]]. now apply seg_def.
Qed.

Lemma written_lines : forall x, proper x -> Forall whole_line (written x).
Proof.
  intros x H. pose proof (one_text x H) as T.
  destruct x as [name op vs|name flag op v|name v|fs|name|name t bl al|qs name head b m z1 z2|h m| |p|name args rest m]; cbn [written];
    try (constructor; [now apply seg_full|constructor]); destruct H as [_ [H _]].
  - destruct H as [Hn [_ [_ [Ho [_ Hv]]]]]. apply continued_lines.
    + apply seg_app; [now apply seg_name|]. apply seg_app; [now apply op_seg|now apply seg_lit].
    + intros v Hi. now apply Hv.
  - destruct H as [_ [_ [_ [H1 [H2 [H3 _]]]]]]. constructor; [exact H1|]. apply Forall_app. split; [exact H2|].
    constructor; [exact H3|constructor].
  - destruct H as [_ H]. eapply Forall_impl; [|exact H]. now intros l [_ X].
  - destruct H as [_ [_ [_ H]]]. constructor; [now apply seg_full|]. eapply Forall_impl; [|exact H]. now intros l [X _].
Qed.

Lemma whole_lines : forall ls, Forall whole_line ls -> lines ls.
Proof.
  induction 1 as [|l ls [t [-> Ht]] _ IH]; [constructor|]. apply lines_more; assumption.
Qed.
Lemma recipe_lines : forall ss, Forall proper ss -> lines (concat (map written ss)).
Proof.
  intros ss H. apply whole_lines. induction H as [|x ss Hx _ IH]; [constructor|]. cbn [map concat]. apply Forall_app.
  split; [now apply written_lines|exact IH].
Qed.

(** ** Blocks *)

Lemma seg_carries : forall t, segment t -> ~ carries_on (line t).
Proof.
  intros t [_ H] [a [w [E _]]]. apply H. unfold line in E. rewrite !app_assoc in E. apply app_inj_tail in E.
  destruct E as [-> _]. rewrite !in_app_iff. left. right. now left.
Qed.
Lemma end_carries : forall t c, c <> cBSL -> re_space c = false -> ~ carries_on (line (t ++ [c])).
Proof.
  intros t c Hc Hs [a [w [E Hw]]]. unfold line in E. rewrite !app_assoc in E. apply app_inj_tail in E. destruct E as [E _].
  rewrite <- app_assoc in E. destruct w as [|x w _] using rev_ind.
  - rewrite app_nil_r in E. apply app_inj_tail in E. destruct E as [_ E]. congruence.
  - rewrite !app_assoc in E. apply app_inj_tail in E. destruct E as [_ <-].
    rewrite (Hw c) in Hs; [discriminate|]. apply in_or_app. right. now left.
Qed.

(** The first character of a statement that is no comment. *)
Definition starts_with (P : N -> Prop) (s : str) : Prop := exists c r, s = c :: r /\ P c.
Definition starter (c : N) : Prop := c <> 35%N /\ py_space c = false.

Lemma starts_no_remark : forall s, starts_with starter s -> ~ remark s.
Proof. intros s [c [r [-> [H _]]]] [t E]. cbn in E. injection E as E _. congruence. Qed.
Lemma starts_no_def : forall s, starts_with starter s -> (forall t, s <> "def " ++ t) -> ~ defines s.
Proof.
  intros s [c [r [-> [_ H]]]] Hd [[|x w] [t [E [Hw _]]]].
  - now apply Hd in E.
  - cbn [app] in E. injection E as <- _. rewrite (Hw c) in H; [discriminate|now left].
Qed.

Lemma name_starts : forall n t, var_name n -> starts_with starter (n ++ t).
Proof.
  intros [|c n] t [H1 H2]; [congruence|]. exists c, (n ++ t). split; [reflexivity|].
  destruct (name_char_not c) as (_ & _ & A & _ & B); [apply H2; now left|]. now split.
Qed.

(** A name of several characters before a character that is not one. *)
Lemma name_def : forall n c t r, (forall x, In x n -> name_char x) -> ~ name_char c ->
  n ++ c :: t = "def " ++ r -> n = "def" /\ c = cSP.
Proof.
  intros n c t r Hn Hc E.
  assert (D : forall x, In x ("def" : str) -> name_char x).
  { intros x Hx. left. right. unfold between. repeat (destruct Hx as [<-|Hx]; [lia|]). destruct Hx. }
  assert (S : ~ name_char cSP).
  { unfold name_char, letter, digit, between, cSP. cbn [In]. lia. }
  destruct n as [|n1 n]; [cbn in E; injection E as -> _; exfalso; apply Hc, D; now left|].
  cbn [app] in E. injection E as -> E.
  destruct n as [|n2 n]; [cbn in E; injection E as -> _; exfalso; apply Hc, D; right; now left|].
  cbn [app] in E. injection E as -> E.
  destruct n as [|n3 n]; [cbn in E; injection E as -> _; exfalso; apply Hc, D; right; right; now left|].
  cbn [app] in E. injection E as -> E.
  destruct n as [|n4 n]; [cbn in E; injection E as -> _; now split|].
  cbn [app] in E. injection E as -> _. exfalso. apply S, Hn. do 3 right. now left.
Qed.

Lemma plain_starts : forall p t, plain_ok p -> starts_with starter (plain_line p ++ t).
Proof.
  intros [d c|kw n|n|pa ns|pa v f|n|n f|op q c] t H; cbn [plain_line];
    try (eexists; eexists; split; [reflexivity|]; split; [discriminate|reflexivity]).
  destruct H as [[->| ->] _]; eexists; eexists; (split; [reflexivity|]); (split; [discriminate|reflexivity]).
Qed.

Lemma first_ok : forall x, proper x -> (forall h m, x <> Remarks h m) -> x <> Empty -> exists h r, written x = h :: r /\ starts_with starter h.
Proof.
  assert (L : forall c r, (forall x, c :: r = x -> starts_with starter x) -> starts_with starter (c :: r)) by (intros; auto).
  intros x H Hr He. destruct x as [name op vs|name flag op v|name v|fs|name|name t bl al|qs name head b m z1 z2|h m| |p|name args rest m];
    cbn [written]; destruct H as [_ [H _]].
  - destruct H as [Hn _]. destruct vs as [|v [|v' r]]; cbn [continued]; (eexists; eexists; split; [reflexivity|]);
      unfold line; rewrite <- !app_assoc; now apply name_starts.
  - destruct H as [Hn _]. eexists. eexists. split; [reflexivity|]. unfold line. rewrite <- !app_assoc. now apply name_starts.
  - eexists. eexists. split; [reflexivity|]. eexists. eexists. split; [reflexivity|]. split; [discriminate|reflexivity].
  - eexists. eexists. split; [reflexivity|]. eexists. eexists. split; [reflexivity|]. split; [discriminate|reflexivity].
  - eexists. eexists. split; [reflexivity|]. eexists. eexists. split; [reflexivity|]. split; [discriminate|reflexivity].
  - eexists. eexists. split; [reflexivity|]. eexists. eexists. split; [reflexivity|]. split; [discriminate|reflexivity].
  - eexists. eexists. split; [reflexivity|]. destruct H as [[w0 [w1 [w2 [-> [Hq [_ [_ [_ [Hc [He0 _]]]]]]]]]] _].
    destruct qs as [|[k w] qs].
    + cbn [qualified map concat app]. destruct name as [|c name].
      * rewrite (He0 eq_refl). cbn [app]. eexists. eexists. split; [reflexivity|]. split; [discriminate|reflexivity].
      * cbn [app]. eexists. eexists. split; [reflexivity|].
        assert (F : func_char c) by (apply Hc; now left). split; [|now apply fchar_py_space].
        intros ->. unfold func_char, letter, digit, between in F. cbn [In] in F. lia.
    + rewrite qualified_cons. destruct (Hq k w) as [Hk _]; [now left|].
      destruct Hk as [<-|[<-|[]]]; cbn [app]; eexists; eexists; (split; [reflexivity|]); split; try discriminate; reflexivity.
  - now destruct (Hr h m).
  - congruence.
  - eexists. eexists. split; [reflexivity|]. unfold line. now apply plain_starts.
  - eexists. eexists. split; [reflexivity|]. eexists. eexists. split; [reflexivity|]. split; [discriminate|reflexivity].
Qed.

Lemma goes_on : forall t, carries_on (line (t ++ [cBSL])).
Proof. intro t. exists t, []. split; [unfold line; now rewrite <- app_assoc|intros c []]. Qed.
Lemma continued_shape : forall r v0 v h0, exists h m z, continued h0 (v0 :: v :: r) = h :: m ++ [z] /\
  carries_on h /\ Forall carries_on m /\ ~ carries_on z.
Proof.
  induction r as [|v1 r IH]; intros v0 v h0.
  - exists (line (h0 ++ v0 ++ [cBSL])), [], (line (v ++ [cDQ])). split; [reflexivity|].
    split; [rewrite app_assoc; apply goes_on|]. split; [constructor|]. now apply end_carries.
  - destruct (IH v v1 []) as (h & m & z & E & H1 & H2 & H3).
    exists (line (h0 ++ v0 ++ [cBSL])), (h :: m), z. split.
    + change (continued h0 (v0 :: v :: v1 :: r)) with (line (h0 ++ v0 ++ [cBSL]) :: continued [] (v :: v1 :: r)).
      now rewrite E.
    + split; [rewrite app_assoc; apply goes_on|]. split; [now constructor|exact H3].
Qed.

Lemma space_no_name : ~ name_char cSP.
Proof. unfold name_char, letter, digit, between, cSP. cbn [In]. lia. Qed.
Lemma bracket_no_name : ~ name_char 91%N.
Proof. unfold name_char, letter, digit, between. cbn [In]. lia. Qed.

Lemma simple_block : forall t r, segment t -> ~ opens (line t) -> starts_with starter (line t) ->
  (forall u, line t <> "def " ++ u) -> block (line t :: r) [line t] r.
Proof.
  intros t r Hs Ho Hf Hd. apply block_line; [now apply seg_carries|exact Ho|now apply starts_no_remark|now apply starts_no_def].
Qed.

Lemma written_block : forall x r, proper x ->
  ((exists h m, x = Remarks h m) -> next_is (fun l => ~ remark l) r) ->
  ((exists n a c m, x = Define n a c m) -> next_is top_level r) -> block (written x ++ r) (written x) r.
Proof.
  intros x r H Hr Hdef. pose proof (one_text x H) as T.
  assert (F : (forall h m, x <> Remarks h m) -> x <> Empty -> exists h r, written x = h :: r /\ starts_with starter h)
    by (now apply first_ok).
  destruct x as [name op vs|name flag op v|name v|fs|name|name t bl al|qs name head b m z1 z2|h m| |p|name args rest m];
    cbn [written] in *; destruct H as [Hin [H Ho]].
  - destruct H as [Hn [Hw [_ [Hop [Hne Hv]]]]]. destruct vs as [|v0 [|v vs]]; [congruence| |].
    + cbn [continued app] in *. destruct F as [h [r0 [E F]]]; [discriminate|discriminate|].
      injection E as <- <-. apply block_line.
      * rewrite app_assoc. now apply end_carries.
      * now apply Ho.
      * now apply starts_no_remark.
      * apply starts_no_def; [exact F|]. intros u E. destruct (op_seg op Hop) as [_ [p ->]].
        unfold line in E. rewrite <- !app_assoc in E. cbn [app] in E.
        destruct Hn as [_ Hn]. apply (name_def _ _ _ _ Hn space_no_name) in E. destruct E as [-> _].
        apply Hw. left. cbn. tauto.
    + destruct (continued_shape vs v0 v (name ++ op ++ [cDQ])) as (h & m & z & E & H1 & H2 & H3).
      rewrite E. cbn [app]. rewrite <- app_assoc. cbn [app]. now apply block_continued.
  - destruct F as [h [r0 [E F]]]; [discriminate|discriminate|]. injection E as <- <-. apply simple_block; [exact T|now apply Ho|exact F|].
    intros u E. destruct H as [[_ Hn] _]. unfold line in E. rewrite <- !app_assoc in E. cbn [app] in E.
    apply (name_def _ _ _ _ Hn bracket_no_name) in E. destruct E as [_ E]. discriminate.
  - destruct F as [h [r0 [E F]]]; [discriminate|discriminate|]. injection E as <- <-.
    apply simple_block; [exact T|now apply Ho|exact F|discriminate].
  - destruct F as [h [r0 [E F]]]; [discriminate|discriminate|]. injection E as <- <-.
    apply simple_block; [exact T|now apply Ho|exact F|discriminate].
  - destruct F as [h [r0 [E F]]]; [discriminate|discriminate|]. injection E as <- <-.
    apply simple_block; [exact T|now apply Ho|exact F|]. intros u E. unfold line in E. cbn in E. discriminate.
  - destruct F as [h [r0 [E F]]]; [discriminate|discriminate|]. injection E as <- <-.
    apply simple_block; [exact T|now apply Ho|exact F|discriminate].
  - destruct H as (Hh & _ & Hc & _ & _ & _ & Hi & Hd & Hz & _). cbn [app]. rewrite <- app_assoc. cbn [app].
    apply block_function; [exact Hc|now apply (head_opens qs name)|now apply ends_balanced].
  - destruct H as [Hc H]. inversion H as [|? ? [Hh _] Hm]; subst. cbn [app].
    apply block_comment; [exact Hc|now apply Ho|exact Hh| |apply Hr; eauto].
    eapply Forall_impl; [|exact Hm]. now intros l [X _].
  - cbn [app]. apply block_line.
    + apply seg_carries. now apply seg_lit.
    + now apply Ho.
    + intros [t E]. discriminate.
    + intros [w [t [E _]]]. apply (f_equal (@length N)) in E. rewrite !app_length in E. cbn in E. lia.
  - destruct F as [h [r0 [E F]]]; [discriminate|discriminate|]. injection E as <- <-.
    apply simple_block; [exact T|now apply Ho|exact F|]. intros u E. unfold line in E.
    destruct p as [d c|kw n|n|pa ns|pa v f|n|n f|op q c]; cbn in E; try discriminate.
    destruct H as [[->| ->] _]; discriminate.
  - destruct F as [h [r0 [E F]]]; [discriminate|discriminate|]. injection E as <- <-. destruct H as [[Hn0 Hn] [_ [_ Hm]]].
    cbn [app]. apply block_def.
    + now apply seg_carries.
    + now apply Ho.
    + now apply starts_no_remark.
    + exists [], (name ++ "(" ++ args ++ "):" ++ rest ++ [cNL]). split; [|split; [intros c []|]].
      * unfold line. cbn [app]. rewrite <- !app_assoc. cbn [app]. rewrite <- !app_assoc. reflexivity.
      * intro W. destruct name as [|c name]; [congruence|]. specialize (W c ltac:(now left)).
        assert (N : name_char c). { specialize (Hn c ltac:(now left)). unfold def_char, digit, between in Hn. cbn [In] in Hn.
          unfold name_char, letter, digit, between. cbn [In]. lia. }
        destruct (name_char_not c N) as (_ & _ & _ & _ & X). congruence.
    + eapply Forall_impl; [|exact Hm]. now intros l [_ X].
    + apply Hdef. eauto.
Qed.

Lemma next_no_remark : forall ss, Forall proper ss -> (forall h m r, ss <> Remarks h m :: r) ->
  next_is (fun l => ~ remark l) (concat (map written ss)).
Proof.
  intros [|x ss] H Hr l t E; [discriminate|]. inversion H as [|? ? Hx _]; subst.
  destruct (match x with Empty => true | _ => false end) eqn:D.
  - destruct x; try discriminate. cbn in E. injection E as <- _. intros [u X]. discriminate.
  - destruct (first_ok x Hx) as [h [r [W F]]].
    + intros h m ->. now destruct (Hr h m ss).
    + now intros ->.
    + cbn [map concat] in E. rewrite W in E. cbn [app] in E. injection E as <- _. now apply starts_no_remark.
Qed.

Lemma taken_recipe : forall ss, Forall proper ss -> apart ss -> taken (concat (map written ss)) (map written ss) [].
Proof.
  induction ss as [|x ss IH]; intros H Ha; [apply taken_none|]. inversion H as [|? ? Hx Hs]; subst.
  cbn [map concat]. eapply taken_more.
  - apply written_block; [exact Hx| |].
    + intros [h [m ->]]. apply next_no_remark; [exact Hs|]. intros h' m' r ->. now destruct Ha as [Ha _].
    + intros [n [a [c [m ->]]]] l u E. destruct ss as [|y ss]; [discriminate|]. destruct Ha as [Ha _].
      apply Ha. cbn [map concat] in E. inversion Hs as [|? ? Hy _]; subst.
      assert (W : exists h w, written y = h :: w).
      { destruct y; cbn [written]; try (now eexists; eexists). destruct vs as [|v [|w vs]]; now eexists; eexists. }
      destruct W as [h [w W]]. rewrite W in E |- *. cbn [app] in E. injection E as -> _. reflexivity.
  - apply IH; [exact Hs|]. now destruct Ha as [_ Ha].
Qed.

(** A recipe without inline code. *)
Definition as_written (x : stmt) : list str * stmt := (written x, x).
Lemma as_written_fst : forall ss, map fst (map as_written ss) = map written ss.
Proof. intro ss. rewrite map_map. reflexivity. Qed.
Lemma as_written_snd : forall ss, map snd (map as_written ss) = ss.
Proof. intro ss. rewrite map_map. apply map_id. Qed.
Lemma recipe_coded : forall neg ss text, recipe ss text -> coded neg (map as_written ss) text.
Proof.
  intros neg ss text [Et [Hp Ha]]. unfold coded. rewrite as_written_fst. split; [exact Et|]. split.
  { clear -Hp. induction Hp as [|x ss Hx _ IH]; [constructor|]. cbn [map concat]. apply Forall_app.
    split; [now apply written_lines|exact IH]. }
  split; [now apply taken_recipe|]. apply Forall_forall. intros c Hc. apply in_map_iff in Hc. destruct Hc as [x [<- Hx]].
  rewrite Forall_forall in Hp. apply Hp in Hx. split; [exact Hx|]. exists [], [], (concat (written x)).
  split; [reflexivity|]. split; [reflexivity|]. split; [constructor|]. destruct Hx as [Hx _].
  intros [a [b E]]. now apply (Hx a b).
Qed.

Lemma coded_realraw : forall n e path off forced s l s' t neg cs,
  add_file n e path off forced s = (Ok l, s') -> considered e path s ->
  fs_read (e_fs e) (file_of e path) = RdText t -> coded neg cs (universal_newlines t) ->
  map it_realraw l = map (fun c => concat (fst c)) cs.
Proof.
  intros n e path off forced s l s' t neg cs H Hc Hr [Et [Hw [Ht _]]].
  apply add_file_taken in H; [|exact Hc]. rewrite Hr in H. destruct H as [gs [H E]].
  pose proof (whole_lines _ Hw) as Hl. rewrite Et, <- (readlines_unique _ Hl) in H.
  destruct (taken_unique _ _ _ Hl H _ _ Ht) as [-> _]; [now left|now left|].
  rewrite E, map_map. reflexivity.
Qed.

(** ** What is read *)

Lemma flat_seg : forall t, segment t -> flat t = t.
Proof. intros t [H1 H2]. now apply flat_id. Qed.
Lemma flat_line : forall t, segment t -> flat (line t) = t.
Proof. intros t H. unfold line. rewrite flat_app, (flat_seg t H). cbn. apply app_nil_r. Qed.
Lemma flat_continued : forall vs h, segment h -> vs <> [] -> (forall v, In v vs -> segment v) ->
  flat (concat (continued h vs)) = h ++ join [cESC] vs ++ [cDQ].
Proof.
  induction vs as [|v r IH]; intros h Hh Hne Hv; [congruence|].
  assert (V : segment v) by (apply Hv; now left).
  destruct r as [|v' r].
  - cbn [continued concat]. rewrite app_nil_r. apply flat_line. apply seg_app; [exact Hh|]. apply seg_app; [exact V|now apply seg_lit].
  - change (continued h (v :: v' :: r)) with (line (h ++ v ++ [cBSL]) :: continued [] (v' :: r)). cbn [concat].
    rewrite flat_app, IH; [|now apply seg_lit|discriminate|intros x Hx; apply Hv; now right].
    unfold line. rewrite !flat_app, (flat_seg h Hh), (flat_seg v V).
    change (flat [cBSL]) with [cESC]. change (flat [cNL]) with (@nil N).
    change (join [cESC] (v :: v' :: r)) with (v ++ [cESC] ++ join [cESC] (v' :: r)).
    rewrite !app_nil_r, <- !app_assoc. reflexivity.
Qed.

Lemma join_cut : forall (d : str) x p y, x <> [] -> join d (x ++ p :: y) = join d x ++ d ++ join d (p :: y).
Proof.
  intros d x p y. induction x as [|a x IH]; [congruence|]. intros _. destruct x as [|b x].
  - reflexivity.
  - change (join d ((a :: b :: x) ++ p :: y)) with (a ++ d ++ join d ((b :: x) ++ p :: y)).
    rewrite IH by discriminate. change (join d (a :: b :: x)) with (a ++ d ++ join d (b :: x)).
    now rewrite <- !app_assoc.
Qed.

Lemma no_colon : forall n, ~ In 58%N n -> contains ":" n = false.
Proof.
  intros n H. apply Bool.not_true_iff_false. intro C. apply contains_spec in C. destruct C as [a [b ->]].
  apply H. rewrite in_app_iff. right. now left.
Qed.

Lemma simple_made : forall e i name op value, parsed_item e i -> assignment name op value (one_line i) ->
  ~ statement_word name -> simple_name name -> it_pay i = PVariable name [] [] value op name.
Proof.
  intros e i name op value Hi Ha Hw [Hc Hu].
  assert (Hne : name <> []) by (destruct Ha as [_ [[Hne _] _]]; exact Hne).
  destruct (C10_lemma e i name op value Hi Ha Hw) as [_ [p [E1 _]]].
  destruct (mk_variable_spec p name value op) as [_ [S2 _]]. rewrite E1, S2. clear E1 S2 Ha Hw Hi.
  rewrite no_colon by exact Hc. rewrite Bool.orb_false_r. destruct (ip_new p); unfold delim, delim_str.
  - assert (S : split_char 58 name = [name]).
    { change name with (join ":" [name]) at 1. apply split_char_join_parts; [discriminate|].
      intros q [<-|[]]; exact Hc. }
    rewrite S. destruct name as [|c name]; [congruence|]. reflexivity.
  - destruct (split_char 95 name) as [|p0 ps] eqn:S; [now destruct (split_char_nonnil 95 name)|].
    pose proof (split_char_join 95 name) as J. rewrite S in J. cbn [hd tl].
    assert (P0 : p0 <> []).
    { intros ->. destruct ps as [|q ps].
      - cbn in J. congruence.
      - change (join [95%N] ([] :: q :: ps)) with ([] ++ "_" ++ join [95%N] (q :: ps)) in J.
        destruct (Hu [] (join [95%N] (q :: ps))) as [X _]; [now symmetry|]. congruence. }
    assert (PS : forall q, In q ps -> exists c r, q = c :: r /\ between 65 90 c).
    { intros q Hq. apply in_split in Hq. destruct Hq as [x [y ->]].
      rewrite app_comm_cons, join_cut in J by discriminate.
      destruct (Hu (join [95%N] (p0 :: x)) (join [95%N] (q :: y))) as [_ [c [r [E B]]]]; [now symmetry|].
      destruct q as [|d q].
      - exfalso. destruct y as [|q y]; [discriminate|]. cbn in E. injection E as <- _. unfold between in B. lia.
      - exists d, q. split; [reflexivity|]. destruct y as [|q' y]; cbn in E; injection E as -> _; exact B. }
    assert (K : keep_nonempty ps = ps).
    { apply keep_all. intros q Hq. apply PS in Hq. destruct Hq as [c [r [-> _]]]. discriminate. }
    assert (A : forall q, In q ps -> sub_chunk p0 q = false).
    { intros q Hq. apply PS in Hq. destruct Hq as [c [r [-> B]]]. apply Bool.not_true_iff_false. intro X.
      apply is_override_iff in X. unfold between in B. destruct X as [[_ [c' [r' [E X]]]]|[X|[r' X]]].
      - injection E as <- <-. cbn [In] in X. lia.
      - injection X as -> _. lia.
      - injection X as -> _. lia. }
    assert (F1 : filter (sub_chunk p0) ps = []).
    { clear - A. induction ps as [|x ps IH]; [reflexivity|]. cbn [filter]. rewrite A by now left. apply IH.
      intros y Hy. apply A. now right. }
    assert (F2 : filter (fun i => negb (sub_chunk p0 i)) ps = ps).
    { clear - A. induction ps as [|x ps IH]; [reflexivity|]. cbn [filter]. rewrite A by now left. cbn [negb]. f_equal. apply IH.
      intros y Hy. apply A. now right. }
    rewrite K, F1, F2. destruct p0 as [|c0 p0]; [congruence|]. cbn [keep_nonempty filter nonempty app].
    change [delim false] with [95%N]. rewrite J. reflexivity.
Qed.

(** Names and their parts. *)
Lemma split_simple : forall name, simple_name name -> base_name name = name /\ overrides name = [].
Proof.
  intros name [H _]. unfold base_name, overrides.
  assert (S : split_char 58 name = [name]).
  { change name with (join ":" [name]) at 1. apply split_char_join_parts; [discriminate|]. intros q [<-|[]]; exact H. }
  now rewrite S.
Qed.
Lemma split_over : forall name n os, overridden name n os -> base_name name = n /\ overrides name = os.
Proof.
  intros name n os [-> [_ [Hn [_ [_ Ho]]]]]. unfold base_name, overrides. rewrite split_overridden; [now split|exact Hn|].
  intros x Hx. now apply Ho.
Qed.

Lemma canonical_op : forall op v, In op (dkeys canonical) -> op_value op (quoted v) " ".
Proof.
  intros op v H. unfold op_value.
  assert (X : exists core, op = " " ++ core ++ " " /\ In core operators).
  { cbn in H. repeat (destruct H as [<-|H]; [|]); try destruct H;
      match goal with |- exists core, ?o = _ /\ _ => exists (removelast (tl o)) end; (split; [reflexivity|]); cbn; tauto. }
  destruct X as [core [-> Hc]]. exists core, " ". split; [reflexivity|].
  assert (B : Spec_Parse.blank " ") by (intros c [<-|[]]; reflexivity).
  split; [exact B|]. split; [exact B|]. split; [exact Hc|]. split; [|discriminate].
  intros c t E. cbn in E. injection E as <- _. reflexivity.
Qed.

Lemma canonical_value : forall op q v, In op (dkeys canonical) -> quote_char q -> op_value op ([q] ++ v) " ".
Proof.
  intros op q v H Hq. destruct (canonical_op op [] H) as [core [w2 [-> [H1 [H2 [H3 [_ H5]]]]]]]. exists core, w2.
  split; [reflexivity|]. split; [exact H1|]. split; [exact H2|]. split; [exact H3|]. split.
  - intros c t E. cbn in E. injection E as <- _. destruct Hq as [->| ->]; reflexivity.
  - intros _ t. split; intro E; cbn in E; injection E as -> _; destruct Hq; discriminate.
Qed.

Lemma written_assignment : forall name op vs, proper (Assign name op vs) ->
  assignment name op (quoted (join [cESC] vs)) (flat (concat (written (Assign name op vs)))).
Proof.
  intros name op vs [_ [[Hn [_ [_ [Hop [Hne Hv]]]]] _]]. cbn [written]. rewrite flat_continued.
  - split; [unfold quoted; now rewrite <- !app_assoc|]. split; [exact Hn|]. exists " ".
    split; [now apply canonical_op|discriminate].
  - apply seg_app; [now apply seg_name|]. apply seg_app; [now apply op_seg|now apply seg_lit].
  - exact Hne.
  - intros v Hi. now apply Hv.
Qed.

Lemma assign_read : forall e i name op vs, proper (Assign name op vs) -> parsed_item e i ->
  it_raw i = concat (written (Assign name op vs)) ->
  it_pay i = PVariable (base_name name) (join ":" (overrides name)) (overrides name) (quoted (join [cESC] vs)) op (base_name name) /\
    (overrides name <> [] -> it_new i = true).
Proof.
  intros e i name op vs H Hi Er. pose proof (written_assignment name op vs H) as Ha.
  rewrite <- Er in Ha. change (flat (it_raw i)) with (one_line i) in Ha.
  destruct H as [_ [[_ [Hw [[Hs|[n [os [Hs _]]]] _]]] _]].
  - destruct (split_simple name Hs) as [-> ->]. split; [|congruence]. now apply (simple_made e).
  - destruct (split_over name n os Hs) as [-> ->].
    destruct (overridden_made e i name op _ n os Hi Ha Hw Hs) as [E1 E2]. split; auto.
Qed.

Lemma empty_read : forall e i, parsed_item e i -> one_line i = [] -> it_pay i = PItem.
Proof.
  intros e i Hi E. apply parsed_classified in Hi. destruct Hi as [new Hc]. rewrite E in Hc. unfold order in Hc.
  repeat (apply outcome_skip in Hc; [|vm_compute; reflexivity]). cbn [outcome] in Hc. now injection Hc as _ <-.
Qed.

Lemma line_text : forall i t, it_raw i = concat [line t] -> segment t -> one_line i = t.
Proof.
  intros i t E H. change (one_line i) with (flat (it_raw i)). rewrite E. cbn [concat]. rewrite app_nil_r. now apply flat_line.
Qed.

Lemma not_paren : forall c r t, c <> 40%N -> (c :: r : str) <> "(" ++ t.
Proof. intros c r t H E. cbn in E. injection E as E _. congruence. Qed.
Lemma name_paren : forall n u t, (exists c r, n = c :: r /\ c <> 40%N) -> n ++ u <> "(" ++ t.
Proof. intros n u t [c [r [-> H]]] E. cbn in E. injection E as E _. congruence. Qed.
Lemma one_space : blanks " ".
Proof. split; [discriminate|]. intros c [<-|[]]. reflexivity. Qed.

Lemma name_argument : forall n t, var_name n -> not_indented (n ++ t) /\ forall u, n ++ t <> "(" ++ u.
Proof.
  intros n t [Hne Hn]. destruct n as [|c n]; [congruence|].
  assert (C : name_char c) by (apply Hn; now left). split.
  - intros c' u E. cbn [app] in E. injection E as <- _. now apply name_char_not.
  - intros u E. cbn [app] in E. injection E as -> _. unfold name_char, letter, digit, between in C. cbn [In] in C. lia.
Qed.
Lemma name_trimmed : forall n, var_name n -> trimmed n.
Proof.
  intros n [_ Hn]. split; intros c t ->; apply name_char_not, Hn.
  - now left.
  - apply in_or_app. right. now left.
Qed.
Lemma file_argument : forall n, file_name n -> not_indented n /\ forall u, n <> "(" ++ u.
Proof.
  intros n [Hne Hn]. destruct n as [|c n]; [congruence|].
  assert (C : file_char c) by (apply Hn; now left). unfold file_char, letter, digit, between in C. cbn [In] in C. split.
  - intros c' u E. injection E as <- _. destruct (re_space c) eqn:X; [|reflexivity]. exfalso. unfold re_space in X.
    rewrite !Bool.orb_true_iff, ?Bool.andb_true_iff, ?N.eqb_eq, ?N.leb_le in X. lia.
  - intros u E. cbn [app] in E. injection E as -> _. lia.
Qed.
Lemma no_blank : Spec_Parse.blank [].
Proof. intros c []. Qed.
Lemma plain_read : forall e i p, plain_ok p -> parsed_item e i -> one_line i = plain_line p -> plain_reads p i.
Proof.
  intros e i p H Hi E. destruct p as [d c|kw n|n|pa ns|pa v f|n|n f|op q c]; cbn [plain_ok plain_line plain_reads] in *.
  - destruct H as [H1 [_ [H2 H3]]]. apply (C12_inherit_lemma e i d c Hi H1). rewrite E. exists [], " ".
    split; [reflexivity|]. split; [exact no_blank|]. split; [exact one_space|]. now split.
  - destruct H as [Hk Hn]. apply (C12_include_lemma e i kw n [] Hi Hk Hn); [now left|]. rewrite E, app_nil_r. exists [], " ".
    split; [reflexivity|]. split; [exact no_blank|]. split; [exact one_space|]. now apply file_argument.
  - destruct H as [H1 [_ [H2 H3]]]. apply (C12_include_all_lemma e i n Hi H1). rewrite E. exists " ".
    split; [reflexivity|]. split; [exact one_space|]. now split.
  - destruct H as [H1 [_ [_ H4]]]. apply (C12_addpylib_lemma e i pa cSP ns Hi H1 eq_refl H4). rewrite E. exists [], " ".
    split; [reflexivity|]. split; [exact no_blank|]. split; [exact one_space|]. split; [|discriminate].
    intros x u X. cbn in X. injection X as <- _. reflexivity.
  - destruct H as [[H1 [_ [H2 H3]]] [H4 [_ [H5 _]]]]. apply (C12_addfragments_lemma e i pa cSP v cSP f Hi H1 eq_refl H4 eq_refl H5).
    rewrite E. exists " ". split; [reflexivity|]. split; [exact one_space|]. destruct pa as [|x pa]; [congruence|]. split.
    + intros y u X. cbn [app] in X. injection X as <- _. now apply (H2 x pa).
    + intros u X. cbn [app] in X. injection X as -> _. now apply (H3 pa).
  - apply (C12_export_name_lemma e i n [] Hi); [now apply name_trimmed|apply H|exact no_blank| |].
    + intro X. destruct H as [_ H]. apply H in X. unfold name_char, letter, digit, between in X. cbn [In] in X. unfold cDQ in X. lia.
    + rewrite E, app_nil_r. exists [], " ". split; [reflexivity|]. split; [exact no_blank|]. split; [exact one_space|].
      pose proof (name_argument n [] H) as A. now rewrite app_nil_r in A.
  - destruct H as [Hn Hf]. destruct n as [|c n]; [now destruct Hn|].
    assert (S : statement "unset" ((c :: n) ++ match f with [] => [] | _ => "[" ++ f ++ "]" end) (one_line i)).
    { rewrite E. exists [], " ". split; [reflexivity|]. split; [exact no_blank|]. split; [exact one_space|]. now apply name_argument. }
    clear E. destruct f as [|g f].
    + rewrite app_nil_r in S. rewrite (C13_name_lemma e i c n Hi) by
        (exact S || (intro X; destruct Hn as [_ Hn]; specialize (Hn 93%N ltac:(now right));
                     unfold name_char, letter, digit, between in Hn; cbn [In] in Hn; lia)).
      split; [now eexists; eexists|]. intro L. destruct n; [reflexivity|discriminate].
    + rewrite (C13_unset_flag_lemma e i c n (g :: f) Hi Hn ltac:(discriminate) Hf S).
      split; [now eexists; eexists|]. intro L. destruct n; [reflexivity|discriminate].
  - destruct H as [H1 [H2 _]]. apply (C12_inherit_all_lemma e i op c Hi). rewrite E. exists q, q, [], " ".
    split; [reflexivity|]. split; [exact H2|]. split; [exact H2|]. split; [intros x []|]. now apply canonical_value.
Qed.

Lemma read_one : forall e i x, proper x -> parsed_item e i -> it_raw i = concat (written x) -> reads x i.
Proof.
  intros e i x H Hi Er. pose proof (one_text x H) as T.
  destruct x as [name op vs|name flag op v|name v|fs|name|name t bl al|qs name head b m z1 z2|h m| |p|name args rest m].
  - exact (proj1 (assign_read e i name op vs H Hi Er)).
  - cbn [written] in Er. pose proof (line_text i _ Er T) as E. destruct H as [_ [[Hn [Hf [Hc [Hop Hv]]]] _]].
    cbn [reads]. apply (C11_lemma e); [exact Hi|]. rewrite E. split; [reflexivity|]. split; [exact Hn|].
    split; [exact Hf|]. split; [exact Hc|]. exists " ". now apply canonical_op.
  - cbn [written] in Er. pose proof (line_text i _ Er T) as E. destruct H as [_ [[Hn [Hv Hq]] _]].
    cbn [reads]. apply (C12_export_lemma e i name v (name ++ " = " ++ quoted v)); [exact Hi|exact Hn| |].
    + exists " ", " ", []. split; [reflexivity|].
      split; [apply one_space|]. split; [apply one_space|]. split; [exact Hq|intros []].
    + rewrite E. exists [], " ". split; [reflexivity|]. split; [intros c []|]. split; [exact one_space|].
      destruct Hn as [Hne Hn]. destruct name as [|c name]; [congruence|].
      assert (C : name_char c) by (apply Hn; now left). split.
      * intros c' t E'. cbn [app] in E'. injection E' as <- _. now apply name_char_not.
      * intros t E'. cbn [app] in E'. injection E' as -> _. unfold name_char, letter, digit, between in C. cbn [In] in C. lia.
  - cbn [written] in Er. pose proof (line_text i _ Er T) as E. destruct H as [_ [[Hs [Hf Hp]] _]].
    cbn [reads]. apply (C12_functions_lemma e); [exact Hi|]. rewrite E. exists " ". split; [reflexivity|].
    split; [exact one_space|]. split; [exact Hf|exact Hp].
  - cbn [written] in Er. pose proof (line_text i _ Er T) as E. destruct H as [_ [Hn _]].
    cbn [reads]. apply (C12_deltask_lemma e i name [] []); [exact Hi|exact Hn|left; split; [intros c []|reflexivity]|].
    rewrite E, app_nil_r. exists [], " ". split; [reflexivity|]. split; [intros c []|]. split; [exact one_space|].
    destruct Hn as [Hne Hn]. destruct name as [|c name]; [congruence|].
    assert (C : task_char c) by (apply Hn; now left). unfold task_char, letter, digit, between in C. cbn [In] in C. split.
    + intros c' t E'. injection E' as <- _. apply name_char_not. unfold name_char, letter, digit, between. cbn [In]. lia.
    + intros t E'. cbn [app] in E'. injection E' as -> _. lia.
  - cbn [written] in Er. pose proof (line_text i _ Er T) as E. destruct H as [_ [[Hn [Hp [_ [before [after [Ht [Hb Ha]]]]]]] _]].
    cbn [reads]. apply (C12_addtask_lemma e i name t before after [] bl al); auto.
    rewrite E. exists [], " ". split; [reflexivity|]. split; [intros c []|]. split; [exact one_space|].
    destruct Hn as [Hne Hn]. destruct name as [|c name]; [congruence|].
    assert (C : task_char c) by (apply Hn; now left). unfold task_char, letter, digit, between in C. cbn [In] in C. split.
    + intros c' u E'. cbn [app] in E'. injection E' as <- _. apply name_char_not. unfold name_char, letter, digit, between. cbn [In]. lia.
    + intros u E'. cbn [app] in E'. injection E' as -> _. lia.
  - cbn [reads]. destruct H as [_ [(Hh & Ho & Hc & Hl & _ & _ & _ & _ & _ & Hz) _]].
    apply (C84_lemma e i qs name); [exact Hi| |exact Ho]. exists head, (flat z2). split; [|split; [exact Hh|]].
    + change (one_line i) with (flat (it_raw i)). rewrite Er. cbn [written concat]. rewrite concat_app. cbn [concat].
      rewrite app_nil_r, !flat_app, (flat_id head).
      * rewrite <- !app_assoc. reflexivity.
      * destruct Hl as [u [El Hu]]. apply (head_no_nl qs name head b Hh). rewrite El. left. now exists u.
      * now apply (head_no_bsl qs name).
    + apply flat_not_in; [discriminate|exact Hz].
  - cbn [reads]. apply (C09_lemma e i Hi). destruct H as [_ [[_ H] _]]. inversion H as [|? ? [[u Hu] _] _]; subst.
    rewrite Er. cbn [written concat]. exists [], (u ++ concat m). split; [reflexivity|intros c []].
  - cbn [reads]. apply (empty_read e i Hi). cbn [written] in Er. rewrite (line_text i [] Er); [reflexivity|now apply seg_lit].
  - cbn [reads written] in *. apply (plain_read e); [apply H|exact Hi|now apply line_text].
  - cbn [reads written] in *. destruct H as [_ [[Hn _] _]].
    apply (C12_def_lemma e i name [] args (rest ++ flat (concat m)) Hi Hn no_blank).
    exists [], " ". split.
    + change (one_line i) with (flat (it_raw i)). rewrite Er. cbn [concat]. rewrite flat_app, flat_line by exact T.
      rewrite <- !app_assoc. reflexivity.
    + split; [exact no_blank|]. split; [exact one_space|]. destruct Hn as [Hne Hn]. destruct name as [|c name]; [congruence|].
      assert (C : def_char c) by (apply Hn; now left). unfold def_char, digit, between in C. cbn [In] in C. split.
      * intros c' u E'. cbn [app] in E'. injection E' as <- _. apply name_char_not. unfold name_char, letter, digit, between. cbn [In]. lia.
      * intros u E'. cbn [app] in E'. injection E' as -> _. lia.
Qed.

Lemma Forall2_mapeq : forall A B C (f : A -> C) (g : B -> C) l k, map f l = map g k -> Forall2 (fun a b => f a = g b) l k.
Proof.
  intros A B C f g l. induction l as [|a l IH]; intros [|b k] H; try discriminate; constructor.
  - now injection H.
  - apply IH. now injection H.
Qed.
Lemma Forall2_with : forall A B (P : A -> B -> Prop) (Q : B -> Prop) (R : A -> Prop) (S : A -> B -> Prop) l k,
  Forall2 P l k -> Forall R l -> Forall Q k -> (forall a b, P a b -> R a -> Q b -> S a b) -> Forall2 S l k.
Proof.
  intros A B P Q R S l k H. induction H as [|a b l k Hp _ IH]; intros HR HQ HS; constructor;
    inversion HR; subst; inversion HQ; subst; auto.
Qed.

(** Everything about the item of a statement that is needed. *)
Definition stated_by (x : stmt) (i : item) : Prop :=
  reads x i /\ match x with Assign name _ _ => overrides name <> [] -> it_new i = true | _ => True end.
Definition stated_as (e : env) (neg : bool) (c : list str * stmt) (i : item) : Prop :=
  Spec_Inline.parsed_with e neg i /\ proper (snd c) /\ stated_by (snd c) i /\ it_realraw i = concat (fst c) /\ it_raw i = concat (written (snd c)).

Lemma coded_raw : forall e neg i a b, Spec_Inline.parsed_with e neg i -> it_realraw i = a -> evaluated neg a b -> it_raw i = b.
Proof.
  intros e neg i a b Hi E (p & q & rest & -> & -> & Hs & Hr). pose proof (parsed_inlined e neg i Hi) as Hinl.
  unfold inlined in Hinl. rewrite E in Hinl. destruct (shown_good _ _ _ Hs) as [G P].
  rewrite (InlineText.blocks_written neg rest Hr p G), P in Hinl. now injection Hinl.
Qed.

Lemma coded_stated_in : forall n e path off forced s l s' t cs,
  add_file n e path off forced s = (Ok l, s') -> (forall i, In i l -> Spec_Inline.parsed_with e (st_neg s) i) -> considered e path s ->
  fs_read (e_fs e) (file_of e path) = RdText t -> coded (st_neg s) cs (universal_newlines t) ->
  Forall2 (stated_as e (st_neg s)) cs l.
Proof.
  intros n e path off forced s l s' t cs H Hf Hc Hr Hs.
  pose proof (coded_realraw n e path off forced s l s' t _ cs H Hc Hr Hs) as E.
  symmetry in E. apply Forall2_mapeq in E. destruct Hs as (_ & _ & _ & Hp).
  eapply (Forall2_with _ _ _ (fun i => In i l)); [exact E|exact Hp|now apply Forall_forall|].
  intros [g x] i Ex [Hx He] Hi. cbn [fst snd] in *. symmetry in Ex. apply Hf in Hi.
  pose proof (coded_raw e (st_neg s) i _ _ Hi Ex He) as Er. pose proof (parsed_with_item e _ i Hi) as Hpi.
  unfold stated_as. cbn [fst snd]. split; [exact Hi|]. split; [exact Hx|]. split; [|now split].
  split; [now apply (read_one e)|]. destruct x; try exact I.
  exact (proj2 (assign_read e i name op vs Hx Hpi Er)).
Qed.

Lemma coded_stated : forall n e path off forced s l s' t cs, filled e s ->
  add_file n e path off forced s = (Ok l, s') -> considered e path s ->
  fs_read (e_fs e) (file_of e path) = RdText t -> coded (st_neg s) cs (universal_newlines t) ->
  Forall2 (stated_as e (st_neg s)) cs l.
Proof.
  intros n e path off forced s l s' t cs Hf H Hc Hr Hs. apply (coded_stated_in n e path off forced s l s' t cs); auto.
  intros i Hi. exists s'. split; [eapply filled_add; eassumption|]. split; [|eapply add_file_in_stash; eassumption].
  exact (proj1 (proj1 (keeps_inlined (st_neg s) n e path off forced s _ s' H (filled_inlined e s Hf)))).
Qed.

Lemma Forall2_snd : forall A B C (P : A -> C -> Prop) (f : B -> A) bs cs,
  Forall2 (fun b c => P (f b) c) bs cs -> Forall2 P (map f bs) cs.
Proof. intros A B C P f bs cs H. induction H; constructor; assumption. Qed.
Lemma Forall2_snd_iff : forall A B C (P : A -> C -> Prop) (f : B -> A) bs cs,
  Forall2 P (map f bs) cs -> Forall2 (fun b c => P (f b) c) bs cs.
Proof.
  intros A B C P f bs. induction bs as [|b bs IH]; intros cs H; inversion H; subst; constructor; auto.
Qed.
Lemma stated_parsed : forall e neg i, Spec_Inline.parsed_with e neg i -> parsed_item e i.
Proof. intros e neg i [s [H1 [_ H2]]]. exists s. now split. Qed.
Lemma coded_plain : forall e neg cs l, Forall2 (stated_as e neg) cs l -> Forall2 stated_by (map snd cs) l /\ Forall proper (map snd cs).
Proof.
  intros e neg cs l H. induction H as [|c i cs l (_ & Hp & Hs & _) _ [IH1 IH2]]; [split; constructor|].
  cbn [map]. split; constructor; assumption.
Qed.

Lemma newlines_app : forall a b, newlines (a ++ b) = (newlines a + newlines b)%Z.
Proof. intros a b. unfold newlines. rewrite count_occ_app. lia. Qed.
Lemma newlines_lines : forall ls, Forall whole_line ls -> newlines (concat ls) = Z.of_nat (length ls).
Proof.
  induction 1 as [|l ls [t [-> Ht]] _ IH]; [reflexivity|]. cbn [concat length]. rewrite newlines_app, IH. unfold line.
  rewrite newlines_app. unfold newlines at 1. rewrite (proj1 (count_occ_not_In N.eq_dec t cNL) Ht).
  change (newlines [cNL]) with 1%Z. lia.
Qed.

Lemma C106_read_lemma : forall n e path off forced s l s' t cs, filled e s ->
  add_file n e path off forced s = (Ok l, s') -> considered e path s ->
  fs_read (e_fs e) (file_of e path) = RdText t -> coded (st_neg s) cs (universal_newlines t) ->
  Forall2 (fun c i => reads (snd c) i /\ it_raw i = concat (written (snd c)) /\ it_realraw i = concat (fst c)) cs l /\
  forall a c b pre i post, cs = a ++ c :: b -> l = pre ++ i :: post -> length pre = length a ->
    it_infile i = (1 + Z.of_nat (length (concat (map fst a))))%Z.
Proof.
  intros n e path off forced s l s' t cs Hf H Hc Hr Hs. split.
  - pose proof (coded_stated n e path off forced s l s' t cs Hf H Hc Hr Hs) as F.
    eapply (Forall2_with _ _ _ (fun _ => True) (fun _ => True)); [exact F|now apply Forall_forall|now apply Forall_forall|].
    intros x i (_ & _ & [X _] & Y & Z) _ _. now split.
  - intros a x b pre i post Ea El Hl. rewrite (C02_lemma n e path off forced s l s' pre i post H El). f_equal.
    pose proof (coded_realraw n e path off forced s l s' t _ cs H Hc Hr Hs) as E.
    rewrite Ea, El, !map_app in E.
    assert (E' : map it_realraw pre = map (fun c : list str * stmt => concat (fst c)) a).
    { apply (f_equal (firstn (length pre))) in E. rewrite Hl in E at 2.
      rewrite !firstn_app, !map_length, Nat.sub_diag, Hl, Nat.sub_diag, !firstn_O, !app_nil_r in E.
      rewrite <- Hl in E at 1. rewrite !firstn_all2 in E by (rewrite map_length; lia). exact E. }
    rewrite E'. destruct Hs as [_ [Hp _]]. rewrite Ea, map_app, concat_app in Hp. apply Forall_app in Hp. destruct Hp as [Hp _].
    rewrite <- newlines_lines by exact Hp.
    f_equal. clear. induction a as [|y a IH]; [reflexivity|]. cbn [map concat]. rewrite concat_app. now rewrite IH.
Qed.

Lemma C100_lemma : forall n e path off forced s l s' t ss, filled e s ->
  add_file n e path off forced s = (Ok l, s') -> considered e path s ->
  fs_read (e_fs e) (file_of e path) = RdText t -> recipe ss (universal_newlines t) ->
  Forall2 reads ss l /\
  forall a x b pre i post, ss = a ++ x :: b -> l = pre ++ i :: post -> length pre = length a ->
    it_infile i = (1 + Z.of_nat (length (concat (map written a))))%Z.
Proof.
  intros n e path off forced s l s' t ss Hf H Hc Hr Hs. apply (recipe_coded (st_neg s)) in Hs.
  destruct (C106_read_lemma n e path off forced s l s' t _ Hf H Hc Hr Hs) as [R1 R2]. split.
  - apply Forall2_snd_iff in R1. clear -R1. induction R1 as [|x i ss l (X & _) _ IH]; constructor; assumption.
  - intros a x b pre i post Ea El Hl. rewrite <- as_written_fst.
    apply (R2 (map as_written a) (as_written x) (map as_written b) pre i post); [|exact El|now rewrite map_length].
    rewrite Ea, map_app. reflexivity.
Qed.
