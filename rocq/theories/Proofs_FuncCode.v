(** * Functions with inline code: proofs *)

From Verif Require Import Props_Items.
From Verif Require Import PyStr Regex UniTable Patterns PyPath Res Inline Const Item Lines Stash
  StrFacts ReFacts LinesFacts ParseFacts HistFacts ReachFacts ClassFacts MatchFacts StmtFacts Spec_Parse
  ShapeFacts Proofs_Parse Proofs_Stmt Proofs_Stmt3 Props_Lines Spec_Parse Spec_Group Proofs_Group Spec_Func Proofs_Func
  Spec_Inline InlineText Proofs_Inline.

(** ** Every function matches, whatever its name *)

Lemma first_mt : forall r s s', first r s s' -> mt r s s'.
Proof.
  intros r s s' F. pose proof (F mstate (fun x => Some x) s' eq_refl) as E.
  apply m_sound in E. destruct E as [s2 [E G]]. injection G as ->. exact E.
Qed.

Lemma fwords_mt : forall qs b t g, qualifiers qs -> stops re_space t ->
  exists b' g', mt (RStar true fword) (MS b (qualified qs ++ t) g) (MS b' t g').
Proof.
  induction qs as [|[k w] qs IH]; intros b t g Hq Hs.
  - exists b, g. apply mt_star0.
  - assert (Hq' : qualifiers qs) by (intros k' w' Hi; apply Hq; now right).
    destruct (Hq k w) as [Hk Hw]; [now left|].
    destruct (fword_first k w b (qualified qs ++ t) g Hk Hw (qualified_stops qs t Hq' Hs)) as [v Hf].
    destruct (IH false t (((if str_eqb k "python" then "py" else "fr") : str, v) :: g) Hq' Hs) as [b' [g' H1]].
    exists b', g'. rewrite qualified_cons. eapply mt_star1; [exact (first_mt _ _ _ Hf)| |exact H1].
    cbn [m_rest]. rewrite !app_length. destruct (word_start k Hk) as [c [r [-> _]]]. cbn [length]. lia.
Qed.

Lemma func_matches : forall qs name body text, function_text qs name body text -> oneline text ->
  exists mt, re_match re_func text = Some mt.
Proof.
  intros qs name body text [head [rest [-> [[w0 [w1 [w2 [-> [Hq [H0 [H1 [H2 [Hc [He Hn]]]]]]]]]] Hr]]]] Hl.
  set (t := (w0 ++ "(" ++ w1 ++ ")" ++ w2 ++ "{" ++ body ++ "}" ++ rest) : str).
  assert (Et : (qualified qs ++ name ++ w0 ++ "(" ++ w1 ++ ")" ++ w2 ++ "{") ++ body ++ "}" ++ rest = qualified qs ++ name ++ t).
  { unfold t. rewrite <- !app_assoc. reflexivity. }
  rewrite Et in *.
  assert (Hb : oneline body).
  { intros c Hi. apply Hl. apply in_or_app. right. apply in_or_app. right. unfold t.
    rewrite !in_app_iff. tauto. }
  assert (Hnt : forall c r, t = c :: r -> (name = [] -> re_space c = false) /\ fchar c = false).
  { intros c r E. unfold t in E. destruct w0 as [|x w0].
    - cbn [app] in E. injection E as <- _. split; reflexivity.
    - cbn [app] in E. injection E as <- _. assert (Hx : re_space x = true) by (apply H0; now left).
      split; [intro En; specialize (He En); discriminate|]. now apply space_not_fchar. }
  assert (Hs : stops re_space (name ++ t)).
  { destruct name as [|c name].
    - intros x r E. now apply (Hnt x r E).
    - intros x r E. cbn [app] in E. injection E as <- _. assert (F : fchar c = true) by (apply fchar_iff; apply Hc; now left).
      destruct (re_space c) eqn:Es; [|reflexivity]. apply space_not_fchar in Es. congruence. }
  destruct (fwords_mt qs true (name ++ t) [] Hq Hs) as [b' [g' F1]].
  assert (F5 : exists b2 g2, mt (ROpt true (RGrp "func" (RPlus true (RChr fchar)))) (MS b' (name ++ t) g') (MS b2 t g2)).
  { destruct name as [|c name].
    - exists b', g'. unfold ROpt. apply mt_altr. apply mt_eps.
    - exists false, (("func", c :: name) :: g'). apply first_mt. unfold ROpt. apply first_altl.
      apply first_grp_app. apply first_plus; [|discriminate|intros x r E; now apply (Hnt x r E)].
      apply forallb_forall. intros x Hx. apply fchar_iff. now apply Hc. }
  destruct F5 as [b2 [g2 G1]].
  pose proof (first_mt _ _ _ (first_tail b2 w0 w1 w2 body rest g2 H0 H1 H2 Hb Hr)) as T. fold t in T.
  destruct (re_match re_func (qualified qs ++ name ++ t)) as [x|] eqn:E; [now exists x|exfalso].
  unfold re_match in E. rewrite match_at_none in E. eapply E.
  unfold re_func. cbn [RCat].
  eapply mt_seq; [apply mt_bol; reflexivity|]. eapply mt_seq; [exact F1|]. eapply mt_seq; [exact G1|exact T].
Qed.

Lemma function_kind : forall e i qs name body, parsed_item e i ->
  function_text qs name body (one_line i) -> classifier i = "Function".
Proof.
  intros e i qs name body Hi Ht.
  assert (Hl : oneline (one_line i)) by (intros c Hc; now apply (one_line_dots i)).
  destruct (func_matches _ _ _ _ Ht Hl) as [mt Em].
  apply parsed_classified in Hi. destruct Hi as [new Hc]. unfold order in Hc.
  apply outcome_skip in Hc; [|now apply (not_hashed qs name body)].
  apply (outcome_hit KFunc _ _ _ _ _ _ mt Em) in Hc; [|intros [H|[H _]]; discriminate].
  cbn [made_of] in Hc. destruct Hc as [known Hc]. unfold mk_function in Hc.
  destruct (extract_sub_func _ _ _) as [[new' var] sub]. cbn [it_pay it_new mk_item] in Hc.
  unfold classifier. assert (Hp := f_equal snd Hc). cbn [snd] in Hp. now rewrite Hp.
Qed.

(** ** The code inside a function *)

Lemma head_quiet : forall qs name head, function_head qs name head -> quiet head.
Proof.
  intros qs name head H. pose proof (head_plain qs name head H) as Hp.
  assert (Ha : ~ In 64%N head).
  { intro Hi. destruct (Hp _ Hi) as [F|[F|F]].
    - unfold func_char, letter, digit, between in F. cbn [In] in F. lia.
    - discriminate.
    - cbn [In] in F. lia. }
  destruct H as [w0 [w1 [w2 [E [_ [_ [_ [H2 _]]]]]]]].
  assert (El : exists x c, head = (x ++ [c]) ++ [123%N] /\ c <> 36%N).
  { destruct w2 as [|c w2 _] using rev_ind.
    - exists (qualified qs ++ name ++ w0 ++ "(" ++ w1), 41%N. split; [|discriminate].
      rewrite E, <- !app_assoc. reflexivity.
    - exists (qualified qs ++ name ++ w0 ++ "(" ++ w1 ++ ")" ++ w2), c. split.
      + rewrite E, <- !app_assoc. reflexivity.
      + intros ->. specialize (H2 36%N). rewrite in_app_iff in H2. assert (re_space 36 = true) by (apply H2; right; now left). discriminate. }
  destruct El as [x [c [El Hc]]]. split; [|split].
  - intros [a [b Eo]]. apply Ha. rewrite Eo, !in_app_iff. right. left. cbn. tauto.
  - intros q Eq. rewrite El in Eq. apply app_inj_tail in Eq. destruct Eq as [_ Eq]. discriminate.
  - intros q Eq. change (("${" : str)) with (([36%N] : str) ++ [123%N]) in Eq. rewrite El, app_assoc in Eq.
    apply app_inj_tail in Eq. destruct Eq as [Eq _]. apply app_inj_tail in Eq. destruct Eq as [_ Eq]. contradiction.
Qed.

Lemma rest_free : forall rest z2, ~ occurs "${@" rest -> ~ occurs "${@" z2 -> ~ occurs "${@" (rest ++ "}" ++ z2).
Proof.
  intros rest z2 Hr Hz. rewrite app_assoc. apply quiet_free; [|exact Hz].
  apply quiet_end; [|discriminate|discriminate]. apply occurs_snoc; [discriminate| |exact Hr]. cbn. intuition discriminate.
Qed.

Lemma written_in : forall l head rest tail, written l rest ++ tail = written l (rest ++ tail) /\
  head ++ written l rest = match l with [] => head ++ rest | (p, b) :: r => written ((head ++ p, b) :: r) rest end.
Proof.
  intros l head rest tail. split.
  - induction l as [|[p b] l IH]; [reflexivity|]. cbn [written]. rewrite <- !app_assoc. now rewrite IH.
  - destruct l as [|[p b] l]; [reflexivity|]. cbn [written]. now rewrite <- !app_assoc.
Qed.

(** The text of an item with code between a beginning without code and an end without code. *)
Lemma text_between : forall e neg i l l' head rest tail, parsed_with e neg i ->
  it_realraw i = head ++ written l rest ++ tail -> quiet head -> shown neg l l' -> ~ occurs "${@" (rest ++ tail) ->
  it_raw i = head ++ written l' rest ++ tail.
Proof.
  intros e neg i l l' head rest tail Hi E Hh Hs Hr.
  rewrite (proj1 (written_in l head rest tail)) in E. rewrite (proj1 (written_in l' head rest tail)).
  destruct Hs as [|[p b] [p' v] l l' [Ep [Hp [Hb [Ev Hv]]]] Hs]; cbn [fst snd] in *.
  - apply (C16_text_lemma e neg i [] [] (head ++ rest ++ tail) Hi E); [constructor|]. now apply quiet_free.
  - subst p'. rewrite (proj2 (written_in _ head (rest ++ tail) [])) in E. rewrite (proj2 (written_in ((p, v) :: l') head (rest ++ tail) [])).
    apply (C16_text_lemma e neg i ((head ++ p, b) :: l) ((head ++ p, v) :: l') (rest ++ tail) Hi E); [|exact Hr].
    constructor; [|exact Hs]. cbn [fst snd]. split; [reflexivity|]. split; [now apply quiet_app|]. now split.
Qed.

Lemma C14_function_lemma : forall n e path off forced s l s' t ls gs h m z post qs name head b z1 z2 bs vs rest,
  filled e s -> add_file n e path off forced s = (Ok l, s') -> considered e path s ->
  fs_read (e_fs e) (file_of e path) = RdText t -> lines ls -> concat ls = universal_newlines t ->
  taken ls gs (h :: m ++ z :: post) -> ~ carries_on h ->
  h = head ++ b -> function_head qs name head ->
  inside m -> depth m = 0%Z -> (depth [z] < 0)%Z -> z = z1 ++ "}" ++ z2 -> ~ In 125%N z2 ->
  b ++ concat m ++ z1 = written bs rest -> shown (st_neg s) bs vs -> ~ occurs "${@" rest -> ~ occurs "${@" z2 ->
  exists l1 i l2, l = l1 ++ i :: l2 /\ map it_realraw l1 = map (@concat N) gs /\
    it_realraw i = concat (h :: m ++ [z]) /\ classifier i = "Function" /\
    (own_name name -> (is_python i <-> has_word "python" qs) /\ (is_fakeroot i <-> has_word "fakeroot" qs) /\
       func_body i (flat (written vs rest)) /\
       (name <> "__anonymous" -> parted (separator_of i) name -> func_name i name)).
Proof.
  intros n e path off forced s l s' t ls gs h m z post qs name head b z1 z2 bs vs rest
    Hf H Hc Hr Hl El Ht Hh Eh Hhd Hi Hd Hz Ez Hz2 Eb Hs Hre Hz3.
  destruct (C14_cover_lemma n e path off forced s l s' t ls gs h m z post) as [l1 [i [l2 [E1 [E2 E3]]]]]; auto.
  { rewrite Eh. now apply (head_opens qs name). }
  exists l1, i, l2. split; [exact E1|]. split; [exact E2|]. split; [exact E3|].
  assert (Hil : In i l) by (rewrite E1; apply in_or_app; right; now left).
  assert (Hpw : parsed_with e (st_neg s) i).
  { exists s'. split; [eapply filled_add; eassumption|]. split; [apply add_file_grows in H; destruct H as (? & ? & _ & _ & _ & _ & _ & _ & H); exact H|].
    eapply add_file_in_stash; eassumption. }
  pose proof (parsed_with_item e _ i Hpw) as Hpi.
  assert (Eraw : it_raw i = head ++ written vs rest ++ "}" ++ z2).
  { apply (text_between e (st_neg s) i bs vs head rest ("}" ++ z2) Hpw); [|now apply (head_quiet qs name)|exact Hs|now apply rest_free].
    rewrite E3, <- Eb, Eh, Ez. cbn [concat]. rewrite concat_app. cbn [concat]. rewrite app_nil_r, <- !app_assoc. reflexivity. }
  assert (Ft : function_text qs name (flat (written vs rest)) (one_line i)).
  { exists head, (flat z2). split; [|split; [exact Hhd|]].
    - rewrite one_line_flat, Eraw, !flat_app. rewrite (flat_id head); [reflexivity| |now apply (head_no_bsl qs name)].
      apply (head_no_nl qs name head b Hhd).
      pose proof (lines_after _ _ _ Hl Ht) as Hl1. apply lines_are_ok, lines_like in Hl1. inversion Hl1. now subst.
    - apply flat_not_in; [discriminate|exact Hz2]. }
  split; [exact (function_kind e i _ _ _ Hpi Ft)|]. intro Hown. exact (C84_lemma e i qs name _ Hpi Ft Hown).
Qed.
