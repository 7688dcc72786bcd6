(** * The parts of the statements of a recipe: proofs *)

From Verif Require Import Props_Items.
From Verif Require Import PyStr Regex UniTable Patterns PyPath Res Inline Const Item Lines Stash
  StrFacts ReFacts ItemFacts LinesFacts NameFacts ParseFacts HistFacts ReachFacts QueryFacts Spec_Parse ClassFacts
  MatchFacts Spec_Query Proofs_Query StmtFacts Proofs_Parse Proofs_Stmt Proofs_Stmt2 Proofs_Stmt3 Proofs_Inline Spec_Group Proofs_Group
  Spec_Func Proofs_Func Props_Lines Access Spec_Access Proofs_Access Spec_Expand Spec_Recipe Proofs_Recipe.

Lemma words_exist : forall s, exists l, Spec_Parse.words l s.
Proof.
  induction s as [|c s [l IH]]; [exists []; constructor|].
  destruct (N.eq_dec c cSP) as [->|Hc]; [exists l; now constructor|].
  assert (N1 : ~ In cSP [c]) by (intros [X|[]]; congruence).
  inversion IH as [|l' s' H|w l' s' Hw Hn Hs H]; subst.
  - exists [[c]]. apply (words_word [c] [] []); [discriminate|exact N1|discriminate|constructor].
  - exists ([c] :: l). apply (words_word [c] l (cSP :: s')); [discriminate|exact N1| |exact IH].
    intros x t E. now injection E.
  - exists ((c :: w) :: l'). apply (words_word (c :: w) l' s'); [discriminate| |exact Hs|exact H].
    intros [X|X]; [congruence|now apply Hn].
Qed.
Lemma words_kept : forall s, Spec_Parse.words (keep_nonempty (split_char cSP s)) s.
Proof. intro s. destruct (words_exist s) as [l H]. pose proof (words_split _ _ H) as E. unfold keep_nonempty. now rewrite E. Qed.

Lemma split_lines : forall s, lines_of s (split_char cNL s).
Proof.
  intro s. split; [apply split_char_join|]. intros x Hx. now apply split_char_no_sep in Hx.
Qed.

Lemma dedented_back : forall text ls, Props_Items.dedented (split_char cNL text) ls -> split_char cNL (join [cNL] ls) = ls.
Proof.
  intros text ls [mg [_ [F _]]]. apply split_char_join_parts.
  - intros ->. inversion F as [E|]; subst. symmetry in E. now apply split_char_nonnil in E.
  - intros x Hx. assert (G : forall l, In l (split_char cNL text) -> ~ In cNL l) by (intros l Hl; now apply split_char_no_sep in Hl).
    revert G. induction F as [|a b la lb Hab _ IH]; intro G; [destruct Hx|]. destruct Hx as [<-|Hx].
    + destruct Hab as [[_ ->]|[_ E]]; [intros []|]. intro X. apply (G a); [now left|]. rewrite E. apply in_or_app. now right.
    + apply IH; [exact Hx|]. intros l Hl. apply G. now right.
Qed.

Lemma quoted_strip : forall v, unquoted v -> strip [cDQ] (quoted v) = v.
Proof. intros v H. unfold quoted. now apply strip_quotes. Qed.

Lemma parts_read : forall e i x, proper x -> parsed_item e i -> it_raw i = concat (written x) -> parts x (get_items_of i).
Proof.
  intros e i x H Hi Er. pose proof (read_one e i x H Hi Er) as R.
  destruct x as [name op vs|name flag op v|name v|fs|name|name t bl al|qs name head b m z1 z2|h m| |p|name args rest m];
    cbn [reads parts] in *.
  - pose proof (written_assignment name op vs H) as Ha. rewrite <- Er in Ha. change (flat (it_raw i)) with (one_line i) in Ha.
    destruct H as [_ [[_ [Hw [_ [_ [_ Hv]]]]] _]].
    assert (Q : ~ In cDQ (join [cESC] vs)).
    { intro X. clear -X Hv. induction vs as [|v r IH]; [destruct X|]. destruct r as [|v' r].
      - apply (Hv v); [now left|exact X].
      - change (join [cESC] (v :: v' :: r)) with (v ++ [cESC] ++ join [cESC] (v' :: r)) in X. rewrite !in_app_iff in X.
        destruct X as [X|[[X|[]]|X]]; [apply (Hv v); [now left|exact X]|discriminate|].
        apply IH; [|exact X]. intros y Hy. apply Hv. now right. }
    apply (proj1 (C87_lemma e i name op (join [cESC] vs) (get_items_of i) Hi Ha Hw ltac:(
      split; intros t E; apply Q; rewrite E; apply in_or_app; [left|right]; now left)) eq_refl).
  - intro U. unfold get_items_of. rewrite R. now rewrite quoted_strip.
  - unfold get_items_of. now rewrite R.
  - unfold get_items_of. rewrite R. apply words_kept.
  - unfold get_items_of. now rewrite R.
  - unfold get_items_of. now rewrite R.
  - intros Hb Hw Hl. destruct H as [_ [(Hh & Ho & Hc & Hwl & _) _]].
    destruct (C85_lemma e i qs name head (b ++ concat m ++ z1) z2 Hi) as [ls [D [p0 [f0 [n0 [s0 [l0 [x0 E]]]]]]]]; auto.
    + rewrite Er. cbn [written concat]. rewrite concat_app. cbn [concat]. rewrite app_nil_r, <- !app_assoc. reflexivity.
    + destruct Hwl as [u [El Hu]]. apply (head_no_nl qs name head b Hh). rewrite El. left. now exists u.
    + unfold get_items_of. rewrite E. now rewrite (dedented_back _ _ D).
  - unfold get_items_of. rewrite R, Er. apply split_lines.
  - unfold get_items_of. rewrite R, Er. vm_compute. reflexivity.
  - destruct p as [d c|kw n|n|pa ns|pa v f|n|n f|op q c]; cbn [plain_reads plain_parts] in *; unfold get_items_of.
    + destruct R as [paths ->]. now apply C18_lemma.
    + destruct R as [[path ->]| ->]; [now left|]. right. rewrite Er. cbn [written concat]. rewrite app_nil_r. now apply C18_lemma.
    + now rewrite R.
    + now rewrite R.
    + now rewrite R.
    + now rewrite R.
    + intro L. now rewrite (proj2 R L).
    + destruct R as [paths ->]. now apply C18_lemma.
  - unfold get_items_of. rewrite R, Er. apply split_lines.
Qed.

Lemma C106_parts_lemma : forall n e path off forced s l s' t cs, filled e s ->
  add_file n e path off forced s = (Ok l, s') -> considered e path s ->
  fs_read (e_fs e) (file_of e path) = RdText t -> coded (st_neg s) cs (universal_newlines t) ->
  Forall2 (fun c i => parts (snd c) (get_items_of i)) cs l.
Proof.
  intros n e path off forced s l s' t cs Hf H Hc Hr Hs.
  pose proof (coded_stated n e path off forced s l s' t cs Hf H Hc Hr Hs) as F.
  clear -F. induction F as [|c i cs l (Hi & Hp & _ & _ & Er) _ IH]; constructor; [|exact IH].
  apply stated_parsed in Hi. now apply (parts_read e).
Qed.

Lemma C104_lemma : forall n e path off forced s l s' t ss, filled e s ->
  add_file n e path off forced s = (Ok l, s') -> considered e path s ->
  fs_read (e_fs e) (file_of e path) = RdText t -> recipe ss (universal_newlines t) ->
  Forall2 (fun x i => it_raw i = concat (written x) /\ it_blocks i = [] /\ parts x (get_items_of i)) ss l.
Proof.
  intros n e path off forced s l s' t ss Hf H Hc Hr Hs. pose proof Hs as [_ [Hp _]]. apply (recipe_coded (st_neg s)) in Hs.
  pose proof (coded_stated n e path off forced s l s' t _ Hf H Hc Hr Hs) as F. apply Forall2_snd_iff in F.
  eapply (Forall2_with _ _ _ (fun i => In i l)); [exact F|exact Hp|now apply Forall_forall|].
  intros x i (Hi & _ & _ & E & Er) Hx Hin. apply stated_parsed in Hi. cbn [as_written fst snd] in *. split; [exact Er|].
  split; [|now apply (parts_read e)].
  destruct (add_file_parsed _ _ _ _ _ _ _ _ i Hf H Hin) as [_ Hinl].
  unfold inlined in Hinl. destruct Hx as [Hx _]. rewrite E, (blocks_none _ _ Hx) in Hinl. now injection Hinl.
Qed.
