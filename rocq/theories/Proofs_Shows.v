(** * Classes and attributes of the statements of a recipe: proofs *)

From Verif Require Import Props_Items.
From Verif Require Import PyStr Regex UniTable Patterns PyPath Res Inline Const Item Lines Stash
  StrFacts ReFacts ItemFacts LinesFacts NameFacts ParseFacts HistFacts ReachFacts QueryFacts Spec_Parse
  Spec_Query Proofs_Query Spec_Const Proofs_Const Spec_Group Proofs_Group Spec_Func Proofs_Func Proofs_Inline Props_Lines
  Spec_Access Proofs_Access Spec_Expand Spec_Recipe Proofs_Recipe Proofs_Values Proofs_Parts.
From Verif Require OffsetFacts IncludeFacts.
From Coq Require Import Permutation Sorted.

Lemma stated_classifier : forall x i, stated_by x i ->
  (class_of x <> "Include" -> classifier i = class_of x) /\
  (class_of x = "Include" -> classifier i = "Include" \/ classifier i = "Item").
Proof.
  intros x i [H _]. unfold classifier.
  destruct x as [name op vs|name flag op v|name v|fs|name|name t bl al|qs name head b m z1 z2|h m| |p|name args rest m];
    cbn [reads class_of] in *; try (split; [intros _; rewrite H; reflexivity|discriminate]).
  - split; [intros _|discriminate]. destruct H as (_ & _ & (p & f & n & s & l & r & E) & _). now rewrite E.
  - destruct p as [d c|kw n|n|pa ns|pa v f|n|n f|op q c]; cbn [plain_reads] in H;
      try (split; [intros _; rewrite H; reflexivity|discriminate]).
    + split; [intros _|discriminate]. destruct H as [paths ->]. reflexivity.
    + split; [intro C; now destruct C|]. intros _. destruct H as [[path ->]| ->]; [now left|now right].
    + split; [intros _|discriminate]. destruct H as [[m [g ->]] _]. reflexivity.
    + split; [intros _|discriminate]. destruct H as [paths ->]. reflexivity.
Qed.

Lemma name_back : forall name, join ":" (base_name name :: overrides name) = name.
Proof.
  intro name. unfold base_name, overrides.
  assert (E : split_char 58 name <> []).
  { destruct name as [|c r]; [discriminate|]. cbn [split_char]. destruct (N.eqb c 58); [discriminate|].
    destruct (split_char 58 r); discriminate. }
  destruct (split_char 58 name) as [|a r] eqn:S; [now destruct E|]. cbn [hd tl]. rewrite <- S.
  change (":" : str) with ([58%N] : str). apply split_char_join.
Qed.

Lemma word_of : forall k qs, existsb (fun q : str * str => str_eqb (fst q) k) qs = true <-> has_word k qs.
Proof.
  intros k qs. rewrite existsb_exists. split.
  - intros [[a w] [H E]]. apply str_eqb_eq in E. cbn [fst] in E. subst a. now exists w.
  - intros [w H]. exists (k, w). split; [exact H|]. now apply str_eqb_eq.
Qed.

Lemma shown : forall x i real, proper x -> stated_by x i -> it_raw i = concat (written x) -> it_realraw i = real ->
  classifier i = class_of x -> forall k v, shows_as real x k v -> dget k (attributes i) = Some v.
Proof.
  intros x i real Hp Hst Er Err Hc k v [H|H].
  { destruct H as [t [[E|[E|[]]] ->]]; injection E as <- <-; unfold attributes; cbn -[it_raw it_realraw written]; congruence. }
  pose proof Hst as [R Hn].
  destruct x as [name op vs|name flag op w|name w|fs|name|name t bl al|qs name head b m z1 z2|h m| |p|name args rest m];
    cbn [reads class_of] in *.
  - assert (N1 : var_name_complete (it_new i) (base_name name) (overrides name) = name).
    { unfold var_name_complete. destruct (overrides name) as [|o os] eqn:O.
      - pose proof (name_back name) as B. rewrite O in B. exact B.
      - rewrite Hn by discriminate. unfold delim_str, delim. rewrite <- O. apply name_back. }
    assert (N2 : var_name_nomod (it_new i) (base_name name) (overrides name) = target name).
    { destruct (assign_item name op vs i Hp Hst) as (_ & _ & T & _). unfold item_name_nomod, Stash.var_name, var_subs in T.
      rewrite R in T. exact T. }
    pose proof (assign_value name op vs Hp) as V.
    destruct H as [t [H ->]]. unfold attributes. rewrite R.
    destruct H as [E|[E|[E|[E|[E|[E|[E|[E|[]]]]]]]]]; injection E as <- <-; cbn -[var_name_complete var_name_nomod base_name overrides target var_value_stripped quoted join];
      try reflexivity; now rewrite ?N1, ?N2, ?V.
  - destruct H as [H|[U H]]; destruct H as [t [H ->]]; unfold attributes; rewrite R.
    + destruct H as [E|[E|[E|[E|[]]]]]; injection E as <- <-; reflexivity.
    + destruct H as [E|[]]; injection E as <- <-. cbn -[quoted strip]. now rewrite quoted_strip.
  - destruct H as [t [H ->]]. unfold attributes. rewrite R. destruct H as [E|[E|[]]]; injection E as <- <-; reflexivity.
  - destruct H as [t [H ->]]. unfold attributes. rewrite R. destruct H as [E|[]]; injection E as <- <-; reflexivity.
  - destruct H as [t [H ->]]. unfold attributes. rewrite R. destruct H as [E|[E|[]]]; injection E as <- <-; reflexivity.
  - destruct H as [u [H ->]]. unfold attributes. rewrite R. destruct H as [E|[E|[]]]; injection E as <- <-; reflexivity.
  - destruct R as (R1 & R2 & (p & f & n & s & l & r & E) & _). unfold attributes. rewrite E.
    destruct H as [[-> ->]|[[-> ->]|[t [[H|[]] ->]]]].
    + cbn -[existsb]. do 2 f_equal. apply Bool.eq_iff_eq_true. rewrite word_of, <- R1. unfold is_python. rewrite E. split.
      * intros ->. do 6 eexists. reflexivity.
      * intros (? & ? & ? & ? & ? & ? & X). now injection X.
    + cbn -[existsb]. do 2 f_equal. apply Bool.eq_iff_eq_true. rewrite word_of, <- R2. unfold is_fakeroot. rewrite E. split.
      * intros ->. do 6 eexists. reflexivity.
      * intros (? & ? & ? & ? & ? & ? & X). now injection X.
    + injection H as <- <-. reflexivity.
  - destruct H.
  - destruct H.
  - destruct p as [d c|kw n|n|pa ns|pa w f|n|n f|op q c]; cbn [plain_reads] in R.
    + destruct R as [paths R]. destruct H as [t [H ->]]. unfold attributes. rewrite R. destruct H as [E|[E|[]]]; injection E as <- <-; reflexivity.
    + destruct R as [[path R]|R]; [|unfold classifier in Hc; rewrite R in Hc; discriminate].
      destruct H as [t [H ->]]. unfold attributes. rewrite R. destruct H as [E|[E|[]]]; injection E as <- <-; reflexivity.
    + destruct H as [t [H ->]]. unfold attributes. rewrite R. destruct H as [E|[]]; injection E as <- <-; reflexivity.
    + destruct H as [t [H ->]]. unfold attributes. rewrite R. destruct H as [E|[E|[]]]; injection E as <- <-; reflexivity.
    + destruct H as [t [H ->]]. unfold attributes. rewrite R. destruct H as [E|[E|[E|[]]]]; injection E as <- <-; reflexivity.
    + destruct H as [t [H ->]]. unfold attributes. rewrite R. destruct H as [E|[E|[]]]; injection E as <- <-; reflexivity.
    + destruct H as [L [t [H ->]]]. destruct R as [_ R]. unfold attributes. rewrite (R L).
      destruct H as [E|[E|[]]]; injection E as <- <-; reflexivity.
    + destruct R as [paths R]. destruct H as [t [H ->]]. unfold attributes. rewrite R. destruct H as [E|[E|[]]]; injection E as <- <-; reflexivity.
  - destruct H as [t [H ->]]. unfold attributes. rewrite R. destruct H as [E|[]]; injection E as <- <-; reflexivity.
Qed.

Lemma dget_app_left : forall (A : Type) k (a b : list (str * A)) v, dget k a = Some v -> dget k (a ++ b) = Some v.
Proof.
  intros A k a b v. induction a as [|[x y] a IH]; [discriminate|]. cbn. destruct (str_eqb k x); [trivial|exact IH].
Qed.

Lemma C106_shown_lemma : forall n e path off forced s l s' t cs, filled e s ->
  add_file n e path off forced s = (Ok l, s') -> considered e path s ->
  fs_read (e_fs e) (file_of e path) = RdText t -> coded (st_neg s) cs (universal_newlines t) ->
  Forall2 (fun c => shown_as (concat (fst c)) (snd c)) cs l.
Proof.
  intros n e path off forced s l s' t cs Hf H Hc Hr Hs.
  pose proof (coded_stated n e path off forced s l s' t cs Hf H Hc Hr Hs) as F.
  clear -F. induction F as [|[g x] i cs l (_ & Hp & Hx & Ex & Er) _ IH]; constructor; [|exact IH]. cbn [fst snd] in *.
  destruct (stated_classifier x i Hx) as [C1 C2]. split; [exact C1|]. split; [exact C2|].
  intro C. now apply shown.
Qed.

Lemma C105_lemma : forall n e path off forced s l s' t ss, filled e s ->
  add_file n e path off forced s = (Ok l, s') -> considered e path s ->
  fs_read (e_fs e) (file_of e path) = RdText t -> recipe ss (universal_newlines t) ->
  Forall2 shown_by ss l.
Proof.
  intros n e path off forced s l s' t ss Hf H Hc Hr Hs. apply (recipe_coded (st_neg s)) in Hs.
  pose proof (C106_shown_lemma n e path off forced s l s' t _ Hf H Hc Hr Hs) as F. now apply Forall2_snd_iff in F.
Qed.

(** ** Positions *)

Lemma C106_position_lemma : forall n e path off forced s l s' t cs, filled e s ->
  add_file n e path off forced s = (Ok l, s') -> considered e path s ->
  fs_read (e_fs e) (file_of e path) = RdText t -> coded (st_neg s) cs (universal_newlines t) ->
  forall a c b pre i post, cs = a ++ c :: b -> l = pre ++ i :: post -> length pre = length a ->
    let num := (1 + Z.of_nat (length (concat (map fst a))))%Z in
    dget "Origin" (attributes i) = Some (VStr (file_of e path)) /\
    dget "InFileLine" (attributes i) = Some (VInt num) /\
    dget "IsFromClass" (attributes i) = Some (VBool (endswith ".bbclass" (file_of e path))) /\
    (endswith ".bbappend" (file_of e path) = false -> (forall c, In c cs -> ~ brings (snd c)) ->
     dget "Line" (attributes i) = Some (VInt (off + num))).
Proof.
  intros n e path off forced s l s' t cs Hf H Hc Hr Hs a c b pre i post Ea El Hl num.
  destruct (C106_read_lemma n e path off forced s l s' t cs Hf H Hc Hr Hs) as [_ R].
  pose proof (R a c b pre i post Ea El Hl) as Ei. fold num in Ei.
  pose proof (C04_lemma n e path off forced s l s' H) as O. rewrite Forall_forall in O.
  assert (Hi : In i l) by (rewrite El; apply in_or_app; right; now left).
  destruct (O i Hi) as [Eo _].
  assert (D : forall k v, dget k (base_attributes i) = Some v -> dget k (attributes i) = Some v).
  { intros k v D. unfold attributes. now apply dget_app_left. }
  split; [apply D; cbn -[Z.add]; now rewrite Eo|]. split; [apply D; cbn -[Z.add]; now rewrite Ei|].
  split; [apply D; cbn -[Z.add endswith]; now rewrite Eo|].
  intros Ha Hb. apply D. cbn -[Z.add].
  assert (Q : Forall IncludeFacts.quiet l).
  { apply Forall_forall. intros j Hj. split; [|now rewrite (proj1 (O j Hj))].
    pose proof (coded_stated n e path off forced s l s' t cs Hf H Hc Hr Hs) as F.
    assert (G : Forall OffsetFacts.adds_no_file l).
    { clear -F Hb. induction F as [|x y cs l (_ & _ & Hx & _) _ IH]; constructor.
      - apply (stated_still (snd x)); [exact Hx|]. apply Hb. now left.
      - apply IH. intros c' Hc'. apply Hb. now right. }
    rewrite Forall_forall in G. now apply G. }
  destruct (IncludeFacts.leaf n e path off forced s l s' H Q) as (f & _ & _ & L). rewrite Forall_forall in L.
  destruct (L i Hi) as [L1 _]. now rewrite L1, Ei.
Qed.

(** ** Queries *)

Lemma picked_same : forall A (P : A -> Prop) (sel : item -> Prop) ss l, Forall2 (fun x i => sel i <-> P x) ss l ->
  StronglySorted strictly l -> forall r, StronglySorted by_line r -> NoDup r ->
  (forall i, In i r <-> In i l /\ sel i) -> picked P ss l r.
Proof.
  intros A P sel ss l F. induction F as [|x i ss l Hx F IH]; intros Hl r Hr Hn Hin.
  - destruct r as [|j r]; [constructor|]. now destruct (proj1 (Hin j) (or_introl eq_refl)).
  - inversion Hl as [|? ? Hl1 Hl2]; subst. rewrite Forall_forall in Hl2.
    assert (D : (exists r', r = i :: r') \/ ~ In i r).
    { destruct r as [|j r]; [now right|]. inversion Hr as [|? ? Hr1 Hr2]; subst. rewrite Forall_forall in Hr2.
      destruct (proj1 (Hin j) (or_introl eq_refl)) as [[<-|Hj] _]; [left; now exists r|].
      right. apply Hl2 in Hj. intros [Q|Q]; [subst j|apply Hr2 in Q]; unfold strictly, by_line in *; lia. }
    destruct D as [[r' ->]|D].
    + inversion Hr as [|? ? Hr1 Hr2]; subst. inversion Hn as [|? ? Hn1 Hn2]; subst.
      apply picked_yes; [apply Hx; now apply (Hin i); left|]. apply IH; auto. intro j. split.
      * intro Hj. destruct (proj1 (Hin j) (or_intror Hj)) as [[<-|Hjl] S]; [contradiction|now split].
      * intros [Hj S]. destruct (proj2 (Hin j) (conj (or_intror Hj) S)) as [<-|Q]; [|exact Q].
        apply Hl2 in Hj. unfold strictly in Hj. lia.
    + apply picked_no.
      * intro Q. apply D. apply Hin. split; [now left|]. now apply Hx.
      * apply IH; auto. intro j. rewrite Hin. split.
        -- intros [[<-|Hj] S]; [|now split]. exfalso. apply D. apply Hin. split; [now left|exact S].
        -- intros [Hj S]. split; [now right|exact S].
Qed.

Lemma C106_query_lemma : forall n e path off forced new neg db l s' t cs nolink k a v, env_ok e ->
  add_file n e path off forced (new_stash new neg db) = (Ok l, s') ->
  fs_read (e_fs e) (file_of e path) = RdText t -> coded neg cs (universal_newlines t) ->
  (forall c, In c cs -> brings (snd c) -> st_list s' = l) ->
  k <> [] -> a <> [] -> v <> [] ->
  (forall c, In c cs -> class_of (snd c) = "Include" -> k <> "Include" /\ k <> "Item") ->
  (forall c, In c cs -> class_of (snd c) = k -> exists w, shows_as (concat (fst c)) (snd c) a w) ->
  picked (fun c => class_of (snd c) = k) cs l
    (get_items_for e s' (MkQuery (Some (file_of e path)) (AOne k) ANone ANone nolink)) /\
  picked (fun c => class_of (snd c) = k /\ shows_as (concat (fst c)) (snd c) a (VStr v)) cs l
    (get_items_for e s' (MkQuery (Some (file_of e path)) (AOne k) (AOne a) (AOne (VStr v)) nolink)).
Proof.
  intros n e path off forced new neg db l s' t cs nolink k a v He H Hr Hs Hbr Hc0 Ha Hv Hi Hsh.
  assert (Hc : considered e path (new_stash new neg db)) by (split; [intros []|intros []]).
  pose proof (coded_plain _ _ _ _ (coded_stated n e path off forced _ l s' t cs (filled_new e new neg db) H Hc Hr Hs)) as [F0 _].
  assert (EL : st_list s' = l).
  { apply (own_list n e path off forced new neg db l s' (map snd cs) H F0). intros y Hy. apply in_map_iff in Hy.
    destruct Hy as [c [<- Hy]]. now apply Hbr. }
  pose proof (C106_shown_lemma n e path off forced _ l s' t cs (filled_new e new neg db) H Hc Hr Hs) as F. clear F0.
  pose proof (strict_sorted l (fun pre a mid b post E => proj1 (C03_lemma n e path off forced _ l s' H pre a mid b post E))) as SS.
  pose proof (C04_lemma n e path off forced _ l s' H) as FO. rewrite Forall_forall in FO.
  assert (Hre : reach e s').
  { exists new, neg, db. eapply steps_add; [apply steps_refl|exact H]. }
  set (sb := fun c : list str * stmt => shown_as (concat (fst c)) (snd c)) in F.
  assert (Cl : forall c i, In c cs -> sb c i -> (classifier i = k <-> class_of (snd c) = k)).
  { intros c i Hx (C1 & C2 & _). destruct (str_eq_dec (class_of (snd c)) "Include") as [E|E]; [|now rewrite (C1 E)].
    destruct (Hi c Hx E) as [I1 I2]. rewrite E. destruct (C2 E) as [->| ->]; split; intro Q; congruence. }
  assert (Sub : forall c, In c cs -> class_of (snd c) = k -> class_of (snd c) <> "Include").
  { intros c Hx E Q. destruct (Hi c Hx Q) as [I1 _]. congruence. }
  assert (FF : forall P Q, (forall c i, In c cs -> In i l -> sb c i -> (P i <-> Q c)) -> Forall2 (fun c i => P i <-> Q c) cs l).
  { intros P Q. clear -F. induction F as [|x i cs l Hx F IH]; intro K; constructor.
    - apply K; [now left|now left|exact Hx].
    - apply IH. intros y j Hy Hj. apply K; now right. }
  set (q1 := MkQuery _ _ ANone _ _). set (q2 := MkQuery _ _ (AOne a) _ _).
  split.
  - destruct (C28_lemma e s' q1 He Hre) as (Q1 & Q2 & Q3). rewrite EL in Q1.
    apply (picked_same _ _ (selected s' q1)); [|exact SS|exact Q3|now apply NoDup_map_inv in Q2|exact Q1].
    apply FF. intros x i Hx Hil S. rewrite <- (Cl x i Hx S). unfold selected, of_file, of_class, of_attr, q1. cbn [q_file q_class q_attr].
    pose proof (proj1 (FO i Hil)). split; [intros (_ & [K|K] & _); [contradiction|exact K]|]. intro K. auto.
  - destruct (C28_lemma e s' q2 He Hre) as (Q1 & Q2 & Q3). rewrite EL in Q1.
    apply (picked_same _ _ (selected s' q2)); [|exact SS|exact Q3|now apply NoDup_map_inv in Q2|exact Q1].
    apply FF. intros x i Hx Hil S. unfold selected, of_file, of_class, of_attr, q2. cbn [q_file q_class q_attr].
    pose proof (proj1 (FO i Hil)) as O. split.
    + intros (_ & [K|K] & [A|A]); try contradiction. apply (Cl x i Hx S) in K. split; [exact K|].
      pose proof (Sub x Hx K) as NI. pose proof (proj1 S NI) as CE.
      destruct (Hsh x Hx K) as [w W]. destruct A as [u [A1 A2]].
      pose proof (proj2 (proj2 S) CE a w W) as B. rewrite A1 in B. injection B as ->. cbn [q_val value_ok] in A2.
      destruct A2 as [[A2|[A2|A2]]|[[y [A2 ->]]|[z [A2 _]]]]; try discriminate A2.
      * injection A2 as ->. now destruct Hv.
      * injection A2 as <-. exact W.
    + intros [K W]. pose proof (Sub x Hx K) as NI. pose proof (proj1 S NI) as CE.
      split; [now right; left|]. split; [right; exact (eq_trans CE K)|]. right. exists (VStr v).
      split; [now apply (proj2 (proj2 S) CE)|]. right. left. now exists v.
Qed.

Lemma picked_map : forall A B (f : A -> B) (P : B -> Prop) xs l r, picked P (map f xs) l r -> picked (fun x => P (f x)) xs l r.
Proof.
  intros A B f P xs. induction xs as [|x xs IH]; intros l r H; cbn [map] in H; inversion H; subst; constructor; auto.
Qed.

Lemma C105_query_lemma : forall n e path off forced new neg db l s' t ss nolink c a v, env_ok e ->
  add_file n e path off forced (new_stash new neg db) = (Ok l, s') ->
  fs_read (e_fs e) (file_of e path) = RdText t -> recipe ss (universal_newlines t) ->
  (forall y, In y ss -> brings y -> st_list s' = l) ->
  c <> [] -> a <> [] -> v <> [] ->
  (forall x, In x ss -> class_of x = "Include" -> c <> "Include" /\ c <> "Item") ->
  (forall x, In x ss -> class_of x = c -> exists w, shows x a w) ->
  picked (fun x => class_of x = c) ss l
    (get_items_for e s' (MkQuery (Some (file_of e path)) (AOne c) ANone ANone nolink)) /\
  picked (fun x => class_of x = c /\ shows x a (VStr v)) ss l
    (get_items_for e s' (MkQuery (Some (file_of e path)) (AOne c) (AOne a) (AOne (VStr v)) nolink)).
Proof.
  intros n e path off forced new neg db l s' t ss nolink c a v He H Hr Hs Hbr Hc0 Ha Hv Hi Hsh.
  apply (recipe_coded neg) in Hs.
  assert (M : forall (P : list str * stmt -> Prop), (forall x, In x ss -> P (as_written x)) ->
              forall y, In y (map as_written ss) -> P y).
  { intros P HP y Hy. apply in_map_iff in Hy. destruct Hy as [x [<- Hx]]. now apply HP. }
  destruct (C106_query_lemma n e path off forced new neg db l s' t _ nolink c a v He H Hr Hs) as [Q1 Q2]; try assumption.
  - apply (M (fun y => brings (snd y) -> st_list s' = l)). exact Hbr.
  - apply (M (fun y => class_of (snd y) = "Include" -> c <> "Include" /\ c <> "Item")). exact Hi.
  - apply (M (fun y => class_of (snd y) = c -> exists w, shows_as (concat (fst y)) (snd y) a w)). exact Hsh.
  - apply picked_map in Q1, Q2. now split.
Qed.
