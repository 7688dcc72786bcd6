(** * Statements in front of a text: proofs *)

From Verif Require Import PyStr Regex UniTable Patterns PyPath Res Inline Const Item Lines Stash
  StrFacts ReFacts LinesFacts NameFacts ParseFacts HistFacts ReachFacts Props_Lines Spec_Parse ClassFacts
  Spec_Inline Proofs_Inline Spec_Group Proofs_Group Proofs_Swallow Spec_Alike Proofs_Alike Spec_Front.

Lemma pairs : forall (f : item -> str) (R : item -> item -> Prop) l3 l2 a b, map f a = map f b -> map f l3 = map f l2 ->
  (forall pre i post pre' j post', a ++ l3 = pre ++ i :: post -> b ++ l2 = pre' ++ j :: post' ->
     map f pre = map f pre' -> f i = f j -> In i l3 -> In j l2 -> R i j) -> Forall2 R l3 l2.
Proof.
  intros f R. induction l3 as [|i l3 IH]; intros [|j l2] a b Ea E H; try discriminate; [constructor|].
  cbn [map] in E. injection E as E1 E2. constructor.
  - apply (H a i l3 b j l2); auto; now left.
  - apply (IH l2 (a ++ [i]) (b ++ [j])); [rewrite !map_app; cbn [map]; congruence|exact E2|].
    intros pre x post pre' y post' P1 P2 P3 P4 I1 I2. apply (H pre x post pre' y post'); auto; try (now right).
    + rewrite <- P1, <- app_assoc. reflexivity.
    + rewrite <- P2, <- app_assoc. reflexivity.
Qed.

Lemma concat_twice : forall gs : list (list str), concat (map (@concat N) gs) = concat (concat gs).
Proof. induction gs as [|g gs IH]; [reflexivity|]. cbn [map concat]. now rewrite concat_app, IH. Qed.
Lemma newlines_app : forall a b : str, newlines (a ++ b) = (newlines a + newlines b)%Z.
Proof. intros a b. unfold newlines. rewrite count_occ_app. lia. Qed.

Lemma C139_lemma : forall n e path off forced s l s' t n' e' path' off' forced' r l2 r' t2 gs,
  add_file n e path off forced s = (Ok l, s') -> considered e path s -> fs_read (e_fs e) (file_of e path) = RdText t ->
  add_file n' e' path' off' forced' r = (Ok l2, r') -> considered e' path' r -> fs_read (e_fs e') (file_of e' path') = RdText t2 ->
  filled e s -> filled e' r -> st_neg s = st_neg r ->
  taken (readlines (universal_newlines t)) gs (readlines (universal_newlines t2)) ->
  exists l1 l3, l = l1 ++ l3 /\ map it_realraw l1 = map (@concat N) gs /\ Forall2 (moved (newlines (concat (concat gs)))) l3 l2.
Proof.
  intros n e path off forced s l s' t n' e' path' off' forced' r l2 r' t2 gs A C R A' C' R' F F' EN T.
  pose proof (add_file_taken _ _ _ _ _ _ _ _ A' C') as T2. rewrite R' in T2. destruct T2 as [gs2 [T2 M2]].
  assert (M : map it_realraw l = map (@concat N) (gs ++ gs2)).
  { apply (unique_items n e path off forced s l s' t (gs ++ gs2) A C R). now apply (Proofs_Swallow.taken_app _ gs _ T). }
  rewrite map_app in M. apply map_eq_app in M. destruct M as (l1 & l3 & -> & M1 & M3). exists l1, l3.
  split; [reflexivity|]. split; [exact M1|].
  assert (I : Forall (inlined (st_neg s)) (l1 ++ l3)).
  { apply (proj2 (keeps_inlined (st_neg s) n e path off forced s _ s' A (filled_inlined e s F))). reflexivity. }
  assert (I' : Forall (inlined (st_neg s)) l2).
  { rewrite EN. apply (proj2 (keeps_inlined (st_neg r) n' e' path' off' forced' r _ r' A' (filled_inlined e' r F'))). reflexivity. }
  assert (K : Forall classified (l1 ++ l3)).
  { apply (proj2 (keeps_add_file n e path off forced s _ s' A (filled_classified e s F))). reflexivity. }
  assert (K' : Forall classified l2).
  { apply (proj2 (keeps_add_file n' e' path' off' forced' r _ r' A' (filled_classified e' r F'))). reflexivity. }
  rewrite Forall_forall in I, I', K, K'.
  apply (pairs it_realraw _ l3 l2 [] []); [reflexivity|now rewrite M2|].
  intros pre i post pre' j post' E1 E2 E3 E4 Hi Hj. cbn [List.app] in E1, E2.
  assert (Hi' : In i (l1 ++ l3)) by (apply in_or_app; now right).
  destruct (alike_text (st_neg s) i j (I i Hi') (I' j Hj) E4) as [Er Eb].
  split; [exact E4|]. split; [|split; [exact Er|split; [exact Eb|]]].
  - assert (E5 : l1 ++ l3 = (l1 ++ pre) ++ i :: post) by (rewrite E1; now rewrite app_assoc).
    pose proof (C02_infileline n e path off forced s (l1 ++ l3) s' (l1 ++ pre) i post A E5) as P1.
    pose proof (C02_infileline n' e' path' off' forced' r l2 r' pre' j post' A' E2) as P2.
    assert (P3 : newlines (concat (map it_realraw (l1 ++ pre))) =
      (newlines (concat (concat gs)) + newlines (concat (map it_realraw pre')))%Z).
    { rewrite map_app, concat_app, newlines_app. f_equal; f_equal; [|f_equal; exact E3].
      transitivity (concat (map (@concat N) gs)); [f_equal; exact M1|apply concat_twice]. }
    rewrite P1, P2, P3. ring.
  - intros En Ei. apply (alike_pay i j (K i Hi') (K' j Hj) Er En Ei).
Qed.

Lemma C139_behind_lemma : forall n e path off forced s l s' t n' e' path' off' forced' r l' r' t' gs u u',
  add_file n e path off forced s = (Ok l, s') -> considered e path s -> fs_read (e_fs e) (file_of e path) = RdText t ->
  add_file n' e' path' off' forced' r = (Ok l', r') -> considered e' path' r -> fs_read (e_fs e') (file_of e' path') = RdText t' ->
  filled e s -> filled e' r -> st_neg s = st_neg r ->
  taken (readlines (universal_newlines t)) gs u -> taken (readlines (universal_newlines t')) gs u' ->
  exists l1 l2 l1' l2', l = l1 ++ l2 /\ l' = l1' ++ l2' /\ map it_realraw l1 = map (@concat N) gs /\ Forall2 (moved 0) l1 l1'.
Proof.
  intros n e path off forced s l s' t n' e' path' off' forced' r l' r' t' gs u u' A C R A' C' R' F F' EN T T'.
  assert (G : forall n e path off forced s l s' t u, add_file n e path off forced s = (Ok l, s') -> considered e path s ->
    fs_read (e_fs e) (file_of e path) = RdText t -> taken (readlines (universal_newlines t)) gs u ->
    exists l1 l2, l = l1 ++ l2 /\ map it_realraw l1 = map (@concat N) gs).
  { clear. intros n e path off forced s l s' t u A C R T. pose proof (add_file_taken _ _ _ _ _ _ _ _ A C) as T2.
    rewrite R in T2. destruct T2 as [gs2 [T2 M2]].
    destruct (taken_prefix (readlines (universal_newlines t)) gs u gs2) as [gs3 [-> _]]; [apply ok_are_lines, readlines_ok|exact T|exact T2|].
    rewrite map_app in M2. apply map_eq_app in M2. destruct M2 as (l1 & l2 & -> & M1 & _). now exists l1, l2. }
  destruct (G _ _ _ _ _ _ _ _ _ _ A C R T) as (l1 & l2 & -> & M).
  destruct (G _ _ _ _ _ _ _ _ _ _ A' C' R' T') as (l1' & l2' & -> & M'). exists l1, l2, l1', l2'.
  split; [reflexivity|]. split; [reflexivity|]. split; [exact M|].
  assert (I : Forall (inlined (st_neg s)) (l1 ++ l2)).
  { apply (proj2 (keeps_inlined (st_neg s) n e path off forced s _ s' A (filled_inlined e s F))). reflexivity. }
  assert (I' : Forall (inlined (st_neg s)) (l1' ++ l2')).
  { rewrite EN. apply (proj2 (keeps_inlined (st_neg r) n' e' path' off' forced' r _ r' A' (filled_inlined e' r F'))). reflexivity. }
  assert (K : Forall classified (l1 ++ l2)).
  { apply (proj2 (keeps_add_file n e path off forced s _ s' A (filled_classified e s F))). reflexivity. }
  assert (K' : Forall classified (l1' ++ l2')).
  { apply (proj2 (keeps_add_file n' e' path' off' forced' r _ r' A' (filled_classified e' r F'))). reflexivity. }
  rewrite Forall_forall in I, I', K, K'.
  apply (pairs it_realraw _ l1 l1' [] []); [reflexivity|now rewrite M, M'|].
  intros pre i post pre' j post' E1 E2 E3 E4 Hi Hj. cbn [List.app] in E1, E2.
  assert (Hi' : In i (l1 ++ l2)) by (apply in_or_app; now left).
  assert (Hj' : In j (l1' ++ l2')) by (apply in_or_app; now left).
  destruct (alike_text (st_neg s) i j (I i Hi') (I' j Hj') E4) as [Er Eb].
  split; [exact E4|]. split; [|split; [exact Er|split; [exact Eb|]]].
  - assert (E5 : l1 ++ l2 = pre ++ i :: (post ++ l2)) by (rewrite E1; now rewrite <- app_assoc).
    assert (E6 : l1' ++ l2' = pre' ++ j :: (post' ++ l2')) by (rewrite E2; now rewrite <- app_assoc).
    pose proof (C02_infileline n e path off forced s (l1 ++ l2) s' pre i (post ++ l2) A E5) as P1.
    pose proof (C02_infileline n' e' path' off' forced' r (l1' ++ l2') r' pre' j (post' ++ l2') A' E6) as P2.
    assert (P3 : newlines (concat (map it_realraw pre)) = newlines (concat (map it_realraw pre'))) by (f_equal; f_equal; exact E3).
    rewrite P1, P2, P3. ring.
  - intros En Ei. apply (alike_pay i j (K i Hi') (K' j Hj') Er En Ei).
Qed.
