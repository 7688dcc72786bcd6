(** * The known mirrors: proofs *)

From Coq Require Import Lia Permutation.
From Verif Require Import PyStr Res Const Item Stash StrFacts LinesFacts Spec_Const ConstFacts Spec_Pkg QueryFacts Proofs_Pkg Default Spec_Mirror.

Lemma app_cases : forall (a b c d : list N), a ++ b = c ++ d ->
  (exists l, a = c ++ l /\ d = l ++ b) \/ (exists l, c = a ++ l /\ b = l ++ d).
Proof. intros a b c d H. destruct (app_eq_app a b c d H) as (l & [H1|H1]); [left|right]; now exists l. Qed.

Lemma reference_prefix : forall k k' (a b : str), is_reference k -> is_reference k' -> k ++ a = k' ++ b -> k = k' /\ a = b.
Proof.
  intros k k' a b (n & -> & _ & _ & H) (n' & -> & _ & _ & H') E. cbn [List.app] in E. injection E as E.
  rewrite <- !app_assoc in E. cbn [List.app] in E. apply app_cases in E. destruct E as [(l & -> & E)|(l & -> & E)].
  - destruct l as [|c l]; [cbn in E; injection E as ->; now rewrite app_nil_r|]. injection E as <- _. destruct H. apply in_or_app. right. now left.
  - destruct l as [|c l]; [cbn in E; injection E as ->; now rewrite app_nil_r|]. injection E as <- _. destruct H'. apply in_or_app. right. now left.
Qed.

Section Dict.
Context (d : list (str * str)).
Context (refs : forall k v, In (k, v) d -> is_reference k).

(** A text that ends with a closing brace and is made of characters of names was not put in. *)
Lemma copied_back : forall (P : N -> Prop),
  (forall k v, In (k, v) d -> exists p c q, v = p ++ c :: q /\ ~ In 125%N p /\ c <> 125%N /\ ~ P c) ->
  forall m x y2, Forall P m -> stands d x (m ++ 125%N :: y2) -> exists x2, x = m ++ 125%N :: x2 /\ stands d x2 y2.
Proof.
  intros P Hs m. induction m as [|c m IH]; intros x y2 Hm H.
  - remember ([] ++ 125%N :: y2) as y eqn:E. destruct H as [|k v x y Hi H|c x y Hc H]; [discriminate| |].
    + exfalso. destruct (Hs k v Hi) as (p & c & q & -> & Hp & Hc & _). destruct p as [|a p]; [injection E as -> _; now apply Hc|].
      injection E as -> _. apply Hp. now left.
    + injection E as -> ->. now exists x.
  - remember ((c :: m) ++ 125%N :: y2) as y eqn:E. destruct H as [|k v x y Hi H|c' x y Hc H]; [discriminate| |].
    + exfalso. destruct (Hs k v Hi) as (p & c' & q & -> & Hp & Hc & Hf). rewrite <- app_assoc in E.
      apply app_cases in E. destruct E as [(l & -> & E)|(l & E & E2)].
      * destruct l as [|z l]; injection E as K _; [now apply Hc|]. apply Hp. apply in_or_app. right. rewrite K. now left.
      * destruct l as [|z l]; injection E2 as K2 _; [now apply Hc|]. subst z.
        assert (K : In c' (c :: m)) by (rewrite E; apply in_or_app; right; now left).
        rewrite Forall_forall in Hm. exact (Hf (Hm c' K)).
    + injection E as -> ->. inversion Hm as [|? ? _ Hm']; subst. destruct (IH x y2 Hm' H) as (x2 & -> & H2). now exists x2.
Qed.
(** Texts without dollar signs are kept. *)
Lemma copied : forall m x2 y, ~ In 36%N m -> stands d (m ++ x2) y -> exists y2, y = m ++ y2 /\ stands d x2 y2.
Proof.
  induction m as [|c m IH]; intros x2 y Hm H; [now exists y|]. remember ((c :: m) ++ x2) as x eqn:E.
  destruct H as [|k v x y Hi H|c' x y Hc H]; [discriminate| |].
  - exfalso. destruct (refs k v Hi) as (n & -> & _). injection E as <- _. apply Hm. now left.
  - injection E as -> ->. destruct (IH x2 y) as (y2 & -> & H2); [intro K; apply Hm; now right|exact H|]. now exists y2.
Qed.
(** What was put in is kept. *)
Lemma passed : forall v, (exists p c q, v = p ++ c :: q /\ ~ In 36%N q /\ (c = 125%N \/ foreign d c)) ->
  (forall k' v' a b, In (k', v') d -> v <> a ++ k' ++ b) ->
  forall w u k v' y t, v = u ++ w -> w <> [] -> In (k, v') d -> w ++ y <> k ++ t.
Proof.
  intros v (p & c & q & Ev & Hq & Hc) Hn w u k v' y t Ew Nw Hi E.
  apply app_cases in E. destruct E as [(l & -> & _)|(l & Ek & E)]; [exact (Hn k v' u l Hi Ew)|].
  destruct (refs k v' Hi) as (n & Er & N1 & N2 & N3).
  assert (D : exists w', w = 36%N :: w') by (destruct w as [|a w]; [congruence|]; rewrite Ek in Er; injection Er as -> _; now exists w).
  assert (Dk : In 36%N k) by (rewrite Er; now left).
  rewrite Ew in Ev. apply app_cases in Ev. destruct Ev as [(l2 & -> & E2)|(l2 & -> & E2)].
  - destruct l2 as [|z l2].
    + destruct D as [w' ->]. injection E2 as -> ->. destruct Hc as [Hc|Hc]; [discriminate|]. exact (Hc k v' Hi Dk).
    + injection E2 as -> ->. apply Hq. destruct D as [w' ->]. apply in_or_app. right. now left.
  - assert (Ck : In c k) by (rewrite Ek, E2; apply in_or_app; left; apply in_or_app; right; now left).
    destruct Hc as [->|Hc]; [|exact (Hc k v' Hi Ck)].
    assert (Z : k = w).
    { rewrite Ek in Er. rewrite E2 in Er. rewrite <- app_assoc in Er. cbn [List.app] in Er.
      change (36%N :: 123%N :: n ++ [125%N]) with ((36%N :: 123%N :: n) ++ [125%N]) in Er. apply app_cases in Er.
      destruct Er as [(l3 & _ & E3)|(l3 & E3 & E4)].
      - destruct l3 as [|z l3]; [|destruct l3; discriminate]. cbn in E3. injection E3 as E3.
        symmetry in E3. apply app_eq_nil in E3. destruct E3 as [-> ->]. now rewrite app_nil_r in Ek.
      - destruct l3 as [|z l3].
        + cbn in E4. injection E4 as E4. apply app_eq_nil in E4. destruct E4 as [-> ->]. now rewrite app_nil_r in Ek.
        + injection E4 as <- _. exfalso. assert (K : In 125%N (36%N :: 123%N :: n)) by (rewrite E3; apply in_or_app; right; now left).
          destruct K as [K|[K|K]]; [discriminate|discriminate|contradiction]. }
    apply (Hn k v' u [] Hi). rewrite app_nil_r, Z. exact Ew.
Qed.
Lemma kept : forall v, (exists p c q, v = p ++ c :: q /\ ~ In 36%N q /\ (c = 125%N \/ foreign d c)) ->
  (forall k' v' a b, In (k', v') d -> v <> a ++ k' ++ b) ->
  forall y z, stands d (v ++ y) z -> exists z1, z = v ++ z1 /\ stands d y z1.
Proof.
  intros v He Hn y. assert (G : forall w u z, v = u ++ w -> stands d (w ++ y) z -> exists z1, z = w ++ z1 /\ stands d y z1).
  { induction w as [|c w IH]; intros u z Ew H; [now exists z|]. remember ((c :: w) ++ y) as x eqn:E.
    destruct H as [|k v0 x z Hi H|c' x z Hc H]; [discriminate| |].
    - exfalso. apply (passed v He Hn (c :: w) u k v0 y x Ew); [discriminate|exact Hi|now symmetry].
    - injection E as -> ->. destruct (IH (u ++ [c]) z) as (z1 & -> & H1); [now rewrite <- app_assoc|exact H|]. now exists z1. }
  intros z H. exact (G v [] z eq_refl H).
Qed.

(** The result is determined. *)
Lemma stands_fun : NoDup (map fst d) -> forall x y, stands d x y -> forall y', stands d x y' -> y = y'.
Proof.
  intros Nd x y H. induction H as [|k v x y Hi H IH|c x y Hc H IH]; intros y' H'.
  - remember [] as x0 eqn:E. destruct H' as [|k v x y Hi H'|c x y Hc H']; [reflexivity| |discriminate].
    destruct (refs k v Hi) as (n & -> & _). discriminate.
  - remember (k ++ x) as x0 eqn:E. destruct H' as [|k' v' x' y' Hi' H'|c x' y' Hc H'].
    + destruct (refs k v Hi) as (n & -> & _). discriminate.
    + destruct (reference_prefix k' k x' x (refs _ _ Hi') (refs _ _ Hi) E) as [-> ->]. rewrite (IH y' H'). f_equal.
      clear -Nd Hi Hi'. induction d as [|[a b] l IHl]; [destruct Hi|]. inversion Nd as [|? ? N1 N2]; subst.
      destruct Hi as [Hi|Hi], Hi' as [Hi'|Hi'].
      * congruence.
      * injection Hi as -> ->. destruct N1. now apply (in_map fst) in Hi'.
      * injection Hi' as -> ->. destruct N1. now apply (in_map fst) in Hi.
      * now apply IHl.
    + destruct (Hc k v x Hi E).
  - remember (c :: x) as x0 eqn:E. destruct H' as [|k' v' x' y' Hi' H'|c' x' y' Hc' H']; [discriminate| |].
    + destruct (Hc k' v' x' Hi' eq_refl).
    + injection E as -> ->. f_equal. now apply IH.
Qed.

(** No name is left. *)
Lemma stands_clean : (forall k v, In (k, v) d -> solid d v /\ forall k' v' a b, In (k', v') d -> v <> a ++ k' ++ b) ->
  forall x y, stands d x y -> forall k v a b, In (k, v) d -> y <> a ++ k ++ b.
Proof.
  intros Hs x y H. induction H as [|k v x y Hi H IH|c x y Hc H IH]; intros k0 v0 a b Hi0 E.
  - destruct (refs k0 v0 Hi0) as (n & -> & _). destruct a; discriminate.
  - destruct (Hs k v Hi) as ((_ & He) & Hn). apply app_cases in E. destruct E as [(l & -> & E)|(l & -> & E)].
    + destruct l as [|z l]; [exact (IH k0 v0 [] b Hi0 (eq_sym E))|].
      apply (passed (a ++ z :: l) He Hn (z :: l) a k0 v0 y b eq_refl); [discriminate|exact Hi0|now symmetry].
    + exact (IH k0 v0 l b Hi0 E).
  - destruct a as [|z a]; [|injection E as _ ->; exact (IH k0 v0 a b Hi0 eq_refl)].
    destruct (refs k0 v0 Hi0) as (n & En & N1 & N2 & N3). rewrite En in E. injection E as -> ->.
    destruct (copied_back) with (P := fun c => In c k0) (m := (123%N :: n) : list N) (x := x) (y2 := b) as (x2 & -> & _).
    + intros k v Hi. destruct (Hs k v Hi) as (((p & c & q & -> & Hp & Hf) & _) & _). exists p, c, q. repeat split; [exact Hp| |exact (Hf k0 v0 Hi0)].
      intros ->. apply (Hf k0 v0 Hi0). rewrite En. right. right. apply in_or_app. right. now left.
    + rewrite Forall_forall, En. intros c [<-|K]; [right; now left|]. right. right. apply in_or_app. now left.
    + cbn [List.app]. now rewrite <- app_assoc in H.
    + apply (Hc k0 v0 x2 Hi0). rewrite En. cbn [List.app]. now rewrite <- app_assoc.
Qed.
End Dict.

(** ** One mirror after the other *)

Lemma replace_stands : forall k v x, k <> [] -> stands [(k, v)] x (replace k v x).
Proof.
  intros k v x Nk. rewrite replace_eq by exact Nk. remember (length x) as n eqn:E.
  assert (L : length x <= n) by lia. clear E. revert x L. induction n as [|n IH]; intros x L; rewrite replace_go_eq by exact Nk.
  - destruct x; [|cbn in L; lia]. destruct k as [|a k]; [congruence|]. apply stands_end.
  - destruct (startswith k x) eqn:S.
    + pose proof (startswith_skipn k x S) as Ex. rewrite Ex at 1. apply stands_name; [now left|]. apply IH.
      rewrite Ex in L. rewrite app_length in L. destruct k as [|a k]; [congruence|]. cbn [length] in L |- *. lia.
    + destruct x as [|c x]; [apply stands_end|]. apply stands_char.
      * intros k' v' t [K|[]] E. injection K as <- <-. rewrite E, startswith_app in S. discriminate.
      * apply IH. cbn in L. lia.
Qed.

Lemma stands_compose : forall k v M,
  (forall k' v', In (k', v') ((k, v) :: M) -> is_reference k') ->
  solid ((k, v) :: M) v -> (forall k' v' a b, In (k', v') M -> v <> a ++ k' ++ b) ->
  forall x y, stands [(k, v)] x y -> forall z, stands M y z -> stands ((k, v) :: M) x z.
Proof.
  intros k v M Hr (Hb & p & c & q & Ev & Hq & Hc) Hn.
  assert (He : exists p c q, v = p ++ c :: q /\ ~ In 36%N q /\ (c = 125%N \/ foreign M c)).
  { exists p, c, q. split; [exact Ev|]. split; [exact Hq|]. destruct Hc as [Hc|Hc]; [now left|right]. intros k' v' Hi. apply (Hc k' v'). now right. }
  assert (HrM : forall k' v', In (k', v') M -> is_reference k') by (intros k' v' Hi; apply (Hr k' v'); now right).
  assert (Hr1 : forall k' v', In (k', v') [(k, v)] -> is_reference k') by (intros k' v' [K|[]]; apply (Hr k' v'); now left).
  intros x y H z Hz. remember (length x) as len eqn:El. assert (L : length x <= len) by lia. clear El.
  revert x y H z Hz L. induction len as [|len IH]; intros x y H z Hz L.
  all: destruct H as [|k0 v0 x y Hi H|c0 x y Hc0 H].
  2: { exfalso. destruct Hi as [K|[]]. injection K as <- <-. destruct (Hr1 k v (or_introl eq_refl)) as (n & -> & _). cbn in L. lia. }
  2: { exfalso. cbn in L. lia. }
  1,2: remember ([] : str) as y0 eqn:E; destruct Hz as [|k' v' x' y' Hi' _|]; [apply stands_end| |discriminate];
    destruct (HrM k' v' Hi') as (n & -> & _); discriminate.
  - destruct Hi as [K|[]]. injection K as <- <-. destruct (kept M HrM v He Hn y z Hz) as (z1 & -> & H1).
    apply stands_name; [now left|]. apply (IH x y H z1 H1).
    destruct (Hr1 k v (or_introl eq_refl)) as (n & -> & _). rewrite app_length in L. cbn in L. lia.
  - remember (c0 :: y) as y0 eqn:E. destruct Hz as [|k' v' y' z' Hi' Hz|c1 y' z' Hc1 Hz]; [discriminate| |].
    + destruct (HrM k' v' Hi') as (n & En & N1 & N2 & N3). rewrite En in E. injection E as <- Ey. rewrite <- app_assoc in Ey. cbn [List.app] in Ey.
      destruct (copied_back [(k, v)]) with (P := fun a => In a k') (m := (123%N :: n) : list N) (x := x) (y2 := y') as (x2 & -> & H2).
      * intros k1 v1 [K|[]]. injection K as <- <-. destruct Hb as (pb & cb & qb & Eb & Hp & Hf). exists pb, cb, qb.
        assert (F : ~ In cb k') by (apply (Hf k' v'); now right). repeat split; [exact Eb|exact Hp| |exact F].
        intros ->. apply F. rewrite En. right. right. apply in_or_app. right. now left.
      * rewrite Forall_forall, En. intros a [<-|K]; [right; now left|]. right. right. apply in_or_app. now left.
      * cbn [List.app]. rewrite Ey. exact H.
      * assert (Ex : 36%N :: (123%N :: n) ++ 125%N :: x2 = k' ++ x2) by (rewrite En; cbn [List.app]; now rewrite <- app_assoc).
        rewrite Ex. apply stands_name; [now right|]. apply (IH x2 y' H2 z' Hz). cbn [List.app length] in L. rewrite app_length in L.
        cbn [length] in L. lia.
    + injection E as -> ->. apply stands_char; [|apply (IH x y H z' Hz); cbn in L; lia]. intros k' v' t [K|Hi'] E.
      * injection K as <- <-. exact (Hc0 k v t (or_introl eq_refl) E).
      * destruct (HrM k' v' Hi') as (n & En & N1 & N2 & N3). rewrite En in E. injection E as -> Ex. rewrite <- app_assoc in Ex.
        assert (Nm : ~ In 36%N ((123%N :: n) ++ [125%N])).
        { intro K. apply in_app_or in K. destruct K as [[K|K]|[K|[]]]; [discriminate|contradiction|discriminate]. }
        destruct (copied [(k, v)] Hr1 ((123%N :: n) ++ [125%N]) t y Nm) as (y2 & -> & _).
        { cbn [List.app]. rewrite <- app_assoc. rewrite <- Ex. exact H. }
        apply (Hc1 k' v' y2 Hi'). rewrite En. reflexivity.
Qed.

Lemma mirrored_stands : forall d0 d x, mirrors_ok d0 -> incl d d0 -> stands d x (mirrored d x).
Proof.
  intros d0 d x (_ & Hok). revert x. induction d as [|[k v] d IH]; intros x Hi.
  - cbn. induction x as [|c x IHx]; [apply stands_end|]. apply stands_char; [intros k v t []|exact IHx].
  - unfold mirrored. cbn [fold_left fst snd]. change (stands ((k, v) :: d) x (mirrored d (replace k v x))).
    destruct (Hok k v (Hi _ (or_introl eq_refl))) as (Hr & Hs & Hn).
    apply (stands_compose k v d) with (y := replace k v x).
    + intros k' v' H'. apply (Hok k' v' (Hi _ H')).
    + destruct Hs as ((p & c & q & E1 & E2 & E3) & p' & c' & q' & E4 & E5 & E6). split.
      * exists p, c, q. split; [exact E1|]. split; [exact E2|]. intros k' v' H'. apply (E3 k' v' (Hi _ H')).
      * exists p', c', q'. split; [exact E4|]. split; [exact E5|]. destruct E6 as [E6|E6]; [now left|right]. intros k' v' H'. apply (E6 k' v' (Hi _ H')).
    + intros k' v' a b H'. apply (Hn k' v' a b). apply Hi. now right.
    + apply replace_stands. destruct Hr as (n & -> & _). discriminate.
    + apply IH. intros kv H'. apply Hi. now right.
Qed.
Lemma stands_incl : forall d d', incl d d' -> incl d' d -> forall x y, stands d x y -> stands d' x y.
Proof.
  intros d d' H1 H2 x y H. induction H as [|k v x y Hi H IH|c x y Hc H IH]; [apply stands_end|apply stands_name; auto|].
  apply stands_char; [|exact IH]. intros k v t Hi. apply (Hc k v t (H2 _ Hi)).
Qed.
Lemma mirrored_order : forall d d' x, mirrors_ok d -> Permutation d d' -> mirrored d' x = mirrored d x.
Proof.
  intros d d' x H P. assert (I1 : incl d d') by (intros a; apply Permutation_in; exact P).
  assert (I2 : incl d' d) by (intros a; apply Permutation_in; now apply Permutation_sym).
  symmetry. apply (stands_fun d) with (x := x); [|apply H|apply (mirrored_stands d d x H (incl_refl d))|].
  - intros k v Hi. apply (proj2 H k v Hi).
  - apply (stands_incl d' d I2 I1). exact (mirrored_stands d d' x H I2).
Qed.

(** ** GetScrComponents *)

Lemma C132_stands_lemma : forall e s d x, mirrors (st_const s) d -> mirrors_ok d ->
  exists y, stands d x y /\ scr_components e s x = scr_components e (with_const (CDict []) s) y.
Proof.
  intros e s d x Hm Hok. exists (mirrored d x). split; [exact (mirrored_stands d d x Hok (incl_refl d))|].
  unfold scr_components. rewrite (mirrored_eq (st_const s) d x Hm). cbv zeta. reflexivity.
Qed.
Lemma C132_order_lemma : forall e s s' d d' x, mirrors (st_const s) d -> mirrors (st_const s') d' -> mirrors_ok d -> Permutation d d' ->
  scr_components e s' x = scr_components e s x.
Proof.
  intros e s s' d d' x Hm Hm' Hok P. unfold scr_components.
  rewrite (mirrored_eq (st_const s) d x Hm), (mirrored_eq (st_const s') d' x Hm'), (mirrored_order d d' x Hok P). reflexivity.
Qed.
Lemma C132_clean_lemma : forall d x y k v, mirrors_ok d -> stands d x y -> In (k, v) d -> contains k y = false.
Proof.
  intros d x y k v (Nd & Hok) H Hi. apply contains_false. intros a b. apply (stands_clean d) with (x := x) (v := v); [| |exact H|exact Hi].
  - intros k' v' Hi'. apply (Hok k' v' Hi').
  - intros k' v' Hi'. apply (Hok k' v' Hi').
Qed.

(** ** A check *)

Definition foreignb (d : list (str * str)) (c : N) : bool := forallb (fun kv => negb (existsb (N.eqb c) (fst kv))) d.
Definition lacks (c : N) (s : str) : bool := negb (existsb (N.eqb c) s).
Definition solidb (d : list (str * str)) (v : str) : bool :=
  match find_str [58%N] v with
  | Some (p, q) => foreignb d 58%N && lacks 125%N p && (lacks 36%N q || N.eqb (last v 0%N) 125%N)
  | None => false
  end.
Definition referenceb (k : str) : bool :=
  match k with
  | 36%N :: 123%N :: r => let n := removelast r in N.eqb (last r 0%N) 125%N && lacks 36%N n && lacks 123%N n && lacks 125%N n
  | _ => false
  end.
Definition mirrors_okb (d : list (str * str)) : bool :=
  forallb (fun kv => referenceb (fst kv) && solidb d (snd kv) && forallb (fun kv' => negb (contains (fst kv') (snd kv))) d) d.

Lemma lacks_spec : forall c s, lacks c s = true -> ~ In c s.
Proof.
  intros c s H K. unfold lacks in H. apply negb_true_iff in H. rewrite <- not_true_iff_false in H. apply H. apply existsb_exists.
  exists c. split; [exact K|apply N.eqb_refl].
Qed.
Lemma last_split : forall (l : str) a, last l a <> a -> l = removelast l ++ [last l a].
Proof. intros l a H. apply app_removelast_last. intros ->. now apply H. Qed.
Lemma mirrors_okb_sound : forall d, dedup_str (map fst d) = map fst d -> mirrors_okb d = true -> mirrors_ok d.
Proof.
  intros d Nd H. split; [rewrite <- Nd; apply dedup_str_NoDup|]. intros k v Hi. unfold mirrors_okb in H. rewrite forallb_forall in H.
  specialize (H (k, v) Hi). cbn [fst snd] in H. apply andb_true_iff in H. destruct H as [H Hn]. apply andb_true_iff in H. destruct H as [Hr Hs].
  split; [|split].
  - unfold referenceb in Hr. destruct k as [|a [|b r]]; try discriminate.
    { destruct a as [|p]; [discriminate|]. repeat (destruct p as [p|p|]; try discriminate). }
    assert (Ea : a = 36%N /\ b = 123%N /\ (N.eqb (last r 0%N) 125%N && lacks 36%N (removelast r) && lacks 123%N (removelast r) && lacks 125%N (removelast r)) = true).
    { destruct (N.eq_dec a 36) as [->|Na], (N.eq_dec b 123) as [->|Nb]; [now repeat split| | |]; exfalso; revert Hr.
      - destruct b as [|p]; [discriminate|]. repeat (destruct p as [p|p|]; try discriminate). now destruct Nb.
      - destruct a as [|p]; [discriminate|]. repeat (destruct p as [p|p|]; try discriminate). now destruct Na.
      - destruct a as [|p]; [discriminate|]. repeat (destruct p as [p|p|]; try discriminate). now destruct Na. }
    destruct Ea as (-> & -> & E). repeat rewrite andb_true_iff in E. destruct E as (((E1 & E2) & E3) & E4). apply N.eqb_eq in E1.
    exists (removelast r). split; [|split; [now apply lacks_spec|split; now apply lacks_spec]].
    rewrite <- E1. rewrite <- (last_split r 0%N); [reflexivity|]. rewrite E1. discriminate.
  - unfold solidb in Hs. destruct (find_str [58%N] v) as [[p q]|] eqn:F; [|discriminate]. apply find_str_some in F.
    repeat rewrite andb_true_iff in Hs. destruct Hs as ((S1 & S2) & S3).
    assert (F1 : foreign d 58%N).
    { intros k' v' Hi'. unfold foreignb in S1. rewrite forallb_forall in S1. exact (lacks_spec _ _ (S1 (k', v') Hi')). }
    split; [exists p, 58%N, q; split; [exact F|]; split; [now apply lacks_spec|exact F1]|].
    apply orb_true_iff in S3. destruct S3 as [S3|S3].
    + exists p, 58%N, q. split; [exact F|]. split; [now apply lacks_spec|now right].
    + apply N.eqb_eq in S3. exists (removelast v), 125%N, []. split; [|split; [intros []|now left]].
      rewrite <- S3. apply last_split. rewrite S3. discriminate.
  - intros k' v' a b Hi'. rewrite forallb_forall in Hn. specialize (Hn (k', v') Hi'). apply negb_true_iff in Hn.
    exact (proj1 (contains_false k' v) Hn a b).
Qed.

(** ** The mirrors that come with the package *)

Definition shipped_mirrors : list (str * str) := str_entries (mirrors_known const_default).
Lemma shipped_dedup : dedup_str (map fst shipped_mirrors) = map fst shipped_mirrors.
Proof. vm_compute. reflexivity. Qed.
Lemma shipped_okb : mirrors_okb shipped_mirrors = true.
Proof. vm_compute. reflexivity. Qed.
Lemma shipped_are : mirrors const_default shipped_mirrors.
Proof. unfold mirrors. vm_compute. reflexivity. Qed.
Lemma C132_shipped_lemma : exists d, mirrors const_default d /\ mirrors_ok d /\ length d = 20.
Proof.
  exists shipped_mirrors. split; [exact shipped_are|]. split; [|vm_compute; reflexivity].
  exact (mirrors_okb_sound shipped_mirrors shipped_dedup shipped_okb).
Qed.
