(** * The other cached methods: proofs *)

From Verif Require Import PyStr Regex Patterns PyPath Res Inline Const Item Lines Stash
  StrFacts ReachFacts Cache Spec_Cache Proofs_Cache Many Upper Spec_Upper.

(** ** One call of Cache.v *)

Lemma ids_of_steps : forall e nw neg db s, steps e (new_stash nw neg db) s -> ids_ok (st_list s).
Proof. intros e nw neg db s H. apply (reach_ids e). now exists nw, neg, db. Qed.

(** What is kept: a state reached from a new stash, tables that agree with it. *)
Definition good (e : env) (b : bool) (s : stash) (t : tables) : Prop :=
  (exists nw neg db, steps e (new_stash nw neg db) s) /\ fresh e s t /\ (b = true -> clean t).
Lemma good_ids : forall e b s t, good e b s t -> ids_ok (st_list s).
Proof. intros e b s t [(nw & neg & db & H) _]. now apply (ids_of_steps e nw neg db). Qed.

Lemma one_call : forall e b s t c cs, env_ok e -> served e b s (c :: cs) -> good e b s t ->
  exists b' s' t', call_c e c (s, t) = (fst (plain e c s), (s', t')) /\ snd (plain e c s) = s' /\
    served e b' s' cs /\ good e b' s' t' /\ (is_query c -> s' = s) /\ (clears e c false s = false -> s' = s).
Proof.
  intros e b s t c cs He H G. pose proof (good_ids _ _ _ _ G) as Hi. destruct G as [(nw & neg & db & Hs) [F B]].
  inversion H as [|b0 s0 cs0 n path off forced l s' E K Hn|b0 s0 cs0 n path off forced l s' E K Hn
                 |b0 s0 cs0 l Hl Hd Hn|b0 s0 cs0 l s' E Hn|s0 cs0 s' E Hn|b0 s0 cs0 c0 Hq Hc Hn]; subst; clear H.
  - assert (Ke : returns_early e path s = false)
      by (apply Bool.not_true_iff_false; now rewrite early_iff).
    exists true, s', (clear_cached t). cbn [call_c plain]. rewrite E, Ke. cbn [fst snd].
    split; [reflexivity|]. split; [reflexivity|]. split; [exact Hn|]. split.
    { split; [exists nw, neg, db; now apply (steps_add e _ n path off forced s (Ok l))|].
      split; [apply cleared|intros _; now exists t]. }
    split; [intros []|]. cbn [clears]. rewrite E. cbn [fst]. rewrite Ke. discriminate.
  - pose proof (proj2 (early_iff e path s) K) as Ke. pose proof (early_same _ _ _ _ _ _ _ _ E Ke). subst s'.
    exists b, s, t. cbn [call_c plain]. rewrite E, Ke. cbn [fst snd].
    split; [reflexivity|]. split; [reflexivity|]. split; [exact Hn|]. split; [|now split].
    split; [now exists nw, neg, db|now split].
  - exists true, (append_items l s), (clear_cached t). cbn [call_c plain fst snd].
    split; [reflexivity|]. split; [reflexivity|]. split; [exact Hn|]. split.
    { split; [exists nw, neg, db; now apply steps_append|]. split; [apply cleared|intros _; now exists t]. }
    split; [intros []|discriminate].
  - exists true, s', (clear_cached t). cbn [call_c plain]. rewrite E. cbn [fst snd].
    split; [reflexivity|]. split; [reflexivity|]. split; [exact Hn|]. split.
    { split; [exists nw, neg, db; now apply (steps_remove e _ l s (Ok tt))|]. split; [apply cleared|intros _; now exists t]. }
    split; [intros []|]. cbn [clears]. rewrite E. discriminate.
  - destruct (finalize_c e s t) as [r x] eqn:Ef.
    destruct (finalize_same e s t Hi (B eq_refl) _ _ Ef) as [E1 E2]. rewrite E in E1. injection E1 as <- E3.
    destruct (E2 eq_refl) as [t0 Et].
    exists true, s', (clear_cached t0). cbn [call_c plain]. rewrite E, Ef. cbn [fst snd].
    split; [rewrite E3, <- Et; now destruct x|]. split; [reflexivity|]. split; [exact Hn|]. split.
    { split; [exists nw, neg, db; now apply (steps_finalize e _ s (Ok tt))|]. split; [apply cleared|intros _; now exists t0]. }
    split; [intros []|]. cbn [clears]. rewrite E. discriminate.
  - destruct (query_ok e c s t He Hi F Hq Hc) as [t' [E1 [E2 F']]].
    exists false, s, t'. split; [exact E1|]. split; [exact E2|]. split; [exact Hn|].
    split; [|now split]. split; [now exists nw, neg, db|]. split; [exact F'|discriminate].
Qed.

(** ** The tables *)

Definition calm (e : env) (s : stash) (u : upper) : Prop :=
  (forall f p v, In ((f, p), v) (u_files u) -> v = get_files e s f p) /\
  (forall f b v, In ((f, b), v) (u_names u) -> valid_package_names e s f b = Ok v) /\
  (forall f v, In (f, v) (u_named u) -> v = valid_named_resources e s f).
Definition still_dynamic (e : env) (s : stash) (u : upper) : Prop :=
  (forall f v, In (f, v) (u_dynamic u) -> packages_dynamic e s f = Ok v) /\
  (forall f n b, In ((f, n), b) (u_is u) -> is_dynamic_package e s f n = Ok b).
Lemma calm_cleared : forall e s u, calm e s (clear_upper u).
Proof. intros e s u. repeat split; intros; contradiction. Qed.

Lemma key_two_iff : forall a b, key_two a b = true <-> a = b.
Proof.
  intros [a1 a2] [b1 b2]. unfold key_two. cbn [fst snd]. rewrite Bool.andb_true_iff, !str_eqb_eq.
  split; [intros [-> ->]; reflexivity|now injection 1].
Qed.
Lemma key_flag_iff : forall a b, key_flag a b = true <-> a = b.
Proof.
  intros [a1 a2] [b1 b2]. unfold key_flag. cbn [fst snd]. rewrite Bool.andb_true_iff, str_eqb_eq, Bool.eqb_true_iff.
  split; [intros [-> ->]; reflexivity|now injection 1].
Qed.
Lemma found : forall (K V : Type) (eqb : K -> K -> bool), (forall a b, eqb a b = true <-> a = b) ->
  forall k (t : list (K * V)) v, look eqb k t = Some v -> In (k, v) t.
Proof. intros K V eqb H k t v E. apply look_some in E. destruct E as [k' [E Hk]]. apply H in E. now subst k'. Qed.

(** ** Each method *)

Ltac kept H C := split; [reflexivity|]; split; [exact H|]; split; [exact C|].

Lemma vars_ok : forall e s f v t r t', ids_ok (st_list s) -> fresh e s t -> vars_u e s f v t = (r, t') ->
  r = vars_named e s f v /\ fresh e s t'.
Proof. intros e s f v t r t' Hi H E. now apply (items_ok e s (named_query f v) t r t'). Qed.
Lemma origins_ok : forall e s l t r t', ids_ok (st_list s) -> fresh e s t -> origins_u e s l t = (r, t') ->
  r = flat_map (fun x => get_items_for e s (MkQuery (Some (it_origin x)) ANone ANone ANone false)) l /\ fresh e s t'.
Proof.
  intros e s l. induction l as [|x l IH]; intros t r t' Hi H E; cbn [origins_u] in E; [injection E as <- <-; now split|].
  destruct (items_c e s (MkQuery (Some (it_origin x)) ANone ANone ANone false) t) as [a t1] eqn:E1.
  destruct (items_ok e s _ t a t1 Hi H E1) as [-> H1]. destruct (origins_u e s l t1) as [b t2] eqn:E2.
  destruct (IH t1 b t2 Hi H1 E2) as [-> H2]. injection E as <- <-. now split.
Qed.
Lemma map_flat : forall A B C (g : B -> C) (f : A -> list B) l, map g (flat_map f l) = flat_map (fun x => map g (f x)) l.
Proof. intros A B C g f l. induction l as [|x l IH]; [reflexivity|]. cbn [flat_map]. now rewrite map_app, IH. Qed.

Lemma files_ok : forall e s f p t u, ids_ok (st_list s) -> fresh e s t -> calm e s u ->
  exists t' u', files_u e s f p t u = (get_files e s f p, (t', u')) /\ fresh e s t' /\ calm e s u' /\
    u_dynamic u' = u_dynamic u /\ u_is u' = u_is u.
Proof.
  intros e s f p t u Hi H C. unfold files_u. pose proof C as (C1 & C2 & C3).
  destruct (look key_two (f, p) (u_files u)) as [v|] eqn:L.
  - apply (found _ _ _ key_two_iff) in L. apply C1 in L. subst v. exists t, u. kept H C. now split.
  - destruct (vars_u e s f "SRC_URI" t) as [uris t1] eqn:E1. destruct (vars_ok e s f _ t uris t1 Hi H E1) as [-> H1].
    destruct (origins_u e s _ t1) as [more t2] eqn:E2. destruct (origins_ok e s _ t1 more t2 Hi H1 E2) as [-> H2].
    rewrite map_flat. exists t2. eexists. split; [reflexivity|]. split; [exact H2|].
    split; [|now split]. split; [|now split]. intros f0 p0 v [X|X]; [|now apply C1]. now injection X as <- <- <-.
Qed.
Lemma names_ok_ : forall e s f b t u, ids_ok (st_list s) -> fresh e s t -> calm e s u ->
  exists t' u', names_u e s f b t u = (valid_package_names e s f b, (t', u')) /\ fresh e s t' /\ calm e s u' /\
    u_dynamic u' = u_dynamic u /\ u_is u' = u_is u.
Proof.
  intros e s f b t u Hi H C. unfold names_u. pose proof C as (C1 & C2 & C3).
  destruct (look key_flag (f, b) (u_names u)) as [v|] eqn:L.
  - apply (found _ _ _ key_flag_iff) in L. apply C2 in L. rewrite L. exists t, u. kept H C. now split.
  - destruct (vars_u e s f "PACKAGES" t) as [l1 t1] eqn:E1. destruct (vars_ok e s f _ t l1 t1 Hi H E1) as [-> H1].
    destruct (vars_u e s f "PACKAGE_BEFORE_PN" t1) as [l2 t2] eqn:E2. destruct (vars_ok e s f _ t1 l2 t2 Hi H1 E2) as [-> H2].
    fold (valid_package_names e s f b). exists t2. eexists. split; [reflexivity|]. split; [exact H2|].
    remember (valid_package_names e s f b) as r eqn:Er. destruct r as [v|x|]; [|split; [exact C|now split]..].
    split; [|now split]. split; [exact C1|]. split; [|exact C3].
    intros f0 b0 w [X|X]; [|now apply C2]. injection X as <- <- <-. now symmetry.
Qed.
Lemma named_ok : forall e s f t u, ids_ok (st_list s) -> fresh e s t -> calm e s u ->
  exists t' u', named_u e s f t u = (valid_named_resources e s f, (t', u')) /\ fresh e s t' /\ calm e s u' /\
    u_dynamic u' = u_dynamic u /\ u_is u' = u_is u.
Proof.
  intros e s f t u Hi H C. unfold named_u. pose proof C as (C1 & C2 & C3).
  destruct (look str_eqb f (u_named u)) as [v|] eqn:L.
  - apply (found _ _ _ str_eqb_eq) in L. apply C3 in L. subst v. exists t, u. kept H C. now split.
  - destruct (vars_u e s f "SRC_URI" t) as [uris t1] eqn:E1. destruct (vars_ok e s f _ t uris t1 Hi H E1) as [-> H1].
    exists t1. eexists. split; [reflexivity|]. split; [exact H1|].
    split; [|now split]. split; [exact C1|]. split; [exact C2|]. intros f0 v [X|X]; [|now apply C3]. now injection X as <- <-.
Qed.
Lemma dynamic_ok : forall e s f t u, ids_ok (st_list s) -> fresh e s t -> calm e s u -> still_dynamic e s u ->
  exists t' u', dynamic_u e s f t u = (packages_dynamic e s f, (t', u')) /\ fresh e s t' /\ calm e s u' /\ still_dynamic e s u'.
Proof.
  intros e s f t u Hi H C D. unfold dynamic_u. pose proof D as (D1 & D2).
  destruct (look str_eqb f (u_dynamic u)) as [v|] eqn:L.
  - apply (found _ _ _ str_eqb_eq) in L. apply D1 in L. rewrite L. exists t, u. kept H C. exact D.
  - destruct (vars_u e s f "PACKAGES_DYNAMIC" t) as [l1 t1] eqn:E1. destruct (vars_ok e s f _ t l1 t1 Hi H E1) as [-> H1].
    fold (packages_dynamic e s f). exists t1. eexists. split; [reflexivity|]. split; [exact H1|].
    remember (packages_dynamic e s f) as r eqn:Er. destruct r as [v|x|]; [|now split|now split].
    split; [exact C|]. split; [|exact D2].
    intros f0 w [X|X]; [|now apply D1]. injection X as <- <-. now symmetry.
Qed.
Lemma any_same : forall n l, any_pattern n l =
  (fix go (l : list str) : Res.res bool :=
     match l with
     | [] => Ok false
     | p :: r => match dyn_pattern p with
                 | None => Raise RegexUnsupported
                 | Some rx => if matched (re_match rx n) then Ok true else go r
                 end
     end) l.
Proof.
  intros n l. induction l as [|p r IH]; [reflexivity|]. cbn [any_pattern]. destruct (dyn_pattern p); [|reflexivity].
  destruct (matched _); [reflexivity|exact IH].
Qed.
Lemma is_dynamic_eq : forall e s f n, is_dynamic_package e s f n =
  (do x <- expand_term e s f n; do ps <- packages_dynamic e s f; any_pattern x (e_sset e ps)).
Proof.
  intros e s f n. unfold is_dynamic_package. destruct (expand_term e s f n) as [x|x|]; cbn [bind]; try reflexivity.
  destruct (packages_dynamic e s f) as [ps|y|]; cbn [bind]; try reflexivity. now rewrite any_same.
Qed.
Lemma is_dynamic_ok : forall e s f n t u, ids_ok (st_list s) -> fresh e s t -> calm e s u -> still_dynamic e s u ->
  exists t' u', is_dynamic_u e s f n t u = (is_dynamic_package e s f n, (t', u')) /\ fresh e s t' /\ calm e s u' /\ still_dynamic e s u'.
Proof.
  intros e s f n t u Hi H C D. unfold is_dynamic_u.
  destruct (look key_two (f, n) (u_is u)) as [v|] eqn:L.
  - apply (found _ _ _ key_two_iff) in L. apply D in L. rewrite L. exists t, u. kept H C. exact D.
  - pose proof (is_dynamic_eq e s f n) as Q.
    destruct (expand_term e s f n) as [x|x|]; cbn [bind] in Q; [|rewrite Q; exists t, u; kept H C; exact D..].
    destruct (dynamic_ok e s f t u Hi H C D) as (t1 & u1 & E & H1 & C1 & D1). rewrite E.
    destruct (packages_dynamic e s f) as [ps|y|] eqn:P; cbn [bind] in Q; [|rewrite Q; exists t1, u1; kept H1 C1; exact D1..].
    rewrite <- Q. exists t1. eexists. split; [reflexivity|]. split; [exact H1|].
    remember (is_dynamic_package e s f n) as r eqn:Er. destruct r as [v|y|]; [|now split|now split].
    split; [exact C1|]. split; [exact (proj1 D1)|]. intros f0 n0 w [X|X]; [|now apply (proj2 D1)].
    injection X as <- <- <-. now symmetry.
Qed.

(** ** Sequences of calls *)

Lemma upper_query : forall e b s t cs q, served e b s (CItems q :: cs) -> good e b s t -> served e false s cs.
Proof. intros e b s t cs q H _. now inversion H; subst. Qed.
Lemma good_kept : forall e b s t t', good e b s t -> fresh e s t' -> good e false s t'.
Proof. intros e b s t t' [R _] F. split; [exact R|]. split; [exact F|discriminate]. Qed.

Lemma C102_steps : forall e cs b s t u, env_ok e -> served e b s (map counts_as cs) -> good e b s t -> calm e s u ->
  dynamic_last cs -> (u_dynamic u = [] /\ u_is u = [] \/ (still_dynamic e s u /\ forall x, In x cs -> is_query (counts_as x))) ->
  fst (ucalls_c e cs (s, (t, u))) = fst (uplain_calls e cs s).
Proof.
  intros e cs. induction cs as [|c cs IH]; intros b s t u He Hs G C DL D; [reflexivity|].
  assert (DL' : dynamic_last cs).
  { intros a x y E. apply (DL (c :: a) x y). rewrite E. reflexivity. }
  pose proof (good_ids _ _ _ _ G) as Hi. pose proof (proj1 (proj2 G)) as F.
  assert (SD : still_dynamic e s u).
  { destruct D as [[D1 D2]|[D _]]; [|exact D]. split; rewrite ?D1, ?D2; intros; contradiction. }
  assert (Go : forall a t' u', ucall_c e c (s, (t, u)) = (a, (s, (t', u'))) -> uplain e c s = (a, s) ->
     (exists q, counts_as c = CItems q) -> fresh e s t' -> calm e s u' ->
     (u_dynamic u' = [] /\ u_is u' = [] \/ (still_dynamic e s u' /\ forall x, In x cs -> is_query (counts_as x))) ->
     fst (ucalls_c e (c :: cs) (s, (t, u))) = fst (uplain_calls e (c :: cs) s)).
  { intros a t' u' E1 E2 [q Eq] F' C' D'. cbn [ucalls_c uplain_calls]. rewrite E1, E2.
    cbn [map] in Hs. rewrite Eq in Hs.
    pose proof (IH false s t' u' He (upper_query _ _ _ _ _ _ Hs G) (good_kept _ _ _ _ _ G F') C' DL' D') as Q.
    destruct (ucalls_c e cs (s, (t', u'))) as [l x2]. destruct (uplain_calls e cs s) as [l' s2]. cbn [fst] in *. now rewrite Q. }
  assert (Dk : forall u', u_dynamic u' = u_dynamic u -> u_is u' = u_is u ->
     u_dynamic u' = [] /\ u_is u' = [] \/ (still_dynamic e s u' /\ forall x, In x cs -> is_query (counts_as x))).
  { intros u' E1 E2. destruct D as [[D1 D2]|[D1 D2]]; [left; split; congruence|right].
    split; [unfold still_dynamic; rewrite E1, E2; exact D1|]. intros x Hx. apply D2. now right. }
  destruct c as [c|f p|f p|f|f|f n].
  - cbn [ucalls_c ucall_c uplain_calls uplain]. cbn [map counts_as] in Hs.
    destruct (one_call e b s t c (map counts_as cs) He Hs G) as (b' & s' & t' & E1 & E2 & Hs' & G' & Q1 & Q2).
    rewrite E1. destruct (plain e c s) as [a s1] eqn:Ep. cbn [fst snd] in *. subst s1.
    set (u' := if clears e c false s then clear_upper u else u).
    assert (C' : calm e s' u').
    { unfold u'. destruct (clears e c false s) eqn:K; [apply calm_cleared|]. now rewrite Q2. }
    assert (Eu : u_dynamic u' = u_dynamic u /\ u_is u' = u_is u) by (unfold u'; now destruct (clears e c false s)).
    assert (D' : u_dynamic u' = [] /\ u_is u' = [] \/ (still_dynamic e s' u' /\ forall x, In x cs -> is_query (counts_as x))).
    { destruct D as [[D1 D2]|[D1 D2]]; [left; destruct Eu as [-> ->]; now split|right].
      split; [|intros x Hx; apply D2; now right]. unfold still_dynamic. destruct Eu as [-> ->].
      assert (Hc : s' = s) by (apply Q1, (D2 (UBase c)); now left). now rewrite Hc. }
    pose proof (IH b' s' t' u' He Hs' G' C' DL' D') as Q.
    destruct (ucalls_c e cs (s', (t', u'))) as [l x2]. destruct (uplain_calls e cs s') as [l' s2]. cbn [fst] in *. now rewrite Q.
  - destruct (files_ok e s f p t u Hi F C) as (t' & u' & E & F' & C' & U1 & U2).
    eapply (Go _ t' u'); [cbn [ucall_c]; rewrite E; reflexivity|reflexivity|now eexists|exact F'|exact C'|now apply Dk].
  - destruct (names_ok_ e s f p t u Hi F C) as (t' & u' & E & F' & C' & U1 & U2).
    eapply (Go _ t' u'); [cbn [ucall_c]; rewrite E; reflexivity|reflexivity|now eexists|exact F'|exact C'|now apply Dk].
  - destruct (named_ok e s f t u Hi F C) as (t' & u' & E & F' & C' & U1 & U2).
    eapply (Go _ t' u'); [cbn [ucall_c]; rewrite E; reflexivity|reflexivity|now eexists|exact F'|exact C'|now apply Dk].
  - destruct (dynamic_ok e s f t u Hi F C SD) as (t' & u' & E & F' & C' & S').
    eapply (Go _ t' u'); [cbn [ucall_c]; rewrite E; reflexivity|reflexivity|now eexists|exact F'|exact C'|].
    right. split; [exact S'|]. intros x Hx. now apply (DL [] (UDynamic f) cs).
  - destruct (is_dynamic_ok e s f n t u Hi F C SD) as (t' & u' & E & F' & C' & S').
    eapply (Go _ t' u'); [cbn [ucall_c]; rewrite E; reflexivity|reflexivity|now eexists|exact F'|exact C'|].
    right. split; [exact S'|]. intros x Hx. now apply (DL [] (UIsDynamic f n) cs).
Qed.

Lemma C102_lemma : forall e nw neg db cs, env_ok e -> userved e (new_stash nw neg db) cs -> dynamic_last cs ->
  fst (ucalls_c e cs (new_stash nw neg db, (no_tables, no_upper))) = fst (uplain_calls e cs (new_stash nw neg db)).
Proof.
  intros e nw neg db cs He Hs DL. apply (C102_steps e cs true _ no_tables no_upper He Hs); [|apply (calm_cleared e _ no_upper)|exact DL|now left].
  split; [exists nw, neg, db; apply steps_refl|]. split; [apply (cleared e _ no_tables)|]. intros _. now exists no_tables.
Qed.
