(** * Inline code in texts: facts *)

From Verif Require Import PyStr Regex UniTable Patterns Inline Item Lines Stash
  StrFacts ReFacts LinesFacts NameFacts Spec_Parse Spec_Inline InlineEval.

(** ** Quiet texts *)

Lemma quiet_nil : quiet [].
Proof. split; [intros [a [b E]]; destruct a; discriminate|]. split; intros q E; destruct q; discriminate. Qed.

(** No block begins in a quiet text, whatever follows. *)
Lemma quiet_start : forall p t u v x, quiet p -> p = u ++ v -> v <> [] -> v ++ t <> "${@" ++ x.
Proof.
  intros p t u v x [H1 [H2 H3]] E Hv H.
  destruct v as [|c1 v]; [congruence|]. cbn [app] in H. inversion H as [[E1 H']]. subst c1.
  destruct v as [|c2 v]; [exact (H2 u E)|]. cbn [app] in H'. inversion H' as [[E2 H'']]. subst c2.
  destruct v as [|c3 v]; [exact (H3 u E)|]. cbn [app] in H''. inversion H'' as [[E3 H3']]. subst c3.
  apply H1. exists u, v. exact E.
Qed.

Lemma quiet_free : forall p t, quiet p -> ~ occurs "${@" t -> ~ occurs "${@" (p ++ t).
Proof.
  intros p t Hp Ht [a [b E]].
  apply app_eq_app in E. destruct E as [l [[E1 E2]|[E1 E2]]].
  - destruct l as [|c l].
    + cbn in E2. apply Ht. exists [], b. now rewrite <- E2.
    + apply (quiet_start p t a (c :: l) b Hp E1); [discriminate|now rewrite <- E2].
  - apply Ht. exists l, b. exact E2.
Qed.

Lemma quiet_app : forall p q, quiet p -> quiet q -> quiet (p ++ q).
Proof.
  intros p q Hp Hq. split; [|split].
  - apply quiet_free; [exact Hp|apply Hq].
  - intros x E. destruct q as [|c q] using rev_ind; [rewrite app_nil_r in E; now apply Hp in E|].
    rewrite app_assoc in E. apply app_inj_tail in E. destruct E as [_ ->]. now apply (proj1 (proj2 Hq) q).
  - intros x E. destruct q as [|c q _] using rev_ind; [rewrite app_nil_r in E; now apply Hp in E|].
    destruct q as [|d q _] using rev_ind.
    + change (x ++ "${") with (x ++ "$" ++ "{") in E. cbn [app] in E. change (p ++ [c] = x ++ ("$" ++ "{")) in E.
      rewrite (app_assoc x) in E. apply app_inj_tail in E.
      destruct E as [E _]. now apply (proj1 (proj2 Hp) x).
    + change (x ++ "${") with (x ++ "$" ++ "{") in E. rewrite (app_assoc x), app_assoc in E. apply app_inj_tail in E.
      destruct E as [E ->]. rewrite app_assoc in E. apply app_inj_tail in E. destruct E as [_ ->].
      apply (proj2 (proj2 Hq) q). now rewrite <- app_assoc.
Qed.

Lemma quiet_end : forall p c, ~ occurs "${@" (p ++ [c]) -> c <> 36%N -> c <> 123%N -> quiet (p ++ [c]).
Proof.
  intros p c H H1 H2. split; [exact H|]. split; intros q E.
  - apply app_inj_tail in E. destruct E as [_ E]. congruence.
  - change (q ++ "${") with (q ++ "$" ++ "{") in E. rewrite (app_assoc q) in E. apply app_inj_tail in E.
    destruct E as [_ E]. congruence.
Qed.

Lemma occurs_cons : forall x c s, (forall t, c :: s <> x ++ t) -> ~ occurs x s -> ~ occurs x (c :: s).
Proof.
  intros x c s H H2 [a [b E]]. destruct a as [|d a]; [now apply (H b)|]. inversion E; subst. apply H2. now exists a, b.
Qed.

Lemma body_quiet : forall body, ~ occurs "${@" body -> quiet (body ++ "}").
Proof.
  intros body H. apply quiet_end; [|discriminate|discriminate]. intros [a [b E]].
  destruct b as [|c b _] using rev_ind.
  - change (a ++ "${@" ++ []) with (a ++ "${" ++ "@") in E. rewrite (app_assoc a) in E. apply app_inj_tail in E.
    destruct E as [_ E]. discriminate.
  - rewrite !app_assoc in E. apply app_inj_tail in E. destruct E as [E _]. apply H. exists a, b. now rewrite <- app_assoc in E.
Qed.

Lemma block_tail : forall b, block b -> exists q, b = 36%N :: q /\ quiet q.
Proof.
  intros b [body [-> [_ H]]]. exists ("{@" ++ body ++ "}"). split; [reflexivity|].
  pose proof (body_quiet body H) as [Q1 [Q2 Q3]].
  assert (F : ~ occurs "${@" (("{@" ++ body) ++ "}")).
  { rewrite <- app_assoc. apply occurs_cons; [intros t E; discriminate|]. apply occurs_cons; [intros t E; discriminate|]. exact Q1. }
  rewrite app_assoc. now apply quiet_end.
Qed.

(** ** Balance *)
Lemma balanced_scope : forall s, balanced s -> forall level t, (0 <= level)%Z ->
  scope_loop level (s ++ t) = s ++ scope_loop level t.
Proof.
  induction 1 as [|c s H1 H2 Hs IH|a s Ha IHa Hs IH]; intros level t Hl; [reflexivity| |].
  - cbn [app scope_loop]. apply N.eqb_neq in H1, H2. rewrite H1, H2.
    destruct (Z.ltb_spec level 0) as [|_]; [lia|]. f_equal. now apply IH.
  - change (("{" ++ a ++ "}" ++ s) ++ t) with (123%N :: (a ++ "}" ++ s) ++ t).
    cbn [scope_loop]. change (N.eqb 123 123) with true. cbn iota.
    destruct (Z.ltb_spec (level + 1) 0) as [|_]; [lia|].
    change ("{" ++ a ++ "}" ++ s) with (123%N :: a ++ "}" ++ s). cbn [app]. f_equal.
    rewrite <- !app_assoc. rewrite IHa by lia. f_equal. cbn [app scope_loop].
    change (N.eqb 125 123) with false. change (N.eqb 125 125) with true. cbn iota.
    destruct (Z.ltb_spec (level + 1 - 1) 0) as [|_]; [lia|]. f_equal.
    replace (level + 1 - 1)%Z with level by lia. now apply IH.
Qed.

Lemma block_scope : forall b t, block b -> get_full_scope (b ++ t) 3 = b.
Proof.
  intros b t [body [-> [H _]]]. unfold get_full_scope.
  change (("${@" ++ body ++ "}") ++ t) with ("${@" ++ ((body ++ "}") ++ t)). rewrite <- app_assoc.
  cbn [app firstn skipn]. do 3 f_equal. rewrite balanced_scope by (assumption || lia). reflexivity.
Qed.
Lemma block_unique : forall b b' t t', block b -> block b' -> b ++ t = b' ++ t' -> b = b'.
Proof. intros b b' t t' H H' E. rewrite <- (block_scope b t H), E. now apply block_scope. Qed.
Lemma block_start : forall b, block b -> exists x, b = "${@" ++ x.
Proof. intros b [body [-> _]]. eexists. reflexivity. Qed.
Lemma block_ne : forall b, block b -> b <> [].
Proof. intros b [body [-> _]]. discriminate. Qed.

(** ** Replacing a block *)
Lemma replace_skip : forall old new p t, old <> [] ->
  (forall u v, p = u ++ v -> v <> [] -> startswith old (v ++ t) = false) ->
  replace old new (p ++ t) = p ++ replace old new t.
Proof.
  intros old new p t Ho H. rewrite !replace_eq by exact Ho. induction p as [|c p IH]; [reflexivity|].
  cbn [app]. rewrite replace_go_eq by exact Ho. change (c :: p ++ t) with ((c :: p) ++ t).
  rewrite (H [] (c :: p) eq_refl) by discriminate. cbn [app]. f_equal. apply IH.
  intros u v E Hv. apply (H (c :: u) v); [now rewrite E|exact Hv].
Qed.
Lemma quiet_skip : forall b new p t, block b -> quiet p -> replace b new (p ++ t) = p ++ replace b new t.
Proof.
  intros b new p t Hb Hp. apply replace_skip; [now apply block_ne|]. intros u v E Hv.
  destruct (startswith b (v ++ t)) eqn:S; [|reflexivity]. apply startswith_spec in S. destruct S as [x S].
  destruct (block_start b Hb) as [y Hy]. exfalso. apply (quiet_start p t u v (y ++ x) Hp E Hv).
  rewrite S, Hy, <- app_assoc. reflexivity.
Qed.
Lemma block_hit : forall b new t, block b -> replace b new (b ++ t) = new ++ replace b new t.
Proof. intros b new t Hb. apply (replace_hit b new [] t); [now apply block_ne|]. intros a1 a2 E. destruct a1, a2; try discriminate. congruence. Qed.
Lemma block_miss : forall b b' new t, block b -> block b' -> b <> b' -> replace b new (b' ++ t) = b' ++ replace b new t.
Proof.
  intros b b' new t Hb Hb' Hn. destruct (block_tail b' Hb') as [q [E Hq]].
  rewrite (replace_skip b new b' t); [reflexivity|now apply block_ne|]. intros u v E2 Hv.
  destruct (startswith b (v ++ t)) eqn:S; [|reflexivity]. apply startswith_spec in S. destruct S as [x S]. exfalso.
  destruct u as [|c u].
  - cbn in E2. subst v. apply Hn. symmetry. now apply (block_unique b' b t x).
  - rewrite E in E2. inversion E2 as [[E3 E4]]. destruct (block_start b Hb) as [y Hy].
    apply (quiet_start q t u v (y ++ x) Hq E4 Hv). rewrite S, Hy, <- app_assoc. reflexivity.
Qed.

(** ** Texts being evaluated *)
Lemma str_dec : forall a b : str, {a = b} + {a <> b}.
Proof. exact (list_eq_dec N.eq_dec). Qed.

Section Texts.
  Context (neg : bool) (rest : str) (Hrest : ~ occurs "${@" rest).
  Notation res := (shows neg).

  Definition good (l : list (str * str)) : Prop :=
    Forall (fun pb => quiet (fst pb) /\ block (snd pb) /\ quiet (res (snd pb))) l.
  (** With the blocks in [D] done. *)
  Definition half (D : list str) (b : str) : str := if in_dec str_dec b D then res b else b.

  Lemma half_step : forall D b l, good l -> block b -> ~ In b D ->
    replace b (res b) (written (put (half D) l) rest) = written (put (half (b :: D)) l) rest.
  Proof.
    intros D b l Hl Hb HD. induction Hl as [|[p b'] l [Hp [Hb' Hq]] Hl IH]; cbn [put map written fst snd] in *.
    - apply replace_none; [now apply block_ne|]. apply contains_false. intros x y E. apply Hrest.
      destruct (block_start b Hb) as [z Hz]. exists x, (z ++ y). rewrite E, Hz, <- app_assoc. reflexivity.
    - rewrite quiet_skip by assumption. f_equal. unfold half at 1 3. destruct (in_dec str_dec b' D) as [I|I].
      + destruct (in_dec str_dec b' (b :: D)) as [_|X]; [|exfalso; apply X; now right].
        rewrite quiet_skip by assumption. f_equal. exact IH.
      + destruct (in_dec str_dec b' (b :: D)) as [[->|X]|X].
        * rewrite block_hit by assumption. f_equal. exact IH.
        * contradiction.
        * rewrite block_miss; [f_equal; exact IH|assumption|assumption|]. intros ->. apply X. now left.
  Qed.

  (** The recorded blocks. *)
  Fixpoint fresh (D : list str) (l : list (str * str)) : list (str * str) :=
    match l with
    | [] => []
    | (_, b) :: r => if in_dec str_dec b D then fresh D r else (b, res b) :: fresh (b :: D) r
    end.

  Lemma step_at : forall A b t, quiet A -> block b ->
    inline_step neg (A ++ b ++ t) = Some (replace b (res b) (A ++ b ++ t), (b, res b)).
  Proof.
    intros A b t HA Hb. unfold inline_step. destruct (block_start b Hb) as [x Hx].
    destruct (find_str "${@" (A ++ b ++ t)) as [[pre post]|] eqn:E.
    - assert (P : pre = A).
      { pose proof (find_str_first _ _ _ _ E A (x ++ t)) as L. rewrite Hx in L. rewrite <- app_assoc in L. specialize (L eq_refl).
        apply find_str_some in E. apply app_eq_app in E. destruct E as [z [[E1 E2]|[E1 E2]]].
        - destruct z as [|c z]; [now rewrite app_nil_r in E1|]. exfalso.
          apply (quiet_start A (b ++ t) pre (c :: z) post HA E1); [discriminate|now rewrite <- E2].
        - rewrite E1, app_length in L. destruct z; [now rewrite app_nil_r in E1|cbn in L; lia]. }
      subst pre. rewrite skipn_app, skipn_all, Nat.sub_diag. cbn [app skipn]. rewrite block_scope by exact Hb. reflexivity.
    - exfalso. pose proof (find_str_none _ _ E) as X. apply (X A (x ++ t)). rewrite Hx, <- app_assoc. reflexivity.
  Qed.

  Lemma evaluated : forall l A D d k raw out bs acc, good l -> quiet A ->
    raw = A ++ written (put (half D) l) rest ->
    inline_outer d neg k raw acc = Some (out, bs) ->
    out = A ++ written (put res l) rest /\ bs = rev acc ++ fresh D l.
  Proof.
    induction l as [|[p b] l IH]; intros A D d k raw out bs acc Hl HA E H.
    - cbn [put map written fresh] in *. rewrite inline_outer_eq in H.
      assert (N : inline_step neg raw = None).
      { apply inline_step_none. apply contains_false. intros x y E2. apply (quiet_free A rest HA Hrest).
        exists x, y. now rewrite <- E. }
      rewrite N in H. inversion H; subst. now rewrite app_nil_r.
    - inversion Hl as [|? ? [Hp [Hb Hq]] Hl']; subst. cbn [put map written fst snd fresh] in *. cbn [fst snd] in Hp, Hb, Hq.
      unfold half at 1 in H. destruct (in_dec str_dec b D) as [I|I].
      + destruct (IH (A ++ p ++ res b) D d k _ out bs acc Hl' ltac:(now repeat apply quiet_app) eq_refl) as [E1 E2].
        * rewrite <- !app_assoc. exact H.
        * split; [|exact E2]. rewrite E1, <- !app_assoc. reflexivity.
      + rewrite inline_outer_eq in H.
        assert (S : A ++ p ++ b ++ written (put (half D) l) rest = (A ++ p) ++ b ++ written (put (half D) l) rest) by (now rewrite <- app_assoc).
        change (map (fun pb : str * str => (fst pb, half D (snd pb))) l) with (put (half D) l) in H.
        rewrite S, step_at in H by (try apply quiet_app; assumption).
        assert (R : replace b (res b) ((A ++ p) ++ b ++ written (put (half D) l) rest)
                    = (A ++ p ++ res b) ++ written (put (half (b :: D)) l) rest).
        { rewrite quiet_skip by (try apply quiet_app; assumption). rewrite block_hit by assumption.
          rewrite half_step by assumption. now rewrite <- !app_assoc. }
        assert (G : exists d' k', inline_outer d' neg k' ((A ++ p ++ res b) ++ written (put (half (b :: D)) l) rest) ((b, res b) :: acc) = Some (out, bs)).
        { rewrite R in H. match type of H with (if ?c then _ else _) = _ => destruct c end.
          - destruct d as [|d]; [discriminate|]. eexists; eexists; exact H.
          - destruct k as [|k]; [discriminate|]. eexists; eexists; exact H. }
        destruct G as [d' [k' G]].
        destruct (IH (A ++ p ++ res b) (b :: D) d' k' _ out bs _ Hl' ltac:(now repeat apply quiet_app) eq_refl G) as [E1 E2].
        split.
        * rewrite E1, <- !app_assoc. reflexivity.
        * rewrite E2. cbn [rev]. rewrite <- app_assoc. reflexivity.
  Qed.

  Lemma half_nil : forall l, put (half []) l = l.
  Proof.
    intro l. unfold put. rewrite <- (map_id l) at 2. apply map_ext. intros [p b]. unfold half.
    destruct (in_dec str_dec b []) as [[]|_]. reflexivity.
  Qed.

  Lemma blocks_written : forall l, good l ->
    inline_blocks_of neg (written l rest) = Some (written (put res l) rest, fresh [] l).
  Proof.
    intros l Hl. destruct (inline_blocks_total neg (written l rest)) as [out [bs [H _]]]. unfold inline_blocks_of in H.
    pose proof (evaluated l [] [] (count_char 36 (written l rest)) (length (written l rest)) (written l rest) out bs [] Hl quiet_nil) as E.
    rewrite half_nil in E. destruct (E eq_refl H) as [E1 E2]. unfold inline_blocks_of. rewrite H. cbn [app rev] in E1, E2. now rewrite E1, E2.
  Qed.

  Lemma fresh_nodup : forall l D, NoDup (map snd l) -> (forall b, In b (map snd l) -> ~ In b D) ->
    fresh D l = map (fun pb => (snd pb, res (snd pb))) l.
  Proof.
    induction l as [|[p b] l IH]; intros D Hn HD; cbn [fresh map snd] in *; [reflexivity|].
    inversion Hn as [|? ? H1 H2]; subst. destruct (in_dec str_dec b D) as [I|I]; [exfalso; apply (HD b); [now left|exact I]|].
    f_equal. apply IH; [exact H2|]. intros x Hx [<-|Hx2]; [contradiction|]. apply (HD x); [now right|exact Hx2].
  Qed.
End Texts.
