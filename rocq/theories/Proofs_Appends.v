(** * Several bbappends: proofs *)

From Verif Require Import Props_Items.
From Verif Require Import PyStr Regex UniTable Patterns PyPath Res Inline Const Item Lines Stash
  StrFacts ReFacts ItemFacts LinesFacts NameFacts ParseFacts OffsetFacts HistFacts ReachFacts QueryFacts MapFacts AppendFacts Spec_Parse
  Spec_Query Proofs_Query Spec_Const Proofs_Const Spec_Files Proofs_Files Spec_Group Proofs_Group Spec_Func Proofs_Func Proofs_Inline Props_Lines
  Spec_Access Proofs_Access Spec_Expand VarFacts Proofs_Expand Spec_Recipe Proofs_Recipe Proofs_Values Proofs_Parts Proofs_Shows
  Spec_Include IncludeFacts Proofs_Include Spec_Compose Proofs_Compose Spec_Appends.
From Coq Require Import Permutation Sorted.

(** ** Merging *)

Lemma sorted_head : forall L x, StronglySorted strictly L -> In x L -> exists y L', L = y :: L' /\ (x = y \/ strictly y x).
Proof.
  intros [|y L] x H Hx; [destruct Hx|]. exists y, L. split; [reflexivity|]. inversion H as [|? ? H1 H2]; subst. rewrite Forall_forall in H2.
  destruct Hx as [Hx|Hx]; [now left|right; now apply H2].
Qed.
Lemma merged_sorted : forall R Ls, StronglySorted by_line R -> NoDup R -> Forall (StronglySorted strictly) Ls ->
  NoDup (concat Ls) -> (forall i, In i R <-> In i (concat Ls)) -> merged Ls R.
Proof.
  induction R as [|x R IH]; intros Ls HR NR HL NL HI.
  - apply merged_none. apply Forall_forall. intros L HIn. destruct L as [|y L]; [reflexivity|]. exfalso.
    apply (HI y). apply in_concat. exists (y :: L). split; [exact HIn|now left].
  - assert (Hx : In x (concat Ls)) by (apply HI; now left). apply in_concat in Hx. destruct Hx as (L & HL1 & HL2).
    pose proof (proj1 (Forall_forall _ _) HL L HL1) as SL. destruct (sorted_head L x SL HL2) as (y & L' & -> & Hy).
    inversion HR as [|? ? HR1 HR2]; subst. inversion NR as [|? ? NR1 NR2]; subst. rewrite Forall_forall in HR2.
    assert (E : x = y).
    { destruct Hy as [Hy|Hy]; [exact Hy|]. assert (In y (x :: R)) as [Q|Q]; [|exact Q|].
      - apply HI. apply in_concat. exists (y :: L'). split; [exact HL1|now left].
      - apply HR2 in Q. unfold strictly, by_line in *. lia. }
    subst y. apply in_split in HL1. destruct HL1 as (a & b & ->). apply merged_next. rewrite concat_app in NL, HI. cbn [concat List.app] in NL, HI.
    apply NoDup_remove in NL. destruct NL as [NL1 NL2]. apply IH; auto.
    + apply Forall_app in HL. destruct HL as [HL1 HL3]. inversion HL3 as [|? ? HL4 HL5]; subst. apply Forall_app. split; [exact HL1|].
      constructor; [now inversion HL4|exact HL5].
    + rewrite concat_app. cbn [concat]. exact NL1.
    + intro i. rewrite concat_app. cbn [concat]. specialize (HI i). cbn [In] in HI. rewrite !in_app_iff in *. cbn [In] in HI. rewrite !in_app_iff in *.
      split.
      * intro Hi. destruct (proj1 HI (or_intror Hi)) as [Q|[Q|Q]]; auto. subst i. contradiction.
      * intro Hi. destruct (proj2 HI ltac:(tauto)) as [Q|Q]; [|exact Q]. subst i. now destruct NL2.
Qed.
Lemma merged_pairs : forall A B (P : A -> B -> Prop) Ls R, merged Ls R -> forall css, Forall2 (Forall2 P) css Ls ->
  exists k, merged css k /\ Forall2 P k R.
Proof.
  intros A B P Ls R H. induction H as [ls H|a x l b k H IH]; intros css F.
  - exists []. split; [|constructor]. apply merged_none. rewrite Forall_forall in *. induction F as [|c L css ls F1 F IH]; intros c0 Hc; [destruct Hc|].
    destruct Hc as [<-|Hc].
    + rewrite <- (H L) in F1 by now left. now inversion F1.
    + apply IH; [|exact Hc]. intros L0 HL. apply H. now right.
  - apply Forall2_app_inv_r in F. destruct F as (ca & cb & Fa & Fb & ->). inversion Fb as [|c ? cb' ? F1 F2]; subst.
    inversion F1 as [|y ? c' ? Fy F3]; subst. destruct (IH (ca ++ c' :: cb')) as (k' & M & Fk).
    { apply Forall2_app; [exact Fa|]. now constructor. }
    exists (y :: k'). split; [now apply merged_next|now constructor].
Qed.

Lemma Forall2_imp : forall A B (P Q : A -> B -> Prop) l k, (forall a b, P a b -> Q a b) -> Forall2 P l k -> Forall2 Q l k.
Proof. intros A B P Q l k H F. induction F; constructor; auto. Qed.
Lemma sorted_first : forall l0 (M R : list item), StronglySorted strictly l0 -> (forall x y, In x l0 -> In y M -> strictly x y) ->
  StronglySorted by_line R -> NoDup R -> (forall i, In i R <-> In i l0 \/ In i M) ->
  exists R2, R = l0 ++ R2 /\ StronglySorted by_line R2 /\ NoDup R2 /\ forall i, In i R2 <-> In i M.
Proof.
  induction l0 as [|x l0 IH]; intros M R S0 HM SR NR HI.
  - exists R. split; [reflexivity|]. split; [exact SR|]. split; [exact NR|]. intro i. rewrite HI. split; [intros [[]|H]; exact H|now right].
  - inversion S0 as [|? ? S1 S2]; subst. rewrite Forall_forall in S2.
    destruct R as [|y R]; [destruct (proj2 (HI x) (or_introl (or_introl eq_refl)))|].
    inversion SR as [|? ? SR1 SR2]; subst. inversion NR as [|? ? NR1 NR2]; subst. rewrite Forall_forall in SR2.
    assert (y = x).
    { destruct (proj2 (HI x) (or_introl (or_introl eq_refl))) as [Q|Q]; [exact Q|]. apply SR2 in Q.
      destruct (proj1 (HI y) (or_introl eq_refl)) as [[Z|Z]|Z]; [now symmetry| |].
      - apply S2 in Z. unfold by_line, strictly in *. lia.
      - apply (HM x) in Z; [|now left]. unfold by_line, strictly in *. lia. }
    subst y. destruct (IH M R S1) as (R2 & -> & X); auto.
    + intros a b Ha Hb. apply HM; [now right|exact Hb].
    + intro i. specialize (HI i). cbn [In] in HI. split.
      * intro Hi. destruct (proj1 HI (or_intror Hi)) as [[Q|Q]|Q]; auto. subst i. contradiction.
      * intro Hi. destruct (proj2 HI ltac:(tauto)) as [Q|Q]; [|exact Q]. subst i. exfalso. destruct Hi as [Q|Q].
        -- apply S2 in Q. unfold strictly in Q. lia.
        -- apply (HM x) in Q; [|now left]. unfold strictly in Q. lia.
    + now exists R2.
Qed.

(** ** Adding a file that adds no others *)

Lemma linked_kept : forall n e path off forced s l s', add_file n e path off forced s = (Ok l, s') -> Forall adds_no_file l ->
  forall f x, linked s f x -> linked s' f x.
Proof.
  intros n e path off forced s l s' H Hno f x [k [K1 K2]]. destruct (skipped e path s) eqn:Sk.
  - apply add_file_inv in H. rewrite Sk in H. destruct H as [-> ->]. now exists k.
  - destruct (add_file_parts _ _ _ _ _ _ _ _ H Sk) as [m [cs [items [s1 [_ [Hg [Hv _]]]]]]].
    pose proof Hv as Hv'. apply leave_cases in Hv'. destruct Hv' as [g [l0 [Hf [EL [_ [_ [_ [_ [_ [_ [_ Hr]]]]]]]]]]].
    destruct (Hr l eq_refl) as [<- [mx Emx]].
    assert (Hno' : Forall adds_no_file items).
    { rewrite Emx in Hno. rewrite Forall_map in Hno. eapply Forall_impl; [|exact Hno]. intros i Hi. exact Hi. }
    assert (E1 : st_map s1 = st_map s).
    { unfold get_items in Hg. unfold bindM at 1, liftR in Hg. destruct (prepare_file _ _ _ _) as [cs'|ex|]; try discriminate.
      unfold bindM at 1, liftR in Hg. apply parse_chunks_still in Hg; [|exact Hno']. destruct Hg as (_ & Hg & _). exact Hg. }
    apply leave_map in Hv. destruct Hv as [Hv _]. rewrite E1 in Hv. destruct (extends_get _ _ _ _ _ Hv K1) as [r [E _]].
    exists (k ++ r). split; [exact E|]. apply in_or_app. now left.
Qed.
Lemma append_added : forall n e path off forced s l s', add_file n e path off forced s = (Ok l, s') -> Forall adds_no_file l -> l <> [] ->
  endswith ".bbappend" (file_of e path) = true -> st_list s' = st_list s ++ l.
Proof.
  intros n e path off forced s l s' H Hno Hl Ha. pose proof (skipped_nil _ _ _ _ _ _ _ _ H Hl) as Sk.
  destruct (add_file_parts _ _ _ _ _ _ _ _ H Sk) as [m [cs [items [s1 [_ [Hg [Hv _]]]]]]]. fold (file_of e path) in Hg, Hv.
  pose proof Hv as Hv'. apply leave_cases in Hv'. destruct Hv' as [g [l0 [Hf [EL [_ [_ [_ [_ [_ [_ [_ Hr]]]]]]]]]]].
  destruct (Hr l eq_refl) as [<- [mx Emx]].
  assert (Hno' : Forall adds_no_file items).
  { rewrite Emx in Hno. rewrite Forall_map in Hno. eapply Forall_impl; [|exact Hno]. intros i Hi. exact Hi. }
  assert (E1 : st_list s1 = st_list s).
  { unfold get_items in Hg. unfold bindM at 1, liftR in Hg. destruct (prepare_file _ _ _ _) as [cs'|ex|]; try discriminate.
    unfold bindM at 1, liftR in Hg. apply parse_chunks_still in Hg; [|exact Hno']. destruct Hg as [Hg _]. exact Hg. }
  destruct (leave_parts _ _ _ _ _ _ _ Hv) as [s2 [Hm [EL2 _]]]. unfold match_appends in Hm. rewrite Ha in Hm.
  destruct (dyn_pattern _) as [rx|]; [|discriminate]. destruct (fold_left _ _ _) as [mp mz]. injection Hm as _ <-.
  cbn [st_list with_map] in EL2. now rewrite EL2, E1.
Qed.
Lemma ids_kept : forall n e path off forced s l s', add_file n e path off forced s = (Ok l, s') ->
  NoDup (map it_id (st_list s)) -> Forall (fun i => it_id i < st_next s) (st_list s) ->
  NoDup (map it_id (st_list s')) /\ Forall (fun i => it_id i < st_next s') (st_list s').
Proof.
  intros n e path off forced s l s' H N F. apply add_file_grows in H. destruct H as (f & new & Hf & EL & Hn & Hr & Hx & _).
  rewrite app_nil_r in Hn, Hr. rewrite EL, map_app.
  assert (Em : map it_id (map f (st_list s)) = map it_id (st_list s)).
  { rewrite map_map. apply map_ext. intro i. rewrite (proj1 (Hf i)). reflexivity. }
  rewrite Em. unfold in_range in Hr. split.
  - apply NoDup_app; [exact N|exact Hn|]. intros z Hz Hz'. apply in_map_iff in Hz, Hz'. destruct Hz as (i & <- & Hi), Hz' as (j & Ej & Hj).
    rewrite Forall_forall in F, Hr. apply F in Hi. apply Hr in Hj. lia.
  - apply Forall_app. split.
    + rewrite Forall_map. eapply Forall_impl; [|exact F]. intros i Hi. cbv beta in *. rewrite (proj1 (Hf i)). cbn [it_id set_line]. lia.
    + eapply Forall_impl; [|exact Hr]. intros i Hi. cbv beta in *. lia.
Qed.

(** ** What the stash has *)

Definition both (a b : item) : Prop := strictly a b /\ (it_infile a < it_infile b)%Z.
Definition has_part (e : env) (p : part) (l : list item) : Prop :=
  Forall2 holds (snd p) l /\ StronglySorted both l /\
  Forall (fun i => it_origin i = file_of e (fst p) /\ (1 <= it_infile i)%Z) l /\ l <> [].
Definition in_order (e : env) (neg : bool) (s : stash) : Prop :=
  filled e s /\ st_neg s = neg /\ reach e s /\ NoDup (map it_id (st_list s)) /\ Forall (fun i => it_id i < st_next s) (st_list s).

Lemma add_part : forall n e p l s s1 neg, add_file n e (fst p) 0 None s = (Ok l, s1) -> l <> [] -> readable e neg p -> in_order e neg s ->
  in_order e neg s1 /\ has_part e p l /\ Forall adds_no_file l.
Proof.
  intros n e [p cs] l s s1 neg H Hl [[t [R C]] B] (I1 & I2 & I3 & I4 & I5). cbn [fst snd] in *.
  rewrite <- I2 in C. pose proof (coded_stated _ _ _ _ _ _ _ _ _ _ I1 H (taken_considered _ _ _ _ _ _ _ _ H Hl) R C) as F.
  destruct (ids_kept _ _ _ _ _ _ _ _ H I4 I5) as [J4 J5]. split; [|split].
  - split; [eapply filled_add; eassumption|]. split.
    { apply add_file_grows in H. destruct H as (? & ? & _ & _ & _ & _ & _ & _ & H). congruence. }
    split; [|now split]. destruct I3 as (nw & ng & db & I3). exists nw, ng, db. eapply steps_add; eassumption.
  - split; [exact (coded_holds _ _ _ _ F)|]. split; [exact (file_sorted _ _ _ _ _ _ _ _ H)|]. split; [|exact Hl]. cbn [fst].
    pose proof (C04_lemma _ _ _ _ _ _ _ _ H) as O. pose proof (file_infile _ _ _ _ _ _ _ _ H) as G. rewrite Forall_forall in *.
    intros i Hi. split; [now apply O|now apply G].
  - exact (coded_still _ _ _ _ F B).
Qed.

(** Only bbappends. *)
Lemma added_before : forall e neg recipe us s s', added e s (map fst us) s' -> in_order e neg s ->
  Forall (fun p => readable e neg p /\ applies (file_of e (fst p)) recipe) us ->
  forall ps Ls, st_list s = concat Ls -> Forall2 (has_part e) ps Ls ->
  in_order e neg s' /\ exists Ls', st_list s' = concat Ls' /\ Forall2 (has_part e) (ps ++ us) Ls'.
Proof.
  intros e neg recipe us. induction us as [|u us IH]; intros s s' H I0 Hu ps Ls E F.
  - inversion H; subst. rewrite app_nil_r. split; [exact I0|]. now exists Ls.
  - cbn [map] in H. inversion H as [|n p l ? s1 ? ? H1 Hl H2]; subst. inversion Hu as [|? ? [Hr Ha] Hu']; subst.
    destruct (add_part _ _ _ _ _ _ _ H1 Hl Hr I0) as (I1 & P1 & S1).
    pose proof (append_added _ _ _ _ _ _ _ _ H1 S1 Hl (proj1 (proj2 (proj2 (applies_append _ _ Ha))))) as EL.
    destruct (IH _ _ H2 I1 Hu' (ps ++ [u]) (Ls ++ [l])) as (J1 & Ls' & J2 & J3).
    + rewrite EL, E, concat_app. cbn [concat]. now rewrite app_nil_r.
    + apply Forall2_app; [exact F|]. now constructor.
    + split; [exact J1|]. exists Ls'. split; [exact J2|]. now rewrite <- app_assoc in J3.
Qed.

(** With the recipe. *)
Definition follows (e : env) (s : stash) (recipe : str) (l0 : list item) (p : part) (L : list item) : Prop :=
  has_part e p L /\ linked s recipe (file_of e (fst p)) /\ forall i j, In i l0 -> In j L -> (it_line i < it_line j)%Z.
Lemma added_recipe : forall n e neg r us Ls s l s', add_file n e (fst r) 0 None s = (Ok l, s') -> l <> [] -> readable e neg r -> in_order e neg s ->
  Forall (fun p => applies (file_of e (fst p)) (file_of e (fst r))) us -> st_list s = concat Ls -> Forall2 (has_part e) us Ls ->
  in_order e neg s' /\ has_part e r l /\ file_known s' (file_of e (fst r)) /\ exists Ls', st_list s' = concat Ls' ++ l /\
    Forall2 (follows e s' (file_of e (fst r)) l) us Ls'.
Proof.
  intros n e neg r us Ls s l s' H Hl Hr I0 Ha E F.
  destruct (add_part _ _ _ _ _ _ _ H Hl Hr I0) as (I1 & P1 & S1). split; [exact I1|]. split; [exact P1|].
  split; [exact (loaded_known _ _ _ _ _ _ _ _ H Hl)|].
  destruct (file_added _ _ _ _ _ _ _ _ H S1) as (f & Hf & EL & _ & Ef).
  exists (map (map f) Ls). rewrite EL, E, <- concat_map. split; [reflexivity|].
  assert (Hin : forall L, In L Ls -> incl L (st_list s)).
  { intros L HL i Hi. rewrite E. apply in_concat. now exists L. }
  assert (Hin' : forall L, In L Ls -> incl (map f L) (st_list s')).
  { intros L HL i Hi. rewrite EL. apply in_or_app. left. apply in_map_iff in Hi. destruct Hi as (j & <- & Hj). apply in_map. now apply (Hin L). }
  clear E. induction F as [|u L us Ls FL F IH]; [constructor|]. inversion Ha as [|? ? Ha1 Ha2]; subst. cbn [map]. constructor.
  2:{ apply IH; [exact Ha2| |].
      - intros L0 HL. apply Hin. now right.
      - intros L0 HL. apply Hin'. now right. }
  destruct FL as (F1 & F2 & F3 & F4). destruct (applies_append _ _ Ha1) as (_ & A2 & A3 & A4 & A5).
  rewrite Forall_forall in F3.
  assert (F3' : forall i, In i (map f L) -> it_origin i = file_of e (fst u) /\ (1 <= it_infile i)%Z).
  { intros i Hi. apply in_map_iff in Hi. destruct Hi as (j & <- & Hj). rewrite (proj1 (Hf j)). cbn [it_origin it_infile set_line]. now apply F3. }
  destruct (C37_append_first_lemma n e (fst r) 0 None s l s' (file_of e (fst u)) H Hl Ha1) as [Q1 Q2].
  { destruct L as [|i L]; [congruence|]. exists i. split; [apply (Hin (i :: L)); now left|apply F3; now left]. }
  split; [split; [|split; [|split]]|split].
  - now apply holds_raises.
  - apply sorted_map; [|exact F2]. intros x y Hx Hy [X Y]. specialize (Ef A5 A4 Hl). destruct A2 as [rx [Hrx Hmt]].
    assert (Ez : forall z, In z L -> f z = set_line (Z.max (it_line z) (it_infile z + max_line l)) z).
    { intros z Hz. rewrite Ef. unfold recipe_raise. rewrite (proj1 (F3 z Hz)), A3, Hrx, Hmt. reflexivity. }
    rewrite (Ez x Hx), (Ez y Hy). unfold both, strictly in *. cbn [it_line it_infile set_line]. lia.
  - now apply Forall_forall.
  - destruct L; [congruence|discriminate].
  - exact Q1.
  - intros i j Hi Hj. apply Q2; [|apply F3'|apply F3'|exact Hi]; auto. apply (Hin' L); [now left|exact Hj].
Qed.
Lemma added_after : forall e neg recipe l0 vs s s', added e s (map fst vs) s' -> in_order e neg s -> file_known s recipe ->
  Forall (fun p => readable e neg p /\ applies (file_of e (fst p)) recipe) vs ->
  (forall i, In i l0 -> In i (st_list s) /\ it_origin i = recipe) ->
  forall ps Ls A, st_list s = A ++ concat Ls -> Forall2 (follows e s recipe l0) ps Ls ->
  in_order e neg s' /\ exists Ls', st_list s' = A ++ concat (Ls ++ Ls') /\ Forall2 (follows e s' recipe l0) (ps ++ vs) (Ls ++ Ls') /\
    forall x, linked s recipe x -> linked s' recipe x.
Proof.
  intros e neg recipe l0 vs. induction vs as [|v vs IH]; intros s s' H I0 Hk Hv H0 ps Ls A E F.
  - inversion H; subst. rewrite app_nil_r. split; [exact I0|]. exists []. rewrite app_nil_r. now split; [|split].
  - cbn [map] in H. inversion H as [|n p l ? s1 ? ? H1 Hl H2]; subst. inversion Hv as [|? ? [Hr Ha] Hv']; subst.
    destruct (add_part _ _ _ _ _ _ _ H1 Hl Hr I0) as (I1 & P1 & S1).
    pose proof (append_added _ _ _ _ _ _ _ _ H1 S1 Hl (proj1 (proj2 (proj2 (applies_append _ _ Ha))))) as EL.
    destruct (C37_recipe_first_lemma n e (fst v) 0 None s l s1 recipe H1 Hl ltac:(lia) Ha Hk) as [Q1 Q2].
    pose proof (linked_kept _ _ _ _ _ _ _ _ H1 S1) as Lk.
    destruct (IH _ _ H2 I1) with (ps := ps ++ [v]) (Ls := Ls ++ [l]) (A := A) as (J1 & Ls' & J2 & J3 & J4).
    + destruct (linked_links s1 recipe (file_of e (fst v))) as [X _]. destruct Q1 as [k [K _]]. now exists k.
    + exact Hv'.
    + intros i Hi. destruct (H0 i Hi) as [X Y]. split; [|exact Y]. rewrite EL. apply in_or_app. now left.
    + rewrite EL, E, concat_app. cbn [concat]. now rewrite app_nil_r, app_assoc.
    + apply Forall2_app.
      * eapply Forall2_imp; [|exact F]. intros u L (X1 & X2 & X3). split; [exact X1|]. split; [now apply Lk|exact X3].
      * constructor; [|constructor]. split; [exact P1|]. split; [exact Q1|]. intros i j Hi Hj. destruct (H0 i Hi) as [X Y].
        apply Q2; [|exact Y|exact Hj]. rewrite EL. apply in_or_app. now left.
    + split; [exact J1|]. exists (l :: Ls'). rewrite <- !app_assoc in *. cbn [List.app] in *. split; [exact J2|]. split; [exact J3|].
      intros x Hx. apply J4. now apply Lk.
Qed.

Lemma added_app : forall e ps qs s s2, added e s (ps ++ qs) s2 -> exists s1, added e s ps s1 /\ added e s1 qs s2.
Proof.
  intros e ps. induction ps as [|p ps IH]; intros qs s s2 H; cbn [List.app] in H.
  - exists s. split; [constructor|exact H].
  - inversion H as [|n q l ? s1 ? ? H1 Hl H2]; subst. destruct (IH _ _ _ H2) as (s3 & A & B). exists s3. split; [|exact B].
    econstructor; eassumption.
Qed.
Lemma new_in_order : forall e new neg db, in_order e neg (new_stash new neg db).
Proof.
  intros e new neg db. split; [apply filled_new|]. split; [reflexivity|]. split; [exists new, neg, db; apply steps_refl|]. split; constructor.
Qed.
Lemma both_strictly : forall l, StronglySorted both l -> StronglySorted strictly l.
Proof. intros l H. eapply sorted_weak; [|exact H]. intros x y [X _]. exact X. Qed.

Lemma appends_items : forall e new neg db us r vs s', env_ok e ->
  added e (new_stash new neg db) (map fst us ++ fst r :: map fst vs) s' -> readable e neg r ->
  Forall (fun p => readable e neg p /\ applies (file_of e (fst p)) (file_of e (fst r))) (us ++ vs) ->
  in_order e neg s' /\ (forall i, In i (items_for e s' (file_of e (fst r))) <-> In i (st_list s') /\ visible s' (file_of e (fst r)) i) /\
  exists k, merged (map snd (us ++ vs)) k /\ Forall2 holds (snd r ++ k) (items_for e s' (file_of e (fst r))).
Proof.
  intros e new neg db us r vs s' He H Hr Hp. apply added_app in H. destruct H as (s1 & H1 & H2).
  inversion H2 as [|n q l ? s2 ? ? H3 Hl H4]; subst. apply Forall_app in Hp. destruct Hp as [Hu Hv].
  destruct (added_before e neg (file_of e (fst r)) us _ _ H1 (new_in_order e new neg db) Hu [] [] eq_refl (Forall2_nil _)) as (I1 & Ls & E1 & F1).
  cbn [List.app] in F1.
  destruct (added_recipe n e neg r us Ls s1 l s2 H3 Hl Hr I1) as (I2 & P & K & Ls1 & E2 & F2); auto.
  { eapply Forall_impl; [|exact Hu]. intros p [_ X]. exact X. }
  assert (O : forall i, In i l -> it_origin i = file_of e (fst r)).
  { destruct P as (_ & _ & P & _). rewrite Forall_forall in P. intros i Hi. now apply P. }
  destruct (added_after e neg (file_of e (fst r)) l vs s2 s' H4 I2 K Hv) with (ps := @nil part) (Ls := @nil (list item)) (A := concat Ls1 ++ l)
    as (I3 & Ls2 & E3 & F3 & Lk).
  { intros i Hi. split; [|now apply O]. rewrite E2. apply in_or_app. now right. }
  { cbn [concat]. now rewrite app_nil_r. }
  { constructor. }
  cbn [List.app] in E3, F3. split; [exact I3|]. destruct I3 as (_ & _ & Hre & N & _).
  set (file := file_of e (fst r)) in *. set (q := MkQuery (Some file) ANone ANone ANone false).
  destruct (C28_lemma e s' q He Hre) as (Q1 & Q2 & Q3). fold (items_for e s' file) in Q1, Q2, Q3.
  change (get_items_for e s' q) with (items_for e s' file) in Q1, Q2, Q3.
  assert (QV : forall i, In i (items_for e s' file) <-> In i (st_list s') /\ visible s' file i).
  { intro i. rewrite Q1. unfold selected, of_file, of_class, of_attr, q, visible. cbn [q_file q_class q_attr q_nolink]. tauto. }
  split; [exact QV|].
  assert (F : Forall2 (follows e s' file l) (us ++ vs) (Ls1 ++ Ls2)).
  { apply Forall2_app; [|exact F3]. eapply Forall2_imp; [|exact F2]. intros u L (X1 & X2 & X3). split; [exact X1|]. split; [now apply Lk|exact X3]. }
  assert (FL : forall L, In L (Ls1 ++ Ls2) -> exists p, follows e s' file l p L).
  { clear -F. induction F as [|p L ps Ls X F IH]; intros L0 H; [destruct H|]. destruct H as [<-|H]; [now exists p|now apply IH]. }
  assert (All : forall i, In i (items_for e s' file) <-> In i l \/ In i (concat (Ls1 ++ Ls2))).
  { intro i. rewrite QV, E3, concat_app, !in_app_iff. split; [tauto|]. intro Hi. split; [tauto|]. destruct Hi as [Hi|Hi].
    - right. left. now apply O.
    - right. right. rewrite <- in_app_iff, <- concat_app in Hi. apply in_concat in Hi. destruct Hi as (L & HL & Hi). destruct (FL L HL) as (p & (_ & _ & X & _) & Y & _).
      rewrite Forall_forall in X. now rewrite (proj1 (X i Hi)). }
  destruct (sorted_first l (concat (Ls1 ++ Ls2)) (items_for e s' file)) as (R2 & ER & SR & NR & HR); auto.
  { apply both_strictly. apply P. }
  { intros x y Hx Hy. apply in_concat in Hy. destruct Hy as (L & HL & Hy). destruct (FL L HL) as (p & _ & _ & X). now apply X. }
  { now apply NoDup_map_inv in Q2. }
  assert (M : merged (Ls1 ++ Ls2) R2).
  { apply merged_sorted; auto.
    - apply Forall_forall. intros L HL. destruct (FL L HL) as (p & (_ & X & _) & _). now apply both_strictly.
    - apply NoDup_map_inv in N. rewrite E3, <- app_assoc in N. rewrite concat_app. clear -N. induction (concat Ls1) as [|x a IH]; cbn [List.app] in *.
      + induction l as [|x l IH]; [exact N|]. cbn [List.app] in N. inversion N; auto.
      + inversion N as [|? ? N1 N2]; subst. constructor; [|now apply IH]. rewrite !in_app_iff in *. tauto. }
  destruct (merged_pairs _ _ holds _ _ M (map snd (us ++ vs))) as (k & Mk & Fk).
  { clear -F. induction F as [|p L ps Ls (X & _) F IH]; cbn [map]; constructor; [apply X|exact IH]. }
  exists k. split; [exact Mk|]. rewrite ER. apply Forall2_app; [apply P|exact Fk].
Qed.

Lemma C111_items_lemma : forall e new neg db us r vs s', env_ok e ->
  added e (new_stash new neg db) (map fst us ++ fst r :: map fst vs) s' -> readable e neg r ->
  Forall (fun p => readable e neg p /\ applies (file_of e (fst p)) (file_of e (fst r))) (us ++ vs) ->
  exists k, merged (map snd (us ++ vs)) k /\ Forall2 says (snd r ++ k) (items_for e s' (file_of e (fst r))).
Proof.
  intros e new neg db us r vs s' He H Hr Hp. destruct (appends_items e new neg db us r vs s' He H Hr Hp) as (_ & _ & k & M & F).
  exists k. split; [exact M|now apply holds_says].
Qed.
Lemma sorted_strict : forall l, StronglySorted by_line l -> NoDup l -> (forall i j, In i l -> In j l -> it_line i = it_line j -> i = j) ->
  StronglySorted strictly l.
Proof.
  intros l H. induction H as [|x l H IH Hx]; intros N D; [constructor|]. inversion N as [|? ? N1 N2]; subst. constructor.
  - apply IH; [exact N2|]. intros i j Hi Hj. apply D; now right.
  - rewrite Forall_forall in *. intros y Hy. specialize (Hx y Hy). unfold by_line, strictly in *.
    assert (it_line x <> it_line y); [|lia]. intro E. apply D in E; [|now left|now right]. now subst y.
Qed.
Lemma added_base : forall e ps s s', added e s ps s' -> names_ok (st_const s) ->
  sets_base (st_const s') = sets_base (st_const s).
Proof.
  intros e ps s s' H. induction H as [s|n p l s s1 ps s2 H Hl _ IH]; intro N; [reflexivity|].
  destruct (C64_lemma _ _ _ _ _ _ _ _ N H) as [N1 _]. rewrite (IH N1). exact (base_kept _ _ _ _ _ _ _ _ N H).
Qed.
Lemma C111_values_lemma : forall e new neg db us r vs s' d, env_ok e -> plain_base db ->
  added e (new_stash new neg db) (map fst us ++ fst r :: map fst vs) s' -> readable e neg r ->
  Forall (fun p => readable e neg p /\ applies (file_of e (fst p)) (file_of e (fst r))) (us ++ vs) ->
  own_lines (items_for e s' (file_of e (fst r))) ->
  plain_names (snd r ++ concat (map snd (us ++ vs))) ->
  expand_var e s' (Some (file_of e (fst r))) ANone ANone false = Ok d ->
  exists k, merged (map snd (us ++ vs)) k /\ Forall2 says (snd r ++ k) (items_for e s' (file_of e (fst r))) /\
    values_are (new_stash new neg db) (file_of e (fst r)) (snd r ++ k) d.
Proof.
  intros e new neg db us r vs s' d He Hdb H Hr Hp Hd Hn Hx.
  destruct (appends_items e new neg db us r vs s' He H Hr Hp) as ((_ & _ & Hre & _ & _) & HV & k & M & F).
  exists k. split; [exact M|]. split; [now apply holds_says|].
  set (file := file_of e (fst r)) in *. destruct (C28_lemma e s' (MkQuery (Some file) ANone ANone ANone false) He Hre) as (_ & Q2 & Q3).
  change (get_items_for e s' (MkQuery (Some file) ANone ANone ANone false)) with (items_for e s' file) in Q2, Q3.
  apply (found_values_weak e s' (new_stash new neg db) _ _ (items_for e s' file) d He Hre F); auto.
  - apply sorted_strict; [now apply sorted_filter| |].
    + apply NoDup_filter. now apply NoDup_map_inv in Q2.
    + intros i j Hi Hj. apply filter_In in Hi, Hj. destruct Hi as [Hi Vi], Hj as [Hj Vj]. apply Hd; [exact Hi|exact Hj| |].
      * clear -Vi. unfold isv in Vi. unfold classifier. destruct (it_pay i); try discriminate Vi; auto.
      * clear -Vj. unfold isv in Vj. unfold classifier. destruct (it_pay j); try discriminate Vj; auto.
  - exact (added_base _ _ _ _ H (proj1 Hdb)).
  - assert (I : forall c, In c (snd r ++ k) -> In c (snd r ++ concat (map snd (us ++ vs)))).
    { intros c Hc. apply in_app_or in Hc. apply in_or_app. destruct Hc as [Hc|Hc]; [now left|right]. clear -M Hc.
      induction M as [ls M|a x l b k M IH]; [destruct Hc|]. rewrite concat_app in *. cbn [concat] in *. rewrite !in_app_iff in *. cbn [In] in *.
      tauto. }
    destruct Hn as (N1 & N2 & N3). split; [|split].
    + intros c Hc. apply N1. now apply I.
    + intros name op vs0 Hc. apply (N2 name op vs0). apply in_map_iff in Hc. destruct Hc as (c & <- & Hc). apply in_map. now apply I.
    + intros name flag Hc. apply (N3 name flag). apply in_map_iff in Hc. destruct Hc as (c & E & Hc). rewrite <- E. apply in_map. now apply I.
Qed.

Lemma own_lines_check : forall l, NoDup (map it_line (filter isv l)) -> own_lines l.
Proof.
  intros l H i j Hi Hj Ci Cj E.
  assert (V : forall x, classifier x = "Variable" \/ classifier x = "Unset" -> isv x = true).
  { intros x C. unfold classifier in C. unfold isv. destruct (it_pay x); try reflexivity; destruct C as [C|C]; discriminate C. }
  assert (Fi : In i (filter isv l)) by (apply filter_In; auto). assert (Fj : In j (filter isv l)) by (apply filter_In; auto).
  clear Hi Hj. induction (filter isv l) as [|x k IH]; [destruct Fi|]. cbn [map] in H. inversion H as [|? ? H1 H2]; subst.
  destruct Fi as [->|Fi], Fj as [->|Fj]; [reflexivity| | |now apply IH]; exfalso; apply H1.
  - rewrite E. now apply in_map.
  - rewrite <- E. now apply in_map.
Qed.
