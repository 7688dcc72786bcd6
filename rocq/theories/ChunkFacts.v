(** * What holds for every parsed item *)

From Verif Require Import PyStr Regex UniTable Patterns PyPath Res Inline Const Item Lines Stash
  StrFacts ReFacts LinesFacts ParseFacts HistFacts ReachFacts Spec_Parse ClassFacts Spec_Group Proofs_Group.

(** A property of items that the parser establishes and that neither Line nor
    IncludedFrom matters for. *)
Section Every.
Context (e : env) (Q : bool -> item -> Prop).
Context (stable : forall neg z i, Q neg i -> Q neg (set_line z i)).
Context (stable_inc : forall neg v i, Q neg i -> Q neg (add_incfrom v i)).
Context (made : forall file off neg cs new l, prepare_file e file off neg = Ok cs ->
  parsed file off 0 new cs l -> Forall classified l -> Forall (Q neg) l).

Definition all_of (neg : bool) (s : stash) : Prop := st_neg s = neg /\ Forall (Q neg) (st_list s) /\ Forall classified (st_list s).

Lemma keeps_every : forall neg n path off forced,
  keeps (all_of neg) (add_file n e path off forced) (Forall (Q neg)).
Proof.
  intros neg. induction n as [|n IH]; intros path off forced s r s' E Hi.
  - inversion E; subst. split; [exact Hi|]. intros a Ea. discriminate.
  - pose proof (proj1 (keeps_add_file (S n) e path off forced s r s' E (proj2 (proj2 Hi)))) as Hcl'.
    rewrite add_file_eq in E. cbv zeta in E.
    destruct (skipped e path s).
    { inversion E; subst. split; [exact Hi|]. intros a Ea. inversion Ea; subst. constructor. }
    set (file := abspath (fs_cwd (e_fs e)) path) in *.
    revert E Hi Hcl'. change (all_of neg s) with (all_of neg (enter file s)).
    generalize (enter file s). clear s. intros s E Hi Hcl'.
    unfold bindM at 1 in E. destruct (get_items e _ file off s) as [r1 s1] eqn:Eg.
    assert (G : all_of neg s1 /\ forall a, r1 = Ok a -> Forall (Q neg) a).
    { pose proof Eg as E0. unfold get_items in Eg. unfold bindM at 1, liftR at 1 in Eg.
      destruct (prepare_file e file off (st_neg s)) as [cs|ex|] eqn:Ep.
      * unfold bindM, liftR in Eg. pose proof Ep as Ec. apply prepare_file_cnt in Ep.
        assert (K : keeps (all_of neg) (parse_chunks e (fun p o f => add_file n e p o (Some f)) file off 0 (st_new s) cs) (Forall classified)).
        { apply keeps_chunks; [intros k x Hx; exact Hx| |exact Ep].
          intros p o f. eapply keeps_weaken; [apply IH|auto]. }
        destruct (K _ _ _ Eg Hi) as [K1 K2]. split; [exact K1|]. intros a ->.
        apply get_items_sat in E0; [|apply add_file_addf_ok]. destruct E0 as [cs' [E1 E2]].
        destruct Hi as [Hn _]. rewrite Hn in E1. eapply made; eauto.
      * inversion Eg; subst. split; [exact Hi|]. intros a Ea. discriminate.
      * inversion Eg; subst. split; [exact Hi|]. intros a Ea. discriminate. }
    destruct G as [Hi1 Hr1]. destruct r1 as [items|ex|].
    + specialize (Hr1 items eq_refl). apply leave_cases in E.
      destruct E as [f [l [Hf [EL [_ [_ [_ [En [_ [_ [Hl Hr]]]]]]]]]]].
      assert (Hcl : Forall (Q neg) l).
      { destruct Hl as [->|[mx ->]]; [constructor|]. rewrite Forall_map.
        eapply Forall_impl; [|exact Hr1]. intros i H. now apply stable. }
      destruct Hi1 as [Hn [Hq Hc]]. split.
      * split; [congruence|]. split; [|exact Hcl']. rewrite EL. apply Forall_app. split; [|exact Hcl].
        rewrite Forall_map. eapply Forall_impl; [|exact Hq]. intros i H. destruct (Hf i) as [E _]. cbn beta. rewrite E. now apply stable.
      * intros a Ea. apply Hr in Ea. destruct Ea as [-> _]. exact Hcl.
    + inversion E; subst. split; [exact Hi1|]. intros a Ea. discriminate.
    + inversion E; subst. split; [exact Hi1|]. intros a Ea. discriminate.
Qed.

Lemma every_filled : forall s, filled e s -> Forall (Q (st_neg s)) (st_list s).
Proof.
  intros s H.
  assert (G : all_of (st_neg s) s); [|exact (proj1 (proj2 G))].
  induction H as [new neg db|n path off forced s r s' Hs IH E|l s r s' Hs IH E|s r s' Hs IH E|db s Hs IH].
  - repeat split; constructor.
  - pose proof (proj1 (keeps_every (st_neg s) n path off forced s r s' E IH)) as G. destruct G as [E1 G].
    split; [reflexivity|]. now rewrite E1.
  - pose proof (filled_remove e l s r s' Hs E) as Hf.
    apply remove_items_shape in E. destruct E as [E1 E2]. assert (En : st_neg s' = st_neg s) by (rewrite E2; reflexivity).
    split; [reflexivity|]. rewrite En. destruct IH as [_ [IH _]]. split; [|now apply (filled_classified e)].
    rewrite Forall_forall in *. auto.
  - pose proof (filled_finalize e s r s' Hs E) as Hf.
    apply finalize_shape in E. destruct E as [g [mp [Hg [E _]]]].
    split; [reflexivity|]. split; [|now apply (filled_classified e)]. rewrite E. cbn. rewrite Forall_map.
    destruct IH as [_ [IH _]]. eapply Forall_impl; [|exact IH]. intros i Hi. cbn beta. destruct (Hg i) as [v ->].
    now apply stable_inc.
  - exact IH.
Qed.
Lemma every_parsed : forall i, parsed_item e i -> exists neg, Q neg i.
Proof. intros i [s [Hs Hi]]. exists (st_neg s). apply every_filled in Hs. rewrite Forall_forall in Hs. auto. Qed.
End Every.

(** ** The statement of an item *)

Definition stated (neg : bool) (i : item) : Prop := exists ls g r, lines ls /\ block ls g r /\
  it_realraw i = concat g /\ inline_blocks_of neg (it_realraw i) = Some (it_raw i, it_blocks i).

Lemma taken_each : forall ls gs u g, lines ls -> taken ls gs u -> In g gs -> exists ls' r, lines ls' /\ block ls' g r.
Proof.
  intros ls gs u g Hl H. induction H as [ls|ls g' r gs u H1 H2 IH]; intros Hg; [destruct Hg|].
  destruct Hg as [<-|Hg]; [now exists ls, r|]. apply IH; [|exact Hg].
  apply block_app in H1. rewrite H1 in Hl. now apply lines_tail in Hl.
Qed.

Lemma chunks_stated : forall e file off neg cs new l, prepare_file e file off neg = Ok cs ->
  parsed file off 0 new cs l -> Forall classified l -> Forall (stated neg) l.
Proof.
  intros e file off neg cs new l Hc Hp _. unfold prepare_file in Hc.
  destruct (fs_read (e_fs e) file) as [t| | |]; try discriminate.
  2:{ inversion Hc; subst. destruct l; [constructor|destruct Hp]. }
  pose proof (prepare_text_ok _ _ _ _ Hc) as [_ Ho].
  unfold prepare_text in Hc. apply prepare_loop_taken in Hc; [|apply readlines_ok].
  destruct Hc as [gs [Ht Em]].
  assert (A : Forall (fun c => exists g ls r, lines ls /\ block ls g r /\ ck_realraw c = concat g) cs).
  { rewrite Forall_forall. intros c Hc. apply (in_map ck_realraw) in Hc. rewrite Em in Hc.
    apply in_map_iff in Hc. destruct Hc as [g [Eg Hg]].
    destruct (taken_each _ _ _ g (ok_are_lines _ (readlines_ok _)) Ht Hg) as [ls [r [Hl Hb]]].
    exists g, ls, r. auto. }
  clear Ht Em gs. revert Hp A Ho. generalize 1%Z as num. generalize 0%Z as inc. revert new l.
  induction cs as [|c cs IH]; intros new l inc num Hp A Ho; destruct l as [|i l]; cbn [parsed] in Hp; try contradiction; [constructor|].
  destruct Hp as [Hraw [Hrr [Hb [_ [_ [_ [_ [_ [d [_ Hp]]]]]]]]]].
  inversion A as [|? ? [g [ls [r [Hl [Hbl Eg]]]]] A2]; subst. destruct Ho as [Hc1 [_ Ho]].
  constructor; [|eapply IH; eassumption].
  destruct Hc1 as [_ [Hne [Hi _]]]. exists ls, g, r. rewrite (Hrr Hne), Hraw, Hb. auto.
Qed.

Lemma parsed_stated : forall e i, parsed_item e i -> exists neg, stated neg i.
Proof.
  intros e i Hi. apply (every_parsed e stated); [|intros neg v j H; exact H| |exact Hi].
  - intros neg z j H. exact H.
  - intros file off neg cs new l. apply chunks_stated.
Qed.
