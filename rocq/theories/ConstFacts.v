(** * Lemmas about the merging of constants *)

From Verif Require Import PyStr Res Const StrFacts Spec_Const.

(** Induction over nested dictionaries. *)
Lemma cval_rec2 : forall (P : cval -> Prop),
  (forall s, P (CStr s)) -> (forall l, P (CList l)) ->
  (forall d, (forall k v, In (k, v) d -> P v) -> P (CDict d)) -> forall v, P v.
Proof.
  intros P Hs Hl Hd. fix IH 1. intros [s|l|d]; [apply Hs|apply Hl|]. apply Hd.
  induction d as [|[k0 v0] d IHd]; intros k v H; [destruct H|].
  pose proof (IH v0) as H0. destruct H as [E|H]; [|now apply IHd with k]. now inversion E; subst.
Qed.

Lemma keys_once_dict : forall d, keys_once (CDict d) <->
  NoDup (dkeys d) /\ forall k v, In (k, v) d -> keys_once v.
Proof.
  intro d. cbn [keys_once].
  assert (H : (fix go (d : list (str * cval)) : Prop := match d with [] => True | (_, x) :: r => keys_once x /\ go r end) d
              <-> forall k v, In (k, v) d -> keys_once v); [|now rewrite H].
  induction d as [|[k0 v0] d IH]; [split; [intros _ k v []|auto]|]. rewrite IH. split.
  - intros [H1 H2] k v [E|H]; [now inversion E; subst|eauto].
  - intro H. split; [apply (H k0); now left|]. intros k v Hi. apply (H k). now right.
Qed.

(** ** One merge for all three operations *)

Section Merge.
Context (absent : bool).
Context (leaf : cval -> cval -> cval * option exn).
Context (clash : cval -> list (str * cval) -> bool).

Fixpoint gmerge (b : cval) (a : list (str * cval)) {struct b} : upd :=
  match b with
  | CDict bd =>
      (fix go (bd : list (str * cval)) (a : list (str * cval)) {struct bd} : upd :=
         match bd with
         | [] => (a, None)
         | (k, v) :: r =>
             match dget k a with
             | None => go r (if absent then dset k v a else a)
             | Some av =>
                 match v with
                 | CDict vd =>
                     match av with
                     | CDict ad =>
                         match gmerge v ad with
                         | (ad', None) => go r (dset k (CDict ad') a)
                         | (ad', Some e) => (dset k (CDict ad') a, Some e)
                         end
                     | _ => if clash av vd then (a, Some TypeError) else go r a
                     end
                 | _ =>
                     match leaf av v with
                     | (x, None) => go r (dset k x a)
                     | (_, Some e) => (a, Some e)
                     end
                 end
             end
         end) bd a
  | _ => (a, Some AttributeError)
  end.

Definition one (v av : cval) : cval * option exn :=
  match v with
  | CDict vd => match av with
                | CDict ad => (CDict (fst (gmerge v ad)), snd (gmerge v ad))
                | _ => (av, if clash av vd then Some TypeError else None)
                end
  | _ => leaf av v
  end.

Lemma gmerge_cons : forall k v r a, gmerge (CDict ((k, v) :: r)) a =
  match dget k a with
  | None => gmerge (CDict r) (if absent then dset k v a else a)
  | Some av =>
      match v with
      | CDict vd =>
          match av with
          | CDict ad =>
              match gmerge v ad with
              | (ad', None) => gmerge (CDict r) (dset k (CDict ad') a)
              | (ad', Some e) => (dset k (CDict ad') a, Some e)
              end
          | _ => if clash av vd then (a, Some TypeError) else gmerge (CDict r) a
          end
      | _ =>
          match leaf av v with
          | (x, None) => gmerge (CDict r) (dset k x a)
          | (_, Some e) => (a, Some e)
          end
      end
  end.
Proof. reflexivity. Qed.

(** The outcome for each key. *)
Lemma gmerge_get : forall bd a a', NoDup (dkeys bd) -> gmerge (CDict bd) a = (a', None) ->
  forall k, dget k a' = match dget k bd with
                        | None => dget k a
                        | Some v => match dget k a with
                                    | None => if absent then Some v else None
                                    | Some av => Some (fst (one v av))
                                    end
                        end.
Proof.
  induction bd as [|[k0 v0] bd IH]; intros a a' N H k; [inversion H; reflexivity|].
  inversion N as [|? ? Hn N']; subst. rewrite gmerge_cons in H.
  assert (G : forall a1, gmerge (CDict bd) a1 = (a', None) -> (forall k2, k2 <> k0 -> dget k2 a1 = dget k2 a) ->
     dget k a' = if str_eqb k k0 then dget k0 a1 else
                 match dget k bd with
                 | None => dget k a
                 | Some v => match dget k a with
                             | None => if absent then Some v else None
                             | Some av => Some (fst (one v av))
                             end
                 end).
  { intros a1 H1 H2. rewrite (IH _ _ N' H1 k). destruct (str_eqb k k0) eqn:E.
    - apply str_eqb_eq in E. subst. apply dget_None in Hn. now rewrite Hn.
    - apply str_eqb_neq in E. now rewrite (H2 _ E). }
  assert (O : forall x k2, k2 <> k0 -> dget k2 (dset k0 x a) = dget k2 a).
  { intros x k2 Hk. now apply dget_dset_other. }
  simpl dget at 2. destruct (dget k0 a) as [av|] eqn:Ea.
  - assert (F : forall x, (forall H1 : gmerge (CDict bd) (dset k0 x a) = (a', None), fst (one v0 av) = x ->
        dget k a' = (if str_eqb k k0 then Some (fst (one v0 av)) else
                 match dget k bd with
                 | None => dget k a
                 | Some v => match dget k a with
                             | None => if absent then Some v else None
                             | Some av => Some (fst (one v av))
                             end
                 end))).
    { intros x H1 <-. rewrite (G _ H1 (O _)). now rewrite dget_dset_same. }
    assert (R : (if str_eqb k k0 then Some (fst (one v0 av)) else
                 match dget k bd with
                 | None => dget k a
                 | Some v => match dget k a with
                             | None => if absent then Some v else None
                             | Some av => Some (fst (one v av))
                             end
                 end) = match (if str_eqb k k0 then Some v0 else dget k bd) with
                 | None => dget k a
                 | Some v => match dget k a with
                             | None => if absent then Some v else None
                             | Some av => Some (fst (one v av))
                             end
                 end).
    { destruct (str_eqb k k0) eqn:E; [|reflexivity]. apply str_eqb_eq in E. subst. now rewrite Ea. }
    rewrite <- R. clear R.
    assert (L : forall x e, leaf av v0 = (x, e) -> is_leaf v0 -> one v0 av = (x, e)).
    { intros x e El Hl. destruct v0; [exact El|exact El|destruct Hl]. }
    destruct v0 as [s0|l0|vd].
    + destruct (leaf av (CStr s0)) as [x [e|]] eqn:El; [discriminate|]. apply (F x H). now rewrite (L _ _ eq_refl I).
    + destruct (leaf av (CList l0)) as [x [e|]] eqn:El; [discriminate|]. apply (F x H). now rewrite (L _ _ eq_refl I).
    + assert (S : forall H1 : gmerge (CDict bd) a = (a', None), fst (one (CDict vd) av) = av ->
        dget k a' = (if str_eqb k k0 then Some (fst (one (CDict vd) av)) else
                 match dget k bd with
                 | None => dget k a
                 | Some v => match dget k a with
                             | None => if absent then Some v else None
                             | Some av => Some (fst (one v av))
                             end
                 end)).
      { intros H1 Eo. rewrite (G _ H1 (fun _ _ => eq_refl)), Ea, Eo. reflexivity. }
      destruct av as [s1|l1|ad].
      * destruct (clash (CStr s1) vd); [discriminate|]. now apply S.
      * destruct (clash (CList l1) vd); [discriminate|]. now apply S.
      * destruct (gmerge (CDict vd) ad) as [ad' [e|]] eqn:Eg; [discriminate|]. apply (F (CDict ad') H).
        cbn [one]. now rewrite Eg.
  - rewrite (G _ H).
    + destruct (str_eqb k k0) eqn:E; [|reflexivity]. apply str_eqb_eq in E. subst. rewrite Ea.
      destruct absent; [apply dget_dset_same|exact Ea].
    + intros k2 Hk. destruct absent; [now apply O|reflexivity].
Qed.

(** When the merge fails. *)
Lemma gmerge_ok : forall bd a, NoDup (dkeys bd) ->
  (snd (gmerge (CDict bd) a) = None <->
   forall k v av, dget k bd = Some v -> dget k a = Some av -> snd (one v av) = None).
Proof.
  induction bd as [|[k0 v0] bd IH]; intros a N; [split; [intros _ k v av; discriminate|reflexivity]|].
  inversion N as [|? ? Hn N']; subst. rewrite gmerge_cons.
  assert (G : forall a1, (forall k2, k2 <> k0 -> dget k2 a1 = dget k2 a) ->
     (forall av, dget k0 a = Some av -> snd (one v0 av) = None) ->
     (snd (gmerge (CDict bd) a1) = None <->
      forall k v av, dget k ((k0, v0) :: bd) = Some v -> dget k a = Some av -> snd (one v av) = None)).
  { intros a1 H1 H2. rewrite (IH a1 N'). split.
    - intros H k v av Hv Ha. simpl in Hv. destruct (str_eqb k k0) eqn:E.
      + apply str_eqb_eq in E. inversion Hv; subst. now apply H2.
      + apply (H k); [exact Hv|]. rewrite H1; [exact Ha|]. now apply str_eqb_neq.
    - intros H k v av Hv Ha. assert (E : k <> k0).
      { intros ->. apply Hn. eapply dget_Some_key. exact Hv. }
      apply (H k); [|now rewrite H1 in Ha]. simpl. apply str_eqb_neq in E. now rewrite E. }
  assert (O : forall x k2, k2 <> k0 -> dget k2 (dset k0 x a) = dget k2 a).
  { intros x k2 Hk. now apply dget_dset_other. }
  destruct (dget k0 a) as [av|] eqn:Ea.
  - assert (B : forall a1 e, snd (one v0 av) = Some e ->
       (snd (a1 : list (str * cval), Some e) = None <->
       forall k v av, dget k ((k0, v0) :: bd) = Some v -> dget k a = Some av -> snd (one v av) = None)).
    { intros a1 e He. split; [discriminate|]. intro H. specialize (H k0 v0 av). simpl in H.
      rewrite str_eqb_refl, He in H. specialize (H eq_refl Ea). discriminate H. }
    assert (F : forall x, snd (one v0 av) = None ->
       (snd (gmerge (CDict bd) (dset k0 x a)) = None <->
       forall k v av, dget k ((k0, v0) :: bd) = Some v -> dget k a = Some av -> snd (one v av) = None)).
    { intros x Ho. apply G; [apply O|]. intros av' E. inversion E; subst. exact Ho. }
    assert (S : snd (one v0 av) = None ->
       (snd (gmerge (CDict bd) a) = None <->
       forall k v av, dget k ((k0, v0) :: bd) = Some v -> dget k a = Some av -> snd (one v av) = None)).
    { intros Ho. apply G; [auto|]. intros av' E. inversion E; subst. exact Ho. }
    destruct v0 as [s0|l0|vd]; cbn [one] in B, F, S.
    + destruct (leaf av (CStr s0)) as [x [e|]]; [now apply B|now apply F].
    + destruct (leaf av (CList l0)) as [x [e|]]; [now apply B|now apply F].
    + destruct av as [s1|l1|ad]; cbn [snd] in B, F, S.
      * destruct (clash (CStr s1) vd); [now apply B|now apply S].
      * destruct (clash (CList l1) vd); [now apply B|now apply S].
      * destruct (gmerge (CDict vd) ad) as [ad' [e|]]; [now apply B|now apply F].
  - apply G; [|intros av E; discriminate E].
    intros k2 Hk. destruct absent; [now apply O|reflexivity].
Qed.
End Merge.

Definition non_empty (_ : cval) (d : list (str * cval)) : bool := match d with [] => false | _ => true end.
Definition some_key (v : cval) (d : list (str * cval)) : bool := existsb (fun kv => cval_contains (fst kv) v) d.

Lemma add_cons : forall k v r a, add_merge (CDict ((k, v) :: r)) a =
  match dget k a with
  | None => add_merge (CDict r) (dset k v a)
  | Some av =>
      match v with
      | CDict vd =>
          match av with
          | CDict ad =>
              match add_merge v ad with
              | (ad', None) => add_merge (CDict r) (dset k (CDict ad') a)
              | (ad', Some e) => (dset k (CDict ad') a, Some e)
              end
          | _ => match vd with [] => add_merge (CDict r) a | _ => (a, Some TypeError) end
          end
      | _ =>
          match cval_iadd av v with
          | (x, None) => add_merge (CDict r) (dset k x a)
          | (_, Some e) => (a, Some e)
          end
      end
  end.
Proof. reflexivity. Qed.
Lemma override_cons : forall k v r a, override_merge (CDict ((k, v) :: r)) a =
  match dget k a with
  | None => override_merge (CDict r) (dset k v a)
  | Some av =>
      match v with
      | CDict vd =>
          match av with
          | CDict ad =>
              match override_merge v ad with
              | (ad', None) => override_merge (CDict r) (dset k (CDict ad') a)
              | (ad', Some e) => (dset k (CDict ad') a, Some e)
              end
          | _ => match vd with [] => override_merge (CDict r) a | _ => (a, Some TypeError) end
          end
      | _ => override_merge (CDict r) (dset k v a)
      end
  end.
Proof. reflexivity. Qed.

Lemma add_gmerge : forall b a, add_merge b a = gmerge true cval_iadd non_empty b a.
Proof.
  apply (cval_rec2 (fun b => forall a, add_merge b a = gmerge true cval_iadd non_empty b a)); try reflexivity.
  intros d. induction d as [|[k v] d IH]; intros Hv a; [reflexivity|].
  assert (IHd : forall a, add_merge (CDict d) a = gmerge true cval_iadd non_empty (CDict d) a).
  { apply IH. intros k0 v0 H0. apply (Hv k0). now right. }
  rewrite add_cons, gmerge_cons. destruct (dget k a) as [av|]; [|apply IHd].
  destruct v as [s|l|vd].
  - destruct (cval_iadd av (CStr s)) as [x [e|]]; auto.
  - destruct (cval_iadd av (CList l)) as [x [e|]]; auto.
  - destruct av as [s|l|ad]; [destruct vd; first [apply IHd|reflexivity]|destruct vd; first [apply IHd|reflexivity]|].
    rewrite <- (Hv k (CDict vd)) by now left. destruct (add_merge (CDict vd) ad) as [ad' [e|]]; auto.
Qed.
Lemma override_gmerge : forall b a, override_merge b a = gmerge true (fun _ v => (v, None)) non_empty b a.
Proof.
  apply (cval_rec2 (fun b => forall a, override_merge b a = gmerge true (fun _ v => (v, None)) non_empty b a)); try reflexivity.
  intros d. induction d as [|[k v] d IH]; intros Hv a; [reflexivity|].
  assert (IHd : forall a, override_merge (CDict d) a = gmerge true (fun _ v => (v, None)) non_empty (CDict d) a).
  { apply IH. intros k0 v0 H0. apply (Hv k0). now right. }
  rewrite override_cons, gmerge_cons. destruct (dget k a) as [av|]; [|apply IHd].
  destruct v as [s|l|vd]; [apply IHd|apply IHd|].
  destruct av as [s|l|ad]; [destruct vd; first [apply IHd|reflexivity]|destruct vd; first [apply IHd|reflexivity]|].
  rewrite <- (Hv k (CDict vd)) by now left. destruct (override_merge (CDict vd) ad) as [ad' [e|]]; auto.
Qed.
Lemma remove_gmerge : forall b a, remove_merge b a = gmerge false (fun x v => (cval_minus x v, None)) some_key b a.
Proof. reflexivity. Qed.

(** ** Along paths *)

Section Paths.
Context (absent : bool).
Context (leaf : cval -> cval -> cval * option exn).
Context (clash : cval -> list (str * cval) -> bool).
Notation gm := (gmerge absent leaf clash).

Lemma gm_apart : forall p b a a', keys_once b -> gm b a = (a', None) -> apart p b ->
  at_path p (CDict a') = at_path p (CDict a).
Proof.
  induction p as [|k p IH]; intros b a a' Hk E [H1 H2]; [discriminate H1|].
  destruct b as [s|l|bd]; try discriminate E. pose proof Hk as Hk0. apply keys_once_dict in Hk. destruct Hk as [N Hk].
  pose proof (gmerge_get _ _ _ bd a a' N E k) as Hg. cbn [at_path]. rewrite Hg.
  simpl in H1. destruct (dget k bd) as [v|] eqn:Ev; [|reflexivity].
  destruct (H2 [k] p v eq_refl) as [vd Evd]; [simpl; now rewrite Ev|]. subst v.
  assert (Ha : apart p (CDict vd)).
  { split; [exact H1|]. intros q r v Eq Hq. apply (H2 (k :: q) r v); [now rewrite Eq|]. simpl. now rewrite Ev. }
  destruct (dget k a) as [av|] eqn:Ea.
  - destruct av as [s|l|ad]; cbn [one fst]; [reflexivity|reflexivity|].
    destruct (gm (CDict vd) ad) as [ad' e] eqn:Eg. cbn [fst].
    assert (He : snd (one absent leaf clash (CDict vd) (CDict ad)) = None).
    { assert (Hok : snd (gm (CDict bd) a) = None) by now rewrite E.
      eapply gmerge_ok in Hok; eassumption. }
    cbn [one snd] in He. rewrite Eg in He. simpl in He. subst e.
    eapply IH; [|exact Eg|exact Ha]. apply (Hk k). now apply dget_In.
  - destruct absent; [exact H1|reflexivity].
Qed.

Lemma gm_leaf : (absent = true -> forall v d, is_leaf v -> d <> [] -> clash v d = true) ->
  forall p b a a' v, keys_once b -> gm b a = (a', None) -> at_path p b = Some v -> is_leaf v ->
  at_path p (CDict a') = match at_path p (CDict a) with
                         | None => if absent then Some v else None
                         | Some av => Some (fst (leaf av v))
                         end.
Proof.
  intros Hcl. induction p as [|k p IH]; intros b a a' v Hk E Hp Hl.
  { inversion Hp; subst. destruct v; [discriminate E|discriminate E|destruct Hl]. }
  destruct b as [s|l|bd]; try discriminate E. apply keys_once_dict in Hk. destruct Hk as [N Hk].
  pose proof (gmerge_get _ _ _ bd a a' N E k) as Hg. cbn [at_path] in *. rewrite Hg.
  destruct (dget k bd) as [w|] eqn:Ew; [|discriminate Hp].
  assert (Hone : forall av, dget k a = Some av -> snd (one absent leaf clash w av) = None).
  { intros av Ea. assert (Hok : snd (gm (CDict bd) a) = None) by now rewrite E.
    eapply gmerge_ok in Hok; eassumption. }
  destruct (dget k a) as [av|] eqn:Ea.
  - specialize (Hone av eq_refl). destruct w as [s|l|wd].
    + destruct p as [|k2 p]; [|discriminate Hp]. inversion Hp; subst. reflexivity.
    + destruct p as [|k2 p]; [|discriminate Hp]. inversion Hp; subst. reflexivity.
    + assert (Hne : wd <> [] /\ p <> []).
      { destruct p as [|k2 p]; [inversion Hp; subst; destruct Hl|]. split; [|discriminate]. intros ->. discriminate Hp. }
      destruct av as [s|l|ad]; cbn [one fst snd] in *.
      * destruct p as [|k2 p]; [now destruct Hne|]. destruct absent; [|reflexivity]. rewrite Hcl in Hone; try tauto; try exact I. discriminate.
      * destruct p as [|k2 p]; [now destruct Hne|]. destruct absent; [|reflexivity]. rewrite Hcl in Hone; try tauto; try exact I. discriminate.
      * destruct (gm (CDict wd) ad) as [ad' e] eqn:Eg. simpl in Hone. subst e. cbn [fst].
        eapply IH; [|exact Eg|exact Hp|exact Hl]. apply (Hk k). now apply dget_In.
  - destruct absent; [exact Hp|reflexivity].
Qed.

Lemma gm_ok : forall b a, keys_once b -> is_dict b ->
  (snd (gm b a) = None <->
   (forall p d av, at_path p b = Some (CDict d) -> at_path p (CDict a) = Some av -> is_leaf av -> clash av d = false) /\
   (forall p v av, at_path p b = Some v -> is_leaf v -> at_path p (CDict a) = Some av -> snd (leaf av v) = None)).
Proof.
  apply (cval_rec2 (fun b => forall a, keys_once b -> is_dict b ->
  (snd (gm b a) = None <->
   (forall p d av, at_path p b = Some (CDict d) -> at_path p (CDict a) = Some av -> is_leaf av -> clash av d = false) /\
   (forall p v av, at_path p b = Some v -> is_leaf v -> at_path p (CDict a) = Some av -> snd (leaf av v) = None)))).
  - intros s a _ [d H]. discriminate H.
  - intros s a _ [d H]. discriminate H.
  - intros bd IH a Hk _. apply keys_once_dict in Hk. destruct Hk as [N Hk].
    rewrite (gmerge_ok absent leaf clash bd a N). split.
    + intro H. split.
      * intros p d av Hp Ha Hl. destruct p as [|k p]; [inversion Ha; subst; destruct Hl|]. cbn [at_path] in Hp, Ha.
        destruct (dget k bd) as [v|] eqn:Ev; [|discriminate]. destruct (dget k a) as [av0|] eqn:Ea; [|discriminate].
        specialize (H k v av0 Ev Ea). destruct p as [|k2 p].
        -- inversion Hp; inversion Ha; subst. destruct av; cbn [one snd] in H; [| |destruct Hl]; destruct (clash _ _); auto; discriminate.
        -- destruct v as [s|l|vd]; try discriminate Hp. destruct av0 as [s|l|ad]; try discriminate Ha.
           cbn [one snd] in H. apply (IH k) in H; [|now apply dget_In|apply (Hk k); now apply dget_In|now exists vd].
           destruct H as [H _]. eapply H; eassumption.
      * intros p v av Hp Hl Ha. destruct p as [|k p]; [inversion Hp; subst; destruct Hl|]. cbn [at_path] in Hp, Ha.
        destruct (dget k bd) as [w|] eqn:Ev; [|discriminate]. destruct (dget k a) as [av0|] eqn:Ea; [|discriminate].
        specialize (H k w av0 Ev Ea). destruct p as [|k2 p].
        -- inversion Hp; inversion Ha; subst. destruct v; [exact H|exact H|destruct Hl].
        -- destruct w as [s|l|vd]; try discriminate Hp. destruct av0 as [s|l|ad]; try discriminate Ha.
           cbn [one snd] in H. apply (IH k) in H; [|now apply dget_In|apply (Hk k); now apply dget_In|now exists vd].
           destruct H as [_ H]. eapply H; eassumption.
    + intros [H1 H2] k v av Ev Ea. destruct v as [s|l|vd].
      * apply (H2 [k] (CStr s) av); [simpl; now rewrite Ev|exact I|simpl; now rewrite Ea].
      * apply (H2 [k] (CList l) av); [simpl; now rewrite Ev|exact I|simpl; now rewrite Ea].
      * assert (H3 : is_leaf av -> clash av vd = false).
        { intro Hl. apply (H1 [k]); [simpl; now rewrite Ev|simpl; now rewrite Ea|exact Hl]. }
        destruct av as [s|l|ad]; cbn [one snd].
        -- now rewrite H3.
        -- now rewrite H3.
        -- apply (IH k); [now apply dget_In|apply (Hk k); now apply dget_In|now exists vd|]. split.
           ++ intros p d av Hp Ha. apply (H1 (k :: p)); cbn [at_path]; [now rewrite Ev|now rewrite Ea].
           ++ intros p v av Hp Hl Ha. apply (H2 (k :: p)); cbn [at_path]; [now rewrite Ev|exact Hl|now rewrite Ea].
Qed.
End Paths.

Lemma at_path_app : forall p q v, at_path (p ++ q) v = match at_path p v with Some x => at_path q x | None => None end.
Proof.
  induction p as [|k p IH]; intros q v; [reflexivity|]. simpl.
  destruct v as [s|l|d]; [reflexivity|reflexivity|]. destruct (dget k d); [apply IH|reflexivity].
Qed.

Lemma fits_clash : forall b db, fits b db <->
  forall p d av, at_path p b = Some (CDict d) -> at_path p db = Some av -> is_leaf av -> non_empty av d = false.
Proof.
  intros b db. split.
  - intros H p d av Hb Ha Hl. destruct d as [|[k x] d]; [reflexivity|]. exfalso.
    destruct (H p k x av) as [ad ->]; [|exact Ha|destruct Hl].
    rewrite at_path_app, Hb. simpl. now rewrite str_eqb_refl.
  - intros H p k x v Hb Ha. rewrite at_path_app in Hb. destruct (at_path p b) as [w|] eqn:Ew; [|discriminate].
    simpl in Hb. destruct w as [s|l|d]; try discriminate. destruct v as [s|l|vd]; [| |now exists vd];
    (specialize (H p d _ Ew Ha I); destruct d; [discriminate Hb|discriminate H]).
Qed.

Lemma lift_dict : forall f db b db' e, lift_upd f db b = (db', e) -> e = None \/ is_dict db ->
  exists a a', db = CDict a /\ db' = CDict a' /\ f b a = (a', e).
Proof.
  intros f db b db' e H He. destruct db as [s|l|a]; simpl in H.
  - inversion H; subst. destruct He as [He|[d He]]; discriminate.
  - inversion H; subst. destruct He as [He|[d He]]; discriminate.
  - destruct (f b a) as [a' e'] eqn:E. inversion H; subst. eauto.
Qed.

(** ** Getters *)

Lemma walk_at : forall ks v x, at_path ks v = Some x -> cval_walk ks v = Ok x.
Proof.
  induction ks as [|k ks IH]; intros v x H; [injection H as <-; reflexivity|]. cbn [at_path] in H.
  destruct v as [s|l|d]; [discriminate|discriminate|]. cbn [cval_walk cval_step bind].
  destruct (dget k d) as [y|]; [|discriminate]. exact (IH y x H).
Qed.
Lemma distros_at : forall db v, at_path ["replacements"; "distros"] db = Some v -> distros_known db = v.
Proof. intros db v H. apply walk_at in H. unfold distros_known, DistrosKnown.
  change (get_by_path "replacements/distros" db) with (cval_walk ["replacements"; "distros"] db). now rewrite H. Qed.
Lemma mirrors_at : forall db v, at_path ["replacements"; "mirrors"] db = Some v -> mirrors_known db = v.
Proof. intros db v H. apply walk_at in H. unfold mirrors_known, MirrorsKnown.
  change (get_by_path "replacements/mirrors" db) with (cval_walk ["replacements"; "mirrors"] db). now rewrite H. Qed.
Lemma classes_at : forall db v, at_path ["images"; "known-classes"] db = Some v -> images_classes db = v.
Proof. intros db v H. apply walk_at in H. unfold images_classes, ImagesClasses.
  change (get_by_path "images/known-classes" db) with (cval_walk ["images"; "known-classes"] db). now rewrite H. Qed.
Lemma variables_at : forall db v, at_path ["images"; "known-variables"] db = Some v -> images_variables db = v.
Proof. intros db v H. apply walk_at in H. unfold images_variables, ImagesVariables.
  change (get_by_path "images/known-variables" db) with (cval_walk ["images"; "known-variables"] db). now rewrite H. Qed.
