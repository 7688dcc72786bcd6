(** * Proofs of the properties of expansion *)

From Verif Require Import PyStr Regex Patterns PyPath Res Const Item Lines Stash StrFacts ReFacts LinesFacts NameFacts ExnFacts
  ReachFacts QueryFacts ExpandFacts ExpandText Spec_Query Proofs_Query Spec_Expand.
From Coq Require Import Permutation Sorted.

(** ** The meaning of a text, with the depth of the definitions it uses *)

Section Meaning.
  Context (known builtin : str -> option str).

  Inductive exk : nat -> list str -> str -> str -> Prop :=
  | exk_end : forall sp, exk 0 sp [] []
  | exk_char : forall k sp c v w, c <> 36%N -> exk k sp v w -> exk k sp (c :: v) (c :: w)
  | exk_dollar : forall k sp c v w, c <> 36%N -> c <> 123%N -> exk k sp v w -> exk k sp (36%N :: c :: v) (36%N :: c :: w)
  | exk_spare : forall k sp n v w, plain_name n -> In n sp -> exk k sp v w -> exk k sp (reference n ++ v) (reference n ++ w)
  | exk_known : forall j k sp n c d v w, plain_name n -> ~ In n sp -> known n = Some c -> no_code c ->
      exk j [] c d -> exk k sp v w -> exk (max (S j) k) sp (reference n ++ v) (d ++ w)
  | exk_builtin : forall k sp n b v w, plain_name n -> ~ In n sp -> known n = None -> builtin n = Some b -> ~ In 36%N b ->
      exk k sp v w -> exk k sp (reference n ++ v) (b ++ w)
  | exk_unknown : forall k sp n v w, plain_name n -> ~ In n sp -> known n = None -> builtin n = None ->
      exk k sp v w -> exk k sp (reference n ++ v) (reference n ++ w).

  Lemma exk_intro : forall sp v w, expands known builtin sp v w -> exists k, exk k sp v w.
  Proof.
    intros sp v w H. induction H as [sp|sp c v w Hc H [k IH]|sp c v w Hc Hc2 H [k IH]|sp n v w Hn Hi H [k IH]|sp n c d v w Hn Hi Hk Hc H1 [j IH1] H2 [k IH2]
      |sp n b v w Hn Hi Hk Hb Hd H [k IH]|sp n v w Hn Hi Hk Hb H [k IH]].
    - exists 0. constructor.
    - exists k. now constructor.
    - exists k. now constructor.
    - exists k. now constructor.
    - eexists. eapply exk_known; eassumption.
    - exists k. now apply exk_builtin.
    - exists k. now constructor.
  Qed.

  Lemma exk_det : forall k sp v w, exk k sp v w -> forall k' w', exk k' sp v w' -> k' = k /\ w' = w.
  Proof.
    intros k sp v w H. induction H as [sp|k sp c v w Hc H IH|k sp c v w Hc Hc2 H IH|k sp n v w Hn Hi H IH|j k sp n c d v w Hn Hi Hk Hc H1 IH1 H2 IH2
      |k sp n b v w Hn Hi Hk Hb Hd H IH|k sp n v w Hn Hi Hk Hb H IH]; intros k' w' H'.
    - inversion H'; subst; auto.
    - inversion H'; subst; try congruence. match goal with X : exk _ _ _ _ |- _ => destruct (IH _ _ X) as [-> ->] end. auto.
    - inversion H'; subst; try congruence. match goal with X : exk _ _ _ _ |- _ => destruct (IH _ _ X) as [-> ->] end. auto.
    - remember (reference n ++ v) as vv eqn:Ev. destruct H' as [sp|k' sp c' v' w' Hc' H'|k' sp c' v' w' Hc' Hc2' H'|k' sp n' v' w' Hn' Hi' H'|j' k' sp n' c' d' v' w' Hn' Hi' Hk' Hc' H1' H2'
      |k' sp n' b' v' w' Hn' Hi' Hk' Hb' Hd' H'|k' sp n' v' w' Hn' Hi' Hk' Hb' H']; try discriminate Ev;
      try (inversion Ev; congruence); apply ref_inj in Ev; try assumption; destruct Ev as [-> ->]; try contradiction; try congruence.
      destruct (IH _ _ H') as [-> ->]. auto.
    - remember (reference n ++ v) as vv eqn:Ev. destruct H' as [sp|k' sp c' v' w' Hc' H'|k' sp c' v' w' Hc' Hc2' H'|k' sp n' v' w' Hn' Hi' H'|j' k' sp n' c' d' v' w' Hn' Hi' Hk' Hc' H1' H2'
      |k' sp n' b' v' w' Hn' Hi' Hk' Hb' Hd' H'|k' sp n' v' w' Hn' Hi' Hk' Hb' H']; try discriminate Ev;
      try (inversion Ev; congruence); apply ref_inj in Ev; try assumption; destruct Ev as [-> ->]; try contradiction; try congruence.
      assert (c' = c) by congruence. subst c'.
      destruct (IH1 _ _ H1') as [-> ->]. destruct (IH2 _ _ H2') as [-> ->]. auto.
    - remember (reference n ++ v) as vv eqn:Ev. destruct H' as [sp|k' sp c' v' w' Hc' H'|k' sp c' v' w' Hc' Hc2' H'|k' sp n' v' w' Hn' Hi' H'|j' k' sp n' c' d' v' w' Hn' Hi' Hk' Hc' H1' H2'
      |k' sp n' b' v' w' Hn' Hi' Hk' Hb' Hd' H'|k' sp n' v' w' Hn' Hi' Hk' Hb' H']; try discriminate Ev;
      try (inversion Ev; congruence); apply ref_inj in Ev; try assumption; destruct Ev as [-> ->]; try contradiction; try congruence.
      assert (b' = b) by congruence. subst b'. destruct (IH _ _ H') as [-> ->]. auto.
    - remember (reference n ++ v) as vv eqn:Ev. destruct H' as [sp|k' sp c' v' w' Hc' H'|k' sp c' v' w' Hc' Hc2' H'|k' sp n' v' w' Hn' Hi' H'|j' k' sp n' c' d' v' w' Hn' Hi' Hk' Hc' H1' H2'
      |k' sp n' b' v' w' Hn' Hi' Hk' Hb' Hd' H'|k' sp n' v' w' Hn' Hi' Hk' Hb' H']; try discriminate Ev;
      try (inversion Ev; congruence); apply ref_inj in Ev; try assumption; destruct Ev as [-> ->]; try contradiction; try congruence.
      destruct (IH _ _ H') as [-> ->]. auto.
  Qed.

  (** The same on pieces. *)
  Definition stays (sp : list str) (m : str) : Prop := In m sp \/ (known m = None /\ builtin m = None).
  Inductive val (k : nat) (sp : list str) (n : str) : list pc -> Prop :=
  | val_stay : stays sp n -> val k sp n [G n]
  | val_builtin : forall b, ~ In n sp -> known n = None -> builtin n = Some b -> ~ In 36%N b -> val k sp n (map C b)
  | val_known : forall c us j, ~ In n sp -> known n = Some c -> no_code c -> S j <= k -> exk j [] c (gtext us) ->
      Forall good us -> (forall m, In (G m) us -> stays [] m) -> val k sp n us.

  Lemma val_mono : forall k k' sp n us, k <= k' -> val k sp n us -> val k' sp n us.
  Proof.
    intros k k' sp n us Hk H. inversion H; subst; [now apply val_stay|now apply val_builtin|].
    eapply val_known; try eassumption. lia.
  Qed.
  Lemma stays_nil : forall sp m, stays [] m -> stays sp m.
  Proof. intros sp m [[]|H]. now right. Qed.

  Definition pieces (k : nat) (sp : list str) (zs : list (pc * list pc)) : Prop :=
    Forall good (map fst zs) /\ Forall good (concat (map snd zs)) /\
    (forall m, In (G m) (concat (map snd zs)) -> stays sp m) /\
    forall p r, In (p, r) zs -> match p with C c => r = [C c] | D c => r = [D c] | G n => val k sp n r end.
  Lemma pieces_cons : forall k sp p r zs, good p -> Forall good r -> (forall m, In (G m) r -> stays sp m) ->
    match p with C c => r = [C c] | D c => r = [D c] | G n => val k sp n r end -> pieces k sp zs -> pieces k sp ((p, r) :: zs).
  Proof.
    intros k sp p r zs Hp Hr Hs Hv [H1 [H2 [H3 H4]]]. split; [|split; [|split]]; simpl.
    - now constructor.
    - apply Forall_app. now split.
    - intros m Hm. apply in_app_or in Hm. destruct Hm as [Hm|Hm]; auto.
    - intros q u [E|Hi]; [inversion E; subst; exact Hv|now apply H4].
  Qed.
  Lemma pieces_mono : forall k k' sp zs, k <= k' -> pieces k sp zs -> pieces k' sp zs.
  Proof.
    intros k k' sp zs Hk [H1 [H2 [H3 H4]]]. split; [exact H1|split; [exact H2|split; [exact H3|]]].
    intros p r Hi. specialize (H4 p r Hi). destruct p; [exact H4|exact H4|]. eapply val_mono; eassumption.
  Qed.

  Lemma chars_good : forall b, ~ In 36%N b -> Forall good (map C b).
  Proof.
    intros b H. apply Forall_forall. intros p Hp. apply in_map_iff in Hp. destruct Hp as [c [<- Hc]]. simpl. intro E.
    subst. contradiction.
  Qed.
  Lemma exk_pieces : forall k sp v w, exk k sp v w ->
    exists zs, v = gtext (map fst zs) /\ w = gtext (concat (map snd zs)) /\ pieces k sp zs.
  Proof.
    intros k sp v w H. induction H as [sp|k sp c v w Hc H [zs [Ev [Ew Hz]]]|k sp c v w Hc Hc2 H [zs [Ev [Ew Hz]]]|k sp n v w Hn Hi H [zs [Ev [Ew Hz]]]
      |j k sp n c d v w Hn Hi Hk Hc H1 [zs1 [Ev1 [Ew1 Hz1]]] H2 [zs [Ev [Ew Hz]]]
      |k sp n b v w Hn Hi Hk Hb Hd H [zs [Ev [Ew Hz]]]|k sp n v w Hn Hi Hk Hb H [zs [Ev [Ew Hz]]]].
    - exists []. split; [reflexivity|]. split; [reflexivity|]. split; [constructor|]. split; [constructor|].
      split; [intros m []|intros p r []].
    - exists ((C c, [C c]) :: zs). subst. split; [reflexivity|]. split; [reflexivity|].
      apply pieces_cons; [exact Hc|now constructor| |reflexivity|exact Hz]. intros m [E|[]]. discriminate.
    - exists ((D c, [D c]) :: zs). subst. split; [reflexivity|]. split; [reflexivity|].
      apply pieces_cons; [now split|constructor; [now split|constructor]| |reflexivity|exact Hz]. intros m [E|[]]. discriminate.
    - exists ((G n, [G n]) :: zs). subst. split; [reflexivity|]. split; [reflexivity|].
      apply pieces_cons; [exact Hn|now constructor| |apply val_stay; now left|exact Hz]. intros m [E|[]]. inversion E; subst. now left.
    - exists ((G n, concat (map snd zs1)) :: zs). subst. split; [reflexivity|].
      split; [simpl; now rewrite gtext_app|]. destruct Hz1 as [Z1 [Z2 [Z3 Z4]]]. apply pieces_cons; auto.
      + intros m Hm. apply stays_nil. now apply Z3.
      + apply val_known with (c := gtext (map fst zs1)) (j := j); auto. lia.
      + eapply pieces_mono; [|exact Hz]. lia.
    - exists ((G n, map C b) :: zs). subst. split; [reflexivity|].
      split; [simpl; rewrite gtext_app; now rewrite gtext_chars|].
      apply pieces_cons; [exact Hn|now apply chars_good| |now apply val_builtin|exact Hz].
      intros m Hm. apply in_map_iff in Hm. destruct Hm as [c [E _]]. discriminate.
    - exists ((G n, [G n]) :: zs). subst. split; [reflexivity|]. split; [reflexivity|].
      apply pieces_cons; [exact Hn|now constructor| |apply val_stay; now right|exact Hz]. intros m [E|[]]. inversion E; subst. now right.
  Qed.

  Lemma gtext_inj : forall a b, Forall good a -> Forall good b -> gtext a = gtext b -> a = b.
  Proof.
    induction a as [|p a IH]; intros b Ha Hb E.
    - destruct b as [|[c|c|n] b]; [reflexivity|discriminate|discriminate|discriminate].
    - inversion Ha as [|p0 a0 Hp Ha']; subst. destruct b as [|q b]; [destruct p; discriminate|].
      inversion Hb as [|q0 b0 Hq Hb']; subst.
      change (ptext p ++ gtext a = ptext q ++ gtext b) in E. destruct p as [c|c|n], q as [d|d|m]; simpl in Hp, Hq.
      + simpl in E. inversion E; subst. f_equal. now apply IH.
      + simpl in E. inversion E; subst. congruence.
      + simpl in E. inversion E; subst. congruence.
      + simpl in E. inversion E; subst. congruence.
      + simpl in E. inversion E; subst. f_equal. now apply IH.
      + simpl in E. inversion E; subst. now destruct Hp.
      + simpl in E. inversion E; subst. congruence.
      + simpl in E. inversion E; subst. now destruct Hq.
      + apply ref_inj in E; [|exact Hp|exact Hq]. destruct E as [-> E]. f_equal. now apply IH.
  Qed.
  Lemma val_det : forall k k' sp n a b, val k sp n a -> val k' sp n b -> a = b.
  Proof.
    intros k k' sp n a b Ha Hb. destruct Ha as [Ha|x H1 H2 H3 H4|c us j H1 H2 H3 H4 H5 H6 H7];
    destruct Hb as [Hb|x' H1' H2' H3' H4'|c' us' j' H1' H2' H3' H4' H5' H6' H7'];
      try reflexivity; try congruence; try (destruct Ha as [Ha|[Ha Ha2]]; try contradiction; congruence);
      try (destruct Hb as [Hb|[Hb Hb2]]; try contradiction; congruence).
    assert (c' = c) by congruence. subst c'. destruct (exk_det _ _ _ _ H5 _ _ H5') as [_ E].
    symmetry. now apply gtext_inj.
  Qed.

  (** One value for every name. *)
  Definition value_in (zs : list (pc * list pc)) (n : str) : list pc :=
    match find (fun z => match fst z with G m => str_eqb m n | C _ | D _ => false end) zs with
    | Some z => snd z
    | None => [G n]
    end.
  Lemma value_in_val : forall k sp zs n r, pieces k sp zs -> In (G n, r) zs -> value_in zs n = r.
  Proof.
    intros k sp zs n r [_ [_ [_ H4]]] Hi. unfold value_in. destruct (find _ zs) as [[p u]|] eqn:E.
    - apply find_some in E. destruct E as [E1 E2]. simpl in E2. destruct p as [c|c|m]; [discriminate|discriminate|].
      apply str_eqb_eq in E2. subst m. simpl. apply (val_det k k sp n); [exact (H4 _ _ E1)|exact (H4 _ _ Hi)].
    - exfalso. apply (find_none _ _ E) in Hi. simpl in Hi. now rewrite str_eqb_refl in Hi.
  Qed.
  Lemma pieces_pmap : forall k sp zs, pieces k sp zs -> concat (map snd zs) = pmap (value_in zs) (map fst zs).
  Proof.
    intros k sp zs Hz. assert (Hl : forall l, (forall z, In z l -> In z zs) -> concat (map snd l) = pmap (value_in zs) (map fst l)).
    { induction l as [|[p r] l IH]; intro Hi; [reflexivity|].
      change (pmap (value_in zs) (map fst ((p, r) :: l))) with
        ((match p with C c => [C c] | D c => [D c] | G n => value_in zs n end) ++ pmap (value_in zs) (map fst l)).
      simpl. rewrite IH by (intros z Hin; apply Hi; now right). f_equal.
      assert (Hin : In (p, r) zs) by (apply Hi; now left). destruct p as [c|c|n].
      - destruct Hz as [_ [_ [_ H4]]]. exact (H4 _ _ Hin).
      - destruct Hz as [_ [_ [_ H4]]]. exact (H4 _ _ Hin).
      - symmetry. eapply value_in_val; eassumption. }
    apply Hl. auto.
  Qed.
End Meaning.

(** ** ExpandTerm computes the meaning *)

Section Expand.
  Context (e : env) (s : stash) (file : str).
  Let known := content_of e s file.
  Let builtin (n : str) := builtin_value file n [].
  Local Notation exk := (exk known builtin).
  Local Notation val := (val known builtin).

  (** What is remembered of a name: its value, or that it is being expanded. *)
  Definition fin (n r : str) : Prop := exists c j, known n = Some c /\ exk j [] c r.
  Definition busy (k : nat) (n : str) : Prop := forall c j d, known n = Some c -> exk j [] c d -> k <= j.
  Definition inv (k : nat) (seen : seen_t) : Prop := forall n r, dget n seen = Some r -> fin n r \/ busy k n.
  Definition newfin (a b : seen_t) : Prop := forall n r, dget n b = Some r -> fin n r \/ dget n a = Some r.
  Lemma newfin_refl : forall a, newfin a a. Proof. intros a n r H. now right. Qed.
  Lemma newfin_trans : forall a b c, newfin a b -> newfin b c -> newfin a c.
  Proof. intros a b c H1 H2 n r H. destruct (H2 n r H) as [Hf|Hf]; [now left|auto]. Qed.
  Lemma newfin_inv : forall k a b, newfin a b -> inv k a -> inv k b.
  Proof. intros k a b H1 H2 n r H. destruct (H1 n r H) as [Hf|Hf]; [now left|auto]. Qed.

  (** One name, whatever match it comes from. *)
  Definition one (rec : str -> seen_t -> Res.res (str * seen_t)) (sp : list str) (x : str * seen_t) (gn : str * str)
    : Res.res (str * seen_t) :=
    let '(res, seen) := x in let '(g, n) := gn in
    if mem_str n sp then Ok (res, seen)
    else match known n with
         | Some c => match dget n seen with
                     | Some r => Ok (replace g r res, seen)
                     | None => do y <- rec c (dset n [] seen); Ok (replace g (fst y) res, dset n (fst y) (snd y))
                     end
         | None => match builtin n with
                   | Some v => Ok (replace g v res, seen)
                   | None => Ok (res, seen)
                   end
         end.
  Lemma one_eq : forall rec sp ms x,
    fold_res (expand_one e s file rec sp []) ms x = fold_res (one rec sp) (map (fun m => (g0 m, group_str "1" m)) ms) x.
  Proof.
    intros rec sp ms. induction ms as [|m ms IH]; intros [res seen]; [reflexivity|]. cbn [fold_res map].
    rewrite expand_one_eq. cbv zeta. fold known. fold (builtin (group_str "1" m)).
    change (one rec sp (res, seen) (g0 m, group_str "1" m)) with
     (if mem_str (group_str "1" m) sp then Ok (res, seen)
      else match known (group_str "1" m) with
           | Some c => match dget (group_str "1" m) seen with
                       | Some r => Ok (replace (g0 m) r res, seen)
                       | None => do y <- rec c (dset (group_str "1" m) [] seen);
                                 Ok (replace (g0 m) (fst y) res, dset (group_str "1" m) (fst y) (snd y))
                       end
           | None => match builtin (group_str "1" m) with
                     | Some v => Ok (replace (g0 m) v res, seen)
                     | None => Ok (res, seen)
                     end
           end).
    match goal with |- bind ?a _ = bind ?a _ => destruct a; cbn [bind]; [apply IH|reflexivity|reflexivity] end.
  Qed.

  Lemma step : forall rec k sp seen gs n us,
    (forall j c d sn, S j <= k -> exk j [] c d -> no_code c -> inv j sn ->
       rec c sn = NoFuel \/ exists sn', rec c sn = Ok (d, sn') /\ newfin sn sn') ->
    Forall good gs -> good_name n -> val k sp n us -> inv k seen ->
    one rec sp (gtext gs, seen) (ref n, n) = NoFuel \/
    exists seen', one rec sp (gtext gs, seen) (ref n, n) = Ok (gtext (psub n us gs), seen') /\ newfin seen seen'.
  Proof.
    intros rec k sp seen gs n us Hrec Hg Hn Hv Hi. unfold one. inversion Hv as [Hs|b Hsp Hk Hb Hd|c us0 j Hsp Hk Hc Hj Hx Hu Hst]; subst.
    - right. exists seen. split; [|apply newfin_refl].
      assert (E : psub n [G n] gs = gs).
      { rewrite psub_pmap. apply pmap_id. intros m _. destruct (str_eqb m n) eqn:E; [|reflexivity].
        apply str_eqb_eq in E. now subst. }
      rewrite E. destruct (mem_str n sp) eqn:Em; [reflexivity|]. destruct Hs as [Hs|[-> ->]]; [|reflexivity].
      apply mem_str_In in Hs. congruence.
    - right. exists seen. split; [|apply newfin_refl]. rewrite <- replace_text by assumption. rewrite gtext_chars.
      destruct (mem_str n sp) eqn:Em; [apply mem_str_In in Em; contradiction|]. now rewrite Hk, Hb.
    - destruct (mem_str n sp) eqn:Em; [apply mem_str_In in Em; contradiction|]. rewrite Hk.
      destruct (dget n seen) as [r|] eqn:Es.
      + right. exists seen. split; [|apply newfin_refl]. rewrite <- replace_text by assumption.
        destruct (Hi n r Es) as [[c' [j' [Hk' Hx']]]|Hb].
        * assert (c' = c) by congruence. subst c'. destruct (exk_det _ _ _ _ _ _ Hx _ _ Hx') as [_ ->]. reflexivity.
        * specialize (Hb c j _ Hk Hx). lia.
      + destruct (Hrec j c (gtext us) (dset n [] seen) Hj Hx Hc) as [E|[sn' [E Hf]]].
        * intros m r Hm. destruct (str_eqb m n) eqn:E.
          -- apply str_eqb_eq in E. subst m. right. intros c' j' d' Hk' Hx'. assert (c' = c) by congruence. subst c'.
             destruct (exk_det _ _ _ _ _ _ Hx _ _ Hx') as [-> _]. lia.
          -- rewrite dget_dset_other in Hm by (intro; subst; now rewrite str_eqb_refl in E).
             destruct (Hi m r Hm) as [Hf|Hb]; [now left|]. right. intros c' j' d' Hk' Hx'. specialize (Hb c' j' d' Hk' Hx'). lia.
        * left. now rewrite E.
        * right. rewrite E. cbn [bind fst snd]. exists (dset n (gtext us) sn'). split.
          -- now rewrite replace_text by assumption.
          -- intros m r Hm. destruct (str_eqb m n) eqn:E2.
             ++ apply str_eqb_eq in E2. subst m. rewrite dget_dset_same in Hm. inversion Hm; subst. left. exists c, j. now split.
             ++ rewrite dget_dset_other in Hm by (intro; subst; now rewrite str_eqb_refl in E2).
                destruct (Hf m r Hm) as [H|H]; [now left|]. right.
                rewrite dget_dset_other in H by (intro; subst; now rewrite str_eqb_refl in E2). exact H.
  Qed.

  Lemma psub_good : forall n us gs, Forall good us -> Forall good gs -> Forall good (psub n us gs).
  Proof.
    intros n us gs Hu Hg. apply Forall_forall. intros p Hp. unfold psub in Hp. apply in_flat_map in Hp.
    destruct Hp as [q [Hq Hp]]. rewrite Forall_forall in Hg, Hu. specialize (Hg q Hq). destruct q as [c|c|m].
    - destruct Hp as [<-|[]]. exact Hg.
    - destruct Hp as [<-|[]]. exact Hg.
    - destruct (str_eqb m n); [now apply Hu|]. destruct Hp as [<-|[]]. exact Hg.
  Qed.
  Lemma steps_all : forall rec k sp f,
    (forall j c d sn, S j <= k -> exk j [] c d -> no_code c -> inv j sn ->
       rec c sn = NoFuel \/ exists sn', rec c sn = Ok (d, sn') /\ newfin sn sn') ->
    forall ns, (forall n, In n ns -> good_name n /\ Forall good (f n) /\ val k sp n (f n)) ->
    forall gs seen, Forall good gs -> inv k seen ->
    fold_res (one rec sp) (map (fun n => (ref n, n)) ns) (gtext gs, seen) = NoFuel \/
    exists seen', fold_res (one rec sp) (map (fun n => (ref n, n)) ns) (gtext gs, seen) =
      Ok (gtext (fold_left (fun l n => psub n (f n) l) ns gs), seen') /\ newfin seen seen'.
  Proof.
    intros rec k sp f Hrec ns. induction ns as [|n ns IH]; intros Hns gs seen Hg Hi.
    - right. exists seen. split; [reflexivity|apply newfin_refl].
    - destruct (Hns n (or_introl eq_refl)) as [H1 [H2 H3]]. cbn [map fold_res fold_left].
      destruct (step rec k sp seen gs n (f n) Hrec Hg H1 H3 Hi) as [E|[sn1 [E Hf]]]; rewrite E; cbn [bind]; [now left|].
      destruct (IH (fun m Hm => Hns m (or_intror Hm)) (psub n (f n) gs) sn1) as [E2|[sn2 [E2 Hf2]]].
      + now apply psub_good.
      + eapply newfin_inv; eassumption.
      + now left.
      + right. exists sn2. split; [exact E2|]. eapply newfin_trans; eassumption.
  Qed.

  Lemma expand_meaning : forall vf k lf sp (v w : str) (seen : seen_t),
    exk k sp v w -> no_code v -> inv k seen ->
    expand_f vf e s file lf sp v seen = NoFuel \/
    exists sn, expand_f vf e s file lf sp v seen = Ok (w, sn) /\ newfin seen sn.
  Proof.
    intros vf. induction vf as [vf IHv] using lt_wf_ind. intros k lf sp v w seen Hx [Hc1 Hc2] Hi.
    rewrite expand_f_eq. destruct (exk_pieces _ _ _ _ _ _ Hx) as [zs [Ev [Ew Hz]]].
    set (rec := fun (cnt : str) (sn : seen_t) => match vf with O => NoFuel | S vf' => expand_f vf' e s file (length cnt) [] cnt sn end).
    pose proof (pieces_pmap _ _ _ _ _ Hz) as Hp. rewrite Ew, Hp. destruct Hz as [Z1 [Z2 [Z3 Z4]]].
    assert (Hz : pieces known builtin k sp zs) by (repeat split; assumption).
    rewrite (finditer_ref2_none v) by exact Hc1.
    replace (re_finditer re_read_file v) with (@nil rmatch) by (symmetry; now apply finditer_read_none).
    rewrite one_eq. replace (re_finditer re_var_ref v) with (re_finditer re_var_ref (gtext (map fst zs))) by now rewrite Ev.
    replace (v, seen) with (gtext (map fst zs), seen) by now rewrite Ev. rewrite refs_found by exact Z1.
    assert (Hnames : forall n, In n (pnames (map fst zs)) -> exists r, In (G n, r) zs).
    { intros n Hn. unfold pnames in Hn. apply in_flat_map in Hn. destruct Hn as [p [Hp1 Hp2]]. destruct p as [c|c|m]; [contradiction|contradiction|].
      destruct Hp2 as [<-|[]]. apply in_map_iff in Hp1. destruct Hp1 as [[q r] [Eq Hq]]. simpl in Eq. subst. now exists r. }
    destruct (steps_all rec k sp (value_in zs)) with (ns := pnames (map fst zs)) (gs := map fst zs) (seen := seen)
      as [E|[sn [E Hf]]].
    - intros j c d sn Hj Hxj Hcj Hij. unfold rec. destruct vf as [|vf]; [now left|].
      destruct (IHv vf (Nat.lt_succ_diag_r vf) j (length c) [] c d sn Hxj Hcj Hij) as [E|[sn' [E Hf]]]; [now left|].
      right. now exists sn'.
    - intros n Hn. destruct (Hnames n Hn) as [r Hr]. rewrite (value_in_val _ _ k sp zs n r Hz Hr).
      split; [|split].
      + rewrite Forall_forall in Z1. apply (Z1 (G n)). change (G n) with (fst (G n, r)). now apply in_map.
      + apply Forall_forall. intros p Hpr. rewrite Forall_forall in Z2. apply Z2. apply in_concat. exists r. split; [|exact Hpr].
        change r with (snd (G n, r)). now apply in_map.
      + exact (Z4 _ _ Hr).
    - exact Z1.
    - exact Hi.
    - left. now rewrite E.
    - right. exists sn. split; [|exact Hf]. rewrite E. cbn [bind fold_res]. f_equal. f_equal. f_equal.
      rewrite psub_all.
      + apply pmap_ext. intros n Hn. destruct (mem_str n (pnames (map fst zs))) eqn:Em; [reflexivity|]. exfalso.
        assert (Hi2 : In n (pnames (map fst zs))).
        { unfold pnames. apply in_flat_map. exists (G n). split; [exact Hn|now left]. }
        apply mem_str_In in Hi2. congruence.
      + intros n m Hn Hm Hmn. destruct (Hnames n Hn) as [r Hr]. rewrite (value_in_val _ _ k sp zs n r Hz Hr) in Hm.
        destruct (Hnames m Hmn) as [u Hu]. rewrite (value_in_val _ _ k sp zs m u Hz Hu).
        assert (Hst : stays known builtin sp m).
        { apply Z3. apply in_concat. exists r. split; [|exact Hm]. change r with (snd (G n, r)). now apply in_map. }
        eapply val_det; [exact (Z4 _ _ Hu)|]. apply (val_stay _ _ k). exact Hst.
  Qed.
End Expand.

Lemma expand_term_meaning : forall e s file spare v w, env_ok e -> no_code v ->
  expands (content_of e s file) (fun n => builtin_value file n []) spare v w ->
  expand_term_full e s file v spare [] None = Ok w.
Proof.
  intros e s file spare v w He Hc H. apply exk_intro in H. destruct H as [k Hk].
  unfold expand_term_full, expand_seen.
  destruct (expand_total e s file He (expand_fuel s) (length v) spare v []) as [Ht _]; [apply unseen_fuel|lia|].
  destruct (expand_meaning e s file (expand_fuel s) k (length v) spare v w [] Hk Hc) as [E|[sn [E _]]].
  - intros n r Hn. discriminate.
  - contradiction.
  - rewrite E. reflexivity.
Qed.

(** ** The text a name stands for *)

Lemma amends_iff : forall op subs, append_operation op subs = [] <-> ~ amends op subs.
Proof.
  intros op subs. unfold append_operation, amends.
  rewrite <- !(mem_str_In _ subs). rewrite <- (mem_str_In (strip_ws op)). fold append_ops.
  destruct (mem_str (strip_ws op) append_ops), (mem_str "append" subs), (mem_str "prepend" subs), (mem_str "remove" subs);
    split; intro H; try discriminate H; try reflexivity; try (exfalso; apply H; tauto);
    intros [X|[X|[X|X]]]; discriminate X.
Qed.
Lemma definition_iff : forall e s file n i, env_ok e -> reach e s -> n <> [] ->
  definition s file n i <->
  In i (vars_named e s file n) /\ append_operation (var_op i) (var_subs i) = [].
Proof.
  intros e s file n i He Hr Hn. unfold vars_named. destruct (C28_lemma e s
    (MkQuery (Some file) (AOne "Variable") (AOne "VarName") (AOne (VStr n)) false) He Hr) as [H _]. rewrite H. clear H.
  rewrite <- sel_iff. rewrite sel_vars by exact Hn.
  assert (Hv : is_linked_to (st_map s) (it_origin i) file false = true <-> it_origin i = file \/ linked s file (it_origin i)).
  { unfold is_linked_to. rewrite Bool.orb_true_iff, Bool.andb_true_iff, linked_iff, str_eqb_eq. simpl. intuition congruence. }
  rewrite Hv. clear Hv. unfold definition, visible, is_var. split.
  - intros [H1 [H2 [sub [subs [v [op [rawn [E Ha]]]]]]]]. split; [split; [exact H1|split; [exact H2|now exists sub, subs, v, op, rawn]]|].
    unfold var_op, var_subs. rewrite E. now apply amends_iff.
  - intros [[H1 [H2 [sub [subs [v [op [rawn E]]]]]]] Ha]. split; [exact H1|split; [exact H2|]].
    exists sub, subs, v, op, rawn. split; [exact E|]. apply amends_iff. unfold var_op, var_subs in Ha. now rewrite E in Ha.
Qed.
Lemma sorted_filter : forall (R : item -> item -> Prop) f l, StronglySorted R l -> StronglySorted R (filter f l).
Proof.
  intros R f l H. induction H as [|x l H IH Hx]; simpl; [constructor|]. destruct (f x); [|exact IH]. constructor; [exact IH|].
  rewrite Forall_forall in *. intros y Hy. apply filter_In in Hy. now apply Hx.
Qed.
Lemma content_stands : forall e s file n, env_ok e -> reach e s -> n <> [] -> stands_for s file n (content_of e s file n).
Proof.
  intros e s file n He Hr Hn. unfold content_of.
  set (P := fun x : item => match append_operation (var_op x) (var_subs x) with [] => true | _ => false end).
  assert (HP : forall i, In i (filter P (vars_named e s file n)) <-> definition s file n i).
  { intro i. rewrite filter_In, definition_iff by eassumption. unfold P. destruct (append_operation _ _); intuition discriminate. }
  unfold first_definition. fold P. destruct (filter P (vars_named e s file n)) as [|d l] eqn:E.
  - assert (Hno : forall i, ~ definition s file n i) by (intros i Hd; apply HP in Hd; exact Hd).
    unfold stands_for. destruct (dget n (sets_base (st_const s))) as [c|]; [right|]; now split.
  - simpl. left. exists d. split.
    + split; [apply HP; now left|]. intros j Hj. apply HP in Hj.
      assert (Hs : StronglySorted by_line (d :: l)).
      { rewrite <- E. apply sorted_filter. destruct (C28_lemma e s
          (MkQuery (Some file) (AOne "Variable") (AOne "VarName") (AOne (VStr n)) false) He Hr) as [_ [_ H]]. exact H. }
      inversion Hs as [|a b Hs1 Hs2]; subst. destruct Hj as [->|Hj]; [unfold by_line; lia|].
      rewrite Forall_forall in Hs2. now apply Hs2.
    + unfold text_of, var_content. split; intro H; now rewrite H.
Qed.
Lemma builtin_eq : forall file n, builtin_value file n [] = dget n (builtins file).
Proof.
  intros file n. unfold builtin_value, builtins. cbn [dget]. rewrite !app_nil_r. reflexivity.
Qed.

Lemma expands_ext : forall known b1 b2, (forall n, b1 n = b2 n) -> forall sp v w, expands known b1 sp v w -> expands known b2 sp v w.
Proof.
  intros known b1 b2 Hb sp v w H. induction H as [sp|sp c v w Hc H IH|sp c v w Hc Hc2 H IH|sp n v w Hn Hi H IH|sp n c d v w Hn Hi Hk Hc H1 IH1 H2 IH2
      |sp n b v w Hn Hi Hk Hv Hd H IH|sp n v w Hn Hi Hk Hv H IH].
  - apply ex_end.
  - now apply ex_char.
  - now apply ex_dollar.
  - now apply ex_spare.
  - now apply ex_known with (c := c).
  - apply ex_builtin; try assumption. now rewrite <- Hb.
  - apply ex_unknown; try assumption. now rewrite <- Hb.
Qed.

Lemma C45_lemma : forall e s file, env_ok e -> reach e s ->
  exists known, (forall n, n <> [] -> stands_for s file n (known n)) /\
  forall spare v w, no_code v -> expands known (fun n => dget n (builtins file)) spare v w ->
    expand_term_full e s file v spare [] None = Ok w.
Proof.
  intros e s file He Hr. exists (content_of e s file). split.
  - intros n Hn. now apply content_stands.
  - intros spare v w Hc H. apply expand_term_meaning; [exact He|exact Hc|].
    eapply expands_ext; [|exact H]. intro n. symmetry. apply builtin_eq.
Qed.
Lemma stands_unique : forall s file n a b,
  (forall i j, definition s file n i -> definition s file n j -> it_line i = it_line j -> i = j) ->
  stands_for s file n a -> stands_for s file n b -> a = b.
Proof.
  intros s file n a b Ht Ha Hb.
  assert (Hu : forall i j x y, first_of s file n i -> first_of s file n j -> text_of i x -> text_of j y -> x = y).
  { intros i j x y [Hi Hi2] [Hj Hj2] [X1 X2] [Y1 Y2]. assert (i = j).
    { apply Ht; try assumption. specialize (Hi2 j Hj). specialize (Hj2 i Hi). unfold by_line in *. lia. }
    subst j. destruct (contains INLINE_BLOCK (stripped i)).
    - transitivity (reverse_inline_block i); [now apply X2|symmetry; now apply Y2].
    - transitivity (stripped i); [now apply X1|symmetry; now apply Y1]. }
  destruct a as [a|], b as [b|]; simpl in Ha, Hb.
  - f_equal. destruct Ha as [[i [Hi Ti]]|[Hn Ea]], Hb as [[j [Hj Tj]]|[Hm Eb]].
    + exact (Hu i j a b Hi Hj Ti Tj).
    + exfalso. destruct Hi as [Hi _]. now apply (Hm i).
    + exfalso. destruct Hj as [Hj _]. now apply (Hn j).
    + congruence.
  - exfalso. destruct Hb as [Hm Eb]. destruct Ha as [[i [[Hi _] _]]|[Hn Ea]]; [now apply (Hm i)|congruence].
  - exfalso. destruct Ha as [Hm Eb]. destruct Hb as [[i [[Hi _] _]]|[Hn Ea]]; [now apply (Hm i)|congruence].
  - reflexivity.
Qed.
Lemma C45_exact_lemma : forall e s file known, env_ok e -> reach e s ->
  (forall n i j, definition s file n i -> definition s file n j -> it_line i = it_line j -> i = j) ->
  (forall n, n <> [] -> stands_for s file n (known n)) ->
  forall spare v w, no_code v -> expands known (fun n => dget n (builtins file)) spare v w ->
    expand_term_full e s file v spare [] None = Ok w.
Proof.
  intros e s file known He Hr Ht Hk spare v w Hc H. apply expand_term_meaning; [exact He|exact Hc|].
  assert (Hsame : forall n, n <> [] -> known n = content_of e s file n).
  { intros n Hn. apply (stands_unique s file n); [apply Ht|now apply Hk|now apply content_stands]. }
  clear Hc. apply (expands_ext _ _ (fun n => builtin_value file n [])) in H; [|intro n; symmetry; apply builtin_eq].
  induction H as [sp|sp c v w Hc H IH|sp c v w Hc Hc2 H IH|sp n v w Hn Hi H IH|sp n c d v w Hn Hi Hkn Hc H1 IH1 H2 IH2
      |sp n b v w Hn Hi Hkn Hv Hd H IH|sp n v w Hn Hi Hkn Hv H IH].
  - apply ex_end.
  - now apply ex_char.
  - now apply ex_dollar.
  - now apply ex_spare.
  - apply ex_known with (c := c); try assumption. rewrite <- Hsame by apply Hn. exact Hkn.
  - apply ex_builtin; try assumption. rewrite <- Hsame by apply Hn. exact Hkn.
  - apply ex_unknown; try assumption. rewrite <- Hsame by apply Hn. exact Hkn.
Qed.

(** Two texts. *)
Lemma expands_app : forall known builtin sp a x, expands known builtin sp a x -> forall b y, expands known builtin sp b y ->
  expands known builtin sp (a ++ b) (x ++ y).
Proof.
  intros known builtin sp a x H. induction H as [sp|sp c v w Hc H IH|sp c v w Hc Hc2 H IH|sp n v w Hn Hi H IH|sp n c d v w Hn Hi Hk Hc H1 IH1 H2 IH2
      |sp n b v w Hn Hi Hk Hv Hd H IH|sp n v w Hn Hi Hk Hv H IH]; intros b' y Hb'; try rewrite <- !app_assoc.
  - exact Hb'.
  - apply ex_char; auto.
  - apply ex_dollar; auto.
  - apply ex_spare; auto.
  - apply ex_known with (c := c); auto.
  - apply ex_builtin; auto.
  - apply ex_unknown; auto.
Qed.

(** ** Termination, texts that stay *)

Lemma C42_lemma : forall e s file value spare seen objref, env_ok e ->
  (exists w, expand_term_full e s file value spare seen objref = Ok w) \/
  expand_term_full e s file value spare seen objref = Raise OSError.
Proof.
  intros e s file value spare seen objref He.
  destruct (expand_term_full e s file value spare seen objref) as [w|ex|] eqn:E.
  - left. now exists w.
  - right. f_equal. unfold expand_term_full, expand_seen in E.
    destruct (expand_f _ _ _ _ _ _ _ _) as [y|e1|] eqn:E1; cbn [bind] in E; try discriminate.
    inversion E; subst. now apply expand_f_exn in E1.
  - exfalso. unfold expand_term_full, expand_seen in E.
    match type of E with bind (expand_f _ _ _ _ _ _ ?v _) _ = _ =>
      destruct (expand_total e s file He (expand_fuel s) (length v) spare v seen) as [Ht _] end.
    + etransitivity; [apply (unseen_le s [])|apply unseen_fuel]. intros k Hk. discriminate.
    + lia.
    + destruct (expand_f _ _ _ _ _ _ _ _); [discriminate|discriminate|congruence].
Qed.

Lemma expand_same : forall e s file value spare seen,
  no_code value ->
  (forall n, n <> [] -> substr_of (reference n) value ->
     In n spare \/ (content_of e s file n = None /\ builtin_value file n [] = None)) ->
  expand_term_full e s file value spare seen None = Ok value.
Proof.
  intros e s file value spare seen [Hc1 Hc2] Hn. unfold expand_term_full, expand_seen. rewrite expand_f_eq.
  rewrite (finditer_ref2_none value) by exact Hc1.
  replace (re_finditer re_read_file value) with (@nil rmatch) by (symmetry; now apply finditer_read_none).
  set (rec := fun (cnt : str) (sn : seen_t) => match expand_fuel s with O => NoFuel | S vf' => expand_f vf' e s file (length cnt) [] cnt sn end).
  assert (H : forall ms, (forall m, In m ms -> exists n, n <> [] /\ group_str "1" m = n /\ substr_of (reference n) value) ->
    fold_res (expand_one e s file rec spare []) ms (value, seen) = Ok (value, seen)).
  { induction ms as [|m ms IH]; intro Hm; [reflexivity|]. cbn [fold_res].
    destruct (Hm m (or_introl eq_refl)) as [n [H1 [H2 H3]]].
    assert (E : expand_one e s file rec spare [] (value, seen) m = Ok (value, seen)).
    { rewrite expand_one_eq. cbv zeta. rewrite H2. destruct (Hn n H1 H3) as [Hs|[-> ->]].
      - apply mem_str_In in Hs. now rewrite Hs.
      - now destruct (mem_str n spare). }
    rewrite E. cbn [bind]. apply IH. intros x Hx. apply Hm. now right. }
  rewrite H.
  - reflexivity.
  - intros m Hm. apply var_ref_found in Hm. destruct Hm as [n [H1 [_ [H2 H3]]]]. now exists n.
Qed.
Lemma C43_lemma : forall e s file value spare seen, no_code value -> contains "${" value = false ->
  expand_term_full e s file value spare seen None = Ok value.
Proof.
  intros e s file value spare seen Hc Hd. apply expand_same; [exact Hc|]. intros n _ [a [b Hs]]. exfalso.
  rewrite contains_false in Hd. apply (Hd a (n ++ "}" ++ b)). rewrite Hs. unfold reference. now rewrite <- !app_assoc.
Qed.
Lemma C44_lemma : forall e s file value spare seen, env_ok e -> reach e s -> no_code value ->
  (forall n, n <> [] -> substr_of (reference n) value ->
     In n spare \/ (stands_for s file n None /\ ~ In n ["PN"; "BPN"; "PV"; "FILE"; "THISDIR"])) ->
  expand_term_full e s file value spare seen None = Ok value.
Proof.
  intros e s file value spare seen He Hr Hc Hn. apply expand_same; [exact Hc|]. intros n H1 H2.
  destruct (Hn n H1 H2) as [H|[Hs Hb]]; [now left|]. right. split.
  - pose proof (content_stands e s file n He Hr H1) as Hk. destruct (content_of e s file n) as [c|]; [|reflexivity]. exfalso.
    destruct Hs as [S1 S2]. destruct Hk as [[i [[Hi _] _]]|[_ Hk]]; [now apply (S1 i)|congruence].
  - rewrite builtin_eq. apply dget_None. exact Hb.
Qed.
