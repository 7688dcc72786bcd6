(** * Proofs: values that read files *)

From Verif Require Import PyStr Regex Patterns PyPath Res Const Item Lines Stash StrFacts ReFacts LinesFacts NameFacts ExnFacts
  ReachFacts QueryFacts ExpandFacts ExpandText Spec_Query Proofs_Query Spec_Expand Proofs_Expand.

(** ** The call is found *)

Lemma scan_some : forall r b a s k, k <= length a -> (forall b, match_at r b s <> None) ->
  exists x, In (inr x) (scan r k b (a ++ s)) .
Proof.
  intros r b a. revert b. induction a as [|c a IH]; intros b s k Hk Hs.
  - destruct k as [|k]; [|simpl in Hk; lia]. specialize (Hs b). cbn [app].
    destruct s as [|d s]; cbn [scan]; destruct (match_at _ _ _) as [x|]; try congruence.
    + exists x. now left.
    + destruct (length (g0 x)); exists x; now left.
  - destruct k as [|k]; cbn [app scan].
    + destruct (match_at r b (c :: a ++ s)) as [x|] eqn:E.
      * exists x. destruct (length (g0 x)); now left.
      * destruct (IH false s 0) as [x Hx]; [lia|exact Hs|]. exists x. now right.
    + destruct (IH false s k) as [x Hx]; [simpl in Hk; lia|exact Hs|]. now exists x.
Qed.
Lemma finditer_some : forall r a s, (forall b, match_at r b s <> None) -> re_finditer r (a ++ s) <> [].
Proof.
  intros r a s H E. destruct (scan_some r true a s 0) as [x Hx]; [lia|exact H|].
  assert (Hi : In x (re_finditer r (a ++ s))).
  { unfold re_finditer. apply in_flat_map. exists (inr x). split; [exact Hx|now left]. }
  rewrite E in Hi. destruct Hi.
Qed.

Lemma read_matches : forall p u arg q value, read_call p u arg q value ->
  re_finditer re_read_file value <> [] /\ forall x, In x (re_finditer re_read_file value) -> group_str "file" x = arg.
Proof.
  intros p u arg q value [E [Hone [_ [Hu [Ha Hq]]]]]. split.
  - subst value. change ("${@" ++ u ++ "oe.utils.read_file(" ++ arg ++ ")}" ++ q) with
      ([36%N] ++ "{@" ++ u ++ "oe.utils.read_file(" ++ arg ++ ")}" ++ q). rewrite app_assoc. apply finditer_some.
    intros b Hn. rewrite match_at_none in Hn. eapply Hn. unfold re_read_file. cbn [RCat].
    apply mt_seq_iff. eexists. split; [apply mt_lit_iff; eexists; split; reflexivity|].
    apply mt_seq_iff. eexists. split; [apply mt_star_chr_iff; exists []; eexists; split; [reflexivity|split; [reflexivity|reflexivity]]|].
    apply mt_seq_iff. eexists. split; [apply mt_star_chr_iff; exists u; eexists; split; [reflexivity|split; [|reflexivity]]|].
    { apply forallb_forall. intros x Hx. unfold dotp. apply negb_true_iff. apply N.eqb_neq. intro; subst. contradiction. }
    apply mt_seq_iff. eexists. split; [apply mt_lit_iff; eexists; split; reflexivity|].
    apply mt_seq_iff. eexists. split.
    { apply mt_grp_iff. eexists. split; [|reflexivity]. apply mt_star_chr_iff. exists arg. eexists. split; [reflexivity|split; [|reflexivity]].
      apply forallb_forall. intros x Hx. unfold dotp. apply negb_true_iff. apply N.eqb_neq. intro; subst. contradiction. }
    apply mt_lit_iff. eexists. split; reflexivity.
  - intros x Hx. apply finditer_match in Hx. destruct Hx as [b [t [[a Ea] Hm]]].
    apply match_at_some in Hm. destruct Hm as [s' [H ->]]. unfold re_read_file in H. cbn [RCat] in H.
    apply mt_seq_iff in H. destruct H as [s1 [H1 H]]. apply mt_lit_iff in H1. destruct H1 as [t1 [E1 ->]].
    apply mt_seq_iff in H. destruct H as [s2 [H2 H]]. apply mt_star_chr_iff in H2. destruct H2 as [w2 [t2 [E2 [_ ->]]]].
    apply mt_seq_iff in H. destruct H as [s3 [H3 H]]. apply mt_star_chr_iff in H3. destruct H3 as [w3 [t3 [E3 [_ ->]]]].
    apply mt_seq_iff in H. destruct H as [s4 [H4 H]]. apply mt_lit_iff in H4. destruct H4 as [t4 [E4 ->]].
    apply mt_seq_iff in H. destruct H as [s5 [H5 H]]. apply mt_grp_iff in H5. destruct H5 as [s6 [H6 ->]].
    apply mt_star_chr_iff in H6. destruct H6 as [w6 [t6 [E6 [_ ->]]]]. apply mt_lit_iff in H. destruct H as [t7 [E7 ->]].
    cbn [m_rest after m_grp m_bol] in *. subst t6 t4 t3 t2 t1 t.
    assert (Eg : w6 = arg).
    { assert (Ep : a ++ "{@" ++ w2 ++ w3 = p ++ "${@" ++ u).
      { apply (Hone _ (w6 ++ ")}" ++ t7)). rewrite Ea, <- !app_assoc. reflexivity. }
      apply (Hq w6 t7).
      assert (Ev : (p ++ "${@" ++ u) ++ "oe.utils.read_file(" ++ arg ++ ")}" ++ q =
                   (p ++ "${@" ++ u) ++ "oe.utils.read_file(" ++ w6 ++ ")}" ++ t7).
      { rewrite <- Ep at 2. rewrite <- !app_assoc in *. now rewrite <- E, Ea. }
      apply app_inv_head in Ev. now apply app_inv_head in Ev. }
    unfold group_str, group. cbn [g_all m_grp lookup_group]. change (str_eqb "file" "file") with true. cbv iota.
    rewrite <- Eg. now apply consumed_app.
Qed.

(** ** The references of the value *)

Lemma app_cut : forall (a b x y : str), a ++ x = b ++ y -> length a <= length b -> exists c, b = a ++ c /\ x = c ++ y.
Proof.
  induction a as [|d a IH]; intros b x y E H; [now exists b|].
  destruct b as [|f b]; [simpl in H; lia|]. injection E as <- E. destruct (IH b x y E) as [c [-> ->]]; [simpl in H; lia|].
  now exists c.
Qed.

Section Read.
  Context (e : env) (s : stash) (file : str).
  Let known := content_of e s file.
  Let builtin (n : str) := builtin_value file n [].

  Definition means (k : nat) (sp : list str) (n : str) : Prop := exists us, val known builtin k sp n us.

  Lemma one_seen : forall rec k sp seen t g n,
    (forall j c d sn, S j <= k -> exk known builtin j [] c d -> no_code c -> inv e s file j sn ->
       rec c sn = NoFuel \/ exists sn', rec c sn = Ok (d, sn') /\ newfin e s file sn sn') ->
    means k sp n -> inv e s file k seen ->
    one e s file rec sp (t, seen) (g, n) = NoFuel \/
    exists t' seen', one e s file rec sp (t, seen) (g, n) = Ok (t', seen') /\ newfin e s file seen seen'.
  Proof.
    intros rec k sp seen t g n Hrec [us Hv] Hi. unfold one. fold known. fold (builtin n).
    destruct (mem_str n sp) eqn:Em; [right; exists t, seen; split; [reflexivity|apply newfin_refl]|].
    assert (Hns : ~ In n sp) by (intro H; apply mem_str_In in H; congruence).
    destruct (known n) as [c|] eqn:Ek.
    - destruct (dget n seen) as [r|] eqn:Es; [right; eexists; exists seen; split; [reflexivity|apply newfin_refl]|].
      inversion Hv as [Hs|b Hsp Hk Hb Hd|c' us0 j Hsp Hk Hc Hj Hx Hu Hst]; subst; try congruence.
      { destruct Hs as [Hs|[Hs _]]; [contradiction|congruence]. }
      assert (c' = c) by congruence. subst c'.
      destruct (Hrec j c (gtext us) (dset n [] seen) Hj Hx Hc) as [E|[sn' [E Hf]]].
      + intros m r Hm. destruct (str_eqb m n) eqn:E.
        * apply str_eqb_eq in E. subst m. right. intros c' j' d' Hk' Hx'. unfold known in *. assert (c' = c) by congruence. subst c'.
          destruct (exk_det _ _ _ _ _ _ Hx _ _ Hx') as [-> _]. lia.
        * rewrite dget_dset_other in Hm by (intro; subst; now rewrite str_eqb_refl in E).
          destruct (Hi m r Hm) as [Hf|Hb]; [now left|]. right. intros c' j' d' Hk' Hx'. specialize (Hb c' j' d' Hk' Hx'). lia.
      + left. now rewrite E.
      + right. rewrite E. cbn [bind fst snd]. eexists. exists (dset n (gtext us) sn'). split; [reflexivity|].
        intros m r Hm. destruct (str_eqb m n) eqn:E2.
        * apply str_eqb_eq in E2. subst m. rewrite dget_dset_same in Hm. inversion Hm; subst. left. exists c, j. now split.
        * rewrite dget_dset_other in Hm by (intro; subst; now rewrite str_eqb_refl in E2).
          destruct (Hf m r Hm) as [H|H]; [now left|]. right.
          rewrite dget_dset_other in H by (intro; subst; now rewrite str_eqb_refl in E2). exact H.
    - destruct (builtin n) as [v|]; right; eexists; exists seen; (split; [reflexivity|apply newfin_refl]).
  Qed.
  Lemma fold_seen : forall rec k sp,
    (forall j c d sn, S j <= k -> exk known builtin j [] c d -> no_code c -> inv e s file j sn ->
       rec c sn = NoFuel \/ exists sn', rec c sn = Ok (d, sn') /\ newfin e s file sn sn') ->
    forall ms, (forall m, In m ms -> means k sp (group_str "1" m)) ->
    forall t seen, inv e s file k seen ->
    fold_res (expand_one e s file rec sp []) ms (t, seen) = NoFuel \/
    exists t' seen', fold_res (expand_one e s file rec sp []) ms (t, seen) = Ok (t', seen') /\ newfin e s file seen seen'.
  Proof.
    intros rec k sp Hrec ms Hms t seen Hi. rewrite one_eq. revert t seen Hi.
    induction ms as [|m ms IH]; intros t seen Hi; cbn [map fold_res].
    - right. exists t, seen. split; [reflexivity|apply newfin_refl].
    - destruct (one_seen rec k sp seen t (g0 m) (group_str "1" m) Hrec (Hms m (or_introl eq_refl)) Hi) as [E|[t1 [sn1 [E Hf]]]];
        rewrite E; cbn [bind]; [now left|].
      destruct (IH (fun x Hx => Hms x (or_intror Hx)) t1 sn1 (newfin_inv _ _ _ _ _ _ Hf Hi)) as [E2|[t2 [sn2 [E2 Hf2]]]]; [now left|].
      right. exists t2, sn2. split; [exact E2|]. eapply newfin_trans; eassumption.
  Qed.

  (** A reference that begins in a text with a meaning is one of its names. *)
  Lemma inside : forall (x a t r : str), ~ In 36%N x -> x ++ r = a ++ 36%N :: t -> length x <= length a.
  Proof.
    induction x as [|c x IH]; intros a t r Hx E; [simpl; lia|]. destruct a as [|d a].
    - injection E as E _. exfalso. apply Hx. now left.
    - injection E as _ E. simpl. apply le_n_S. apply (IH a t r); [|exact E]. intro H. apply Hx. now right.
  Qed.
  Lemma piece_at : forall l r a n u, Forall good l -> gtext l ++ r = a ++ ref n ++ u -> length a < length (gtext l) ->
    exists m b, In (G m) l /\ ref n ++ u = ref m ++ b.
  Proof.
    induction l as [|p l IH]; intros r a n u Hl E Hlen; [simpl in Hlen; lia|].
    inversion Hl as [|p0 l0 Hp Hl']; subst. change (gtext (p :: l)) with (ptext p ++ gtext l) in *.
    rewrite <- app_assoc in E.
    assert (Hcase : a = [] \/ length (ptext p) <= length a).
    { destruct a as [|x a]; [now left|right]. destruct p as [c|c|m]; [simpl; lia| |].
      { destruct a as [|y a]; [|simpl; lia]. cbn [ptext app ref] in E. injection E as _ E _. destruct Hp as [Hp _]. congruence. }
      unfold ptext, ref in *.
      destruct Hp as [_ [Hd _]]. cbn [app] in E. injection E as _ E. cbn [app length]. apply le_n_S.
      apply (inside (123%N :: m ++ "}") a (123%N :: (n ++ "}") ++ u) (gtext l ++ r)); [|exact E].
      intros [H|H]; [discriminate|]. apply in_app_or in H. destruct H as [H|[H|[]]]; [contradiction|discriminate]. }
    destruct Hcase as [->|Hge].
    - destruct p as [c|c|m]; [cbn [ptext app] in E; injection E as E _; simpl in Hp; congruence| |].
      { cbn [ptext app ref] in E. injection E as E _. destruct Hp as [_ Hp]. congruence. }
      exists m, (gtext l ++ r). split; [now left|]. now symmetry.
    - destruct (app_cut _ _ _ _ E Hge) as [a' [-> _]]. rewrite <- app_assoc in E. apply app_inv_head in E.
      rewrite !app_length in Hlen. destruct (IH r a' n u Hl' E) as [m [b [Hm Hb]]]; [lia|].
      exists m, b. split; [now right|exact Hb].
  Qed.
  Lemma exk_at : forall k sp v w r a n u, exk known builtin k sp v w -> v ++ r = a ++ ref n ++ u -> length a < length v ->
    exists m b, means k sp m /\ good_name m /\ ref n ++ u = ref m ++ b.
  Proof.
    intros k sp v w r a n u H E Hl. destruct (exk_pieces _ _ _ _ _ _ H) as [zs [Ev [_ [Z1 [_ [_ Z4]]]]]].
    rewrite Ev in E, Hl. destruct (piece_at _ _ _ _ _ Z1 E Hl) as [m [b [Hm Hb]]]. exists m, b.
    split; [|split; [rewrite Forall_forall in Z1; exact (Z1 _ Hm)|exact Hb]].
    apply in_map_iff in Hm. destruct Hm as [[p us] [Ep Hin]]. simpl in Ep. subst p. exists us. exact (Z4 _ _ Hin).
  Qed.
  Lemma means_mono : forall k k' sp n, k <= k' -> means k sp n -> means k' sp n.
  Proof. intros k k' sp n Hk [us H]. exists us. eapply val_mono; eassumption. Qed.

  (** All matches in the value. *)
  Lemma read_refs : forall kp ka kq sp p u arg q value p' arg' q', read_call p u arg q value ->
    exk known builtin kp sp p p' -> exk known builtin ka sp arg arg' -> exk known builtin kq sp q q' ->
    (forall n, known ("@" ++ n) = None) -> (forall n, builtin ("@" ++ n) = None) ->
    forall x, In x (re_finditer re_var_ref value) -> means (max kp (max ka kq)) sp (group_str "1" x).
  Proof.
    intros kp ka kq sp p u arg q value p' arg' q' [E [_ [Hu _]]] Hp Ha Hq Hk Hb x Hx.
    apply finditer_match in Hx. destruct Hx as [b [t [[a Ea] Hm]]].
    destruct (var_ref_shape _ _ _ Hm) as [n [w [Et [Hn [_ Hg]]]]].
    assert (Hone : forall m r, good_name m -> ref n ++ w = ref m ++ r -> group_str "1" x = m).
    { intros m r Hgm Er. rewrite Et, Er in Hm. destruct (var_ref_yes b m r Hgm) as [y [Hy [_ Hy1]]].
      rewrite Hm in Hy. injection Hy as ->. exact Hy1. }
    rewrite E, Et in Ea. destruct (Nat.lt_ge_cases (length a) (length p)) as [Hl|Hl].
    { destruct (exk_at _ _ _ _ _ _ _ _ Hp Ea Hl) as [m [r [Hv [Hgm Er]]]]. rewrite (Hone m r Hgm Er).
      eapply means_mono; [|exact Hv]. lia. }
    destruct (app_cut _ _ _ _ Ea Hl) as [a1 [-> E1]]. clear Ea Hl.
    destruct a1 as [|d a1].
    { rewrite Hg. unfold ref in E1. rewrite <- app_assoc in E1. cbn [app] in E1.
      destruct n as [|c n]; [congruence|]. injection E1 as Ec _. subst c.
      exists [G ("@" ++ n)]. apply val_stay. right. split; [apply Hk|apply Hb]. }
    cbn [app] in E1. injection E1 as _ E1.
    assert (Hd : forall y, ~ In 36%N y -> forall r c, y ++ r = c ++ ref n ++ w -> exists c', c = y ++ c' /\ r = c' ++ ref n ++ w).
    { intros y Hy r c Ec. apply app_cut; [exact Ec|]. apply (inside y c (123%N :: (n ++ "}") ++ w) r Hy Ec). }
    destruct (Hd ("{@" ++ u ++ "oe.utils.read_file(")) with (r := arg ++ ")}" ++ q) (c := a1) as [a2 [-> E2]].
    { intro Hi. apply in_app_or in Hi. destruct Hi as [Hi|Hi]; [revert Hi; cbn; intuition discriminate|].
      apply in_app_or in Hi. destruct Hi as [Hi|Hi]; [contradiction|revert Hi; cbn; intuition discriminate]. }
    { rewrite <- !app_assoc. exact E1. }
    destruct (Nat.lt_ge_cases (length a2) (length arg)) as [Hl|Hl].
    { destruct (exk_at _ _ _ _ _ _ _ _ Ha E2 Hl) as [m [r [Hv [Hgm Er]]]]. rewrite (Hone m r Hgm Er).
      eapply means_mono; [|exact Hv]. lia. }
    destruct (app_cut _ _ _ _ E2 Hl) as [a3 [-> E3]].
    destruct (Hd ")}") with (r := q) (c := a3) as [a4 [-> E4]]; [cbn; intuition discriminate|exact E3|].
    destruct (Nat.lt_ge_cases (length a4) (length q)) as [Hl4|Hl4].
    { rewrite <- (app_nil_r q) in E4. destruct (exk_at _ _ _ _ _ _ _ _ Hq E4 Hl4) as [m [r [Hv [Hgm Er]]]]. rewrite (Hone m r Hgm Er).
      eapply means_mono; [|exact Hv]. lia. }
    exfalso. apply (f_equal (@length N)) in E4. rewrite !app_length in E4. unfold ref in E4. rewrite !app_length in E4. simpl in E4. lia.
  Qed.

  Lemma inv_mono : forall k k' sn, k' <= k -> inv e s file k sn -> inv e s file k' sn.
  Proof.
    intros k k' sn Hk Hi n r Hr. destruct (Hi n r Hr) as [H|H]; [now left|right]. intros c j d Hc Hx. specialize (H c j d Hc Hx). lia.
  Qed.

  Definition outcome (r : read_result) : Res.res str :=
    match r with RdText t => Ok (universal_newlines t) | RdNotFound => Ok [] | RdDenied => Ok [] | RdOther => Raise OSError end.

  Lemma fold_read : forall rec arg arg' k, (forall sn, inv e s file k sn -> rec arg sn = NoFuel \/
      exists sn', rec arg sn = Ok (arg', sn') /\ newfin e s file sn sn') ->
    forall ms, (forall x, In x ms -> group_str "file" x = arg) -> ms <> [] -> forall t seen, inv e s file k seen ->
    (do y <- fold_res (read_file_one (e_fs e) rec) ms (t, seen); Ok (fst y)) = NoFuel \/
    (do y <- fold_res (read_file_one (e_fs e) rec) ms (t, seen); Ok (fst y)) = outcome (fs_read (e_fs e) (strip [cSQ; cDQ] arg')).
  Proof.
    intros rec arg arg' k Hrec. induction ms as [|x ms IH]; intros Hms Hne t seen Hi; [congruence|]. cbn [fold_res].
    unfold read_file_one at 1 3. rewrite (Hms x (or_introl eq_refl)).
    destruct (Hrec seen Hi) as [->|[sn' [-> Hf]]]; cbn [bind fst snd]; [now left|].
    assert (Hnext : forall v, ms = [] \/ ms <> [] -> outcome (fs_read (e_fs e) (strip [cSQ; cDQ] arg')) = Ok v ->
      let seen' := match seen with [] => [] | _ => sn' end in
      (do y <- fold_res (read_file_one (e_fs e) rec) ms (v, seen'); Ok (fst y)) = NoFuel \/
      (do y <- fold_res (read_file_one (e_fs e) rec) ms (v, seen'); Ok (fst y)) = outcome (fs_read (e_fs e) (strip [cSQ; cDQ] arg'))).
    { intros v [->|Hm] Hv seen'; [right; rewrite Hv; reflexivity|]. apply IH; [intros z Hz; apply Hms; now right|exact Hm|].
      subst seen'. destruct seen; [exact Hi|]. eapply newfin_inv; eassumption. }
    assert (Hm : ms = [] \/ ms <> []) by (destruct ms; [now left|right; discriminate]).
    destruct (fs_read (e_fs e) (strip [cSQ; cDQ] arg')) eqn:Er; cbn [outcome] in *; try (apply Hnext; [exact Hm|reflexivity]).
    now right.
  Qed.
End Read.

(** ** The result *)

Lemma read_meaning : forall e s file spare p u arg q value p' arg' q', env_ok e ->
  let known := content_of e s file in let builtin := fun n => builtin_value file n [] in
  read_call p u arg q value -> contains "getVar(" value = false ->
  expands known builtin spare p p' -> expands known builtin spare arg arg' -> expands known builtin spare q q' ->
  (forall n, known ("@" ++ n) = None) -> (forall n, builtin ("@" ++ n) = None) ->
  expand_term_full e s file value spare [] None = outcome (fs_read (e_fs e) (strip [cSQ; cDQ] arg')).
Proof.
  intros e s file spare p u arg q value p' arg' q' He known builtin Hc Hg Hp Ha Hq Hk Hb.
  apply exk_intro in Hp. destruct Hp as [kp Hp]. apply exk_intro in Ha. destruct Ha as [ka Ha]. apply exk_intro in Hq. destruct Hq as [kq Hq].
  unfold expand_term_full, expand_seen.
  destruct (expand_total e s file He (expand_fuel s) (length value) spare value []) as [Ht _]; [apply unseen_fuel|lia|].
  assert (Hac : no_code arg).
  { destruct Hc as [E [Hone [_ [_ [_ _]]]]]. split; apply contains_false; intros a b Ea.
    - rewrite contains_false in Hg. apply (Hg (p ++ "${@" ++ u ++ "oe.utils.read_file(" ++ a) (b ++ ")}" ++ q)).
      rewrite E, Ea. rewrite <- !app_assoc. reflexivity.
    - assert (X : p ++ "${@" ++ u ++ "oe.utils.read_file(" ++ a = p ++ "${@" ++ u).
      { apply (Hone _ (b ++ ")}" ++ q)). rewrite E, Ea. rewrite <- !app_assoc. reflexivity. }
      apply (f_equal (@length N)) in X. rewrite !app_length in X. simpl in X. lia. }
  revert Ht. set (K := max kp (max ka kq)). rewrite expand_f_eq. rewrite (finditer_ref2_none value) by exact Hg. cbn [fold_res].
  set (rec := fun (cnt : str) (sn : seen_t) => match expand_fuel s with O => NoFuel | S vf' => expand_f vf' e s file (length cnt) [] cnt sn end).
  assert (Hi0 : inv e s file K []) by (intros n r Hn; discriminate).
  destruct (fold_seen e s file rec K spare) with (ms := re_finditer re_var_ref value) (t := value) (seen := @nil (str * str))
    as [E1|[t1 [sn1 [E1 Hf1]]]].
  - intros j c d sn Hj Hx Hcc Hi. unfold rec. destruct (expand_fuel s) as [|vf]; [now left|].
    exact (expand_meaning e s file vf j (length c) [] c d sn Hx Hcc Hi).
  - exact (read_refs e s file kp ka kq spare p u arg q value p' arg' q' Hc Hp Ha Hq Hk Hb).
  - exact Hi0.
  - rewrite E1. cbn [bind]. congruence.
  - rewrite E1. cbn [bind]. intro Ht.
    destruct (read_matches _ _ _ _ _ Hc) as [Hne Hall].
    match goal with |- bind (fold_res (read_file_one _ ?r) _ _) _ = _ => set (rf := r) in * end.
    destruct (fold_read e s file rf arg arg' ka) with (ms := re_finditer re_read_file value) (t := t1) (seen := sn1) as [E|E].
    + intros sn Hi. unfold rf. destruct (length value) as [|lf]; [now left|].
      exact (expand_meaning e s file (expand_fuel s) ka lf spare arg arg' sn Ha Hac Hi).
    + exact Hall.
    + exact Hne.
    + eapply newfin_inv; [exact Hf1|]. intros n r Hn. discriminate.
    + exfalso. match type of E with bind ?a _ = _ => destruct a eqn:Ef end; cbn [bind] in E; try discriminate. now apply Ht.
    + exact E.
Qed.

Lemma expands_same : forall k1 k2 builtin, (forall n, n <> [] -> k1 n = k2 n) ->
  forall sp v w, expands k1 builtin sp v w -> expands k2 builtin sp v w.
Proof.
  intros k1 k2 builtin Hs sp v w H. induction H as [sp|sp c v w Hc H IH|sp c v w Hc Hc2 H IH|sp n v w Hn Hi H IH|sp n c d v w Hn Hi Hkn Hc H1 IH1 H2 IH2
      |sp n b v w Hn Hi Hkn Hv Hd H IH|sp n v w Hn Hi Hkn Hv H IH].
  - apply ex_end.
  - now apply ex_char.
  - now apply ex_dollar.
  - now apply ex_spare.
  - apply ex_known with (c := c); try assumption. rewrite <- Hs by apply Hn. exact Hkn.
  - apply ex_builtin; try assumption. rewrite <- Hs by apply Hn. exact Hkn.
  - apply ex_unknown; try assumption. rewrite <- Hs by apply Hn. exact Hkn.
Qed.
Lemma no_cr : forall t, ~ In 13%N t -> universal_newlines t = t.
Proof.
  induction t as [|c t IH]; intro H; [reflexivity|]. cbn [universal_newlines].
  destruct (N.eqb_spec c 13) as [->|_]; [exfalso; apply H; now left|]. f_equal. apply IH. intro Hi. apply H. now right.
Qed.

Lemma strip_quotes : forall path a, in_quotes path a -> strip [cSQ; cDQ] a = path.
Proof.
  intros path a [q [Hq [-> [H1 H2]]]]. unfold strip, strip_p.
  assert (Eq : in_chars [cSQ; cDQ] q = true) by (destruct Hq as [<-|[<-|[]]]; reflexivity).
  assert (Hn : forall c, In c path -> in_chars [cSQ; cDQ] c = false).
  { intros c Hc. unfold in_chars. cbn [existsb]. destruct (N.eqb_spec c cSQ) as [->|_]; [contradiction|].
    destruct (N.eqb_spec c cDQ) as [->|_]; [contradiction|reflexivity]. }
  rewrite lstrip_p_app by (cbn [forallb]; now rewrite Eq).
  destruct path as [|c path]; [cbn [app lstrip_p]; now rewrite Eq|].
  rewrite lstrip_p_id by (apply Hn; now left). rewrite rstrip_p_app by (cbn [forallb]; now rewrite Eq).
  destruct (exists_last (l := c :: path)) as [l [d E]]; [discriminate|]. rewrite E in *.
  apply rstrip_p_id. apply Hn. apply in_or_app. right. now left.
Qed.
Lemma C82_lemma : forall e s file known spare p u arg q value p' arg' q' path, env_ok e -> reach e s ->
  (forall n i j, definition s file n i -> definition s file n j -> it_line i = it_line j -> i = j) ->
  (forall n, n <> [] -> stands_for s file n (known n)) -> (forall n, stands_for s file ("@" ++ n) None) ->
  read_call p u arg q value -> ~ substr_of "getVar(" value ->
  expands known (fun n => dget n (builtins file)) spare p p' ->
  expands known (fun n => dget n (builtins file)) spare arg arg' ->
  expands known (fun n => dget n (builtins file)) spare q q' -> in_quotes path arg' ->
  (forall t, fs_read (e_fs e) path = RdText t -> ~ In 13%N t ->
     expand_term_full e s file value spare [] None = Ok t) /\
  (In (fs_read (e_fs e) path) [RdNotFound; RdDenied] ->
     expand_term_full e s file value spare [] None = Ok []) /\
  (fs_read (e_fs e) path = RdOther ->
     expand_term_full e s file value spare [] None = Raise OSError).
Proof.
  intros e s file known spare p u arg q value p' arg' q' path He Hr Ht Hk Hat Hc Hg Hp Ha Hq Hpath.
  assert (Hsame : forall n, n <> [] -> known n = content_of e s file n).
  { intros n Hn. apply (stands_unique s file n); [apply Ht|now apply Hk|now apply content_stands]. }
  assert (Hx : forall v w, expands known (fun n => dget n (builtins file)) spare v w ->
    expands (content_of e s file) (fun n => builtin_value file n []) spare v w).
  { intros v w H. apply (expands_same known); [exact Hsame|].
    apply (expands_ext _ (fun n => dget n (builtins file))); [intro n; symmetry; apply builtin_eq|exact H]. }
  assert (E : expand_term_full e s file value spare [] None = outcome (fs_read (e_fs e) (strip [cSQ; cDQ] arg'))).
  { apply (read_meaning e s file spare p u arg q value p' arg' q'); auto.
    - apply contains_false. intros a b Ev. apply Hg. now exists a, b.
    - intro n. apply (stands_unique s file ("@" ++ n)); [apply Ht|now apply content_stands|apply Hat]. }
  rewrite E, (strip_quotes path arg' Hpath). split; [|split].
  - intros t -> Hcr. cbn [outcome]. now rewrite no_cr.
  - intros [<-|[<-|[]]]; reflexivity.
  - now intros ->.
Qed.

(** ** Names with a value for every file *)

Lemma C81_lemma : forall e s file n b, env_ok e -> reach e s -> stands_for s file n None ->
  dget n (builtins file) = Some b -> ~ In 36%N b -> expand_term e s file (reference n) = Ok b.
Proof.
  intros e s file n b He Hr Hs Hb Hd. destruct (C45_lemma e s file He Hr) as [known [Hk Hx]].
  assert (Hn : plain_name n).
  { apply dget_In in Hb. cbn [builtins In] in Hb.
    repeat (destruct Hb as [Hb|Hb]; [injection Hb as <- _; split; [discriminate|];
      repeat split; intro H; repeat (destruct H as [H|H]; [discriminate H|]); destruct H|]). destruct Hb. }
  assert (Ek : known n = None).
  { specialize (Hk n (proj1 Hn)). destruct (known n) as [c|]; [|reflexivity]. exfalso. destruct Hs as [S1 S2].
    destruct Hk as [[i [[Hi _] _]]|[_ Hk]]; [now apply (S1 i)|congruence]. }
  unfold expand_term. rewrite <- (app_nil_r (reference n)). rewrite <- (app_nil_r b). apply Hx.
  - split; apply contains_false; intros x y E; rewrite app_nil_r in E.
    + destruct Hn as [H1 [H2 [H3 H4]]]. apply dget_In in Hb. cbn [builtins In] in Hb.
      revert x y E. apply contains_false.
      repeat (destruct Hb as [Hb|Hb]; [injection Hb as <- _; vm_compute; reflexivity|]). destruct Hb.
    + apply dget_In in Hb. cbn [builtins In] in Hb. revert x y E. apply contains_false.
      repeat (destruct Hb as [Hb|Hb]; [injection Hb as <- _; vm_compute; reflexivity|]). destruct Hb.
  - apply ex_builtin; [exact Hn|intros []|exact Ek|exact Hb|exact Hd|]. apply ex_end.
Qed.
