(** * Proofs of the properties of paths and file names *)

From Verif Require Import PyStr Regex Patterns PyPath Res Item Stash StrFacts ReFacts LinesFacts NameFacts Spec_Paths.

(** ** os.path on canonical paths *)

Lemma cpath_snoc : forall cs c, cpath (cs ++ [c]) = match cs with [] => [] | _ => cpath cs end ++ [cSL] ++ c.
Proof.
  intros cs c. unfold cpath. destruct cs as [|d cs]; [reflexivity|]. rewrite join_snoc by discriminate.
  simpl. rewrite <- ?app_assoc. reflexivity.
Qed.
Lemma cpath_last : forall cs, cs <> [] -> comps cs -> exists a x, cpath cs = a ++ [x] /\ x <> cSL.
Proof.
  intros cs Hn Hc. destruct (exists_last Hn) as [l [k ->]].
  destruct (Hc k) as [H1 H2]; [apply in_or_app; right; now left|].
  destruct (join_last cSL l k H1) as [a [x [E Hx]]]. exists (cSL :: a), x. split.
  - unfold cpath. change "/" with [cSL]. rewrite E. reflexivity.
  - intros ->. contradiction.
Qed.

Lemma comps_app : forall a b, comps (a ++ b) <-> comps a /\ comps b.
Proof.
  intros a b. split.
  - intro H. split; intros c Hc; apply H; apply in_or_app; auto.
  - intros [H1 H2] c Hc. apply in_app_iff in Hc. destruct Hc; auto.
Qed.

Lemma dirname_cpath : forall cs c, comps (cs ++ [c]) -> dirname (cpath (cs ++ [c])) = cpath cs.
Proof.
  intros cs c H. apply comps_app in H. destruct H as [H1 H2]. destruct (H2 c) as [_ Hc]; [now left|].
  rewrite cpath_snoc. unfold dirname. rewrite rsplit_slash_app by exact Hc. simpl fst.
  destruct cs as [|d cs]; [reflexivity|].
  destruct (cpath_last (d :: cs)) as [a [x [E Hx]]]; [discriminate|exact H1|].
  assert (Hf : N.eqb cSL x = false) by (apply N.eqb_neq; congruence).
  rewrite E. destruct (forallb (N.eqb cSL) ((a ++ [x]) ++ [cSL])) eqn:Ef.
  - exfalso. rewrite !forallb_app in Ef. cbn [forallb] in Ef. rewrite Hf in Ef. rewrite andb_false_r in Ef. discriminate.
  - rewrite rstrip_p_app by reflexivity. now rewrite rstrip_p_id.
Qed.
Lemma cpath_root : forall cs, comps cs -> str_eqb (cpath cs) "/" = true <-> cs = [].
Proof.
  intros cs Hc. rewrite str_eqb_eq. split; [|now intros ->]. intro H.
  destruct cs as [|c cs]; [reflexivity|]. exfalso.
  destruct (cpath_last (c :: cs)) as [a [x [E Hx]]]; [discriminate|exact Hc|].
  rewrite E in H. destruct a as [|y a]; [inversion H; subst; now apply Hx|]. destruct a; discriminate.
Qed.
Lemma join_cpath : forall cs name, comps cs -> name <> [] -> startswith [cSL] name = false ->
  path_join (cpath cs) name = match cs with [] => [cSL] ++ name | _ => cpath cs ++ [cSL] ++ name end.
Proof.
  intros cs name Hc Hn Hs. unfold path_join. rewrite Hs. destruct cs as [|c cs]; [reflexivity|].
  destruct (cpath_last (c :: cs)) as [a [x [E Hx]]]; [discriminate|exact Hc|].
  assert (Ee : endswith [cSL] (cpath (c :: cs)) = false).
  { rewrite E. unfold endswith. rewrite rev_app_distr. cbn [rev app].
    change (startswith [cSL] (x :: rev a)) with (N.eqb cSL x && true)%bool.
    destruct (N.eqb_spec cSL x); [congruence|reflexivity]. }
  rewrite Ee. reflexivity.
Qed.
Lemma conf_path : forall cs, comps cs -> path_join (cpath cs) "conf/layer.conf" = cpath (cs ++ ["conf"; "layer.conf"]).
Proof.
  intros cs Hc. rewrite join_cpath; [|exact Hc|discriminate|reflexivity].
  replace (cs ++ ["conf"; "layer.conf"]) with ((cs ++ ["conf"]) ++ ["layer.conf"]) by (now rewrite <- app_assoc).
  rewrite cpath_snoc.
  destruct cs as [|c cs]; [reflexivity|]. destruct ((c :: cs) ++ ["conf"]) as [|y l] eqn:El; [destruct cs; discriminate|].
  rewrite <- El, cpath_snoc. rewrite <- !app_assoc. reflexivity.
Qed.

(** ** C25, C26 *)

Lemma layer_at_more : forall w cs c ds, fs_isdir w (cpath (cs ++ [c])) = true -> layer_conf w cs = false ->
  layer_at w cs ds -> layer_at w (cs ++ [c]) ds.
Proof.
  intros w cs c ds Hd Hn [t [E [Ht [Hl H]]]]. exists (t ++ [c]). subst cs. split; [now rewrite app_assoc|].
  split; [destruct t; discriminate|]. split; [exact Hl|]. intros u v Eu Hu.
  destruct v as [|y v] using rev_ind.
  - rewrite app_nil_r in Eu. subst u. split; [rewrite app_assoc; exact Hd|congruence].
  - clear IHv. rewrite app_assoc in Eu. apply app_inj_tail in Eu. destruct Eu as [Et ->].
    destruct (H u v Et Hu) as [H1 H2]. split; [exact H1|]. intros _. destruct v as [|z v]; [|apply H2; discriminate].
    rewrite app_nil_r in Et. subst t. exact Hn.
Qed.
Lemma layer_at_less : forall w cs c ds, layer_conf w cs = false -> layer_at w (cs ++ [c]) ds -> layer_at w cs ds.
Proof.
  intros w cs c ds Hn [t [E [Ht [Hl H]]]]. destruct (exists_last Ht) as [t0 [x Ex]]. subst t.
  rewrite app_assoc in E. apply app_inj_tail in E. destruct E as [E <-]. exists t0. split; [exact E|].
  assert (Ht0 : t0 <> []). { intros ->. rewrite app_nil_r in E. subst. congruence. }
  split; [exact Ht0|]. split; [exact Hl|]. intros u v Eu Hu.
  destruct (H u (v ++ [c])) as [H1 H2]; [rewrite Eu; now rewrite app_assoc|exact Hu|].
  split; [exact H1|]. intros Hv. apply H2. destruct v; discriminate.
Qed.
Lemma layer_at_first : forall w cs c, fs_isdir w (cpath (cs ++ [c])) = true -> layer_conf w cs = true ->
  layer_at w (cs ++ [c]) cs.
Proof.
  intros w cs c Hd Hl. exists [c]. split; [reflexivity|]. split; [discriminate|]. split; [exact Hl|].
  intros u v E Hu. destruct u as [|x u]; [congruence|]. inversion E as [[Ex Er]]. subst x.
  symmetry in Er. apply app_eq_nil in Er. destruct Er as [-> ->]. split; [exact Hd|congruence].
Qed.
Lemma layer_at_isdir : forall w start ds, layer_at w start ds -> fs_isdir w (cpath start) = true.
Proof.
  intros w start ds [t [E [Ht [_ H]]]]. destruct (H t []) as [H1 _]; [now rewrite app_nil_r|exact Ht|]. now rewrite E.
Qed.
Lemma layer_at_unique : forall w start d1 d2, layer_at w start d1 -> layer_at w start d2 -> d1 = d2.
Proof.
  assert (G : forall w start d1 d2 t1 t2, start = d1 ++ t1 -> start = d2 ++ t2 -> length d1 < length d2 ->
     layer_at w start d1 -> layer_at w start d2 -> False).
  { intros w start d1 d2 t1 t2 E1 E2 Hl [u1 [F1 [N1 [L1 H1]]]] [u2 [F2 [N2 [L2 H2]]]].
    assert (exists m, d2 = d1 ++ m /\ m <> []) as [m [Em Hm]].
    { exists (skipn (length d1) d2). assert (E : firstn (length d1) d2 = d1).
      { rewrite E1 in E2. apply (f_equal (firstn (length d1))) in E2. rewrite firstn_app, Nat.sub_diag, firstn_all in E2.
        simpl in E2. rewrite app_nil_r in E2. rewrite firstn_app in E2.
        replace (length d1 - length d2) with 0 in E2 by lia. simpl in E2. rewrite app_nil_r in E2. now symmetry. }
      split; [rewrite <- E at 1; now rewrite firstn_skipn|]. intro Hs. apply (f_equal (@length _)) in Hs.
      rewrite skipn_length in Hs. simpl in Hs. lia. }
    subst d2. rewrite F1 in F2. rewrite <- app_assoc in F2. apply app_inv_head in F2. subst u1.
    destruct (H1 m u2 eq_refl Hm) as [_ H3]. rewrite (H3 N2) in L2. discriminate. }
  intros w start d1 d2 H1 H2. pose proof H1 as [t1 [E1 _]]. pose proof H2 as [t2 [E2 _]].
  destruct (lt_eq_lt_dec (length d1) (length d2)) as [[Hl|He]|Hl].
  - exfalso. eapply G; [exact E1|exact E2| | |]; eassumption.
  - rewrite E1 in E2. apply app_same_length in E2; [apply E2|exact He].
  - exfalso. eapply G; [exact E2|exact E1| | |]; eassumption.
Qed.

Lemma layer_loop_spec : forall w start n, comps start -> length start < n ->
  (exists ds, layer_at w start ds /\ layer_loop n w (cpath start) = Some (cpath ds)) \/
  ((forall ds, ~ layer_at w start ds) /\ layer_loop n w (cpath start) = Some []).
Proof.
  intros w start. induction start as [|c cs IH] using rev_ind; intros n Hc Hn.
  - right. destruct n as [|n]; [lia|]. split.
    + intros ds [t [E [Ht _]]]. symmetry in E. apply app_eq_nil in E. tauto.
    + cbn [layer_loop]. now destruct (fs_isdir w (cpath [])).
  - destruct n as [|n]; [lia|]. cbn [layer_loop]. pose proof Hc as Hc2. apply comps_app in Hc2. destruct Hc2 as [Hc2 _].
    rewrite app_length in Hn. simpl in Hn.
    destruct (fs_isdir w (cpath (cs ++ [c]))) eqn:Ed.
    + assert (Er : str_eqb (cpath (cs ++ [c])) "/" = false).
      { destruct (str_eqb _ _) eqn:E; [|reflexivity]. apply cpath_root in E; [|exact Hc]. destruct cs; discriminate. }
      rewrite Er, dirname_cpath, conf_path by assumption. fold (layer_conf w cs). destruct (layer_conf w cs) eqn:El.
      * left. exists cs. split; [now apply layer_at_first|reflexivity].
      * destruct (IH n Hc2) as [[ds [H1 H2]]|[H1 H2]]; [lia| |].
        -- left. exists ds. split; [now apply layer_at_more|exact H2].
        -- right. split; [|exact H2]. intros ds H. apply (H1 ds). eapply layer_at_less; eassumption.
    + right. split; [|reflexivity]. intros ds H. apply layer_at_isdir in H. congruence.
Qed.

Definition layer_start (w : fs) (cs : list str) : list str := if fs_isfile w (cpath cs) then removelast cs else cs.

Lemma C25_lemma : forall w cs n, comps cs -> cs <> [] -> length cs < n ->
  (exists ds, layer_at w (layer_start w cs) ds /\ get_layer_root n w (cpath cs) = Some (cpath ds)) \/
  ((forall ds, ~ layer_at w (layer_start w cs) ds) /\ get_layer_root n w (cpath cs) = Some []).
Proof.
  intros w cs n Hc Hne Hn. unfold get_layer_root, layer_start. destruct (fs_isfile w (cpath cs)).
  - destruct (exists_last Hne) as [l [k ->]]. rewrite dirname_cpath, removelast_last by exact Hc.
    apply layer_loop_spec; [apply comps_app in Hc; tauto|]. rewrite app_length in Hn. lia.
  - now apply layer_loop_spec.
Qed.

Lemma find_loop_spec : forall w name start n, comps start -> length start < n ->
  (exists ds, layer_at w start ds /\ find_loop n w name (cpath start) =
     Some (if fs_exists w (path_join (cpath ds) name) then path_join (cpath ds) name else [])) \/
  ((forall ds, ~ layer_at w start ds) /\ find_loop n w name (cpath start) = Some []).
Proof.
  intros w name start. induction start as [|c cs IH] using rev_ind; intros n Hc Hn.
  - right. destruct n as [|n]; [lia|]. split.
    + intros ds [t [E [Ht _]]]. symmetry in E. apply app_eq_nil in E. tauto.
    + cbn [find_loop]. now destruct (fs_isdir w (cpath [])).
  - destruct n as [|n]; [lia|]. cbn [find_loop]. pose proof Hc as Hc2. apply comps_app in Hc2. destruct Hc2 as [Hc2 _].
    rewrite app_length in Hn. simpl in Hn.
    destruct (fs_isdir w (cpath (cs ++ [c]))) eqn:Ed.
    + assert (Er : str_eqb (cpath (cs ++ [c])) "/" = false).
      { destruct (str_eqb _ _) eqn:E; [|reflexivity]. apply cpath_root in E; [|exact Hc]. destruct cs; discriminate. }
      rewrite Er, dirname_cpath, conf_path by assumption. fold (layer_conf w cs). destruct (layer_conf w cs) eqn:El.
      * left. exists cs. split; [now apply layer_at_first|]. now destruct (fs_exists w (path_join (cpath cs) name)).
      * destruct (IH n Hc2) as [[ds [H1 H2]]|[H1 H2]]; [lia| |].
        -- left. exists ds. split; [now apply layer_at_more|exact H2].
        -- right. split; [|exact H2]. intros ds H. apply (H1 ds). eapply layer_at_less; eassumption.
    + right. split; [|reflexivity]. intros ds H. apply layer_at_isdir in H. congruence.
Qed.
Lemma C26_lemma : forall w cs name n, comps cs -> length cs < n ->
  let there ds := path_join (cpath ds) name in
  (fs_exists w (there cs) = true -> find_local_or_layer n w name (cpath cs) = Some (there cs)) /\
  (fs_exists w (there cs) = false ->
     (exists ds, layer_at w cs ds /\
        find_local_or_layer n w name (cpath cs) = Some (if fs_exists w (there ds) then there ds else [])) \/
     ((forall ds, ~ layer_at w cs ds) /\ find_local_or_layer n w name (cpath cs) = Some [])).
Proof.
  intros w cs name n Hc Hn there. unfold find_local_or_layer, there. split; intros ->; [reflexivity|].
  now apply find_loop_spec.
Qed.

(** ** C27 *)

Lemma rsplit_app : forall p, fst (rsplit_slash p) ++ snd (rsplit_slash p) = p.
Proof.
  induction p as [|c p IH]; [reflexivity|]. simpl. destruct (rsplit_slash p) as [h b]. simpl in IH.
  destruct h as [|d h]; simpl in *; [|now rewrite IH]. destruct (N.eqb c cSL); simpl; now rewrite IH.
Qed.
Lemma rsplit_head : forall p, match rev (fst (rsplit_slash p)) with [] => True | c :: _ => c = cSL end.
Proof.
  induction p as [|c p IH]; [exact I|]. simpl. destruct (rsplit_slash p) as [h b]. simpl in IH.
  destruct h as [|d h].
  - destruct (N.eqb_spec c cSL); simpl; [assumption|exact I].
  - simpl fst. simpl rev in *. destruct (rev h ++ [d]) as [|x l] eqn:E; [destruct (rev h); discriminate|]. exact IH.
Qed.
Lemma dirname_prefix : forall p, exists t, p = dirname p ++ t.
Proof.
  intro p. unfold dirname. pose proof (rsplit_app p) as E. destruct (forallb _ _); [eauto|].
  destruct (rstrip_p_spec (N.eqb cSL) (fst (rsplit_slash p))) as [b [H _]].
  exists (b ++ snd (rsplit_slash p)). rewrite app_assoc, <- H. now symmetry.
Qed.
Lemma dirname_shorter : forall p, forallb (N.eqb cSL) p = true \/ length (dirname p) < length p.
Proof.
  intro p. pose proof (rsplit_app p) as E. pose proof (rsplit_head p) as Hh. unfold dirname.
  destruct (forallb (N.eqb cSL) (fst (rsplit_slash p))) eqn:Ef.
  - destruct (snd (rsplit_slash p)) as [|c b] eqn:Eb.
    + rewrite app_nil_r in E. rewrite E in Ef. now left.
    + right. rewrite <- E at 2. rewrite app_length. simpl. lia.
  - right. destruct (rstrip_p_spec (N.eqb cSL) (fst (rsplit_slash p))) as [b [H1 [H2 H3]]].
    rewrite <- E at 2. rewrite app_length. rewrite H1 at 2. rewrite app_length.
    destruct b as [|x b]; [|simpl; lia]. exfalso. rewrite app_nil_r in H1. rewrite <- H1 in H3.
    destruct (rev (fst (rsplit_slash p))) as [|c l] eqn:Er.
    + apply (f_equal (@rev _)) in Er. rewrite rev_involutive in Er. rewrite Er in Ef. discriminate.
    + subst c. discriminate H3.
Qed.
Lemma dirname_slashes : forall p, forallb (N.eqb cSL) p = true -> dirname p = p.
Proof.
  intros p H. assert (E : rsplit_slash p = (p, [])).
  { clear -H. induction p as [|c p IH]; [reflexivity|]. cbn [forallb] in H. cbn [rsplit_slash]. apply andb_prop in H. destruct H as [H1 H2].
    rewrite IH by exact H2. apply N.eqb_eq in H1. subst c. destruct p; reflexivity. }
  unfold dirname. rewrite E. simpl. now rewrite H.
Qed.

Lemma C27_lemma : forall w p, fs_isdir w [] = false -> startswith [cSL; cSL] p = false ->
  (forall n, length p < n -> layer_loop n w p <> None) /\
  (forall name n, length p < n -> find_loop n w name p <> None).
Proof.
  intros w p He. remember (length p) as len eqn:El.
  assert (Hlen : length p <= len) by lia. clear El. revert p Hlen.
  assert (Hstep : forall p, startswith [cSL; cSL] p = false -> fs_isdir w p = true -> str_eqb p "/" = false ->
            length (dirname p) < length p /\ startswith [cSL; cSL] (dirname p) = false).
  { intros p Hp Hd Hr. split.
    - destruct (dirname_shorter p) as [H|H]; [|exact H]. exfalso.
      destruct p as [|c p]; [congruence|]. cbn [forallb] in H. apply andb_prop in H. destruct H as [H1 H2].
      apply N.eqb_eq in H1. subst c. destruct p as [|c p]; [discriminate Hr|].
      cbn [forallb] in H2. apply andb_prop in H2. destruct H2 as [H1 _]. apply N.eqb_eq in H1. subst c.
      unfold startswith in Hp. simpl in Hp. discriminate.
    - destruct (startswith [cSL; cSL] (dirname p)) eqn:E; [|reflexivity]. exfalso.
      destruct (dirname_prefix p) as [t Et]. apply startswith_spec in E. destruct E as [u Eu]. rewrite Eu in Et.
      rewrite Et in Hp. unfold startswith in Hp. simpl in Hp. discriminate. }
  induction len as [|len IH]; intros p Hlen Hp.
  - destruct p; [|simpl in Hlen; lia]. split; intros; (destruct n as [|n]; [lia|]); cbn; rewrite He; discriminate.
  - split; intros; (destruct n as [|n]; [lia|]); cbn [layer_loop find_loop];
      (destruct (fs_isdir w p) eqn:Ed; [|discriminate]); (destruct (str_eqb p "/") eqn:Er; [discriminate|]);
      destruct (Hstep p Hp Ed Er) as [S1 S2]; destruct (IH (dirname p)) as [I1 I2]; try lia; try exact S2.
    + destruct (fs_exists _ _); [discriminate|]. apply I1. lia.
    + destruct (fs_exists _ _); [destruct (fs_exists _ _); discriminate|]. apply I2. lia.
Qed.

Lemma loop_less : forall w n m p, m <= n -> layer_loop n w p = None -> layer_loop m w p = None.
Proof.
  intros w n. induction n as [|n IH]; intros m p Hm H; [now replace m with 0 by lia|].
  destruct m as [|m]; [reflexivity|]. cbn [layer_loop] in *. destruct (fs_isdir w p); [|discriminate].
  destruct (str_eqb p "/"); [discriminate|]. destruct (fs_exists _ _); [discriminate|]. apply IH; [lia|exact H].
Qed.
Lemma find_less : forall w name n m p, m <= n -> find_loop n w name p = None -> find_loop m w name p = None.
Proof.
  intros w name n. induction n as [|n IH]; intros m p Hm H; [now replace m with 0 by lia|].
  destruct m as [|m]; [reflexivity|]. cbn [find_loop] in *. destruct (fs_isdir w p); [|discriminate].
  destruct (str_eqb p "/"); [discriminate|]. destruct (fs_exists _ _); [destruct (fs_exists _ _); discriminate|].
  apply IH; [lia|exact H].
Qed.

(** The fuel of the model suffices: what is not finished by then never ends. *)
Lemma C27_fuel_lemma : forall w p,
  (layer_loop (S (length p)) w p = None -> forall n, layer_loop n w p = None) /\
  (forall name, find_loop (S (length p)) w name p = None -> forall n, find_loop n w name p = None).
Proof.
  intros w p. remember (length p) as len eqn:El.
  assert (Hlen : length p <= len) by lia. clear El. revert p Hlen.
  assert (Hfix : forall p, forallb (N.eqb cSL) p = true -> dirname p = p) by apply dirname_slashes.
  induction len as [|len IH]; intros p Hlen.
  - destruct p; [|simpl in Hlen; lia]. split; [|intros name]; intros H n; (induction n as [|n IHn]; [reflexivity|]); cbn in *;
    destruct (fs_isdir w []); try discriminate; destruct (fs_exists _ _) in *; try discriminate; try exact IHn;
    destruct (fs_exists _ _) in *; try discriminate; exact IHn.
  - split; [|intros name]; intros H n.
    + cbn [layer_loop] in H. destruct (dirname_shorter p) as [Hs|Hs].
      * induction n as [|n IHn]; [reflexivity|]. cbn [layer_loop]. rewrite (Hfix p Hs) in *.
        destruct (fs_isdir w p); [|discriminate]. destruct (str_eqb p "/"); [discriminate|].
        destruct (fs_exists _ _); [discriminate|]. exact IHn.
      * destruct n as [|n]; [reflexivity|]. cbn [layer_loop]. destruct (fs_isdir w p); [|discriminate].
        destruct (str_eqb p "/"); [discriminate|]. destruct (fs_exists _ _); [discriminate|].
        apply IH; [lia|exact H].
    + cbn [find_loop] in H. destruct (dirname_shorter p) as [Hs|Hs].
      * induction n as [|n IHn]; [reflexivity|]. cbn [find_loop]. rewrite (Hfix p Hs) in *.
        destruct (fs_isdir w p); [|discriminate]. destruct (str_eqb p "/"); [discriminate|].
        destruct (fs_exists _ _); [destruct (fs_exists _ _); discriminate|]. exact IHn.
      * destruct n as [|n]; [reflexivity|]. cbn [find_loop]. destruct (fs_isdir w p); [|discriminate].
        destruct (str_eqb p "/"); [discriminate|]. destruct (fs_exists _ _); [destruct (fs_exists _ _); discriminate|].
        apply IH; [lia|exact H].
Qed.

(** ** C23 *)

Lemma file_of_base : forall f b, ~ In cSL b -> file_of f b -> basename f = b.
Proof.
  intros f b Hb H. destruct H as [b|d b].
  - unfold basename. now rewrite rsplit_slash_no.
  - now apply basename_app.
Qed.
Lemma rsplit_dot_no : forall x, ~ In cDOT x -> rsplit_dot x = None.
Proof.
  induction x as [|c x IH]; intro H; [reflexivity|]. simpl. rewrite IH by (intro; apply H; now right).
  destruct (N.eqb_spec c cDOT); [exfalso; apply H; now left|reflexivity].
Qed.
Lemma rsplit_dot_app : forall a x, ~ In cDOT x -> rsplit_dot (a ++ [cDOT] ++ x) = Some (a, [cDOT] ++ x).
Proof.
  induction a as [|c a IH]; intros x H.
  - simpl. now rewrite rsplit_dot_no.
  - simpl app. simpl rsplit_dot. simpl app in IH. now rewrite IH.
Qed.
Lemma splitext_base : forall a x, ~ In cSL (a ++ [cDOT] ++ x) -> ~ In cDOT x -> (exists c, In c a /\ c <> cDOT) ->
  splitext (a ++ [cDOT] ++ x) = (a, [cDOT] ++ x).
Proof.
  intros a x H1 H2 [c [Hc Hd]]. unfold splitext. rewrite rsplit_slash_no by exact H1. rewrite rsplit_dot_app by exact H2.
  destruct (forallb (N.eqb cDOT) a) eqn:E; [|reflexivity]. exfalso. rewrite forallb_forall in E. apply E in Hc.
  apply N.eqb_eq in Hc. congruence.
Qed.

Lemma C23_version_lemma : forall f n v x,
  ~ In cSL (n ++ "_" ++ v ++ "." ++ x) -> ~ In 95%N n -> ~ In cDOT x -> file_of f (n ++ "_" ++ v ++ "." ++ x) ->
  guess_recipe_name f = n /\
  forall v1, ~ In 95%N v1 -> v = v1 \/ (exists r, v = v1 ++ "_" ++ r) -> guess_recipe_version f = Some v1.
Proof.
  intros f n v x Hs Hn Hx Hf. apply file_of_base in Hf; [|exact Hs].
  assert (E : splitext (basename f) = (n ++ "_" ++ v, "." ++ x)).
  { rewrite Hf. replace (n ++ "_" ++ v ++ "." ++ x) with ((n ++ "_" ++ v) ++ [cDOT] ++ x) in *
      by (now rewrite <- !app_assoc). apply splitext_base; [exact Hs|exact Hx|].
    exists 95%N. split; [apply in_or_app; right; now left|discriminate]. }
  unfold guess_recipe_name, guess_recipe_version. rewrite E. simpl fst.
  change (n ++ "_" ++ v) with (n ++ 95%N :: v). rewrite split_char_app by exact Hn. split; [reflexivity|].
  intros v1 H1 [->|[r ->]].
  - now rewrite split_char_none.
  - change (v1 ++ "_" ++ r) with (v1 ++ 95%N :: r). now rewrite split_char_app.
Qed.
Lemma C23_plain_lemma : forall f n x,
  ~ In cSL (n ++ "." ++ x) -> ~ In 95%N n -> ~ In cDOT x -> (exists c, In c n /\ c <> cDOT) -> file_of f (n ++ "." ++ x) ->
  guess_recipe_name f = n /\ guess_recipe_version f = None.
Proof.
  intros f n x Hs Hn Hx Hc Hf. apply file_of_base in Hf; [|exact Hs].
  unfold guess_recipe_name, guess_recipe_version. rewrite Hf. change "." with [cDOT].
  rewrite splitext_base by assumption. simpl fst. rewrite split_char_none by exact Hn. auto.
Qed.

Lemma exists_last_or_nil : forall A (l : list A), l = [] \/ exists a x, l = a ++ [x].
Proof. intros A l. destruct l as [|x l]; [now left|right]. destruct (exists_last (l := x :: l)) as [a [y E]]; [discriminate|]. now exists a, y. Qed.
Lemma splitext_dots : forall d x, (forall c, In c d -> c = cDOT) -> ~ In cSL (d ++ x) -> ~ In cDOT x -> splitext (d ++ x) = (d ++ x, []).
Proof.
  intros d x Hd Hs Hx. unfold splitext. rewrite rsplit_slash_no by exact Hs.
  destruct (exists_last_or_nil _ d) as [->|[a [c ->]]].
  - cbn [app]. now rewrite rsplit_dot_no.
  - assert (c = cDOT) as -> by (apply Hd; apply in_or_app; right; now left).
    rewrite <- app_assoc, rsplit_dot_app by exact Hx.
    assert (F : forallb (N.eqb cDOT) a = true).
    { apply forallb_forall. intros c Hc. apply N.eqb_eq. symmetry. apply Hd. apply in_or_app. now left. }
    now rewrite F.
Qed.
Lemma C23_hidden_lemma : forall f d x, (forall c, In c d -> c = cDOT) -> ~ In cSL (d ++ x) -> ~ In cDOT x -> file_of f (d ++ x) ->
  (~ In 95%N x -> guess_recipe_name f = d ++ x /\ guess_recipe_version f = None) /\
  (forall n v, x = n ++ "_" ++ v -> ~ In 95%N n -> ~ In 95%N v -> guess_recipe_name f = d ++ n /\ guess_recipe_version f = Some v).
Proof.
  intros f d x Hd Hs Hx Hf. apply file_of_base in Hf; [|exact Hs].
  assert (U : ~ In 95%N d) by (intro H; apply Hd in H; discriminate H).
  unfold guess_recipe_name, guess_recipe_version. rewrite Hf, splitext_dots by assumption. cbn [fst]. split.
  - intro H. rewrite split_char_none by (rewrite in_app_iff; tauto). auto.
  - intros n v -> Hn Hv. change (n ++ "_" ++ v) with (n ++ 95%N :: v). rewrite app_assoc, split_char_app by (rewrite in_app_iff; tauto).
    now rewrite split_char_none.
Qed.

(** ** C24 *)

(** Patterns anchored at the beginning match at most once. *)
Lemma scan_mid : forall r s k, scan (RSeq RBol r) k false s = map inl (skipn k s).
Proof.
  intros r s. induction s as [|c s IH]; intro k.
  - destruct k; reflexivity.
  - destruct k as [|k]; simpl; [|apply IH]. f_equal. apply (IH 0).
Qed.
Lemma inl_back : forall (f : rmatch -> str) (s : str),
  flat_map (fun x : N + rmatch => match x with inl c => [c] | inr y => f y end) (map inl s) = s.
Proof. intros f s. induction s as [|c s IH]; [reflexivity|]. simpl. now rewrite IH. Qed.
Lemma sub_bol : forall r f s, s <> [] ->
  re_sub (RSeq RBol r) f s =
  match match_at (RSeq RBol r) true s with Some x => f x ++ skipn (length (g0 x)) s | None => s end.
Proof.
  intros r f s Hn. unfold re_sub. destruct s as [|c s]; [congruence|]. cbn [scan].
  destruct (match_at (RSeq RBol r) true (c :: s)) as [x|]; cbn [flat_map].
  - destruct (length (g0 x)) as [|k]; cbn [flat_map]; rewrite scan_mid, inl_back; reflexivity.
  - rewrite scan_mid, inl_back. reflexivity.
Qed.

Definition rep (n : nat) (l : str) : str := concat (repeat l n).

(** A greedy repetition of literal text takes all copies. *)
Lemma star_lit : forall (l : str) A (k : mstate -> option A) t g x, l <> [] ->
  (startswith l t = false \/ (t = l /\ k (MS false [] g) = None)) ->
  forall n b fuel, length (rep n l ++ t) <= fuel -> k (after b (rep n l) t g) = Some x ->
  star true (RLit l) A k fuel (MS b (rep n l ++ t) g) = Some x.
Proof.
  intros l A k t g x Hl Ht n. induction n as [|n IH]; intros b fuel Hf Hk.
  - simpl app in *. destruct fuel as [|fuel]; [exact Hk|]. cbn [star]. destruct Ht as [Ht|[Et Ek]].
    + rewrite m_lit_no by exact Ht. exact Hk.
    + subst t.
      assert (Em : forall k', m (RLit l) A k' (MS b l g) = k' (MS false [] g)).
      { intro k'. pose proof (m_lit l A k' b [] g) as H. rewrite app_nil_r in H. rewrite H. now destruct l. }
      rewrite Em.
      assert (E : star true (RLit l) A k fuel (MS false [] g) = None).
      { destruct fuel as [|fuel]; [exact Ek|]. cbn [star]. rewrite m_lit_no; [exact Ek|]. destruct l; [congruence|reflexivity]. }
      cbn [m_rest]. rewrite E. destruct (_ <? _); exact Hk.
  - assert (Er : rep (S n) l = l ++ rep n l) by reflexivity. rewrite Er in *.
    destruct fuel as [|fuel]; [rewrite !app_length in Hf; destruct l; [congruence|simpl in Hf; lia]|].
    cbn [star]. rewrite <- app_assoc, m_lit. rewrite <- app_assoc in Hf. cbn [m_rest after].
    assert (Hlt : (length (rep n l ++ t) <? length (l ++ rep n l ++ t)) = true).
    { apply Nat.ltb_lt. rewrite (app_length l). destruct l; [congruence|simpl; lia]. }
    rewrite Hlt. unfold after at 1. destruct l as [|c l]; [congruence|]. rewrite IH; [reflexivity| |].
    + rewrite app_length in Hf. simpl in Hf. lia.
    + unfold after in *. simpl app in Hk. now destruct (rep n (c :: l)).
Qed.

Lemma class_id_match : forall n t, t <> [] -> forallb dotp t = true ->
  (startswith "nativesdk-" t = false \/ t = "nativesdk-") ->
  match_at re_class_id true (rep n "nativesdk-" ++ t) = Some (RM (rep n "nativesdk-" ++ t) [("2", t)]).
Proof.
  intros n t Hn Hd Ht. unfold match_at, re_class_id, RCat.
  set (rest := RSeq (RStar true (RLit "-native")) (RStar true (RLit "-cross"))).
  assert (E : m (RSeq RBol (RSeq (RStar true (RLit "nativesdk-")) (RSeq (RGrp "2" dot_plus) rest))) mstate
      (fun x => Some x) (MS true (rep n "nativesdk-" ++ t) []) = Some (MS false [] [("2", t)])).
  { change (m (RSeq RBol ?r) mstate ?k (MS true ?s [])) with (m r mstate k (MS true s [])).
    change (m (RSeq ?a ?b) mstate ?k ?s) with (m a mstate (m b mstate k) s). rewrite m_star.
    apply star_lit; [discriminate| |cbn [m_rest]; lia|].
    - destruct Ht as [Ht| ->]; [now left|right]. split; reflexivity.
    - destruct t as [|c t]; [congruence|]. cbn [forallb] in Hd. apply andb_prop in Hd. destruct Hd as [Hc Hd].
      unfold after. set (b := match rep n "nativesdk-" with [] => true | _ => false end).
      cbn [m dot_plus RPlus RDot m_rest m_grp]. unfold RDot. cbn [m m_rest]. rewrite Hc.
      change (m (RStar true (RChr dotp)) mstate
        (fun s' => m rest mstate (fun x => Some x) (MS (m_bol s') (m_rest s')
             (("2", consumed (MS b (c :: t) []) s') :: m_grp s'))) (MS false t []) = Some (MS false [] [("2", c :: t)])).
      replace (MS false t []) with (MS false (t ++ []) []) by now rewrite app_nil_r.
      apply star_class_greedy; [exact Hd| |].
      + unfold after. replace (match t with [] => false | _ => false end) with false by (destruct t; reflexivity).
        cbn [m_bol m_rest m_grp]. unfold consumed. cbn [m_rest length]. rewrite Nat.sub_0_r.
        change (S (length t)) with (length (c :: t)). rewrite firstn_all. reflexivity.
      + intros u v Eu Hu _. symmetry in Eu. apply app_eq_nil in Eu. destruct Eu as [-> _]. congruence. }
  rewrite E. unfold consumed. cbn [m_rest length m_grp]. rewrite Nat.sub_0_r, firstn_all. reflexivity.
Qed.

Lemma suffix_mt : forall x s s', forallb dotp s = true ->
  mt (RCat [RBol; RGrp "1" dot_plus; RLit x; REol]) (MS true s []) s' <->
  exists u, u <> [] /\ s = u ++ x /\ s' = MS false [] [("1", u)].
Proof.
  intros x s s' Hd. unfold RCat. rewrite mt_seq_iff. split.
  - intros [s1 [H1 H]]. apply mt_bol_iff in H1. destruct H1 as [-> _]. apply mt_seq_iff in H. destruct H as [s2 [H2 H]].
    apply mt_grp_iff in H2. destruct H2 as [s3 [H3 E2]]. unfold dot_plus, RPlus in H3. apply mt_seq_iff in H3.
    destruct H3 as [s4 [H4 H3]]. apply mt_chr_iff in H4. destruct H4 as [c [t [E4 [Hc E5]]]]. cbn [m_rest m_grp] in *.
    subst s4. apply mt_star_chr_iff in H3. destruct H3 as [w [t2 [E6 [Hw E7]]]]. cbn [m_rest m_grp m_bol] in *.
    apply mt_seq_iff in H. destruct H as [s5 [H5 H6]]. apply mt_lit_iff in H5. destruct H5 as [t3 [E8 E9]].
    apply mt_eol_iff in H6. destruct H6 as [-> H6]. subst. cbn [m_rest m_grp m_bol] in *.
    change (t2 = x ++ t3) in E8. subst t2.
    assert (E : consumed (MS true (c :: w ++ x ++ t3) []) (after false w (x ++ t3) []) = c :: w).
    { change (c :: w ++ x ++ t3) with ((c :: w) ++ x ++ t3). now apply consumed_app. }
    assert (Et : t3 = []).
    { unfold after in H6. cbn [m_rest] in H6. destruct H6 as [H6|H6]; [exact H6|]. exfalso. subst t3. change (c :: w ++ x ++ [cNL]) with ((c :: w) ++ x ++ [cNL]) in Hd.
      rewrite !forallb_app in Hd. apply andb_prop in Hd. destruct Hd as [_ Hd]. apply andb_prop in Hd. destruct Hd as [_ Hd].
      discriminate Hd. }
    subst t3. exists (c :: w). split; [discriminate|]. rewrite app_nil_r in *. split; [reflexivity|].
    rewrite E. unfold after. destruct w, x; reflexivity.
  - intros [u [Hu [-> ->]]]. destruct u as [|c w]; [congruence|]. rewrite forallb_app in Hd. apply andb_prop in Hd.
    destruct Hd as [Hd _]. cbn [forallb] in Hd. apply andb_prop in Hd. destruct Hd as [Hc Hw].
    exists (MS true ((c :: w) ++ x) []). split; [now apply mt_bol_iff|]. apply mt_seq_iff.
    exists (MS false x [("1", c :: w)]). split.
    + apply mt_grp_iff. exists (MS false x []). split.
      * apply mt_seq_iff. exists (MS false (w ++ x) []). split.
        -- apply mt_chr_iff. exists c, (w ++ x). auto.
        -- apply mt_star_chr_iff. exists w, x. split; [reflexivity|]. split; [exact Hw|]. unfold after. now destruct w.
      * cbn [m_bol m_rest m_grp]. now rewrite consumed_app.
    + apply mt_seq_iff. exists (MS false [] [("1", c :: w)]). split.
      * apply mt_lit_iff. exists []. rewrite app_nil_r. split; [reflexivity|]. unfold after. now destruct x.
      * apply mt_eol_iff. auto.
Qed.

Lemma sub_suffix : forall x s, s <> [] -> forallb dotp s = true ->
  let r := re_sub (RCat [RBol; RGrp "1" dot_plus; RLit x; REol]) (group_str "1") s in
  drops x s r /\ r <> [] /\ forallb dotp r = true.
Proof.
  intros x s Hn Hd. cbv zeta. unfold RCat. rewrite sub_bol by exact Hn. fold (RCat [RBol; RGrp "1" dot_plus; RLit x; REol]).
  change (RSeq RBol (RSeq (RGrp "1" dot_plus) (RSeq (RLit x) REol))) with (RCat [RBol; RGrp "1" dot_plus; RLit x; REol]).
  destruct (match_at _ true s) as [y|] eqn:E.
  - apply match_at_some in E. destruct E as [s' [H ->]]. apply suffix_mt in H; [|exact Hd].
    destruct H as [u [Hu [Es ->]]]. unfold consumed. cbn [m_rest g0 m_grp length]. rewrite Nat.sub_0_r, firstn_all, skipn_all.
    rewrite app_nil_r. change (drops x s u /\ u <> [] /\ forallb dotp u = true). split; [now apply drops_yes|]. split; [exact Hu|].
    rewrite Es, forallb_app in Hd. now apply andb_prop in Hd.
  - split; [|auto]. apply drops_no. intros u Hu Es. rewrite match_at_none in E.
    apply (E (MS false [] [("1", u)])). apply suffix_mt; [exact Hd|]. exists u. auto.
Qed.

Lemma C24_lemma : forall n t, t <> [] -> ~ In cNL t -> (startswith "nativesdk-" t = false \/ t = "nativesdk-") ->
  exists u, drops "-native" t u /\ drops "-cross" u (strip_class_affixes (rep n "nativesdk-" ++ t)).
Proof.
  intros n t Hn Hl Ht. assert (Hd : forallb dotp t = true).
  { apply forallb_forall. intros c Hc. unfold dotp. destruct (N.eqb_spec c cNL); [subst; contradiction|reflexivity]. }
  assert (E : re_sub re_class_id (group_str "2") (rep n "nativesdk-" ++ t) = t).
  { unfold re_class_id, RCat. rewrite sub_bol by (destruct t; [congruence|]; destruct (rep n "nativesdk-"); discriminate).
    fold re_class_id.
    match goal with |- context [match_at ?r true ?s] => change (match_at r true s) with (match_at re_class_id true s) end.
    rewrite class_id_match by assumption. cbn [g0]. rewrite skipn_all, app_nil_r. reflexivity. }
  unfold strip_class_affixes. rewrite E.
  destruct (sub_suffix "-native" t Hn Hd) as [H1 [H2 H3]]. eexists. split; [exact H1|].
  apply (sub_suffix "-cross"); assumption.
Qed.

(** Every name has such a form. *)
Lemma C24_all_lemma : forall pn, pn <> [] ->
  exists n t, pn = rep n "nativesdk-" ++ t /\ t <> [] /\ (startswith "nativesdk-" t = false \/ t = "nativesdk-").
Proof.
  intro pn. remember (length pn) as len eqn:El. assert (Hlen : length pn <= len) by lia. clear El. revert pn Hlen.
  induction len as [|len IH]; intros pn Hlen Hn.
  - destruct pn; [congruence|simpl in Hlen; lia].
  - destruct (startswith "nativesdk-" pn) eqn:E; [|exists 0, pn; auto].
    apply startswith_spec in E. destruct E as [t ->]. destruct t as [|c t].
    + exists 0, "nativesdk-". auto.
    + destruct (IH (c :: t)) as [n [t2 [E [H1 H2]]]]; [rewrite app_length in Hlen; simpl in *; lia|discriminate|].
      exists (S n), t2. rewrite E. split; [reflexivity|auto].
Qed.

(** Names without any affix stay. *)
Lemma drops_none : forall x t u, drops x t u -> endswith x t = false -> u = t.
Proof.
  intros x t u H He. destruct H as [u Hu E|H]; [|reflexivity]. exfalso. subst t. unfold endswith in He.
  rewrite rev_app_distr, startswith_app in He. discriminate.
Qed.

Lemma drops_prefix : forall x t u, drops x t u -> exists s, t = u ++ s.
Proof. intros x t u H. destruct H as [u Hu E|H]; [now exists x|]. exists []. now rewrite app_nil_r. Qed.
Lemma C73_prefix_lemma : forall pn, pn <> [] -> ~ In cNL pn ->
  startswith "nativesdk-" (strip_class_affixes pn) = true -> strip_class_affixes pn = "nativesdk-".
Proof.
  intros pn Hn Hl H. destruct (C24_all_lemma pn Hn) as [n [t [-> [Ht Hs]]]].
  destruct (C24_lemma n t Ht) as [u [H1 H2]]; [intro; apply Hl; apply in_or_app; now right|exact Hs|].
  destruct (drops_prefix _ _ _ H1) as [s1 E1]. destruct (drops_prefix _ _ _ H2) as [s2 E2].
  apply startswith_spec in H. destruct H as [s3 E3]. rewrite E3 in E2. destruct Hs as [Hs|Hs].
  - exfalso. rewrite E1, E2 in Hs. rewrite <- !app_assoc in Hs. rewrite startswith_app in Hs. discriminate.
  - rewrite E3. rewrite E2, Hs in E1. rewrite <- !app_assoc in E1.
    assert (E : "nativesdk-" ++ [] = "nativesdk-" ++ s3 ++ s2 ++ s1) by (rewrite app_nil_r; exact E1).
    apply app_inv_head in E. destruct s3; [reflexivity|discriminate].
Qed.

(** Two leading slashes stay, and are never left. *)
Lemma dirname_double : forall p, startswith [cSL; cSL] p = true -> startswith [cSL; cSL] (dirname p) = true.
Proof.
  intros p H. apply startswith_spec in H. destruct H as [q ->].
  assert (Hh : exists x, fst (rsplit_slash ([cSL; cSL] ++ q)) = [cSL; cSL] ++ x).
  { simpl. destruct (rsplit_slash q) as [h b]. destruct h as [|c h]; simpl.
    - now exists [].
    - now exists (c :: h). }
  destruct Hh as [x Hx]. unfold dirname. rewrite Hx. destruct (forallb (N.eqb cSL) ([cSL; cSL] ++ x)) eqn:E.
  - apply startswith_app.
  - destruct (rstrip_p_spec (N.eqb cSL) ([cSL; cSL] ++ x)) as [b [H1 [H2 _]]].
    set (r := rstrip_p (N.eqb cSL) ([cSL; cSL] ++ x)) in *.
    destruct r as [|c [|d r]].
    + exfalso. cbn [app] in H1. rewrite <- H1 in H2. change (forallb (N.eqb cSL) ([cSL; cSL] ++ x) = true) in H2. congruence.
    + exfalso. change (cSL :: cSL :: x = c :: b) in H1. inversion H1 as [[Hc Hb]]. rewrite <- Hb in H2.
      change (forallb (N.eqb cSL) ([cSL; cSL] ++ x) = true) in H2. congruence.
    + change (cSL :: cSL :: x = c :: d :: (r ++ b)) in H1. inversion H1 as [[Hc Hd Hr]]. apply (startswith_app [cSL; cSL]).
Qed.
Lemma C27_forever_lemma : forall w p, startswith [cSL; cSL] p = true ->
  (forall k, fs_isdir w (Nat.iter k dirname p) = true) ->
  (forall k, fs_exists w (path_join (Nat.iter k dirname p) "conf/layer.conf") = false) ->
  (forall n, layer_loop n w p = None) /\ (forall name n, find_loop n w name p = None).
Proof.
  intros w p Hp Hd He.
  assert (G : forall n k, layer_loop n w (Nat.iter k dirname p) = None /\
                          forall name, find_loop n w name (Nat.iter k dirname p) = None).
  { induction n as [|n IH]; intro k; [split; reflexivity|].
    destruct (IH (S k)) as [I1 I2]. pose proof (He (S k)) as E2. simpl in I1, I2, E2.
    assert (Er : str_eqb (Nat.iter k dirname p) "/" = false).
    { destruct (str_eqb _ "/") eqn:E; [|reflexivity]. apply str_eqb_eq in E. exfalso.
      assert (H : startswith [cSL; cSL] (Nat.iter k dirname p) = true).
      { clear -Hp. induction k as [|k IH]; [exact Hp|]. simpl. now apply dirname_double. }
      rewrite E in H. discriminate H. }
    split; [|intro name]; cbn [layer_loop find_loop]; rewrite (Hd k), Er, E2; auto. }
  split; [intro n|intros name n]; destruct (G n 0); auto.
Qed.

(** ** C74 *)

Lemma C74_lemma : forall w ds t f n, comps (ds ++ t ++ [f]) -> length (ds ++ t ++ [f]) < n ->
  fs_isfile w (cpath (ds ++ t ++ [f])) = true -> layer_at w (ds ++ t) ds ->
  get_layer_root n w (cpath (ds ++ t ++ [f])) = Some (cpath ds).
Proof.
  intros w ds t f n Hc Hn Hf L. destruct (C25_lemma w (ds ++ t ++ [f]) n Hc) as [[d2 [H1 H2]]|[H1 _]]; [destruct ds; [destruct t|]; discriminate|exact Hn| |];
    unfold layer_start in H1; rewrite Hf, app_assoc, removelast_last in H1.
  - rewrite H2. now rewrite (layer_at_unique w (ds ++ t) d2 ds H1 L).
  - exfalso. exact (H1 ds L).
Qed.
