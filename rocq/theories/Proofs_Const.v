(** * Proofs of the properties of the constants *)

From Verif Require Import PyStr PyPath Res Const Item Lines Stash StrFacts LinesFacts ParseFacts HistFacts ReachFacts
  MapFacts AppendFacts Spec_Const ConstFacts Spec_Files Proofs_Files.

(** ** GetByPath *)

Lemma walk_spec : forall ks v,
  match at_path ks v with
  | Some x => cval_walk ks v = Ok x
  | None => (cval_walk ks v = Ok (CDict []) /\ forall q r x, ks = q ++ r -> at_path q v = Some x -> is_dict x) \/
            (cval_walk ks v = Raise AttributeError /\
             exists q k r x, ks = q ++ k :: r /\ at_path q v = Some x /\ is_leaf x)
  end.
Proof.
  assert (E0 : forall ks, ks <> [] -> cval_walk ks (CDict []) = Ok (CDict [])).
  { intros ks H. destruct ks as [|k ks]; [congruence|]. clear H. revert k. induction ks as [|k2 ks IH]; intro k; [reflexivity|].
    cbn [cval_walk cval_step dget]. exact (IH k2). }
  induction ks as [|k ks IH]; intro v; [reflexivity|]. cbn [at_path cval_walk].
  destruct v as [s|l|d].
  - right. split; [reflexivity|]. exists [], k, ks, (CStr s). repeat split; exact I.
  - right. split; [reflexivity|]. exists [], k, ks, (CList l). repeat split; exact I.
  - cbn [cval_step]. destruct (dget k d) as [x|] eqn:Ek.
    + simpl bind. specialize (IH x). destruct (at_path ks x) as [y|]; [exact IH|].
      destruct IH as [[H1 H2]|[H1 [q [k2 [r [y [H2 [H3 H4]]]]]]]].
      * left. split; [exact H1|]. intros q r y E Hq. destruct q as [|k2 q]; [inversion Hq; now exists d|].
        inversion E; subst. simpl in Hq. rewrite Ek in Hq. eapply H2; [reflexivity|exact Hq].
      * right. split; [exact H1|]. exists (k :: q), k2, r, y. subst ks. split; [reflexivity|]. split; [|exact H4].
        simpl. now rewrite Ek.
    + simpl bind. left. split.
      * destruct ks as [|k2 ks]; [reflexivity|]. apply E0. discriminate.
      * intros q r y E Hq. destruct q as [|k2 q]; [inversion Hq; now exists d|].
        inversion E; subst. simpl in Hq. rewrite Ek in Hq. discriminate.
Qed.

Lemma path_keys : forall ks n, keys_ok ks ->
  split_char 47 (rstrip "/" (join "/" ks ++ repeat 47%N n)) = ks.
Proof.
  intros ks n [H1 [l [k [-> Hk]]]]. unfold rstrip.
  rewrite rstrip_p_app by (induction n; simpl; auto).
  destruct (join_last 47%N l k Hk) as [a [x [E Hx]]]. rewrite E.
  rewrite rstrip_p_id.
  - rewrite <- E. apply split_char_join_parts; [destruct l; discriminate|exact H1].
  - destruct (N.eqb_spec x 47) as [->|Hn].
    + exfalso. apply (H1 k); [apply in_or_app; right; now left|exact Hx].
    + apply N.eqb_neq in Hn. unfold in_chars. simpl. now rewrite Hn.
Qed.

Lemma C53_path_lemma : forall ks n db, keys_ok ks ->
  let path := join "/" ks ++ repeat 47%N n in
  (forall v, at_path ks db = Some v -> get_by_path path db = Ok v) /\
  (at_path ks db = None -> (forall q r v, ks = q ++ r -> at_path q db = Some v -> is_dict v) ->
     get_by_path path db = Ok (CDict [])) /\
  (forall q k r v, ks = q ++ k :: r -> at_path q db = Some v -> is_leaf v -> get_by_path path db = Raise AttributeError).
Proof.
  intros ks n db Hk path. unfold get_by_path, path. rewrite path_keys by exact Hk.
  pose proof (walk_spec ks db) as H. split; [|split].
  - intros v E. now rewrite E in H.
  - intros E Hd. rewrite E in H. destruct H as [[H _]|[_ [q [k [r [x [E1 [E2 H]]]]]]]]; [exact H|].
    destruct (Hd q (k :: r) x E1 E2) as [d ->]. destruct H.
  - intros q k r v E Hq Hl. destruct (at_path ks db) as [y|] eqn:Ey.
    + exfalso. subst ks. rewrite at_path_app, Hq in Ey. destruct v; [discriminate|discriminate|destruct Hl].
    + destruct H as [[_ H]|[H _]]; [|exact H]. destruct (H q (k :: r) v E Hq) as [d ->]. destruct Hl.
Qed.

(** ** OverrideConstants *)

Lemma clash_true : true = true -> forall v d, is_leaf v -> d <> [] -> non_empty v d = true.
Proof. intros _ v d _ H. now destruct d. Qed.

Lemma C53_lemma : forall db b db', override_constants db b = (db', None) -> keys_once b ->
  (forall p v, at_path p b = Some v -> is_leaf v -> at_path p db' = Some v) /\
  (forall p, apart p b -> at_path p db' = at_path p db).
Proof.
  intros db b db' H Hk. destruct (lift_dict _ _ _ _ _ H (or_introl eq_refl)) as [a [a' [-> [-> E]]]].
  rewrite override_gmerge in E. split.
  - intros p v Hp Hl. rewrite (gm_leaf _ _ _ clash_true p b a a' v Hk E Hp Hl). simpl.
    now destruct (at_path p (CDict a)).
  - intros p Hp. eapply gm_apart; eassumption.
Qed.
Lemma C53_fails_lemma : forall db b, is_dict db -> is_dict b -> keys_once b ->
  (snd (override_constants db b) = None <-> fits b db).
Proof.
  intros db b [a ->] Hb Hk. unfold override_constants. simpl.
  pose proof (gm_ok true (fun _ v => (v, None)) non_empty b a Hk Hb) as H. rewrite <- override_gmerge in H.
  destruct (override_merge b a) as [a' e]. simpl in *. rewrite H, fits_clash. intuition.
Qed.

(** ** AddConstants *)

Lemma iadd_addable : forall x v, is_leaf v -> (snd (cval_iadd x v) = None <-> addable x v).
Proof.
  intros x v Hv. destruct x, v; simpl; try destruct Hv; split; intro H; try discriminate H; try constructor; try reflexivity; inversion H.
Qed.

Lemma C54_lemma : forall db b db', add_constants db b = (db', None) -> keys_once b ->
  (forall p v, at_path p b = Some v -> is_leaf v -> at_path p db = None -> at_path p db' = Some v) /\
  (forall p l old, at_path p b = Some (CList l) -> at_path p db = Some (CList old) ->
     at_path p db' = Some (CList (old ++ l))) /\
  (forall p s old, at_path p b = Some (CStr s) -> at_path p db = Some (CStr old) ->
     at_path p db' = Some (CStr (old ++ s))) /\
  (forall p s old, at_path p b = Some (CStr s) -> at_path p db = Some (CList old) ->
     at_path p db' = Some (CList (old ++ map (fun c => [c]) s))) /\
  (forall p, apart p b -> at_path p db' = at_path p db).
Proof.
  intros db b db' H Hk. destruct (lift_dict _ _ _ _ _ H (or_introl eq_refl)) as [a [a' [-> [-> E]]]].
  rewrite add_gmerge in E.
  assert (G : forall p v, at_path p b = Some v -> is_leaf v -> at_path p (CDict a') =
    match at_path p (CDict a) with None => Some v | Some av => Some (fst (cval_iadd av v)) end).
  { intros p v Hp Hl. rewrite (gm_leaf _ _ _ clash_true p b a a' v Hk E Hp Hl). reflexivity. }
  split; [|split; [|split; [|split]]].
  - intros p v Hp Hl Ha. now rewrite (G p v Hp Hl), Ha.
  - intros p l old Hp Ha. now rewrite (G p _ Hp I), Ha.
  - intros p l old Hp Ha. now rewrite (G p _ Hp I), Ha.
  - intros p l old Hp Ha. now rewrite (G p _ Hp I), Ha.
  - intros p Hp. eapply gm_apart; eassumption.
Qed.
Lemma C54_fails_lemma : forall db b, is_dict db -> is_dict b -> keys_once b ->
  (snd (add_constants db b) = None <->
   fits b db /\ forall p v av, at_path p b = Some v -> is_leaf v -> at_path p db = Some av -> addable av v).
Proof.
  intros db b [a ->] Hb Hk. unfold add_constants. simpl.
  pose proof (gm_ok true cval_iadd non_empty b a Hk Hb) as H. rewrite <- add_gmerge in H.
  destruct (add_merge b a) as [a' e]. simpl in H |- *. rewrite H, fits_clash. split; intros [H1 H2]; (split; [exact H1|]).
  - intros p v av Hp Hl Ha. apply iadd_addable; [exact Hl|]. now apply (H2 p).
  - intros p v av Hp Hl Ha. apply iadd_addable; [exact Hl|]. now apply (H2 p).
Qed.

(** ** RemoveConstants *)

Lemma C55_lemma : forall db b db', remove_constants db b = (db', None) -> keys_once b ->
  (forall p l old, at_path p b = Some (CList l) -> at_path p db = Some (CList old) ->
     at_path p db' = Some (CList (filter (fun x => negb (mem_str x l)) old))) /\
  (forall p v, at_path p b = Some v -> is_leaf v -> at_path p db = None -> at_path p db' = None) /\
  (forall p, apart p b -> at_path p db' = at_path p db).
Proof.
  intros db b db' H Hk. destruct (lift_dict _ _ _ _ _ H (or_introl eq_refl)) as [a [a' [-> [-> E]]]].
  rewrite remove_gmerge in E.
  assert (Hc : false = true -> forall v d, is_leaf v -> d <> [] -> some_key v d = true) by discriminate.
  split; [|split].
  - intros p l old Hp Ha. rewrite (gm_leaf _ _ _ Hc p b a a' _ Hk E Hp I), Ha. reflexivity.
  - intros p v Hp Hl Ha. rewrite (gm_leaf _ _ _ Hc p b a a' _ Hk E Hp Hl), Ha. reflexivity.
  - intros p Hp. eapply gm_apart; eassumption.
Qed.
Lemma C55_leaf_lemma : forall db b db' p v old, remove_constants db b = (db', None) -> keys_once b ->
  at_path p b = Some v -> is_leaf v -> at_path p db = Some old ->
  exists f, (forall x, f x = true <-> ~ names v x) /\ at_path p db' = Some (CList (filter f (entries_of old))).
Proof.
  intros db b db' p v old H Hk Hp Hl Ho.
  destruct (lift_dict _ _ _ _ _ H (or_introl eq_refl)) as [a [a' [-> [-> E]]]].
  rewrite remove_gmerge in E.
  assert (Hc : false = true -> forall v d, is_leaf v -> d <> [] -> some_key v d = true) by discriminate.
  exists (fun x => negb (cval_contains x v)). split.
  - intro x. rewrite Bool.negb_true_iff. destruct v as [s|l|d]; [| |elim Hl]; cbn [cval_contains names].
    + rewrite contains_false. split; [intros N (u & w & Eu); exact (N u w Eu)|intros N u w Eu; apply N; now exists u, w].
    + rewrite <- (mem_str_In x l). destruct (mem_str x l); intuition congruence.
  - rewrite (gm_leaf _ _ _ Hc p b a a' _ Hk E Hp Hl), Ho. unfold cval_minus. destruct old; reflexivity.
Qed.

Lemma C55_ok_lemma : forall db b, is_dict db -> is_dict b -> keys_once b -> fits b db ->
  snd (remove_constants db b) = None.
Proof.
  intros db b [a ->] Hb Hk Hf. unfold remove_constants. simpl.
  pose proof (gm_ok false (fun x v => (cval_minus x v, None)) some_key b a Hk Hb) as H. rewrite <- remove_gmerge in H.
  destruct (remove_merge b a) as [a' e]. simpl in H |- *. apply H. split; [|auto].
  intros p d av Hp Ha Hl. rewrite fits_clash in Hf. specialize (Hf p d av Hp Ha Hl).
  destruct d; [reflexivity|discriminate].
Qed.

(** ** Distros and machines *)

Definition one_name (key fn : str) : cval := CDict [("replacements", CDict [(key, CList [fn])])].

Lemma at_one_name : forall key fn p v, at_path p (one_name key fn) = Some v -> is_leaf v ->
  p = names_path key /\ v = CList [fn].
Proof.
  intros key fn p v H Hl. destruct p as [|k p]; [inversion H; subst; destruct Hl|]. cbn [at_path one_name dget] in H.
  destruct (str_eqb k "replacements") eqn:E; [|discriminate]. apply str_eqb_eq in E. subst.
  destruct p as [|k p]; [inversion H; subst; destruct Hl|]. cbn [at_path dget] in H.
  destruct (str_eqb k key) eqn:E; [|discriminate]. apply str_eqb_eq in E. subst.
  destruct p as [|k p]; [|discriminate]. inversion H. auto.
Qed.
Lemma one_name_once : forall key fn, keys_once (one_name key fn).
Proof.
  intros key fn. cbn. repeat split; constructor; auto; constructor.
Qed.
Lemma one_name_fits : forall key fn db, is_dict db -> (forall v, at_path ["replacements"] db = Some v -> is_dict v) ->
  fits (one_name key fn) db.
Proof.
  intros key fn db Hd Hr p k x v Hb Ha. destruct p as [|k1 p]; [inversion Ha; subst; exact Hd|].
  cbn [app at_path one_name dget] in Hb. destruct (str_eqb k1 "replacements") eqn:E; [|discriminate].
  apply str_eqb_eq in E. subst. destruct p as [|k2 p]; [now apply Hr|]. cbn [app at_path dget] in Hb.
  destruct (str_eqb k2 key); [|discriminate]. destruct p; discriminate.
Qed.
Lemma at_names : forall key fn, at_path (names_path key) (one_name key fn) = Some (CList [fn]).
Proof. intros key fn. unfold names_path, one_name. cbn [at_path dget]. rewrite str_eqb_refl. cbn [at_path dget]. now rewrite str_eqb_refl. Qed.

Lemma elsewhere_apart : forall p key fn, In key ["distros"; "machines"] -> elsewhere p -> apart p (one_name key fn).
Proof.
  intros p key fn Hk [H1 H2]. destruct p as [|k p]; [discriminate H1|]. unfold one_name in *.
  cbn [at_path dget] in H1. destruct (str_eqb k "replacements") eqn:E.
  - apply str_eqb_eq in E. subst. destruct p as [|k2 p]; [discriminate H1|]. cbn [at_path] in H1.
    assert (Hn : dget k2 [("distros", CList []); ("machines", CList [])] = None).
    { destruct (dget k2 _) as [v|] eqn:Ev; [|reflexivity]. exfalso.
      assert (Hv : at_path ["replacements"; k2] (CDict [("replacements", CDict [("distros", CList []); ("machines", CList [])])]) = Some v).
      { cbn [at_path dget]. rewrite str_eqb_refl. cbn [at_path]. rewrite Ev. reflexivity. }
      destruct (H2 ["replacements"; k2] p v eq_refl Hv) as [d ->].
      cbn [dget] in Ev. destruct (str_eqb k2 "distros"); [discriminate|]. destruct (str_eqb k2 "machines"); discriminate. }
    assert (E2 : str_eqb k2 key = false).
    { apply str_eqb_neq. intros ->. cbn [dget] in Hn. destruct Hk as [<-|[<-|[]]]; discriminate Hn. }
    split.
    + cbn [at_path dget]. rewrite str_eqb_refl. cbn [at_path dget]. now rewrite E2.
    + intros q r v Eq Hq. destruct q as [|k3 q]; [inversion Hq; eexists; reflexivity|].
      inversion Eq; subst k3. cbn [at_path dget] in Hq. rewrite str_eqb_refl in Hq.
      destruct q as [|k3 q]; [inversion Hq; eexists; reflexivity|]. inversion Eq; subst k3 p.
      cbn [at_path dget] in Hq. rewrite E2 in Hq. discriminate.
  - split; [cbn [at_path dget]; now rewrite E|]. intros q r v Eq Hq.
    destruct q as [|k3 q]; [inversion Hq; eexists; reflexivity|]. inversion Eq; subst k3.
    cbn [at_path dget] in Hq. rewrite E in Hq. discriminate.
Qed.

(** What AddFile may do to the database. *)
Definition named (ds ms : list str) (db db' : cval) : Prop :=
  names_ok db' /\ (forall p, elsewhere p -> at_path p db' = at_path p db) /\
  names_at "distros" db' = names_at "distros" db ++ ds /\
  names_at "machines" db' = names_at "machines" db ++ ms.

Lemma named_refl : forall db, names_ok db -> named [] [] db db.
Proof. intros db H. split; [exact H|]. rewrite !app_nil_r. auto. Qed.
Lemma named_trans : forall d1 m1 d2 m2 a b c, named d1 m1 a b -> named d2 m2 b c -> named (d1 ++ d2) (m1 ++ m2) a c.
Proof.
  intros d1 m1 d2 m2 a b c [_ [A2 [A3 A4]]] [B1 [B2 [B3 B4]]]. split; [exact B1|]. split.
  - intros p Hp. now rewrite B2, A2.
  - now rewrite B3, A3, B4, A4, !app_assoc.
Qed.

Lemma add_one_name : forall key fn db, In key ["distros"; "machines"] -> names_ok db ->
  exists db', add_constants db (one_name key fn) = (db', None) /\
    named (if str_eqb key "distros" then [fn] else []) (if str_eqb key "machines" then [fn] else []) db db'.
Proof.
  intros key fn db Hkey [N1 [N2 N3]].
  destruct (add_constants db (one_name key fn)) as [db' e] eqn:E.
  assert (He : e = None).
  { change e with (snd (db', e)). rewrite <- E. apply C54_fails_lemma; [exact N1|eexists; reflexivity|apply one_name_once|].
    split; [now apply one_name_fits|]. intros p v av Hp Hl Ha. apply at_one_name in Hp; [|exact Hl].
    destruct Hp as [-> ->]. destruct (N3 key av Hkey Ha) as [l ->]. constructor. }
  subst e. exists db'. split; [reflexivity|].
  destruct (C54_lemma _ _ _ E (one_name_once key fn)) as [A1 [A2 [_ [_ A3]]]].
  assert (Hnew : at_path (names_path key) db' = Some (CList (names_at key db ++ [fn]))).
  { destruct (at_path (names_path key) db) as [v|] eqn:Ev.
    - destruct (N3 key v Hkey Ev) as [l ->]. unfold names_at. rewrite Ev. apply A2; [apply at_names|exact Ev].
    - unfold names_at. rewrite Ev. change ([] ++ [fn]) with [fn]. apply A1; [apply at_names|exact I|exact Ev]. }
  assert (Hother : forall key2, In key2 ["distros"; "machines"] -> key2 <> key ->
            at_path (names_path key2) db' = at_path (names_path key2) db).
  { intros key2 Hk2 Hne. apply A3. unfold names_path, one_name. apply str_eqb_neq in Hne. split.
    - cbn [at_path dget]. rewrite str_eqb_refl. cbn [at_path dget]. now rewrite Hne.
    - intros q r v Eq Hq. destruct q as [|k3 q]; [inversion Hq; eexists; reflexivity|].
      inversion Eq as [[Ek Er]]. subst k3. cbn [at_path dget] in Hq. rewrite str_eqb_refl in Hq.
      destruct q as [|k3 q]; [inversion Hq; eexists; reflexivity|]. inversion Er as [[Ek2 Er2]]. subst k3.
      cbn [at_path dget] in Hq. rewrite Hne in Hq. discriminate. }
  assert (Hd : is_dict db').
  { destruct (lift_dict _ _ _ _ _ E (or_introl eq_refl)) as [a [a' [_ [-> _]]]]. now exists a'. }
  assert (Hr : is_dict db' /\ forall v, at_path ["replacements"] db' = Some v -> is_dict v).
  { split; [exact Hd|]. intros v Hv. unfold names_path in Hnew.
    change ["replacements"; key] with (["replacements"] ++ [key]) in Hnew.
    rewrite at_path_app, Hv in Hnew. destruct v; [discriminate|discriminate|eexists; reflexivity]. }
  split; [|split; [|split]].
  - split; [exact Hd|]. split; [apply Hr|]. intros key2 v Hk2 Hv.
    destruct (list_eq_dec N.eq_dec key2 key) as [->|Hne].
    + rewrite Hnew in Hv. inversion Hv. eauto.
    + rewrite Hother in Hv by assumption. now apply N3 with key2.
  - intros p Hp. apply A3. now apply elsewhere_apart.
  - unfold names_at at 1. destruct (str_eqb key "distros") eqn:E1.
    + apply str_eqb_eq in E1. subst key. now rewrite Hnew.
    + rewrite Hother; [now rewrite app_nil_r|now left|]. intros <-. now rewrite str_eqb_refl in E1.
  - unfold names_at at 1. destruct (str_eqb key "machines") eqn:E1.
    + apply str_eqb_eq in E1. subst key. now rewrite Hnew.
    + rewrite Hother; [now rewrite app_nil_r|right; now left|]. intros <-. now rewrite str_eqb_refl in E1.
Qed.

Lemma add_names_named : forall key confs s r s', In key ["distros"; "machines"] -> names_ok (st_const s) ->
  add_names key confs s = (r, s') ->
  r = Ok tt /\ let ns := map (fun p => fst (splitext (basename p))) confs in
  named (if str_eqb key "distros" then ns else []) (if str_eqb key "machines" then ns else []) (st_const s) (st_const s').
Proof.
  intros key confs. induction confs as [|c confs IH]; intros s r s' Hk Hn H.
  - inversion H; subst. split; [reflexivity|]. cbv zeta. simpl map.
    destruct (str_eqb key "distros"), (str_eqb key "machines"); now apply named_refl.
  - destruct (add_one_name key (fst (splitext (basename c))) (st_const s) Hk Hn) as [db [E Hd]].
    unfold add_names in H. cbv zeta in H. fold (one_name key (fst (splitext (basename c)))) in H. rewrite E in H.
    change (add_names key confs (with_const db s) = (r, s')) in H. apply IH in H; [|exact Hk|apply Hd].
    destruct H as [-> H]. split; [reflexivity|]. cbv zeta in *. cbn [st_const with_const] in H.
    pose proof (named_trans _ _ _ _ _ _ _ Hd H) as T.
    destruct (str_eqb key "distros"), (str_eqb key "machines"); exact T.
Qed.

Lemma add_distro_named : forall e path s r s', names_ok (st_const s) -> add_distro_machine e path s = (r, s') ->
  (r = Ok tt /\ named (layer_names e "distro" path) (layer_names e "machine" path) (st_const s) (st_const s')) \/
  (r = NoFuel /\ s' = s).
Proof.
  intros e path s r s' Hn H. unfold add_distro_machine in H. unfold layer_names.
  destruct (get_layer_root (S (length path)) (e_fs e) path) as [[|c root]|].
  - inversion H; subst. left. split; [reflexivity|]. now apply named_refl.
  - left. unfold bindM in H. destruct (add_names "distros" _ s) as [r1 s1] eqn:E1.
    apply add_names_named in E1; [|now left|exact Hn]. destruct E1 as [-> E1]. cbv zeta in E1.
    apply add_names_named in H; [|right; now left|apply E1]. destruct H as [-> H]. cbv zeta in H.
    split; [reflexivity|]. pose proof (named_trans _ _ _ _ _ _ _ E1 H) as T.
    simpl str_eqb in T. rewrite app_nil_r in T. exact T.
  - inversion H; subst. now right.
Qed.

Definition named_files (e : env) (files : list str) (s s' : stash) : Prop :=
  named (flat_map (layer_names e "distro") files) (flat_map (layer_names e "machine") files) (st_const s) (st_const s') /\
  Forall (fun f => In f (dkeys (st_map s'))) files /\ exists ks, dkeys (st_map s') = dkeys (st_map s) ++ ks.
Definition names_kept (e : env) (_ : list item) (s s' : stash) : Prop :=
  names_ok (st_const s) -> exists files, named_files e files s s'.

Lemma named_files_same : forall e s s', st_const s' = st_const s -> st_map s' = st_map s ->
  names_ok (st_const s) -> named_files e [] s s'.
Proof.
  intros e s s' E1 E2 H. split; [rewrite E1; now apply named_refl|]. split; [constructor|].
  exists []. now rewrite E2, app_nil_r.
Qed.
Lemma named_files_trans : forall e f1 f2 s1 s2 s3, named_files e f1 s1 s2 -> named_files e f2 s2 s3 ->
  named_files e (f1 ++ f2) s1 s3.
Proof.
  intros e f1 f2 s1 s2 s3 [A1 [A2 [k1 A3]]] [B1 [B2 [k2 B3]]]. split; [|split].
  - rewrite !flat_map_app. eapply named_trans; eassumption.
  - apply Forall_app. split; [|exact B2]. eapply Forall_impl; [|exact A2]. intros f Hf. rewrite B3. apply in_or_app. now left.
  - exists (k1 ++ k2). now rewrite B3, A3, app_assoc.
Qed.

Lemma leave_named : forall e file forced items s r s', names_ok (st_const s) -> leave e file forced items s = (r, s') ->
  exists files, named_files e files s s' /\ (forall l, r = Ok l -> files = [file]).
Proof.
  intros e file forced items s r s' Hn H. pose proof (leave_map _ _ _ _ _ _ _ H) as [Hx Hf].
  apply extends_keys in Hx. unfold leave in H. unfold bindM at 1 in H. unfold bindM at 1 in H.
  destruct (match_appends file items _) as [rm s1] eqn:Em.
  assert (Ec : st_const s1 = st_const s).
  { apply match_appends_cases in Em. destruct Em as [f [mp [_ [-> _]]]]. reflexivity. }
  assert (Hstop : st_const s' = st_const s -> named_files e [] s s').
  { intro Es. split; [rewrite Es; now apply named_refl|]. split; [constructor|exact Hx]. }
  destruct rm as [items2|ex|].
  - unfold bindM at 1 in H. destruct (add_distro_machine e file s1) as [r2 s2] eqn:Ed.
    apply add_distro_named in Ed; [|now rewrite Ec]. destruct Ed as [[-> Ed]|[-> ->]].
    + unfold bindM, ret in H. inversion H; subst r s'. exists [file]. split; [|reflexivity].
      split; [|split; [now constructor|exact Hx]]. simpl. rewrite !app_nil_r. rewrite <- Ec. exact Ed.
    + inversion H; subst. exists []. split; [now apply Hstop|discriminate].
  - inversion H; subst. exists []. split; [now apply Hstop|discriminate].
  - inversion H; subst. exists []. split; [now apply Hstop|discriminate].
Qed.

Lemma names_kept_steps : forall e,
  (forall s, names_kept e [] s s) /\
  (forall p q s1 s2 s3, names_kept e p s1 s2 -> names_kept e q s2 s3 -> names_kept e (p ++ q) s1 s3).
Proof.
  intro e. split.
  - intros s H. exists []. now apply named_files_same.
  - intros p q s1 s2 s3 H1 H2 Hn. destruct (H1 Hn) as [f1 F1].
    destruct H2 as [f2 F2]; [apply F1|]. exists (f1 ++ f2). eapply named_files_trans; eassumption.
Qed.

Lemma get_items_named : forall n e file off s r s',
  get_items e (fun p o f => add_file n e p o (Some f)) file off s = (r, s') -> names_kept e [] s s'.
Proof.
  intros n e file off s r s' H.
  assert (G : names_kept e (pend (fun l => l) r) s s'); [|exact G].
  eapply (rel_get_items e (names_kept e)); try exact H; clear.
  - apply names_kept_steps.
  - apply names_kept_steps.
  - auto.
  - intros s i _ _ Hn. exists []. now apply named_files_same.
  - intros s path _ Hn. exists []. now apply named_files_same.
  - intros s0 s1 path forced items r s' file _ _ Hg E Hn.
    destruct (Hg Hn) as [f1 F1]. destruct (leave_named _ _ _ _ _ _ _ (proj1 (proj1 F1)) E) as [f2 [F2 _]].
    exists (f1 ++ f2). exact (named_files_trans _ _ _ (enter file s0) s1 s' F1 F2).
Qed.

Lemma C64_lemma : forall n e path off forced s r s',
  names_ok (st_const s) -> add_file n e path off forced s = (r, s') ->
  names_ok (st_const s') /\
  (forall p, elsewhere p -> at_path p (st_const s') = at_path p (st_const s)) /\
  exists files,
    names_at "distros" (st_const s') = names_at "distros" (st_const s) ++ flat_map (layer_names e "distro") files /\
    names_at "machines" (st_const s') = names_at "machines" (st_const s) ++ flat_map (layer_names e "machine") files /\
    (forall f, In f files -> file_known s' f) /\
    (forall l, r = Ok l -> l <> [] -> In (abspath (fs_cwd (e_fs e)) path) files).
Proof.
  intros n e path off forced s r s' Hn H.
  assert (G : exists files, named_files e files s s' /\
    (forall l, r = Ok l -> l <> [] -> In (abspath (fs_cwd (e_fs e)) path) files)).
  { destruct n as [|n].
    - inversion H; subst. exists []. split; [now apply named_files_same|discriminate].
    - rewrite add_file_eq in H. cbv zeta in H. set (file := abspath (fs_cwd (e_fs e)) path) in *.
      destruct (skipped e path s).
      + inversion H; subst. exists []. split; [now apply named_files_same|]. intros l E Hl. inversion E. congruence.
      + unfold bindM in H. destruct (get_items e _ file off (enter file s)) as [r1 s1] eqn:Eg.
        apply get_items_named in Eg. destruct (Eg Hn) as [f1 F1].
        assert (F1' : named_files e f1 s s1) by exact F1. destruct r1 as [items|ex|].
        * destruct (leave_named _ _ _ _ _ _ _ (proj1 (proj1 F1)) H) as [f2 [F2 H2]].
          exists (f1 ++ f2). split; [exact (named_files_trans _ _ _ _ _ _ F1' F2)|].
          intros l E _. rewrite (H2 l E). apply in_or_app. right. now left.
        * inversion H; subst. exists f1. split; [exact F1'|discriminate].
        * inversion H; subst. exists f1. split; [exact F1'|discriminate]. }
  destruct G as [files [[[A1 [A2 [A3 A4]]] [A5 _]] A6]]. split; [exact A1|]. split; [exact A2|].
  exists files. split; [exact A3|]. split; [exact A4|]. split; [|exact A6].
  intros f Hf. rewrite Forall_forall in A5. apply file_known_key. now apply A5.
Qed.

(** ** Getters *)

Lemma getters_walk : forall name g p, In (name, g) getters -> In (name, p) documented -> forall db, g db = cval_walk p db.
Proof.
  intros name g p Hg Hp db. unfold getters in Hg. cbn [In] in Hg.
  repeat (destruct Hg as [Hg|Hg]; [injection Hg as <- <-; cbn [documented In] in Hp;
    repeat (destruct Hp as [Hp|Hp]; [first [discriminate Hp | injection Hp as <-; reflexivity]|]); destruct Hp|]).
  destruct Hg.
Qed.
Lemma C109_all_lemma : forall name, (exists g, In (name, g) getters) <-> exists p, In (name, p) documented.
Proof.
  intro name. split; intros [x H]; cbn [getters documented In] in H;
    repeat (destruct H as [H|H]; [injection H as <- _; eexists; cbn [getters documented In]; tauto|]); destruct H.
Qed.
Lemma C109_lemma : forall name g p db, In (name, g) getters -> In (name, p) documented ->
  (forall v, at_path p db = Some v -> g db = Ok v) /\
  (at_path p db = None -> open_path p db -> g db = Ok (CDict [])) /\
  (~ open_path p db -> g db = Raise AttributeError).
Proof.
  intros name g p db Hg Hp. rewrite (getters_walk _ _ _ Hg Hp db). pose proof (walk_spec p db) as W.
  split; [|split].
  - intros v H. now rewrite H in W.
  - intros H Ho. rewrite H in W. destruct W as [[W _]|[_ [q [k [r [x [E [Hq Hx]]]]]]]]; [exact W|].
    destruct (Ho q (k :: r) x E ltac:(discriminate) Hq) as [d ->]. destruct Hx.
  - intro Ho. destruct (at_path p db) as [v|] eqn:E.
    + exfalso. apply Ho. intros q r x -> Hr Hq. destruct r as [|k r]; [contradiction|].
      clear W Ho Hp Hr. revert db E Hq. induction q as [|a q IH]; intros db E Hq.
      * injection Hq as <-. cbn [app at_path] in E. destruct db as [t|l|d]; [discriminate|discriminate|now exists d].
      * cbn [app at_path] in E, Hq. destruct db as [t|l|d]; [discriminate|discriminate|].
        destruct (dget a d) as [y|]; [|discriminate]. exact (IH y E Hq).
    + destruct W as [[_ W]|[W _]]; [|exact W]. exfalso. apply Ho. intros q r x Eq _ Hq. exact (W q r x Eq Hq).
Qed.

Lemma str_entries_get : forall d k v, NoDup (dkeys d) -> dget k (str_entries (CDict d)) = Some v <-> dget k d = Some (CStr v).
Proof.
  induction d as [|[k0 x] d IH]; intros k v N; [split; discriminate|]. inversion N as [|? ? N1 N2]; subst.
  assert (Hno : forall w, dget k0 (str_entries (CDict d)) <> Some w).
  { intros w Hw. apply IH in Hw; [|exact N2]. apply N1. apply dget_In in Hw. apply (in_map fst) in Hw. exact Hw. }
  cbn [str_entries flat_map fst snd] in *. cbn [dget]. destruct x as [t|l|d2]; cbn [List.app dget].
  - destruct (str_eqb k k0) eqn:E; [|now apply IH]. split; intro H; injection H as ->; reflexivity.
  - destruct (str_eqb k k0) eqn:E; [|now apply IH]. apply str_eqb_eq in E. subst k0. split; [|discriminate].
    intro H. elim (Hno _ H).
  - destruct (str_eqb k k0) eqn:E; [|now apply IH]. apply str_eqb_eq in E. subst k0. split; [|discriminate].
    intro H. elim (Hno _ H).
Qed.
Lemma found_at : forall name g p db, In (name, g) getters -> In (name, p) documented ->
  found (g db) = match at_path p db with Some v => v | None => CDict [] end.
Proof.
  intros name g p db Hg Hp. rewrite (getters_walk _ _ _ Hg Hp db). pose proof (walk_spec p db) as W.
  destruct (at_path p db) as [v|]; [now rewrite W|]. destruct W as [[W _]|[W _]]; now rewrite W.
Qed.
Lemma keys_below : forall p db v, keys_once db -> at_path p db = Some v -> keys_once v.
Proof.
  induction p as [|k p IH]; intros db v Hk H; [injection H as <-; exact Hk|]. cbn [at_path] in H.
  destruct db as [t|l|d]; try discriminate H. destruct (dget k d) as [x|] eqn:E; [|discriminate H].
  apply keys_once_dict in Hk. apply (IH x v); [|exact H]. apply (proj2 Hk k). now apply dget_In.
Qed.
Lemma entries_at : forall name g p db k v, In (name, g) getters -> In (name, p) documented -> keys_once db ->
  dget k (str_entries (found (g db))) = Some v <-> at_path (p ++ [k]) db = Some (CStr v).
Proof.
  intros name g p db k v Hg Hp Hk. rewrite (found_at _ _ _ _ Hg Hp).
  assert (E : at_path (p ++ [k]) db = match at_path p db with Some x => at_path [k] x | None => None end).
  { clear. revert db. induction p as [|a p IH]; intro db; [reflexivity|]. cbn [List.app at_path].
    destruct db as [t|l|d]; [reflexivity|reflexivity|]. destruct (dget a d) as [x|]; [apply IH|reflexivity]. }
  rewrite E. destruct (at_path p db) as [x|] eqn:Ex; [|split; discriminate].
  destruct x as [t|l|d]; [split; discriminate|split; discriminate|].
  rewrite str_entries_get by exact (proj1 (proj1 (keys_once_dict d) (keys_below p db _ Hk Ex))).
  cbn [at_path]. destruct (dget k d); split; congruence.
Qed.
Lemma C109_base_lemma : forall db k v, keys_once db ->
  (dget k (sets_base db) = Some v <-> at_path ["sets"; "base"; k] db = Some (CStr v)) /\
  (dget k (str_entries (mirrors_known db)) = Some v <-> at_path ["replacements"; "mirrors"; k] db = Some (CStr v)).
Proof.
  intros db k v Hk. split.
  - apply (entries_at "SetsBase" SetsBase ["sets"; "base"]); [cbn; tauto|cbn; tauto|exact Hk].
  - apply (entries_at "MirrorsKnown" MirrorsKnown ["replacements"; "mirrors"]); [cbn; tauto|cbn; tauto|exact Hk].
Qed.
Lemma C109_lists_lemma : forall db v,
  (at_path ["ignore"; "classes"] db = Some v -> class_ignore db = v) /\
  (at_path ["ignore"; "include"] db = Some v -> include_ignore db = v) /\
  (at_path ["functions"; "known"] db = Some v -> functions_known db = v) /\
  (at_path ["replacements"; "distros"] db = Some v -> distros_known db = v) /\
  (at_path ["images"; "known-classes"] db = Some v -> images_classes db = v) /\
  (at_path ["images"; "known-variables"] db = Some v -> images_variables db = v).
Proof.
  intros db v.
  assert (G : forall name g p, In (name, g) getters -> In (name, p) documented -> at_path p db = Some v -> found (g db) = v).
  { intros name g p Hg Hp H. rewrite (found_at _ _ _ _ Hg Hp). now rewrite H. }
  repeat split; intro H.
  - apply (G "ClassIgnore" ClassIgnore ["ignore"; "classes"]); [cbn; tauto|cbn; tauto|exact H].
  - apply (G "IncludeIgnore" IncludeIgnore ["ignore"; "include"]); [cbn; tauto|cbn; tauto|exact H].
  - apply (G "FunctionsKnown" FunctionsKnown ["functions"; "known"]); [cbn; tauto|cbn; tauto|exact H].
  - apply (G "DistrosKnown" DistrosKnown ["replacements"; "distros"]); [cbn; tauto|cbn; tauto|exact H].
  - apply (G "ImagesClasses" ImagesClasses ["images"; "known-classes"]); [cbn; tauto|cbn; tauto|exact H].
  - apply (G "ImagesVariables" ImagesVariables ["images"; "known-variables"]); [cbn; tauto|cbn; tauto|exact H].
Qed.
Lemma C109_change_lemma : forall name g p db b, In (name, g) getters -> In (name, p) documented -> keys_once b ->
  (forall db' v, override_constants db b = (db', None) -> at_path p b = Some v -> is_leaf v -> g db' = Ok v) /\
  (forall db' l old, add_constants db b = (db', None) -> at_path p b = Some (CList l) -> g db = Ok (CList old) ->
     g db' = Ok (CList (old ++ l))) /\
  (forall db' l old, remove_constants db b = (db', None) -> at_path p b = Some (CList l) -> g db = Ok (CList old) ->
     g db' = Ok (CList (filter (fun x => negb (mem_str x l)) old))) /\
  (forall db' v, (override_constants db b = (db', None) \/ add_constants db b = (db', None) \/ remove_constants db b = (db', None)) ->
     apart p b -> at_path p db = Some v -> g db' = Ok v).
Proof.
  intros name g p db b Hg Hp Hb.
  assert (G : forall x v, at_path p x = Some v -> g x = Ok v) by (intros x; apply (C109_lemma _ _ _ x Hg Hp)).
  assert (I : forall old, g db = Ok (CList old) -> at_path p db = Some (CList old)).
  { intros old H. rewrite (getters_walk _ _ _ Hg Hp db) in H. pose proof (walk_spec p db) as W.
    destruct (at_path p db) as [v|]; [rewrite H in W; now injection W as <-|].
    destruct W as [[W _]|[W _]]; rewrite H in W; discriminate. }
  split; [|split; [|split]].
  - intros db' v H Hv Hl. apply G. apply (C53_lemma db b db' H Hb); assumption.
  - intros db' l old H Hl Ho. apply G. destruct (C54_lemma db b db' H Hb) as [_ [X _]]. apply X; auto.
  - intros db' l old H Hl Ho. apply G. destruct (C55_lemma db b db' H Hb) as [X _]. apply X; auto.
  - intros db' v H Ha Hv. apply G. rewrite <- Hv. destruct H as [H|[H|H]].
    + apply (C53_lemma db b db' H Hb). exact Ha.
    + destruct (C54_lemma db b db' H Hb) as (_ & _ & _ & _ & X). apply X. exact Ha.
    + destruct (C55_lemma db b db' H Hb) as (_ & _ & X). apply X. exact Ha.
Qed.
