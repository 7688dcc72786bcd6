(** * Which pattern an item comes from *)

From Verif Require Import PyStr Regex Patterns PyPath Res Inline Const Item Lines Stash
  StrFacts ReFacts LinesFacts ParseFacts HistFacts ReachFacts Spec_Parse.

(** ** Partial correctness with an invariant of the stash *)

Section Inv.
Context (inv : stash -> Prop).

Definition keeps {A} (x : M A) (Q : A -> Prop) : Prop := forall s r s',
  x s = (r, s') -> inv s -> inv s' /\ forall a, r = Ok a -> Q a.

Lemma keeps_ret : forall A (a : A) (Q : A -> Prop), Q a -> keeps (ret a) Q.
Proof. intros A a Q H s r s' E Hi. inversion E; subst. split; [exact Hi|]. intros b Eb. inversion Eb; subst. exact H. Qed.
Lemma keeps_bind : forall A B (x : M A) (f : A -> M B) (Q : A -> Prop) (R : B -> Prop),
  keeps x Q -> (forall a, Q a -> keeps (f a) R) -> keeps (bindM x f) R.
Proof.
  intros A B x f Q R Hx Hf s r s' E Hi. unfold bindM in E.
  destruct (x s) as [[a|ex|] s1] eqn:Ex; apply Hx in Ex; specialize (Ex Hi);
    destruct Ex as [H1 H2].
  - exact (Hf a (H2 a eq_refl) _ _ _ E H1).
  - inversion E; subst. split; [exact H1|]. intros b Eb. discriminate.
  - inversion E; subst. split; [exact H1|]. intros b Eb. discriminate.
Qed.
Lemma keeps_lift : forall A (f : stash -> Res.res A), keeps (liftR f) (fun _ => True).
Proof. intros A f s r s' E Hi. unfold liftR in E. inversion E; subst. auto. Qed.
Lemma keeps_weaken : forall A (x : M A) (Q R : A -> Prop), keeps x Q -> (forall a, Q a -> R a) -> keeps x R.
Proof. intros A x Q R H HQ s r s' E Hi. destruct (H _ _ _ E Hi) as [H1 H2]. auto. Qed.
Lemma keeps_find : forall e n d, keeps (find_m e n d) (fun _ => True).
Proof. intros e n d s r s' E Hi. unfold find_m in E. destruct (find_local_or_layer _ _ _ _); inversion E; subst; auto. Qed.
Lemma keeps_find_class : forall e locs i d, keeps (find_class e locs i d) (fun _ => True).
Proof.
  intros e locs i d. induction locs as [|l locs IH]; simpl; [now apply keeps_ret|].
  eapply keeps_bind; [apply keeps_find|]. intros [|c p] _; [exact IH|now apply keeps_ret].
Qed.
Definition keeps_addf (addf : addfile_t) : Prop := forall p o f, keeps (addf p o f) (fun _ => True).
Definition id_free : Prop := forall n s, inv s -> inv (with_next n s).
Lemma keeps_inherit : forall e addf locs file inhname line l paths off, keeps_addf addf ->
  keeps (inherit_loop e addf locs file inhname line l paths off) (fun _ => True).
Proof.
  intros e addf locs file inhname line l. induction l as [|x l IH]; intros paths off Ha; simpl.
  - now apply keeps_ret.
  - eapply keeps_bind; [apply keeps_find_class|]. intros [|c p] _; [now apply IH|].
    eapply keeps_bind; [apply keeps_lift|]. intros [|] _; [now apply IH|].
    eapply keeps_bind; [apply Ha|]. intros tmp _. now apply IH.
Qed.
Lemma keeps_new : forall mk (Q : item -> Prop), id_free -> (forall n, Q (mk n)) -> keeps (new_item mk) Q.
Proof.
  intros mk Q Hf H s r s' E Hi. unfold new_item, fresh, bindM, ret in E. inversion E; subst.
  split; [now apply Hf|]. intros a Ea. inversion Ea; subst. apply H.
Qed.
End Inv.

(** ** The pattern of an item

    [made_of k mt raw new0 (new, pay)]: the handler of the pattern [k] makes
    an item with payload [pay] and override syntax [new] from the match [mt]
    in a chunk with text [raw]. *)
Definition made_of (k : kind) (mt : rmatch) (raw : str) (new0 : bool) (out : bool * payload) : Prop :=
  match k with
  | KComment => out = (new0, PComment)
  | KPython => out = (new0, PPythonBlock (group_str "funcname" mt))
  | KExportfunc => out = (new0, PFunctionExports (group_str "func" mt))
  | KVars => let '(new, var, sub) := extract_sub new0 (group_str "varname" mt) in
             out = (new, PVariable var sub (keep_nonempty (split_char (delim new) sub))
                                   (group_str "varval" mt) (group_str "varop" mt) var)
  | KFunc => exists known,
             let '(new, var, sub) := extract_sub_func known new0
                  (strip_ws (match group "func" mt with Some n => n | None => [] end)) in
             out = (new, PFunction (matched (group "py" mt)) (matched (group "fr" mt)) var sub
                                   (keep_nonempty (split_char (delim new) sub))
                                   (group_str "funcbody" mt) (func_body_raw raw))
  | KUnset => out = (new0, PUnset (group_str "varname" mt) (strip "[]" (group_str "flag" mt)))
  | KInherit => exists paths, out = (new0, PInherit (group_str "inhname" mt) (group_str "statement" mt) paths)
  | KInheritGlob => exists paths, out = (new0, PInherit (group_str "inhname" mt) "INHERIT" paths)
  | KExport => out = (new0, PExport (strip_ws (group_str "name" mt)) (group_str "value" mt))
  | KExportNoval => out = (new0, PExport (strip_ws (group_str "name" mt)) [])
  | KFlagassign => out = (new0, PFlagAssignment (group_str "name" mt) (group_str "ident" mt)
                                                (group_str "varval" mt) (group_str "varop" mt))
  | KAddtask => out = (new0, PTaskAdd (group_str "func" mt)
                                      (keep_nonempty (split_char cSP (group_str "before" mt)))
                                      (keep_nonempty (split_char cSP (group_str "after" mt)))
                                      (group_str "comment" mt))
                /\ existsb (fun x => startswith x (group_str "func" mt)) pkg_prefixes = false
  | KDeltask => out = (new0, PTaskDel (group_str "func" mt) (group_str "comment" mt))
  | KInclude => exists path, out = (new0, PInclude (group_str "incname" mt) (group_str "statement" mt) path)
  | KIncludeAll => out = (new0, PIncludeAll (group_str "file" mt))
  | KAddpylib => out = (new0, PAddPylib (group_str "path" mt) (group_str "namespace" mt))
  | KAddfragments => out = (new0, PAddFragements (group_str "path" mt) (group_str "variable" mt)
                                                 (group_str "flagged" mt))
  end.

(** Matches after which the next pattern is tried. *)
Definition falls (k : kind) (mt : rmatch) : Prop :=
  k = KInclude \/
  (k = KAddtask /\ existsb (fun x => startswith x (group_str "func" mt)) pkg_prefixes = true).

Fixpoint outcome (l : list (kind * re)) (cnt raw : str) (new0 : bool) (out : bool * payload) : Prop :=
  match l with
  | [] => out = (new0, PItem)
  | (k, r) :: rest =>
      match re_match r cnt with
      | None => outcome rest cnt raw new0 out
      | Some mt => made_of k mt raw new0 out \/ (falls k mt /\ outcome rest cnt raw new0 out)
      end
  end.

Definition classified (i : item) : Prop :=
  exists new0, outcome order (one_line i) (it_raw i) new0 (it_new i, it_pay i).

Section Kinds.
Context (P : stash -> Prop) (HP : id_free P).

Definition made_k (k : kind) (mt : rmatch) (p : nat -> iparam) (o : option (item * Z)) : Prop :=
  match o with
  | None => falls k mt
  | Some (i, _) => exists n, it_raw i = ip_raw (p n) /\
      made_of k mt (ip_raw (p n)) (ip_new (p n)) (it_new i, it_pay i)
  end.

Lemma keeps_done : forall k mt p mk off,
  (forall n, it_raw (mk n) = ip_raw (p n) /\
             made_of k mt (ip_raw (p n)) (ip_new (p n)) (it_new (mk n), it_pay (mk n))) ->
  keeps P (dom i <- new_item mk; ret (Some (i, off))) (made_k k mt p).
Proof.
  intros k mt p mk off H.
  apply (keeps_bind P item (option (item * Z)) _ _ (fun i => exists n, i = mk n)).
  - apply (keeps_new P _ _ HP). intro n. now exists n.
  - intros i [n ->]. apply keeps_ret. exists n. apply H.
Qed.

Lemma keeps_handle : forall e addf p file line k mt, keeps_addf P addf ->
  keeps P (handle e addf p file line k mt) (made_k k mt p).
Proof.
  intros e addf p file line k mt Ha.
  destruct k; unfold handle; cbv zeta;
    try (apply keeps_done; intro n; split; reflexivity).
  - (* function *)
    eapply keeps_bind; [apply keeps_lift|]. intros known _. apply keeps_done. intro n.
    unfold mk_function. cbn [made_of]. destruct (extract_sub_func _ _ _) as [[new var] sub] eqn:E.
    split; [reflexivity|]. exists known. rewrite E. reflexivity.
  - (* inherit *)
    eapply keeps_bind; [apply keeps_lift|]. intros inhname _.
    eapply keeps_bind; [now apply keeps_inherit|]. intros x _. apply keeps_done. intro n.
    split; [reflexivity|]. exists (fst x). reflexivity.
  - eapply keeps_bind; [apply keeps_lift|]. intros inhname _.
    eapply keeps_bind; [now apply keeps_inherit|]. intros x _. apply keeps_done. intro n.
    split; [reflexivity|]. exists (fst x). reflexivity.
  - (* include *)
    eapply keeps_bind; [apply keeps_lift|]. intros inc _.
    eapply keeps_bind; [apply keeps_find|]. intros path _.
    destruct path as [|c path].
    + apply keeps_done. intro n. split; [reflexivity|]. now exists [].
    + eapply keeps_bind; [apply keeps_lift|]. intros [|] _.
      * apply keeps_ret. now left.
      * eapply keeps_bind; [apply Ha|]. intros tmp _. apply keeps_done. intro n.
        split; [reflexivity|]. now exists (c :: path).
  - (* addtask *)
    destruct (existsb _ pkg_prefixes) eqn:E.
    + apply keeps_ret. now right.
    + apply keeps_done. intro n. split; [reflexivity|]. cbn [made_of]. split; [reflexivity|exact E].
Qed.

Lemma keeps_try : forall e addf p file line cnt l raw new, keeps_addf P addf ->
  (forall n, ip_raw (p n) = raw /\ ip_new (p n) = new) ->
  keeps P (try_kinds e addf p file line cnt l)
        (fun x => it_raw (fst x) = raw /\ outcome l cnt raw new (it_new (fst x), it_pay (fst x))).
Proof.
  intros e addf p file line cnt l raw new Ha Hp. induction l as [|[k r] l IH]; cbn [try_kinds outcome].
  - apply (keeps_bind P item (item * Z) _ _ (fun i => exists n, i = mk_item (p n) (ip_new (p n)) PItem)).
    + apply (keeps_new P _ _ HP). intro n. now exists n.
    + intros i [n ->]. apply keeps_ret. cbn. destruct (Hp n) as [-> ->]. auto.
  - destruct (re_match r cnt) as [mt|]; [|exact IH].
    eapply keeps_bind; [now apply keeps_handle|]. intros [[i d]|] Ho; cbn [made_k] in Ho.
    + apply keeps_ret. destruct Ho as [n [H1 H2]]. destruct (Hp n) as [E1 E2]. rewrite E1, E2 in *.
      cbn [fst]. auto.
    + eapply keeps_weaken; [exact IH|]. intros x [H1 H2]. split; [exact H1|]. right. auto.
Qed.

End Kinds.

Lemma one_line_eq : forall i, one_line i = map_char cBSL cESC (remove_char cNL (it_raw i)).
Proof. intro i. reflexivity. Qed.

(** Items with the text of their chunk. *)
Lemma keeps_chunks : forall P e addf file off cs inc new, id_free P -> keeps_addf P addf ->
  Forall (fun c => ck_cnt c = map_char cBSL cESC (remove_char cNL (ck_raw c))) cs ->
  keeps P (parse_chunks e addf file off inc new cs) (Forall classified).
Proof.
  intros P e addf file off cs. induction cs as [|c cs IH]; intros inc new HP Ha Hc; cbn [parse_chunks].
  - now apply keeps_ret.
  - inversion Hc as [|? ? Hc1 Hc2]; subst.
    eapply keeps_bind; [apply (keeps_try P HP e addf _ file (ck_line c) (ck_cnt c) order (ck_raw c) new); auto|].
    intros x [H1 H2]. eapply keeps_bind; [now apply IH|]. intros l Hl. apply keeps_ret.
    constructor; [|exact Hl]. exists new. rewrite one_line_eq, H1, <- Hc1. exact H2.
Qed.

Lemma prepare_loop_cnt : forall fuel off neg nb rest num cs,
  prepare_loop fuel off neg nb rest num = Ok cs ->
  Forall (fun c => ck_cnt c = map_char cBSL cESC (remove_char cNL (ck_raw c))) cs.
Proof.
  induction fuel as [|f IH]; intros off neg nb rest num cs H; [discriminate|].
  cbn [prepare_loop] in H. cbv zeta in H.
  assert (G : forall line r, (do x <- subparser off num neg line r;
        let '(c, next, len, rest') := x in
        do cs <- prepare_loop f off neg next rest' (num + len); Ok (c :: cs)) = Ok cs ->
        Forall (fun c => ck_cnt c = map_char cBSL cESC (remove_char cNL (ck_raw c))) cs).
  { intros line r E. unfold subparser in E. destruct (iterate line r) as [[[text next] rest']|ex|]; try discriminate.
    cbn [bind] in E. destruct (inline_blocks_of neg text) as [[raw blocks]|]; [|discriminate].
    cbn [bind] in E. destruct (prepare_loop f off neg next rest' _) as [cs'|ex|] eqn:E2; try discriminate.
    cbn [bind] in E. inversion E; subst. constructor; [reflexivity|]. eapply IH. exact E2. }
  destruct nb as [|c nb]; [|now apply G in H]. destruct rest as [|l r]; [|now apply G in H].
  inversion H; subst. constructor.
Qed.

Lemma prepare_file_cnt : forall e file off neg cs, prepare_file e file off neg = Ok cs ->
  Forall (fun c => ck_cnt c = map_char cBSL cESC (remove_char cNL (ck_raw c))) cs.
Proof.
  intros e file off neg cs H. unfold prepare_file in H.
  destruct (fs_read (e_fs e) file) as [t| | |]; try discriminate.
  - eapply prepare_loop_cnt. exact H.
  - inversion H; subst. constructor.
Qed.

Lemma classified_line : forall z i, classified i -> classified (set_line z i).
Proof. intros z i H. exact H. Qed.
Lemma classified_raises : forall f l, raises f -> Forall classified l -> Forall classified (map f l).
Proof.
  intros f l Hf H. rewrite Forall_map. eapply Forall_impl; [|exact H]. intros i Hi.
  destruct (Hf i) as [E _]. cbn beta. rewrite E. now apply classified_line.
Qed.

Definition all_classified (s : stash) : Prop := Forall classified (st_list s).
Lemma keeps_add_file : forall n e path off forced,
  keeps all_classified (add_file n e path off forced) (Forall classified).
Proof.
  induction n as [|n IH]; intros e path off forced s r s' E Hi.
  - inversion E; subst. split; [exact Hi|]. intros a Ea. discriminate.
  - rewrite add_file_eq in E. cbv zeta in E.
    destruct (skipped e path s).
    { inversion E; subst. split; [exact Hi|]. intros a Ea. inversion Ea; subst. constructor. }
    set (file := abspath (fs_cwd (e_fs e)) path) in *.
    revert E Hi. change (all_classified s) with (all_classified (enter file s)).
    generalize (enter file s). clear s. intros s E Hi. revert s r s' E Hi.
    apply (keeps_bind all_classified (list item) (list item) _ _ (Forall classified)).
    + unfold get_items. intros s r s' E Hi. unfold bindM at 1, liftR at 1 in E.
      destruct (prepare_file e file off (st_neg s)) as [cs|ex|] eqn:Ep.
      * unfold bindM, liftR in E. apply prepare_file_cnt in Ep.
        eapply (keeps_chunks all_classified); [intros k x Hx; exact Hx| |exact Ep|exact E|exact Hi].
        intros p o f. eapply keeps_weaken; [apply IH|auto].
      * inversion E; subst. split; [exact Hi|]. intros a Ea. discriminate.
      * inversion E; subst. split; [exact Hi|]. intros a Ea. discriminate.
    + intros items Hit s r s' E Hi. apply leave_cases in E.
      destruct E as [f [l [Hf [EL [_ [_ [_ [_ [_ [_ [Hl Hr]]]]]]]]]]].
      assert (Hcl : Forall classified l).
      { destruct Hl as [->|[mx ->]]; [constructor|]. rewrite Forall_map.
        eapply Forall_impl; [|exact Hit]. intros i H. now apply classified_line. }
      split.
      * unfold all_classified. rewrite EL. apply Forall_app. split; [now apply classified_raises|exact Hcl].
      * intros a Ea. apply Hr in Ea. destruct Ea as [-> _]. exact Hcl.
Qed.

Lemma filled_classified : forall e s, filled e s -> Forall classified (st_list s).
Proof.
  intros e s H. induction H as [new neg db|n path off forced s r s' _ IH E|l s r s' _ IH E|s r s' _ IH E|db s _ IH].
  - constructor.
  - exact (proj1 (keeps_add_file n e path off forced s r s' E IH)).
  - apply remove_items_shape in E. destruct E as [E _]. rewrite Forall_forall in *. auto.
  - apply finalize_shape in E. destruct E as [g [mp [Hg [-> _]]]]. cbn. rewrite Forall_map.
    eapply Forall_impl; [|exact IH]. intros i Hi. cbn beta. destruct (Hg i) as [v ->]. exact Hi.
  - exact IH.
Qed.

Lemma parsed_classified : forall e i, parsed_item e i -> classified i.
Proof.
  intros e i [s [Hs Hi]]. apply filled_classified in Hs. rewrite Forall_forall in Hs. auto.
Qed.
