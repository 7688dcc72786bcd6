(** * Theorems about which variables an expansion depends on *)

From Verif Require Import PyStr Regex UniTable Patterns PyPath Res Inline Const Item Lines Stash
  StrFacts Demo ReachFacts Spec_Query Spec_Parse Spec_Expand Spec_Local Proofs_Local.

(** ** C141 *)

(** Two stashes expand a text alike if every name that matters for the text
    stands for the same in both; the rest of the stashes is arbitrary. *)
Theorem C141_agree : forall e e' s s' file value spare, env_ok e -> env_ok e' -> reach e s -> reach e' s' -> e_fs e = e_fs e' ->
  (forall n, matters s file value n -> agree s s' file n) ->
  expand_term_full e s file value spare [] None = expand_term_full e' s' file value spare [] None.
Proof. exact C141_lemma. Qed.
Print Assumptions C141_agree.

(** In particular if the names that matter have the same definitions. *)
Theorem C141_items : forall e e' s s' file value spare, env_ok e -> env_ok e' -> reach e s -> reach e' s' -> e_fs e = e_fs e' ->
  (forall n, matters s file value n -> same_definitions s s' file n) ->
  expand_term_full e s file value spare [] None = expand_term_full e' s' file value spare [] None.
Proof. exact C141_items_lemma. Qed.
Print Assumptions C141_items.

(** The values that ExpandVar gives a variable are the same if its statements do
    the same and the names that matter for the value agree. *)
Theorem C141_values : forall e e' s s' file nolink d d', env_ok e -> env_ok e' -> reach e s -> reach e' s' -> e_fs e = e_fs e' ->
  NoDup (dkeys (sets_base (st_const s))) -> (forall k, In k (dkeys (sets_base (st_const s))) -> plain_text k) ->
  NoDup (dkeys (sets_base (st_const s'))) -> (forall k, In k (dkeys (sets_base (st_const s'))) -> plain_text k) ->
  expand_var e s (Some file) ANone ANone nolink = Ok d -> expand_var e' s' (Some file) ANone ANone nolink = Ok d' ->
  exists l l', statements s file nolink l /\ statements s' file nolink l' /\
    ((forall i, In i (l ++ l') -> plain_text (item_name_nomod i)) ->
     forall n evs v, history n l evs -> history n l' evs -> preset s file n = preset s' file n ->
       (fold_left at_once evs (preset s file n) = None -> forall w, ~ In (LateRemoves w) evs) ->
       assigned (preset s file n) evs = Some v ->
       (forall m, matters s file v m -> agree s s' file m) -> dget n d = dget n d').
Proof. exact C141_values_lemma. Qed.
Print Assumptions C141_values.

(** The definition of C is removed, which does not matter for A. *)
Definition lo_env : env := demo_env [("/w/a.bb", "A = ""x${B}""" ++ nl ++ "B = ""y""" ++ nl ++ "C = ""z""" ++ nl)] [].
Definition lo_s : stash := snd (add_file 2 lo_env "/w/a.bb" 0 None (new_stash false false no_const)).
Definition lo_k (k : nat) : item := nth k (st_list lo_s) (MkItem 0 0 0 [] [] [] [] [] false PItem).
Definition lo_t : stash := snd (remove_items [lo_k 2] lo_s).
Lemma lo_reach : reach lo_env lo_s.
Proof. exists false, false, no_const. eapply steps_add; [apply steps_refl|apply surjective_pairing]. Qed.
Lemma lo_reach' : reach lo_env lo_t.
Proof.
  destruct lo_reach as (a & b & c & H). exists a, b, c. eapply steps_remove; [exact H|apply surjective_pairing].
Qed.
Lemma lo_list : st_list lo_s = [lo_k 0; lo_k 1; lo_k 2]. Proof. vm_compute. reflexivity. Qed.
Lemma lo_list' : st_list lo_t = [lo_k 0; lo_k 1]. Proof. vm_compute. reflexivity. Qed.
Lemma lo_map : st_map lo_t = st_map lo_s. Proof. vm_compute. reflexivity. Qed.
Lemma lo_const : st_const lo_t = st_const lo_s. Proof. vm_compute. reflexivity. Qed.
Lemma lo_pay0 : it_pay (lo_k 0) = PVariable "A" [] [] """x${B}""" " = " "A". Proof. vm_compute. reflexivity. Qed.
Lemma lo_pay1 : it_pay (lo_k 1) = PVariable "B" [] [] """y""" " = " "B". Proof. vm_compute. reflexivity. Qed.
Lemma lo_pay2 : it_pay (lo_k 2) = PVariable "C" [] [] """z""" " = " "C". Proof. vm_compute. reflexivity. Qed.
Lemma lo_base : forall n, dget n (sets_base (st_const lo_s)) = None. Proof.
  intro n. assert (E : sets_base (st_const lo_s) = []) by (vm_compute; reflexivity). rewrite E. reflexivity.
Qed.

Lemma lo_defs : forall n i, definition lo_s "/w/a.bb" n i ->
  (n = "A" /\ i = lo_k 0) \/ (n = "B" /\ i = lo_k 1) \/ (n = "C" /\ i = lo_k 2).
Proof.
  intros n i (H & _ & sub & subs & v & op & rw & E & _). rewrite lo_list in H.
  destruct H as [<-|[<-|[<-|[]]]]; [rewrite lo_pay0 in E|rewrite lo_pay1 in E|rewrite lo_pay2 in E]; injection E as <- _ _ _ _ _.
  - left. split; reflexivity.
  - right. left. split; reflexivity.
  - right. right. split; reflexivity.
Qed.
Lemma lo_same : forall n, n <> "C" -> same_definitions lo_s lo_t "/w/a.bb" n.
Proof.
  intros n Hn. split; [|split].
  - intro i. unfold definition, visible, linked. rewrite lo_map, lo_list, lo_list'. split; intros (H1 & H2 & H3).
    + split; [|split; [exact H2|exact H3]]. destruct H1 as [<-|[<-|[<-|[]]]]; [left; reflexivity|right; left; reflexivity|].
      destruct H3 as (sub & subs & v & op & rw & E & _). rewrite lo_pay2 in E. injection E as <- _ _ _ _ _. destruct (Hn eq_refl).
    + split; [|split; [exact H2|exact H3]]. destruct H1 as [<-|[<-|[]]]; [left; reflexivity|right; left; reflexivity].
  - intros i j Hi Hj _. apply lo_defs in Hi. apply lo_defs in Hj.
    destruct Hi as [[-> ->]|[[-> ->]|[-> ->]]]; destruct Hj as [[Ej ->]|[[Ej ->]|[Ej ->]]]; (discriminate Ej || reflexivity).
  - rewrite lo_const. reflexivity.
Qed.
Lemma no_code_refers : forall v n, contains "getVar(" v = false -> refers v n -> occurs ("${" ++ n ++ "}") v.
Proof.
  intros v n C [_ [H|[(a & b & ->) _]]]; [exact H|]. exfalso. rewrite contains_false in C. now apply (C a b).
Qed.
Lemma lo_matters : forall n, matters lo_s "/w/a.bb" "${A}" n -> n = "A" \/ n = "B".
Proof.
  assert (U : forall a b : str, "A}" = a ++ "}" ++ b -> a <> [] -> a = "A").
  { intros a b E Ha. destruct a as [|x [|y a]]; [congruence|inversion E; reflexivity|].
    exfalso. inversion E as [[E1 E2 E3]]. destruct a; discriminate E3. }
  assert (U' : forall a b : str, "B}" = a ++ "}" ++ b -> a <> [] -> a = "B").
  { intros a b E Ha. destruct a as [|x [|y a]]; [congruence|inversion E; reflexivity|].
    exfalso. inversion E as [[E1 E2 E3]]. destruct a; discriminate E3. }
  intros n H. induction H as [n H|m c n H IH Hs Hc].
  - left. assert (Hn : n <> []) by apply H. apply no_code_refers in H; [|vm_compute; reflexivity].
    destruct H as (a & b & E). rewrite <- !app_assoc in E.
    destruct a as [|x a]; [injection E as E; exact (U n b E Hn)|]. injection E as <- E.
    do 3 (destruct a as [|x a]; [discriminate|injection E as <- E]). destruct a; discriminate.
  - right. assert (Hn : n <> []) by apply Hc. cbn [stands_for] in Hs.
    destruct Hs as [[i [[Hi _] [T _]]]|[_ Hs]]; [|rewrite lo_base in Hs; discriminate].
    apply lo_defs in Hi. destruct IH as [->| ->].
    + assert (i = lo_k 0) as -> by (destruct Hi as [[_ ->]|[[E _]|[E _]]]; [reflexivity|discriminate|discriminate]).
      assert (Ec : c = "x${B}") by (rewrite T; vm_compute; reflexivity). subst c.
      apply no_code_refers in Hc; [|vm_compute; reflexivity]. destruct Hc as (a & b & E). rewrite <- !app_assoc in E.
      destruct a as [|x a]; [discriminate|]. injection E as <- E.
      destruct a as [|x a]; [injection E as E; exact (U' n b E Hn)|]. injection E as <- E.
      do 3 (destruct a as [|x a]; [discriminate|injection E as <- E]). destruct a; discriminate.
    + assert (i = lo_k 1) as -> by (destruct Hi as [[E _]|[[_ ->]|[E _]]]; [discriminate|reflexivity|discriminate]).
      assert (Ec : c = "y") by (rewrite T; vm_compute; reflexivity). subst c.
      apply no_code_refers in Hc; [|vm_compute; reflexivity]. destruct Hc as (a & b & E). rewrite <- !app_assoc in E.
      destruct a as [|x [|y a]]; discriminate.
Qed.
Example C141_case : reach lo_env lo_s /\ reach lo_env lo_t /\
  (forall n, matters lo_s "/w/a.bb" "${A}" n -> same_definitions lo_s lo_t "/w/a.bb" n) /\
  ~ same_definitions lo_s lo_t "/w/a.bb" "C" /\ expand_term lo_env lo_s "/w/a.bb" "${A}" = Ok "xy".
Proof.
  split; [exact lo_reach|]. split; [exact lo_reach'|]. split; [|split].
  - intros n Hn. apply lo_same. destruct (lo_matters n Hn) as [->| ->]; discriminate.
  - intros (H & _ & _). assert (D : definition lo_s "/w/a.bb" "C" (lo_k 2)).
    { split; [rewrite lo_list; right; right; left; reflexivity|]. split; [right; left; vm_compute; reflexivity|].
      do 5 eexists. split; [exact lo_pay2|]. intros [A|[A|[A|A]]]; [|destruct A..].
      vm_compute in A. intuition discriminate. }
    pose proof (proj1 (proj1 (H (lo_k 2)) D)) as D'. rewrite lo_list' in D'.
    assert (P : Stash.var_name (lo_k 2) = "C" /\ Stash.var_name (lo_k 1) = "B" /\ Stash.var_name (lo_k 0) = "A")
      by (unfold Stash.var_name; rewrite lo_pay0, lo_pay1, lo_pay2; repeat split; reflexivity).
    destruct P as (P2 & P1 & P0). destruct D' as [D'|[D'|[]]]; rewrite <- D' in P2.
    + rewrite P0 in P2. discriminate P2.
    + rewrite P1 in P2. discriminate P2.
  - vm_compute. reflexivity.
Qed.

(** ExpandVar gives A the same value in both, and C only one in the first. *)
Definition lo_value (s : stash) (n : str) : option (list str) :=
  match expand_var lo_env s (Some ("/w/a.bb" : str)) ANone ANone false with Ok d => dget n d | _ => None end.
Example C141_values_case : lo_value lo_s "A" = Some ["xy" : str] /\ lo_value lo_t "A" = Some ["xy" : str] /\
  lo_value lo_s "C" = Some ["z" : str] /\ lo_value lo_t "C" = None.
Proof. vm_compute. repeat split. Qed.
