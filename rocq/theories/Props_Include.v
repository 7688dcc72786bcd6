(** * Properties C39 and C40: included files *)

From Verif Require Import PyStr Regex Patterns PyPath Res Inline Const Item Lines Stash Demo StrFacts
  ParseFacts HistFacts ReachFacts Spec_Expand Proofs_Expand Spec_Include Proofs_Include.

(** ** C39: included items sort at the include *)

(** One statement [x] of the file adds files, these add no further ones, and no
    bbappend takes part: every item that the call adds besides those of the
    file lies between [x] and the statement behind it. *)
Theorem C39_between_partial : forall n e path off forced s a x b s', reach e s ->
  add_file n e path off forced s = (Ok (a ++ x :: b), s') ->
  (forall y, added s s' y -> endswith ".bbappend" (it_origin y) = false) ->
  (forall y, added s s' y -> loads y -> it_id y = it_id x) ->
  forall y, added s s' y -> ~ In y (a ++ x :: b) ->
  it_line y = (it_line x + it_infile y)%Z /\ (it_line x < it_line y)%Z /\
  (forall z, In z a -> (it_line z < it_line x)%Z) /\ (forall z, In z b -> (it_line y < it_line z)%Z).
Proof. exact C39_lemma. Qed.
Print Assumptions C39_between_partial.

Definition q (s : str) : str := """" ++ s ++ """" ++ nl.
Definition i_env : env := demo_env
  [ ("/w/a.bb", "A = " ++ q "1" ++ "inherit k l" ++ nl ++ "B = " ++ q "2");
    ("/w/classes/k.bbclass", "K = " ++ q "1" ++ "K += " ++ q "2");
    ("/w/classes/l.bbclass", "L = " ++ q "1" ++ "L += " ++ q "2" ++ "L += " ++ q "3") ] ["/w"; "/w/classes"; "/"].
Definition i_run := add_file 3 i_env "/w/a.bb" 0 None demo_stash.
Definition d_item : item := mk_item (MkParam 0 0 0 [] [] [] [] false) false PItem.
Definition nth_item (k : nat) (l : list item) : item := nth k l d_item.
Definition loads_b (i : item) : bool :=
  match it_pay i with PInherit _ _ (_ :: _) => true | PInclude _ _ (_ :: _) => true | _ => false end.
Lemma loads_b_iff : forall i, loads_b i = true <-> loads i.
Proof.
  intro i. unfold loads_b, loads. destruct (it_pay i) as [| | |a b [|c p]| | | | | | | | | | | |a b [|c p]| ];
    split; try discriminate; try tauto; intros; try reflexivity; discriminate.
Qed.
(** The theorem with hypotheses that can be computed. *)
Lemma C39_check : forall n e path a x b s', reach e demo_stash ->
  add_file n e path 0 None demo_stash = (Ok (a ++ x :: b), s') ->
  forallb (fun y => negb (endswith ".bbappend" (it_origin y)) && (negb (loads_b y) || Nat.eqb (it_id y) (it_id x))) (st_list s') = true ->
  forall y, In y (st_list s') -> ~ In y (a ++ x :: b) ->
  (it_line x < it_line y)%Z /\ forall z, In z b -> (it_line y < it_line z)%Z.
Proof.
  intros n e path a x b s' Hr E H1 y Hy Hn. rewrite forallb_forall in H1.
  destruct (C39_between_partial n e path 0 None demo_stash a x b s' Hr E) with (y := y) as [_ [P1 [_ P2]]].
  - intros z [Hz _]. apply H1 in Hz. apply andb_prop in Hz. apply negb_true_iff. apply Hz.
  - intros z [Hz _] Hlz. apply H1 in Hz. apply andb_prop in Hz. destruct Hz as [_ Hz]. apply loads_b_iff in Hlz.
    rewrite Hlz in Hz. now apply Nat.eqb_eq in Hz.
  - split; [exact Hy|apply Nat.le_0_l].
  - exact Hn.
  - split; [exact P1|exact P2].
Qed.

Example C39_case :
  map (fun i => (basename (it_origin i), it_line i)) (st_list (snd i_run)) =
  [ ("k.bbclass", 3%Z); ("k.bbclass", 4%Z); ("l.bbclass", 3%Z); ("l.bbclass", 4%Z); ("l.bbclass", 5%Z);
    ("a.bb", 1%Z); ("a.bb", 2%Z); ("a.bb", 8%Z) ] /\
  let l := ok_items i_run in let a := nth_item 0 l in let x := nth_item 1 l in let b := nth_item 2 l in
  forall y, In y (st_list (snd i_run)) -> ~ In y [a; x; b] ->
    (it_line x < it_line y)%Z /\ forall z, In z [b] -> (it_line y < it_line z)%Z.
Proof.
  split; [vm_compute; reflexivity|]. intros l a x b.
  apply (C39_check 3 i_env "/w/a.bb" [a] x [b] (snd i_run)).
  - exists false, false, no_const. apply steps_refl.
  - vm_compute. reflexivity.
  - vm_compute. reflexivity.
Qed.

(** The second of two includes: the statement is shifted by the lines of the
    first file, but its items are not. *)
Definition i2_env : env := demo_env
  [ ("/w/a.bb", "require b.inc" ++ nl ++ "require c.inc" ++ nl);
    ("/w/b.inc", "A = " ++ q "1" ++ "A += " ++ q "2" ++ "A += " ++ q "3");
    ("/w/c.inc", "B = " ++ q "1") ] ["/w"; "/"].
(** A file included by an included file. *)
Definition i3_env : env := demo_env
  [ ("/w/a.bb", "require b.inc" ++ nl ++ "Z = " ++ q "1");
    ("/w/b.inc", "A = " ++ q "1" ++ "require c.inc" ++ nl ++ "B = " ++ q "1");
    ("/w/c.inc", "C = " ++ q "1" ++ "C += " ++ q "2" ++ "C += " ++ q "3") ] ["/w"; "/"].
Definition inc_run (e : env) := add_file 4 e "/w/a.bb" 0 None demo_stash.

Theorem C39_refuted : exists n e path l s', add_file n e path 0 None demo_stash = (Ok l, s') /\ ~ placed l s'.
Proof.
  exists 4, i2_env, "/w/a.bb", (ok_items (inc_run i2_env)), (snd (inc_run i2_env)).
  split; [vm_compute; reflexivity|]. intro H.
  destruct (H [nth_item 0 (ok_items (inc_run i2_env))] (nth_item 1 (ok_items (inc_run i2_env))) [] (nth_item 3 (st_list (snd (inc_run i2_env))))) as [H1 _].
  - vm_compute. reflexivity.
  - vm_compute. reflexivity.
  - apply nth_In. vm_compute. lia.
  - vm_compute in H1. discriminate.
Qed.
Print Assumptions C39_refuted.

(** The last item of the file that b.inc includes lies behind the item that
    follows the include of b.inc in a.bb. *)
Theorem C39_nested_refuted : exists n e path s s', add_file n e path 0 None s = (Ok (ok_items (add_file n e path 0 None s)), s') /\
  exists x y z, In x (st_list s') /\ In y (st_list s') /\ In z (st_list s') /\
    it_origin x = path /\ loads x /\ it_origin y <> path /\ it_origin z = path /\ (it_line x < it_line z)%Z /\
    ~ (it_line y < it_line z)%Z.
Proof.
  exists 4, i3_env, "/w/a.bb", demo_stash, (snd (inc_run i3_env)). split; [vm_compute; reflexivity|].
  exists (nth_item 6 (st_list (snd (inc_run i3_env)))), (nth_item 2 (st_list (snd (inc_run i3_env)))),
         (nth_item 7 (st_list (snd (inc_run i3_env)))).
  split; [apply nth_In; vm_compute; lia|]. split; [apply nth_In; vm_compute; lia|]. split; [apply nth_In; vm_compute; lia|].
  split; [vm_compute; reflexivity|]. split; [vm_compute; discriminate|]. split; [vm_compute; discriminate|].
  split; [vm_compute; reflexivity|]. split; [vm_compute; reflexivity|]. vm_compute. intro H. discriminate H.
Qed.
Print Assumptions C39_nested_refuted.

(** A bbappend that includes a file: its own items are moved behind the recipe,
    the included ones are not. *)
Definition i4_env : env := demo_env
  [ ("/w/a.bb", "A = " ++ q "1" ++ "A += " ++ q "2" ++ "A += " ++ q "3");
    ("/w/a.bbappend", "require c.inc" ++ nl ++ "B = " ++ q "1");
    ("/w/c.inc", "C = " ++ q "1") ] ["/w"; "/"].
Definition i4_stash := snd (add_file 3 i4_env "/w/a.bb" 0 None demo_stash).
Definition i4_run := add_file 3 i4_env "/w/a.bbappend" 0 None i4_stash.
Theorem C39_append_refuted : exists n e path s s' l, reach e s /\ add_file n e path 0 None s = (Ok l, s') /\ ~ placed l s'.
Proof.
  exists 3, i4_env, "/w/a.bbappend", i4_stash, (snd i4_run), (ok_items i4_run).
  split. { exists false, false, no_const. unfold i4_stash. eapply steps_add; [apply steps_refl|apply surjective_pairing]. }
  split; [vm_compute; reflexivity|]. intro H.
  destruct (H [] (nth_item 0 (ok_items i4_run)) [nth_item 1 (ok_items i4_run)] (nth_item 3 (st_list (snd i4_run)))) as [H1 _].
  - vm_compute. reflexivity.
  - vm_compute. reflexivity.
  - apply nth_In. vm_compute. lia.
  - vm_compute in H1. discriminate.
Qed.
Print Assumptions C39_append_refuted.

(** ** C40: termination *)

(** AddFile ends whenever the files that are read each time can be numbered. *)
Theorem C40_ends : forall e F rank path off forced s, env_ok e -> fs_isdir (e_fs e) [] = false ->
  ranked e F rank -> (forall f, In f F -> startswith [cSL; cSL] f = false) -> In (abspath (fs_cwd (e_fs e)) path) F ->
  exists n, forall m, n <= m -> fst (add_file m e path off forced s) <> NoFuel.
Proof. exact C40_lemma. Qed.
Print Assumptions C40_ends.

(** A recipe with an include and a class, two classes inherit each other. *)
Definition t_env : env := demo_env
  [ ("/w/a.bb", "require b.inc" ++ nl ++ "inherit k" ++ nl); ("/w/b.inc", "inherit l" ++ nl);
    ("/w/classes/k.bbclass", "inherit l" ++ nl); ("/w/classes/l.bbclass", "inherit k" ++ nl) ] ["/w"; "/w/classes"; "/"].
Definition t_files : list str := ["/w/a.bb"; "/w/b.inc"; "/w/classes/k.bbclass"; "/w/classes/l.bbclass"].
Definition t_rank (f : str) : nat := if str_eqb f "/w/a.bb" then 1 else 0.

(** The texts of the chunks of a file do not depend on the offset. *)
Definition texts_of (e : env) (f : str) (neg : bool) : list str :=
  match prepare_file e f 0 neg with Ok cs => map ck_cnt cs | _ => [] end.

Definition matches_of (e : env) (f : str) : list (kind * rmatch) :=
  flat_map (fun t => flat_map (fun x => match re_match (snd x) t with Some mt => [(fst x, mt)] | None => [] end) order)
           (texts_of e f false).

Lemma t_statement : forall f k mt, In f t_files -> statement t_env f k mt -> In (k, mt) (matches_of t_env f).
Proof.
  intros f k mt Hf [off [neg [cs [c [r [Hp [Hc [Hr Hm]]]]]]]]. unfold matches_of. apply in_flat_map. exists (ck_cnt c). split.
  - assert (Hc' : In (ck_cnt c) (map ck_cnt cs)) by now apply in_map.
    destruct Hf as [<-|[<-|[<-|[<-|[]]]]]; destruct neg; vm_compute in Hp; inversion Hp; subst; exact Hc'.
  - apply in_flat_map. exists (k, r). split; [exact Hr|]. cbn [fst snd]. rewrite Hm. now left.
Qed.

Lemma t_plain : forall s f v w, plain_text v -> expand_term t_env s f v = Ok w -> w = v.
Proof. intros s f v w [H1 H2] E. unfold expand_term in E. rewrite (C43_lemma t_env s f v [] [] H1 H2) in E. now inversion E. Qed.

Lemma t_finds : forall f name g, finds t_env f name g ->
  forall p, find_local_or_layer (S (length (dirname f))) (e_fs t_env) name (dirname f) = Some p ->
  p <> [] /\ g = abspath "/w" p.
Proof. intros f name g [p [H1 [H2 H3]]] p' H. rewrite H1 in H. inversion H; subst. split; [exact H2|reflexivity]. Qed.

Lemma t_pulls : forall f g, In f t_files -> pulls t_env f g ->
  In g t_files /\ (rereadable g -> f = "/w/a.bb" /\ g = "/w/b.inc").
Proof.
  intros f g Hf [[mt [s [inc [Hst [Hx Hg]]]]]|[k [mt [s [inh [x [loc [Hk [Hst [Hx [Hi [Hl Hg]]]]]]]]]]]].
  - apply t_statement in Hst; [|exact Hf].
    destruct Hf as [<-|[<-|[<-|[<-|[]]]]]; vm_compute in Hst;
      repeat (destruct Hst as [Hst|Hst]; [try discriminate Hst|]); try contradiction Hst.
    inversion Hst; subst. apply t_plain in Hx; [|split; [split|]; vm_compute; reflexivity]. subst inc.
    destruct (t_finds _ _ _ Hg "/w/b.inc") as [_ ->]; [vm_compute; reflexivity|].
    split; [right; left; reflexivity|]. intros _. split; reflexivity.
  - apply t_statement in Hst; [|exact Hf].
    assert (H : exists n, (n = "k" \/ n = "l") /\ inh = n).
    { destruct Hf as [<-|[<-|[<-|[<-|[]]]]]; vm_compute in Hst;
        repeat (destruct Hst as [Hst|Hst]; [try (destruct Hk as [-> | ->]; discriminate Hst)|]); try contradiction Hst;
        inversion Hst; subst; (apply t_plain in Hx; [|split; [split|]; vm_compute; reflexivity]); subst inh;
        (eexists; split; [|reflexivity]; vm_compute; tauto). }
    assert (Hx' : (x = "k" \/ x = "l")).
    { destruct H as [n [[-> | ->] ->]]; vm_compute in Hi; destruct Hi as [<-|[]]; [now left|now right]. }
    assert (Hd : dirname f = "/w" \/ dirname f = "/w/classes").
    { destruct Hf as [<-|[<-|[<-|[<-|[]]]]]; vm_compute; tauto. }
    destruct Hg as [p [Hp1 [Hp2 ->]]].
    assert (Hgr : p = "/w/classes/k.bbclass" \/ p = "/w/classes/l.bbclass").
    { destruct Hd as [Hd|Hd]; rewrite Hd in Hp1; destruct Hx' as [-> | ->]; destruct Hl as [<-|[<-|[<-|[]]]]; vm_compute in Hp1;
        inversion Hp1; subst; try congruence; [now left|now right]. }
    destruct Hgr as [-> | ->]; (split; [vm_compute; tauto|]); intro Hr; exfalso; vm_compute in Hr;
      repeat (destruct Hr as [Hr|Hr]; [discriminate Hr|]); exact Hr.
Qed.

Example C40_case : exists n, forall m, n <= m -> fst (add_file m t_env "a.bb" 0 None demo_stash) <> NoFuel.
Proof.
  apply (C40_ends t_env t_files t_rank).
  - apply demo_env_ok.
  - reflexivity.
  - split.
    + intros f g Hf Hp. now apply (t_pulls f g).
    + intros f g Hf Hp Hr. destruct (t_pulls f g Hf Hp) as [_ H]. destruct (H Hr) as [-> ->]. vm_compute. lia.
  - intros f Hf. destruct Hf as [<-|[<-|[<-|[<-|[]]]]]; reflexivity.
  - left. reflexivity.
Qed.

(** A file that requires itself is never done. *)
Definition c_env : env := demo_env [ ("/w/a.inc", "require a.inc" ++ nl) ] ["/w"; "/"].
Lemma c_chunks : forall off neg, exists c, prepare_file c_env "/w/a.inc" off neg = Ok [c] /\ ck_cnt c = "require a.inc".
Proof. intros off neg. destruct neg; vm_compute; eexists; (split; [reflexivity|reflexivity]). Qed.
Lemma try_skip : forall e addf p file line cnt l1 l2,
  forallb (fun x => negb (matched (re_match (snd x) cnt))) l1 = true ->
  try_kinds e addf p file line cnt (l1 ++ l2) = try_kinds e addf p file line cnt l2.
Proof.
  intros e addf p file line cnt l1 l2. induction l1 as [|[k r] l1 IH]; intro H; [reflexivity|].
  cbn [forallb snd] in H. apply andb_prop in H. destruct H as [H1 H2]. cbn [app try_kinds].
  destruct (re_match r cnt); [discriminate|]. now apply IH.
Qed.
Lemma c_loops : forall n off forced s, mem_str "/w/a.inc" (st_seenc s) = false ->
  cval_contains "a.inc" (include_ignore (st_const s)) = false ->
  fst (add_file n c_env "/w/a.inc" off forced s) = NoFuel.
Proof.
  induction n as [|n IH]; intros off forced s Hs Hc; [reflexivity|].
  rewrite add_file_eq. cbv zeta. change (abspath (fs_cwd (e_fs c_env)) "/w/a.inc") with "/w/a.inc".
  assert (Hk : skipped c_env "/w/a.inc" s = false).
  { unfold skipped. change (abspath (fs_cwd (e_fs c_env)) "/w/a.inc") with "/w/a.inc".
    change (snd (splitext "/w/a.inc")) with ".inc". change (mem_str ".inc" multi_exts) with true.
    rewrite Hs. now rewrite andb_false_r. }
  rewrite Hk. set (s1 := enter "/w/a.inc" s).
  assert (H1 : mem_str "/w/a.inc" (st_seenc s1) = false) by exact Hs.
  assert (H2 : cval_contains "a.inc" (include_ignore (st_const s1)) = false) by exact Hc. clearbody s1.
  destruct (c_chunks off (st_neg s1)) as [c [Hp Ht]].
  set (addf := fun p o f => add_file n c_env p o (Some f)).
  assert (G : fst (get_items c_env addf "/w/a.inc" off s1) = NoFuel).
  { unfold get_items, bindM at 1, liftR at 1. rewrite Hp. unfold bindM at 1, liftR at 1. cbn [parse_chunks]. cbv zeta.
    rewrite Ht. unfold bindM at 1.
    assert (T : forall p line, fst (try_kinds c_env addf p "/w/a.inc" line "require a.inc" order s1) = NoFuel).
    { intros p line. change order with (firstn 7 order ++ (KInclude, re_include) :: skipn 8 order).
      rewrite try_skip by (vm_compute; reflexivity). cbn [try_kinds].
      destruct (re_match re_include "require a.inc") as [mt|] eqn:Em; [|vm_compute in Em; discriminate].
      assert (Hg : group_str "incname" mt = "a.inc") by (vm_compute in Em; inversion Em; subst; reflexivity).
      unfold bindM at 1. unfold handle. cbv zeta. rewrite Hg. unfold bindM at 1, liftR at 1.
      unfold expand_term. rewrite (C43_lemma c_env s1 "/w/a.inc" "a.inc" [] []) by (try split; vm_compute; reflexivity).
      unfold bindM at 1, find_m at 1.
      change (find_local_or_layer (S (length (dirname "/w/a.inc"))) (e_fs c_env) "a.inc" (dirname "/w/a.inc")) with (Some "/w/a.inc").
      cbv iota. unfold bindM at 1, liftR at 1. rewrite H2. unfold bindM at 1.
      unfold addf. match goal with |- context [add_file n c_env ?a ?b ?d s1] =>
        assert (Hx : fst (add_file n c_env a b d s1) = NoFuel) by (apply IH; assumption);
        destruct (add_file n c_env a b d s1) as [r s2] end.
      cbn in Hx. subst r. reflexivity. }
    specialize (T (fun n => MkParam n (ck_line c + 0) (ck_line c - off) (ck_raw c) (ck_realraw c) "/w/a.inc" (ck_blocks c) (st_new s1)) (ck_line c)).
    destruct (try_kinds _ _ _ _ _ _ _ s1) as [r s2]. cbn in T. subst r. reflexivity. }
  unfold bindM. destruct (get_items _ _ _ _ s1) as [r s2]. cbn in G. subst r. reflexivity.
Qed.

Theorem C40_refuted : exists e path, env_ok e /\ fs_isdir (e_fs e) [] = false /\
  forall n off forced, fst (add_file n e path off forced demo_stash) = NoFuel.
Proof.
  exists c_env, "/w/a.inc". split; [apply demo_env_ok|]. split; [reflexivity|]. intros n off forced. apply c_loops; reflexivity.
Qed.
Print Assumptions C40_refuted.
