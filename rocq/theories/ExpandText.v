(** * Facts about texts with references *)

From Verif Require Import PyStr Regex Patterns PyPath Res Const Item Lines Stash StrFacts ReFacts LinesFacts NameFacts ExnFacts QueryFacts
  ExpandFacts.

(** ** Texts as sequences of characters and references *)

(** [D c] is a dollar sign that begins no reference, with the character behind it. *)
Inductive pc := C (c : N) | D (c : N) | G (n : str).
Definition ptext (p : pc) : str := match p with C c => [c] | D c => [36%N; c] | G n => ref n end.
Definition gtext (l : list pc) : str := flat_map ptext l.
Definition good_name (n : str) : Prop := n <> [] /\ ~ In 36%N n /\ ~ In 125%N n /\ ~ In cNL n.
Definition good (p : pc) : Prop := match p with C c => c <> 36%N | D c => c <> 36%N /\ c <> 123%N | G n => good_name n end.

Lemma gtext_app : forall a b, gtext (a ++ b) = gtext a ++ gtext b.
Proof. intros. unfold gtext. apply flat_map_app. Qed.
Lemma gtext_chars : forall s, gtext (map C s) = s.
Proof. induction s as [|c s IH]; [reflexivity|]. simpl. f_equal. exact IH. Qed.

Lemma until_brace : forall (a b u v : list N), ~ In 125%N a -> ~ In 125%N b ->
  a ++ 125%N :: u = b ++ 125%N :: v -> a = b /\ u = v.
Proof.
  induction a as [|x a IH]; intros b u v Ha Hb E.
  - destruct b as [|y b]; simpl in E; [inversion E; auto|]. inversion E; subst. exfalso. apply Hb. now left.
  - destruct b as [|y b]; simpl in E.
    + inversion E; subst. exfalso. apply Ha. now left.
    + inversion E as [[E1 E2]]. subst. destruct (IH b u v) as [-> ->]; auto.
      * intro H. apply Ha. now right.
      * intro H. apply Hb. now right.
Qed.
Lemma ref_inj : forall a b u v, good_name a -> good_name b -> ref a ++ u = ref b ++ v -> a = b /\ u = v.
Proof.
  intros a b u v [_ [_ [Ha _]]] [_ [_ [Hb _]]] E. unfold ref in E. rewrite <- !app_assoc in E.
  simpl in E. inversion E as [E2]. now apply until_brace.
Qed.
Lemma ref_cons : forall n, exists t, ref n = 36%N :: t.
Proof. intro n. eexists. reflexivity. Qed.
Lemma ref_nonempty : forall n, ref n <> [].
Proof. discriminate. Qed.

(** Replacing a reference in a text. *)
Definition psub (y : str) (r : list pc) (l : list pc) : list pc :=
  flat_map (fun p => match p with C c => [C c] | D c => [D c] | G n => if str_eqb n y then r else [G n] end) l.

Lemma startswith_ref_chr : forall y c t, c <> 36%N -> startswith (ref y) (c :: t) = false.
Proof.
  intros y c t Hc. destruct (startswith (ref y) (c :: t)) eqn:E; [|reflexivity]. apply startswith_spec in E.
  destruct E as [u E]. simpl in E. inversion E; subst. congruence.
Qed.
Lemma startswith_ref_dollar : forall y c t, c <> 123%N -> startswith (ref y) (36%N :: c :: t) = false.
Proof.
  intros y c t Hc. destruct (startswith (ref y) (36%N :: c :: t)) eqn:E; [|reflexivity]. apply startswith_spec in E.
  destruct E as [u E]. simpl in E. inversion E; subst. congruence.
Qed.
(** Inside of a reference no other one starts. *)
Lemma replace_inside : forall y r w t, ~ In 36%N w ->
  replace_go (ref y) r 0 (w ++ t) = w ++ replace_go (ref y) r 0 t.
Proof.
  intros y r w t. induction w as [|c w IH]; intro Hw; [reflexivity|]. simpl app.
  rewrite replace_go_eq by apply ref_nonempty. rewrite startswith_ref_chr.
  - f_equal. apply IH. intro H. apply Hw. now right.
  - intro H. apply Hw. subst. now left.
Qed.
Lemma replace_text : forall y r l, good_name y -> Forall good l ->
  replace (ref y) (gtext r) (gtext l) = gtext (psub y r l).
Proof.
  intros y r l Hy Hl. rewrite replace_eq by apply ref_nonempty.
  induction l as [|p l IH]; [reflexivity|]. inversion Hl as [|p0 l0 Hp Hl']; subst. specialize (IH Hl').
  change (gtext (p :: l)) with (ptext p ++ gtext l). change (psub y r (p :: l)) with
    ((match p with C c => [C c] | D c => [D c] | G n => if str_eqb n y then r else [G n] end) ++ psub y r l).
  rewrite gtext_app. destruct p as [c|c|n].
  - simpl ptext. simpl app. rewrite replace_go_eq by apply ref_nonempty. rewrite startswith_ref_chr by exact Hp.
    simpl. now rewrite IH.
  - simpl ptext. simpl app. destruct Hp as [Hp Hp2]. rewrite replace_go_eq by apply ref_nonempty. rewrite startswith_ref_dollar by exact Hp2.
    rewrite replace_go_eq by apply ref_nonempty. rewrite startswith_ref_chr by exact Hp. simpl. now rewrite IH.
  - simpl ptext. destruct (str_eqb n y) eqn:E.
    + apply str_eqb_eq in E. subst n. rewrite replace_go_eq by apply ref_nonempty. rewrite startswith_app.
      rewrite skipn_app, skipn_all, Nat.sub_diag. simpl. now rewrite IH.
    + assert (Hs : startswith (ref y) (ref n ++ gtext l) = false).
      { destruct (startswith (ref y) (ref n ++ gtext l)) eqn:Es; [|reflexivity]. apply startswith_spec in Es.
        destruct Es as [u Eu]. apply ref_inj in Eu; [|exact Hp|exact Hy]. destruct Eu as [-> _].
        now rewrite str_eqb_refl in E. }
      rewrite replace_go_eq by apply ref_nonempty. rewrite Hs.
      unfold ref at 1. simpl app.
      replace (123%N :: (n ++ [125%N]) ++ gtext l) with ((123%N :: n ++ [125%N]) ++ gtext l) by reflexivity.
      rewrite replace_inside.
      * rewrite IH. change (gtext [G n]) with (ref n ++ []). rewrite app_nil_r. unfold ref. simpl. reflexivity.
      * intros [H|H]; [discriminate|]. apply in_app_or in H. destruct H as [H|[H|[]]]; [|discriminate].
        destruct Hp as [_ [Hp _]]. contradiction.
Qed.

(** Matches of a text are its references. *)
Lemma var_ref_no : forall b c t, c <> 36%N -> match_at re_var_ref b (c :: t) = None.
Proof.
  intros b c t Hc. destruct (match_at re_var_ref b (c :: t)) as [x|] eqn:E; [|reflexivity].
  apply var_ref_shape in E. destruct E as [n [u [E _]]]. simpl in E. inversion E; subst. congruence.
Qed.
Lemma var_ref_no2 : forall b c t, c <> 123%N -> match_at re_var_ref b (36%N :: c :: t) = None.
Proof.
  intros b c t Hc. destruct (match_at re_var_ref b (36%N :: c :: t)) as [x|] eqn:E; [|reflexivity].
  apply var_ref_shape in E. destruct E as [n [u [E _]]]. simpl in E. inversion E; subst. congruence.
Qed.
Lemma var_ref_yes : forall b n t, good_name n -> exists x,
  match_at re_var_ref b (ref n ++ t) = Some x /\ g0 x = ref n /\ group_str "1" x = n.
Proof.
  intros b n t [Hn [Hd [Hb Hl]]]. destruct n as [|c n]; [congruence|].
  assert (E : ref (c :: n) ++ t = "${" ++ (c :: n) ++ 125%N :: t) by (unfold ref; rewrite <- !app_assoc; reflexivity).
  assert (Hdot : forallb dotp (c :: n) = true).
  { apply forallb_forall. intros x Hx. unfold dotp. apply negb_true_iff. apply N.eqb_neq. intro H. subst. contradiction. }
  assert (Hm : m re_var_ref mstate (fun x => Some x) (MS b ("${" ++ (c :: n) ++ 125%N :: t) []) =
               Some (MS false t [("1", c :: n)])).
  { unfold re_var_ref, RCat. cbn [m]. rewrite m_lit. change (after b "${" ((c :: n) ++ 125%N :: t) []) with
      (MS false (c :: n ++ 125%N :: t) []).
    unfold dot_plus_lazy, RPlus, RDot. cbn [m m_rest m_bol m_grp]. cbn [forallb] in Hdot. apply andb_prop in Hdot.
    destruct Hdot as [Hc Hdot]. rewrite Hc. apply star_class_lazy; [exact Hdot| |].
    - change (m_rest (after false n (125%N :: t) [])) with (125%N :: t).
      change (m_grp (after false n (125%N :: t) [])) with (@nil (str * str)).
      change (c :: n ++ 125%N :: t) with ((c :: n) ++ 125%N :: t). rewrite (consumed_app _ (c :: n)) by reflexivity.
      unfold RC. now rewrite m_chr.
    - intros u v Ev Hv. destruct v as [|d v]; [congruence|].
      change (m_rest (after false u ((d :: v) ++ 125%N :: t) [])) with (d :: v ++ 125%N :: t). unfold RC. apply m_chr_no.
      unfold oneof, in_chars. cbn [existsb]. rewrite orb_false_r.
      apply N.eqb_neq. intro H. subst d. apply Hb. right. rewrite Ev. apply in_or_app. right. now left. }
  eexists. split; [|split].
  - unfold match_at. rewrite E. rewrite Hm. reflexivity.
  - cbn [g0]. rewrite <- E. now apply consumed_app.
  - reflexivity.
Qed.

Definition pnames (l : list pc) : list str := flat_map (fun p => match p with C _ | D _ => [] | G n => [n] end) l.
Lemma scan_skip : forall r a b s k, length a = k -> scan r k b (a ++ s) = scan r 0 (match a with [] => b | _ => false end) s.
Proof.
  intros r a. induction a as [|c a IH]; intros b s k Hk; simpl in Hk; subst k; [reflexivity|].
  simpl. rewrite (IH false s (length a)) by reflexivity. destruct a; reflexivity.
Qed.
Lemma refs_scan : forall l b, Forall good l ->
  map (fun x => (g0 x, group_str "1" x)) (flat_map (fun y => match y with inr x => [x] | inl _ => [] end) (scan re_var_ref 0 b (gtext l)))
  = map (fun n => (ref n, n)) (pnames l).
Proof.
  induction l as [|p l IH]; intros b Hl; [destruct b; reflexivity|].
  inversion Hl as [|p0 l0 Hp Hl']; subst. change (gtext (p :: l)) with (ptext p ++ gtext l). destruct p as [c|c|n].
  - simpl ptext. simpl app. cbn [scan]. rewrite var_ref_no by exact Hp. simpl. apply IH. exact Hl'.
  - simpl ptext. simpl app. destruct Hp as [Hp Hp2]. cbn [scan]. rewrite var_ref_no2 by exact Hp2. cbn [scan].
    rewrite var_ref_no by exact Hp. simpl. apply IH. exact Hl'.
  - simpl ptext. destruct (var_ref_yes b n (gtext l) Hp) as [x [Hx [Hg H1]]].
    assert (Es : scan re_var_ref 0 b (ref n ++ gtext l) = inr x :: scan re_var_ref 0 false (gtext l)).
    { destruct (ref n) as [|c t] eqn:Er; [now apply ref_nonempty in Er|]. simpl app in *. cbn [scan]. rewrite Hx, Hg.
      simpl length. cbv iota. f_equal. rewrite scan_skip by reflexivity. destruct t; reflexivity. }
    rewrite Es. simpl. rewrite Hg, H1. f_equal. now apply IH.
Qed.
Lemma refs_found : forall l, Forall good l ->
  map (fun x => (g0 x, group_str "1" x)) (re_finditer re_var_ref (gtext l)) = map (fun n => (ref n, n)) (pnames l).
Proof. intros l Hl. unfold re_finditer. now apply refs_scan. Qed.

(** ** One expansion after the other *)

(** Replacing all names of a text one by one replaces them at once if the
    replacements only contain names that stay. *)
Definition pmap (f : str -> list pc) (l : list pc) : list pc :=
  flat_map (fun p => match p with C c => [C c] | D c => [D c] | G n => f n end) l.
Lemma psub_pmap : forall y r l, psub y r l = pmap (fun n => if str_eqb n y then r else [G n]) l.
Proof. reflexivity. Qed.
Lemma pmap_app : forall f a b, pmap f (a ++ b) = pmap f a ++ pmap f b.
Proof. intros. unfold pmap. apply flat_map_app. Qed.
Lemma pmap_id : forall f l, (forall n, In (G n) l -> f n = [G n]) -> pmap f l = l.
Proof.
  intros f l. induction l as [|p l IH]; intro H; [reflexivity|]. change (pmap f (p :: l)) with
    ((match p with C c => [C c] | D c => [D c] | G n => f n end) ++ pmap f l). rewrite IH by (intros n Hn; apply H; now right).
  destruct p as [c|c|n]; [reflexivity|reflexivity|]. rewrite H by now left. reflexivity.
Qed.
Lemma pmap_ext : forall f g l, (forall n, In (G n) l -> f n = g n) -> pmap f l = pmap g l.
Proof.
  intros f g l. induction l as [|p l IH]; intro H; [reflexivity|].
  change (pmap f (p :: l)) with ((match p with C c => [C c] | D c => [D c] | G n => f n end) ++ pmap f l).
  change (pmap g (p :: l)) with ((match p with C c => [C c] | D c => [D c] | G n => g n end) ++ pmap g l).
  rewrite IH by (intros n Hn; apply H; now right). destruct p as [c|c|n]; [reflexivity|reflexivity|]. now rewrite H by now left.
Qed.
Lemma pmap_pmap : forall f g l, pmap f (pmap g l) = pmap (fun n => pmap f (g n)) l.
Proof.
  intros f g l. induction l as [|p l IH]; [reflexivity|].
  change (pmap g (p :: l)) with ((match p with C c => [C c] | D c => [D c] | G n => g n end) ++ pmap g l). rewrite pmap_app, IH.
  change (pmap (fun n => pmap f (g n)) (p :: l)) with
    ((match p with C c => [C c] | D c => [D c] | G n => pmap f (g n) end) ++ pmap (fun n => pmap f (g n)) l).
  destruct p; reflexivity.
Qed.
Lemma psub_all : forall f ns l,
  (forall n m, In n ns -> In (G m) (f n) -> In m ns -> f m = [G m]) ->
  fold_left (fun l n => psub n (f n) l) ns l = pmap (fun n => if mem_str n ns then f n else [G n]) l.
Proof.
  intros f ns. induction ns as [|a ns IH]; intros l H; simpl fold_left.
  - symmetry. apply pmap_id. reflexivity.
  - rewrite IH by (intros n m Hn Hm Hi; apply (H n m); auto using in_cons). rewrite psub_pmap, pmap_pmap.
    apply pmap_ext. intros n _. change (mem_str n (a :: ns)) with (str_eqb n a || mem_str n ns). destruct (str_eqb n a) eqn:E; cbn [orb].
    + apply str_eqb_eq in E. subst n. rewrite pmap_id; [reflexivity|].
      intros m Hm. destruct (mem_str m ns) eqn:Em; [|reflexivity]. apply mem_str_In in Em. apply (H a m); [now left|exact Hm|now right].
    + cbn [pmap flat_map app]. apply app_nil_r.
Qed.
