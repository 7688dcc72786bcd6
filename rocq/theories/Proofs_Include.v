(** * Proofs for C39 and C40 *)

From Verif Require Import PyStr Regex Patterns PyPath Res Inline Const Item Lines Stash
  StrFacts ReFacts LinesFacts ParseFacts OffsetFacts HistFacts ReachFacts Proofs_Query Proofs_Paths Proofs_Expand IncludeFacts
  Spec_Const Proofs_Const Spec_Include.

(** ** C39 *)

Lemma loads_iff : forall i, ~ loads i <-> adds_no_file i.
Proof.
  intro i. unfold loads, adds_no_file.
  destruct (it_pay i) as [| | |a b p| | | | | | | | | | | |a b p| ]; try tauto;
    (split; [intro H; destruct p; [reflexivity|exfalso; apply H; discriminate]|intros -> H; now apply H]).
Qed.

Lemma C39_lemma : forall n e path off forced s a x b s', reach e s ->
  add_file n e path off forced s = (Ok (a ++ x :: b), s') ->
  (forall y, added s s' y -> endswith ".bbappend" (it_origin y) = false) ->
  (forall y, added s s' y -> loads y -> it_id y = it_id x) ->
  forall y, added s s' y -> ~ In y (a ++ x :: b) ->
  it_line y = (it_line x + it_infile y)%Z /\ (it_line x < it_line y)%Z /\
  (forall z, In z a -> (it_line z < it_line x)%Z) /\ (forall z, In z b -> (it_line y < it_line z)%Z).
Proof.
  intros n e path off forced s a x b s' Hr H Hbb Hl y [Hy1 Hy2] Hy.
  apply reach_ids in Hr. destruct Hr as [_ Hold].
  assert (Hincl : forall i, In i (a ++ x :: b) -> added s s' i).
  { intros i Hi. pose proof H as H0. destruct n as [|n]; [discriminate|]. rewrite add_file_eq in H0. cbv zeta in H0.
    destruct (skipped e path s) eqn:Es; [destruct a; discriminate|].
    set (file := abspath (fs_cwd (e_fs e)) path) in *. unfold bindM in H0.
    destruct (get_items e _ file off (enter file s)) as [[items|ex|] s1] eqn:Eg; try discriminate.
    apply leave_cases in H0. destruct H0 as [f [l [Hf [L [_ [_ [_ [_ [_ [_ [_ Hl0]]]]]]]]]]].
    destruct (Hl0 _ eq_refl) as [El [mx Emx]]. subst l. split; [rewrite L; apply in_or_app; now right|].
    unfold get_items, bindM, liftR in Eg. destruct (prepare_file _ _ _ _) as [cs'|ex|]; try discriminate.
    apply chunks_grows in Eg. destruct Eg as [_ [n1 [_ [_ [_ [R1 _]]]]]]. rewrite Emx in Hi. apply in_map_iff in Hi.
    destruct Hi as [j [<- Hj]]. cbn. rewrite Forall_forall in R1.
    assert (Hr : In j (n1 ++ items)) by (apply in_or_app; now right). apply R1 in Hr. unfold in_range in Hr. cbn in Hr. lia. }
  destruct (between n e path off forced s a x b s' H) as [f [nw [Hf [L [_ [_ Hb]]]]]].
  - intros z Hz1 Hz2 Hz3. split; [|now apply Hbb]. apply loads_iff. intro Hlz. apply Hz3. now apply Hl.
  - apply Hbb. apply Hincl. apply in_or_app. right. now left.
  - exact Hold.
  - assert (Hn : In y nw).
    { rewrite L in Hy1. apply in_app_or in Hy1. destruct Hy1 as [Ho|Hn].
      - exfalso. apply in_map_iff in Ho. destruct Ho as [t [<- Ht]]. rewrite raises_it_id in Hy2 by exact Hf.
        rewrite Forall_forall in Hold. apply Hold in Ht. lia.
      - apply in_app_or in Hn. destruct Hn as [Hn|Hn]; [exact Hn|contradiction]. }
    destruct (Hb y Hn) as [B1 [B2 [B3 B4]]]. rewrite Forall_forall in B3, B4.
    split; [exact B1|]. split; [lia|]. split; [exact B3|exact B4].
Qed.

(** ** C40 *)

Lemma find_local_some : forall e f, fs_isdir (e_fs e) [] = false -> startswith [cSL; cSL] f = false ->
  forall name, find_local_or_layer (S (length (dirname f))) (e_fs e) name (dirname f) <> None.
Proof.
  intros e f He Hf name. unfold find_local_or_layer. destruct (fs_exists _ _); [discriminate|].
  apply C27_lemma; [exact He| |lia].
  destruct (startswith [cSL; cSL] (dirname f)) eqn:E; [|reflexivity]. exfalso.
  destruct (dirname_prefix f) as [t Et]. apply startswith_spec in E. destruct E as [u Eu]. rewrite Eu in Et.
  rewrite Et in Hf. unfold startswith in Hf. simpl in Hf. discriminate.
Qed.
Lemma layer_root_some : forall e f, fs_isdir (e_fs e) [] = false -> startswith [cSL; cSL] f = false ->
  get_layer_root (S (length f)) (e_fs e) f <> None.
Proof.
  intros e f He Hf. unfold get_layer_root. destruct (dirname_prefix f) as [t Et]. destruct (fs_isfile _ _).
  - apply C27_lemma; [exact He| |].
    + destruct (startswith [cSL; cSL] (dirname f)) eqn:E; [|reflexivity]. exfalso.
      apply startswith_spec in E. destruct E as [u Eu]. rewrite Eu in Et.
      rewrite Et in Hf. unfold startswith in Hf. simpl in Hf. discriminate.
    + rewrite Et at 2. rewrite app_length. lia.
  - apply C27_lemma; [exact He|exact Hf|lia].
Qed.

(** How a call ends: it is not cut short if [T] holds, and raises only what [Q]
    allows. *)
Definition fine {A} (T : Prop) (Q : exn -> Prop) (r : Res.res A) : Prop :=
  match r with Ok _ => True | Raise ex => Q ex | NoFuel => ~ T end.

Section Ends.
  Context (T : Prop) (Q : exn -> Prop).
  Context (e : env) (f : str) (addf : addfile_t) (Inv : stash -> Prop).
  Context (Hexp : forall s v, fine T Q (expand_term e s f v)).
  Context (Hprep : forall off neg, fine T Q (prepare_file e f off neg)).
  Context (Hfind : T -> forall name, find_local_or_layer (S (length (dirname f))) (e_fs e) name (dirname f) <> None).
  Context (Hnext : forall n s, Inv s -> Inv (with_next n s)).
  Context (Haddf : forall p o fl s, Inv s -> pulls e f (abspath (fs_cwd (e_fs e)) p) ->
             fine T Q (fst (addf p o fl s)) /\ Inv (snd (addf p o fl s))).

  Definition good {A} (x : M A) (s : stash) : Prop := fine T Q (fst (x s)) /\ Inv (snd (x s)).
  Lemma good_bind : forall A B (x : M A) (g : A -> M B) s, good x s ->
    (forall a s', x s = (Ok a, s') -> Inv s' -> good (g a) s') -> good (bindM x g) s.
  Proof.
    intros A B x g s [H1 H2] H. unfold good, bindM. destruct (x s) as [[a|ex|] s'] eqn:E; cbn in *.
    - now apply H.
    - split; [exact H1|exact H2].
    - split; [exact H1|exact H2].
  Qed.
  Lemma good_ret : forall A (a : A) s, Inv s -> good (ret a) s.
  Proof. intros A a s H. split; [exact I|exact H]. Qed.
  Lemma good_lift : forall A (g : stash -> Res.res A) s, Inv s -> fine T Q (g s) -> good (liftR g) s.
  Proof. intros A g s H Hg. split; [exact Hg|exact H]. Qed.
  Lemma good_new : forall mk s, Inv s -> good (new_item mk) s.
  Proof. intros mk s H. split; [exact I|]. cbn. now apply Hnext. Qed.

  Lemma find_m_good : forall name s, Inv s -> good (find_m e name (dirname f)) s.
  Proof.
    intros name s H. unfold good, find_m. pose proof (fun t => Hfind t name) as Hn.
    destruct (find_local_or_layer _ _ _ _); (split; [|exact H]); [exact I|]. intro t. now apply (Hn t).
  Qed.

  Lemma find_class_good : forall locs x s, Inv s -> good (find_class e locs x (dirname f)) s /\
    forall p s', find_class e locs x (dirname f) s = (Ok p, s') -> p = [] \/
      exists loc, In loc locs /\ find_local_or_layer (S (length (dirname f))) (e_fs e) (path_join loc x) (dirname f) = Some p /\ p <> [].
  Proof.
    induction locs as [|l locs IH]; intros x s H; cbn [find_class].
    - split; [now apply good_ret|]. intros p s' E. inversion E. now left.
    - split.
      + apply good_bind; [now apply find_m_good|]. intros p s' _ H'. destruct p; [now apply IH|now apply good_ret].
      + intros p s' E. unfold bindM in E. unfold find_m in E at 1.
        destruct (find_local_or_layer _ _ _ _) as [q|] eqn:Eq; [|discriminate]. destruct q as [|c q].
        * destruct (proj2 (IH x s H) p s' E) as [->|[loc [L1 L2]]]; [now left|]. right. exists loc. split; [now right|exact L2].
        * inversion E; subst. right. exists l. split; [now left|]. split; [exact Eq|discriminate].
  Qed.

  Lemma inherit_good : forall locs line inh k mt s0, (k = KInherit \/ k = KInheritGlob) -> statement e f k mt ->
    expand_term e s0 f (group_str "inhname" mt) = Ok inh ->
    incl locs ["classes"; "classes-recipe"; "classes-global"] ->
    forall l paths off s, incl l (split_char cSP inh) -> Inv s ->
    good (inherit_loop e addf locs f inh line l paths off) s.
  Proof.
    intros locs line inh k mt s0 Hk Hst Hx Hlocs l. induction l as [|x l IH]; intros paths off s Hl H; cbn [inherit_loop].
    - now apply good_ret.
    - cbv zeta. set (x' := if endswith ".bbclass" x then x else x ++ ".bbclass").
      apply good_bind; [now apply find_class_good|]. intros p s1 Ep H1.
      destruct (proj2 (find_class_good locs x' s H) p s1 Ep) as [->|[loc [L1 [L2 L3]]]].
      + apply IH; [|exact H1]. intros y Hy. apply Hl. now right.
      + destruct p as [|c p]; [congruence|]. apply good_bind; [apply good_lift; [exact H1|exact I]|].
        intros ign s2 _ H2. destruct ign.
        * apply IH; [|exact H2]. intros y Hy. apply Hl. now right.
        * apply good_bind.
          -- apply Haddf; [exact H2|]. right. exists k, mt, s0, inh, x, loc.
             split; [exact Hk|]. split; [exact Hst|]. split; [exact Hx|]. split; [apply Hl; now left|].
             split; [now apply Hlocs|]. exists (c :: p). split; [exact L2|]. split; [exact L3|reflexivity].
          -- intros tmp s3 _ H3. apply IH; [|exact H3]. intros y Hy. apply Hl. now right.
  Qed.

  Lemma handle_good : forall p line k mt s, statement e f k mt -> Inv s -> good (handle e addf p f line k mt) s.
  Proof.
    intros p line k mt s Hst H.
    assert (Hd : forall mk s, Inv s -> good (dom i <- new_item mk; ret (Some (i, 0%Z))) s).
    { intros mk s0 H0. apply good_bind; [now apply good_new|]. intros i s1 _ H1. now apply good_ret. }
    assert (Hinh : forall k0 locs a st, (k0 = KInherit \/ k0 = KInheritGlob) -> statement e f k0 mt ->
        incl locs ["classes"; "classes-recipe"; "classes-global"] ->
        good (dom inhname <- liftR (fun s => expand_term e s f (group_str "inhname" mt));
       dom r <- inherit_loop e addf locs f inhname line (keep_nonempty (split_char cSP inhname)) [] 0%Z;
       dom i <- new_item (fun n => mk_item (p n) (ip_new (p n)) (PInherit a st (fst r)));
       ret (Some (i, snd r))) s).
    { intros k0 locs a st Hk0 Hst0 Hlocs. apply good_bind; [apply good_lift; [exact H|apply Hexp]|].
      intros inh s1 E1 H1. unfold liftR in E1. inversion E1 as [[E2 E3]]. apply good_bind.
      - apply (inherit_good locs line inh k0 mt s Hk0 Hst0 E2 Hlocs); [|exact H1].
        intros y Hy. unfold keep_nonempty in Hy. apply filter_In in Hy. apply Hy.
      - intros r s2 _ H2. apply good_bind; [now apply good_new|]. intros i s3 _ H3. now apply good_ret. }
    destruct k; unfold handle; cbv zeta; try (now apply Hd).
    - apply (Hinh KInherit); [now left|exact Hst|intros y Hy; exact Hy].
    - apply (Hinh KInheritGlob); [now right|exact Hst|]. intros y [<-|[<-|[]]]; cbn; tauto.
    - apply good_bind; [apply good_lift; [exact H|apply Hexp]|]. intros inc s1 E1 H1.
      unfold liftR in E1. inversion E1 as [[E2 E3]]. clear E1.
      apply good_bind; [now apply find_m_good|]. intros path s2 E4 H2. unfold find_m in E4.
      destruct (find_local_or_layer _ _ _ _) as [q|] eqn:Eq; [|discriminate]. inversion E4; subst. clear E4.
      assert (Hfin : forall (z : Z) mk s, Inv s -> good (dom i <- new_item mk; ret (Some (i, z))) s).
      { intros z mk s0 H0. apply good_bind; [now apply good_new|]. intros i s3 _ H3. now apply good_ret. }
      destruct path as [|c path]; [now apply Hfin|].
      apply good_bind; [apply good_lift; [exact H2|exact I]|]. intros ign s3 _ H3. destruct ign; [now apply good_ret|].
      apply good_bind; [|intros tmp s4 _ H4; now apply Hfin].
      apply Haddf; [exact H3|]. left. exists mt. eexists. exists inc. split; [exact Hst|]. split; [exact E2|].
      exists (c :: path). split; [exact Eq|]. split; [discriminate|reflexivity].
    - destruct (existsb _ _); [now apply good_ret|now apply Hd].
  Qed.

  Lemma try_good : forall p line cnt l s, Inv s ->
    (forall k r mt, In (k, r) l -> re_match r cnt = Some mt -> statement e f k mt) ->
    good (try_kinds e addf p f line cnt l) s.
  Proof.
    intros p line cnt l. induction l as [|[k r] l IH]; intros s H Hst; cbn [try_kinds].
    - apply good_bind; [now apply good_new|]. intros i s1 _ H1. now apply good_ret.
    - destruct (re_match r cnt) as [mt|] eqn:E.
      + apply good_bind.
        * apply handle_good; [|exact H]. eapply Hst; [now left|exact E].
        * intros o s1 _ H1. destruct o; [now apply good_ret|]. apply IH; [exact H1|].
          intros k0 r0 mt0 Hi. apply Hst. now right.
      + apply IH; [exact H|]. intros k0 r0 mt0 Hi. apply Hst. now right.
  Qed.

  Lemma chunks_good : forall off neg cs0 lo, prepare_file e f lo neg = Ok cs0 -> forall cs inc new s,
    incl cs cs0 -> Inv s -> good (parse_chunks e addf f off inc new cs) s.
  Proof.
    intros off neg cs0 lo Hp cs. induction cs as [|c cs IH]; intros inc new s Hi H; cbn [parse_chunks]; [now apply good_ret|].
    cbv zeta. apply good_bind.
    - apply try_good; [exact H|]. intros k r mt Hk Hm. exists lo, neg, cs0, c, r.
      split; [exact Hp|]. split; [apply Hi; now left|]. split; [exact Hk|exact Hm].
    - intros x s1 _ H1. apply good_bind; [|intros l s2 _ H2; now apply good_ret].
      apply IH; [|exact H1]. intros y Hy. apply Hi. now right.
  Qed.

  Lemma items_good : forall off s, Inv s -> good (get_items e addf f off) s.
  Proof.
    intros off s H. unfold get_items. apply good_bind.
    - apply good_lift; [exact H|apply Hprep].
    - intros cs s1 E1 H1. unfold liftR in E1. inversion E1 as [[E2 E3]]. subst s1.
      apply good_bind; [apply good_lift; [exact H|exact I]|]. intros new s2 _ H2.
      eapply chunks_good; [exact E2| |exact H2]. intros y Hy. exact Hy.
  Qed.
End Ends.

Lemma parsed_origin : forall file off cs inc new l, parsed file off inc new cs l -> Forall (fun i => it_origin i = file) l.
Proof.
  intros file off cs. induction cs as [|c cs IH]; intros inc new l Hp; destruct l as [|i l]; simpl in Hp; try contradiction; constructor.
  - apply Hp.
  - destruct Hp as [_ [_ [_ [_ [_ [_ [_ [_ [d [_ Hp]]]]]]]]]]. eapply IH. exact Hp.
Qed.

Lemma fine_NoFuel : forall A (r : Res.res A), fine True (fun _ => True) r <-> r <> NoFuel.
Proof. intros A [a|ex|]; cbn; split; auto; try discriminate; intro H; now apply H. Qed.

(** Why the end of AddFile may raise (cls_stash.py:184-229). *)
Definition leave_cause (file : str) (s : stash) (ex : exn) : Prop :=
  (ex = RegexUnsupported /\ endswith ".bbappend" file = true /\ dyn_pattern (append_pattern file) = None) \/
  (ex = RegexUnsupported /\ exists i, In i (st_list s) /\ endswith ".bbappend" (it_origin i) = true /\
     dyn_pattern (recipe_pattern (it_origin i)) = None) \/
  ~ names_ok (st_const s).

Lemma link_recipe_fine : forall T file bn mx l mp, fine T (fun ex => ex = RegexUnsupported /\
    exists i, In i l /\ endswith ".bbappend" (it_origin i) = true /\ dyn_pattern (recipe_pattern (it_origin i)) = None)
  (link_recipe file bn mx l mp).
Proof.
  intros T file bn mx l. induction l as [|i l IH]; intro mp; cbn [link_recipe]; [exact I|].
  assert (Hk : forall mp' (g : list item * list (str * list str) -> list item * list (str * list str)),
    fine T (fun ex => ex = RegexUnsupported /\ exists j, In j (i :: l) /\ endswith ".bbappend" (it_origin j) = true /\
       dyn_pattern (recipe_pattern (it_origin j)) = None) (do x <- link_recipe file bn mx l mp'; Ok (g x))).
  { intros mp' g. specialize (IH mp'). destruct (link_recipe file bn mx l mp') as [x|ex|]; cbn in *; [exact I| |exact IH].
    destruct IH as [-> [j [J1 J2]]]. split; [reflexivity|]. exists j. split; [now right|exact J2]. }
  destruct (endswith ".bbappend" (it_origin i)) eqn:Ei.
  - destruct (dyn_pattern (recipe_pattern (it_origin i))) eqn:Ed.
    + destruct (matched _); [apply (Hk _ (fun x => (_ :: fst x, snd x)))|apply (Hk _ (fun x => (i :: fst x, snd x)))].
    + split; [reflexivity|]. exists i. split; [now left|]. split; [exact Ei|exact Ed].
  - apply (Hk _ (fun x => (i :: fst x, snd x))).
Qed.

Lemma add_names_fuel : forall key confs s, fst (add_names key confs s) <> NoFuel.
Proof.
  intros key confs. unfold add_names. induction confs as [|c0 confs IH]; intro s0; [discriminate|].
  destruct (add_constants _ _) as [db [ex|]]; [discriminate|apply IH].
Qed.
Lemma distro_fine : forall (T : Prop) e file s,
  (T -> get_layer_root (S (length file)) (e_fs e) file <> None) ->
  fine T (fun _ => ~ names_ok (st_const s)) (fst (add_distro_machine e file s)).
Proof.
  intros T e file s Hr. destruct (add_distro_machine e file s) as [r s'] eqn:E. destruct r as [u|ex|]; cbn; [exact I| |].
  - intro Hn. destruct (add_distro_named e file s _ s' Hn E) as [[H _]|[H _]]; discriminate.
  - intro t. apply (Hr t). unfold add_distro_machine in E. destruct (get_layer_root _ _ _) as [[|c root]|]; [discriminate| |reflexivity].
    exfalso. unfold bindM in E. destruct (add_names "distros" _ s) as [[u1|ex1|] s1] eqn:E1.
    + pose proof (add_names_fuel "machines" (fs_glob (e_fs e) (path_join (path_join (path_join (c :: root) "conf") "machine") "*.conf")) s1) as H.
      rewrite E in H. now apply H.
    + discriminate.
    + pose proof (add_names_fuel "distros" (fs_glob (e_fs e) (path_join (path_join (path_join (c :: root) "conf") "distro") "*.conf")) s) as H.
      rewrite E1 in H. now apply H.
Qed.

Lemma fine_impl : forall A (T : Prop) (P Q : exn -> Prop) (r : Res.res A), fine T P r -> (forall ex, P ex -> Q ex) -> fine T Q r.
Proof. intros A T P Q [a|ex|] H Hi; cbn in *; auto. Qed.

Lemma leave_fine : forall (T : Prop) e file forced items s,
  (T -> get_layer_root (S (length file)) (e_fs e) file <> None) ->
  fine T (leave_cause file s) (fst (leave e file forced items s)).
Proof.
  intros T e file forced items s Hr. unfold leave. unfold bindM at 1. unfold bindM at 1.
  destruct (match_appends file items (with_map (link_file file forced (st_map s)) s)) as [[items2|ex|] s2] eqn:Em.
  - assert (Hc : st_const s2 = st_const s).
    { unfold match_appends in Em. destruct (endswith ".bbappend" file).
      - destruct (dyn_pattern _); [|discriminate]. destruct (fold_left _ _ _). inversion Em. reflexivity.
      - destruct (endswith ".bb" file); [|inversion Em; reflexivity].
        destruct (link_recipe _ _ _ _ _) as [[l mp]|ex|]; inversion Em. reflexivity. }
    unfold bindM at 1. pose proof (distro_fine T e file s2 Hr) as Hd. rewrite Hc in Hd.
    destruct (add_distro_machine e file s2) as [[u|ex|] s3]; cbn in *; [exact I| |exact Hd].
    right. right. exact Hd.
  - cbn. unfold match_appends in Em. destruct (endswith ".bbappend" file) eqn:Eb.
    + destruct (dyn_pattern (append_pattern file)) eqn:Ed; [destruct (fold_left _ _ _); discriminate|].
      inversion Em. left. split; [reflexivity|]. split; [exact Eb|exact Ed].
    + destruct (endswith ".bb" file); [|discriminate].
      cbn [st_list st_map with_map] in Em.
      pose proof (link_recipe_fine T file (replace ".bb" [] (basename file)) (max_line items) (st_list s) (link_file file forced (st_map s))) as Hl.
      destruct (link_recipe _ _ _ _ _) as [[l mp]|ex'|]; inversion Em. subst. right. left. exact Hl.
  - cbn. unfold match_appends in Em. destruct (endswith ".bbappend" file).
    + destruct (dyn_pattern _); [destruct (fold_left _ _ _); discriminate|discriminate].
    + destruct (endswith ".bb" file); [|discriminate]. cbn [st_list st_map with_map] in Em.
      pose proof (link_recipe_fine T file (replace ".bb" [] (basename file)) (max_line items) (st_list s) (link_file file forced (st_map s))) as Hl.
      destruct (link_recipe _ _ _ _ _) as [[l mp]|ex'|]; inversion Em. exact Hl.
Qed.

(** *** Files still to be read *)

Definition rereadable_b (g : str) : bool := mem_str (snd (splitext g)) [".inc"; ".bb"; ".conf"].
Definition skip_file (g : str) (s : stash) : bool :=
  (mem_str g (st_seen s) && negb (mem_str (snd (splitext g)) multi_exts)) || mem_str g (st_seenc s).
Definition is_open (s : stash) (g : str) : bool := negb (rereadable_b g) && negb (skip_file g s).
Lemma is_open_eq : forall s g, is_open s g = negb (rereadable_b g) && negb (skip_file g s).
Proof. reflexivity. Qed.
Definition unread (F : list str) (s : stash) : nat := length (filter (is_open s) F).

Lemma rereadable_iff : forall g, rereadable_b g = true <-> rereadable g.
Proof. intro g. exact (mem_str_In _ _). Qed.

Definition seen_more (p : list item) (s s' : stash) : Prop :=
  incl (st_seen s) (st_seen s') /\ incl (st_seenc s) (st_seenc s').
Lemma seen_more_skip : forall p s s' g, seen_more p s s' -> skip_file g s = true -> skip_file g s' = true.
Proof.
  intros p s s' g [H1 H2] H. unfold skip_file in *. apply orb_true_iff in H. apply orb_true_iff.
  destruct H as [H|H].
  - left. apply andb_prop in H. destruct H as [Ha Hb]. apply andb_true_intro. split; [|exact Hb].
    apply (proj2 (mem_str_In _ _)). apply H1. exact (proj1 (mem_str_In _ _) Ha).
  - right. apply (proj2 (mem_str_In _ _)). apply H2. exact (proj1 (mem_str_In _ _) H).
Qed.
Lemma unread_le : forall p F s s', seen_more p s s' -> unread F s' <= unread F s.
Proof.
  intros p F s s' H. unfold unread. induction F as [|g F IH]; [cbn; lia|]. cbn [filter].
  rewrite !is_open_eq. destruct (rereadable_b g); cbn [negb andb]; [exact IH|].
  destruct (skip_file g s) eqn:E.
  - rewrite (seen_more_skip p s s' g H E). cbn. exact IH.
  - destruct (skip_file g s'); cbn [negb andb length]; lia.
Qed.
Lemma unread_lt : forall p F s s' g, seen_more p s s' -> In g F -> rereadable_b g = false -> skip_file g s = false ->
  skip_file g s' = true -> unread F s' < unread F s.
Proof.
  intros p F s s' g H Hi Hr H1 H2. unfold unread. induction F as [|x F IH]; [destruct Hi|].
  destruct Hi as [->|Hi].
  - cbn [filter]. rewrite !is_open_eq. rewrite Hr, H1, H2. cbn [negb andb length].
    pose proof (unread_le p F s s' H) as Hle. unfold unread in Hle. lia.
  - specialize (IH Hi). cbn [filter]. rewrite !is_open_eq. destruct (rereadable_b x); cbn [negb andb]; [exact IH|].
    destruct (skip_file x s) eqn:E.
    + rewrite (seen_more_skip p s s' x H E). cbn. exact IH.
    + destruct (skip_file x s'); cbn [negb andb length]; lia.
Qed.

Lemma enter_more : forall g s, seen_more [] s (enter g s).
Proof.
  intros g s. unfold seen_more, enter. cbn. split.
  - intros y Hy. apply add_set_In. now right.
  - destruct (str_eqb _ _); [|intros y Hy; exact Hy]. intros y Hy. apply add_set_In. now right.
Qed.
Lemma enter_skip : forall g s, rereadable_b g = false -> skip_file g (enter g s) = true.
Proof.
  intros g s H. unfold skip_file, enter. apply orb_true_iff. destruct (str_eqb (snd (splitext g)) ".bbclass") eqn:E.
  - right. apply (proj2 (mem_str_In _ _)). apply add_set_In. now left.
  - left. apply andb_true_intro. split.
    + apply (proj2 (mem_str_In _ _)). apply add_set_In. now left.
    + unfold rereadable_b in H. unfold multi_exts. cbn [mem_str existsb] in *. rewrite E.
      apply negb_true_iff. rewrite !orb_false_r in *. exact H.
Qed.

Lemma add_file_more : forall n e path off forced s r s', add_file n e path off forced s = (r, s') -> seen_more [] s s'.
Proof.
  intros n e path off forced s r s' H.
  replace (@nil item) with (pend (@none (list item)) r) by (destruct r; reflexivity).
  assert (Ht : forall p q s1 s2 s3, seen_more p s1 s2 -> seen_more q s2 s3 -> seen_more (p ++ q) s1 s3).
  { intros p q s1 s2 s3 [A1 A2] [B1 B2]. split; eapply incl_tran; eassumption. }
  eapply (rel_add_file e seen_more); try exact H; clear H.
  - intro s0. split; apply incl_refl.
  - exact Ht.
  - intros p s0 s1 Hm. exact Hm.
  - intros s0 i _ _. split; apply incl_refl.
  - intros s0 p _. apply enter_more.
  - intros s0 s1 p fc items r0 s2 file _ _ Hg E. apply leave_cases in E.
    destruct E as [g [l [_ [_ [_ [_ [_ [_ [E1 [E2 _]]]]]]]]]]. apply (Ht [] [] s0 (enter file s0)); [apply enter_more|].
    destruct Hg as [G1 G2]. split; [rewrite E1; exact G1|rewrite E2; exact G2].
Qed.

Lemma ends_lemma : forall e F rank (Q : exn -> Prop) (Inv : stash -> Prop), env_ok e -> fs_isdir (e_fs e) [] = false ->
  (forall f, In f F -> startswith [cSL; cSL] f = false) -> ranked e F rank ->
  (forall f s v, In f F -> fine True Q (expand_term e s f v)) ->
  (forall f off neg, In f F -> fine True Q (prepare_file e f off neg)) ->
  (forall k s, Inv s -> Inv (with_next k s)) -> (forall f s, In f F -> Inv s -> Inv (enter f s)) ->
  (forall f s ex, In f F -> Inv s -> leave_cause f s ex -> Q ex) ->
  (forall f fc items s, In f F -> Inv s -> Forall (fun i => it_origin i = f) items -> Inv (snd (leave e f fc items s))) ->
  let R := list_max (map rank F) in
  forall n path off forced s, In (abspath (fs_cwd (e_fs e)) path) F -> Inv s ->
  (skipped e path s = true /\ 1 <= n) \/
  unread F (enter (abspath (fs_cwd (e_fs e)) path) s) * S R + rank (abspath (fs_cwd (e_fs e)) path) + 2 <= n ->
  fine True Q (fst (add_file n e path off forced s)) /\ Inv (snd (add_file n e path off forced s)).
Proof.
  intros e F rank Q Inv He Hd Hs [Hcl Hrk] Hex Hpr Hnx Hen Hca Hlv R.
  assert (HR : forall g, In g F -> rank g <= R).
  { intros g Hg. pose proof (proj1 (list_max_le (map rank F) R) (le_n _)) as Hm. rewrite Forall_forall in Hm.
    apply Hm. now apply in_map. }
  induction n as [|n IH]; intros path off forced s HF Hi Hn; [destruct Hn as [[_ Hn]|Hn]; lia|].
  rewrite add_file_eq. cbv zeta. destruct (skipped e path s) eqn:Es; [split; [exact I|exact Hi]|].
  destruct Hn as [[Hn _]|Hn]; [discriminate|].
  set (file := abspath (fs_cwd (e_fs e)) path) in *. unfold bindM.
  set (u := unread F (enter file s)) in *.
  assert (G : good True Q (fun s1 => unread F s1 <= u /\ Inv s1) (get_items e (fun p o f => add_file n e p o (Some f)) file off) (enter file s)).
  { apply items_good.
    - intros s0 v. now apply Hex.
    - intros o neg. now apply Hpr.
    - intros _. apply find_local_some; [exact Hd|now apply Hs].
    - intros k s0 [H0 H1]. split; [exact H0|now apply Hnx].
    - intros p o fl s0 [H0 H1] Hp.
      assert (HH : fine True Q (fst (add_file n e p o (Some fl) s0)) /\ Inv (snd (add_file n e p o (Some fl) s0))).
      { pose proof (Hcl _ _ HF Hp) as Hg. apply IH; [exact Hg|exact H1|].
        destruct (skipped e p s0) eqn:Esk; [left; split; [reflexivity|lia]|]. right.
        set (g := abspath (fs_cwd (e_fs e)) p) in *.
        pose proof (HR g Hg) as Hrg.
        pose proof (unread_le [] F s0 (enter g s0) (enter_more g s0)) as Hle.
        destruct (rereadable_b g) eqn:Er.
        * assert (Hlt : rank g < rank file) by (apply Hrk; [exact HF|exact Hp|now apply rereadable_iff]).
          assert (unread F (enter g s0) * S R <= u * S R) by (apply Nat.mul_le_mono_r; lia). lia.
        * assert (Hlt : unread F (enter g s0) < unread F s0).
          { apply (unread_lt [] F s0 (enter g s0) g); [apply enter_more|exact Hg|exact Er|exact Esk|now apply enter_skip]. }
          assert (Hm : S (unread F (enter g s0)) * S R <= u * S R) by (apply Nat.mul_le_mono_r; lia).
          rewrite Nat.mul_succ_l in Hm. lia. }
      split; [apply HH|]. split; [|apply HH].
      destruct (add_file n e p o (Some fl) s0) as [r0 s1] eqn:E. cbn. apply add_file_more in E.
      pose proof (unread_le [] F s0 s1 E). lia.
    - split; [unfold u; lia|now apply Hen]. }
  destruct G as [G1 [_ G2]]. destruct (get_items _ _ _ _ _) as [[items|ex|] s1] eqn:Eg; [|split; [exact G1|exact G2]|split; [exact G1|exact G2]].
  cbn [fst snd] in G1, G2. split.
  - eapply fine_impl; [apply leave_fine; intros _; apply layer_root_some; [exact Hd|now apply Hs]|].
    intros ex Hc. eapply Hca; [exact HF|exact G2|exact Hc].
  - apply Hlv; [exact HF|exact G2|]. apply get_items_sat in Eg; [|apply add_file_addf_ok].
    destruct Eg as [cs [_ Hp]]. exact (parsed_origin _ _ _ _ _ _ Hp).
Qed.

(** The same without a bound on the files: what a call may raise. *)
Lemma raises_lemma : forall e (P : str -> Prop) (Q : exn -> Prop) (Inv : stash -> Prop),
  (forall f g, P f -> pulls e f g -> P g) ->
  (forall f s v, P f -> fine False Q (expand_term e s f v)) ->
  (forall f off neg, P f -> fine False Q (prepare_file e f off neg)) ->
  (forall k s, Inv s -> Inv (with_next k s)) -> (forall f s, P f -> Inv s -> Inv (enter f s)) ->
  (forall f s ex, P f -> Inv s -> leave_cause f s ex -> Q ex) ->
  (forall f fc items s, P f -> Inv s -> Forall (fun i => it_origin i = f) items -> Inv (snd (leave e f fc items s))) ->
  forall n path off forced s, P (abspath (fs_cwd (e_fs e)) path) -> Inv s ->
  fine False Q (fst (add_file n e path off forced s)) /\ Inv (snd (add_file n e path off forced s)).
Proof.
  intros e P Q Inv Hcl Hex Hpr Hnx Hen Hca Hlv.
  induction n as [|n IH]; intros path off forced s HF Hi; [split; [intros []|exact Hi]|].
  rewrite add_file_eq. cbv zeta. destruct (skipped e path s) eqn:Es; [split; [exact I|exact Hi]|].
  set (file := abspath (fs_cwd (e_fs e)) path) in *. unfold bindM.
  assert (G : good False Q Inv (get_items e (fun p o f => add_file n e p o (Some f)) file off) (enter file s)).
  { apply items_good.
    - intros s0 v. now apply Hex.
    - intros o neg. now apply Hpr.
    - intros [].
    - exact Hnx.
    - intros p o fl s0 H0 Hp. apply IH; [|exact H0]. eapply Hcl; [exact HF|exact Hp].
    - now apply Hen. }
  destruct G as [G1 G2]. destruct (get_items _ _ _ _ _) as [[items|ex|] s1] eqn:Eg; [|split; [exact G1|exact G2]|split; [exact G1|exact G2]].
  cbn [fst snd] in G1, G2. split.
  - eapply fine_impl; [apply leave_fine; intros []|]. intros ex Hc. eapply Hca; [exact HF|exact G2|exact Hc].
  - apply Hlv; [exact HF|exact G2|]. apply get_items_sat in Eg; [|apply add_file_addf_ok].
    destruct Eg as [cs [_ Hp]]. exact (parsed_origin _ _ _ _ _ _ Hp).
Qed.

Lemma C40_lemma : forall e F rank path off forced s, env_ok e -> fs_isdir (e_fs e) [] = false ->
  ranked e F rank -> (forall f, In f F -> startswith [cSL; cSL] f = false) -> In (abspath (fs_cwd (e_fs e)) path) F ->
  exists n, forall m, n <= m -> fst (add_file m e path off forced s) <> NoFuel.
Proof.
  intros e F rank path off forced s He Hd Hr Hs HF. eexists. intros m Hm. apply fine_NoFuel.
  refine (proj1 (ends_lemma e F rank (fun _ => True) (fun _ => True) He Hd Hs Hr _ _ _ _ _ _ m path off forced s HF I (or_intror Hm))); auto.
  - intros f s0 v _. apply fine_NoFuel. intro E.
    destruct (C42_lemma e s0 f v [] [] None He) as [[w Hw]|Hw]; unfold expand_term in E; congruence.
  - intros f o neg _. apply fine_NoFuel. unfold prepare_file. destruct (fs_read _ _); try discriminate. apply prepare_text_fuel.
Qed.
