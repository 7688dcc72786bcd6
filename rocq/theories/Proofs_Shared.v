(** * Stashes that share the constants: proofs *)

From Coq Require Import Lia.
From Verif Require Import PyStr Regex Patterns PyPath Res Inline Const Item Lines Stash StrFacts Spec_Const ConstFacts Proofs_Const
  HistFacts ReachFacts Cache Spec_Cache Proofs_Cache Many Spec_Many Proofs_Many Shared.

(** ** Databases that differ in distros and machines only *)

Definition alike (db db' : cval) : Prop :=
  names_ok db /\ names_ok db' /\ forall p, elsewhere p -> at_path p db' = at_path p db.
Lemma alike_refl : forall db, names_ok db -> alike db db.
Proof. intros db H. split; [exact H|]. split; [exact H|]. reflexivity. Qed.
Lemma alike_sym : forall a b, alike a b -> alike b a.
Proof. intros a b (H1 & H2 & H3). split; [exact H2|]. split; [exact H1|]. intros p Hp. symmetry. now apply H3. Qed.
Lemma alike_trans : forall a b c, alike a b -> alike b c -> alike a c.
Proof. intros a b c (H1 & H2 & H3) (K1 & K2 & K3). split; [exact H1|]. split; [exact K2|]. intros p Hp. rewrite K3, H3; auto. Qed.
Lemma named_alike : forall ds ms db db', names_ok db -> named ds ms db db' -> alike db db'.
Proof. intros ds ms db db' H (N1 & N2 & _). split; [exact H|]. split; [exact N1|exact N2]. Qed.

Lemma elsewhere_key : forall k, str_eqb k "replacements" = false -> elsewhere [k].
Proof.
  intros k E. split; [cbn [at_path dget]; now rewrite E|]. intros q r v Eq Hq.
  destruct q as [|k3 q]; [inversion Hq; eexists; reflexivity|]. inversion Eq; subst k3.
  cbn [at_path dget] in Hq. rewrite E in Hq. discriminate.
Qed.
Lemma walk_alike : forall a b k r, alike a b -> str_eqb k "replacements" = false -> cval_walk (k :: r) b = cval_walk (k :: r) a.
Proof.
  intros a b k r ([[d ->] _] & [[d' ->] _] & H) E. cbn [cval_walk cval_step bind]. specialize (H [k] (elsewhere_key k E)).
  cbn [at_path] in H. destruct (dget k d) as [x|], (dget k d') as [y|]; try discriminate; [now injection H as ->|reflexivity].
Qed.
Lemma getters_alike : forall a b, alike a b ->
  functions_known b = functions_known a /\ class_ignore b = class_ignore a /\ include_ignore b = include_ignore a /\
  images_classes b = images_classes a /\ images_variables b = images_variables a /\ sets_base b = sets_base a.
Proof.
  intros a b H.
  assert (G : forall (p k : str) r, split_char 47 (rstrip "/" p) = k :: r -> str_eqb k "replacements" = false ->
    get_by_path p b = get_by_path p a) by (intros p k r Ep Ek; unfold get_by_path; rewrite Ep; now apply walk_alike).
  repeat split; unfold functions_known, class_ignore, include_ignore, images_classes, images_variables, sets_base,
    FunctionsKnown, ClassIgnore, IncludeIgnore, ImagesClasses, ImagesVariables, SetsBase;
    (erewrite G; [reflexivity|vm_compute; reflexivity|vm_compute; reflexivity]).
Qed.

(** ** Expansion *)

Lemma fold_res_ext : forall {A B} (f g : A -> B -> Res.res A) l a, (forall a x, f a x = g a x) -> fold_res f l a = fold_res g l a.
Proof. intros A B f g l. induction l as [|x l IH]; intros a H; cbn [fold_res]; [reflexivity|]. rewrite H. destruct (g a x); cbn; auto. Qed.
Lemma expand_one_ext : forall e s db file rec rec' spare quote x mt, sets_base db = sets_base (st_const s) ->
  (forall v sn, rec v sn = rec' v sn) ->
  expand_one e (with_const db s) file rec spare quote x mt = expand_one e s file rec' spare quote x mt.
Proof.
  intros e s db file rec rec' spare quote [res seen] mt Eb H. unfold expand_one.
  destruct (mem_str (group_str "1" mt) spare); [reflexivity|]. change (st_const (with_const db s)) with db. rewrite Eb.
  change (first_definition e (with_const db s) file (group_str "1" mt)) with (first_definition e s file (group_str "1" mt)).
  destruct (first_definition e s file (group_str "1" mt)).
  - destruct (dget (group_str "1" mt) seen); [reflexivity|]. now rewrite H.
  - destruct (dget (group_str "1" mt) (sets_base (st_const s))); [|reflexivity].
    destruct (dget (group_str "1" mt) seen); [reflexivity|]. now rewrite H.
Qed.
Lemma expand_alike : forall e s db file, sets_base db = sets_base (st_const s) -> forall vf lf spare v seen,
  expand_f vf e (with_const db s) file lf spare v seen = expand_f vf e s file lf spare v seen.
Proof.
  intros e s db file Eb vf. induction vf as [|vf IHv]; intro lf; (induction lf as [|lf IHl]; intros spare v seen; cbn [expand_f]).
  1,2: set (rec := fun (_ : str) (_ : seen_t) => @NoFuel (str * seen_t)).
  3,4: set (rec := fun (cnt : str) (sn : seen_t) => expand_f vf e s file (length cnt) [] cnt sn).
  all: rewrite (fold_res_ext _ (expand_one e s file rec spare [])) by
     (intros a x; apply expand_one_ext; [exact Eb|]; first [reflexivity|intros w sn; apply IHv]);
   match goal with |- bind ?a _ = bind ?b _ => change a with b; destruct b as [x1| |]; cbn [bind]; try reflexivity end;
   rewrite (fold_res_ext _ (expand_one e s file rec spare [cDQ])) by
     (intros a x; apply expand_one_ext; [exact Eb|]; first [reflexivity|intros w sn; apply IHv]);
   match goal with |- bind ?a _ = bind ?b _ => change a with b; destruct b as [x2| |]; cbn [bind]; try reflexivity end;
   apply fold_res_ext; intros [a sn] x; unfold read_file_one; try reflexivity; now rewrite IHl.
Qed.
Lemma term_alike : forall e s db file v, sets_base db = sets_base (st_const s) ->
  expand_term e (with_const db s) file v = expand_term e s file v.
Proof.
  intros e s db file v Eb. unfold expand_term, expand_term_full, expand_seen, expand_fuel.
  change (st_list (with_const db s)) with (st_list s). change (st_const (with_const db s)) with db. rewrite Eb.
  now rewrite expand_alike.
Qed.

(** ** What AddFile reads of the database *)

Section Sim.
(** Databases that have the same at the places that AddFile reads. *)
Context (R : cval -> cval -> Prop).
Context (R_names : forall a b, R a b -> names_ok a /\ names_ok b).
Context (R_reads : forall a b, R a b ->
  functions_known b = functions_known a /\ class_ignore b = class_ignore a /\ include_ignore b = include_ignore a /\
  sets_base b = sets_base a).
Context (R_named : forall d1 m1 d2 m2 a a' b b', R a b -> named d1 m1 a a' -> named d2 m2 b b' -> R a' b').

(** What [m] does is the same with another database, up to the database. *)
Definition sim {A} (m : M A) : Prop := forall s db, R (st_const s) db ->
  exists db2, m (with_const db s) = (fst (m s), with_const db2 (snd (m s))) /\ R (st_const (snd (m s))) db2.

Lemma sim_ret : forall A (a : A), sim (ret a).
Proof. intros A a s db H. exists db. now split. Qed.
Lemma sim_lift : forall A (f : stash -> Res.res A), (forall s db, R (st_const s) db -> f (with_const db s) = f s) -> sim (liftR f).
Proof. intros A f Hf s db H. exists db. unfold liftR. rewrite (Hf s db H). now split. Qed.
Lemma sim_bind : forall A B (x : M A) (f : A -> M B), sim x -> (forall a, sim (f a)) -> sim (bindM x f).
Proof.
  intros A B x f Hx Hf s db H. destruct (Hx s db H) as (db1 & E1 & H1). unfold bindM. rewrite E1.
  destruct (x s) as [[a|ex|] s1]; cbn [fst snd] in H1 |- *; [now apply Hf|exists db1; now split|exists db1; now split].
Qed.
Lemma sim_find : forall e n d, sim (find_m e n d).
Proof. intros e n d s db H. exists db. unfold find_m. destruct (find_local_or_layer _ _ _ _); now split. Qed.
Lemma sim_find_class : forall e locs i d, sim (find_class e locs i d).
Proof.
  intros e locs i d. induction locs as [|l locs IH]; cbn [find_class]; [apply sim_ret|].
  apply sim_bind; [apply sim_find|]. intros [|c p]; [exact IH|apply sim_ret].
Qed.
Lemma sim_new : forall mk, sim (new_item mk).
Proof. intros mk s db H. exists db. now split. Qed.
Definition sim_addf (addf : addfile_t) : Prop := forall p o f, sim (addf p o f).

Lemma sim_inherit : forall e addf locs file inhname line l paths off, sim_addf addf ->
  sim (inherit_loop e addf locs file inhname line l paths off).
Proof.
  intros e addf locs file inhname line l. induction l as [|x l IH]; intros paths off Ha; cbn [inherit_loop]; [apply sim_ret|].
  apply sim_bind; [apply sim_find_class|]. intros [|c p]; [now apply IH|].
  apply sim_bind; [|intros [|]; [now apply IH|]; apply sim_bind; [apply Ha|intro; now apply IH]].
  apply sim_lift. intros s db H. cbn [st_const with_const]. destruct (R_reads _ _ H) as (_ & G & _). now rewrite G.
Qed.
Lemma sim_handle : forall e addf p file line k mt, sim_addf addf -> sim (handle e addf p file line k mt).
Proof.
  intros e addf p file line k mt Ha.
  assert (N : forall B mk (g : item -> B), sim (dom i <- new_item mk; ret (g i)))
    by (intros; apply sim_bind; [apply sim_new|intro; apply sim_ret]).
  assert (T : forall v, sim (liftR (fun s => expand_term e s file v)))
    by (intro v; apply sim_lift; intros s db H; apply term_alike; apply (R_reads _ _ H)).
  assert (Hinh : forall locs a st, sim
      (dom inhname <- liftR (fun s => expand_term e s file a);
       dom r <- inherit_loop e addf locs file inhname line (keep_nonempty (split_char cSP inhname)) [] 0%Z;
       dom i <- new_item (fun n => mk_item (p n) (ip_new (p n)) (PInherit a st (fst r)));
       ret (Some (i, snd r)))).
  { intros locs a st. apply sim_bind; [apply T|]. intro inhname. apply sim_bind; [now apply sim_inherit|]. intro r. apply N. }
  destruct k; unfold handle; try apply Hinh; try apply N.
  - apply sim_bind; [|intro; apply N]. apply sim_lift. intros s db H. cbn [st_const with_const].
    destruct (R_reads _ _ H) as (G & _). now rewrite G.
  - apply sim_bind; [apply T|]. intro inc. apply sim_bind; [apply sim_find|]. intros [|c path]; [apply N|].
    apply sim_bind; [|intros [|]; [apply sim_ret|]; apply sim_bind; [apply Ha|intro; apply N]].
    apply sim_lift. intros s db H. cbn [st_const with_const]. destruct (R_reads _ _ H) as (_ & _ & G & _). now rewrite G.
  - destruct (existsb _ pkg_prefixes); [apply sim_ret|apply N].
Qed.
Lemma sim_try : forall e addf p file line cnt l, sim_addf addf -> sim (try_kinds e addf p file line cnt l).
Proof.
  intros e addf p file line cnt l Ha. induction l as [|[k r] l IH]; cbn [try_kinds].
  - apply sim_bind; [apply sim_new|intro; apply sim_ret].
  - destruct (re_match r cnt) as [mt|]; [|exact IH]. apply sim_bind; [now apply sim_handle|]. intros [x|]; [apply sim_ret|exact IH].
Qed.
Lemma sim_chunks : forall e addf file off cs inc new, sim_addf addf -> sim (parse_chunks e addf file off inc new cs).
Proof.
  intros e addf file off cs. induction cs as [|c cs IH]; intros inc new Ha; cbn [parse_chunks]; [apply sim_ret|].
  apply sim_bind; [now apply sim_try|]. intro x. apply sim_bind; [now apply IH|]. intro l. apply sim_ret.
Qed.
Lemma sim_items : forall e addf file off, sim_addf addf -> sim (get_items e addf file off).
Proof.
  intros e addf file off Ha. unfold get_items. apply sim_bind; [apply sim_lift; reflexivity|]. intro cs.
  apply sim_bind; [apply sim_lift; reflexivity|]. intro new. now apply sim_chunks.
Qed.
Lemma sim_appends : forall file items, sim (match_appends file items).
Proof.
  intros file items s db H. exists db. unfold match_appends. cbn [st_list st_map with_const].
  destruct (endswith ".bbappend" file).
  - destruct (dyn_pattern _) as [rx|]; [|now split]. destruct (fold_left _ _ _) as [mp mx]. now split.
  - destruct (endswith ".bb" file); [|now split]. destruct (link_recipe _ _ _ _ _) as [[l mp]|ex|]; now split.
Qed.
Lemma sim_distro : forall e path, sim (add_distro_machine e path).
Proof.
  intros e path s db H. destruct (add_distro_machine e path s) as [r s1] eqn:E1.
  destruct (add_distro_machine e path (with_const db s)) as [r2 s2] eqn:E2. cbn [fst snd].
  pose proof (add_distro_machine_only _ _ _ _ _ E1) as S1. pose proof (add_distro_machine_only _ _ _ _ _ E2) as S2.
  destruct (R_names _ _ H) as [N1 N2].
  exists (st_const s2).
  destruct (add_distro_named e path s r s1 N1 E1) as [[-> D1]|[-> D1]];
    destruct (add_distro_named e path (with_const db s) r2 s2 N2 E2) as [[-> D2]|[-> D2]].
  - split; [f_equal; rewrite S1; exact S2|].
    exact (R_named _ _ _ _ _ _ _ _ H D1 D2).
  - exfalso. unfold add_distro_machine in E1, E2. destruct (get_layer_root _ _ path) as [[|c root]|]; try discriminate.
    unfold bindM in E2. destruct (add_names "distros" _ (with_const db s)) as [r1 t1] eqn:E3.
    apply add_names_named in E3; [|now left|exact N2]. destruct E3 as [-> E3].
    apply add_names_named in E2; [|right; now left|apply E3]. destruct E2 as [E2 _]. discriminate.
  - exfalso. unfold add_distro_machine in E1, E2. destruct (get_layer_root _ _ path) as [[|c root]|]; try discriminate.
    unfold bindM in E1. destruct (add_names "distros" _ s) as [r1 t1] eqn:E3.
    apply add_names_named in E3; [|now left|exact N1]. destruct E3 as [-> E3].
    apply add_names_named in E1; [|right; now left|apply E3]. destruct E1 as [E1 _]. discriminate.
  - subst. split; [reflexivity|exact H].
Qed.

Lemma sim_add : forall n e path off forced, sim (add_file n e path off forced).
Proof.
  induction n as [|n IH]; intros e path off forced; [intros s db H; exists db; now split|].
  intros s db H. cbn [add_file]. cbv zeta. cbn [st_seen st_seenc with_const].
  destruct (_ && _); [exists db; now split|]. destruct (mem_str _ (st_seenc s)); [exists db; now split|].
  set (file := abspath (fs_cwd (e_fs e)) path). set (a := add_set file (st_seen s)).
  set (b := if str_eqb _ _ then add_set file (st_seenc s) else st_seenc s).
  change (with_seen a b (with_const db s)) with (with_const db (with_seen a b s)).
  revert H. change (st_const s) with (st_const (with_seen a b s)). generalize (with_seen a b s) as s0. intros s0 H. revert s0 db H.
  apply sim_bind; [apply sim_items; intros p o f; apply IH|]. intro items.
  apply sim_bind; [intros s0 db0 H0; exists db0; now split|]. intros _.
  apply sim_bind; [apply sim_appends|]. intro items'. apply sim_bind; [apply sim_distro|]. intros _.
  apply sim_bind; [intros s0 db0 H0; exists db0; now split|]. intros _. apply sim_ret.
Qed.
End Sim.

(** AddFile does not read distros and machines. *)
Lemma sim_alike : forall n e path off forced, sim alike (add_file n e path off forced).
Proof.
  apply sim_add.
  - intros a b H. now split; apply H.
  - intros a b H. destruct (getters_alike _ _ H) as (G1 & G2 & G3 & _ & _ & G4). auto.
  - intros d1 m1 d2 m2 a a' b b' H D1 D2.
    apply (alike_trans _ a); [apply alike_sym; apply (named_alike _ _ _ _ (proj1 H) D1)|].
    apply (alike_trans _ b); [exact H|]. apply (named_alike _ _ _ _ (proj1 (proj2 H)) D2).
Qed.

(** ** One call *)

Lemma image_alike : forall e s db f t, alike (st_const s) db -> image_c e (with_const db s) f t = image_c e s f t.
Proof.
  intros e s db f t H. destruct (getters_alike _ _ H) as (_ & _ & _ & G1 & G2 & _).
  unfold image_c. change (st_const (with_const db s)) with db. rewrite G1, G2.
  assert (V : forall vs t0, image_vars_c e (with_const db s) f vs t0 = image_vars_c e s f vs t0).
  { induction vs as [|v vs IH]; intro t0; [reflexivity|]. cbn [image_vars_c].
    change (items_c e (with_const db s)) with (items_c e s). destruct (items_c e s _ t0) as [l t1]. now rewrite IH. }
  destruct (look str_eqb f (t_image t)); [reflexivity|]. change (inherits_c e (with_const db s) f t) with (inherits_c e s f t).
  destruct (inherits_c e s f t) as [l t1]. now rewrite V.
Qed.
Lemma remove_alike : forall l s db, remove_items l (with_const db s) = (fst (remove_items l s), with_const db (snd (remove_items l s))).
Proof.
  induction l as [|x l IH]; intros s db; [reflexivity|]. cbn [remove_items]. change (st_list (with_const db s)) with (st_list s).
  destruct (remove_first x (st_list s)) as [l'|]; [|reflexivity]. exact (IH (with_list l' s) db).
Qed.
Lemma marks_alike : forall e mp s db t,
  fold_left (mark_c e) mp (with_const db s, t) =
  (with_const db (fst (fold_left (mark_c e) mp (s, t))), snd (fold_left (mark_c e) mp (s, t))).
Proof.
  intros e mp. induction mp as [|kv mp IH]; intros s db t; [reflexivity|]. cbn [fold_left]. unfold mark_c at 2 4 6.
  change (items_c e (with_const db s) (file_query (fst kv)) t) with (items_c e s (file_query (fst kv)) t).
  destruct (items_c e s (file_query (fst kv)) t) as [l t1]. exact (IH (with_list (mark_items (map it_id l) (snd kv) (st_list s)) s) db t1).
Qed.
Lemma marks_const : forall e mp x, st_const (fst (fold_left (mark_c e) mp x)) = st_const (fst x).
Proof.
  intros e mp. induction mp as [|kv mp IH]; intros [s t]; [reflexivity|]. cbn [fold_left]. rewrite IH. unfold mark_c.
  now destruct (items_c e s (file_query (fst kv)) t).
Qed.
Lemma remove_const : forall l s, st_const (snd (remove_items l s)) = st_const s.
Proof. induction l as [|x l IH]; intro s; [reflexivity|]. cbn [remove_items]. destruct (remove_first x (st_list s)); [now rewrite IH|reflexivity]. Qed.

(** The same answer and the same tables; the database of the state before. *)
Lemma call_alike : forall e c s t db, alike (st_const s) db ->
  exists db2, call_c e c (with_const db s, t) =
    (fst (call_c e c (s, t)), (with_const db2 (fst (snd (call_c e c (s, t)))), snd (snd (call_c e c (s, t))))) /\
    alike (st_const (fst (snd (call_c e c (s, t))))) db2.
Proof.
  intros e c s t db H. destruct c; cbn [call_c].
  - destruct (sim_alike n e path off forced s db H) as (db2 & E & H2). rewrite E. exists db2.
    change (returns_early e path (with_const db s)) with (returns_early e path s).
    destruct (add_file n e path off forced s) as [[l|ex|] s1]; now split.
  - exists db. now split.
  - exists db. rewrite remove_alike. pose proof (remove_const l s) as R. destruct (remove_items l s) as [[u|ex|] s1]; cbn [fst snd] in *; rewrite R; now split.
  - exists db. unfold finalize_c. cbn [st_map with_const].
    destruct (link_all e (dkeys (st_map s)) (st_map s)) as [[u|ex|] mp]; [|now split|now split].
    pose proof (marks_alike e mp (with_map mp s) db t) as M. pose proof (marks_const e mp (with_map mp s, t)) as K.
    change (with_map mp (with_const db s)) with (with_const db (with_map mp s)). rewrite M.
    destruct (fold_left (mark_c e) mp (with_map mp s, t)) as [s1 t1]. cbn [fst snd] in K |- *. rewrite K. now split.
  - exists db. now split.
  - exists db. now split.
  - exists db. now split.
  - exists db. now split.
  - exists db. now split.
  - exists db. now split.
  - exists db. rewrite (image_alike e s db f t H). now split.
  - exists db. now split.
Qed.
Lemma clears_alike : forall e c b s db, alike (st_const s) db -> clears e c b (with_const db s) = clears e c b s.
Proof.
  intros e c b s db H. destruct c; try reflexivity; cbn [clears].
  - destruct (sim_alike n e path off forced s db H) as (db2 & E & H2). rewrite E. reflexivity.
  - rewrite remove_alike. reflexivity.
  - unfold finalize. cbn [st_map with_const]. now destruct (link_all e (dkeys (st_map s)) (st_map s)) as [[u|ex|] mp].
Qed.
Lemma call_const : forall e c s t, names_ok (st_const s) -> alike (st_const s) (st_const (fst (snd (call_c e c (s, t))))).
Proof.
  intros e c s t H. destruct c; cbn [call_c]; try (apply alike_refl; exact H).
  - destruct (add_file n e path off forced s) as [r s1] eqn:E. destruct (C64_lemma _ _ _ _ _ _ _ _ H E) as (N1 & N2 & _).
    destruct r; cbn [fst snd]; (split; [exact H|split; [exact N1|exact N2]]).
  - pose proof (remove_const l s) as R. destruct (remove_items l s) as [[u|ex|] s1]; cbn [fst snd] in *; rewrite R; now apply alike_refl.
  - unfold finalize_c. destruct (link_all e (dkeys (st_map s)) (st_map s)) as [[u|ex|] mp]; try (apply alike_refl; exact H).
    pose proof (marks_const e mp (with_map mp s, t)) as K.
    destruct (fold_left (mark_c e) mp (with_map mp s, t)) as [s1 t1]. cbn [fst snd] in K |- *. rewrite K. now apply alike_refl.
Qed.

(** ** All stashes *)

(** The stashes of the two models: the same up to the database, which is like [db]. *)
Definition paired (db : cval) (x y : stash * tables) : Prop :=
  snd y = snd x /\ with_const db (fst y) = with_const db (fst x) /\ alike (st_const (fst x)) db.

Lemma paired_clear : forall db st st', Forall2 (paired db) st st' -> Forall2 (paired db) (clear_all st) (clear_all st').
Proof.
  intros db st st' H. induction H as [|x y st st' (P1 & P2 & P3) _ IH]; [constructor|]. cbn [clear_all map]. constructor; [|exact IH].
  split; [cbn [snd]; now rewrite P1|]. now split.
Qed.
Lemma paired_alike : forall db db' st st', alike db db' -> Forall2 (paired db) st st' -> Forall2 (paired db') st st'.
Proof.
  intros db db' st st' A H. induction H as [|x y st st' (P1 & P2 & P3) _ IH]; constructor; [|exact IH].
  split; [exact P1|]. split; [|now apply (alike_trans _ db)]. exact (f_equal (with_const db') P2).
Qed.
Lemma paired_nth : forall db st st' k, Forall2 (paired db) st st' ->
  match nth_error st k, nth_error st' k with Some x, Some y => paired db x y | None, None => True | _, _ => False end.
Proof.
  intros db st st' k H. revert k. induction H as [|x y st st' P _ IH]; intro k; [now destruct k|]. destruct k; [exact P|apply IH].
Qed.
Lemma paired_put : forall db st st' k x y, Forall2 (paired db) st st' -> paired db x y -> Forall2 (paired db) (put k x st) (put k y st').
Proof.
  intros db st st' k x y H P. unfold put. apply Forall2_app.
  - revert k. induction H as [|a b st st' Q _ IH]; intro k; destruct k; cbn; constructor; auto.
  - constructor; [exact P|]. generalize (S k) as n. clear -H. intro n. revert n.
    induction H as [|a b st st' Q R IH]; intro n; destruct n; cbn; try constructor; auto.
Qed.

Lemma C99_sim : forall e db0 ms db st st', names_ok db0 -> alike db0 db -> Forall2 (paired db) st st' ->
  fst (scalls_c e ms (db, st')) = fst (mcalls_c e db0 ms st).
Proof.
  intros e db0 ms. induction ms as [|m ms IH]; intros db st st' N A P; [reflexivity|]. cbn [scalls_c mcalls_c].
  destruct m as [nw neg|k c b]; cbn [scall_c mcall_c].
  - assert (P' : Forall2 (paired db) (clear_all st ++ [(new_stash nw neg db0, no_tables)]) (clear_all st' ++ [(new_stash nw neg db, no_tables)])).
    { apply Forall2_app; [now apply paired_clear|]. constructor; [|constructor]. split; [reflexivity|]. now split. }
    specialize (IH db _ _ N A P'). destruct (scalls_c e ms _) as [l x]. destruct (mcalls_c e db0 ms _) as [l' x']. cbn [fst] in *.
    now rewrite IH.
  - pose proof (paired_nth db st st' k P) as Q. destruct (nth_error st k) as [[s t]|], (nth_error st' k) as [[s' t']|]; try contradiction.
    + destruct Q as (Q1 & Q2 & Q3). cbn [fst snd] in *. subst t'. rewrite Q2.
      destruct (call_alike e c s t db Q3) as (db2 & E & H2). rewrite E, (clears_alike e c b s db Q3).
      pose proof (call_const e c s t (proj1 Q3)) as K.
      destruct (call_c e c (s, t)) as [a [s1 t1]]. cbn [fst snd] in *.
      assert (A2 : alike db db2).
      { apply (alike_trans _ (st_const s)); [now apply alike_sym|]. now apply (alike_trans _ (st_const s1)). }
      assert (P' : Forall2 (paired db2) (put k (s1, t1) (if clears e c b s then clear_all st else st))
                                       (put k (with_const db2 s1, t1) (if clears e c b s then clear_all st' else st'))).
      { apply paired_put; [|split; [reflexivity|now split]]. apply (paired_alike db); [exact A2|].
        destruct (clears e c b s); [now apply paired_clear|exact P]. }
      specialize (IH db2 _ _ N (alike_trans _ _ _ A A2) P'). change (st_const (with_const db2 s1)) with db2.
      destruct (scalls_c e ms _) as [l x]. destruct (mcalls_c e db0 ms _) as [l' x']. cbn [fst] in *. now rewrite IH.
    + specialize (IH db _ _ N A P). destruct (scalls_c e ms _) as [l x]. destruct (mcalls_c e db0 ms _) as [l' x']. cbn [fst] in *. now rewrite IH.
Qed.

Lemma C99_shared_lemma : forall e db nw neg before after, env_ok e -> names_ok db ->
  served e true (new_stash nw neg db) (calls_on (made before) after) ->
  answers_on (made before) (fst (scalls_c e (before ++ MNew nw neg :: after) (db, []))) =
  fst (plain_calls e (calls_on (made before) after) (new_stash nw neg db)).
Proof.
  intros e db nw neg before after He N H. rewrite (C99_sim e db _ db [] []); [now apply C99_lemma|exact N|now apply alike_refl|constructor].
Qed.
