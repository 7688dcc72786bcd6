(** * Properties of paths and file names (C23-C27, C73) *)

From Verif Require Import PyStr Regex PyPath Res Const Item Lines Stash Demo Spec_Paths Proofs_Paths.

(** ** C23: name and version from the file name *)

Theorem C23_version : forall f n v x,
  ~ In cSL (n ++ "_" ++ v ++ "." ++ x) -> ~ In 95%N n -> ~ In cDOT x -> file_of f (n ++ "_" ++ v ++ "." ++ x) ->
  guess_recipe_name f = n /\
  forall v1, ~ In 95%N v1 -> v = v1 \/ (exists r, v = v1 ++ "_" ++ r) -> guess_recipe_version f = Some v1.
Proof. exact C23_version_lemma. Qed.
Print Assumptions C23_version.

Example C23_version_ex :
  guess_recipe_name "/w/recipes/lib.foo_1.2.3_rc1.bb" = "lib.foo" /\
  guess_recipe_version "/w/recipes/lib.foo_1.2.3_rc1.bb" = Some "1.2.3".
Proof.
  destruct (C23_version "/w/recipes/lib.foo_1.2.3_rc1.bb" "lib.foo" "1.2.3_rc1" "bb") as [H1 H2].
  - intro H. now repeat (destruct H as [H|H]; [discriminate|]).
  - intro H. now repeat (destruct H as [H|H]; [discriminate|]).
  - intro H. now repeat (destruct H as [H|H]; [discriminate|]).
  - exact (file_in "/w/recipes" "lib.foo_1.2.3_rc1.bb").
  - split; [exact H1|]. apply H2.
    + intro H. now repeat (destruct H as [H|H]; [discriminate|]).
    + right. now exists "rc1".
Qed.

Theorem C23_plain : forall f n x,
  ~ In cSL (n ++ "." ++ x) -> ~ In 95%N n -> ~ In cDOT x -> (exists c, In c n /\ c <> cDOT) -> file_of f (n ++ "." ++ x) ->
  guess_recipe_name f = n /\ guess_recipe_version f = None.
Proof. exact C23_plain_lemma. Qed.
Print Assumptions C23_plain.

Example C23_plain_ex : guess_recipe_name "foo-bar.bb" = "foo-bar" /\ guess_recipe_version "foo-bar.bb" = None.
Proof.
  apply (C23_plain "foo-bar.bb" "foo-bar" "bb").
  - intro H. now repeat (destruct H as [H|H]; [discriminate|]).
  - intro H. now repeat (destruct H as [H|H]; [discriminate|]).
  - intro H. now repeat (destruct H as [H|H]; [discriminate|]).
  - exists 102%N. split; [now left|discriminate].
  - exact (file_here "foo-bar.bb").
Qed.

(** Dots in front do not begin an extension. *)
Theorem C23_hidden : forall f d x, (forall c, In c d -> c = cDOT) -> ~ In cSL (d ++ x) -> ~ In cDOT x -> file_of f (d ++ x) ->
  (~ In 95%N x -> guess_recipe_name f = d ++ x /\ guess_recipe_version f = None) /\
  (forall n v, x = n ++ "_" ++ v -> ~ In 95%N n -> ~ In 95%N v -> guess_recipe_name f = d ++ n /\ guess_recipe_version f = Some v).
Proof. exact C23_hidden_lemma. Qed.
Print Assumptions C23_hidden.

Example C23_hidden_ex : guess_recipe_name "/w/.bb" = ".bb" /\ guess_recipe_version "/w/.foo_1" = Some "1".
Proof.
  split; [apply (C23_hidden "/w/.bb" "." "bb")|apply (C23_hidden "/w/.foo_1" "." "foo_1") with (n := "foo")];
    first [ exact (file_in "/w" ".bb") | exact (file_in "/w" ".foo_1") | reflexivity | intros c [<-|[]]; reflexivity
          | intro H; now repeat (destruct H as [H|H]; [discriminate|]) ].
Qed.

(** ** C24: the base name *)

Theorem C24_base : forall f n t, guess_recipe_name f = rep n "nativesdk-" ++ t ->
  t <> [] -> ~ In cNL t -> (startswith "nativesdk-" t = false \/ t = "nativesdk-") ->
  exists u, drops "-native" t u /\ drops "-cross" u (guess_base_recipe_name f).
Proof. intros f n t E. unfold guess_base_recipe_name. rewrite E. exact (C24_lemma n t). Qed.
Print Assumptions C24_base.

Theorem C24_all : forall pn, pn <> [] ->
  exists n t, pn = rep n "nativesdk-" ++ t /\ t <> [] /\ (startswith "nativesdk-" t = false \/ t = "nativesdk-").
Proof. exact C24_all_lemma. Qed.
Print Assumptions C24_all.

Example C24_ex : guess_base_recipe_name "/w/nativesdk-nativesdk-gcc-cross-native_1.bb" = "gcc" /\
  guess_base_recipe_name "/w/gcc-crossbar_1.bb" = "gcc-crossbar".
Proof.
  destruct (C24_base "/w/nativesdk-nativesdk-gcc-cross-native_1.bb" 2 "gcc-cross-native") as [u [H1 H2]];
    [reflexivity|discriminate| |now left|].
  { intro H. now repeat (destruct H as [H|H]; [discriminate|]). }
  split; reflexivity.
Qed.

(** ** C73: the base name carries no class affix any more

    True of the prefix, false of the suffixes: they are only dropped in one
    order, and once each. *)

Theorem C73_prefix : forall f, let pn := guess_recipe_name f in pn <> [] -> ~ In cNL pn ->
  startswith "nativesdk-" (guess_base_recipe_name f) = true -> guess_base_recipe_name f = "nativesdk-".
Proof. intro f. exact (C73_prefix_lemma (guess_recipe_name f)). Qed.
Print Assumptions C73_prefix.

Theorem C73_refuted : exists f1 f2,
  guess_base_recipe_name f1 = "foo-native" /\ guess_recipe_name f1 = "foo-native-cross" /\
  guess_base_recipe_name f2 = "foo" /\ guess_recipe_name f2 = "foo-cross-native".
Proof. exists "/w/foo-native-cross_1.bb", "/w/foo-cross-native_1.bb". vm_compute. repeat split. Qed.
Print Assumptions C73_refuted.

(** ** C25, C26: the nearest layer *)

Theorem C25_nearest : forall w cs n, comps cs -> cs <> [] -> length cs < n ->
  let start := if fs_isfile w (cpath cs) then removelast cs else cs in
  (exists ds, layer_at w start ds /\ get_layer_root n w (cpath cs) = Some (cpath ds)) \/
  ((forall ds, ~ layer_at w start ds) /\ get_layer_root n w (cpath cs) = Some []).
Proof. exact C25_lemma. Qed.
Print Assumptions C25_nearest.

Theorem C25_unique : forall w start d1 d2, layer_at w start d1 -> layer_at w start d2 -> d1 = d2.
Proof. exact layer_at_unique. Qed.
Print Assumptions C25_unique.

(** Two layers, one inside the other. *)
Definition p_dirs : list str := ["/"; "/w"; "/w/conf"; "/w/meta"; "/w/meta/conf"; "/w/meta/recipes"; "/w/meta/recipes/a"].
Definition p_files : list (str * str) := [("/w/conf/layer.conf", []); ("/w/meta/conf/layer.conf", []);
  ("/w/meta/recipes/a/a_1.bb", []); ("/w/meta/b.inc", []); ("/w/c.inc", []); ("/w/meta/d.bb", [])].
Definition p_fs : fs := demo_fs p_files p_dirs [].

Lemma p_comps : forall cs, forallb (fun c => match c with [] => false | _ => negb (existsb (N.eqb cSL) c) end) cs = true -> comps cs.
Proof.
  intros cs H c Hc. rewrite forallb_forall in H. specialize (H c Hc). split.
  - intros ->. discriminate.
  - intro Hi. destruct c as [|x c]; [discriminate|]. apply negb_true_iff in H.
    assert (E : existsb (N.eqb cSL) (x :: c) = true) by (apply existsb_exists; exists cSL; split; [exact Hi|reflexivity]).
    congruence.
Qed.

Example C25_ex : get_layer_root 9 p_fs "/w/meta/recipes/a/a_1.bb" = Some "/w/meta" /\
  layer_at p_fs ["w"; "meta"; "recipes"; "a"] ["w"; "meta"].
Proof.
  assert (L : layer_at p_fs ["w"; "meta"; "recipes"; "a"] ["w"; "meta"]).
  { exists ["recipes"; "a"]. split; [reflexivity|]. split; [discriminate|]. split; [reflexivity|].
    intros u v E Hu. destruct u as [|x u]; [congruence|]. inversion E as [[Ex E2]]. subst x.
    destruct u as [|y u].
    - split; [reflexivity|]. intros _. reflexivity.
    - inversion E2 as [[Ey E3]]. subst y. symmetry in E3. apply app_eq_nil in E3. destruct E3 as [-> ->].
      split; [reflexivity|intro Hx; exfalso; now apply Hx]. }
  split; [|exact L].
  destruct (C25_nearest p_fs ["w"; "meta"; "recipes"; "a"; "a_1.bb"] 9) as [[ds [H1 H2]]|[H1 _]].
  - apply p_comps. reflexivity.
  - discriminate.
  - simpl. lia.
  - cbv zeta in H1. change (fs_isfile p_fs _) with true in H1. cbn [removelast] in H1.
    rewrite (C25_unique _ _ _ _ H1 L) in H2. exact H2.
  - exfalso. exact (H1 _ L).
Qed.

(** A file directly in a layer does not find its own layer but the next one
    further up. *)
Theorem C74_refuted : exists w cs n ds,
  fs_isfile w (cpath cs) = true /\ removelast cs = ds /\ layer_conf w ds = true /\
  get_layer_root n w (cpath cs) = Some "/w" /\ cpath ds = "/w/meta".
Proof. exists p_fs, ["w"; "meta"; "d.bb"], 9, ["w"; "meta"]. vm_compute. repeat split. Qed.
Print Assumptions C74_refuted.

(** Missing is [t = []], a file directly in the layer; false, see
    [C74_refuted]. *)
Theorem C74_deeper_partial : forall w ds t f n, comps (ds ++ t ++ [f]) -> length (ds ++ t ++ [f]) < n ->
  fs_isfile w (cpath (ds ++ t ++ [f])) = true -> layer_at w (ds ++ t) ds ->
  get_layer_root n w (cpath (ds ++ t ++ [f])) = Some (cpath ds).
Proof. exact C74_lemma. Qed.
Print Assumptions C74_deeper_partial.

Example C74_case : fs_isfile p_fs (cpath (["w"; "meta"] ++ ["recipes"; "a"] ++ ["a_1.bb"])) = true /\ get_layer_root 9 p_fs "/w/meta/recipes/a/a_1.bb" = Some "/w/meta".
Proof.
  split; [reflexivity|]. apply (C74_deeper_partial p_fs ["w"; "meta"] ["recipes"; "a"] "a_1.bb" 9).
  - apply p_comps. reflexivity.
  - simpl. lia.
  - reflexivity.
  - exact (proj2 C25_ex).
Qed.

Theorem C26_find : forall w cs name n, comps cs -> length cs < n ->
  let there ds := path_join (cpath ds) name in
  (fs_exists w (there cs) = true -> find_local_or_layer n w name (cpath cs) = Some (there cs)) /\
  (fs_exists w (there cs) = false ->
     (exists ds, layer_at w cs ds /\
        find_local_or_layer n w name (cpath cs) = Some (if fs_exists w (there ds) then there ds else [])) \/
     ((forall ds, ~ layer_at w cs ds) /\ find_local_or_layer n w name (cpath cs) = Some [])).
Proof. exact C26_lemma. Qed.
Print Assumptions C26_find.

(** b.inc is in the nearest layer, c.inc only in an outer one. *)
Example C26_ex :
  find_local_or_layer 9 p_fs "b.inc" "/w/meta/recipes/a" = Some "/w/meta/b.inc" /\
  find_local_or_layer 9 p_fs "c.inc" "/w/meta/recipes/a" = Some [] /\
  find_local_or_layer 9 p_fs "a_1.bb" "/w/meta/recipes/a" = Some "/w/meta/recipes/a/a_1.bb".
Proof.
  destruct C25_ex as [_ L].
  destruct (C26_find p_fs ["w"; "meta"; "recipes"; "a"] "c.inc" 9) as [_ H]; [apply p_comps; reflexivity|simpl; lia|].
  destruct (H eq_refl) as [[ds [H1 H2]]|[H1 _]]; [|exfalso; exact (H1 _ L)].
  rewrite (C25_unique _ _ _ _ H1 L) in H2. split; [reflexivity|]. split; [exact H2|reflexivity].
Qed.

(** ** C27: the search ends *)

Theorem C27_ends : forall w p, fs_isdir w [] = false -> startswith [cSL; cSL] p = false ->
  (forall n, length p < n -> layer_loop n w p <> None) /\
  (forall name n, length p < n -> find_loop n w name p <> None).
Proof. exact C27_lemma. Qed.
Print Assumptions C27_ends.

Example C27_ends_ex : layer_loop 19 p_fs "/w/meta/recipes/a/" <> None.
Proof. destruct (C27_ends p_fs "/w/meta/recipes/a/") as [H _]; [reflexivity|reflexivity|]. apply H. vm_compute. lia. Qed.

(** What has not ended after as many rounds as the path has characters never
    ends, so [None] of the model stands for an endless loop. *)
Theorem C27_fuel : forall w p,
  (layer_loop (S (length p)) w p = None -> forall n, layer_loop n w p = None) /\
  (forall name, find_loop (S (length p)) w name p = None -> forall n, find_loop n w name p = None).
Proof. exact C27_fuel_lemma. Qed.
Print Assumptions C27_fuel.

(** Two leading slashes, directories all the way and no layer: endless. *)
Theorem C27_forever : forall w p, startswith [cSL; cSL] p = true ->
  (forall k, fs_isdir w (Nat.iter k dirname p) = true) ->
  (forall k, fs_exists w (path_join (Nat.iter k dirname p) "conf/layer.conf") = false) ->
  (forall n, layer_loop n w p = None) /\ (forall name n, find_loop n w name p = None).
Proof. exact C27_forever_lemma. Qed.
Print Assumptions C27_forever.

Definition s_fs : fs := demo_fs [("//w/x.bb", [])] ["//"; "//w"] [].
Theorem C27_refuted : exists w p, isabs p = true /\ fs_isfile w p = true /\
  (forall n, get_layer_root n w p = None) /\ (forall n, find_loop n w "y.inc" (dirname p) = None).
Proof.
  exists s_fs, "//w/x.bb". split; [reflexivity|]. split; [reflexivity|].
  assert (D : forall k, Nat.iter (S k) dirname "//w" = "//").
  { induction k as [|k IH]; [reflexivity|]. change (dirname (Nat.iter (S k) dirname "//w") = "//"). now rewrite IH. }
  destruct (C27_forever s_fs "//w") as [H1 H2].
  - reflexivity.
  - intros [|k]; [reflexivity|]. now rewrite D.
  - intros [|k]; [reflexivity|]. now rewrite D.
  - split; [exact H1|exact (H2 "y.inc")].
Qed.
Print Assumptions C27_refuted.

Definition s_env : env := demo_env [("//w/x.bb", "A = """ ++ "1" ++ """")] ["//"; "//w"].
Theorem C27_add_refuted : exists e p, isabs p = true /\ fs_isfile (e_fs e) p = true /\
  forall n, fst (add_file n e p 0 None demo_stash) = NoFuel.
Proof.
  exists s_env, "//w/x.bb". split; [reflexivity|]. split; [reflexivity|]. intro n.
  destruct n as [|n]; [reflexivity|]. vm_compute. reflexivity.
Qed.
Print Assumptions C27_add_refuted.
