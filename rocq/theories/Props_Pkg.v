(** * Properties C50-C52, C58, C66, C79, C80: packages and sources *)

From Verif Require Import PyStr Regex Patterns PyPath Res Inline Const Item Lines Stash Demo StrFacts
  ReachFacts Spec_Query Spec_Expand Spec_Const Spec_Pkg Proofs_Pkg.
From Coq Require Import Permutation Sorted.

(** ** The states of the examples *)

Definition p_db : cval := CDict
  [ ("images", CDict [("known-classes", CList ["core-image"; "image"]); ("known-variables", CList ["IMAGE_INSTALL"])]);
    ("replacements", CDict [("mirrors", CDict [("${GNU}", CStr "https://gnu")])]) ].
Definition p_files : list (str * str) :=
  [ ("/w/rec_1.bb", "PACKAGES =+ ""${PN}-x ${V}""" ++ nl ++ "V = ""two""" ++ nl ++ "PACKAGE_BEFORE_PN = ""y""" ++ nl
      ++ "SRC_URI = ""${GNU}/a;name=n1;k=1 file://b;name=${PN}2""" ++ nl ++ "PACKAGES_DYNAMIC = ""^rec-plugin-.*""" ++ nl);
    ("/w/img.bb", "inherit x core-image" ++ nl); ("/w/img2.bb", "IMAGE_INSTALL = ""a""" ++ nl); ("/w/grp.bb", "inherit packagegroup" ++ nl);
    ("/w/sp.bb", "PACKAGES_DYNAMIC = ""^a """ ++ nl) ].
Definition p_env : env :=
  MkEnv (demo_fs p_files ["/w"; "/"] [("/w/*/*.patch", ["/w/f/b.patch"; "/w/f/a.patch"])]) dedup_items dedup_str (fun i => it_raw i)
    (fun x => Some ([], [], x)).
Definition p_start : stash := new_stash false false p_db.
Definition p_add (p : str) : stash := snd (add_file 4 p_env p 0 None p_start).
Lemma p_reach : forall p, reach p_env (p_add p).
Proof. intro p. exists false, false, p_db. eapply steps_add; [apply steps_refl|apply surjective_pairing]. Qed.
Lemma p_ok : env_ok p_env. Proof. split; intro l; apply Permutation_refl. Qed.

(** ** C50: package names *)

Theorem C50_packages : forall e s file strippn l, env_ok e -> reach e s -> valid_package_names e s file strippn = Ok l ->
  forall x, In x l <-> exists pn, In pn ["${PN}"; guess_recipe_name file] /\ pn_packages e s file strippn pn x.
Proof. exact C50_lemma. Qed.
Print Assumptions C50_packages.

(** There is an answer unless a file cannot be read. *)
Theorem C50_ends : forall e s file strippn, env_ok e ->
  (exists l, valid_package_names e s file strippn = Ok l) \/ valid_package_names e s file strippn = Raise OSError.
Proof. exact C50_ends_lemma. Qed.
Print Assumptions C50_ends.

Definition names_of (x : Res.res (list str)) : list str := match x with Ok l => l | _ => [] end.
Example C50_case :
  names_of (valid_package_names p_env (p_add "rec_1.bb") "/w/rec_1.bb" false) =
    ["${PN}"; "${PN}-ptest"; "${PN}-src"; "${PN}-dbg"; "${PN}-staticdev"; "${PN}-dev"; "${PN}-doc"; "${PN}-locale";
     "${PN}-x"; "two"; "y";
     "rec"; "rec-ptest"; "rec-src"; "rec-dbg"; "rec-staticdev"; "rec-dev"; "rec-doc"; "rec-locale"; "rec-x"; "two"; "y"].
Proof. vm_compute. reflexivity. Qed.
Example C50_case_strip :
  mem_str "-x" (names_of (valid_package_names p_env (p_add "rec_1.bb") "/w/rec_1.bb" true)) = true.
Proof. vm_compute. reflexivity. Qed.

(** ** C51: named resources *)

Theorem C51_named : forall e s file x, env_ok e -> reach e s ->
  In x (valid_named_resources e s file) <->
  x = guess_recipe_name file \/
  exists i n v, shown s file "SRC_URI" i /\ entry (stripped i) n /\
    dget "name" (snd (scr_components e s n)) = Some v /\ x = replace "${PN}" (guess_recipe_name file) v.
Proof. exact C51_lemma. Qed.
Print Assumptions C51_named.

Example C51_case : valid_named_resources p_env (p_add "rec_1.bb") "/w/rec_1.bb" = ["rec"; "n1"; "rec2"].
Proof. vm_compute. reflexivity. Qed.

(** ** C52: images and package groups *)

Theorem C52_image : forall e s file cl vl, env_ok e -> reach e s ->
  at_path ["images"; "known-classes"] (st_const s) = Some (CList cl) ->
  at_path ["images"; "known-variables"] (st_const s) = Some (CList vl) -> ~ In [] vl ->
  is_image e s file = true <->
  (exists c, inherits s file c /\ In c cl) \/ (exists n i, In n vl /\ shown s file n i).
Proof. exact C52_lemma. Qed.
Print Assumptions C52_image.

Theorem C52_group : forall e s file, env_ok e -> reach e s ->
  is_packagegroup e s file = true <-> inherits s file "packagegroup".
Proof. exact C52_group_lemma. Qed.
Print Assumptions C52_group.

Example C52_case : at_path ["images"; "known-classes"] (st_const (p_add "img.bb")) = Some (CList ["core-image"; "image"]) /\
  at_path ["images"; "known-variables"] (st_const (p_add "img.bb")) = Some (CList ["IMAGE_INSTALL"]) /\
  map (fun f => (is_image p_env (p_add f) ("/w/" ++ f), is_packagegroup p_env (p_add f) ("/w/" ++ f)))
    ["img.bb"; "img2.bb"; "grp.bb"; "rec_1.bb"] = [(true, false); (true, false); (false, true); (false, false)].
Proof. repeat split; vm_compute; reflexivity. Qed.

(** ** C58: options of a source *)

(** The options are what the last part with that key says, up to a second equals
    sign. *)
Theorem C58_options : forall e s d x k v, mirrors (st_const s) d -> e_url e (mirrored d x) <> None ->
  dget k (snd (scr_components e s x)) = Some v <->
  exists parts, parts_of (mirrored d x) parts /\ last_option parts k v.
Proof. exact C58_lemma. Qed.
Print Assumptions C58_options.

(** Scheme, host and path are those of the URL with the mirrors in place, without
    the options. *)
Theorem C58_source : forall e s d x, mirrors (st_const s) d ->
  match e_url e (mirrored d x) with
  | None => scr_components e s x = ([], [], [])
  | Some (scheme, host, path) => exists src opts whole, scr_components e s x = (scheme, src, opts) /\
      located host path whole /\ up_to_options whole src
  end.
Proof. exact C58_source_lemma. Qed.
Print Assumptions C58_source.

Example C58_case : mirrors (st_const (p_add "rec_1.bb")) [("${GNU}", "https://gnu")] /\
  e_url p_env (mirrored [("${GNU}", "https://gnu")] "${GNU}/a;k=1;flag;name=n;k=2") <> None /\
  located "gnu" "//a;k=1" "gnu/a;k=1" /\ up_to_options "gnu/a;k=1" "gnu/a" /\
  snd (scr_components p_env (p_add "rec_1.bb") "${GNU}/a;k=1;flag;name=n;k=2") = [("k", "2"); ("name", "n")] /\
  parts_of "https://gnu/a;k=1;flag;name=n;k=2" ["k=1"; "flag"; "name=n"; "k=2"] /\
  last_option ["k=1"; "flag"; "name=n"; "k=2"] "k" "2".
Proof.
  split; [vm_compute; reflexivity|]. split; [discriminate|].
  split; [apply (located_path "gnu" "//" "a;k=1"); [intros c [<-|[<-|[]]]; reflexivity|discriminate|discriminate]|].
  split; [split; [vm_compute; intuition discriminate|right; now exists "k=1"]|].
  split; [vm_compute; reflexivity|]. split.
  - exists "https://gnu/a". split; [reflexivity|]. intros p Hp. cbn in Hp.
    repeat (destruct Hp as [<-|Hp]; [vm_compute; intuition discriminate|]). destruct Hp.
  - exists ["k=1"; "flag"; "name=n"], "k=2", []. split; [reflexivity|]. split; [|intros o' v' []].
    split; [vm_compute; intuition discriminate|]. split; [vm_compute; intuition discriminate|]. now left.
Qed.

(** Values are not complete. *)
Theorem C58_refuted : exists e s d x k v, reach e s /\ mirrors (st_const s) d /\ e_url e (mirrored d x) <> None /\
  parts_of (mirrored d x) [k ++ "=" ++ v] /\ ~ In 61%N k /\
  dget k (snd (scr_components e s x)) <> Some v.
Proof.
  exists p_env, (p_add "rec_1.bb"), [("${GNU}", "https://gnu")], "file://a;token=x=y", "token", "x=y".
  split; [apply p_reach|]. split; [vm_compute; reflexivity|]. split; [discriminate|]. split.
  - exists "file://a". split; [vm_compute; reflexivity|]. intros p Hp. cbn in Hp.
    repeat (destruct Hp as [<-|Hp]; [vm_compute; intuition discriminate|]). destruct Hp.
  - split; vm_compute; intuition discriminate.
Qed.
Print Assumptions C58_refuted.

(** ** C66: dynamic packages *)

Theorem C66_dynamic : forall e s file name b, env_ok e -> reach e s -> is_dynamic_package e s file name = Ok b ->
  (b = true <-> exists n i v l p rx, expand_term e s file name = Ok n /\
     shown s file "PACKAGES_DYNAMIC" i /\ expand_term e s file (stripped i) = Ok v /\ cuts blank v l /\ In p l /\
     dyn_pattern p = Some rx /\ matched (re_match rx n) = true).
Proof. exact C66_lemma. Qed.
Print Assumptions C66_dynamic.

(** With entries that are a literal text, possibly after a caret and before dot
    star: the names that begin with such a text. *)
Theorem C66_text : forall e s file name, env_ok e -> reach e s ->
  (forall i v l p, shown s file "PACKAGES_DYNAMIC" i -> expand_term e s file (stripped i) = Ok v -> cuts blank v l -> In p l ->
     exists w, literal w /\ text_entry w p) ->
  forall b, is_dynamic_package e s file name = Ok b ->
  (b = true <-> exists n i v l p w t, expand_term e s file name = Ok n /\
     shown s file "PACKAGES_DYNAMIC" i /\ expand_term e s file (stripped i) = Ok v /\ cuts blank v l /\ In p l /\
     literal w /\ text_entry w p /\ n = w ++ t).
Proof. exact C66_text_lemma. Qed.
Print Assumptions C66_text.

(** An empty entry, such as behind a blank at the end, matches everything. *)
Theorem C66_empty : forall e s file name i v l b, env_ok e -> reach e s ->
  shown s file "PACKAGES_DYNAMIC" i -> expand_term e s file (stripped i) = Ok v -> cuts blank v l -> In [] l ->
  is_dynamic_package e s file name = Ok b -> b = true.
Proof. exact C66_empty_lemma. Qed.
Print Assumptions C66_empty.

Example C66_case :
  is_dynamic_package p_env (p_add "rec_1.bb") "/w/rec_1.bb" "${PN}-plugin-x" = Ok true /\
  is_dynamic_package p_env (p_add "rec_1.bb") "/w/rec_1.bb" "rec-plug" = Ok false /\
  is_dynamic_package p_env (p_add "sp.bb") "/w/sp.bb" "zzz" = Ok true /\
  literal "rec-plugin-" /\ text_entry "rec-plugin-" "^rec-plugin-.*" /\ cuts blank "^a " ["^a"; []].
Proof.
  split; [vm_compute; reflexivity|]. split; [vm_compute; reflexivity|]. split; [vm_compute; reflexivity|]. split; [|split].
  - intros c Hc. cbn in Hc. repeat (destruct Hc as [<-|Hc]; [vm_compute; intuition discriminate|]). destruct Hc.
  - right. right. now right.
  - apply C79_lemma. vm_compute. reflexivity.
Qed.

(** ** C79: SafeLineSplit of the stash *)

(** It cuts at every white space and escape character and keeps empty pieces. *)
Theorem C79_split : forall s l, stash_linesplit s = l <-> cuts blank s l.
Proof. exact C79_lemma. Qed.
Print Assumptions C79_split.

Example C79_case : stash_linesplit "a  b " = ["a"; ""; "b"; ""].
Proof. vm_compute. reflexivity. Qed.

(** ** C80: GetFiles *)

Theorem C80_files : forall e s file pattern, env_ok e -> reach e s ->
  (forall p, In p (get_files e s file pattern) <->
     exists u j, shown s file "SRC_URI" u /\ (j = u \/ In j (st_list s) /\ visible s (it_origin u) j) /\
       In p (fs_glob (e_fs e) (dirname (it_origin j) ++ "/*/" ++ pattern))) /\
  StronglySorted before (get_files e s file pattern).
Proof. exact C80_lemma. Qed.
Print Assumptions C80_files.

Example C80_case : get_files p_env (p_add "rec_1.bb") "/w/rec_1.bb" "*.patch" = ["/w/f/a.patch"; "/w/f/b.patch"].
Proof. vm_compute. reflexivity. Qed.
