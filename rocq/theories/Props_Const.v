(** * Properties C53-C55, C64, C71, C72: the constants *)

From Verif Require Import PyStr PyPath Res Const Item Stash Demo ReachFacts Spec_Const Spec_Files Proofs_Const.

Definition c_db : cval :=
  CDict [ ("functions", CDict [("known", CList ["do_a"; "do_b"])]);
          ("replacements", CDict [("distros", CList ["poky"]); ("mirrors", CDict [("GNU_MIRROR", CStr "http://g")])]);
          ("name", CStr "x") ].

(** ** GetByPath *)

(** The value at the keys; an empty dictionary if there is none; an exception
    if the path leads into a list or a string. *)
Theorem C53_path : forall ks n db, keys_ok ks ->
  let path := join "/" ks ++ repeat 47%N n in
  (forall v, at_path ks db = Some v -> get_by_path path db = Ok v) /\
  (at_path ks db = None -> (forall q r v, ks = q ++ r -> at_path q db = Some v -> is_dict v) ->
     get_by_path path db = Ok (CDict [])) /\
  (forall q k r v, ks = q ++ k :: r -> at_path q db = Some v -> is_leaf v -> get_by_path path db = Raise AttributeError).
Proof. exact C53_path_lemma. Qed.
Print Assumptions C53_path.

Example C53_path_case : keys_ok ["functions"; "known"] /\
  get_by_path "functions/known//" c_db = Ok (CList ["do_a"; "do_b"]) /\
  get_by_path "functions/order" c_db = Ok (CDict []) /\ get_by_path "order/functions/x" c_db = Ok (CDict []).
Proof.
  split; [|vm_compute; auto]. split.
  - intros k [<-|[<-|[]]] H; repeat (destruct H as [H|H]; [discriminate H|]); exact H.
  - exists ["functions"], "known". split; [reflexivity|discriminate].
Qed.

(** C72: GetByPath does not always return a value. *)
Theorem C72_refuted : exists ks db, keys_ok ks /\ is_dict db /\ get_by_path (join "/" ks) db = Raise AttributeError.
Proof.
  exists ["functions"; "known"; "do_a"], c_db. split.
  - split; [|exists ["functions"; "known"], "do_a"; split; [reflexivity|discriminate]].
    intros k [<-|[<-|[<-|[]]]] H; repeat (destruct H as [H|H]; [discriminate H|]); exact H.
  - split; [eexists; reflexivity|vm_compute; reflexivity].
Qed.
Print Assumptions C72_refuted.

(** ** C53 *)

(** OverrideConstants: the given leaves are set, everything else is kept. *)
Theorem C53_override : forall db b db', override_constants db b = (db', None) -> keys_once b ->
  (forall p v, at_path p b = Some v -> is_leaf v -> at_path p db' = Some v) /\
  (forall p, apart p b -> at_path p db' = at_path p db).
Proof. exact C53_lemma. Qed.
Print Assumptions C53_override.

(** It fails exactly if a dictionary with entries is given for a leaf. *)
Theorem C53_fails : forall db b, is_dict db -> is_dict b -> keys_once b ->
  (snd (override_constants db b) = None <-> fits b db).
Proof. exact C53_fails_lemma. Qed.
Print Assumptions C53_fails.

Definition c_given : cval :=
  CDict [ ("functions", CDict [("known", CList ["do_c"]); ("order", CList ["do_d"])]); ("new", CDict [("a", CStr "b")]) ].
Lemma c_given_once : keys_once c_given.
Proof.
  cbn. repeat split; repeat constructor; cbn; intros H; repeat (destruct H as [H|H]; [discriminate H|]); exact H.
Qed.
Example C53_case :
  keys_once c_given /\ snd (override_constants c_db c_given) = None /\
  fst (override_constants c_db c_given) =
    CDict [ ("functions", CDict [("known", CList ["do_c"]); ("order", CList ["do_d"])]);
            ("replacements", CDict [("distros", CList ["poky"]); ("mirrors", CDict [("GNU_MIRROR", CStr "http://g")])]);
            ("name", CStr "x"); ("new", CDict [("a", CStr "b")]) ].
Proof. split; [exact c_given_once|]. vm_compute. auto. Qed.

(** ** C54 *)

(** AddConstants: given values are appended or set, everything else is kept. *)
Theorem C54_add : forall db b db', add_constants db b = (db', None) -> keys_once b ->
  (forall p v, at_path p b = Some v -> is_leaf v -> at_path p db = None -> at_path p db' = Some v) /\
  (forall p l old, at_path p b = Some (CList l) -> at_path p db = Some (CList old) ->
     at_path p db' = Some (CList (old ++ l))) /\
  (forall p s old, at_path p b = Some (CStr s) -> at_path p db = Some (CStr old) ->
     at_path p db' = Some (CStr (old ++ s))) /\
  (forall p s old, at_path p b = Some (CStr s) -> at_path p db = Some (CList old) ->
     at_path p db' = Some (CList (old ++ map (fun c => [c]) s))) /\
  (forall p, apart p b -> at_path p db' = at_path p db).
Proof. exact C54_lemma. Qed.
Print Assumptions C54_add.

Theorem C54_fails : forall db b, is_dict db -> is_dict b -> keys_once b ->
  (snd (add_constants db b) = None <->
   fits b db /\ forall p v av, at_path p b = Some v -> is_leaf v -> at_path p db = Some av -> addable av v).
Proof. exact C54_fails_lemma. Qed.
Print Assumptions C54_fails.

Example C54_case :
  snd (add_constants c_db c_given) = None /\
  at_path ["functions"; "known"] (fst (add_constants c_db c_given)) = Some (CList ["do_a"; "do_b"; "do_c"]) /\
  at_path ["new"; "a"] (fst (add_constants c_db c_given)) = Some (CStr "b") /\
  at_path ["name"] (fst (add_constants c_db (CDict [("name", CStr "y")]))) = Some (CStr "xy").
Proof. vm_compute. auto. Qed.

(** ** C55 *)

(** RemoveConstants: the lists lose the given members, everything else is kept. *)
Theorem C55_remove : forall db b db', remove_constants db b = (db', None) -> keys_once b ->
  (forall p l old, at_path p b = Some (CList l) -> at_path p db = Some (CList old) ->
     at_path p db' = Some (CList (filter (fun x => negb (mem_str x l)) old))) /\
  (forall p v, at_path p b = Some v -> is_leaf v -> at_path p db = None -> at_path p db' = None) /\
  (forall p, apart p b -> at_path p db' = at_path p db).
Proof. exact C55_lemma. Qed.
Print Assumptions C55_remove.

(** Whatever kinds of values meet at a path: what the old value lists is kept
    unless the given value names it, and a text names every part of it. *)
Theorem C55_leaf : forall db b db' p v old, remove_constants db b = (db', None) -> keys_once b ->
  at_path p b = Some v -> is_leaf v -> at_path p db = Some old ->
  exists f, (forall x, f x = true <-> ~ names v x) /\ at_path p db' = Some (CList (filter f (entries_of old))).
Proof. exact C55_leaf_lemma. Qed.
Print Assumptions C55_leaf.

Example C55_leaf_case :
  at_path ["functions"; "known"] (fst (remove_constants c_db (CDict [("functions", CDict [("known", CStr "do_ab")])]))) = Some (CList ["do_b"]) /\
  at_path ["name"] (fst (remove_constants c_db (CDict [("name", CStr "y")]))) = Some (CList ["x"]).
Proof. vm_compute. auto. Qed.

Theorem C55_ok : forall db b, is_dict db -> is_dict b -> keys_once b -> fits b db ->
  snd (remove_constants db b) = None.
Proof. exact C55_ok_lemma. Qed.
Print Assumptions C55_ok.

Example C55_case :
  let b := CDict [("functions", CDict [("known", CList ["do_b"; "do_z"]); ("order", CList ["do_z"])])] in
  snd (remove_constants c_db b) = None /\
  at_path ["functions"; "known"] (fst (remove_constants c_db b)) = Some (CList ["do_a"]) /\
  at_path ["functions"; "order"] (fst (remove_constants c_db b)) = None.
Proof. vm_compute. auto. Qed.

(** Strings and dictionaries do not keep their type. *)
Theorem C55_refuted : exists db b db' p q s d l l', remove_constants db b = (db', None) /\ keys_once b /\
  at_path p db = Some (CStr s) /\ at_path p db' = Some (CList l) /\
  at_path q db = Some (CDict d) /\ at_path q db' = Some (CList l').
Proof.
  exists c_db, (CDict [("name", CList ["y"]); ("functions", CList ["do_a"])]).
  eexists. exists ["name"], ["functions"]. eexists. eexists. eexists. eexists.
  split; [vm_compute; reflexivity|]. split.
  - cbn. repeat split; repeat constructor; cbn; intros H; repeat (destruct H as [H|H]; [discriminate H|]); exact H.
  - repeat (split; [vm_compute; reflexivity|]). vm_compute. reflexivity.
Qed.
Print Assumptions C55_refuted.

(** ** C71 *)

(** An update that fails has already changed something. *)
Theorem C71_refuted : exists db b db' ex p, add_constants db b = (db', Some ex) /\ keys_once b /\
  at_path p db' <> at_path p db.
Proof.
  exists c_db, (CDict [("functions", CDict [("known", CList ["do_c"])]); ("name", CList ["y"])]).
  eexists. exists TypeError, ["functions"; "known"]. split; [vm_compute; reflexivity|]. split.
  - cbn. repeat split; repeat constructor; cbn; intros H; repeat (destruct H as [H|H]; [discriminate H|]); exact H.
  - vm_compute. discriminate.
Qed.
Print Assumptions C71_refuted.

(** ** C64 *)

(** AddFile appends to the known distros and machines exactly the names from
    the layers of the files it parsed, and changes nothing else. *)
Theorem C64_names : forall n e path off forced s r s',
  names_ok (st_const s) -> add_file n e path off forced s = (r, s') ->
  names_ok (st_const s') /\
  (forall p, elsewhere p -> at_path p (st_const s') = at_path p (st_const s)) /\
  exists files,
    names_at "distros" (st_const s') = names_at "distros" (st_const s) ++ flat_map (layer_names e "distro") files /\
    names_at "machines" (st_const s') = names_at "machines" (st_const s) ++ flat_map (layer_names e "machine") files /\
    (forall f, In f files -> file_known s' f) /\
    (forall l, r = Ok l -> l <> [] -> In (abspath (fs_cwd (e_fs e)) path) files).
Proof. exact C64_lemma. Qed.
Print Assumptions C64_names.

Definition c_files : list (str * str) :=
  [ ("/l/conf/layer.conf", ""); ("/l/r/a.bb", "require b.inc" ++ nl); ("/l/r/b.inc", "B = ""1""" ++ nl) ].
Definition c_env : env :=
  MkEnv (demo_fs c_files ["/l"; "/l/r"; "/"] [("/l/conf/distro/*.conf", ["/l/conf/distro/d1.conf"]);
                                              ("/l/conf/machine/*.conf", ["/l/conf/machine/m1.conf"; "/l/conf/machine/m2.conf"])])
        dedup_items dedup_str (fun i => it_raw i) (fun _ => None).
Example C64_case :
  names_ok c_db /\
  let s := snd (add_file 3 c_env "/l/r/a.bb" 0 None (new_stash false false c_db)) in
  st_const s =
    CDict [ ("functions", CDict [("known", CList ["do_a"; "do_b"])]);
            ("replacements", CDict [("distros", CList ["poky"; "d1"; "d1"]); ("mirrors", CDict [("GNU_MIRROR", CStr "http://g")]);
                                    ("machines", CList ["m1"; "m2"; "m1"; "m2"])]);
            ("name", CStr "x") ].
Proof.
  split; [|vm_compute; reflexivity]. split; [eexists; reflexivity|]. split.
  - intros v H. inversion H. eexists. reflexivity.
  - intros key v [<-|[<-|[]]] H; inversion H. eexists. reflexivity.
Qed.

(** ** C109: the getters give what the documentation says *)

(** Each documented getter exists and gives the value at its path, an empty
    dictionary if there is none, and fails if there is something else than a
    dictionary on the way. *)
Theorem C109_all : forall name, (exists g, In (name, g) getters) <-> exists p, In (name, p) documented.
Proof. exact C109_all_lemma. Qed.
Print Assumptions C109_all.

Theorem C109_getters : forall name g p db, In (name, g) getters -> In (name, p) documented ->
  (forall v, at_path p db = Some v -> g db = Ok v) /\
  (at_path p db = None -> open_path p db -> g db = Ok (CDict [])) /\
  (~ open_path p db -> g db = Raise AttributeError).
Proof. exact C109_lemma. Qed.
Print Assumptions C109_getters.

(** What the rest of the parser takes from the database: the base variables and
    the mirrors are the texts below their places, the others what lies at theirs. *)
Theorem C109_base : forall db k v, keys_once db ->
  (dget k (sets_base db) = Some v <-> at_path ["sets"; "base"; k] db = Some (CStr v)) /\
  (dget k (str_entries (mirrors_known db)) = Some v <-> at_path ["replacements"; "mirrors"; k] db = Some (CStr v)).
Proof. exact C109_base_lemma. Qed.
Print Assumptions C109_base.
Theorem C109_lists : forall db v,
  (at_path ["ignore"; "classes"] db = Some v -> class_ignore db = v) /\
  (at_path ["ignore"; "include"] db = Some v -> include_ignore db = v) /\
  (at_path ["functions"; "known"] db = Some v -> functions_known db = v) /\
  (at_path ["replacements"; "distros"] db = Some v -> distros_known db = v) /\
  (at_path ["images"; "known-classes"] db = Some v -> images_classes db = v) /\
  (at_path ["images"; "known-variables"] db = Some v -> images_variables db = v).
Proof. exact C109_lists_lemma. Qed.
Print Assumptions C109_lists.

Example C109_base_case :
  let db := CDict [("sets", CDict [("base", CDict [("A", CList ["x"]); ("B", CStr "y")])]); ("ignore", CDict [("classes", CList ["c"])])] in
  keys_once db /\ sets_base db = [("B", "y")] /\ class_ignore db = CList ["c"].
Proof.
  cbn zeta. split; [|split; vm_compute; reflexivity].
  cbn. repeat split; repeat constructor; cbn; intros H; repeat (destruct H as [H|H]; [discriminate H|]); exact H.
Qed.

(** After OverrideConstants, AddConstants and RemoveConstants they show the change
    and nothing else. *)
Theorem C109_change : forall name g p db b, In (name, g) getters -> In (name, p) documented -> keys_once b ->
  (forall db' v, override_constants db b = (db', None) -> at_path p b = Some v -> is_leaf v -> g db' = Ok v) /\
  (forall db' l old, add_constants db b = (db', None) -> at_path p b = Some (CList l) -> g db = Ok (CList old) ->
     g db' = Ok (CList (old ++ l))) /\
  (forall db' l old, remove_constants db b = (db', None) -> at_path p b = Some (CList l) -> g db = Ok (CList old) ->
     g db' = Ok (CList (filter (fun x => negb (mem_str x l)) old))) /\
  (forall db' v, (override_constants db b = (db', None) \/ add_constants db b = (db', None) \/ remove_constants db b = (db', None)) ->
     apart p b -> at_path p db = Some v -> g db' = Ok v).
Proof. exact C109_change_lemma. Qed.
Print Assumptions C109_change.

Example C109_case : In ("FunctionsKnown", FunctionsKnown) getters /\ In ("FunctionsKnown", ["functions"; "known"]) documented /\
  keys_once c_given /\ snd (add_constants c_db c_given) = None /\ snd (override_constants c_db c_given) = None /\
  FunctionsKnown c_db = Ok (CList ["do_a"; "do_b"]) /\
  FunctionsKnown (fst (add_constants c_db c_given)) = Ok (CList ["do_a"; "do_b"; "do_c"]) /\
  FunctionsKnown (fst (override_constants c_db c_given)) = Ok (CList ["do_c"]) /\
  ImagesClasses c_db = Ok (CDict []) /\ SetsBase (CDict [("sets", CStr "x")]) = Raise AttributeError.
Proof.
  split; [now left|]. split; [now left|]. split; [exact c_given_once|].
  repeat split; vm_compute; reflexivity.
Qed.
