(** * The other caches of the stash (functools.cache in cls_stash.py)

    The tables of GetFiles, GetValidPackageNames, GetValidNamedResources,
    GetPackagesDynamic and IsDynamicPackage, which lie above the tables of
    Cache.v.  Simplifications: the queries that ExpandTerm makes are answered
    without tables and leave no entries, as those of AddFile in Cache.v;
    SafeLineSplit, GuessRecipeName and GetScrComponents are functions of their
    arguments and the constants, which stay the same, so their tables are left
    out. *)

From Verif Require Import PyStr Regex Patterns PyPath Res Inline Const Item Lines Stash Cache Many.

(** One field for each decorated method (cls_stash.py:571, 807, 837, 898, 919). *)
Record upper := MkUpper {
  u_files : list ((str * str) * list str);
  u_names : list ((str * bool) * list str);
  u_named : list (str * list str);
  u_dynamic : list (str * list str);
  u_is : list ((str * str) * bool)
}.
(** functools.cache starts empty. (cls_stash.py:571, 807, 837, 898, 919.) *)
Definition no_upper : upper := MkUpper [] [] [] [] [].
(** _clear_cached (cls_stash.py:141-155); GetPackagesDynamic and
    IsDynamicPackage are not in it. *)
Definition clear_upper (u : upper) : upper := MkUpper [] [] [] (u_dynamic u) (u_is u).

(** Stores into one table (functools.cache). (cls_stash.py:571-592.) *)
Definition put_files x (u : upper) : upper := MkUpper (x :: u_files u) (u_names u) (u_named u) (u_dynamic u) (u_is u).
(** cls_stash.py:807-835. *)
Definition put_names x (u : upper) : upper := MkUpper (u_files u) (x :: u_names u) (u_named u) (u_dynamic u) (u_is u).
(** cls_stash.py:837-858. *)
Definition put_named x (u : upper) : upper := MkUpper (u_files u) (u_names u) (x :: u_named u) (u_dynamic u) (u_is u).
(** cls_stash.py:898-917. *)
Definition put_dynamic x (u : upper) : upper := MkUpper (u_files u) (u_names u) (u_named u) (x :: u_dynamic u) (u_is u).
(** cls_stash.py:919-935. *)
Definition put_is x (u : upper) : upper := MkUpper (u_files u) (u_names u) (u_named u) (u_dynamic u) (x :: u_is u).

(** Equality of keys (functools.cache). (cls_stash.py:571, 919.) *)
Definition key_two (a b : str * str) : bool := str_eqb (fst a) (fst b) && str_eqb (snd a) (snd b).
(** Key of GetValidPackageNames (cls_stash.py:807). *)
Definition key_flag (a b : str * bool) : bool := str_eqb (fst a) (fst b) && Bool.eqb (snd a) (snd b).

(** A call that may look into the tables: what it answers and leaves behind
    (functools.cache). (cls_stash.py:571-935.) *)
Definition upto (A : Type) : Type := A * (tables * upper).

(** The variables of a name (cls_stash.py:582, 818, 820, 849, 910). *)
Definition named_query (f v : str) : query := MkQuery (Some f) (AOne "Variable") (AOne "VarName") (AOne (VStr v)) false.
(** GetItemsFor with that query (cls_stash.py:582, 818, 820, 849, 910). *)
Definition vars_u (e : env) (s : stash) (f v : str) (t : tables) : list item * tables := items_c e s (named_query f v) t.

(** The loop of cls_stash.py:586-588. *)
Fixpoint origins_u (e : env) (s : stash) (l : list item) (t : tables) : list item * tables :=
  match l with
  | [] => ([], t)
  | x :: r => let '(a, t1) := items_c e s (MkQuery (Some (it_origin x)) ANone ANone ANone false) t in
              let '(b, t2) := origins_u e s r t1 in (a ++ b, t2)
  end.
(** GetFiles (cls_stash.py:571-592) *)
Definition files_u (e : env) (s : stash) (f p : str) (t : tables) (u : upper) : upto (list str) :=
  match look key_two (f, p) (u_files u) with
  | Some v => (v, (t, u))
  | None =>
      let '(uris, t1) := vars_u e s f "SRC_URI" t in
      let '(more, t2) := origins_u e s uris t1 in
      let glob_of (x : item) := dirname (it_origin x) ++ "/*/" ++ p in
      let v := sort_str (dedup_str (flat_map (fs_glob (e_fs e)) (dedup_str (map glob_of uris ++ map glob_of more)))) in
      (v, (t2, put_files ((f, p), v) u))
  end.

(** GetValidPackageNames (cls_stash.py:807-835); a call that raises stores nothing. *)
Definition names_u (e : env) (s : stash) (f : str) (strippn : bool) (t : tables) (u : upper) : upto (Res.res (list str)) :=
  match look key_flag (f, strippn) (u_names u) with
  | Some v => (Ok v, (t, u))
  | None =>
      let '(a, t1) := vars_u e s f "PACKAGES" t in
      let '(b, t2) := vars_u e s f "PACKAGE_BEFORE_PN" t1 in
      let r := fold_res (fun acc pn =>
        fold_res (fun acc i =>
          do v <- expand_term_full e s f (stripped i) ["PN"] [] None;
          Ok (acc ++ map (fun p => replace "${PN}" (if strippn then [] else pn) p) (keep_nonempty (stash_linesplit v))))
          (a ++ b) (acc ++ [pn; pn ++ "-ptest"] ++ map (fun x => pn ++ "-" ++ x) pkg_suffixes))
        ["${PN}"; guess_recipe_name f] [] in
      (r, (t2, match r with Ok v => put_names ((f, strippn), v) u | _ => u end))
  end.

(** GetValidNamedResources (cls_stash.py:837-858) *)
Definition named_u (e : env) (s : stash) (f : str) (t : tables) (u : upper) : upto (list str) :=
  match look str_eqb f (u_named u) with
  | Some v => (v, (t, u))
  | None =>
      let '(l, t1) := vars_u e s f "SRC_URI" t in
      let pn := guess_recipe_name f in
      let v := pn :: flat_map (fun i =>
          flat_map (fun n => match dget "name" (snd (scr_components e s n)) with
                             | Some v => [replace "${PN}" pn v]
                             | None => []
                             end) (keep_nonempty (stash_linesplit (stripped i)))) l in
      (v, (t1, put_named (f, v) u))
  end.

(** GetPackagesDynamic (cls_stash.py:898-917) *)
Definition dynamic_u (e : env) (s : stash) (f : str) (t : tables) (u : upper) : upto (Res.res (list str)) :=
  match look str_eqb f (u_dynamic u) with
  | Some v => (Ok v, (t, u))
  | None =>
      let '(l, t1) := vars_u e s f "PACKAGES_DYNAMIC" t in
      let r := fold_res (fun acc i => do v <- expand_term e s f (stripped i); Ok (acc ++ stash_linesplit v)) l [] in
      (r, (t1, match r with Ok v => put_dynamic (f, v) u | _ => u end))
  end.

(** The loop of IsDynamicPackage (cls_stash.py:931-935). *)
Fixpoint any_pattern (n : str) (l : list str) : Res.res bool :=
  match l with
  | [] => Ok false
  | p :: r => match dyn_pattern p with
              | None => Raise RegexUnsupported
              | Some rx => if matched (re_match rx n) then Ok true else any_pattern n r
              end
  end.
(** IsDynamicPackage (cls_stash.py:919-935) *)
Definition is_dynamic_u (e : env) (s : stash) (f n : str) (t : tables) (u : upper) : upto (Res.res bool) :=
  match look key_two (f, n) (u_is u) with
  | Some b => (Ok b, (t, u))
  | None =>
      match expand_term e s f n with
      | Ok x =>
          let '(r, (t1, u1)) := dynamic_u e s f t u in
          match r with
          | Ok ps => let b := any_pattern x (e_sset e ps) in
                     (b, (t1, match b with Ok v => put_is ((f, n), v) u1 | _ => u1 end))
          | Raise x => (Raise x, (t1, u1))
          | NoFuel => (NoFuel, (t1, u1))
          end
      | Raise x => (Raise x, (t, u))
      | NoFuel => (NoFuel, (t, u))
      end
  end.

(** A call of the API, and its answer (cls_stash.py:157-935). *)
Inductive ucall :=
| UBase (c : call)
| UFiles (f p : str) | UNames (f : str) (strippn : bool) | UNamed (f : str) | UDynamic (f : str) | UIsDynamic (f n : str).
(** Answers of cls_stash.py:157-935. *)
Inductive uanswer := RBase (a : answer) | RTexts (r : Res.res (list str)) | RAnswer (r : Res.res bool).
(** The stash and its tables (cls_stash.py:122-155). *)
Definition ustate : Type := stash * (tables * upper).
(** The answer of a call that changes tables only (cls_stash.py:571-935). *)
Definition reply {A} (g : A -> uanswer) (s : stash) (x : upto A) : uanswer * ustate := (g (fst x), (s, snd x)).
(** One call (cls_stash.py:157-935); the updates clear the tables. *)
Definition ucall_c (e : env) (c : ucall) (x : ustate) : uanswer * ustate :=
  let '(s, (t, u)) := x in
  match c with
  | UBase c => let '(a, (s', t')) := call_c e c (s, t) in
               (RBase a, (s', (t', if clears e c false s then clear_upper u else u)))
  | UFiles f p => reply (fun l => RTexts (Ok l)) s (files_u e s f p t u)
  | UNames f b => reply RTexts s (names_u e s f b t u)
  | UNamed f => reply (fun l => RTexts (Ok l)) s (named_u e s f t u)
  | UDynamic f => reply RTexts s (dynamic_u e s f t u)
  | UIsDynamic f n => reply RAnswer s (is_dynamic_u e s f n t u)
  end.
(** The answers of a sequence of calls (cls_stash.py:157-935). *)
Fixpoint ucalls_c (e : env) (cs : list ucall) (x : ustate) : list uanswer * ustate :=
  match cs with
  | [] => ([], x)
  | c :: r => let '(a, x1) := ucall_c e c x in let '(l, x2) := ucalls_c e r x1 in (a :: l, x2)
  end.
