(** * The stash without caches (cls_stash.py) and the parser (parser.py:235-470)

    Results of [functools.cache]d methods are recomputed here; Cache.v adds the
    caches.  Simplifications: progress output (cls_stash.py:176-177) is left
    out; SHA-1 is kept as the list of texts fed into it (cls_stash.py:137,
    227); set iteration order, [repr] of items and urlparse are given by the
    environment. *)

From Verif Require Import PyStr Regex Patterns Res Inline Const Item Lines PyPath.
From Coq Require Import Permutation.

(** ** Environment *)

(** Removal of duplicates, keeping first occurrences; items are compared by
    identity (cls_item.py defines no [__eq__]). *)
Fixpoint dedup_str (l : list str) : list str :=
  match l with
  | [] => []
  | x :: r => x :: filter (fun y => negb (str_eqb x y)) (dedup_str r)
  end.
(** A set of items (cls_stash.py:425). *)
Fixpoint dedup_items (l : list item) : list item :=
  match l with
  | [] => []
  | x :: r => x :: filter (fun y => negb (Nat.eqb (it_id x) (it_id y))) (dedup_items r)
  end.

(** What is outside of the program: file system, iteration order of sets of
    items (cls_stash.py:425) and of strings (cls_stash.py:293, 334), the text
    of an item (cls_item.py:260-261, with the order of attributes and of sets)
    and urlparse (cls_stash.py:658; [None] for ValueError). *)
Record env := MkEnv {
  e_fs : fs;
  e_iset : list item -> list item;
  e_sset : list str -> list str;
  e_repr : item -> str;
  e_url : str -> option (str * str * str)
}.

(** Sets iterate over each member once. (cls_stash.py:293, 334, 425.) *)
Definition env_ok (e : env) : Prop :=
  (forall l, Permutation (e_iset e l) (dedup_items l)) /\
  (forall l, Permutation (e_sset e l) (dedup_str l)).

(** ** State (cls_stash.py:122-139) with the global constants *)
Record stash := MkStash {
  st_list : list item;
  st_seen : list str;
  st_seenc : list str;
  st_map : list (str * list str);
  st_new : bool;
  st_neg : bool;
  st_fp : list str;
  st_const : cval;
  st_next : nat           (* next object identity *)
}.

(** Python's text of a truth value, for cls_stash.py:137. *)
Definition bool_str (b : bool) : str := if b then "True" else "False".

(** Stash.__init__ (cls_stash.py:122-139) *)
Definition new_stash (new neg : bool) (db : cval) : stash :=
  MkStash [] [] [] [] new neg [bool_str new ++ ":" ++ bool_str neg] db 0.

(** Assignment to self.__list (cls_stash.py:130, 220). *)
Definition with_list (l : list item) (s : stash) : stash :=
  MkStash l (st_seen s) (st_seenc s) (st_map s) (st_new s) (st_neg s) (st_fp s) (st_const s) (st_next s).
(** Assignment to the sets of seen files (cls_stash.py:131-132, 178-180). *)
Definition with_seen (a b : list str) (s : stash) : stash :=
  MkStash (st_list s) a b (st_map s) (st_new s) (st_neg s) (st_fp s) (st_const s) (st_next s).
(** Assignment to self.__map (cls_stash.py:133, 187-191). *)
Definition with_map (mp : list (str * list str)) (s : stash) : stash :=
  MkStash (st_list s) (st_seen s) (st_seenc s) mp (st_new s) (st_neg s) (st_fp s) (st_const s) (st_next s).
(** Update of the fingerprint (cls_stash.py:137, 227). *)
Definition with_fp (l : list str) (s : stash) : stash :=
  MkStash (st_list s) (st_seen s) (st_seenc s) (st_map s) (st_new s) (st_neg s) l (st_const s) (st_next s).
(** Change of CONSTANTS (cls_stash.py:280, 283). *)
Definition with_const (c : cval) (s : stash) : stash :=
  MkStash (st_list s) (st_seen s) (st_seenc s) (st_map s) (st_new s) (st_neg s) (st_fp s) c (st_next s).
(** Creation of an item (parser.py:295 ff.). *)
Definition with_next (n : nat) (s : stash) : stash :=
  MkStash (st_list s) (st_seen s) (st_seenc s) (st_map s) (st_new s) (st_neg s) (st_fp s) (st_const s) n.

(** ** Sorting *)

(** Stable sort by Line (cls_stash.py:425, 489, 527, 548). *)
Fixpoint insert_item (x : item) (l : list item) : list item :=
  match l with
  | [] => [x]
  | y :: r => if Z.leb (it_line x) (it_line y) then x :: l else y :: insert_item x r
  end.
(** sorted by Line (cls_stash.py:425, 489, 527, 548). *)
Definition sort_items (l : list item) : list item := fold_right insert_item [] l.

(** sorted() of strings (cls_stash.py:309, 325, 343, 592). *)
Fixpoint insert_str (x : str) (l : list str) : list str :=
  match l with
  | [] => [x]
  | y :: r => if str_leb x y then x :: l else y :: insert_str x r
  end.
(** sorted() of strings (cls_stash.py:309, 325, 343, 592). *)
Definition sort_str (l : list str) : list str := fold_right insert_str [] l.

(** ** Queries *)

(** An argument that may be absent, a single value, or a collection
    (cls_stash.py:410-415). *)
Inductive arg (A : Type) := ANone | AOne (a : A) | AMany (l : list A).
Arguments ANone {A}. Arguments AOne {A} a. Arguments AMany {A} l.
(** cls_stash.py:410-415. *)
Definition norm_arg {A} (truth : A -> bool) (a : arg A) : list A :=
  match a with
  | ANone => []
  | AOne x => if truth x then [x] else []
  | AMany l => l
  end.

(** A query (cls_stash.py:390-396, 427-432). *)
Record query := MkQuery {
  q_file : option str;
  q_class : arg str;
  q_attr : arg str;
  q_val : arg pyval;
  q_nolink : bool
}.

(** __is_linked_to (cls_stash.py:345-347) *)
Definition is_linked_to (mp : list (str * list str)) (origin filename : str) (nolink : bool) : bool :=
  (mem_str origin (match dget filename mp with Some l => l | None => [] end) && negb nolink)
  || str_eqb filename origin.

(** __get_items_by_file (cls_stash.py:349-353) *)
Definition by_file (mp : list (str * list str)) (items : list item) (filename : str) (nolink : bool)
  : list item :=
  match filename with
  | [] => items
  | _ => filter (fun x => is_linked_to mp (it_origin x) filename nolink) items
  end.

(** __get_items_by_classifier (cls_stash.py:355-359) *)
Definition by_classifier (items : list item) (cl : list str) : list item :=
  match cl with
  | [] => items
  | _ => filter (fun x => mem_str (classifier x) cl) items
  end.

(** __get_items_by_attribute (cls_stash.py:361-374) *)
Definition attr_filter (names : list str) (vals : list pyval) (x : item) : bool :=
  existsb (fun name =>
             match dget name (attributes x) with
             | None => false
             | Some v => match vals with
                         | [] => true
                         | _ => existsb (fun w => pyval_eqb w v) vals
                         end
             end) names.
(** __get_items_by_attribute (cls_stash.py:361-374). *)
Definition by_attribute (items : list item) (names : list str) (vals : list pyval) : list item :=
  match names with
  | [] => items
  | _ => filter (attr_filter names vals) items
  end.

(** Reduce (cls_stash.py:390-425) *)
Definition reduce_ (e : env) (s : stash) (items : list item) (q : query) : list item :=
  let cl := norm_arg nonempty (q_class q) in
  let at_ := norm_arg nonempty (q_attr q) in
  let vl := norm_arg pyval_true (q_val q) in
  let l1 := match q_file q with Some f => by_file (st_map s) items f (q_nolink q) | None => items end in
  let l2 := by_classifier l1 cl in
  let l3 := by_attribute l2 at_ vl in
  sort_items (e_iset e l3).

(** GetItemsFor (cls_stash.py:427-451) *)
Definition get_items_for (e : env) (s : stash) (q : query) : list item :=
  reduce_ e s (st_list s) q.

(** The query for variables of a name (cls_stash.py:583, 755, 819, 848, 879, 909). *)
Definition vars_named (e : env) (s : stash) (file : str) (name : str) : list item :=
  get_items_for e s (MkQuery (Some file) (AOne "Variable") (AOne "VarName") (AOne (VStr name)) false).

(** GetLinksForFile (cls_stash.py:376-388) *)
Definition get_links_for_file (e : env) (s : stash) (filename : str) : list str :=
  match filename with
  | [] => []
  | _ => map it_origin (filter (fun x => negb (str_eqb (it_origin x) filename))
                               (by_file (st_map s) (e_iset e (st_list s)) filename false))
  end.

(** GetRecipes (cls_stash.py:302-309) *)
Definition get_recipes (s : stash) : list str :=
  sort_str (dedup_str (filter (endswith ".bb") (dkeys (st_map s)))).

(** GetLoneAppends (cls_stash.py:311-325) *)
Definition linked_appends (s : stash) : list str :=
  flat_map (fun kv => if endswith ".bb" (fst kv) then filter (endswith ".bbappend") (snd kv) else [])
           (st_map s).
(** GetLoneAppends (cls_stash.py:311-325). *)
Definition get_lone_appends (s : stash) : list str :=
  sort_str (dedup_str (filter (fun x => negb (mem_str x (linked_appends s)))
                              (filter (endswith ".bbappend") (map it_origin (st_list s))))).

(** GetConfFiles (cls_stash.py:327-334); the order is that of a set. *)
Definition get_conf_files (e : env) (s : stash) : list str :=
  e_sset e (filter (endswith ".conf") (map it_origin (st_list s))).

(** GetBBClasses (cls_stash.py:336-343) *)
Definition get_bbclasses (s : stash) : list str :=
  sort_str (dedup_str (filter (endswith ".bbclass") (map it_origin (st_list s)))).

(** ** Names from files *)

(** GuessRecipeName (cls_stash.py:683-694) *)
Definition guess_recipe_name (f : str) : str :=
  hd [] (split_char 95 (fst (splitext (basename f)))).

(** GuessBaseRecipeName (cls_stash.py:696-710) *)
Definition strip_class_affixes (pn : str) : str :=
  let t := re_sub re_class_id (group_str "2") pn in
  let t := re_sub re_class_id_native (group_str "1") t in
  re_sub re_class_id_cross (group_str "1") t.
(** GuessBaseRecipeName (cls_stash.py:696-710). *)
Definition guess_base_recipe_name (f : str) : str := strip_class_affixes (guess_recipe_name f).

(** GuessRecipeVersion (cls_stash.py:712-724) *)
Definition guess_recipe_version (f : str) : option str :=
  match split_char 95 (fst (splitext (basename f))) with
  | _ :: v :: _ => Some v
  | _ => None
  end.
(** [GuessRecipeVersion(f) or "1.0"] (cls_stash.py:485, 786) *)
Definition version_or_default (f : str) : str :=
  match guess_recipe_version f with
  | Some (c :: v) => c :: v
  | _ => "1.0"
  end.

(** ** Expansion *)

(** Parts of variables used below. VarValue (cls_item.py:322-329.) *)
Definition var_value (x : item) : str :=
  match it_pay x with PVariable _ _ _ v _ _ => v | _ => [] end.
(** SubItems (cls_item.py:313-320). *)
Definition var_subs (x : item) : list str :=
  match it_pay x with PVariable _ _ l _ _ _ => l | _ => [] end.
(** VarOp (cls_item.py:335-342). *)
Definition var_op (x : item) : str :=
  match it_pay x with PVariable _ _ _ _ o _ => o | _ => [] end.
(** VarName (cls_item.py:295-302). *)
Definition var_name (x : item) : str :=
  match it_pay x with PVariable n _ _ _ _ _ => n | _ => [] end.
(** VarValueStripped (cls_item.py:372-378). *)
Definition stripped (x : item) : str := var_value_stripped (var_value x).

(** _ReverseInlineBlock (cls_stash.py:726-730) *)
Definition reverse_blocks (blocks : list (str * str)) (v : str) : str :=
  fold_left (fun res b => replace1 (snd b) (fst b) res) blocks v.
(** _ReverseInlineBlock (cls_stash.py:726-730). *)
Definition reverse_inline_block (x : item) : str := reverse_blocks (it_blocks x) (stripped x).

(** [VarValueStripped] with inline code put back if there was any
    (cls_stash.py:762-765). *)
Definition var_content (x : item) : str :=
  if contains INLINE_BLOCK (stripped x) then reverse_inline_block x else stripped x.

(** The first definition that is no append operation (cls_stash.py:755-757). *)
Definition first_definition (e : env) (s : stash) (file name : str) : option item :=
  match filter (fun x => match append_operation (var_op x) (var_subs x) with [] => true | _ => false end)
               (vars_named e s file name) with
  | [] => None
  | x :: _ => Some x
  end.

(** Values derived from the file (cls_stash.py:780-791). *)
Definition builtin_value (file name quote : str) : option str :=
  if str_eqb name "PN" then Some (guess_recipe_name file)
  else if str_eqb name "BPN" then Some (guess_base_recipe_name file)
  else if str_eqb name "PV" then Some (version_or_default file)
  else if str_eqb name "FILE" then Some (quote ++ file ++ quote)
  else if str_eqb name "THISDIR" then Some (quote ++ dirname file ++ quote)
  else None.

(** The dictionary [seen] of cls_stash.py:746. *)
Definition seen_t := list (str * str).

(** _expand (cls_stash.py:752-792); [rec] is the recursive call of ExpandTerm
    with the shared [seen]. *)
Definition expand_one (e : env) (s : stash) (file : str)
           (rec : str -> seen_t -> Res.res (str * seen_t))
           (spare : list str) (quote : str) (x : str * seen_t) (mt : rmatch)
  : Res.res (str * seen_t) :=
  let '(res, seen) := x in
  let n := group_str "1" mt in
  if mem_str n spare then Ok (res, seen)
  else
    let from_text (cnt : str) :=
      match dget n seen with
      | Some r => Ok (replace (g0 mt) r res, seen)
      | None =>
          do y <- rec cnt (dset n [] seen);
          Ok (replace (g0 mt) (fst y) res, dset n (fst y) (snd y))
      end in
    match first_definition e s file n with
    | Some d => from_text (var_content d)
    | None =>
        match dget n (sets_base (st_const s)) with
        | Some v => from_text v
        | None =>
            match builtin_value file n quote with
            | Some v => Ok (replace (g0 mt) v res, seen)
            | None => Ok (res, seen)
            end
        end
    end.

(** A loop over matches that may raise. (cls_stash.py:793-804.) *)
Fixpoint fold_res {A B} (f : A -> B -> Res.res A) (l : list B) (a : A) : Res.res A :=
  match l with
  | [] => Ok a
  | x :: r => do a' <- f a x; fold_res f r a'
  end.

(** One read_file match (cls_stash.py:797-804); [rec] is the recursive call.
    An empty [seen] is not shared with the callee ([seen or {}],
    cls_stash.py:746). *)
Definition read_file_one (w : fs) (rec : str -> seen_t -> Res.res (str * seen_t))
           (x : str * seen_t) (mt : rmatch) : Res.res (str * seen_t) :=
  let '(_, seen) := x in
  do y <- rec (group_str "file" mt) seen;
  let seen' := match seen with [] => [] | _ => snd y end in
  match fs_read w (strip [cSQ; cDQ] (fst y)) with
  | RdText t => Ok (universal_newlines t, seen')
  | RdNotFound => Ok ([], seen')
  | RdDenied => Ok ([], seen')
  | RdOther => Raise OSError
  end.

(** ExpandTerm (cls_stash.py:732-805) without [objref].  [vf] bounds the
    nesting of variables, [lf] the nesting of read_file arguments. *)
Fixpoint expand_f (vf : nat) (e : env) (s : stash) (file : str) {struct vf}
  : nat -> list str -> str -> seen_t -> Res.res (str * seen_t) :=
  fix inner (lf : nat) (spare : list str) (value : str) (seen : seen_t) {struct lf} :=
    let rec_var (cnt : str) (sn : seen_t) : Res.res (str * seen_t) :=
      match vf with
      | O => NoFuel
      | S vf' => expand_f vf' e s file (length cnt) [] cnt sn
      end in
    let rec_file (v : str) (sn : seen_t) : Res.res (str * seen_t) :=
      match lf with
      | O => NoFuel
      | S lf' => inner lf' spare v sn
      end in
    do x1 <- fold_res (expand_one e s file rec_var spare []) (re_finditer re_var_ref value) (value, seen);
    do x2 <- fold_res (expand_one e s file rec_var spare [cDQ]) (re_finditer re_var_ref2 value) x1;
    fold_res (read_file_one (e_fs e) rec_file) (re_finditer re_read_file value) x2.

(** Enough fuel: every nested expansion is of a new name. (cls_stash.py:761, 773.) *)
Definition expand_fuel (s : stash) : nat :=
  length (st_list s) + length (sets_base (st_const s)).
(** ExpandTerm without objref (cls_stash.py:732-805). *)
Definition expand_seen (e : env) (s : stash) (file value : str) (spare : list str) (seen : seen_t)
  : Res.res (str * seen_t) :=
  expand_f (expand_fuel s) e s file (length value) spare value seen.

(** ExpandTerm as called from outside (cls_stash.py:732-805). *)
Definition expand_term_full (e : env) (s : stash) (file value : str) (spare : list str)
           (seen : seen_t) (objref : option item) : Res.res str :=
  let value := match objref with
               | Some x => if contains INLINE_BLOCK value then reverse_inline_block x else value
               | None => value
               end in
  do y <- expand_seen e s file value spare seen; Ok (fst y).
(** ExpandTerm with default arguments (cls_stash.py:732-805). *)
Definition expand_term (e : env) (s : stash) (file value : str) : Res.res str :=
  expand_term_full e s file value [] [] None.

(** *** ExpandVar (cls_stash.py:453-569) *)

(** Values of [_exp]: [None] or a text. (cls_stash.py:483-488.) *)
Definition exp_t := list (str * option str).
(** [_exp[name] or ""] (cls_stash.py:511-525). *)
Definition exp_str (n : str) (x : exp_t) : str :=
  match dget n x with Some (Some v) => v | _ => [] end.
(** cls_stash.py:499, 533, 554. *)
Definition item_name_nomod (i : item) : str := var_name_nomod (it_new i) (var_name i) (var_subs i).

(** First pass, one item (cls_stash.py:489-525). *)
Definition exp_pass1 (x : exp_t) (i : item) : exp_t :=
  match it_pay i with
  | PUnset n f => match f with [] => ddel n x | _ => x end
  | _ =>
      if is_immediate (var_subs i) then
        let op := var_op i in
        let n := item_name_nomod i in
        let x := if dhas n x then x else dset n None x in
        let v := stripped i in
        let unset := match dget n x with Some (Some _) => false | _ => true end in
        if contains INLINE_BLOCK v then dset n (Some (reverse_inline_block i)) x
        else if mem_str op [" = "; " := "] then dset n (Some v) x
        else if str_eqb op " ?= " && unset then dset n (Some v) x
        else if str_eqb op " ??= " && unset then dset n (Some v) x
        else if str_eqb op " += " then dset n (Some (exp_str n x ++ " " ++ v)) x
        else if str_eqb op " =+ " then dset n (Some (v ++ " " ++ exp_str n x)) x
        else if str_eqb op " .= " then dset n (Some (exp_str n x ++ v)) x
        else if str_eqb op " =. " then dset n (Some (v ++ exp_str n x)) x
        else x
      else x
  end.

(** Second pass, one item (cls_stash.py:527-546). *)
Definition exp_pass2 (x : exp_t) (i : item) : exp_t :=
  match it_pay i with
  | PUnset _ _ => x
  | _ =>
      if is_immediate (var_subs i) then x
      else
        let n := item_name_nomod i in
        let v := stripped i in
        if negb (dhas n x) then dset n (Some v) x
        else if mem_str "append" (var_subs i) then dset n (Some (exp_str n x ++ v)) x
        else if mem_str "prepend" (var_subs i) then dset n (Some (v ++ exp_str n x)) x
        else x
  end.

(** Third pass, one item (cls_stash.py:548-560). *)
Definition exp_pass3 (x : exp_t) (i : item) : exp_t :=
  match it_pay i with
  | PUnset _ _ => x
  | _ =>
      if is_immediate (var_subs i) then x
      else
        let n := item_name_nomod i in
        let v := stripped i in
        let x := if dhas n x then x else dset n None x in
        if mem_str "remove" (var_subs i) then dset n (Some (replace v [] (exp_str n x))) x
        else x
  end.

(** The start value of [_exp] (cls_stash.py:483-488). *)
Definition exp_init (s : stash) (filename : str) : exp_t :=
  fold_left (fun x kv => dset (fst kv) (Some (snd kv)) x) (sets_base (st_const s))
            [ ("PN", Some (guess_recipe_name filename));
              ("PV", Some (version_or_default filename));
              ("BPN", Some (guess_base_recipe_name filename)) ].

(** All passes (cls_stash.py:489-560). *)
Definition exp_passes (items : list item) (x : exp_t) : exp_t :=
  let l := sort_items items in
  fold_left exp_pass3 l (fold_left exp_pass2 l (fold_left exp_pass1 l x)).

(** Final pass, one entry (cls_stash.py:561-568). *)
Definition exp_final_one (e : env) (s : stash) (filename : str)
           (acc : list (str * list str)) (kv : str * option str) : Res.res (list (str * list str)) :=
  do k <- expand_term e s filename (fst kv);
  do v <- expand_term e s filename (match snd kv with Some v => v | None => [] end);
  Ok (dset k ((match dget k acc with Some l => l | None => [] end) ++ safe_linesplit v) acc).

(** The items looked at (cls_stash.py:469-476). *)
Definition expand_var_items (e : env) (s : stash) (filename : option str) (att : arg str)
           (val : arg pyval) (nolink : bool) : list item :=
  get_items_for e s (MkQuery filename (AOne "Variable") att val nolink)
  ++ get_items_for e s (MkQuery filename (AOne "Unset") ANone ANone false).

(** ExpandVar (cls_stash.py:453-569) *)
Definition expand_var (e : env) (s : stash) (filename : option str) (att : arg str)
           (val : arg pyval) (nolink : bool) : Res.res (list (str * list str)) :=
  let items := expand_var_items e s filename att val nolink in
  let run (fn : str) :=
    fold_res (exp_final_one e s fn) (exp_passes items (exp_init s fn)) [] in
  match filename with
  | Some fn => run fn
  | None => match items with
            | [] => Ok []
            | i :: _ => run (it_origin i)
            end
  end.

(** ** Further queries *)

(** GetFiles (cls_stash.py:571-592) *)
Definition get_files (e : env) (s : stash) (file pattern : str) : list str :=
  let uris := vars_named e s file "SRC_URI" in
  let glob_of (x : item) := dirname (it_origin x) ++ "/*/" ++ pattern in
  let paths := map glob_of uris
               ++ flat_map (fun u => map glob_of (get_items_for e s
                     (MkQuery (Some (it_origin u)) ANone ANone ANone false))) uris in
  sort_str (dedup_str (flat_map (fs_glob (e_fs e)) (dedup_str paths))).

(** SafeLineSplit (cls_stash.py:671-681) *)
Definition stash_linesplit (x : str) : list str := re_split re_stash_split x.

(** _replace_with_known_mirrors (cls_stash.py:638-644) *)
Definition replace_mirrors (db : cval) (x : str) : str :=
  fold_left (fun acc kv => replace (fst kv) (snd kv) acc) (str_entries (mirrors_known db)) x.

(** GetScrComponents (cls_stash.py:646-669): scheme, src, options. *)
Definition parse_options (l : list str) : list (str * str) :=
  fold_left (fun acc o => if contains "=" o
                          then dset (hd [] (split_char 61 o)) (nth 1 (split_char 61 o) []) acc
                          else acc) l [].
(** GetScrComponents (cls_stash.py:646-669). *)
Definition scr_components (e : env) (s : stash) (x : str) : str * str * list (str * str) :=
  let raw := replace_mirrors (st_const s) x in
  match e_url e raw with
  | None => ([], [], [])
  | Some (scheme, netloc, path) =>
      let tmp := match path with [] => netloc | _ => netloc ++ "/" ++ lstrip "/" path end in
      (scheme, hd [] (split_char 59 tmp),
       parse_options (if contains ";" raw then tl (split_char 59 raw) else []))
  end.

(** GetValidPackageNames (cls_stash.py:807-835); a set, as list. *)
Definition pkg_suffixes : list str := ["src"; "dbg"; "staticdev"; "dev"; "doc"; "locale"].
(** GetValidPackageNames (cls_stash.py:807-835). *)
Definition valid_package_names (e : env) (s : stash) (file : str) (strippn : bool)
  : Res.res (list str) :=
  let comp := vars_named e s file "PACKAGES" ++ vars_named e s file "PACKAGE_BEFORE_PN" in
  fold_res (fun acc pn =>
    fold_res (fun acc i =>
      do v <- expand_term_full e s file (stripped i) ["PN"] [] None;
      Ok (acc ++ map (fun p => replace "${PN}" (if strippn then [] else pn) p)
                     (keep_nonempty (stash_linesplit v))))
      comp (acc ++ [pn; pn ++ "-ptest"] ++ map (fun x => pn ++ "-" ++ x) pkg_suffixes))
    ["${PN}"; guess_recipe_name file] [].

(** GetValidNamedResources (cls_stash.py:837-858); a set, as list. *)
Definition valid_named_resources (e : env) (s : stash) (file : str) : list str :=
  let pn := guess_recipe_name file in
  pn :: flat_map (fun i =>
          flat_map (fun n => match dget "name" (snd (scr_components e s n)) with
                             | Some v => [replace "${PN}" pn v]
                             | None => []
                             end) (keep_nonempty (stash_linesplit (stripped i))))
        (vars_named e s file "SRC_URI").

(** The inherit items of a file (cls_stash.py:872, 894). *)
Definition inherits_of (e : env) (s : stash) (file : str) : list item :=
  get_items_for e s (MkQuery (Some file) (AOne "Inherit") ANone ANone false).

(** IsImage (cls_stash.py:860-882) *)
Definition is_image (e : env) (s : stash) (file : str) : bool :=
  existsb (fun i => existsb (fun x => cval_contains x (images_classes (st_const s))) (get_items_of i))
          (inherits_of e s file)
  || existsb (fun v => match vars_named e s file v with [] => false | _ => true end)
             (cval_iter (images_variables (st_const s))).

(** IsPackageGroup (cls_stash.py:884-896) *)
Definition is_packagegroup (e : env) (s : stash) (file : str) : bool :=
  existsb (fun i => mem_str "packagegroup" (get_items_of i)) (inherits_of e s file).

(** GetPackagesDynamic (cls_stash.py:898-917); a set, as list. *)
Definition packages_dynamic (e : env) (s : stash) (file : str) : Res.res (list str) :=
  fold_res (fun acc i => do v <- expand_term e s file (stripped i); Ok (acc ++ stash_linesplit v))
           (vars_named e s file "PACKAGES_DYNAMIC") [].

(** IsDynamicPackage (cls_stash.py:919-935) *)
Definition is_dynamic_package (e : env) (s : stash) (file name : str) : Res.res bool :=
  do n <- expand_term e s file name;
  do ps <- packages_dynamic e s file;
  (fix go (l : list str) : Res.res bool :=
     match l with
     | [] => Ok false
     | p :: r => match dyn_pattern p with
                 | None => Raise RegexUnsupported
                 | Some rx => if matched (re_match rx n) then Ok true else go r
                 end
     end) (e_sset e ps).

(** ** Updates *)

(** Computations on the stash that may raise and keep the state reached. (as the methods of cls_stash.py:157-300.) *)
Definition M (A : Type) := stash -> Res.res A * stash.
(** A result without effect (cls_stash.py:173). *)
Definition ret {A} (a : A) : M A := fun s => (Ok a, s).
(** One statement after the other (cls_stash.py:170-229). *)
Definition bindM {A B} (x : M A) (f : A -> M B) : M B :=
  fun s => match x s with
           | (Ok a, s') => f a s'
           | (Raise ex, s') => (Raise ex, s')
           | (NoFuel, s') => (NoFuel, s')
           end.
(** Reading the state (cls_stash.py:172). *)
Definition liftR {A} (f : stash -> Res.res A) : M A := fun s => (f s, s).
Notation "'dom' x <- e1 ; e2" := (bindM e1 (fun x => e2))
  (at level 200, x pattern, e1 at level 100, e2 at level 200, right associativity).

(** Append (cls_stash.py:240-253) *)
Definition append_items (l : list item) (s : stash) : stash := with_list (st_list s ++ l) s.

(** [list.remove] (cls_stash.py:263, 265): first object that is the same. *)
Fixpoint remove_first (x : item) (l : list item) : option (list item) :=
  match l with
  | [] => None
  | y :: r => if Nat.eqb (it_id y) (it_id x) then Some r
              else match remove_first x r with Some r' => Some (y :: r') | None => None end
  end.
(** Remove (cls_stash.py:255-268) *)
Fixpoint remove_items (l : list item) (s : stash) : Res.res unit * stash :=
  match l with
  | [] => (Ok tt, s)
  | x :: r => match remove_first x (st_list s) with
              | Some l' => remove_items r (with_list l' s)
              | None => (Raise ValueError, s)
              end
  end.

(** AddDistroMachineFromLayer (cls_stash.py:270-283) *)
Definition add_names (key : str) (confs : list str) : M unit :=
  fun s =>
    (fix go (l : list str) (s : stash) : Res.res unit * stash :=
       match l with
       | [] => (Ok tt, s)
       | c :: r =>
           let fn := fst (splitext (basename c)) in
           match add_constants (st_const s)
                   (CDict [("replacements", CDict [(key, CList [fn])])]) with
           | (db, None) => go r (with_const db s)
           | (db, Some ex) => (Raise ex, with_const db s)
           end
       end) confs s.
(** AddDistroMachineFromLayer (cls_stash.py:270-283). *)
Definition add_distro_machine (e : env) (path : str) : M unit :=
  match get_layer_root (S (length path)) (e_fs e) path with
  | None => fun s => (NoFuel, s)
  | Some [] => ret tt
  | Some root =>
      dom _ <- add_names "distros" (fs_glob (e_fs e) (path_join (path_join (path_join root "conf") "distro") "*.conf"));
      add_names "machines" (fs_glob (e_fs e) (path_join (path_join (path_join root "conf") "machine") "*.conf"))
  end.

(** *** Finalize (cls_stash.py:285-300) *)

(** Linking of one file (cls_stash.py:290-293). *)
Fixpoint link_items (k : str) (items : list str) (mp : list (str * list str))
  : Res.res unit * list (str * list str) :=
  match items with
  | [] => (Ok tt, mp)
  | i :: r =>
      match dget i mp with
      | None => (Raise KeyError, mp)
      | Some l => link_items k r (dset k ((match dget k mp with Some x => x | None => [] end) ++ l) mp)
      end
  end.
(** cls_stash.py:290-293. *)
Definition link_one (e : env) (k : str) (mp : list (str * list str))
  : Res.res unit * list (str * list str) :=
  match dget k mp with
  | None => (Raise KeyError, mp)
  | Some l =>
      match link_items k l mp with
      | (Ok _, mp') =>
          (Ok tt, dset k (e_sset e ((match dget k mp' with Some x => x | None => [] end) ++ [k])) mp')
      | (x, mp') => (x, mp')
      end
  end.
(** The loop of cls_stash.py:289-293. *)
Fixpoint link_all (e : env) (ks : list str) (mp : list (str * list str))
  : Res.res unit * list (str * list str) :=
  match ks with
  | [] => (Ok tt, mp)
  | k :: r => match link_one e k mp with
              | (Ok _, mp') => link_all e r mp'
              | (x, mp') => (x, mp')
              end
  end.

(** IncludedFrom of the items of one file (cls_stash.py:295-297). *)
Definition mark_items (ids : list nat) (v : list str) (l : list item) : list item :=
  map (fun i => if existsb (Nat.eqb (it_id i)) ids then add_incfrom v i else i) l.
(** [GetItemsFor(k)] (cls_stash.py:296). *)
Definition file_query (f : str) : query := MkQuery (Some f) ANone ANone ANone false.
(** cls_stash.py:296-297. *)
Definition mark_file (e : env) (s : stash) (kv : str * list str) : stash :=
  with_list (mark_items (map it_id (get_items_for e s (file_query (fst kv)))) (snd kv) (st_list s)) s.

(** Finalize (cls_stash.py:285-300) *)
Definition finalize (e : env) : M unit :=
  fun s => match link_all e (dkeys (st_map s)) (st_map s) with
           | (Ok _, mp) => (Ok tt, fold_left (mark_file e) mp (with_map mp s))
           | (x, mp) => (x, with_map mp s)
           end.

(** ** Parsing a file (parser.py:235-470) *)

(** The keys of parser.py:254-272. *)
Inductive kind :=
| KComment | KFunc | KInherit | KInheritGlob | KExport | KExportNoval | KPython
| KInclude | KIncludeAll | KAddtask | KDeltask | KUnset | KFlagassign | KExportfunc
| KAddpylib | KAddfragments | KVars.

(** parser.py:254-272 *)
Definition order : list (kind * re) :=
  [ (KComment, re_comments); (KFunc, re_func); (KInherit, re_inherit);
    (KInheritGlob, re_inherit_glob); (KExport, re_export_wval);
    (KExportNoval, re_export_woval); (KPython, re_python); (KInclude, re_include);
    (KIncludeAll, re_includeall); (KAddtask, re_addtask); (KDeltask, re_deltask);
    (KUnset, re_unset); (KFlagassign, re_flagass); (KExportfunc, re_export_func);
    (KAddpylib, re_addpylib); (KAddfragments, re_addfragments); (KVars, re_var) ].

(** AddFile as seen by the parser: path, line offset, forced link. (parser.py:347, 374, 438.) *)
Definition addfile_t := str -> Z -> str -> M (list item).

(** Largest InFileLine of added items, 0 for none (parser.py:349-350, 376-377, 440-441). *)
Definition max_infile (l : list item) : Z :=
  match l with
  | [] => 0%Z
  | i :: r => fold_left (fun a x => Z.max a (it_infile x)) r (it_infile i)
  end.

(** FindLocalOrLayer from the parser (parser.py:338, 365, 433). *)
Definition find_m (e : env) (name localdir : str) : M str :=
  fun s => match find_local_or_layer (S (length localdir)) (e_fs e) name localdir with
           | Some p => (Ok p, s)
           | None => (NoFuel, s)
           end.

(** First location that has the class (parser.py:336-342, 363-369). *)
Fixpoint find_class (e : env) (locations : list str) (inh dir : str) : M str :=
  match locations with
  | [] => ret []
  | l :: r => dom p <- find_m e (path_join l inh) dir;
              match p with [] => find_class e r inh dir | _ => ret p end
  end.

(** The loop over inherited classes (parser.py:333-350, 360-377): found paths
    and added offset. *)
Fixpoint inherit_loop (e : env) (addf : addfile_t) (locations : list str) (file inhname : str)
         (line : Z) (l : list str) (paths : list str) (offset : Z) : M (list str * Z) :=
  match l with
  | [] => ret (paths, offset)
  | x :: r =>
      let x := if endswith ".bbclass" x then x else x ++ ".bbclass" in
      dom p <- find_class e locations x (dirname file);
      match p with
      | [] => inherit_loop e addf locations file inhname line r paths offset
      | _ =>
          dom ign <- liftR (fun s => Ok (cval_contains inhname (class_ignore (st_const s))));
          if (ign : bool) then inherit_loop e addf locations file inhname line r paths offset
          else
            dom tmp <- addf p line file;
            inherit_loop e addf locations file inhname line r (add_set p paths)
                         (offset + max_infile tmp)%Z
      end
  end.

(** Object identities for new items. (parser.py:295 ff.) *)
Definition fresh : M nat := fun s => (Ok (st_next s), with_next (S (st_next s)) s).
(** Create an item from the chunk parameters (parser.py:282-290). *)
Definition new_item (mk : nat -> item) : M item := dom i <- fresh; ret (mk i).

(** Prefixes that are no tasks (parser.py:406). *)
Definition pkg_prefixes : list str := ["pkg_preinst"; "pkg_postinst"; "pkg_prerm"; "pkg_postrm"].

(** Handling of a match (parser.py:293-465): [None] means [continue], i.e.
    try the next pattern; otherwise the item and the additional offset. *)
Definition handle (e : env) (addf : addfile_t) (p : nat -> iparam) (file : str) (line : Z)
           (k : kind) (mt : rmatch) : M (option (item * Z)) :=
  let done (mk : iparam -> item) : M (option (item * Z)) :=
    dom i <- new_item (fun n => mk (p n)); ret (Some (i, 0%Z)) in
  let plain (pay : payload) := done (fun q => mk_item q (ip_new q) pay) in
  match k with
  | KPython => plain (PPythonBlock (group_str "funcname" mt))
  | KExportfunc => plain (PFunctionExports (group_str "func" mt))
  | KVars => done (fun q => mk_variable q (group_str "varname" mt) (group_str "varval" mt)
                                        (group_str "varop" mt))
  | KFunc =>
      dom known <- liftR (fun s => Ok (functions_known (st_const s)));
      done (fun q => mk_function known q (group "func" mt) (group_str "funcbody" mt)
                                 (matched (group "py" mt)) (matched (group "fr" mt)))
  | KUnset => plain (PUnset (group_str "varname" mt) (strip "[]" (group_str "flag" mt)))
  | KComment => plain PComment
  | KInherit =>
      dom inhname <- liftR (fun s => expand_term e s file (group_str "inhname" mt));
      dom r <- inherit_loop e addf ["classes"; "classes-recipe"; "classes-global"] file inhname line
                            (keep_nonempty (split_char cSP inhname)) [] 0%Z;
      dom i <- new_item (fun n => mk_item (p n) (ip_new (p n))
                 (PInherit (group_str "inhname" mt) (group_str "statement" mt) (fst r)));
      ret (Some (i, snd r))
  | KInheritGlob =>
      dom inhname <- liftR (fun s => expand_term e s file (group_str "inhname" mt));
      dom r <- inherit_loop e addf ["classes"; "classes-global"] file inhname line
                            (keep_nonempty (split_char cSP inhname)) [] 0%Z;
      dom i <- new_item (fun n => mk_item (p n) (ip_new (p n))
                 (PInherit (group_str "inhname" mt) "INHERIT" (fst r)));
      ret (Some (i, snd r))
  | KExport => plain (PExport (strip_ws (group_str "name" mt)) (group_str "value" mt))
  | KExportNoval => plain (PExport (strip_ws (group_str "name" mt)) [])
  | KFlagassign => plain (PFlagAssignment (group_str "name" mt) (group_str "ident" mt)
                                          (group_str "varval" mt) (group_str "varop" mt))
  | KAddtask =>
      if existsb (fun x => startswith x (group_str "func" mt)) pkg_prefixes then ret None
      else done (fun q => mk_taskadd q (group_str "func" mt) (group_str "before" mt)
                                     (group_str "after" mt) (group_str "comment" mt))
  | KDeltask => plain (PTaskDel (group_str "func" mt) (group_str "comment" mt))
  | KInclude =>
      dom inc <- liftR (fun s => expand_term e s file (group_str "incname" mt));
      dom path <- find_m e inc (dirname file);
      let finish (off : Z) : M (option (item * Z)) :=
        dom i <- new_item (fun n => mk_item (p n) (ip_new (p n))
                   (PInclude (group_str "incname" mt) (group_str "statement" mt) path));
        ret (Some (i, off)) in
      match path with
      | [] => finish 0%Z
      | _ =>
          dom ign <- liftR (fun s => Ok (cval_contains inc (include_ignore (st_const s))));
          if (ign : bool) then ret None
          else dom tmp <- addf path line file; finish (max_infile tmp)
      end
  | KIncludeAll => plain (PIncludeAll (group_str "file" mt))
  | KAddpylib => plain (PAddPylib (group_str "path" mt) (group_str "namespace" mt))
  | KAddfragments => plain (PAddFragements (group_str "path" mt) (group_str "variable" mt)
                                           (group_str "flagged" mt))
  end.

(** The loop over the patterns (parser.py:291-467). *)
Fixpoint try_kinds (e : env) (addf : addfile_t) (p : nat -> iparam) (file : str) (line : Z)
         (cnt : str) (l : list (kind * re)) : M (item * Z) :=
  match l with
  | [] => dom i <- new_item (fun n => mk_item (p n) (ip_new (p n)) PItem); ret (i, 0%Z)
  | (k, r) :: rest =>
      match re_match r cnt with
      | None => try_kinds e addf p file line cnt rest
      | Some mt =>
          dom o <- handle e addf p file line k mt;
          match o with
          | Some x => ret x
          | None => try_kinds e addf p file line cnt rest
          end
      end
  end.

(** The loop over the chunks (parser.py:280-468). *)
Fixpoint parse_chunks (e : env) (addf : addfile_t) (file : str) (lineOffset incOffset : Z)
         (new : bool) (cs : list chunk) : M (list item) :=
  match cs with
  | [] => ret []
  | c :: r =>
      let p := fun n => MkParam n (ck_line c + incOffset) (ck_line c - lineOffset)
                                (ck_raw c) (ck_realraw c) file (ck_blocks c) new in
      dom x <- try_kinds e addf p file (ck_line c) (ck_cnt c) order;
      dom l <- parse_chunks e addf file lineOffset (incOffset + snd x) (new || it_new (fst x)) r;
      ret (fst x :: l)
  end.

(** prepare_lines with the file access (parser.py:201-232). *)
Definition prepare_file (e : env) (file : str) (lineOffset : Z) (neg : bool) : Res.res (list chunk) :=
  match fs_read (e_fs e) file with
  | RdText t => prepare_text lineOffset neg (universal_newlines t)
  | RdNotFound => Ok []
  | RdDenied | RdOther => Raise OSError
  end.

(** get_items (parser.py:235-470); the path is absolute already
    (cls_stash.py:170). *)
Definition get_items (e : env) (addf : addfile_t) (file : str) (lineOffset : Z) : M (list item) :=
  dom cs <- liftR (fun s => prepare_file e file lineOffset (st_neg s));
  dom new <- liftR (fun s => Ok (st_new s));
  parse_chunks e addf file lineOffset 0 new cs.

(** ** AddFile (cls_stash.py:157-229) *)

(** cls_stash.py:186-191 *)
Definition link_file (file : str) (forced : option str) (mp : list (str * list str))
  : list (str * list str) :=
  let mp := if dhas file mp then mp else dset file [] mp in
  match forced with
  | None | Some [] => mp
  | Some fl =>
      let mp := if dhas fl mp then mp else dset fl [] mp in
      dset fl ((match dget fl mp with Some l => l | None => [] end) ++ [file]) mp
  end.

(** Largest Line of the items of a file, at least 0 (cls_stash.py:201-202). *)
Definition max_line_of (f : str) (l : list item) : Z :=
  fold_left (fun a i => if str_eqb (it_origin i) f then Z.max a (it_line i) else a) l 0%Z.
(** Python's max with default 0 (cls_stash.py:202, 208). *)
Definition max_line (l : list item) : Z :=
  match l with
  | [] => 0%Z
  | i :: r => fold_left (fun a x => Z.max a (it_line x)) r (it_line i)
  end.

(** cls_stash.py:195-202: patterns, links and the shift. *)
Definition append_pattern (file : str) : str :=
  replace "%" ".*" (replace ".bbappend" ".bb$" (basename file)).
(** cls_stash.py:199-202. *)
Definition link_append (rx : re) (file : str) (l : list item)
           (acc : list (str * list str) * Z) (k : str) : list (str * list str) * Z :=
  let '(mp, mx) := acc in
  if matched (re_match rx (basename k)) then
    (dset k ((match dget k mp with Some x => x | None => [] end) ++ [file]) mp,
     Z.max mx (max_line (filter (fun i => str_eqb (it_origin i) k) l)))
  else (mp, mx).

(** cls_stash.py:207-217 *)
Definition recipe_pattern (origin : str) : str :=
  replace "%" ".*" (replace ".bbappend" [] (basename origin)).
(** The loop of cls_stash.py:209-217. *)
Fixpoint link_recipe (file bn : str) (mx : Z) (l : list item) (mp : list (str * list str))
  : Res.res (list item * list (str * list str)) :=
  match l with
  | [] => Ok ([], mp)
  | i :: r =>
      if endswith ".bbappend" (it_origin i) then
        match dyn_pattern (recipe_pattern (it_origin i)) with
        | None => Raise RegexUnsupported
        | Some rx =>
            if matched (re_match rx bn) then
              do x <- link_recipe file bn mx r
                        (dset file ((match dget file mp with Some x => x | None => [] end)
                                    ++ [it_origin i]) mp);
              Ok (set_line (Z.max (it_line i) (it_infile i + mx)) i :: fst x, snd x)
            else do x <- link_recipe file bn mx r mp; Ok (i :: fst x, snd x)
        end
      else do x <- link_recipe file bn mx r mp; Ok (i :: fst x, snd x)
  end.

(** cls_stash.py:193-217: returns the parsed items with their final Line. *)
Definition match_appends (file : str) (items : list item) : M (list item) :=
  fun s =>
    if endswith ".bbappend" file then
      match dyn_pattern (append_pattern file) with
      | None => (Raise RegexUnsupported, s)
      | Some rx =>
          let '(mp, mx) := fold_left (link_append rx file (st_list s)) (dkeys (st_map s)) (st_map s, 0%Z) in
          (Ok (map (fun i => set_line (it_line i + mx) i) items), with_map mp s)
      end
    else if endswith ".bb" file then
      match link_recipe file (replace ".bb" [] (basename file)) (max_line items)
                        (st_list s) (st_map s) with
      | Ok (l, mp) => (Ok items, with_map mp (with_list l s))
      | Raise ex => (Raise ex, s)
      | NoFuel => (NoFuel, s)
      end
    else (Ok items, s).

(** Extensions that may be added again (cls_stash.py:172). *)
Definition multi_exts : list str := [".inc"; ".bb"; ".conf"; ".bbclass"].

(** AddFile (cls_stash.py:157-229); [fuel] bounds the nesting of includes. *)
Fixpoint add_file (fuel : nat) (e : env) (path : str) (lineOffset : Z) (forced : option str)
  : M (list item) :=
  fun s =>
    match fuel with
    | O => (NoFuel, s)
    | S n =>
        let file := abspath (fs_cwd (e_fs e)) path in
        let ext := snd (splitext file) in
        if mem_str file (st_seen s) && negb (mem_str ext multi_exts) then (Ok [], s)
        else if mem_str file (st_seenc s) then (Ok [], s)
        else
          let s := with_seen (add_set file (st_seen s))
                             (if str_eqb ext ".bbclass" then add_set file (st_seenc s) else st_seenc s) s in
          (dom items <- get_items e (fun p o f => add_file n e p o (Some f)) file lineOffset;
           dom _ <- (fun s => (Ok tt, with_map (link_file file forced (st_map s)) s));
           dom items <- match_appends file items;
           dom _ <- add_distro_machine e file;
           dom _ <- (fun s => (Ok tt, with_fp (st_fp s ++ map (e_repr e) items)
                                              (with_list (st_list s ++ items) s)));
           ret items) s
    end.
