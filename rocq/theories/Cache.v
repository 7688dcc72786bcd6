(** * The caches of the stash (functools.cache in cls_stash.py)

    Modelled are the tables of GetRecipes, GetLoneAppends, GetConfFiles,
    GetBBClasses, GetLinksForFile, IsImage and IsPackageGroup and the tables
    below GetItemsFor.  Simplifications: the queries AddFile makes itself are
    answered without tables and leave no entries; after an AddFile that raises
    the tables are those before the call; a frozenset in a key is the list it
    was made from; the tables of the other cached methods are left out.  Lists
    of items in tables are lists of identities, since the objects may change. *)

From Verif Require Import PyStr Regex Patterns PyPath Res Inline Const Item Lines Stash.

(** ** Tables *)

(** One field for each decorated method (cls_stash.py:302-388, 860, 884).  The
    first part of a key of [t_file] says whether the items came as frozenset. *)
Record tables := MkTables {
  t_recipes : option (list str);
  t_lone : option (list str);
  t_conf : option (list str);
  t_classes : option (list str);
  t_linked : list ((nat * str * bool) * bool);
  t_file : list ((bool * list nat * str * bool) * list nat);
  t_class : list ((list nat * list str) * list nat);
  t_attr : list ((list nat * list str * list pyval) * list nat);
  t_links : list (str * list str);
  t_image : list (str * bool);
  t_group : list (str * bool)
}.

(** functools.cache starts empty. (cls_stash.py:302, 311.) *)
Definition no_tables : tables := MkTables None None None None [] [] [] [] [] [] [].

(** _clear_cached (cls_stash.py:141-155); GetBBClasses is not in it. *)
Definition clear_cached (t : tables) : tables :=
  MkTables None None None (t_classes t) [] [] [] [] [] [] [].

(** Stores into one table (functools.cache). (cls_stash.py:302-309.) *)
Definition set_recipes (v : list str) (t : tables) : tables :=
  MkTables (Some v) (t_lone t) (t_conf t) (t_classes t) (t_linked t) (t_file t) (t_class t) (t_attr t) (t_links t) (t_image t) (t_group t).
(** cls_stash.py:311-325. *)
Definition set_lone (v : list str) (t : tables) : tables :=
  MkTables (t_recipes t) (Some v) (t_conf t) (t_classes t) (t_linked t) (t_file t) (t_class t) (t_attr t) (t_links t) (t_image t) (t_group t).
(** cls_stash.py:327-334. *)
Definition set_conf (v : list str) (t : tables) : tables :=
  MkTables (t_recipes t) (t_lone t) (Some v) (t_classes t) (t_linked t) (t_file t) (t_class t) (t_attr t) (t_links t) (t_image t) (t_group t).
(** cls_stash.py:336-343. *)
Definition set_classes (v : list str) (t : tables) : tables :=
  MkTables (t_recipes t) (t_lone t) (t_conf t) (Some v) (t_linked t) (t_file t) (t_class t) (t_attr t) (t_links t) (t_image t) (t_group t).
(** cls_stash.py:345-347. *)
Definition put_linked x (t : tables) : tables :=
  MkTables (t_recipes t) (t_lone t) (t_conf t) (t_classes t) (x :: t_linked t) (t_file t) (t_class t) (t_attr t) (t_links t) (t_image t) (t_group t).
(** cls_stash.py:349-353. *)
Definition put_file x (t : tables) : tables :=
  MkTables (t_recipes t) (t_lone t) (t_conf t) (t_classes t) (t_linked t) (x :: t_file t) (t_class t) (t_attr t) (t_links t) (t_image t) (t_group t).
(** cls_stash.py:355-359. *)
Definition put_class x (t : tables) : tables :=
  MkTables (t_recipes t) (t_lone t) (t_conf t) (t_classes t) (t_linked t) (t_file t) (x :: t_class t) (t_attr t) (t_links t) (t_image t) (t_group t).
(** cls_stash.py:361-374. *)
Definition put_attr x (t : tables) : tables :=
  MkTables (t_recipes t) (t_lone t) (t_conf t) (t_classes t) (t_linked t) (t_file t) (t_class t) (x :: t_attr t) (t_links t) (t_image t) (t_group t).
(** cls_stash.py:376-388. *)
Definition put_links x (t : tables) : tables :=
  MkTables (t_recipes t) (t_lone t) (t_conf t) (t_classes t) (t_linked t) (t_file t) (t_class t) (t_attr t) (x :: t_links t) (t_image t) (t_group t).
(** cls_stash.py:860-882. *)
Definition put_image x (t : tables) : tables :=
  MkTables (t_recipes t) (t_lone t) (t_conf t) (t_classes t) (t_linked t) (t_file t) (t_class t) (t_attr t) (t_links t) (x :: t_image t) (t_group t).
(** cls_stash.py:884-896. *)
Definition put_group x (t : tables) : tables :=
  MkTables (t_recipes t) (t_lone t) (t_conf t) (t_classes t) (t_linked t) (t_file t) (t_class t) (t_attr t) (t_links t) (t_image t) (x :: t_group t).

(** Equality of keys (functools.cache): tuples of objects by identity,
    attribute values by [==]. (cls_stash.py:345-362.) *)
Fixpoint list_eqb {A} (eqb : A -> A -> bool) (a b : list A) : bool :=
  match a, b with
  | [], [] => true
  | x :: a', y :: b' => eqb x y && list_eqb eqb a' b'
  | _, _ => false
  end.
(** Key of __is_linked_to (cls_stash.py:346). *)
Definition key_linked (a b : nat * str * bool) : bool :=
  Nat.eqb (fst (fst a)) (fst (fst b)) && str_eqb (snd (fst a)) (snd (fst b)) && Bool.eqb (snd a) (snd b).
(** Key of __get_items_by_file (cls_stash.py:350). *)
Definition key_file (a b : bool * list nat * str * bool) : bool :=
  Bool.eqb (fst (fst (fst a))) (fst (fst (fst b))) && list_eqb Nat.eqb (snd (fst (fst a))) (snd (fst (fst b)))
  && str_eqb (snd (fst a)) (snd (fst b)) && Bool.eqb (snd a) (snd b).
(** Key of __get_items_by_classifier (cls_stash.py:356). *)
Definition key_class (a b : list nat * list str) : bool :=
  list_eqb Nat.eqb (fst a) (fst b) && list_eqb str_eqb (snd a) (snd b).
(** Key of __get_items_by_attribute (cls_stash.py:362). *)
Definition key_attr (a b : list nat * list str * list pyval) : bool :=
  list_eqb Nat.eqb (fst (fst a)) (fst (fst b)) && list_eqb str_eqb (snd (fst a)) (snd (fst b))
  && list_eqb pyval_eqb (snd a) (snd b).

(** A table lookup (functools.cache). (cls_stash.py:345-388.) *)
Fixpoint look {K V} (eqb : K -> K -> bool) (k : K) (t : list (K * V)) : option V :=
  match t with
  | [] => None
  | (k', v) :: r => if eqb k' k then Some v else look eqb k r
  end.

(** The objects with these identities. (cls_stash.py:353, 359, 374.) *)
Definition pick (ids : list nat) (l : list item) : list item :=
  flat_map (fun n => match find (fun x => Nat.eqb (it_id x) n) l with Some x => [x] | None => [] end) ids.

(** ** Queries *)

(** __is_linked_to (cls_stash.py:345-347) *)
Definition linked_c (mp : list (str * list str)) (x : item) (f : str) (nolink : bool) (t : tables) : bool * tables :=
  match look key_linked (it_id x, f, nolink) (t_linked t) with
  | Some b => (b, t)
  | None => let b := is_linked_to mp (it_origin x) f nolink in (b, put_linked ((it_id x, f, nolink), b) t)
  end.
(** The comprehension of cls_stash.py:353. *)
Fixpoint filter_c (mp : list (str * list str)) (l : list item) (f : str) (nolink : bool) (t : tables)
  : list item * tables :=
  match l with
  | [] => ([], t)
  | x :: r => let '(b, t1) := linked_c mp x f nolink t in
              let '(r', t2) := filter_c mp r f nolink t1 in
              (if b then x :: r' else r', t2)
  end.
(** __get_items_by_file (cls_stash.py:349-353), called with a file name. *)
Definition by_file_c (mp : list (str * list str)) (froz : bool) (l : list item) (f : str) (nolink : bool) (t : tables)
  : list item * tables :=
  match look key_file (froz, map it_id l, f, nolink) (t_file t) with
  | Some ids => (pick ids l, t)
  | None => let '(r, t1) := filter_c mp l f nolink t in
            (r, put_file ((froz, map it_id l, f, nolink), map it_id r) t1)
  end.
(** __get_items_by_classifier (cls_stash.py:355-359), called with classifiers. *)
Definition by_class_c (l : list item) (cl : list str) (t : tables) : list item * tables :=
  match look key_class (map it_id l, cl) (t_class t) with
  | Some ids => (pick ids l, t)
  | None => let r := by_classifier l cl in (r, put_class ((map it_id l, cl), map it_id r) t)
  end.
(** __get_items_by_attribute (cls_stash.py:361-374), called with names. *)
Definition by_attr_c (l : list item) (names : list str) (vals : list pyval) (t : tables) : list item * tables :=
  match look key_attr (map it_id l, names, vals) (t_attr t) with
  | Some ids => (pick ids l, t)
  | None => let r := by_attribute l names vals in (r, put_attr ((map it_id l, names, vals), map it_id r) t)
  end.

(** Reduce and GetItemsFor (cls_stash.py:390-451) *)
Definition items_c (e : env) (s : stash) (q : query) (t : tables) : list item * tables :=
  let cl := norm_arg nonempty (q_class q) in
  let at_ := norm_arg nonempty (q_attr q) in
  let vl := norm_arg pyval_true (q_val q) in
  let '(l1, t1) := match q_file q with
                   | Some (c :: f) => by_file_c (st_map s) false (st_list s) (c :: f) (q_nolink q) t
                   | _ => (st_list s, t)
                   end in
  let '(l2, t2) := match cl with [] => (l1, t1) | _ => by_class_c l1 cl t1 end in
  let '(l3, t3) := match at_ with [] => (l2, t2) | _ => by_attr_c l2 at_ vl t2 end in
  (sort_items (e_iset e l3), t3).

(** GetLinksForFile (cls_stash.py:376-388) *)
Definition links_c (e : env) (s : stash) (f : str) (t : tables) : list str * tables :=
  match look str_eqb f (t_links t) with
  | Some v => (v, t)
  | None =>
      let '(v, t1) := match f with
                      | [] => ([], t)
                      | _ => let '(l, t1) := by_file_c (st_map s) true (e_iset e (st_list s)) f false t in
                             (map it_origin (filter (fun x => negb (str_eqb (it_origin x) f)) l), t1)
                      end in
      (v, put_links (f, v) t1)
  end.

(** IsPackageGroup (cls_stash.py:884-896) *)
Definition inherits_c (e : env) (s : stash) (f : str) (t : tables) : list item * tables :=
  items_c e s (MkQuery (Some f) (AOne "Inherit") ANone ANone false) t.
(** IsPackageGroup (cls_stash.py:884-896). *)
Definition group_c (e : env) (s : stash) (f : str) (t : tables) : bool * tables :=
  match look str_eqb f (t_group t) with
  | Some b => (b, t)
  | None => let '(l, t1) := inherits_c e s f t in
            let b := existsb (fun i => mem_str "packagegroup" (get_items_of i)) l in
            (b, put_group (f, b) t1)
  end.

(** IsImage (cls_stash.py:860-882) *)
Fixpoint image_vars_c (e : env) (s : stash) (f : str) (vs : list str) (t : tables) : bool * tables :=
  match vs with
  | [] => (false, t)
  | v :: r =>
      let '(l, t1) := items_c e s (MkQuery (Some f) (AOne "Variable") (AOne "VarName") (AOne (VStr v)) false) t in
      let '(b, t2) := image_vars_c e s f r t1 in
      ((match l with [] => false | _ => true end) || b, t2)
  end.
(** IsImage (cls_stash.py:860-882). *)
Definition image_c (e : env) (s : stash) (f : str) (t : tables) : bool * tables :=
  match look str_eqb f (t_image t) with
  | Some b => (b, t)
  | None =>
      let '(l, t1) := inherits_c e s f t in
      let '(b, t2) := image_vars_c e s f (cval_iter (images_variables (st_const s))) t1 in
      let b := existsb (fun i => existsb (fun x => cval_contains x (images_classes (st_const s))) (get_items_of i)) l || b in
      (b, put_image (f, b) t2)
  end.

(** GetRecipes, GetLoneAppends, GetConfFiles, GetBBClasses (cls_stash.py:302-343) *)
Definition const_c (o : option (list str)) (v : list str) (set : list str -> tables -> tables) (t : tables)
  : list str * tables :=
  match o with Some x => (x, t) | None => (v, set v t) end.

(** ** Updates *)

(** IncludedFrom of the items of one file (cls_stash.py:295-297). *)
Definition mark_c (e : env) (x : stash * tables) (kv : str * list str) : stash * tables :=
  let '(s, t) := x in
  let '(l, t1) := items_c e s (file_query (fst kv)) t in
  (with_list (mark_items (map it_id l) (snd kv) (st_list s)) s, t1).
(** Finalize (cls_stash.py:285-300); the tables are cleared at the end. *)
Definition finalize_c (e : env) (s : stash) (t : tables) : Res.res unit * (stash * tables) :=
  match link_all e (dkeys (st_map s)) (st_map s) with
  | (Ok _, mp) => let '(s1, t1) := fold_left (mark_c e) mp (with_map mp s, t) in (Ok tt, (s1, clear_cached t1))
  | (x, mp) => (x, (with_map mp s, t))
  end.

(** Whether AddFile returns before it reads the file (cls_stash.py:170-175). *)
Definition returns_early (e : env) (path : str) (s : stash) : bool :=
  let file := abspath (fs_cwd (e_fs e)) path in
  (mem_str file (st_seen s) && negb (mem_str (snd (splitext file)) multi_exts)) || mem_str file (st_seenc s).

(** ** Calls *)

(** A call of the API, and its answer. (cls_stash.py:157-451, 860-896.) *)
Inductive call :=
| CAdd (n : nat) (path : str) (off : Z) (forced : option str)
| CAppend (l : list item)
| CRemove (l : list item)
| CFinalize
| CItems (q : query)
| CRecipes | CLone | CConf | CClasses
| CLinks (f : str) | CImage (f : str) | CGroup (f : str).
(** Answers of cls_stash.py:157-451, 860-896. *)
Inductive answer :=
| RItems (r : Res.res (list item))
| RDone (r : Res.res unit)
| RStrs (l : list str)
| RBool (b : bool).

(** Answers of cls_stash.py:157-451, 860-896. *)
Definition answer_as {A} (f : A -> answer) (s : stash) (x : A * tables) : answer * (stash * tables) :=
  (f (fst x), (s, snd x)).
(** One call (cls_stash.py:157-300 for the updates). *)
Definition call_c (e : env) (c : call) (x : stash * tables) : answer * (stash * tables) :=
  let '(s, t) := x in
  match c with
  | CAdd n path off forced =>
      match add_file n e path off forced s with
      | (Ok l, s') => (RItems (Ok l), (s', if returns_early e path s then t else clear_cached t))
      | (r, s') => (RItems r, (s', t))
      end
  | CAppend l => (RDone (Ok tt), (append_items l s, clear_cached t))
  | CRemove l =>
      match remove_items l s with
      | (Ok u, s') => (RDone (Ok u), (s', clear_cached t))
      | (r, s') => (RDone r, (s', t))
      end
  | CFinalize => let '(r, x') := finalize_c e s t in (RDone r, x')
  | CItems q => answer_as (fun l => RItems (Ok l)) s (items_c e s q t)
  | CRecipes => answer_as RStrs s (const_c (t_recipes t) (get_recipes s) set_recipes t)
  | CLone => answer_as RStrs s (const_c (t_lone t) (get_lone_appends s) set_lone t)
  | CConf => answer_as RStrs s (const_c (t_conf t) (get_conf_files e s) set_conf t)
  | CClasses => answer_as RStrs s (const_c (t_classes t) (get_bbclasses s) set_classes t)
  | CLinks f => answer_as RStrs s (links_c e s f t)
  | CImage f => answer_as RBool s (image_c e s f t)
  | CGroup f => answer_as RBool s (group_c e s f t)
  end.
(** The answers of a sequence of calls. (cls_stash.py:157-451.) *)
Fixpoint calls_c (e : env) (cs : list call) (x : stash * tables) : list answer * (stash * tables) :=
  match cs with
  | [] => ([], x)
  | c :: r => let '(a, x1) := call_c e c x in let '(l, x2) := calls_c e r x1 in (a :: l, x2)
  end.
