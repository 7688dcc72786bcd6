(** * Constants (constants.py)

    The database as a value.  Simplifications: leaves are strings or lists of
    strings (the documented shapes), dictionaries keep insertion order, and
    sharing between the caller's dictionary and the database is not visible
    here (see ConstHeap.v for the aliasing behaviour). *)

From Verif Require Import PyStr Res.

(** Values of the database (constants.py:13-27). *)
Inductive cval :=
| CStr (s : str)
| CList (l : list str)
| CDict (d : list (str * cval)).

(** The one-character strings of a string, i.e. iterating over it. (constants.py:57, 74.) *)
Definition chars (s : str) : list str := map (fun c => [c]) s.

(** [x in v] (parser.py:344, cls_item.py:226, 434, cls_stash.py:876). *)
Definition cval_contains (x : str) (v : cval) : bool :=
  match v with
  | CStr s => contains x s
  | CList l => mem_str x l
  | CDict d => dhas x d
  end.

(** [for x in v] (cls_stash.py:878, constants.py:74). *)
Definition cval_iter (v : cval) : list str :=
  match v with
  | CStr s => chars s
  | CList l => l
  | CDict d => dkeys d
  end.

(** One step of [data.get(value, {})] (constants.py:41). *)
Definition cval_step (k : str) (v : cval) : res cval :=
  match v with
  | CDict d => Ok (match dget k d with Some x => x | None => CDict [] end)
  | _ => Raise AttributeError
  end.
(** The loop of constants.py:40-41. *)
Fixpoint cval_walk (ks : list str) (v : cval) : res cval :=
  match ks with
  | [] => Ok v
  | k :: r => do x <- cval_step k v; cval_walk r x
  end.

(** GetByPath (constants.py:29-42). *)
Definition get_by_path (path : str) (db : cval) : res cval :=
  cval_walk (split_char 47 (rstrip "/" path)) db.

(** In-place updates return the updated dictionary together with the
    exception that ended the update, if any. (constants.py:50-58.) *)
Definition upd := (list (str * cval) * option exn)%type.

(** AddConstants: dict_merge of constants.py:50-58.  [a[k] += v] extends a
    list by a list or by the characters of a string, and concatenates
    strings; other combinations raise TypeError. *)
Definition cval_iadd (x v : cval) : cval * option exn :=
  match x, v with
  | CList l, CList l' => (CList (l ++ l'), None)
  | CList l, CStr s => (CList (l ++ chars s), None)
  | CStr s, CStr s' => (CStr (s ++ s'), None)
  | _, _ => (x, Some TypeError)
  end.
(** dict_merge of constants.py:50-58. *)
Fixpoint add_merge (b : cval) (a : list (str * cval)) {struct b} : upd :=
  match b with
  | CDict bd =>
      (fix go (bd : list (str * cval)) (a : list (str * cval)) {struct bd} : upd :=
         match bd with
         | [] => (a, None)
         | (k, v) :: r =>
             match dget k a with
             | None => go r (dset k v a)
             | Some av =>
                 match v with
                 | CDict vd =>
                     match av with
                     | CDict ad =>
                         match add_merge v ad with
                         | (ad', None) => go r (dset k (CDict ad') a)
                         | (ad', Some e) => (dset k (CDict ad') a, Some e)
                         end
                     | _ => match vd with
                            | [] => go r a
                            | _ => (a, Some TypeError)
                            end
                     end
                 | _ =>
                     match cval_iadd av v with
                     | (x, None) => go r (dset k x a)
                     | (_, Some e) => (a, Some e)
                     end
                 end
             end
         end) bd a
  | _ => (a, Some AttributeError)
  end.

(** RemoveConstants: dict_merge of constants.py:67-75.
    [a[k] = [x for x in a[k] if x not in v]] always makes a list. *)
Definition cval_minus (x v : cval) : cval :=
  CList (filter (fun y => negb (cval_contains y v)) (cval_iter x)).
(** dict_merge of constants.py:67-75. *)
Fixpoint remove_merge (b : cval) (a : list (str * cval)) {struct b} : upd :=
  match b with
  | CDict bd =>
      (fix go (bd : list (str * cval)) (a : list (str * cval)) {struct bd} : upd :=
         match bd with
         | [] => (a, None)
         | (k, v) :: r =>
             match dget k a with
             | None => go r a
             | Some av =>
                 match v with
                 | CDict vd =>
                     match av with
                     | CDict ad =>
                         match remove_merge v ad with
                         | (ad', None) => go r (dset k (CDict ad') a)
                         | (ad', Some e) => (dset k (CDict ad') a, Some e)
                         end
                     | _ => if existsb (fun kv => cval_contains (fst kv) av) vd
                            then (a, Some TypeError)
                            else go r a
                     end
                 | _ => go r (dset k (cval_minus av v) a)
                 end
             end
         end) bd a
  | _ => (a, Some AttributeError)
  end.

(** OverrideConstants: dict_merge of constants.py:84-92. *)
Fixpoint override_merge (b : cval) (a : list (str * cval)) {struct b} : upd :=
  match b with
  | CDict bd =>
      (fix go (bd : list (str * cval)) (a : list (str * cval)) {struct bd} : upd :=
         match bd with
         | [] => (a, None)
         | (k, v) :: r =>
             match dget k a with
             | None => go r (dset k v a)
             | Some av =>
                 match v with
                 | CDict vd =>
                     match av with
                     | CDict ad =>
                         match override_merge v ad with
                         | (ad', None) => go r (dset k (CDict ad') a)
                         | (ad', Some e) => (dset k (CDict ad') a, Some e)
                         end
                     | _ => match vd with
                            | [] => go r a
                            | _ => (a, Some TypeError)
                            end
                     end
                 | _ => go r (dset k v a)
                 end
             end
         end) bd a
  | _ => (a, Some AttributeError)
  end.

(** The three public operations on a database (constants.py:44-93). *)
Definition lift_upd (f : cval -> list (str * cval) -> upd) (db b : cval) : cval * option exn :=
  match db with
  | CDict a => let '(a', e) := f b a in (CDict a', e)
  | _ => (db, Some TypeError)
  end.
(** AddConstants (constants.py:44-59). *)
Definition add_constants := lift_upd add_merge.
(** RemoveConstants (constants.py:61-76). *)
Definition remove_constants := lift_upd remove_merge.
(** OverrideConstants (constants.py:78-93). *)
Definition override_constants := lift_upd override_merge.

(** ** Getters (constants.py:95-192) *)

(** constants.py:95-102 *)
Definition FunctionsKnown : cval -> res cval := get_by_path "functions/known".
(** constants.py:104-111 *)
Definition FunctionsOrder : cval -> res cval := get_by_path "functions/order".
(** constants.py:113-120 *)
Definition MirrorsKnown : cval -> res cval := get_by_path "replacements/mirrors".
(** constants.py:122-129 *)
Definition VariablesKnown : cval -> res cval := get_by_path "variables/known".
(** constants.py:131-138 *)
Definition DistrosKnown : cval -> res cval := get_by_path "replacements/distros".
(** constants.py:140-147 *)
Definition MachinesKnown : cval -> res cval := get_by_path "replacements/machines".
(** constants.py:149-156 *)
Definition ImagesClasses : cval -> res cval := get_by_path "images/known-classes".
(** constants.py:158-165 *)
Definition ImagesVariables : cval -> res cval := get_by_path "images/known-variables".
(** constants.py:167-174 *)
Definition SetsBase : cval -> res cval := get_by_path "sets/base".
(** constants.py:176-183 *)
Definition ClassIgnore : cval -> res cval := get_by_path "ignore/classes".
(** constants.py:185-192 *)
Definition IncludeIgnore : cval -> res cval := get_by_path "ignore/include".
(** All getters by name (constants.py:95-192). *)
Definition getters : list (str * (cval -> res cval)) :=
  [ ("FunctionsKnown", FunctionsKnown); ("FunctionsOrder", FunctionsOrder); ("MirrorsKnown", MirrorsKnown);
    ("VariablesKnown", VariablesKnown); ("DistrosKnown", DistrosKnown); ("MachinesKnown", MachinesKnown);
    ("ImagesClasses", ImagesClasses); ("ImagesVariables", ImagesVariables); ("SetsBase", SetsBase);
    ("ClassIgnore", ClassIgnore); ("IncludeIgnore", IncludeIgnore) ].

(** The getters as the parser uses them (cls_item.py:226, 434, cls_stash.py:488,
    642, 745, 876, 878, parser.py:344, 436).  Simplification: if an inner node
    is no dictionary the getter raises AttributeError; here the value is
    missing. *)
Definition found (r : res cval) : cval := match r with Ok v => v | _ => CDict [] end.
(** cls_item.py:226 *)
Definition functions_known (db : cval) : cval := found (FunctionsKnown db).
(** cls_stash.py:642 *)
Definition mirrors_known (db : cval) : cval := found (MirrorsKnown db).
(** cls_item.py:434, 727 *)
Definition distros_known (db : cval) : cval := found (DistrosKnown db).
(** cls_stash.py:876 *)
Definition images_classes (db : cval) : cval := found (ImagesClasses db).
(** cls_stash.py:878 *)
Definition images_variables (db : cval) : cval := found (ImagesVariables db).
(** parser.py:344, 371 *)
Definition class_ignore (db : cval) : cval := found (ClassIgnore db).
(** parser.py:436 *)
Definition include_ignore (db : cval) : cval := found (IncludeIgnore db).
(** String entries of a dictionary (constants.py:168-174, 114-120). *)
Definition str_entries (v : cval) : list (str * str) :=
  match v with
  | CDict d => flat_map (fun kv => match snd kv with CStr s => [(fst kv, s)] | _ => [] end) d
  | _ => []
  end.
(** cls_stash.py:488, 745; entries that are no strings are left out. *)
Definition sets_base (db : cval) : list (str * str) := str_entries (found (SetsBase db)).
