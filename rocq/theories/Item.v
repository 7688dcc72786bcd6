(** * Items (cls_item.py) *)

From Verif Require Import PyStr Regex Patterns Res Const PyPath.

(** What the subclasses of Item store (cls_item.py:274-293, 496-511, 556-572,
    608-633, 764-773, 803-821, 883-892, 930-950, 1004-1016, 1052-1064,
    1095-1107, 1144-1159, 1203-1212, 1239-1257, 1306-1320). *)
Inductive payload :=
| PItem
| PVariable (name sub : str) (subs : list str) (value op rawname : str)
| PComment
| PInclude (incname statement fileincluded : str)
| PExport (name value : str)
| PFunction (py fr : bool) (name sub : str) (subs : list str) (body bodyraw : str)
| PPythonBlock (name : str)
| PFlagAssignment (name flag value op : str)
| PFunctionExports (names : str)
| PTaskAdd (name : str) (before after : list str) (comment : str)
| PTaskDel (name comment : str)
| PMissingFile (filename statement : str)
| PAddPylib (path namespace : str)
| PAddFragements (path variable flagged : str)
| PIncludeAll (file : str)
| PInherit (classes statement : str) (paths : list str)
| PUnset (name flag : str).

(** An item (cls_item.py:24-50).  [it_id] is the object identity; the set
    [IncludedFrom] is a duplicate free list; [it_new] says that the override
    delimiter is the colon. *)
Record item := MkItem {
  it_id : nat;
  it_line : Z;
  it_infile : Z;
  it_raw : str;
  it_realraw : str;
  it_origin : str;
  it_incfrom : list str;
  it_blocks : list (str * str);
  it_new : bool;
  it_pay : payload
}.

(** Setters (cls_item.py:61-63, 149-151). *)
Definition set_line (l : Z) (i : item) : item :=
  MkItem (it_id i) l (it_infile i) (it_raw i) (it_realraw i) (it_origin i)
         (it_incfrom i) (it_blocks i) (it_new i) (it_pay i).
(** set.update, one member (cls_item.py:149-151). *)
Definition add_set (x : str) (l : list str) : list str := if mem_str x l then l else l ++ [x].
(** Setter of IncludedFrom (cls_item.py:149-151). *)
Definition add_incfrom (fs : list str) (i : item) : item :=
  MkItem (it_id i) (it_line i) (it_infile i) (it_raw i) (it_realraw i) (it_origin i)
         (fold_left (fun acc x => add_set x acc) fs (it_incfrom i))
         (it_blocks i) (it_new i) (it_pay i).

(** Override delimiter (cls_item.py:50, 119-125). *)
Definition delim (new : bool) : N := if new then 58%N else 95%N.
(** Override delimiter (cls_item.py:119-125). *)
Definition delim_str (new : bool) : str := [delim new].

(** ** Splitting of names *)

(** One part of a name: override or not (cls_item.py:190-202).  [i] is the
    part, [first] the first part of the whole name. *)
Definition sub_chunk (first i : str) : bool :=
  let head := if contains "-" i then hd [] (split_char 45 i) else i in
  (matched (re_match re_id head) && negb (str_eqb first "pkg")) || str_eqb head "${PN}".

(** The text of a part after the dash handling of cls_item.py:191-202:
    [i.split("-")[0] + "-" + "-".join(i.split("-")[1:])]. *)
Definition chunk_text (i : str) : str :=
  if contains "-" i
  then hd [] (split_char 45 i) ++ "-" ++ join "-" (tl (split_char 45 i))
  else i.

(** extract_sub (cls_item.py:176-205); [new] is the delimiter of the item
    before, the returned flag the one after the call. *)
Definition extract_sub (new : bool) (name : str) : bool * str * str :=
  let new' := new || contains ":" name in
  let chunks := split_char (delim new') name in
  let first := hd [] chunks in
  let var := first :: map chunk_text (filter (fun i => negb (sub_chunk first i)) (tl chunks)) in
  let suffix := map chunk_text (filter (sub_chunk first) (tl chunks)) in
  (new', join (delim_str new') (keep_nonempty var), join (delim_str new') (keep_nonempty suffix)).

(** Index of the first occurrence: [chunks[chunks.index(i):]] (cls_item.py:227). *)
Fixpoint from_first (i : str) (l : list str) : list str :=
  match l with
  | [] => []
  | x :: r => if str_eqb x i then l else from_first i r
  end.

(** Markers (cls_item.py:221-222). *)
Definition func_markers : list str :=
  ["append"; "prepend"; "class-native"; "class-cross"; "class-target"; "remove"].

(** The loop of cls_item.py:225-230. *)
Fixpoint sub_func_loop (known : cval) (d : str) (chunks var rest : list str) : list str * list str :=
  match rest with
  | [] => (var, [])
  | i :: r =>
      if mem_str i func_markers || cval_contains (join d var) known
      then (var, from_first i chunks)
      else sub_func_loop known d chunks (var ++ [i]) r
  end.

(** extract_sub_func (cls_item.py:207-233). *)
Definition extract_sub_func (known : cval) (new : bool) (name : str) : bool * str * str :=
  let new' := new || contains ":" name in
  if str_eqb name "__anonymous" then (new', name, [])
  else
    let chunks := split_char (delim new') name in
    let '(var, suffix) :=
      sub_func_loop known (delim_str new') chunks [hd [] chunks] (tl chunks) in
    (new', join (delim_str new') (keep_nonempty var), join (delim_str new') (keep_nonempty suffix)).

(** ** Splitting of values *)

(** safe_linesplit (cls_item.py:153-166) *)
Definition safe_linesplit (s : str) : list str := keep_nonempty (re_split re_safesplit s).

(** ** textwrap.dedent as used in cls_item.py:632 (CPython 3.11) *)
Definition is_blank_char (c : N) : bool := N.eqb c cSP || N.eqb c cTAB.
(** textwrap.dedent (cls_item.py:632). *)
Definition blank_line (l : str) : bool := forallb is_blank_char l.
(** textwrap.dedent (cls_item.py:632). *)
Fixpoint take_blank (l : str) : str :=
  match l with
  | c :: t => if is_blank_char c then c :: take_blank t else []
  | [] => []
  end.
(** textwrap.dedent (cls_item.py:632). *)
Fixpoint common_prefix (a b : str) : str :=
  match a, b with
  | x :: a', y :: b' => if N.eqb x y then x :: common_prefix a' b' else []
  | _, _ => []
  end.
(** textwrap.dedent (cls_item.py:632). *)
Definition dedent_margin (lines : list str) : str :=
  match map take_blank (filter (fun l => negb (blank_line l)) lines) with
  | [] => []
  | i :: r => fold_left common_prefix r i
  end.
(** textwrap.dedent (cls_item.py:632). *)
Definition dedent (s : str) : str :=
  let lines := map (fun l => if blank_line l then [] else l) (split_char cNL s) in
  let margin := dedent_margin lines in
  join [cNL] (map (fun l => if startswith margin l then skipn (length margin) l else l) lines).

(** FuncBodyRaw (cls_item.py:632-633); [find] gives -1 when there is no brace,
    so the whole text is taken. *)
Definition func_body_raw (raw : str) : str :=
  let after := match find_str "{" raw with Some (_, b) => b | None => raw end in
  dedent (rstrip "}" (rstrip_ws after)).

(** ** Construction *)

(** The common arguments of all constructors (parser.py:282-290). *)
Record iparam := MkParam {
  ip_id : nat;
  ip_line : Z;
  ip_infile : Z;
  ip_raw : str;
  ip_realraw : str;
  ip_origin : str;
  ip_blocks : list (str * str);
  ip_new : bool
}.

(** Item.__init__ (cls_item.py:24-50); [new] may have been changed by
    extract_sub. *)
Definition mk_item (p : iparam) (new : bool) (pay : payload) : item :=
  MkItem (ip_id p) (ip_line p) (ip_infile p) (ip_raw p)
         (match ip_realraw p with [] => ip_raw p | r => r end)
         (ip_origin p) [] (ip_blocks p) new pay.

(** Variable.__init__ (cls_item.py:274-293) *)
Definition mk_variable (p : iparam) (name value op : str) : item :=
  let '(new, var, sub) := extract_sub (ip_new p) name in
  mk_item p new (PVariable var sub (keep_nonempty (split_char (delim new) sub)) value op var).

(** Function.__init__ (cls_item.py:608-633); [py] and [fr] say whether the
    groups took part. *)
Definition mk_function (known : cval) (p : iparam) (name : option str) (body : str)
           (py fr : bool) : item :=
  let nm := strip_ws (match name with Some n => n | None => [] end) in
  let '(new, var, sub) := extract_sub_func known (ip_new p) nm in
  mk_item p new (PFunction py fr var sub (keep_nonempty (split_char (delim new) sub)) body
                           (func_body_raw (ip_raw p))).

(** TaskAdd.__init__ (cls_item.py:930-950) *)
Definition mk_taskadd (p : iparam) (name before after comment : str) : item :=
  mk_item p (ip_new p) (PTaskAdd name (keep_nonempty (split_char cSP before))
                                 (keep_nonempty (split_char cSP after)) comment).

(** ** Properties of variables *)

(** VarValueStripped (cls_item.py:371-378) *)
Definition var_value_stripped (value : str) : str :=
  rstrip [cDQ] (lstrip [cDQ] (strip_ws value)).

(** VarNameComplete (cls_item.py:344-351) *)
Definition var_name_complete (new : bool) (name : str) (subs : list str) : str :=
  join (delim_str new) (name :: subs).

(** VarNameCompleteNoModifiers (cls_item.py:353-360) *)
Definition modifiers : list str := ["prepend"; "append"; "remove"].
(** VarNameCompleteNoModifiers (cls_item.py:353-360). *)
Definition var_name_nomod (new : bool) (name : str) (subs : list str) : str :=
  join (delim_str new) (name :: filter (fun x => negb (mem_str x modifiers)) subs).

(** Append operators (cls_item.py:386, 395) *)
Definition append_ops : list str := ["+="; "=+"; "=."; ".="].

(** IsAppend (cls_item.py:380-386) *)
Definition is_append (op : str) (subs : list str) : bool :=
  mem_str (strip_ws op) append_ops || mem_str "append" subs || mem_str "prepend" subs.

(** AppendOperation (cls_item.py:388-403) *)
Definition append_operation (op : str) (subs : list str) : list str :=
  (if mem_str (strip_ws op) append_ops then [op] else [])
  ++ (if mem_str "append" subs then ["append"] else [])
  ++ (if mem_str "prepend" subs then ["prepend"] else [])
  ++ (if mem_str "remove" subs then ["remove"] else []).

(** IsImmediateModify (cls_item.py:459-465) *)
Definition is_immediate (subs : list str) : bool :=
  negb (existsb (fun x => mem_str x modifiers) subs).

(** get_items of a variable (cls_item.py:405-418) *)
Definition variable_get_items (value override : str) (versioned : bool) : list str :=
  let x := match strip [cDQ] override with [] => strip [cDQ] value | o => o end in
  let x := if versioned then re_sub re_versioned (fun _ => []) x else x in
  safe_linesplit x.

(** IsMultiLine (cls_item.py:420-426): the first needle is the four characters
    backslash, x, 1, b. *)
Definition is_multiline (raw : str) : bool :=
  contains [cBSL; 120%N; 49%N; 98%N] raw || contains [cBSL; cNL] raw.

(** GetDistroEntry (cls_item.py:428-435, 721-728) *)
Definition get_distro_entry (distros : cval) (subs : list str) : str :=
  hd [] (filter (fun x => cval_contains x distros) subs).

(** GetMachineEntry of variables (cls_item.py:437-446) and of functions
    (cls_item.py:730-739) *)
Definition nomachine_var : list str :=
  ["append"; "prepend"; "class-native"; "class-nativesdk"; "class-cross"; "class-target"; "remove"; "machine"].
(** cls_item.py:730-739. *)
Definition nomachine_func : list str :=
  ["append"; "prepend"; "class-native"; "class-cross"; "class-target"; "remove"; "machine"].
(** GetMachineEntry (cls_item.py:437-446, 730-739). *)
Definition get_machine_entry (excl subs : list str) : str :=
  hd [] (filter (fun x => negb (mem_str x excl)) subs).

(** GetClassOverride (cls_item.py:448-457) *)
Definition class_overrides : list str :=
  ["class-native"; "class-nativesdk"; "class-cross"; "class-target"].
(** GetClassOverride (cls_item.py:448-457). *)
Definition get_class_override (subs : list str) : str :=
  hd [] (filter (fun x => mem_str x class_overrides) subs).

(** ** Properties of functions *)

(** FuncBodyStripped (cls_item.py:702-710) *)
Definition func_body_stripped (body : str) : str :=
  strip_ws (remove_char cNL (remove_char 125 (remove_char 123 body))).

(** IsAppend of functions (cls_item.py:741-747) *)
Definition func_is_append (subs : list str) : bool :=
  existsb (fun x => mem_str x ["append"; "prepend"]) subs.

(** ** get_items of all classes (cls_item.py:168-174, 405-418, 479-485, 540-546,
    592-598, 749-755, 784-790, 868-874, 903-909, 988-994, 1036-1042, 1084-1085,
    1127-1133, 1188-1194, 1223-1229, 1290-1296, 1340-1346) *)
Definition get_items_of (i : item) : list str :=
  match it_pay i with
  | PItem => safe_linesplit (it_raw i)
  | PVariable _ _ _ value _ _ => variable_get_items value [] false
  | PComment => split_char cNL (it_raw i)
  | PInclude n st _ => [n; st]
  | PExport n v => [n; v]
  | PFunction _ _ _ _ _ _ raw => split_char cNL raw
  | PPythonBlock _ => split_char cNL (it_raw i)
  | PFlagAssignment n f v op => [n; f; op; strip [cDQ] v]
  | PFunctionExports n => keep_nonempty (split_char cSP n)
  | PTaskAdd n b a _ => n :: b ++ a
  | PTaskDel n _ => [n]
  | PMissingFile f st => [f; st]
  | PAddPylib p n => [p; n]
  | PAddFragements p v f => [p; v; f]
  | PIncludeAll f => [f]
  | PInherit c _ _ => safe_linesplit c
  | PUnset n f => [n; f]
  end.

(** ** CLASSIFIER (cls_item.py:21, 270, 470, 491, 552, 606, 762, 801, 881, 928,
    1002, 1050, 1091, 1139, 1200, 1235, 1304) *)
Definition classifier (i : item) : str :=
  match it_pay i with
  | PItem => "Item"
  | PVariable _ _ _ _ _ _ => "Variable"
  | PComment => "Comment"
  | PInclude _ _ _ => "Include"
  | PExport _ _ => "Export"
  | PFunction _ _ _ _ _ _ _ => "Function"
  | PPythonBlock _ => "PythonBlock"
  | PFlagAssignment _ _ _ _ => "FlagAssignment"
  | PFunctionExports _ => "FunctionExports"
  | PTaskAdd _ _ _ _ => "TaskAdd"
  | PTaskDel _ _ => "TaskDel"
  | PMissingFile _ _ => "MissingFile"
  | PAddPylib _ _ => "AddPylib"
  | PAddFragements _ _ _ => "AddFragements"
  | PIncludeAll _ => "IncludeAll"
  | PInherit _ _ _ => "Inherit"
  | PUnset _ _ => "Unset"
  end.

(** ** GetAttributes (cls_item.py:243-258)

    Attribute values that occur, and Python's [==] between a value given by
    the caller (a string, number or truth value) and an attribute
    (cls_stash.py:371).  Lists, sets and pairs never equal such a value. *)
Inductive pyval :=
| VStr (s : str)
| VInt (z : Z)
| VBool (b : bool)
| VOther.

(** [==] (cls_stash.py:371). *)
Definition pyval_eqb (a b : pyval) : bool :=
  let num v := match v with
               | VInt z => Some z
               | VBool true => Some 1%Z
               | VBool false => Some 0%Z
               | _ => None
               end in
  match a, b with
  | VStr x, VStr y => str_eqb x y
  | _, _ => match num a, num b with
            | Some x, Some y => Z.eqb x y
            | _, _ => false
            end
  end.

(** Truth value of a caller supplied value (cls_stash.py:415). *)
Definition pyval_true (v : pyval) : bool :=
  match v with
  | VStr s => nonempty s
  | VInt z => negb (Z.eqb z 0)
  | VBool b => b
  | VOther => true
  end.

(** Properties of the base class (cls_item.py:52-151). *)
Definition base_attributes (i : item) : list (str * pyval) :=
  [ ("Line", VInt (it_line i)); ("Raw", VStr (it_raw i)); ("Origin", VStr (it_origin i));
    ("InFileLine", VInt (it_infile i)); ("RealRaw", VStr (it_realraw i));
    ("IsFromClass", VBool (endswith ".bbclass" (it_origin i)));
    ("OverrideDelimiter", VStr (delim_str (it_new i)));
    ("IsNewStyleOverrideSyntax", VBool (it_new i));
    ("InlineBlocks", VOther); ("IncludedFrom", VOther) ].

(** All properties of an item (cls_item.py:243-258 and the property
    definitions of the classes). *)
Definition attributes (i : item) : list (str * pyval) :=
  base_attributes i ++
  match it_pay i with
  | PItem => []
  | PVariable n sub subs v op rawn =>
      [ ("VarName", VStr n); ("SubItem", VStr sub); ("SubItems", VOther);
        ("VarValue", VStr v); ("VarOp", VStr op);
        ("VarNameComplete", VStr (var_name_complete (it_new i) n subs));
        ("VarNameCompleteNoModifiers", VStr (var_name_nomod (it_new i) n subs));
        ("RawVarName", VStr rawn); ("VarValueStripped", VStr (var_value_stripped v)) ]
  | PComment => []
  | PInclude n st f => [ ("IncName", VStr n); ("Statement", VStr st); ("FileIncluded", VStr f) ]
  | PExport n v => [ ("Name", VStr n); ("Value", VStr v) ]
  | PFunction py fr n sub subs body raw =>
      [ ("IsPython", VBool py); ("IsFakeroot", VBool fr); ("FuncName", VStr n);
        ("FuncNameComplete", VStr (join (delim_str (it_new i)) (n :: subs)));
        ("SubItem", VStr sub); ("SubItems", VOther); ("FuncBody", VStr body);
        ("FuncBodyStripped", VStr (func_body_stripped body)); ("FuncBodyRaw", VStr raw) ]
  | PPythonBlock n => [ ("FuncName", VStr n) ]
  | PFlagAssignment n f v op =>
      [ ("VarName", VStr n); ("Flag", VStr f); ("VarOp", VStr op); ("Value", VStr v);
        ("ValueStripped", VStr (strip [cDQ] v)) ]
  | PFunctionExports n => [ ("FuncNames", VStr n) ]
  | PTaskAdd n b a c =>
      [ ("FuncName", VStr n); ("Before", VOther); ("After", VOther); ("Comment", VStr c) ]
  | PTaskDel n c => [ ("FuncName", VStr n); ("Comment", VStr c) ]
  | PMissingFile f st => [ ("Filename", VStr f); ("Statement", VStr st) ]
  | PAddPylib p n => [ ("Path", VStr p); ("Namespace", VStr n) ]
  | PAddFragements p v f => [ ("Path", VStr p); ("Variable", VStr v); ("Flagged", VStr f) ]
  | PIncludeAll f => [ ("File", VStr f) ]
  | PInherit c st _ => [ ("Class", VStr c); ("Statement", VStr st); ("FilePaths", VOther) ]
  | PUnset n f => [ ("VarName", VStr n); ("Flag", VStr f) ]
  end.

(** get_items_unaliased of FunctionExports (cls_item.py:911-918) *)
Definition exports_unaliased (origin names : str) : list str :=
  let n := fst (splitext (basename origin)) in
  map (fun x => n ++ "-" ++ x) (keep_nonempty (split_char cSP names)).
