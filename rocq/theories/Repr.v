(** * The text of an item (cls_item.py:260-261)

    [str(item)] formats the class name and the dictionary of all properties;
    Stash.AddFile feeds it into the fingerprint (cls_stash.py:226-227).  The
    texts of the values are those Python's [repr] gives. *)

From Coq Require Import Decimal DecimalZ.
From Verif Require Import PyStr Regex PyPath Res Const Item Stash.

(** A hexadecimal digit, as used by [repr] of a str (cls_item.py:261). *)
Definition hex_digit (d : N) : N := (if d <? 10 then 48 + d else 87 + d)%N.
(** [w] hexadecimal digits (cls_item.py:261). *)
Fixpoint hex (w : nat) (c : N) : str :=
  match w with
  | O => []
  | S k => hex k (c / 16)%N ++ [hex_digit (c mod 16)%N]
  end.

(** One character in the [repr] of a str in the quote [q] (cls_item.py:261).
    [pr] is str.isprintable beyond ASCII.  There are no characters from 1114112
    on; they are only here because the model has numbers for characters. *)
Definition esc (pr : N -> bool) (q c : N) : str :=
  (if (c =? q) || (c =? cBSL) then [cBSL; c]
   else if c =? 9 then [cBSL; 116]
   else if c =? 10 then [cBSL; 110]
   else if c =? 13 then [cBSL; 114]
   else if (c <? 32) || (c =? 127) then cBSL :: 120 :: hex 2 c
   else if c <? 127 then [c]
   else if pr c || (1114112 <=? c) then [c]
   else if c <? 256 then cBSL :: 120 :: hex 2 c
   else if c <? 65536 then cBSL :: 117 :: hex 4 c
   else cBSL :: 85 :: hex 8 c)%N.

(** The quote [repr] of a str takes (cls_item.py:261). *)
Definition quote_of (s : str) : N :=
  if existsb (N.eqb cSQ) s && negb (existsb (N.eqb cDQ) s) then cDQ else cSQ.
(** [repr] of a str (cls_item.py:261). *)
Definition repr_str (pr : N -> bool) (s : str) : str :=
  quote_of s :: flat_map (esc pr (quote_of s)) s ++ [quote_of s].

(** Digits of a number (cls_item.py:261). *)
Fixpoint repr_uint (u : Decimal.uint) : str :=
  match u with
  | Nil => []
  | D0 u => 48%N :: repr_uint u | D1 u => 49%N :: repr_uint u | D2 u => 50%N :: repr_uint u
  | D3 u => 51%N :: repr_uint u | D4 u => 52%N :: repr_uint u | D5 u => 53%N :: repr_uint u
  | D6 u => 54%N :: repr_uint u | D7 u => 55%N :: repr_uint u | D8 u => 56%N :: repr_uint u
  | D9 u => 57%N :: repr_uint u
  end.
(** [repr] of an int (cls_item.py:261). *)
Definition repr_int (z : Z) : str :=
  match Z.to_int z with Decimal.Pos u => repr_uint u | Decimal.Neg u => 45%N :: repr_uint u end.

(** Values of properties: truth values, numbers, texts, lists of texts
    (cls_item.py:314, 681, 962, 971), the list of pairs InlineBlocks
    (cls_item.py:137), sets of texts (cls_item.py:141, 1278). *)
Inductive pobj :=
| OBool (b : bool)
| OInt (z : Z)
| OStr (s : str)
| OList (l : list str)
| OPairs (l : list (str * str))
| OSet (l : list str)
| OPaths (l : list str).

(** The members of a list or set (cls_item.py:261). *)
Definition commas (l : list str) : str := join ", " l.
(** [repr] of a pair (cls_item.py:261). *)
Definition repr_pair (pr : N -> bool) (p : str * str) : str :=
  "(" ++ repr_str pr (fst p) ++ ", " ++ repr_str pr (snd p) ++ ")".
(** [repr] of a value (cls_item.py:261).  [o] is the order in which a set is
    iterated.  FilePaths is a dictionary if empty (cls_item.py:1257). *)
Definition repr_obj (pr : N -> bool) (o : list str -> list str) (v : pobj) : str :=
  match v with
  | OBool b => bool_str b
  | OInt z => repr_int z
  | OStr s => repr_str pr s
  | OList l => "[" ++ commas (map (repr_str pr) l) ++ "]"
  | OPairs l => "[" ++ commas (map (repr_pair pr) l) ++ "]"
  | OSet [] => "set()"
  | OSet l => "{" ++ commas (map (repr_str pr) (o l)) ++ "}"
  | OPaths [] => "{}"
  | OPaths l => "{" ++ commas (map (repr_str pr) (o l)) ++ "}"
  end.

(** Properties of the base class (cls_item.py:52-151), with their values. *)
Definition base_dict (i : item) : list (str * pobj) :=
  [ ("Line", OInt (it_line i)); ("Raw", OStr (it_raw i)); ("Origin", OStr (it_origin i));
    ("InFileLine", OInt (it_infile i)); ("RealRaw", OStr (it_realraw i));
    ("IsFromClass", OBool (endswith ".bbclass" (it_origin i)));
    ("OverrideDelimiter", OStr (delim_str (it_new i)));
    ("IsNewStyleOverrideSyntax", OBool (it_new i));
    ("InlineBlocks", OPairs (it_blocks i)); ("IncludedFrom", OSet (it_incfrom i)) ].

(** Properties of the class of the item (the property definitions of
    cls_item.py:295-1346), in the order of their definition. *)
Definition own_dict (i : item) : list (str * pobj) :=
  match it_pay i with
  | PItem => []
  | PVariable n sub subs v op rawn =>
      [ ("VarName", OStr n); ("SubItem", OStr sub); ("SubItems", OList subs);
        ("VarValue", OStr v); ("VarOp", OStr op);
        ("VarNameComplete", OStr (var_name_complete (it_new i) n subs));
        ("VarNameCompleteNoModifiers", OStr (var_name_nomod (it_new i) n subs));
        ("RawVarName", OStr rawn); ("VarValueStripped", OStr (var_value_stripped v)) ]
  | PComment => []
  | PInclude n st f => [ ("IncName", OStr n); ("Statement", OStr st); ("FileIncluded", OStr f) ]
  | PExport n v => [ ("Name", OStr n); ("Value", OStr v) ]
  | PFunction py fr n sub subs body raw =>
      [ ("IsPython", OBool py); ("IsFakeroot", OBool fr); ("FuncName", OStr n);
        ("FuncNameComplete", OStr (join (delim_str (it_new i)) (n :: subs)));
        ("SubItem", OStr sub); ("SubItems", OList subs); ("FuncBody", OStr body);
        ("FuncBodyStripped", OStr (func_body_stripped body)); ("FuncBodyRaw", OStr raw) ]
  | PPythonBlock n => [ ("FuncName", OStr n) ]
  | PFlagAssignment n f v op =>
      [ ("VarName", OStr n); ("Flag", OStr f); ("VarOp", OStr op); ("Value", OStr v);
        ("ValueStripped", OStr (strip [cDQ] v)) ]
  | PFunctionExports n => [ ("FuncNames", OStr n) ]
  | PTaskAdd n b a c =>
      [ ("FuncName", OStr n); ("Before", OList b); ("After", OList a); ("Comment", OStr c) ]
  | PTaskDel n c => [ ("FuncName", OStr n); ("Comment", OStr c) ]
  | PMissingFile f st => [ ("Filename", OStr f); ("Statement", OStr st) ]
  | PAddPylib p n => [ ("Path", OStr p); ("Namespace", OStr n) ]
  | PAddFragements p v f => [ ("Path", OStr p); ("Variable", OStr v); ("Flagged", OStr f) ]
  | PIncludeAll f => [ ("File", OStr f) ]
  | PInherit c st l => [ ("Class", OStr c); ("Statement", OStr st); ("FilePaths", OPaths l) ]
  | PUnset n f => [ ("VarName", OStr n); ("Flag", OStr f) ]
  end.

(** One entry of the dictionary (cls_item.py:261). *)
Definition repr_entry (pr : N -> bool) (o : list str -> list str) (a : str * pobj) : str :=
  repr_str pr (fst a) ++ ": " ++ repr_obj pr o (snd a).
(** [__repr__] (cls_item.py:260-261); [__dir__] lists the properties of the
    class before those of the base class (cls_item.py:250-256). *)
Definition item_repr (pr : N -> bool) (o : list str -> list str) (i : item) : str :=
  classifier i ++ " -- {" ++ commas (map (repr_entry pr o) (own_dict i ++ base_dict i)) ++ "}" ++ [cNL].

(** The text whose digest FingerPrint returns (cls_stash.py:137, 226-238). *)
Definition digested (s : stash) : str := concat (st_fp s).
