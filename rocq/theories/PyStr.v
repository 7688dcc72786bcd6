(** * Python strings

    A Python [str] is modelled as a list of code points ([list N]).  The
    functions below model the [str] methods that /repo/oelint_parser uses;
    they are runtime (CPython) behaviour, cited where the repository calls
    them. *)

From Coq Require Export List NArith ZArith Lia Bool.
From Coq Require Import Strings.Byte.
Export ListNotations.

(** Python str, the type of all texts (cls_item.py:34-50). *)
Definition str := list N.

(** String literals: ["abc"%py] is the list of its code points. *)
Declare Scope py_scope.
Delimit Scope py_scope with py.
Bind Scope py_scope with str.

(** Notation only: literals such as those of parser.py:29. *)
Inductive rstr := rnil : rstr | rcons : N -> rstr -> rstr.
(** Notation only (as parser.py:29). *)
Fixpoint rstr_parse_go (l : list Byte.byte) : rstr :=
  match l with nil => rnil | b :: r => rcons (Byte.to_N b) (rstr_parse_go r) end.
(** Notation only (as parser.py:29). *)
Definition rstr_parse (l : list Byte.byte) : rstr := rstr_parse_go l.
(** Notation only (as parser.py:29). *)
Fixpoint rstr_print (l : rstr) : option (list Byte.byte) :=
  match l with
  | rnil => Some nil
  | rcons n r =>
      match Byte.of_N n, rstr_print r with
      | Some b, Some r => Some (b :: r)
      | _, _ => None
      end
  end.
Set Warnings "-via-type-remapping,-via-type-mismatch".
String Notation str rstr_parse rstr_print
  (via rstr mapping [[nil] => rnil, [cons] => rcons]) : py_scope.
Open Scope py_scope.

(** Code points used below: the tab of parser.py:32. *)
Definition cTAB : N := 9.
(** parser.py:169, 186. *)
Definition cNL : N := 10.
(** parser.py:186. *)
Definition cESC : N := 27.        (* chr(0x1b), parser.py:186 *)
(** cls_item.py:909. *)
Definition cSP : N := 32.
(** Double quote (cls_item.py:378). *)
Definition cDQ : N := 34.         (* double quote *)
(** Single quote (inlinerep.py:46). *)
Definition cSQ : N := 39.         (* single quote *)
(** Backslash (parser.py:186). *)
Definition cBSL : N := 92.        (* backslash *)

(** ** Equality *)
(** [==] of strings (cls_stash.py:347). *)
Fixpoint str_eqb (a b : str) : bool :=
  match a, b with
  | [], [] => true
  | x :: a', y :: b' => N.eqb x y && str_eqb a' b'
  | _, _ => false
  end.

(** [x in list_of_strings] (cls_item.py:397, cls_stash.py:172). *)
Definition mem_str (x : str) (l : list str) : bool := existsb (str_eqb x) l.

(** ** Character classes *)

(** [str.isspace] / [str.strip()] with no argument (Unicode whitespace as
    CPython defines it). (cls_item.py:378, 628, parser.py:150). *)
Definition py_space (c : N) : bool :=
  (((9 <=? c) && (c <=? 13)) || ((28 <=? c) && (c <=? 32))
  || (c =? 133) || (c =? 160) || (c =? 5760)
  || ((8192 <=? c) && (c <=? 8202)) || (c =? 8232) || (c =? 8233)
  || (c =? 8239) || (c =? 8287) || (c =? 12288))%N.

(** ** str.startswith / str.endswith (parser.py:150, 163, 406). *)
Fixpoint startswith (p s : str) : bool :=
  match p, s with
  | [], _ => true
  | x :: p', y :: s' => N.eqb x y && startswith p' s'
  | _ :: _, [] => false
  end.
(** str.endswith (cls_item.py:116, cls_stash.py:194, 206, parser.py:334). *)
Definition endswith (p s : str) : bool := startswith (rev p) (rev s).

(** ** [p in s] and [s.find(p)]

    [find_str p s] is [Some (a, b)] for the first occurrence, with
    [s = a ++ p ++ b]; [None] when [s.find(p) == -1]. (parser.py:175-176, cls_item.py:633.) *)
Fixpoint find_str (p s : str) : option (str * str) :=
  if startswith p s then Some ([], skipn (length p) s)
  else match s with
       | [] => None
       | c :: s' =>
           match find_str p s' with
           | Some (a, b) => Some (c :: a, b)
           | None => None
           end
       end.
(** [p in s] (parser.py:175, cls_item.py:426, cls_stash.py:502). *)
Definition contains (p s : str) : bool :=
  match find_str p s with Some _ => true | None => false end.

(** ** str.replace

    [s.replace(old, new)] replaces all non-overlapping occurrences from the
    left; an empty [old] puts [new] before every character and at the end. (parser.py:181, 186, cls_stash.py:195, 560, 643, 768.) *)
Fixpoint replace_go (old new : str) (skip : nat) (s : str) : str :=
  match s with
  | [] => []
  | c :: s' =>
      match skip with
      | S k => replace_go old new k s'
      | O => if startswith old s
             then new ++ replace_go old new (length old - 1) s'
             else c :: replace_go old new 0 s'
      end
  end.
(** str.replace (parser.py:181, 186, cls_stash.py:195, 560, 643, 768). *)
Definition replace (old new s : str) : str :=
  match old with
  | [] => flat_map (fun c => new ++ [c]) s ++ new
  | _ :: _ => replace_go old new 0 s
  end.

(** [s.replace(old, new, 1)] (cls_stash.py:729) *)
Definition replace1 (old new s : str) : str :=
  match find_str old s with
  | Some (a, b) => a ++ new ++ b
  | None => s
  end.

(** ** str.split(sep) for a one-character separator, and sep.join (cls_item.py:187, 218, cls_stash.py:665-667, 694, 723, constants.py:38.) *)
Fixpoint split_char (c : N) (s : str) : list str :=
  match s with
  | [] => [[]]
  | x :: s' =>
      if N.eqb x c then [] :: split_char c s'
      else match split_char c s' with
           | h :: t => (x :: h) :: t
           | [] => [[x]]
           end
  end.
(** sep.join (cls_item.py:205, 233, 351, 669). *)
Fixpoint join (sep : str) (l : list str) : str :=
  match l with
  | [] => []
  | [x] => x
  | x :: r => x ++ sep ++ join sep r
  end.

(** [[x for x in l if x]] (cls_item.py:166, 203, 289, 629, 909) *)
Definition nonempty (s : str) : bool := match s with [] => false | _ => true end.
(** [[x for x in l if x]] (cls_item.py:166, 203, 289, 629, 909). *)
Definition keep_nonempty (l : list str) : list str := filter nonempty l.

(** ** strip family, with the stripped set given as a predicate (cls_item.py:378, 633, parser.py:385.) *)
Fixpoint lstrip_p (p : N -> bool) (s : str) : str :=
  match s with
  | [] => []
  | c :: s' => if p c then lstrip_p p s' else s
  end.
(** str.rstrip (cls_item.py:378, 633, constants.py:38). *)
Definition rstrip_p (p : N -> bool) (s : str) : str := rev (lstrip_p p (rev s)).
(** str.strip (cls_item.py:378, 415, 866, inlinerep.py:46). *)
Definition strip_p (p : N -> bool) (s : str) : str := rstrip_p p (lstrip_p p s).

(** Membership in the set of stripped characters (cls_item.py:378). *)
Definition in_chars (cs : str) (c : N) : bool := existsb (N.eqb c) cs.
(** lstrip(chars) (cls_item.py:378, cls_stash.py:664, inlinerep.py:281). *)
Definition lstrip (cs s : str) : str := lstrip_p (in_chars cs) s.
(** rstrip(chars) (cls_item.py:378, 633, inlinerep.py:281, constants.py:38). *)
Definition rstrip (cs s : str) : str := rstrip_p (in_chars cs) s.
(** strip(chars) (cls_item.py:415, 866, parser.py:322). *)
Definition strip (cs s : str) : str := strip_p (in_chars cs) s.
(** [s.strip()] and [s.rstrip()] (cls_item.py:378, 628, 710, parser.py:150, 385) *)
Definition strip_ws (s : str) : str := strip_p py_space s.
(** [s.rstrip()] (cls_item.py:633). *)
Definition rstrip_ws (s : str) : str := rstrip_p py_space s.

(** ** s.count(c) (parser.py:127, 128, 169.) *)
Fixpoint count_char (c : N) (s : str) : nat :=
  match s with
  | [] => 0
  | x :: s' => (if N.eqb x c then 1 else 0) + count_char c s'
  end%nat.

(** Remove one character everywhere: [s.replace(c, "")]; and map one
    character to another: [s.replace(c, d)]. (parser.py:186, cls_item.py:709-710.) *)
Definition remove_char (c : N) (s : str) : str := filter (fun x => negb (N.eqb x c)) s.
(** parser.py:186. *)
Definition map_char (c d : N) (s : str) : str := map (fun x => if N.eqb x c then d else x) s.

(** ** Text files

    [readlines()] on text whose newlines are already translated: every line
    keeps its terminating newline, only the last may lack one. (parser.py:203-204.) *)
Fixpoint readlines (s : str) : list str :=
  match s with
  | [] => []
  | c :: s' =>
      if N.eqb c cNL then [c] :: readlines s'
      else match readlines s' with
           | h :: t => (c :: h) :: t
           | [] => [[c]]
           end
  end.

(** Universal newline translation done by [open(path)] in text mode:
    CR LF and a lone CR become LF. (parser.py:203, cls_stash.py:801.) *)
Fixpoint universal_newlines (s : str) : str :=
  match s with
  | [] => []
  | c :: s' =>
      if N.eqb c 13 then
        cNL :: match s' with
               | d :: s'' => if N.eqb d cNL then universal_newlines s'' else universal_newlines s'
               | [] => []
               end
      else c :: universal_newlines s'
  end.

(** ** Lexicographic order on code points: [sorted()] of strings. (cls_stash.py:309, 325, 343, 592.) *)
Fixpoint str_leb (a b : str) : bool :=
  match a, b with
  | [], _ => true
  | _ :: _, [] => false
  | x :: a', y :: b' =>
      if N.ltb x y then true else if N.eqb x y then str_leb a' b' else false
  end.
