(** * What the texts of items say: specification (parser.py:235-470) *)

From Verif Require Import PyStr Regex Patterns PyPath Res Inline Const Item Lines Stash.

(** A stash that was filled by AddFile, and on which Remove, Finalize and
    changes of the constants may have happened; the items in it are the ones
    the parser made. *)
Inductive filled (e : env) : stash -> Prop :=
| filled_new : forall new neg db, filled e (new_stash new neg db)
| filled_add : forall n path off forced s r s',
    filled e s -> add_file n e path off forced s = (r, s') -> filled e s'
| filled_remove : forall l s r s', filled e s -> remove_items l s = (r, s') -> filled e s'
| filled_finalize : forall s r s', filled e s -> finalize e s = (r, s') -> filled e s'
| filled_const : forall db s, filled e s -> filled e (with_const db s).

(** An item of such a stash. *)
Definition parsed_item (e : env) (i : item) : Prop := exists s, filled e s /\ In i (st_list s).

(** The text of an item on one line: Raw without its newlines, with the
    backslashes of continued lines shown as escape characters. *)
Definition one_line (i : item) : str :=
  map (fun c => if N.eqb c cBSL then cESC else c) (filter (fun c => negb (N.eqb c cNL)) (it_raw i)).

(** White space, and texts made of it. *)
Definition blank (w : str) : Prop := forall c, In c w -> re_space c = true.
Definition blanks (w : str) : Prop := w <> [] /\ blank w.
(** The first character is not white space. *)
Definition not_indented (s : str) : Prop := forall c t, s = c :: t -> re_space c = false.

(** ** C09 *)

(** The first character that is not white space is the hash sign. *)
Definition comment_text (s : str) : Prop := exists w t, s = w ++ "#" ++ t /\ blank w.

(** ** C10, C11: assignments *)

Definition between (a b c : N) : Prop := (a <= c /\ c <= b)%N.
Definition letter (c : N) : Prop := between 65 90 c \/ between 97 122 c.
Definition digit (c : N) : Prop := between 48 57 c.
(** Characters of variable names; the braces and the dollar sign are those of
    references in names. *)
Definition name_char (c : N) : Prop := letter c \/ digit c \/ In c ("_.-:${}" : str).
Definition var_name (n : str) : Prop := n <> [] /\ forall c, In c n -> name_char c.
Definition operators : list str := ["="; ":="; "?="; "??="; "+="; "=+"; ".="; "=."].

(** [OP VALUE] with spacing: the operator does not run into the value. *)
Definition op_value (op value : str) (w1 : str) : Prop := exists core w2,
  op = w1 ++ core ++ w2 /\ blank w1 /\ blank w2 /\ In core operators /\
  not_indented value /\
  (w2 = [] -> forall t, value <> "+" ++ t /\ value <> "." ++ t).

(** [NAME OP VALUE]; a name that ends with a dot or a colon is followed by a
    blank, otherwise these characters are part of the operator. *)
Definition assignment (name op value text : str) : Prop :=
  text = name ++ op ++ value /\ var_name name /\
  exists w1, op_value op value w1 /\
    (w1 = [] -> forall n, name <> n ++ "." /\ name <> n ++ ":").

(** Words that begin another statement. *)
Definition statement_words : list str :=
  ["INHERIT"; "export"; "def"; "include"; "require"; "include_all"; "addtask"; "deltask"; "unset";
   "EXPORT_FUNCTIONS"; "addpylib"; "addfragments"].
Definition statement_word (n : str) : Prop :=
  In n statement_words \/ exists k, n = "inherit" ++ concat (repeat ("_defer" : str) k).

(** [NAME[FLAG] OP VALUE] *)
Definition flag_char (c : N) : Prop := letter c \/ digit c \/ In c ("_-./@" : str).
Definition flag_assignment (name flag op value text : str) : Prop :=
  text = name ++ "[" ++ flag ++ "]" ++ op ++ value /\ var_name name /\
  flag <> [] /\ (forall c, In c flag -> flag_char c) /\ exists w1, op_value op value w1.

(** [INHERIT OP QUOTE CLASSES QUOTE], with no quote behind. *)
Definition quote_char (c : N) : Prop := c = cDQ \/ c = cSQ.
Definition inherit_assignment (op classes text : str) : Prop := exists q1 q2 t w1,
  text = "INHERIT" ++ op ++ [q1] ++ classes ++ [q2] ++ t /\ quote_char q1 /\ quote_char q2 /\
  (forall c, In c t -> ~ quote_char c) /\ op_value op ([q1] ++ classes ++ [q2] ++ t) w1.

(** ** C12, C13: statements *)

(** [KEYWORD ARG], indented or not; the argument does not start with a blank
    or a parenthesis. *)
Definition statement (kw arg text : str) : Prop := exists w b,
  text = w ++ kw ++ b ++ arg /\ blank w /\ blanks b /\ not_indented arg /\ (forall t, arg <> "(" ++ t).
(** The same at the start of the line. *)
Definition statement_at_start (kw arg text : str) : Prop := exists b,
  text = kw ++ b ++ arg /\ blanks b /\ not_indented arg /\ (forall t, arg <> "(" ++ t).

Definition task_char (c : N) : Prop := letter c \/ digit c \/ In c ("_-" : str).
Definition task_name (n : str) : Prop := n <> [] /\ forall c, In c n -> task_char c.
(** Text behind a task name: nothing, or blanks and a comment. *)
Definition trailing (t comment : str) : Prop := (blank t /\ comment = []) \/
  exists w c, t = w ++ comment /\ blank w /\ comment = "#" ++ c.

(** No white space at either end (str.strip). *)
Definition trimmed (s : str) : Prop :=
  (forall c t, s = c :: t -> py_space c = false) /\ (forall c t, s = t ++ [c] -> py_space c = false).

(** Occurrence of a text. *)
Definition occurs (x s : str) : Prop := exists a b, s = a ++ x ++ b.
(** No hash sign, the start of a comment. *)
Definition no_hash (s : str) : Prop := ~ In 35%N s.
(** Words in a text, separated by spaces. *)
Inductive words : list str -> str -> Prop :=
| words_end : words [] []
| words_sep : forall l s, words l s -> words l (cSP :: s)
| words_word : forall w l s, w <> [] -> ~ In cSP w -> (forall c t, s = c :: t -> c = cSP) ->
    words l s -> words (w :: l) (w ++ s).

(** [addtask NAME [before B] [after A] [# comment]]: clauses behind the name,
    with their texts. *)
Definition clauses (text before after : str) : Prop :=
  (text = [] /\ before = [] /\ after = [])
  \/ (exists w, text = "before" ++ w ++ before /\ blank w /\ not_indented before /\ after = []
                /\ ~ occurs "after" before)
  \/ (exists w, text = "after" ++ w ++ after /\ blank w /\ not_indented after /\ before = []
                /\ ~ occurs "before" after)
  \/ (exists w w2, text = "before" ++ w ++ before ++ "after" ++ w2 ++ after /\ blank w /\ blank w2 /\
                   not_indented before /\ not_indented after /\ ~ occurs "after" after /\ ~ occurs "before" after)
  \/ (exists w w2, text = "after" ++ w ++ after ++ "before" ++ w2 ++ before /\ blank w /\ blank w2 /\
                   not_indented before /\ not_indented after /\ ~ occurs "after" before /\ ~ occurs "before" before).

(** [export NAME = "VALUE" ...]: the value has no double quote, nor has what follows it. *)
Definition export_value (name value text : str) : Prop := exists w1 w2 tail,
  text = name ++ w1 ++ "=" ++ w2 ++ [cDQ] ++ value ++ [cDQ] ++ tail /\ blank w1 /\ blank w2 /\
  ~ In cDQ value /\ ~ In cDQ tail.

(** [def NAME(ARGS): ...] *)
Definition def_char (c : N) : Prop := between 97 122 c \/ digit c \/ In c ("_-" : str).
Definition def_name (n : str) : Prop := n <> [] /\ forall c, In c n -> def_char c.

(** No blank in a text. *)
Definition one_word (s : str) : Prop := s <> [] /\ forall c, In c s -> re_space c = false.

(** [unset NAME] and [unset NAME[FLAG]] *)
Definition no_bracket (s : str) : Prop := ~ In 93%N s.

(** What follows the name of an added task: blanks, clauses, a comment. *)
Definition task_tail (t before after comment : str) : Prop := exists w0 cl,
  t = w0 ++ cl ++ comment /\ blank w0 /\ (cl <> [] -> w0 <> []) /\ clauses cl before after /\
  (comment = [] \/ exists c, comment = "#" ++ c) /\ no_hash before /\ no_hash after.
(** Names of package scripts, which are no tasks. *)
Definition package_script (n : str) : Prop :=
  exists p r, In p (["pkg_preinst"; "pkg_postinst"; "pkg_prerm"; "pkg_postrm"] : list str) /\ n = p ++ r.

(** Characters of the file names of include and require. *)
Definition file_char (c : N) : Prop := letter c \/ digit c \/ In c ("_-./${}" : str).
Definition file_name (n : str) : Prop := n <> [] /\ forall c, In c n -> file_char c.
