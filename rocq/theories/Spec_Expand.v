(** * What expansion is about, without the code that does it

    References in texts, the meaning of a text, and the meaning of assignments.
    Nothing here uses the functions [expand_f], [expand_one] or the passes of
    ExpandVar. *)

From Verif Require Import PyStr Regex PyPath Res Const Item Lines Stash Spec_Query.

(** ** Texts with references *)

(** The written form of a reference (cls_stash.py:20). *)
Definition reference (n : str) : str := "${" ++ n ++ "}".

(** Names as they occur in references: not empty, without dollar sign, closing
    brace and line feed. *)
Definition plain_name (n : str) : Prop := n <> [] /\ ~ In 36%N n /\ ~ In 125%N n /\ ~ In cNL n.

(** Texts without inline code that is looked into (cls_stash.py:21-24). *)
Definition no_code (v : str) : Prop := contains "getVar(" v = false /\ contains "oe.utils.read_file(" v = false.

(** [expands known builtin spare v w]: replacing every reference in [v] by the
    expanded text of its name gives [w].  Names in [spare] and names without any
    meaning stay, and so do dollar signs before other characters than braces. *)
Inductive expands (known builtin : str -> option str) : list str -> str -> str -> Prop :=
| ex_end : forall sp, expands known builtin sp [] []
| ex_char : forall sp c v w, c <> 36%N -> expands known builtin sp v w -> expands known builtin sp (c :: v) (c :: w)
| ex_dollar : forall sp c v w, c <> 36%N -> c <> 123%N ->
    expands known builtin sp v w -> expands known builtin sp (36%N :: c :: v) (36%N :: c :: w)
| ex_spare : forall sp n v w, plain_name n -> In n sp ->
    expands known builtin sp v w -> expands known builtin sp (reference n ++ v) (reference n ++ w)
| ex_known : forall sp n c d v w, plain_name n -> ~ In n sp -> known n = Some c -> no_code c ->
    expands known builtin [] c d ->
    expands known builtin sp v w -> expands known builtin sp (reference n ++ v) (d ++ w)
| ex_builtin : forall sp n b v w, plain_name n -> ~ In n sp -> known n = None -> builtin n = Some b ->
    ~ In 36%N b ->
    expands known builtin sp v w -> expands known builtin sp (reference n ++ v) (b ++ w)
| ex_unknown : forall sp n v w, plain_name n -> ~ In n sp -> known n = None -> builtin n = None ->
    expands known builtin sp v w -> expands known builtin sp (reference n ++ v) (reference n ++ w).

(** ** The text a name stands for *)

(** The item belongs to the file or to a linked one. *)
Definition visible (s : stash) (file : str) (i : item) : Prop :=
  file = [] \/ it_origin i = file \/ linked s file (it_origin i).

(** Assignments that only add to or remove from a value. *)
Definition amends (op : str) (subs : list str) : Prop :=
  In (strip_ws op) ["+="; "=+"; "=."; ".="] \/ In "append" subs \/ In "prepend" subs \/ In "remove" subs.

(** A definition of the variable [n] that counts for [file]. *)
Definition definition (s : stash) (file n : str) (i : item) : Prop :=
  In i (st_list s) /\ visible s file i /\
  exists sub subs v op rawn, it_pay i = PVariable n sub subs v op rawn /\ ~ amends op subs.

(** The first one in line order. *)
Definition first_of (s : stash) (file n : str) (i : item) : Prop :=
  definition s file n i /\ forall j, definition s file n j -> by_line i j.

(** Its text: the value, with inline code as written. *)
Definition text_of (i : item) (c : str) : Prop :=
  (contains INLINE_BLOCK (stripped i) = false -> c = stripped i) /\
  (contains INLINE_BLOCK (stripped i) = true -> c = reverse_inline_block i).

(** Definitions first, then the base set. *)
Definition stands_for (s : stash) (file n : str) (c : option str) : Prop :=
  match c with
  | Some c => (exists i, first_of s file n i /\ text_of i c) \/
              ((forall i, ~ definition s file n i) /\ dget n (sets_base (st_const s)) = Some c)
  | None => (forall i, ~ definition s file n i) /\ dget n (sets_base (st_const s)) = None
  end.

(** Names that have a value for every file; the version is the one in the
    name of the file, or 1.0. *)
Definition file_version (file : str) : str :=
  match guess_recipe_version file with Some (c :: v) => c :: v | _ => "1.0" end.
Definition builtins (file : str) : list (str * str) :=
  [ ("PN", guess_recipe_name file); ("BPN", guess_base_recipe_name file); ("PV", file_version file);
    ("FILE", file); ("THISDIR", dirname file) ].

(** ** The value of a variable after several assignments *)

(** What a statement does with the value of one variable: at once, or after all
    statements that act at once. *)
Inductive event :=
| Unsets
| Sets (v : str) | Defaults (v : str)
| AddsWord (v : str) | LeadsWord (v : str) | Adds (v : str) | Leads (v : str)
| LateAdds (v : str) | LateLeads (v : str) | LateRemoves (v : str)
| Ignored.

Definition txt (cur : option str) : str := match cur with Some v => v | None => [] end.

Definition at_once (cur : option str) (x : event) : option str :=
  match x with
  | Unsets => None
  | Sets v => Some v
  | Defaults v => match cur with Some w => Some w | None => Some v end
  | AddsWord v => Some (txt cur ++ " " ++ v)
  | LeadsWord v => Some (v ++ " " ++ txt cur)
  | Adds v => Some (txt cur ++ v)
  | Leads v => Some (v ++ txt cur)
  | LateAdds _ | LateLeads _ | LateRemoves _ | Ignored => cur
  end.
Definition late_add (cur : option str) (x : event) : option str :=
  match x with LateAdds v => Some (txt cur ++ v) | LateLeads v => Some (v ++ txt cur) | _ => cur end.
Definition late_remove (cur : option str) (x : event) : option str :=
  match x with LateRemoves v => Some (replace v [] (txt cur)) | _ => cur end.
Definition assigned (start : option str) (evs : list event) : option str :=
  fold_left late_remove evs (fold_left late_add evs (fold_left at_once evs start)).

(** An ignored statement that no unset follows. *)
Definition left_over (evs : list event) : Prop := exists a b, evs = a ++ Ignored :: b /\ ~ In Unsets b.

(** Statements that act at once only. *)
Definition prompt (evs : list event) : Prop :=
  forall v, ~ In (LateAdds v) evs /\ ~ In (LateLeads v) evs /\ ~ In (LateRemoves v) evs.
(** Statements that do something. *)
Definition effective (x : event) : bool := match x with Ignored => false | _ => true end.
(** Words that are removed, and texts without white space. *)
Definition gone (evs : list event) (w : str) : bool :=
  existsb (fun x => match x with LateRemoves r => str_eqb w r | _ => false end) evs.
Definition no_space (r : str) : Prop := forall c, In c r -> re_space c = false.

(** The statements of a list of items that concern the variable [n]. *)
Definition about (n : str) (i : item) : Prop :=
  match it_pay i with PUnset m f => m = n /\ f = [] | _ => item_name_nomod i = n end.
Inductive operator : str -> (str -> event) -> Prop :=
| op_set : operator " = " Sets | op_now : operator " := " Sets
| op_default : operator " ?= " Defaults | op_weak : operator " ??= " Defaults
| op_add : operator " += " AddsWord | op_lead : operator " =+ " LeadsWord
| op_cat : operator " .= " Adds | op_precat : operator " =. " Leads.
(** Inline code sets the value; other operators, such as those with other blanks
    around them, do nothing. *)
Inductive does (n : str) (i : item) : event -> Prop :=
| does_unset : it_pay i = PUnset n [] -> does n i Unsets
| does_now : forall m sub subs v op rawn f, it_pay i = PVariable m sub subs v op rawn -> item_name_nomod i = n ->
    (forall x, In x ["append"; "prepend"; "remove"] -> ~ In x subs) ->
    contains INLINE_BLOCK (stripped i) = false -> operator op f -> does n i (f (stripped i))
| does_code : forall m sub subs v op rawn, it_pay i = PVariable m sub subs v op rawn -> item_name_nomod i = n ->
    (forall x, In x ["append"; "prepend"; "remove"] -> ~ In x subs) ->
    contains INLINE_BLOCK (stripped i) = true -> does n i (Sets (reverse_inline_block i))
| does_nothing : forall m sub subs v op rawn, it_pay i = PVariable m sub subs v op rawn -> item_name_nomod i = n ->
    (forall x, In x ["append"; "prepend"; "remove"] -> ~ In x subs) ->
    contains INLINE_BLOCK (stripped i) = false -> (forall f, ~ operator op f) -> does n i Ignored
| does_append : forall m sub subs v op rawn, it_pay i = PVariable m sub subs v op rawn -> item_name_nomod i = n ->
    In "append" subs -> ~ In "remove" subs -> does n i (LateAdds (stripped i))
| does_prepend : forall m sub subs v op rawn, it_pay i = PVariable m sub subs v op rawn -> item_name_nomod i = n ->
    In "prepend" subs -> ~ In "append" subs -> ~ In "remove" subs -> does n i (LateLeads (stripped i))
| does_remove : forall m sub subs v op rawn, it_pay i = PVariable m sub subs v op rawn -> item_name_nomod i = n ->
    In "remove" subs -> ~ In "append" subs -> ~ In "prepend" subs -> does n i (LateRemoves (stripped i)).
Inductive history (n : str) : list item -> list event -> Prop :=
| hist_nil : history n [] []
| hist_other : forall i l evs, ~ about n i -> history n l evs -> history n (i :: l) evs
| hist_does : forall i l x evs, does n i x -> history n l evs -> history n (i :: l) (x :: evs).

(** The value before the first statement. *)
Definition preset (s : stash) (file n : str) : option str :=
  match dget n (sets_base (st_const s)) with
  | Some v => Some v
  | None => dget n [("PN", guess_recipe_name file); ("PV", file_version file); ("BPN", guess_base_recipe_name file)]
  end.

(** Texts without anything to expand. *)
Definition plain_text (v : str) : Prop := no_code v /\ contains "${" v = false.

(** ** Texts of other files *)

(** A value with one call of oe.utils.read_file: [p] before the block, [u] the
    code before the call, [arg] its argument, [q] the rest. *)
Definition read_call (p u arg q value : str) : Prop :=
  value = p ++ "${@" ++ u ++ "oe.utils.read_file(" ++ arg ++ ")}" ++ q /\
  (forall a b, value = a ++ "oe.utils.read_file(" ++ b -> a = p ++ "${@" ++ u) /\
  ~ In 36%N u /\ ~ In cNL u /\ ~ In cNL arg /\
  (forall a b, arg ++ ")}" ++ q = a ++ ")}" ++ b -> a = arg).
(** A path in quotes. *)
Definition in_quotes (path a : str) : Prop :=
  exists q, In q [cDQ; cSQ] /\ a = [q] ++ path ++ [q] /\ ~ In cDQ path /\ ~ In cSQ path.
