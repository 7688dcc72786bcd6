(** * Recipes of ordinary statements: specification

    What a recipe is made of, how its statements are written, what the parser
    is to read, and which values the variables are to have.  Nothing here uses
    the parser, its patterns or the passes of ExpandVar. *)

From Verif Require Props_Items.
From Verif Require Import PyStr Regex Patterns PyPath Res Inline Const Item Lines Stash
  Spec_Query Spec_Parse Spec_Group Spec_Func Spec_Access Spec_Expand.
From Verif Require Spec_Inline.

(** ** Statements *)

(** Statements on one line that begin with a word. *)
Inductive plain :=
(** [inherit CLASSES], [inherit_defer CLASSES] *)
| Inherit (defers : nat) (classes : str)
(** [include FILE], [require FILE] *)
| Includes (kw name : str)
(** [include_all FILE] *)
| IncludesAll (name : str)
(** [addpylib ${LAYERDIR}/PATH NAMESPACE] *)
| Pylib (path ns : str)
(** [addfragments PATH VAR FLAGGED] *)
| Fragments (path var flagged : str)
(** [export NAME] *)
| ExportName (name : str)
(** [unset NAME], [unset NAME[FLAG]] *)
| UnsetVar (name flag : str)
(** [INHERIT OP "CLASSES"], in either quotes *)
| InheritAll (op : str) (q : N) (classes : str).

Inductive stmt :=
(** [NAME OP "V"], where the value may go over several lines *)
| Assign (name op : str) (vs : list str)
(** [NAME[FLAG] OP "V"] *)
| Flag (name flag op v : str)
(** [export NAME = "V"] *)
| Export (name v : str)
(** [EXPORT_FUNCTIONS F...] *)
| Functions (fs : str)
(** [deltask NAME] *)
| Deltask (name : str)
(** [addtask NAME CLAUSES] *)
| Addtask (name t : str) (bl al : list str)
(** [HEAD B], lines, [Z1 } Z2] *)
| Func (qs : list (str * str)) (name head b : str) (m : list str) (z1 z2 : str)
(** comments in the first column, one line each *)
| Remarks (h : str) (m : list str)
(** an empty line *)
| Empty
(** a statement of one line *)
| Plain (p : plain)
(** [def NAME(ARGS):REST], lines *)
| Define (name args rest : str) (m : list str).

(** ** How they are written *)

Definition line (t : str) : str := t ++ [cNL].
Definition quoted (v : str) : str := [cDQ] ++ v ++ [cDQ].
(** All lines of a value but the last end with a backslash. *)
Fixpoint continued (h : str) (vs : list str) : list str :=
  match vs with
  | [] => [line (h ++ [cDQ])]
  | v :: r => match r with
              | [] => [line (h ++ v ++ [cDQ])]
              | _ => line (h ++ v ++ [cBSL]) :: continued [] r
              end
  end.
Definition plain_line (p : plain) : str :=
  match p with
  | Inherit d classes => ("inherit" ++ concat (repeat ("_defer" : str) d)) ++ " " ++ classes
  | Includes kw name => kw ++ " " ++ name
  | IncludesAll name => "include_all " ++ name
  | Pylib path ns => "addpylib ${LAYERDIR}/" ++ path ++ " " ++ ns
  | Fragments path var flagged => "addfragments " ++ path ++ " " ++ var ++ " " ++ flagged
  | ExportName name => "export " ++ name
  | UnsetVar name flag => "unset " ++ name ++ match flag with [] => [] | _ => "[" ++ flag ++ "]" end
  | InheritAll op q classes => "INHERIT" ++ op ++ [q] ++ classes ++ [q]
  end.
Definition written (x : stmt) : list str :=
  match x with
  | Assign name op vs => continued (name ++ op ++ [cDQ]) vs
  | Flag name flag op v => [line (name ++ "[" ++ flag ++ "]" ++ op ++ quoted v)]
  | Export name v => [line ("export " ++ name ++ " = " ++ quoted v)]
  | Functions fs => [line ("EXPORT_FUNCTIONS " ++ fs)]
  | Deltask name => [line ("deltask " ++ name)]
  | Addtask name t _ _ => [line ("addtask " ++ name ++ t)]
  | Func _ _ head b m z1 z2 => (head ++ b) :: m ++ [z1 ++ "}" ++ z2]
  | Remarks h m => h :: m
  | Empty => [line []]
  | Plain p => [line (plain_line p)]
  | Define name args rest m => line ("def " ++ name ++ "(" ++ args ++ "):" ++ rest) :: m
  end.

(** ** Which of them are considered *)

(** Text of one line without the characters that have a meaning for lines. *)
Definition segment (v : str) : Prop := ~ In cNL v /\ ~ In cBSL v.
Definition whole_line (l : str) : Prop := exists t, l = line t /\ ~ In cNL t.
Definition canonical : list (str * (str -> event)) :=
  [ (" = ", Sets); (" := ", Sets); (" ?= ", Defaults); (" ??= ", Defaults);
    (" += ", AddsWord); (" =+ ", LeadsWord); (" .= ", Adds); (" =. ", Leads) ].
(** Names without overrides: every underscore is behind something, and has an
    upper case letter behind it. *)
Definition simple_name (n : str) : Prop :=
  ~ In 58%N n /\ forall a b, n = a ++ "_" ++ b -> a <> [] /\ exists c r, b = c :: r /\ between 65 90 c.
(** At most one of append, prepend and remove is among the overrides. *)
Definition one_operation (os : list str) : Prop :=
  forall x y, operation x -> operation y -> In x os -> In y os -> x = y.
Definition usual_name (name : str) : Prop :=
  simple_name name \/ exists n os, overridden name n os /\ one_operation os.

(** The argument of a statement: on one line, and no blank nor parenthesis first. *)
Definition argument (a : str) : Prop := a <> [] /\ segment a /\ not_indented a /\ forall t, a <> "(" ++ t.
Definition plain_ok (p : plain) : Prop :=
  match p with
  | Inherit _ classes => argument classes
  | Includes kw name => (kw = "include" \/ kw = "require") /\ file_name name
  | IncludesAll name => argument name
  | Pylib path ns => path <> [] /\ segment path /\ segment ns /\ (forall c, In c ns -> re_space c = false)
  | Fragments path var flagged => argument path /\ one_word var /\ segment var /\ one_word flagged /\ segment flagged
  | ExportName name => var_name name
  | UnsetVar name flag => var_name name /\ forall c, In c flag -> flag_char c
  | InheritAll op q classes => In op (dkeys canonical) /\ quote_char q /\ segment classes
  end.

Definition proper (x : stmt) : Prop :=
  no_inline (concat (written x)) /\
  match x with
  | Assign name op vs => var_name name /\ ~ statement_word name /\ usual_name name /\ In op (dkeys canonical) /\
      vs <> [] /\ (forall v, In v vs -> segment v /\ ~ In cDQ v)
  | Flag name flag op v => var_name name /\ flag <> [] /\ (forall c, In c flag -> flag_char c) /\
      In op (dkeys canonical) /\ segment v
  | Export name v => var_name name /\ segment v /\ ~ In cDQ v
  | Functions fs => segment fs /\ not_indented fs /\ (forall t, fs <> "(" ++ t)
  | Deltask name => task_name name
  | Addtask name t bl al => task_name name /\ ~ package_script name /\ segment t /\
      exists before after, task_tail t before after [] /\ Spec_Parse.words bl before /\ Spec_Parse.words al after
  | Func qs name head b m z1 z2 => function_head qs name head /\ own_name name /\
      ~ carries_on (head ++ b) /\ whole_line (head ++ b) /\ Forall whole_line m /\ whole_line (z1 ++ "}" ++ z2) /\
      inside m /\ depth m = 0%Z /\ (depth [(z1 ++ "}" ++ z2)%list] < 0)%Z /\ ~ In 125%N z2
  | Remarks h m => ~ carries_on h /\ Forall (fun l => remark l /\ whole_line l) (h :: m)
  | Empty => True
  | Plain p => plain_ok p
  | Define name args rest m => def_name name /\ segment args /\ segment rest /\
      Forall (fun l => whole_line l /\ ~ top_level l) m
  end /\
  (** no line is taken for the head of a function *)
  match x with Func _ _ _ _ _ _ _ => True | _ => forall h, hd_error (written x) = Some h -> ~ opens h end.

(** Comments that follow each other are one statement, and a block of Python
    ends where a line begins with a letter, a digit or a hash sign. *)
Definition may_follow (x y : stmt) : Prop :=
  match x, y with
  | Remarks _ _, Remarks _ _ => False
  | Define _ _ _ _, _ => forall h, hd_error (written y) = Some h -> top_level h
  | _, _ => True
  end.
Fixpoint apart (ss : list stmt) : Prop :=
  match ss with
  | x :: r => match r with y :: _ => may_follow x y | [] => True end /\ apart r
  | [] => True
  end.
Definition recipe (ss : list stmt) (text : str) : Prop :=
  text = concat (concat (map written ss)) /\ Forall proper ss /\ apart ss.

(** ** Recipes with inline code *)

(** [evaluated neg a b]: the text [b] is the text [a] with the results of its
    inline code in place. *)
Definition evaluated (neg : bool) (a b : str) : Prop := exists l l' rest,
  a = Spec_Inline.written l rest /\ b = Spec_Inline.written l' rest /\
  Spec_Inline.shown neg l l' /\ ~ occurs "${@" rest.
(** Statements, each with the lines it is written in: by themselves the lines
    are one statement, and with the results of the inline code they are the
    text of it. *)
Definition coded (neg : bool) (cs : list (list str * stmt)) (text : str) : Prop :=
  text = concat (concat (map fst cs)) /\ Forall whole_line (concat (map fst cs)) /\
  taken (concat (map fst cs)) (map fst cs) [] /\
  Forall (fun c => proper (snd c) /\ evaluated neg (concat (fst c)) (concat (written (snd c)))) cs.

(** ** What is to be read *)

(** The name and its overrides. *)
Definition base_name (name : str) : str := hd [] (split_char 58 name).
Definition overrides (name : str) : list str := tl (split_char 58 name).

(** Of the name of unset, the parser reads the first character (C13); an include
    that the constants say to ignore is an item of no kind. *)
Definition plain_reads (p : plain) (i : item) : Prop :=
  match p with
  | Inherit d classes => exists paths, it_pay i = PInherit classes ("inherit" ++ concat (repeat ("_defer" : str) d)) paths
  | Includes kw name => (exists path, it_pay i = PInclude name kw path) \/ it_pay i = PItem
  | IncludesAll name => it_pay i = PIncludeAll name
  | Pylib path ns => it_pay i = PAddPylib ("${LAYERDIR}/" ++ path) ns
  | Fragments path var flagged => it_pay i = PAddFragements path var flagged
  | ExportName name => it_pay i = PExport name []
  | UnsetVar name flag => (exists n f, it_pay i = PUnset n f) /\ (length name = 1 -> it_pay i = PUnset name flag)
  | InheritAll _ _ classes => exists paths, it_pay i = PInherit classes "INHERIT" paths
  end.

Definition reads (x : stmt) (i : item) : Prop :=
  match x with
  | Assign name op vs =>
      it_pay i = PVariable (base_name name) (join ":" (overrides name)) (overrides name) (quoted (join [cESC] vs)) op (base_name name)
  | Flag name flag op v => it_pay i = PFlagAssignment name flag (quoted v) op
  | Export name v => it_pay i = PExport name v
  | Functions fs => it_pay i = PFunctionExports fs
  | Deltask name => it_pay i = PTaskDel name []
  | Addtask name _ bl al => it_pay i = PTaskAdd name bl al []
  | Func qs name _ b m z1 _ =>
      (is_python i <-> has_word "python" qs) /\ (is_fakeroot i <-> has_word "fakeroot" qs) /\
      func_body i (flat (b ++ concat m ++ z1)) /\
      (name <> "__anonymous" -> parted (separator_of i) name -> func_name i name)
  | Remarks _ _ => it_pay i = PComment
  | Empty => it_pay i = PItem
  | Plain p => plain_reads p i
  | Define name _ _ _ => it_pay i = PPythonBlock name
  end.

(** The parts get_items is to list.  Functions: where the name has no reference
    and the body does not end with a brace, else see C85. *)
Definition lines_of (text : str) (l : list str) : Prop :=
  join [cNL] l = text /\ forall x, In x l -> ~ In cNL x.
Definition plain_parts (p : plain) (l : list str) : Prop :=
  match p with
  | Inherit _ classes | InheritAll _ _ classes => Props_Items.words classes l
  | Includes kw name => l = [name; kw] \/ Props_Items.words (line (plain_line p)) l
  | IncludesAll name => l = [name]
  | Pylib path ns => l = ["${LAYERDIR}/" ++ path; ns]
  | Fragments path var flagged => l = [path; var; flagged]
  | ExportName name => l = [name; []]
  | UnsetVar name flag => length name = 1 -> l = [name; flag]
  end.
Definition parts (x : stmt) (l : list str) : Prop :=
  match x with
  | Assign _ _ vs => Props_Items.words (join [cESC] vs) l
  | Flag name flag op v => unquoted v -> l = [name; flag; op; v]
  | Export name v => l = [name; v]
  | Functions fs => Spec_Parse.words l fs
  | Deltask name => l = [name]
  | Addtask name _ bl al => l = name :: bl ++ al
  | Func _ name _ b m z1 z2 => ~ In 123%N name -> white z2 -> (forall a, b ++ concat m ++ z1 <> a ++ "}") ->
      Props_Items.dedented (split_char cNL (b ++ concat m ++ z1)) l
  | Remarks _ _ | Define _ _ _ _ => lines_of (concat (written x)) l
  | Empty => l = []
  | Plain p => plain_parts p l
  end.

(** The statements that bring in other files, if these are found. *)
Definition brings (x : stmt) : Prop :=
  match x with Plain (Inherit _ _) | Plain (InheritAll _ _ _) | Plain (Includes _ _) => True | _ => False end.

(** ** The values of the variables *)

(** The name without append, prepend and remove. *)
Definition target (name : str) : str :=
  join ":" (base_name name :: filter (fun x => negb (mem_str x ["append"; "prepend"; "remove"])) (overrides name)).
Definition happens (name op v : str) : event :=
  if mem_str "append" (overrides name) then LateAdds v
  else if mem_str "prepend" (overrides name) then LateLeads v
  else if mem_str "remove" (overrides name) then LateRemoves v
  else match dget op canonical with Some f => f v | None => Ignored end.
(** What the statements do with the variable [n]. *)
Definition events (n : str) (ss : list stmt) : list event :=
  flat_map (fun x => match x with
                     | Assign name op vs => if str_eqb (target name) n then [happens name op (join [cESC] vs)] else []
                     | Plain (UnsetVar name []) => if str_eqb name n then [Unsets] else []
                     | _ => []
                     end) ss.

(** What a reference to [n] stands for: the first value given to a variable of
    that name with any overrides, else the base set. *)
Definition gives (n : str) (x : stmt) : option str :=
  match x with
  | Assign name op vs =>
      if str_eqb (base_name name) n && negb (mem_str op [" += "; " =+ "; " .= "; " =. "])
         && negb (existsb (fun o => mem_str o ["append"; "prepend"; "remove"]) (overrides name))
      then Some (join [cESC] vs) else None
  | _ => None
  end.
Fixpoint first_given (n : str) (ss : list stmt) : option str :=
  match ss with
  | [] => None
  | x :: r => match gives n x with Some v => Some v | None => first_given n r end
  end.
Definition meaning (base : list (str * str)) (ss : list stmt) (n : str) : option str :=
  match first_given n ss with Some v => Some v | None => dget n base end.

(** *** With inline code *)

(** The text between the quotes of an assignment of one line, as it is written. *)
Definition as_typed (name op : str) (g : list str) : str :=
  let t := skipn (length (name ++ op) + 1) (concat g) in firstn (length t - 2) t.
(** The text of the value: as it is written if it has inline code that is not
    evaluated. *)
Definition text_in (c : list str * stmt) : str :=
  match snd c with
  | Assign name op vs => if contains INLINE_BLOCK (join [cESC] vs) then as_typed name op (fst c) else join [cESC] vs
  | _ => []
  end.
(** Such values are on one line, and all their inline code is of this kind (C17, C65). *)
Definition restorable (c : list str * stmt) : Prop :=
  match snd c with
  | Assign name op vs => occurs INLINE_BLOCK (join [cESC] vs) -> exists l rest,
      concat (fst c) = name ++ op ++ [cDQ] ++ Spec_Inline.written l rest ++ [cDQ; cNL] /\
      segment (Spec_Inline.written l rest) /\ Spec_Inline.code_value l rest
  | _ => True
  end.
(** Inline code that is not evaluated sets the value, whatever the operator
    (C77), unless there is append, prepend or remove in the name (C98). *)
Definition coded_event (c : list str * stmt) (name op v : str) : event :=
  if contains INLINE_BLOCK v && negb (existsb (fun o => mem_str o ["append"; "prepend"; "remove"]) (overrides name))
  then Sets (text_in c) else happens name op v.
Definition coded_events (n : str) (cs : list (list str * stmt)) : list event :=
  flat_map (fun c => match snd c with
                     | Assign name op vs => if str_eqb (target name) n then [coded_event c name op (join [cESC] vs)] else []
                     | Plain (UnsetVar name []) => if str_eqb name n then [Unsets] else []
                     | _ => []
                     end) cs.
(** The same as the operators say it. *)
Definition typed_events (n : str) (cs : list (list str * stmt)) : list event :=
  flat_map (fun c => match snd c with
                     | Assign name op vs => if str_eqb (target name) n then [happens name op (text_in c)] else []
                     | Plain (UnsetVar name []) => if str_eqb name n then [Unsets] else []
                     | _ => []
                     end) cs.
(** The value of [n] has inline code that is not evaluated only where it is set anew. *)
Definition set_anew (n : str) (c : list str * stmt) : Prop :=
  match snd c with
  | Assign name op vs => target name = n -> occurs INLINE_BLOCK (join [cESC] vs) ->
      In op [" = "; " := "] /\ forall o, operation o -> ~ In o (overrides name)
  | _ => True
  end.
Fixpoint coded_given (n : str) (cs : list (list str * stmt)) : option str :=
  match cs with
  | [] => None
  | c :: r => match gives n (snd c) with Some _ => Some (text_in c) | None => coded_given n r end
  end.
Definition coded_meaning (base : list (str * str)) (cs : list (list str * stmt)) (n : str) : option str :=
  match coded_given n cs with Some v => Some v | None => dget n base end.

(** ** Classes and attributes *)

(** CLASSIFIER of the item of a statement. *)
Definition class_of (x : stmt) : str :=
  match x with
  | Assign _ _ _ => "Variable"
  | Flag _ _ _ _ => "FlagAssignment"
  | Export _ _ | Plain (ExportName _) => "Export"
  | Functions _ => "FunctionExports"
  | Deltask _ => "TaskDel"
  | Addtask _ _ _ _ => "TaskAdd"
  | Func _ _ _ _ _ _ _ => "Function"
  | Remarks _ _ => "Comment"
  | Empty => "Item"
  | Plain (Inherit _ _) | Plain (InheritAll _ _ _) => "Inherit"
  | Plain (Includes _ _) => "Include"
  | Plain (IncludesAll _) => "IncludeAll"
  | Plain (Pylib _ _) => "AddPylib"
  | Plain (Fragments _ _ _) => "AddFragements"
  | Plain (UnsetVar _ _) => "Unset"
  | Define _ _ _ _ => "PythonBlock"
  end.
Definition texts (l : list (str * str)) (k : str) (v : pyval) : Prop := exists t, In (k, t) l /\ v = VStr t.
(** The value [v] is that of the attribute [k] of the item of [x], which is
    written as [real]. *)
Definition shows_as (real : str) (x : stmt) (k : str) (v : pyval) : Prop :=
  texts [ ("Raw", concat (written x)); ("RealRaw", real) ] k v \/
  match x with
  | Assign name op vs =>
      texts [ ("VarName", base_name name); ("RawVarName", base_name name); ("SubItem", join ":" (overrides name));
              ("VarNameComplete", name); ("VarNameCompleteNoModifiers", target name); ("VarOp", op);
              ("VarValue", quoted (join [cESC] vs)); ("VarValueStripped", join [cESC] vs) ] k v
  | Flag name flag op w =>
      texts [ ("VarName", name); ("Flag", flag); ("VarOp", op); ("Value", quoted w) ] k v \/
      (unquoted w /\ texts [ ("ValueStripped", w) ] k v)
  | Export name w => texts [ ("Name", name); ("Value", w) ] k v
  | Functions fs => texts [ ("FuncNames", fs) ] k v
  | Deltask name => texts [ ("FuncName", name); ("Comment", []) ] k v
  | Addtask name _ _ _ => texts [ ("FuncName", name); ("Comment", []) ] k v
  | Func qs name _ b m z1 _ =>
      (k = "IsPython" /\ v = VBool (existsb (fun q => str_eqb (fst q) "python") qs)) \/
      (k = "IsFakeroot" /\ v = VBool (existsb (fun q => str_eqb (fst q) "fakeroot") qs)) \/
      texts [ ("FuncBody", flat (b ++ concat m ++ z1)) ] k v
  | Remarks _ _ | Empty => False
  | Plain (Inherit d classes) =>
      texts [ ("Class", classes); ("Statement", "inherit" ++ concat (repeat ("_defer" : str) d)) ] k v
  | Plain (InheritAll _ _ classes) => texts [ ("Class", classes); ("Statement", "INHERIT") ] k v
  | Plain (Includes kw name) => texts [ ("IncName", name); ("Statement", kw) ] k v
  | Plain (IncludesAll name) => texts [ ("File", name) ] k v
  | Plain (Pylib path ns) => texts [ ("Path", "${LAYERDIR}/" ++ path); ("Namespace", ns) ] k v
  | Plain (Fragments path var flagged) => texts [ ("Path", path); ("Variable", var); ("Flagged", flagged) ] k v
  | Plain (ExportName name) => texts [ ("Name", name); ("Value", []) ] k v
  | Plain (UnsetVar name flag) => length name = 1 /\ texts [ ("VarName", name); ("Flag", flag) ] k v
  | Define name _ _ _ => texts [ ("FuncName", name) ] k v
  end.
(** The item is of the class of the statement, and has its attributes.  An
    include that the constants say to ignore is an item of no kind. *)
Definition shown_as (real : str) (x : stmt) (i : item) : Prop :=
  (class_of x <> "Include" -> classifier i = class_of x) /\
  (class_of x = "Include" -> classifier i = "Include" \/ classifier i = "Item") /\
  (classifier i = class_of x -> forall k v, shows_as real x k v -> dget k (attributes i) = Some v).
Definition shows (x : stmt) : str -> pyval -> Prop := shows_as (concat (written x)) x.
Definition shown_by (x : stmt) : item -> Prop := shown_as (concat (written x)) x.
(** [picked P ss l k]: [k] are the items of [l] whose statements are [P]. *)
Inductive picked {A} (P : A -> Prop) : list A -> list item -> list item -> Prop :=
| picked_none : picked P [] [] []
| picked_yes : forall x i ss l k, P x -> picked P ss l k -> picked P (x :: ss) (i :: l) (i :: k)
| picked_no : forall x i ss l k, ~ P x -> picked P ss l k -> picked P (x :: ss) (i :: l) k.
