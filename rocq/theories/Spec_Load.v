(** * What properties C92 to C95 say *)

From Verif Require Import PyStr Regex Patterns PyPath Res Inline Const Item Lines Stash
  Spec_Parse Spec_Group Spec_Include.

(** ** C93 *)

(** A stash that was filled by calls of AddFile, none of which raised; Finalize
    and changes of the constants may have happened, Remove did not. *)
Inductive built (e : env) : stash -> Prop :=
| built_new : forall new neg db, built e (new_stash new neg db)
| built_add : forall n path off forced s l s',
    built e s -> add_file n e path off forced s = (Ok l, s') -> built e s'
| built_finalize : forall s r s', built e s -> finalize e s = (r, s') -> built e s'
| built_const : forall db s, built e s -> built e (with_const db s).

(** The stash has the file [f]: the statements of its text, in their order, are
    the texts of items of the stash which name [f] as their Origin. *)
Definition loaded (e : env) (s : stash) (f : str) : Prop :=
  match fs_read (e_fs e) f with
  | RdText t => exists gs js,
      taken (readlines (universal_newlines t)) gs [] /\
      incl js (st_list s) /\ Forall (fun j => it_origin j = f) js /\
      map it_realraw js = map (@concat N) gs
  | _ => True
  end.

(** Statement [i] names the file [f]: it is the one of FilePaths of an Inherit
    or the FileIncluded of an Include. *)
Definition names_file (i : item) (f : str) : Prop :=
  match it_pay i with
  | PInherit _ _ paths => In f paths
  | PInclude _ _ path => f = path /\ path <> []
  | _ => False
  end.

(** ** C92 *)

(** FindLocalOrLayer (C24 to C26 say what it finds); nothing found is the empty
    text. *)
Definition lookup (e : env) (dir name p : str) : Prop :=
  find_local_or_layer (S (length dir)) (e_fs e) name dir = Some p.

(** The class [w] is found at [p]: the first of the directories [locs] that has
    the file has it there. *)
Definition class_file (w : str) : str := if endswith ".bbclass" w then w else w ++ ".bbclass".
Definition class_found (e : env) (dir : str) (locs : list str) (w p : str) : Prop :=
  exists a loc b, locs = a ++ loc :: b /\ lookup e dir (path_join loc (class_file w)) p /\ p <> [] /\
    forall x, In x a -> lookup e dir (path_join x (class_file w)) [].

(** Where classes are searched for: inherit_defer as inherit; INHERIT is the
    statement of configuration files. *)
Definition class_dirs (st : str) : list str :=
  if str_eqb st "INHERIT" then ["classes"; "classes-global"]
  else ["classes"; "classes-recipe"; "classes-global"].

(** ** C95 *)

(** The text is on the list (constants.py:175-192). *)
Definition listed (x : str) (v : cval) : Prop := exists l, v = CList l /\ In x l.
