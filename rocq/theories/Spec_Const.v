(** * Vocabulary of the statements about constants

    Definitions only. *)

From Verif Require Import PyStr PyPath Res Const Item Stash.

(** The value at a path of keys. *)
Fixpoint at_path (p : list str) (v : cval) : option cval :=
  match p with
  | [] => Some v
  | k :: r => match v with
              | CDict d => match dget k d with Some x => at_path r x | None => None end
              | _ => None
              end
  end.

Definition is_dict (v : cval) : Prop := exists d, v = CDict d.
Definition is_leaf (v : cval) : Prop := match v with CDict _ => False | _ => True end.

(** Dictionaries have every key once. *)
Fixpoint keys_once (v : cval) : Prop :=
  match v with
  | CDict d => NoDup (dkeys d) /\
      (fix go (d : list (str * cval)) : Prop := match d with [] => True | (_, x) :: r => keys_once x /\ go r end) d
  | _ => True
  end.

(** [p] is neither given in [b] nor below a leaf of [b]. *)
Definition apart (p : list str) (b : cval) : Prop :=
  at_path p b = None /\ forall q r v, p = q ++ r -> at_path q b = Some v -> is_dict v.

(** Where [b] has entries below a path, [db] has no leaf there. *)
Definition fits (b db : cval) : Prop :=
  forall p k x v, at_path (p ++ [k]) b = Some x -> at_path p db = Some v -> is_dict v.

(** Written paths: the keys joined by slashes, trailing slashes do not matter. *)
Definition keys_ok (ks : list str) : Prop :=
  (forall k, In k ks -> ~ In 47%N k) /\ exists l k, ks = l ++ [k] /\ k <> [].

(** Values that AddConstants can add to existing ones. *)
Inductive addable : cval -> cval -> Prop :=
| addable_lists : forall l l', addable (CList l) (CList l')
| addable_chars : forall l s, addable (CList l) (CStr s)
| addable_strs : forall s s', addable (CStr s) (CStr s').

(** What a value lists: the members of a list, the characters of a text, the
    keys of a dictionary. *)
Definition entries_of (v : cval) : list str :=
  match v with CStr s => map (fun c => [c]) s | CList l => l | CDict d => map fst d end.
(** A list names its members, a text every part of it. *)
Definition names (v : cval) (x : str) : Prop :=
  match v with CStr s => exists a b, s = a ++ x ++ b | CList l => In x l | CDict _ => False end.

(** ** Distros and machines *)

Definition names_path (key : str) : list str := ["replacements"; key].
(** The known distros or machines. *)
Definition names_at (key : str) (db : cval) : list str :=
  match at_path (names_path key) db with Some (CList l) => l | _ => [] end.
(** The database has the documented shape at these places. *)
Definition names_ok (db : cval) : Prop :=
  is_dict db /\ (forall v, at_path ["replacements"] db = Some v -> is_dict v) /\
  (forall key v, In key ["distros"; "machines"] -> at_path (names_path key) db = Some v -> exists l, v = CList l).
(** Paths to something else. *)
Definition elsewhere (p : list str) : Prop :=
  apart p (CDict [("replacements", CDict [("distros", CList []); ("machines", CList [])])]).
(** The names of the configuration files of the layer of [file]. *)
Definition layer_names (e : env) (sub file : str) : list str :=
  match get_layer_root (S (length file)) (e_fs e) file with
  | Some (c :: r) =>
      map (fun p => fst (splitext (basename p)))
          (fs_glob (e_fs e) (path_join (path_join (path_join (c :: r) "conf") sub) "*.conf"))
  | _ => []
  end.

(** ** Getters *)

(** The table of README.md: which path each getter gives. *)
Definition documented : list (str * list str) :=
  [ ("FunctionsKnown", ["functions"; "known"]); ("FunctionsOrder", ["functions"; "order"]);
    ("ClassIgnore", ["ignore"; "classes"]); ("IncludeIgnore", ["ignore"; "include"]);
    ("ImagesClasses", ["images"; "known-classes"]); ("ImagesVariables", ["images"; "known-variables"]);
    ("DistrosKnown", ["replacements"; "distros"]); ("MachinesKnown", ["replacements"; "machines"]);
    ("MirrorsKnown", ["replacements"; "mirrors"]); ("SetsBase", ["sets"; "base"]);
    ("VariablesKnown", ["variables"; "known"]) ].
(** No value on the way to [p] is a string or a list. *)
Definition open_path (p : list str) (db : cval) : Prop :=
  forall q r v, p = q ++ r -> r <> [] -> at_path q db = Some v -> is_dict v.
