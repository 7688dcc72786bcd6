(** * Where included files and classes are searched for

    Definitions only. *)

From Verif Require Import PyStr PyPath Spec_Paths Spec_Load.

(** What a search for [name] from the directory with the components [cs] gives: the file
    relative to the directory itself, else relative to the nearest layer above it, else nothing. *)
Inductive found (w : fs) (cs : list str) (name : str) : str -> Prop :=
| found_here : fs_exists w (path_join (cpath cs) name) = true -> found w cs name (path_join (cpath cs) name)
| found_layer : forall ds, fs_exists w (path_join (cpath cs) name) = false -> layer_at w cs ds ->
    fs_exists w (path_join (cpath ds) name) = true -> found w cs name (path_join (cpath ds) name)
| not_in_layer : forall ds, fs_exists w (path_join (cpath cs) name) = false -> layer_at w cs ds ->
    fs_exists w (path_join (cpath ds) name) = false -> found w cs name []
| no_layer : fs_exists w (path_join (cpath cs) name) = false -> (forall ds, ~ layer_at w cs ds) -> found w cs name [].

(** The class [w] is at [p]: in the first of the directories that has it. *)
Definition class_at (v : fs) (cs : list str) (locs : list str) (w p : str) : Prop :=
  exists a loc b, locs = a ++ loc :: b /\ found v cs (path_join loc (class_file w)) p /\ p <> [] /\
    forall x, In x a -> found v cs (path_join x (class_file w)) [].
