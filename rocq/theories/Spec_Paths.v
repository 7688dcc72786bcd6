(** * Vocabulary of the statements about paths and file names

    Definitions only. *)

From Verif Require Import PyStr PyPath.

(** The absolute path with the given components. *)
Definition cpath (cs : list str) : str := "/" ++ join "/" cs.
Definition comps (cs : list str) : Prop := forall c, In c cs -> c <> [] /\ ~ In cSL c.

(** [ds] is the directory of the nearest layer above [start]: a proper prefix
    with conf/layer.conf, directories all the way, and no other layer in
    between. *)
Definition layer_conf (w : fs) (ds : list str) : bool := fs_exists w (cpath (ds ++ ["conf"; "layer.conf"])).
Definition layer_at (w : fs) (start ds : list str) : Prop :=
  exists t, start = ds ++ t /\ t <> [] /\ layer_conf w ds = true /\
    forall u v, t = u ++ v -> u <> [] ->
      fs_isdir w (cpath (ds ++ u)) = true /\ (v <> [] -> layer_conf w (ds ++ u) = false).

(** A base name, with or without a directory in front. *)
Inductive file_of : str -> str -> Prop :=
| file_here : forall b, file_of b b
| file_in : forall d b, file_of (d ++ "/" ++ b) b.

(** [drops x t u]: [u] is [t] without the suffix [x], if something is left. *)
Inductive drops (x t : str) : str -> Prop :=
| drops_yes : forall u, u <> [] -> t = u ++ x -> drops x t u
| drops_no : (forall u, u <> [] -> t <> u ++ x) -> drops x t t.
