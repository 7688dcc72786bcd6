(** * Where a file lies: vocabulary of the statements about paths as they are written

    Definitions only. *)

From Verif Require Import PyStr PyPath.

(** The parts of a path between slashes. *)
Definition pieces (p : str) (l : list str) : Prop :=
  l <> [] /\ p = join "/" l /\ forall x, In x l -> ~ In 47%N x.

(** A name of a file or directory. *)
Definition entry_name (x : str) : Prop := x <> [] /\ x <> "." /\ x <> ".." /\ ~ In 47%N x.

(** Going from one directory to another; directories are lists of names, the
    innermost first. *)
Inductive walk : list str -> list str -> list str -> Prop :=
| walk_here : forall d, walk d [] d
| walk_stay : forall d x l d', x = [] \/ x = "." -> walk d l d' -> walk d (x :: l) d'
| walk_down : forall d x l d', entry_name x -> walk (x :: d) l d' -> walk d (x :: l) d'
| walk_up : forall d x l d', walk d l d' -> walk (x :: d) (".." :: l) d'
| walk_top : forall l d', walk [] l d' -> walk [] (".." :: l) d'.

(** Where the path [p] leads to, seen from the directory [cwd]. *)
Inductive lies (cwd : list str) : str -> list str -> Prop :=
| lies_absolute : forall p l d, pieces ("/" ++ p) l -> walk [] l d -> lies cwd ("/" ++ p) d
| lies_relative : forall p l d, (forall q, p <> "/" ++ q) -> pieces p l -> walk cwd l d -> lies cwd p d.

(** The path of a place. *)
Definition place (d : list str) : str := "/" ++ join "/" (rev d).

(** The current directory is such a place. *)
Definition current (w : fs) (cwd : list str) : Prop := fs_cwd w = place cwd /\ Forall entry_name cwd.

(** A path that does not begin with exactly two slashes. *)
Definition one_root (p : str) : Prop := forall q, p = "//" ++ q -> exists r, q = "/" ++ r.
