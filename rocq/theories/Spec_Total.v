(** * What property C96 says *)

From Verif Require Import PyStr Regex Patterns PyPath Res Const Item Lines Stash Spec_Group Spec_Include.

(** [f] is the file of the call, or a file pulled in by such a one. *)
Inductive read_by (e : env) (path : str) : str -> Prop :=
| read_itself : read_by e path (abspath (fs_cwd (e_fs e)) path)
| read_pulled : forall f g, read_by e path f -> pulls e f g -> read_by e path g.

(** The text of [f] ends within a statement: behind some statements there are
    only lines that wait for a further one (parser.py:112-135). *)
Definition unfinished (e : env) (f : str) : Prop :=
  exists t gs u, fs_read (e_fs e) f = RdText t /\ taken (readlines (universal_newlines t)) gs u /\ waiting u.

(** [f] is there, but cannot be opened or is no text (parser.py:212). *)
Definition unreadable (e : env) (f : str) : Prop :=
  fs_read (e_fs e) f = RdDenied \/ fs_read (e_fs e) f = RdOther.

(** The name of a bbappend has a character that means something in a regular
    expression (cls_stash.py:195-199, 211-214). *)
Definition odd_name (f : str) : Prop :=
  endswith ".bbappend" f = true /\ exists c, In c (basename f) /\ In c "^$\()[]{}|*+?".
