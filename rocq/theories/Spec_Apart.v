(** * What property C62 says about files with other names

    Definitions only. *)

From Verif Require Import PyStr PyPath Res Item Stash Spec_Query Spec_Load Spec_Causes.

(** The files a call of AddFile for [path] may have read: the file of the path
    itself and every file a statement among the new items names. *)
Inductive comes (e : env) (s s' : stash) (path : str) : str -> Prop :=
| comes_self : comes e s s' path (abspath (fs_cwd (e_fs e)) path)
| comes_named : forall i p, In i (st_list s') -> st_next s <= it_id i -> names_file i p ->
    comes e s s' path (abspath (fs_cwd (e_fs e)) p).

(** The files whose items queries for [f] show. *)
Definition shown_for (s : stash) (f y : str) : Prop := y = f \/ linked s f y.

(** The file [x] has nothing to do with [f]: queries for [f] do not show it, it is
    no bbappend for [f], and it is not a recipe that a bbappend shown for [f] is
    meant for. *)
Definition foreign (s : stash) (f x : str) : Prop :=
  ~ shown_for s f x /\ ~ answers x f /\ forall y, shown_for s f y -> ~ answers y x.
