(** * Several stashes that share the constants (cls_stash.py, constants.py)

    As Many.v, with the constants in one place: the database that one stash
    extends by the distros and machines of a layer is the one all others read
    (constants.py:195, cls_stash.py:280-283). *)

From Verif Require Import PyStr Regex Patterns PyPath Res Inline Const Item Lines Stash Cache Many.

(** The database, and the stashes; what Stash.v keeps as constants of a stash is
    not looked at. (constants.py:195, cls_stash.py:122-139.) *)
Definition shared := (cval * list (stash * tables))%type.

(** One call (cls_stash.py:122-300, constants.py:44-59). *)
Definition scall_c (e : env) (m : mcall) (x : shared) : list (nat * answer) * shared :=
  let '(db, st) := x in
  match m with
  | MNew nw neg => ([], (db, clear_all st ++ [(new_stash nw neg db, no_tables)]))
  | MOn k c b =>
      match nth_error st k with
      | None => ([], (db, st))
      | Some y =>
          let s := with_const db (fst y) in
          let '(a, y') := call_c e c (s, snd y) in
          ([(k, a)], (st_const (fst y'), put k y' (if clears e c b s then clear_all st else st)))
      end
  end.
(** The answers of a sequence of calls (cls_stash.py:122-300). *)
Fixpoint scalls_c (e : env) (ms : list mcall) (x : shared) : list (nat * answer) * shared :=
  match ms with
  | [] => ([], x)
  | m :: r => let '(a, x1) := scall_c e m x in let '(l, x2) := scalls_c e r x1 in (a ++ l, x2)
  end.
