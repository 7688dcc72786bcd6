(** * Several stashes in one process (cls_stash.py)

    The tables of functools.cache belong to the methods of the class and their
    keys begin with the stash, so there is one set of tables per stash, and
    _clear_cached of one stash clears the tables of all.  Simplification: as in
    Cache.v the constants stay the same. *)

From Verif Require Import PyStr Regex Patterns PyPath Res Inline Const Item Lines Stash Cache.

(** A new stash (cls_stash.py:122-139), or a call on the stash number [k].  [b]
    says whether an AddFile that raises cleared the tables for a file it had
    read before (cls_stash.py:222-223). *)
Inductive mcall :=
| MNew (nw neg : bool)
| MOn (k : nat) (c : call) (b : bool).

(** Whether a call reaches _clear_cached (cls_stash.py:223, 253, 268, 300). *)
Definition clears (e : env) (c : call) (b : bool) (s : stash) : bool :=
  match c with
  | CAdd n path off forced =>
      match fst (add_file n e path off forced s) with Ok _ => negb (returns_early e path s) | _ => b end
  | CAppend _ => true
  | CRemove l => match fst (remove_items l s) with Ok _ => true | _ => false end
  | CFinalize => match fst (finalize e s) with Ok _ => true | _ => false end
  | _ => false
  end.

(** cache_clear for all stashes (cls_stash.py:141-155). *)
Definition clear_all (st : list (stash * tables)) : list (stash * tables) :=
  map (fun x => (fst x, clear_cached (snd x))) st.

(** The stash number [k] is now [x] (cls_stash.py:122-155). *)
Definition put (k : nat) (x : stash * tables) (st : list (stash * tables)) : list (stash * tables) :=
  firstn k st ++ x :: skipn (S k) st.

(** One call (cls_stash.py:122-300); the answer comes with the number of the stash. *)
Definition mcall_c (e : env) (db : cval) (m : mcall) (st : list (stash * tables))
  : list (nat * answer) * list (stash * tables) :=
  match m with
  | MNew nw neg => ([], clear_all st ++ [(new_stash nw neg db, no_tables)])
  | MOn k c b =>
      match nth_error st k with
      | None => ([], st)
      | Some x => let '(a, x') := call_c e c x in
                  ([(k, a)], put k x' (if clears e c b (fst x) then clear_all st else st))
      end
  end.
(** The answers of a sequence of calls (cls_stash.py:122-300). *)
Fixpoint mcalls_c (e : env) (db : cval) (ms : list mcall) (st : list (stash * tables))
  : list (nat * answer) * list (stash * tables) :=
  match ms with
  | [] => ([], st)
  | m :: r => let '(a, st1) := mcall_c e db m st in let '(l, st2) := mcalls_c e db r st1 in (a ++ l, st2)
  end.
