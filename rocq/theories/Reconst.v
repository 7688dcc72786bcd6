(** * Constants changed between calls (constants.py and the caches of cls_stash.py)

    The three functions of Constants that change the database, used between the
    calls of Cache.v.  They know nothing of stashes: no table is cleared. *)

From Verif Require Import PyStr Regex Patterns PyPath Res Inline Const Item Lines Stash Cache.

(** What a caller does: a call of the stash, or a change of the constants.
    (cls_stash.py:157-451, 860-896; constants.py:44-93.) *)
Inductive kact :=
| KDo (c : call)
| KAdd (d : cval) | KRemove (d : cval) | KOverride (d : cval).

(** AddConstants, RemoveConstants, OverrideConstants on the global database
    (constants.py:44-93); if they raise, part of the change may have been made. *)
Definition change (f : cval -> cval -> cval * option exn) (d : cval) (s : stash) : answer * stash :=
  let '(db, r) := f (st_const s) d in
  (RDone (match r with None => Ok tt | Some x => Raise x end), with_const db s).

(** The answers of a sequence of actions. (cls_stash.py:157-451, constants.py:44-93.) *)
Fixpoint kacts_c (e : env) (l : list kact) (x : stash * tables) : list answer * (stash * tables) :=
  match l with
  | [] => ([], x)
  | a :: r =>
      let '(b, x1) := match a with
                      | KDo c => call_c e c x
                      | KAdd d => let '(b, s) := change add_constants d (fst x) in (b, (s, snd x))
                      | KRemove d => let '(b, s) := change remove_constants d (fst x) in (b, (s, snd x))
                      | KOverride d => let '(b, s) := change override_constants d (fst x) in (b, (s, snd x))
                      end in
      let '(l', x2) := kacts_c e r x1 in (b :: l', x2)
  end.
