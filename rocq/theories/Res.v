(** * Outcomes

    Python exceptions as values; [NoFuel] stands for a computation that is
    still running when the fuel of the model is used up. *)

From Verif Require Import PyStr.

(** The exceptions that can leave the modelled code (parser.py:116, 122;
    cls_stash.py:191, 263, 291, 932; constants.py:41, 57). [RegexUnsupported]
    marks patterns outside the supported syntax (Patterns.v). *)
Inductive exn :=
| StopIteration
| KeyError
| ValueError
| TypeError
| AttributeError
| OSError
| RegexUnsupported.

(** Result of a call: a value or an exception (parser.py:116, cls_stash.py:191). *)
Inductive res (A : Type) :=
| Ok (a : A)
| Raise (e : exn)
| NoFuel.
Arguments Ok {A} a.
Arguments Raise {A} e.
Arguments NoFuel {A}.

(** Sequencing of computations that may raise. (as between the statements of cls_stash.py:170-229.) *)
Definition bind {A B} (x : res A) (f : A -> res B) : res B :=
  match x with Ok a => f a | Raise e => Raise e | NoFuel => NoFuel end.
Notation "'do' x <- e1 ; e2" := (bind e1 (fun x => e2))
  (at level 200, x pattern, e1 at level 100, e2 at level 200, right associativity).

(** ** Association lists as Python dictionaries (insertion ordered;
    cls_stash.py:133, 483-569, 746; constants.py:19) *)
Fixpoint dget {A} (k : str) (d : list (str * A)) : option A :=
  match d with
  | [] => None
  | (k', v) :: r => if str_eqb k k' then Some v else dget k r
  end.
(** [d[k] = v] (cls_stash.py:187, 501, 565, 761.) *)
Fixpoint dset {A} (k : str) (v : A) (d : list (str * A)) : list (str * A) :=
  match d with
  | [] => [(k, v)]
  | (k', v') :: r => if str_eqb k k' then (k', v) :: r else (k', v') :: dset k v r
  end.
(** [del d[k]] (cls_stash.py:494.) *)
Fixpoint ddel {A} (k : str) (d : list (str * A)) : list (str * A) :=
  match d with
  | [] => []
  | (k', v') :: r => if str_eqb k k' then r else (k', v') :: ddel k r
  end.
(** [k in d] (cls_stash.py:186, 493, 758). *)
Definition dhas {A} (k : str) (d : list (str * A)) : bool :=
  match dget k d with Some _ => true | None => false end.
(** [d.keys()] (cls_stash.py:289, 500, 758). *)
Definition dkeys {A} (d : list (str * A)) : list str := map fst d.
