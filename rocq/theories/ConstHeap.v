(** * AddConstants on shared objects (constants.py:44-58)

    Const.v has dictionaries as values.  Here lists and dictionaries are
    objects at addresses, as in Python, so that sharing between the caller's
    dictionary and the database is visible.  Strings are immutable and need no
    address. *)

From Verif Require Import PyStr Res Const.

(** References and objects (constants.py:13-27). *)
Inductive ref := RStr (s : str) | RPtr (p : nat).
(** Values of the database as objects (constants.py:19). *)
Inductive node := NList (l : list str) | NDict (d : list (str * ref)).
(** The objects (constants.py:19). *)
Definition heap := nat -> option node.
(** Change of an object. (constants.py:53, 57.) *)
Definition put (p : nat) (n : node) (h : heap) : heap := fun q => if Nat.eqb q p then Some n else h q.

(** Whether a value is a dictionary (constants.py:53). *)
Definition dict_at (h : heap) (v : ref) : option nat :=
  match v with
  | RPtr p => match h p with Some (NDict _) => Some p | _ => None end
  | _ => None
  end.

(** [a[k] += v] (constants.py:56): a list is extended in place. *)
Definition h_iadd (a : nat) (ad : list (str * ref)) (k : str) (x v : ref) (h : heap) : Res.res unit * heap :=
  match x, v with
  | RStr s, RStr s' => (Ok tt, put a (NDict (dset k (RStr (s ++ s')) ad)) h)
  | RPtr q, RStr s => match h q with
                      | Some (NList l) => (Ok tt, put q (NList (l ++ chars s)) h)
                      | _ => (Raise TypeError, h)
                      end
  | RPtr q, RPtr p => match h q, h p with
                      | Some (NList l), Some (NList l') => (Ok tt, put q (NList (l ++ l')) h)
                      | _, _ => (Raise TypeError, h)
                      end
  | RStr _, RPtr _ => (Raise TypeError, h)
  end.

(** dict_merge (constants.py:50-58) of the object at [b] into the one at [a];
    [fuel] bounds the nesting.  Simplification: the entries of [b] are those at
    the start of the loop. *)
Fixpoint h_add (fuel : nat) (a b : nat) (h : heap) {struct fuel} : Res.res unit * heap :=
  match fuel with
  | O => (NoFuel, h)
  | S n =>
      match h b with
      | Some (NDict bd) =>
          (fix go (bd : list (str * ref)) (h : heap) {struct bd} : Res.res unit * heap :=
             match bd with
             | [] => (Ok tt, h)
             | (k, v) :: r =>
                 match h a with
                 | Some (NDict ad) =>
                     match dget k ad with
                     | None => go r (put a (NDict (dset k v ad)) h)
                     | Some x =>
                         match dict_at h v, x with
                         | Some p, RPtr q =>
                             match h_add n q p h with
                             | (Ok _, h') => go r h'
                             | y => y
                             end
                         | Some p, RStr _ =>
                             match h p with
                             | Some (NDict []) => go r h
                             | _ => (Raise TypeError, h)
                             end
                         | None, _ =>
                             match h_iadd a ad k x v h with
                             | (Ok _, h') => go r h'
                             | y => y
                             end
                         end
                     end
                 | _ => (Raise TypeError, h)
                 end
             end) bd h
      | _ => (Raise AttributeError, h)
      end
  end.

(** Successive calls of AddConstants (constants.py:44-59) for the database at
    [a]; a call that raises ends them. *)
Fixpoint h_adds (fuel a : nat) (bs : list nat) (h : heap) : Res.res unit * heap :=
  match bs with
  | [] => (Ok tt, h)
  | b :: r => match h_add fuel a b h with (Ok _, h') => h_adds fuel a r h' | y => y end
  end.
