(** * Lookups of files while the file system changes (cls_stash.py:594-636)

    FindLocalOrLayer and GetLayerRoot are decorated with functools.cache; the
    table is shared by all stashes, with the stash as part of the key, and
    nothing clears it. *)

From Verif Require Import PyStr PyPath Cache.

(** A call on the stash with this identity (cls_stash.py:594-595, 613-614). *)
Inductive lookup_call := QFind (o : nat) (name dir : str) | QRoot (o : nat) (name : str).
(** The body of the two methods (cls_stash.py:596-611, 615-636); [None] if it
    does not return. *)
Definition body (w : fs) (q : lookup_call) : option str :=
  match q with
  | QFind _ name dir => find_local_or_layer (S (length dir)) w name dir
  | QRoot _ name => get_layer_root (S (length name)) w name
  end.
(** Equality of keys (cls_stash.py:594, 613); the methods have separate tables. *)
Definition key_lookup (a b : lookup_call) : bool :=
  match a, b with
  | QFind o n d, QFind o' n' d' => Nat.eqb o o' && str_eqb n n' && str_eqb d d'
  | QRoot o n, QRoot o' n' => Nat.eqb o o' && str_eqb n n'
  | _, _ => false
  end.

(** What happens: the file system becomes another one, a stash clears its
    tables, or a lookup is made. (cls_stash.py:141-155, 594-636.) *)
Inductive event := Changes (w : fs) | Clears (o : nat) | Asks (q : lookup_call).

(** The tables of the two methods (cls_stash.py:594, 613). *)
Definition memo := list (lookup_call * str).
(** _clear_cached names other methods only (cls_stash.py:141-155). *)
Definition clear_memo (o : nat) (t : memo) : memo := t.
(** The answers, up to the first call that does not return. (cls_stash.py:141-155, 594-636.) *)
Fixpoint lookups (l : list event) (w : fs) (t : memo) : list (option str) :=
  match l with
  | [] => []
  | Changes w' :: r => lookups r w' t
  | Clears o :: r => lookups r w (clear_memo o t)
  | Asks q :: r =>
      match look key_lookup q t with
      | Some p => Some p :: lookups r w t
      | None => match body w q with
                | Some p => Some p :: lookups r w ((q, p) :: t)
                | None => [None]
                end
      end
  end.
