(** * Several stashes: specification *)

From Verif Require Import PyStr Regex Patterns PyPath Res Inline Const Item Lines Stash Cache Many.

(** How many stashes are made. *)
Definition made (ms : list mcall) : nat :=
  length (filter (fun m => match m with MNew _ _ => true | _ => false end) ms).
(** The calls on one stash, and its answers. *)
Definition calls_on (k : nat) (ms : list mcall) : list call :=
  flat_map (fun m => match m with MOn j c _ => if Nat.eqb j k then [c] else [] | _ => [] end) ms.
Definition answers_on (k : nat) (l : list (nat * answer)) : list answer :=
  map snd (filter (fun x => Nat.eqb (fst x) k) l).
