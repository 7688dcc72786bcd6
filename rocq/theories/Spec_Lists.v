(** * What properties C124 and C125 say *)

From Verif Require Import PyStr Res Item Stash Lists.

(** The queries that the items of an object have passed. *)
Definition passes := nat -> option (list query).
Definition pass_one (c : list_call) (p : passes) : passes :=
  match c with
  | LGet o q => fun x => if Nat.eqb x o then Some [q] else p x
  | LReduce o q => fun x => if Nat.eqb x o then match p o with Some l => Some (q :: l) | None => None end else p x
  | LCopy o o' q => fun x => if Nat.eqb x o' then match p o with Some l => Some (q :: l) | None => p x end else p x
  end.
Definition passed (cs : list list_call) : passes := fold_left (fun p c => pass_one c p) cs (fun _ => None).

(** Items that say that one of the variables has the value: the example of the
    README (lines 86-88), and the same with another attribute. *)
Definition by_name (ns : list str) : query := MkQuery None ANone (AOne "VarName") (AMany (map VStr ns)) false.
Definition by_value (a v : str) : query := MkQuery None ANone (AOne a) (AMany [VStr v]) false.
Definition in_double (v : str) : str := [34%N] ++ v ++ [34%N].
Definition in_single (v : str) : str := [39%N] ++ v ++ [39%N].
Definition assigns (ns : list str) (w : str) (i : item) : Prop :=
  exists n, In n ns /\ dget "VarName" (attributes i) = Some (VStr n) /\ dget "VarValue" (attributes i) = Some (VStr w).
(** Blanks and quotes around a value. *)
Definition around (c : N) : Prop := c = 34%N \/ py_space c = true.
