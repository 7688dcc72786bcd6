(** * What property C97 says *)

From Verif Require Import PyStr Res Const Item Stash Cache CacheHeap.

(** The calls among the actions of a program. *)
Fixpoint calls_of (l : list action) : list call :=
  match l with
  | [] => []
  | ACall c :: r => c :: calls_of r
  | AWrite _ _ :: r => calls_of r
  end.
(** The methods whose list is not kept by the stash. *)
Definition unshared (c : call) : Prop :=
  match c with CRecipes | CLone | CConf | CClasses | CLinks _ => False | _ => True end.
Definition no_write (l : list action) : Prop := forall a o, ~ In (AWrite a o) l.
