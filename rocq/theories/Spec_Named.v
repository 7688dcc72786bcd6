(** * What property C92 says of names with references *)

From Verif Require Import PyStr Regex PyPath Res Const Item Stash Spec_Expand.

(** [text] is what [t] expands to in file [file], whatever names other than [ns]
    stand for: the names [ns] have the values [base], or else their builtin ones. *)
Definition settled (base : list (str * str)) (file : str) (ns : list str) (t text : str) : Prop :=
  forall known, (forall k, In k ns -> known k = dget k base) ->
    expands known (fun k => dget k (builtins file)) [] t text.

(** No item of the stash assigns one of the variables. *)
Definition unassigned (s : stash) (ns : list str) : Prop :=
  forall i n sub subs v op rawn, In i (st_list s) -> it_pay i = PVariable n sub subs v op rawn -> ~ In n ns.
