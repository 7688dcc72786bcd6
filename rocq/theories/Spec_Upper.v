(** * The other cached methods: specification (cls_stash.py) *)

From Verif Require Import PyStr Regex Patterns PyPath Res Inline Const Item Lines Stash Cache Spec_Cache Upper.

(** The answer of a call, computed from the state alone. *)
Definition uplain (e : env) (c : ucall) (s : stash) : uanswer * stash :=
  match c with
  | UBase c => let '(a, s') := plain e c s in (RBase a, s')
  | UFiles f p => (RTexts (Ok (get_files e s f p)), s)
  | UNames f b => (RTexts (valid_package_names e s f b), s)
  | UNamed f => (RTexts (Ok (valid_named_resources e s f)), s)
  | UDynamic f => (RTexts (packages_dynamic e s f), s)
  | UIsDynamic f n => (RAnswer (is_dynamic_package e s f n), s)
  end.
Fixpoint uplain_calls (e : env) (cs : list ucall) (s : stash) : list uanswer * stash :=
  match cs with
  | [] => ([], s)
  | c :: r => let '(a, s1) := uplain e c s in let '(l, s2) := uplain_calls e r s1 in (a :: l, s2)
  end.

(** A sequence of calls as in [served]: the methods here count as queries. *)
Definition counts_as (c : ucall) : call :=
  match c with
  | UBase c => c
  | UFiles f _ | UNames f _ | UNamed f | UDynamic f | UIsDynamic f _ => CItems (MkQuery (Some f) (AOne "Variable") ANone ANone false)
  end.
Definition userved (e : env) (s : stash) (cs : list ucall) : Prop := served e true s (map counts_as cs).

(** GetPackagesDynamic and IsDynamicPackage are called behind the last update
    only. *)
Definition about_dynamic (c : ucall) : Prop := match c with UDynamic _ | UIsDynamic _ _ => True | _ => False end.
Definition dynamic_last (cs : list ucall) : Prop :=
  forall a c b, cs = a ++ c :: b -> about_dynamic c -> forall x, In x b -> is_query (counts_as x).
