(** * Items changed by a caller: specification *)

From Verif Require Import PyStr Regex Patterns PyPath Res Inline Const Item Lines Stash Cache Spec_Cache Setters.

(** The answers, computed from the state alone. *)
Fixpoint plain_acts (e : env) (l : list act) (s : stash) : list answer * stash :=
  match l with
  | [] => ([], s)
  | ADo c :: r => let '(a, s1) := plain e c s in let '(l', s2) := plain_acts e r s1 in (a :: l', s2)
  | ASet n y :: r => plain_acts e r (set_on n y s)
  end.

(** The order of a set of items depends on their identities alone. *)
Definition by_identity (e : env) : Prop :=
  forall l l', map it_id l = map it_id l' -> map it_id (e_iset e l) = map it_id (e_iset e l').

(** The attributes that an assignment changes. *)
Definition touched (x : setter) : list str :=
  match x with
  | SLine _ => ["Line"]
  | SRaw _ => ["Raw"]
  | SRealRaw _ => ["RealRaw"]
  | SIncludedFrom _ => ["IncludedFrom"]
  | SVarValue _ => ["VarValue"; "VarValueStripped"]
  | SFuncBody _ => ["FuncBody"; "FuncBodyStripped"]
  end.

(** The attributes whose values a query compares. *)
Definition compared (q : query) : list str :=
  match norm_arg pyval_true (q_val q) with [] => [] | _ => norm_arg nonempty (q_attr q) end.

(** [kept e b A T s l]: like [served], with assignments.  [A] are the attributes
    compared since the last update, [T] those of them that were changed
    thereafter; a query compares none of [T]. *)
Inductive kept (e : env) : bool -> list str -> list str -> stash -> list act -> Prop :=
| kept_end : forall b A T s, kept e b A T s []
| kept_add : forall b A T s l n path off forced r s', add_file n e path off forced s = (Ok r, s') ->
    ~ known_file e path s -> kept e true [] [] s' l -> kept e b A T s (ADo (CAdd n path off forced) :: l)
| kept_again : forall b A T s l n path off forced r s', add_file n e path off forced s = (Ok r, s') ->
    known_file e path s -> kept e b A T s' l -> kept e b A T s (ADo (CAdd n path off forced) :: l)
| kept_append : forall b A T s l x, (forall i, In i x -> it_id i < st_next s) ->
    (forall i j, In i (st_list s ++ x) -> In j (st_list s ++ x) -> it_id i = it_id j -> i = j) ->
    kept e true [] [] (append_items x s) l -> kept e b A T s (ADo (CAppend x) :: l)
| kept_remove : forall b A T s l x s', remove_items x s = (Ok tt, s') ->
    kept e true [] [] s' l -> kept e b A T s (ADo (CRemove x) :: l)
| kept_finalize : forall A T s l s', finalize e s = (Ok tt, s') ->
    kept e true [] [] s' l -> kept e true A T s (ADo CFinalize :: l)
| kept_items : forall b A T s l q, (forall o, In o (compared q) -> ~ In o T) ->
    kept e false (compared q ++ A) T s l -> kept e b A T s (ADo (CItems q) :: l)
| kept_query : forall b A T s l c, is_query c -> (forall q, c <> CItems q) -> c <> CClasses ->
    kept e false A T s l -> kept e b A T s (ADo c :: l)
| kept_set : forall b A T T' s l n x,
    (forall o, In o T' <-> In o T \/ (In o A /\ In o (touched x))) ->
    kept e b A T' (set_on n x s) l -> kept e b A T s (ASet n x :: l).

(** What [j] reads after the assignment [x] to [i]. *)
Definition read (a : str) (i : item) (v : pyval) : Prop := dget a (attributes i) = Some v.
Definition took (x : setter) (i j : item) : Prop :=
  match x with
  | SLine v => read "Line" j (VInt v)
  | SRaw v => read "Raw" j (VStr v)
  | SRealRaw v => read "RealRaw" j (VStr v)
  | SIncludedFrom v => forall f, In f (it_incfrom j) <-> In f (it_incfrom i) \/ In f v
  | SVarValue v => classifier i = "Variable" -> read "VarValue" j (VStr v) /\ read "VarValueStripped" j (VStr (var_value_stripped v))
  | SFuncBody v => classifier i = "Function" -> read "FuncBody" j (VStr v) /\ read "FuncBodyStripped" j (VStr (func_body_stripped v))
  end.
(** Everything that [x] does not name is as before. *)
Definition else_same (x : setter) (i j : item) : Prop :=
  classifier j = classifier i /\ it_blocks j = it_blocks i /\
  (match x with SIncludedFrom _ => True | _ => it_incfrom j = it_incfrom i end) /\
  forall a, ~ In a (touched x) -> dget a (attributes j) = dget a (attributes i).
