(** * Constants changed between calls: specification *)

From Verif Require Import PyStr Regex Patterns PyPath Res Inline Const Item Lines Stash Cache Spec_Cache Reconst.

(** The answer of an action, computed from the state alone. *)
Definition kplain (e : env) (a : kact) (s : stash) : answer * stash :=
  let on (r : cval * option exn) :=
    (RDone (match snd r with None => Ok tt | Some x => Raise x end), with_const (fst r) s) in
  match a with
  | KDo c => plain e c s
  | KAdd d => on (add_constants (st_const s) d)
  | KRemove d => on (remove_constants (st_const s) d)
  | KOverride d => on (override_constants (st_const s) d)
  end.
Fixpoint plain_kacts (e : env) (l : list kact) (s : stash) : list answer * stash :=
  match l with
  | [] => ([], s)
  | a :: r => let '(b, s1) := kplain e a s in let '(l', s2) := plain_kacts e r s1 in (b :: l', s2)
  end.

Definition is_change (a : kact) : Prop := match a with KDo _ => False | _ => True end.

(** [known e b A T s l]: like [served], with changes of the constants.  [A] are
    the files for which IsImage was asked since the last update, [T] those of
    them for which it would answer differently since the constants changed;
    IsImage is not asked again for any of [T]. *)
Inductive known (e : env) : bool -> list str -> list str -> stash -> list kact -> Prop :=
| known_end : forall b A T s, known e b A T s []
| known_add : forall b A T s l n path off forced r s', add_file n e path off forced s = (Ok r, s') ->
    ~ known_file e path s -> known e true [] [] s' l -> known e b A T s (KDo (CAdd n path off forced) :: l)
| known_again : forall b A T s l n path off forced r s', add_file n e path off forced s = (Ok r, s') ->
    known_file e path s -> known e b A T s' l -> known e b A T s (KDo (CAdd n path off forced) :: l)
| known_append : forall b A T s l x, (forall i, In i x -> it_id i < st_next s) ->
    (forall i j, In i (st_list s ++ x) -> In j (st_list s ++ x) -> it_id i = it_id j -> i = j) ->
    known e true [] [] (append_items x s) l -> known e b A T s (KDo (CAppend x) :: l)
| known_remove : forall b A T s l x s', remove_items x s = (Ok tt, s') ->
    known e true [] [] s' l -> known e b A T s (KDo (CRemove x) :: l)
| known_finalize : forall A T s l s', finalize e s = (Ok tt, s') ->
    known e true [] [] s' l -> known e true A T s (KDo CFinalize :: l)
| known_image : forall b A T s l f, ~ In f T ->
    known e false (f :: A) T s l -> known e b A T s (KDo (CImage f) :: l)
| known_query : forall b A T s l c, is_query c -> (forall f, c <> CImage f) -> c <> CClasses ->
    known e false A T s l -> known e b A T s (KDo c :: l)
| known_change : forall b A T T' s l a, is_change a ->
    (forall f, In f A -> ~ In f T' -> ~ In f T /\ is_image e (snd (kplain e a s)) f = is_image e s f) ->
    known e b A T' (snd (kplain e a s)) l -> known e b A T s (a :: l).
