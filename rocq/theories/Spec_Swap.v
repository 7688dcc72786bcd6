(** * Two changes of the constants in either order: specification *)

From Verif Require Import PyStr Res Const Spec_Const.

(** [gives b p l]: the call gives the list [l] at the path, or nothing at all at
    the path, above or below it. *)
Definition gives (b : cval) (p : list str) (l : list str) : Prop :=
  at_path p b = Some (CList l) \/ (apart p b /\ l = []).
(** [lists db p l]: the database has the list at the path. *)
Definition lists (db : cval) (p : list str) (l : list str) : Prop := at_path p db = Some (CList l).

(** Any number of calls, none of which raises. *)
Inductive calls (f : cval -> cval -> cval * option exn) : cval -> list cval -> cval -> Prop :=
| calls_none : forall db, calls f db [] db
| calls_more : forall db b db1 bs db2, f db b = (db1, None) -> calls f db1 bs db2 -> calls f db (b :: bs) db2.
