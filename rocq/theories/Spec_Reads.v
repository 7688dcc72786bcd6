(** * What of the constants the parser reads: specification *)

From Verif Require Import PyStr Res Const Spec_Const.

(** Both databases have the same values at these places, which are not below a
    leaf (there the getters raise, see C72). *)
Definition reachable_at (p : list str) (db : cval) : Prop :=
  forall q k r v, p = q ++ k :: r -> at_path q db = Some v -> is_dict v.
Definition same_at (ps : list (list str)) (db db' : cval) : Prop :=
  forall p, In p ps -> at_path p db' = at_path p db /\ reachable_at p db /\ reachable_at p db'.

(** The places that matter for AddFile, for values, for the parts of an entry of
    SRC_URI, and for the question whether a recipe is an image. *)
Definition add_places : list (list str) :=
  [["functions"; "known"]; ["ignore"; "classes"]; ["ignore"; "include"]; ["sets"; "base"]].
Definition value_places : list (list str) := [["sets"; "base"]].
Definition mirror_places : list (list str) := [["replacements"; "mirrors"]].
Definition image_places : list (list str) := [["images"; "known-classes"]; ["images"; "known-variables"]].
