(** * Evaluation of inline code (inlinerep.py) *)

From Verif Require Import PyStr Regex Patterns.

(** [.strip] of both quote characters (inlinerep.py:46, 65, 66 ...). *)
Definition strip_quotes (s : str) : str := strip [cDQ; cSQ] s.

(** The common shape of inlinerep.py:50-67, 70-87, 90-107, 110-127, 174-191,
    194-211, 214-231: guard by substring, match, pick a branch. *)
Definition eval_two (needle : str) (r : re) (neg : bool) (s : str) : option str :=
  if contains needle s then
    match re_match r s with
    | Some x => Some (strip_quotes (group_str (if neg then "falseval" else "trueval") x))
    | None => None
    end
  else None.

(** The shape of inlinerep.py:30-47 and 234-251: the negative branch is empty. *)
Definition eval_one (needle : str) (r : re) (neg : bool) (s : str) : option str :=
  if contains needle s then
    match re_match r s with
    | Some x => Some (if neg then [] else strip_quotes (group_str "trueval" x))
    | None => None
    end
  else None.

(** The shape of inlinerep.py:130-149 and 152-171: missing or empty branches
    default to 1 and to the empty string. *)
Definition eval_distro (needle : str) (r : re) (neg : bool) (s : str) : option str :=
  if contains needle s then
    match re_match r s with
    | Some x =>
        let tv := match group_str "trueval" x with [] => "1" | v => v end in
        let fv := group_str "falseval" x in
        Some (strip_quotes (if neg then fv else tv))
    | None => None
    end
  else None.

(** inlinerep.py:30-47 *)
Definition bb_utils_filter := eval_one "bb.utils.filter" re_filter.
(** inlinerep.py:50-67 *)
Definition bb_utils_contains := eval_two "bb.utils.contains" re_contains.
(** inlinerep.py:70-87 *)
Definition bb_utils_contains_any := eval_two "bb.utils.contains_any" re_contains_any.
(** inlinerep.py:90-107 *)
Definition oe_utils_conditional := eval_two "oe.utils.conditional" re_conditional.
(** inlinerep.py:110-127 *)
Definition oe_utils_ifelse := eval_two "oe.utils.ifelse" re_ifelse.
(** inlinerep.py:130-149 *)
Definition oe_utils_any_distro_features := eval_distro "oe.utils.any_distro_features" re_any_distro.
(** inlinerep.py:152-171 *)
Definition oe_utils_all_distro_features := eval_distro "oe.utils.all_distro_features" re_all_distro.
(** inlinerep.py:174-191 *)
Definition oe_utils_vartrue := eval_two "oe.utils.vartrue" re_vartrue.
(** inlinerep.py:194-211 *)
Definition oe_utils_less_or_equal := eval_two "oe.utils.less_or_equal" re_less_or_equal.
(** inlinerep.py:214-231 *)
Definition oe_utils_version_less_or_equal :=
  eval_two "oe.utils.version_less_or_equal" re_version_less_or_equal.
(** inlinerep.py:234-251 *)
Definition oe_utils_both_contain := eval_one "oe.utils.both_contain" re_both_contain.

(** inlinerep.py:254-268 *)
Definition d_getvar (s : str) : option str :=
  if contains "d.getVar" s then
    match re_match re_d_getvar s with
    | Some x => Some ("${" ++ strip_quotes (group_str "val" x) ++ "}")
    | None => None
    end
  else None.

(** [_in.lstrip("${@").rstrip("}")] (inlinerep.py:281) *)
Definition inline_clean (s : str) : str := rstrip "}" (lstrip "${@" s).

(** The evaluators in the order of inlinerep.py:282-295. *)
Definition inline_evals (neg : bool) : list (str -> option str) :=
  [ bb_utils_contains neg;
    bb_utils_contains_any neg;
    bb_utils_filter neg;
    oe_utils_all_distro_features neg;
    oe_utils_any_distro_features neg;
    oe_utils_both_contain neg;
    oe_utils_conditional neg;
    oe_utils_ifelse neg;
    oe_utils_less_or_equal neg;
    oe_utils_vartrue neg;
    oe_utils_version_less_or_equal neg;
    d_getvar ].

(** First evaluator with a result (inlinerep.py:282-298). *)
Fixpoint first_eval (l : list (str -> option str)) (s : str) : option str :=
  match l with
  | [] => None
  | f :: r => match f s with Some v => Some v | None => first_eval r s end
  end.

(** inlinerep.py:271-298 *)
Definition inlinerep (s : str) (neg : bool) : option str :=
  first_eval (inline_evals neg) (inline_clean s).
