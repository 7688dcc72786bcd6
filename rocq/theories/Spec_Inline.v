(** * Inline code: specification

    Blocks of inline code in texts, the helpers that are evaluated and their
    results (README, inlinerep.py:30-268).  Nothing here uses the patterns of the code. *)

From Verif Require Import PyStr Regex Item Lines Stash Spec_Parse.

(** ** Blocks in texts *)

(** Braces in pairs. *)
Inductive balanced : str -> Prop :=
| bal_nil : balanced []
| bal_char : forall c s, c <> 123%N -> c <> 125%N -> balanced s -> balanced (c :: s)
| bal_pair : forall a s, balanced a -> balanced s -> balanced ("{" ++ a ++ "}" ++ s).

(** A block of inline code, without another one inside. *)
Definition block (b : str) : Prop :=
  exists body, b = "${@" ++ body ++ "}" /\ balanced body /\ ~ occurs "${@" body.

(** A text without blocks that cannot become the beginning of one. *)
Definition quiet (p : str) : Prop :=
  ~ occurs "${@" p /\ (forall q, p <> q ++ "$") /\ (forall q, p <> q ++ "${").

(** Texts with blocks: each with the text before it, and the rest. *)
Fixpoint written (l : list (str * str)) (rest : str) : str :=
  match l with
  | [] => rest
  | (p, b) :: r => p ++ b ++ written r rest
  end.
(** The same with something else for the blocks. *)
Definition put (f : str -> str) (l : list (str * str)) : list (str * str) :=
  map (fun pb => (fst pb, f (snd pb))) l.

(** ** Calls of helpers *)

(** Arguments: no commas, parentheses and line feeds, no blanks in front. *)
Definition plain_arg (a : str) : Prop :=
  not_indented a /\ forall c, In c (("()," : str) ++ [cNL]) -> ~ In c a.
(** A string literal and its text. *)
Definition quoted (t a : str) : Prop :=
  exists q, In q [cDQ; cSQ] /\ a = [q] ++ t ++ [q] /\ ~ In cDQ t /\ ~ In cSQ t.

Inductive arguments : list str -> str -> Prop :=
| arg_last : forall a, plain_arg a -> arguments [a] a
| arg_more : forall a w l s, plain_arg a -> blank w -> ~ In cNL w -> arguments l s -> arguments (a :: l) (a ++ "," ++ w ++ s).

(** [${@ NAME(ARGUMENTS)}] *)
Definition calls (name : str) (args : list str) (b : str) : Prop :=
  exists w s, b = "${@" ++ w ++ name ++ "(" ++ s ++ ")}" /\ (forall c, In c w -> c = cSP) /\ arguments args s.

(** The result of a helper: the text of the true or of the false branch. *)
Inductive helper (neg : bool) : str -> list str -> str -> Prop :=
| help_contains : forall var item at_ af t f d, quoted t at_ -> quoted f af ->
    helper neg "bb.utils.contains" [var; item; at_; af; [d]] (if neg then f else t)
| help_contains_any : forall var item at_ af t f d, quoted t at_ -> quoted f af ->
    helper neg "bb.utils.contains_any" [var; item; at_; af; [d]] (if neg then f else t)
| help_filter : forall at_ t x d, quoted t at_ ->
    helper neg "bb.utils.filter" [at_; x; d] (if neg then [] else t)
| help_conditional : forall var val at_ af t f d, quoted t at_ -> quoted f af ->
    helper neg "oe.utils.conditional" [var; val; at_; af; d] (if neg then f else t)
| help_ifelse : forall cond at_ af t f, quoted t at_ -> quoted f af ->
    helper neg "oe.utils.ifelse" [cond; at_; af] (if neg then f else t)
| help_vartrue : forall var at_ af t f d, quoted t at_ -> quoted f af ->
    helper neg "oe.utils.vartrue" [var; at_; af; d] (if neg then f else t)
| help_less : forall var val at_ af t f d, quoted t at_ -> quoted f af ->
    helper neg "oe.utils.less_or_equal" [var; val; at_; af; d] (if neg then f else t)
| help_version : forall var val at_ af t f d, quoted t at_ -> quoted f af ->
    helper neg "oe.utils.version_less_or_equal" [var; val; at_; af; d] (if neg then f else t)
| help_both : forall v1 v2 at_ t d, quoted t at_ ->
    helper neg "oe.utils.both_contain" [v1; v2; at_; d] (if neg then [] else t)
| help_distro : forall name d x, In name ["oe.utils.any_distro_features"; "oe.utils.all_distro_features"] ->
    helper neg name [d; x] (if neg then [] else "1")
| help_distro_true : forall name d x at_ t, In name ["oe.utils.any_distro_features"; "oe.utils.all_distro_features"] ->
    quoted t at_ -> helper neg name [d; x; at_] (if neg then [] else t)
| help_distro_false : forall name d x at_ af t f,
    In name ["oe.utils.any_distro_features"; "oe.utils.all_distro_features"] ->
    quoted t at_ -> quoted f af -> helper neg name [d; x; at_; af] (if neg then f else t).

(** Reading a variable. *)
Definition reads (n b : str) : Prop := exists q, In q [cDQ; cSQ] /\
  b = "${@d.getVar(" ++ [q] ++ n ++ [q] ++ ")}" /\ n <> [] /\ (forall c, In c n -> name_char c).

(** Names without a meaning for the evaluation. *)
Definition helper_names : list str :=
  ["bb.utils.filter"; "bb.utils.contains"; "oe.utils.conditional"; "oe.utils.ifelse"; "oe.utils.any_distro_features";
   "oe.utils.all_distro_features"; "oe.utils.vartrue"; "oe.utils.less_or_equal"; "oe.utils.version_less_or_equal";
   "oe.utils.both_contain"; "d.getVar"].
Definition unknown (b : str) : Prop := forall n, In n helper_names -> ~ occurs n b.

(** What stands for a block in Raw. *)
Inductive evaluates (neg : bool) (b : str) : str -> Prop :=
| ev_helper : forall name args v, calls name args b -> helper neg name args v -> evaluates neg b v
| ev_reads : forall n, reads n b -> evaluates neg b ("${" ++ n ++ "}")
| ev_unknown : unknown b -> evaluates neg b "!!!inlineblock!!!".

(** ** Items *)

(** An item of a stash with the given setting of negative_inline. *)
Definition parsed_with (e : env) (neg : bool) (i : item) : Prop :=
  exists s, filled e s /\ st_neg s = neg /\ In i (st_list s).

(** [shown neg l l']: the blocks of [l] and their results, in place. *)
Definition shown (neg : bool) (l l' : list (str * str)) : Prop :=
  Forall2 (fun pb pv => fst pv = fst pb /\ quiet (fst pb) /\ block (snd pb) /\
                        evaluates neg (snd pb) (snd pv) /\ quiet (snd pv)) l l'.

(** A text without quotes at its ends. *)
Definition unquoted (s : str) : Prop :=
  (forall c t, s = c :: t -> c <> cDQ) /\ (forall c t, s = t ++ [c] -> c <> cDQ).

(** A value with unknown inline code, no block twice. *)
Definition code_value (l : list (str * str)) (rest : str) : Prop :=
  Forall (fun pb => quiet (fst pb) /\ block (snd pb) /\ unknown (snd pb)) l /\ NoDup (map snd l) /\
  ~ occurs "${@" rest /\ ~ occurs "inlineblock" (written l rest) /\ unquoted (written l rest).
