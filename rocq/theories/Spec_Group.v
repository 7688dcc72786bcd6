(** * How the lines of a file form statements: specification (parser.py:93-232) *)

From Verif Require Import PyStr Regex Spec_Parse.

(** ** Lines *)

(** The lines of a text: each ends with its newline and has no other, the last
    one may lack it, and none is empty. *)
Inductive lines : list str -> Prop :=
| lines_none : lines []
| lines_end : forall l, l <> [] -> ~ In cNL l -> lines [l]
| lines_more : forall l r, ~ In cNL l -> lines r -> lines ((l ++ [cNL]) :: r).

(** A backslash and white space at the end: the statement goes on. *)
Definition carries_on (l : str) : Prop := exists a w, l = a ++ [cBSL] ++ w ++ [cNL] /\ blank w.
(** The header of a function: an empty pair of parentheses and a brace, white
    space between them at most. *)
Definition opens (l : str) : Prop :=
  exists a w1 w2 b, l = a ++ "(" ++ w1 ++ ")" ++ w2 ++ "{" ++ b /\ blank w1 /\ blank w2.
(** A comment in the first column. *)
Definition remark (l : str) : Prop := exists t, l = "#" ++ t.
(** White space in the sense of str.strip. *)
Definition white (w : str) : Prop := forall c, In c w -> py_space c = true.
(** [def ] in front of anything, at any indentation. *)
Definition defines (l : str) : Prop := exists w t, l = w ++ "def " ++ t /\ white w /\ ~ white t.
(** A letter, a digit or a hash sign in the first column. *)
Definition top_level (l : str) : Prop := exists c t, l = c :: t /\ (letter c \/ digit c \/ c = 35%N).

(** ** Braces *)

Definition number (c : N) (s : str) : Z := Z.of_nat (count_occ N.eq_dec s c).
(** Braces opened less braces closed. *)
Definition depth (ls : list str) : Z := (number 123 (concat ls) - number 125 (concat ls))%Z.
(** No line so far closed more than was opened. *)
Definition inside (ls : list str) : Prop := forall a b, ls = a ++ b -> (0 <= depth a)%Z.
(** The last line does for the first time. *)
Definition ends_function (m : list str) (z : str) : Prop := inside m /\ (depth (m ++ [z]) < 0)%Z.

(** ** Statements

    [block ls g r]: the first statement of the lines [ls] is [g], and the
    lines [r] are behind it. *)

(** The first line behind a statement, if there is one. *)
Definition next_is (P : str -> Prop) (r : list str) : Prop := forall l t, r = l :: t -> P l.

Inductive block : list str -> list str -> list str -> Prop :=
| block_continued : forall h m z r,
    carries_on h -> Forall carries_on m -> ~ carries_on z ->
    block (h :: m ++ z :: r) (h :: m ++ [z]) r
| block_function : forall h m z r,
    ~ carries_on h -> opens h -> ends_function m z ->
    block (h :: m ++ z :: r) (h :: m ++ [z]) r
| block_unclosed : forall h m,
    ~ carries_on h -> opens h -> inside m -> m <> [] -> block (h :: m) (h :: m) []
| block_comment : forall h m r,
    ~ carries_on h -> ~ opens h -> remark h -> Forall remark m -> next_is (fun l => ~ remark l) r ->
    block (h :: m ++ r) (h :: m) r
| block_def : forall h m r,
    ~ carries_on h -> ~ opens h -> ~ remark h -> defines h ->
    Forall (fun l => ~ top_level l) m -> next_is top_level r ->
    block (h :: m ++ r) (h :: m) r
| block_line : forall h r,
    ~ carries_on h -> ~ opens h -> ~ remark h -> ~ defines h -> block (h :: r) [h] r.

(** [taken ls gs r]: the lines [ls] begin with the statements [gs], and the
    lines [r] are behind them. *)
Inductive taken : list str -> list (list str) -> list str -> Prop :=
| taken_none : forall ls, taken ls [] ls
| taken_more : forall ls g r gs u, block ls g r -> taken r gs u -> taken ls (g :: gs) u.

(** Lines that begin a statement which the file does not end: each of them
    carries on, or it is a function header and nothing else. *)
Definition waiting (u : list str) : Prop :=
  (u <> [] /\ Forall carries_on u) \/ (exists h, u = [h] /\ ~ carries_on h /\ opens h).
