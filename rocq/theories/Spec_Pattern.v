(** * What an entry of PACKAGES_DYNAMIC describes

    Patterns are written as a row of signs, each with a number of times. *)

From Verif Require Import PyStr.

(** A character standing for itself, a character behind a backslash, a dot. *)
Inductive sign := Plain (c : N) | Quoted (c : N) | Dot.
(** Once, at most once, any number of times, at least once. *)
Inductive times := Once | Maybe | Many | Repeated.

(** One sign with its times; [lazily] a question mark is written behind them. *)
Record piece := Piece { p_sign : sign; p_times : times; lazily : bool }.

(** How pieces are written. *)
Definition sign_text (x : sign) : str :=
  match x with Plain c => [c] | Quoted c => [92%N; c] | Dot => "." end.
Definition times_text (n : times) : str :=
  match n with Once => [] | Maybe => "?" | Many => "*" | Repeated => "+" end.
Definition piece_text (p : piece) : str :=
  sign_text (p_sign p) ++ times_text (p_times p) ++ (if lazily p then "?" else []).

(** Which pieces can be written: no sign with a meaning of its own stands for itself,
    no letter or digit behind a backslash, nothing is lazy about once. *)
Definition written (p : piece) : Prop :=
  match p_sign p with
  | Plain c => ~ In c "^$\()[]{}|*+?."
  | Quoted c => ~ (48 <= c <= 57)%N /\ ~ (65 <= c <= 90)%N /\ ~ (97 <= c <= 122)%N
  | Dot => True
  end /\ (p_times p = Once -> lazily p = false).

(** A whole pattern: pieces, possibly between a caret and a dollar. *)
Definition pattern_text (caret : bool) (ps : list piece) (dollar : bool) : str :=
  (if caret then "^" else []) ++ concat (map piece_text ps) ++ (if dollar then "$" else []).

(** The characters a sign stands for, the texts a piece stands for. *)
Definition stands_for (x : sign) (c : N) : Prop :=
  match x with Plain d => c = d | Quoted d => c = d | Dot => c <> 10%N end.
Definition fits (p : piece) (w : str) : Prop :=
  (forall c, In c w -> stands_for (p_sign p) c) /\
  match p_times p with
  | Once => length w = 1
  | Maybe => length w <= 1
  | Many => True
  | Repeated => 1 <= length w
  end.

(** A name agrees with a pattern if it begins with texts of the pieces, one after
    the other; with a dollar nothing but a line end may follow. *)
Definition agrees (ps : list piece) (dollar : bool) (n : str) : Prop :=
  exists ws t, n = concat ws ++ t /\ Forall2 fits ps ws /\ (dollar = true -> t = [] \/ t = [10%N]).
