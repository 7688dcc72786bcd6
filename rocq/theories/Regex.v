(** * Regular expressions

    Backtracking matching with ordered choice, greedy and lazy repetition and
    capture groups, as the [regex] module used through
    /repo/oelint_parser/rpl_regex.py:10-106 ([search], [split], [match],
    [sub], [finditer]) performs it.  Simplification: the time limits
    (rpl_regex.py:25, 45, 64, 85, 104) are not modelled, a match always runs to
    its end.  The [flags] argument of [match] is dropped by the code itself
    (rpl_regex.py:64), so no pattern is ever matched in MULTILINE mode. *)

From Verif Require Import PyStr.

(** Syntax of patterns.  Characters are given by predicates.  [RAtom] is the
    atomic group that possessive quantifiers stand for (they occur in
    patterns built from file names, cls_stash.py:195, 212). *)
Inductive re :=
| REps
| RChr (p : N -> bool)
| RSeq (a b : re)
| RAlt (a b : re)
| RStar (greedy : bool) (r : re)
| RGrp (name : str) (r : re)
| RBol
| REol
| RLook (positive : bool) (r : re)
| RAtom (r : re).

(** Captured groups, latest capture of a name first. (parser.py:295 ff.) *)
Definition groups := list (str * str).

(** Matching state: at the beginning of the text or not, text still to be
    matched, captures (positions of a [regex] match, rpl_regex.py:64). *)
Record mstate := MS { m_bol : bool; m_rest : str; m_grp : groups }.

(** The consumed text between two states of one match (rpl_regex.py:64). *)
Definition consumed (s s' : mstate) : str :=
  firstn (length (m_rest s) - length (m_rest s')) (m_rest s).

(** Continuation passing matcher (rpl_regex.py:64): the first way to match
    [r] whose continuation succeeds.  Repetition demands progress in every
    round; no pattern of the code repeats something that can be empty. *)
Fixpoint m (r : re) : forall A : Type, (mstate -> option A) -> mstate -> option A :=
  match r with
  | REps => fun A k s => k s
  | RChr p => fun A k s =>
      match m_rest s with
      | c :: t => if p c then k (MS false t (m_grp s)) else None
      | [] => None
      end
  | RSeq a b => fun A k s => m a A (m b A k) s
  | RAlt a b => fun A k s =>
      match m a A k s with Some x => Some x | None => m b A k s end
  | RStar greedy r => fun A k s =>
      (fix star (n : nat) (s : mstate) {struct n} : option A :=
         match n with
         | O => k s
         | S n' =>
             if greedy then
               match m r A (fun s' => if Nat.ltb (length (m_rest s')) (length (m_rest s))
                                      then star n' s' else None) s with
               | Some x => Some x
               | None => k s
               end
             else
               match k s with
               | Some x => Some x
               | None => m r A (fun s' => if Nat.ltb (length (m_rest s')) (length (m_rest s))
                                          then star n' s' else None) s
               end
         end) (length (m_rest s)) s
  | RGrp n r => fun A k s =>
      m r A (fun s' => k (MS (m_bol s') (m_rest s') ((n, consumed s s') :: m_grp s'))) s
  | RBol => fun A k s => if m_bol s then k s else None
  | REol => fun A k s =>
      match m_rest s with
      | [] => k s
      | [c] => if N.eqb c cNL then k s else None
      | _ => None
      end
  | RLook positive r => fun A k s =>
      match m r mstate (fun x => Some x) s with
      | Some _ => if positive then k s else None
      | None => if positive then None else k s
      end
  | RAtom r => fun A k s =>
      match m r mstate (fun x => Some x) s with
      | Some s' => k s'
      | None => None
      end
  end.

(** A match: matched text and captures (regex.Match, used from parser.py:292
    on). *)
Record rmatch := RM { g0 : str; g_all : groups }.

(** [m.group(name)] (parser.py:295 ff.): [None] if the group took no part. *)
Fixpoint lookup_group (n : str) (g : groups) : option str :=
  match g with
  | [] => None
  | (k, v) :: r => if str_eqb n k then Some v else lookup_group n r
  end.
(** [m.group(name)] (parser.py:295 ff.). *)
Definition group (n : str) (x : rmatch) : option str := lookup_group n (g_all x).
(** [m.group(name)] where the pattern guarantees participation, or
    [m.group(name) or ""] (parser.py:321, cls_item.py:627, 948). *)
Definition group_str (n : str) (x : rmatch) : str :=
  match group n x with Some v => v | None => [] end.

(** Match at one position; [bol] tells whether it is the start of the text. (rpl_regex.py:25, 64.) *)
Definition match_at (r : re) (bol : bool) (s : str) : option rmatch :=
  let s0 := MS bol s [] in
  match m r mstate (fun x => Some x) s0 with
  | Some s' => Some (RM (consumed s0 s') (m_grp s'))
  | None => None
  end.

(** RegexRpl.match (rpl_regex.py:50-66). *)
Definition re_match (r : re) (s : str) : option rmatch := match_at r true s.

(** RegexRpl.search (rpl_regex.py:11-27). *)
Fixpoint search_from (r : re) (bol : bool) (s : str) : option rmatch :=
  match match_at r bol s with
  | Some x => Some x
  | None =>
      match s with
      | [] => None
      | _ :: t => search_from r false t
      end
  end.
(** RegexRpl.search (rpl_regex.py:11-27). *)
Definition re_search (r : re) (s : str) : option rmatch := search_from r true s.

(** Truth value of a match object. (cls_stash.py:199, 214, parser.py:115.) *)
Definition matched {A} (x : option A) : bool :=
  match x with Some _ => true | None => false end.

(** Successive non-overlapping matches with the text in between, common to
    [split], [sub] and [finditer] (rpl_regex.py:30-47, 69-106).  [inl c] is
    an unmatched character.  After an empty match one character is skipped. *)
Fixpoint scan (r : re) (skip : nat) (bol : bool) (s : str) : list (N + rmatch) :=
  match s with
  | [] =>
      match skip with
      | S _ => []
      | O => match match_at r bol [] with Some x => [inr x] | None => [] end
      end
  | c :: t =>
      match skip with
      | S k => scan r k false t
      | O =>
          match match_at r bol s with
          | Some x =>
              match length (g0 x) with
              | O => inr x :: inl c :: scan r 0 false t
              | S k => inr x :: scan r k false t
              end
          | None => inl c :: scan r 0 false t
          end
      end
  end.

(** RegexRpl.finditer (rpl_regex.py:90-106). *)
Definition re_finditer (r : re) (s : str) : list rmatch :=
  flat_map (fun x => match x with inl _ => [] | inr y => [y] end) (scan r 0 true s).

(** RegexRpl.sub with the replacement computed from the match
    (rpl_regex.py:69-87). *)
Definition re_sub (r : re) (f : rmatch -> str) (s : str) : str :=
  flat_map (fun x => match x with inl c => [c] | inr y => f y end) (scan r 0 true s).

(** RegexRpl.split for patterns without groups (rpl_regex.py:30-47). *)
Fixpoint split_pieces (cur : str) (l : list (N + rmatch)) : list str :=
  match l with
  | [] => [rev cur]
  | inl c :: r => split_pieces (c :: cur) r
  | inr _ :: r => rev cur :: split_pieces [] r
  end.
(** RegexRpl.split (rpl_regex.py:30-47). *)
Definition re_split (r : re) (s : str) : list str := split_pieces [] (scan r 0 true s).

(** ** Derived forms The quantifiers of parser.py:32-65. *)
Definition RPlus (greedy : bool) (r : re) : re := RSeq r (RStar greedy r).
(** "?" (parser.py:34). *)
Definition ROpt (greedy : bool) (r : re) : re :=
  if greedy then RAlt r REps else RAlt REps r.
(** Single characters, sets of characters and literal text. (parser.py:32-65.) *)
Definition ch (c : N) : N -> bool := fun x => N.eqb x c.
(** A set of characters (parser.py:34). *)
Definition oneof (cs : str) : N -> bool := fun x => in_chars cs x.
(** A negated set (parser.py:49). *)
Definition noneof (cs : str) : N -> bool := fun x => negb (in_chars cs x).
(** A range of characters (parser.py:32). *)
Definition range (a b : N) : N -> bool := fun x => (N.leb a x && N.leb x b)%bool.
(** A set made of several (parser.py:34). *)
Definition por (p q : N -> bool) : N -> bool := fun x => (p x || q x)%bool.
(** Literal text (parser.py:36). *)
Fixpoint RLit (s : str) : re :=
  match s with
  | [] => REps
  | [c] => RChr (ch c)
  | c :: t => RSeq (RChr (ch c)) (RLit t)
  end.
(** Sequence of several patterns. (parser.py:32-65.) *)
Fixpoint RCat (l : list re) : re :=
  match l with
  | [] => REps
  | [r] => r
  | r :: t => RSeq r (RCat t)
  end.
(** ['.']: any character but newline. (parser.py:34.) *)
Definition dotp : N -> bool := fun x => negb (N.eqb x cNL).
(** '.' (parser.py:34). *)
Definition RDot : re := RChr dotp.
(** [\s] of the [regex] module: Unicode White_Space. (parser.py:32-65.) *)
Definition re_space (c : N) : bool :=
  (((9 <=? c) && (c <=? 13)) || (c =? 32) || (c =? 133) || (c =? 160)
  || (c =? 5760) || ((8192 <=? c) && (c <=? 8202)) || (c =? 8232) || (c =? 8233)
  || (c =? 8239) || (c =? 8287) || (c =? 12288))%N.
(** The class of white space (parser.py:32-65). *)
Definition RSp : re := RChr re_space.
