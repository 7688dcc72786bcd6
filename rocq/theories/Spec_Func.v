(** * What function items say: specification (parser.py:33-34, cls_item.py:601-735) *)

From Verif Require Import PyStr Regex Item Spec_Parse Spec_Group.

(** Characters of function names; the braces and the dollar sign are those of
    references in names. *)
Definition func_char (c : N) : Prop := letter c \/ digit c \/ In c ("_.-+{}:$" : str).

(** The words in front of a name, each with the white space behind it. *)
Definition qualifiers (qs : list (str * str)) : Prop :=
  forall k w, In (k, w) qs -> In k (["python"; "fakeroot"] : list str) /\ blank w.
Definition qualified (qs : list (str * str)) : str := concat (map (fun q => fst q ++ snd q) qs).
Definition has_word (k : str) (qs : list (str * str)) : Prop := exists w, In (k, w) qs.

(** The head of a function up to and including the brace.  The name may be
    missing; if it is there, white space separates it from the words. *)
Definition function_head (qs : list (str * str)) (name : str) (text : str) : Prop :=
  exists w0 w1 w2, text = qualified qs ++ name ++ w0 ++ "(" ++ w1 ++ ")" ++ w2 ++ "{" /\
  qualifiers qs /\ blank w0 /\ blank w1 /\ blank w2 /\
  (forall c, In c name -> func_char c) /\
  (name = [] -> w0 = []) /\
  (name <> [] -> forall k w, In (k, w) qs -> w <> []).

(** The name is not taken for one of the words. *)
Definition own_name (name : str) : Prop :=
  forall t, name <> "python" ++ t /\ name <> "fakeroot" ++ t.

(** [HEAD BODY } REST], where the brace is the last one. *)
Definition function_text (qs : list (str * str)) (name body text : str) : Prop :=
  exists head rest, text = head ++ body ++ "}" ++ rest /\ function_head qs name head /\ ~ In 125%N rest.

(** A text as one line: without its newlines, backslashes shown as escape
    characters. *)
Definition flat (s : str) : str :=
  map (fun c => if N.eqb c cBSL then cESC else c) (filter (fun c => negb (N.eqb c cNL)) s).

(** The delimiter of the parts of an item's name. *)
Definition separator_of (i : item) : N := if it_new i then 58%N else 95%N.
(** Names of parts that are not empty and pairwise different. *)
Definition parted (d : N) (name : str) : Prop :=
  exists parts, name = join [d] parts /\ parts <> [] /\ NoDup parts /\ forall p, In p parts -> p <> [] /\ ~ In d p.

(** No inline code. *)
Definition no_inline (s : str) : Prop := forall a b, s <> a ++ "${@" ++ b.

(** The parts of a function item. *)
Definition is_python (i : item) : Prop := exists f n s l b r, it_pay i = PFunction true f n s l b r.
Definition is_fakeroot (i : item) : Prop := exists p n s l b r, it_pay i = PFunction p true n s l b r.
Definition func_body (i : item) (b : str) : Prop := exists p f n s l r, it_pay i = PFunction p f n s l b r.
(** FuncNameComplete: FuncName and SubItems joined by the delimiter. *)
Definition func_name (i : item) (nm : str) : Prop := exists p f n s l b r,
  it_pay i = PFunction p f n s l b r /\ nm = join [separator_of i] (n :: l).
Definition raw_body (i : item) (b : str) : Prop := exists p f n s l x, it_pay i = PFunction p f n s l x b.
