(** * What the methods of items answer: specification (cls_item.py:405-465, 721-747, 903-918) *)

From Verif Require Props_Items.
From Verif Require Import PyStr Regex PyPath Res Const Item Stash Spec_Query Spec_Parse.

(** ** C87: words of a value *)

(** A text that neither begins nor ends with a double quote. *)
Definition unquoted (v : str) : Prop := (forall t, v <> [cDQ] ++ t) /\ (forall t, v <> t ++ [cDQ]).

(** A word in front of the text [t]: no separator and no parenthesis in it. *)
Definition plain_word (w t : str) : Prop :=
  w <> [] /\ ~ In 40%N w /\ forall a c b, w = a ++ c :: b -> ~ Props_Items.separator c (b ++ t).
(** The end of a text, or a separator. *)
Definition ends_word (t : str) : Prop := forall c r, t = c :: r -> Props_Items.separator c r.

(** [listed s l]: the text [s] is a list of the words [l], each of them alone
    or followed by a version in parentheses. *)
Inductive listed : str -> list str -> Prop :=
| listed_nil : listed [] []
| listed_sep : forall c t l, Props_Items.separator c t -> listed t l -> listed (c :: t) l
| listed_word : forall w t l, plain_word w t -> ends_word t -> listed t l -> listed (w ++ t) (w :: l)
| listed_bound : forall w b v t l, plain_word w (b ++ "(" ++ v ++ ")" ++ t) -> blank b ->
    ~ In 41%N v -> ~ In cNL v -> ends_word t -> listed t l ->
    listed (w ++ b ++ "(" ++ v ++ ")" ++ t) (w :: l).

(** ** C88: several lines *)

Definition several_lines (s : str) : Prop := exists a b, s = a ++ [cNL] ++ b /\ b <> [].
(** The backslash of a continued line is its last character. *)
Definition tidy (s : str) : Prop := forall a b, s = a ++ [cNL] ++ b -> b <> [] -> exists a', a = a' ++ [cBSL].

(** ** C89: overrides *)

(** The first text of a list with a property, the empty text if there is none. *)
Definition first_with (P : str -> Prop) (l : list str) (r : str) : Prop :=
  (exists a b, l = a ++ r :: b /\ P r /\ forall x, In x a -> ~ P x) \/ (r = [] /\ forall x, In x l -> ~ P x).

Definition for_class (x : str) : Prop :=
  In x (["class-native"; "class-nativesdk"; "class-cross"; "class-target"] : list str).
Definition operation (x : str) : Prop := In x (["append"; "prepend"; "remove"] : list str).
(** Overrides that are neither of them, nor the word machine. *)
Definition for_machine (x : str) : Prop := ~ for_class x /\ ~ operation x /\ x <> "machine".

(** [NAME:OVERRIDE:OVERRIDE...]: overrides begin with a lower case letter, a
    digit, a brace or a dollar sign. *)
Definition override_text (x : str) : Prop := ~ In 58%N x /\
  exists c r, x = c :: r /\ (between 97 122 c \/ digit c \/ In c ("{}$" : str)).
Definition overridden (name n : str) (os : list str) : Prop :=
  name = join ":" (n :: os) /\ n <> [] /\ ~ In 58%N n /\ n <> "pkg" /\ os <> [] /\
  forall x, In x os -> override_text x.

(** The same for functions, where the first override is one of a list. *)
Definition marker (x : str) : Prop :=
  In x (["append"; "prepend"; "class-native"; "class-cross"; "class-target"; "remove"] : list str).
Definition marked (name n : str) (os : list str) : Prop :=
  name = join ":" (n :: os) /\ NoDup (n :: os) /\ (exists x r, os = x :: r /\ marker x) /\
  forall x, In x (n :: os) -> x <> [] /\ ~ In 58%N x.

(** ** C90: exported functions *)

(** A file of the class [cls]. *)
Definition class_file (f cls : str) : Prop := exists d,
  f = d ++ "/" ++ cls ++ ".bbclass" /\ ~ In cSL cls /\ exists c, In c cls /\ c <> cDOT.
