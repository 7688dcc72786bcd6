(** * Names in the old and in the new override syntax: specification *)

From Verif Require Import PyStr Const Item Spec_Parse Spec_Func Spec_Access Spec_Expand.

(** A name of the parts [bs] with the overrides [os] in the old syntax, where
    all are joined by underscores, and in the new one, where colons are in front
    of the overrides. *)
Definition base_of (bs : list str) : str := join "_" bs.
Definition old_name (bs os : list str) : str := join "_" (bs ++ os).
Definition new_name (bs os : list str) : str := join ":" (base_of bs :: os).

(** Parts hold no delimiter. *)
Definition part (x : str) : Prop := x <> [] /\ ~ In 95%N x /\ ~ In 58%N x.
Definition parts (bs os : list str) : Prop := bs <> [] /\ os <> [] /\ forall x, In x (bs ++ os) -> part x.

(** Variables: the parts of the name behind the first begin with another
    character than overrides do, and the first is not pkg. *)
Definition starts_override (x : str) : Prop :=
  exists c r, x = c :: r /\ (between 97 122 c \/ digit c \/ In c ("{}$" : str)).
Definition usual_parts (bs os : list str) : Prop := parts bs os /\
  (forall b r, bs = b :: r -> b <> "pkg" /\ forall x, In x r -> ~ starts_override x) /\
  forall x, In x os -> starts_override x.

(** Functions: no part of the name is an operation or class override, no begin
    of the name is itself a known function, and either the first override is
    such a word or the function is a known one. *)
Definition function_parts (known : list str) (bs os : list str) : Prop := parts bs os /\
  (forall x, In x bs -> ~ marker x) /\
  (forall a b, bs = a ++ b -> a <> [] -> b <> [] -> ~ In (base_of a) known) /\
  exists o r, os = o :: r /\ ~ In o bs /\ o <> base_of bs /\ (marker o \/ In (base_of bs) known).

(** Two readings of one statement of a variable that has no overrides but
    operations, in either syntax; or of any other statement. *)
Inductive restyled (i j : item) : Prop :=
| same_pay : it_pay i = it_pay j -> it_new i = it_new j -> it_blocks i = it_blocks j -> restyled i j
| other_style : forall n s s' os v op, it_pay i = PVariable n s os v op n -> it_pay j = PVariable n s' os v op n ->
    (forall x, In x os -> operation x) -> os <> [] -> restyled i j.
