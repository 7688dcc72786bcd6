(** * What two readings of one statement have in common: specification *)

From Verif Require Import PyStr Res Const Item.

(** An include or require statement that was taken as such; one whose file is
    on the ignore list is not. *)
Definition an_include (i : item) : Prop := exists a b c, it_pay i = PInclude a b c.

(** All that the statement says.  For a function the split of its name into
    name and overrides is left out, since it depends on the known functions in
    the constants; for inherit and include the files that were found. *)
Definition alike (p q : payload) : Prop :=
  match p, q with
  | PFunction py fr _ _ _ b r, PFunction py' fr' _ _ _ b' r' => py = py' /\ fr = fr' /\ b = b' /\ r = r'
  | PInherit a st _, PInherit a' st' _ => a = a' /\ st = st'
  | PInclude a st _, PInclude a' st' _ => a = a' /\ st = st'
  | _, _ => p = q
  end.
