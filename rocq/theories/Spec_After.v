(** * What a bbappend says comes after what the recipe says

    Definitions only. *)

From Verif Require Import PyStr PyPath Res Const Item Stash.

(** A stash filled by AddFile with offsets that are not negative, with any links;
    calls may have raised, and items may have been removed. *)
Inductive loaded (e : env) : stash -> Prop :=
| loaded_new : forall new neg db, loaded e (new_stash new neg db)
| loaded_add : forall n path off forced s r s', (0 <= off)%Z ->
    loaded e s -> add_file n e path off forced s = (r, s') -> loaded e s'
| loaded_remove : forall l s r s', loaded e s -> remove_items l s = (r, s') -> loaded e s'
| loaded_finalize : forall s r s', loaded e s -> finalize e s = (r, s') -> loaded e s'
| loaded_const : forall db s, loaded e s -> loaded e (with_const db s).
