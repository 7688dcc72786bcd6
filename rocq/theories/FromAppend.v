(** * IsFromAppend *)

From Verif Require Import PyStr Item.

(** IsFromAppend (cls_item.py:235-241). *)
Definition is_from_append (i : item) : bool := endswith ".bbappend" (it_origin i).
