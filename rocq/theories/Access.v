(** * Methods of items (cls_item.py:405-465, 721-747, 903-918)

    The methods as calls on an item; the functions of Item.v compute them from
    the parts of the item. *)

From Verif Require Import PyStr Regex Patterns PyPath Res Const Item.

(** Variable.get_items with its arguments (cls_item.py:405-418) *)
Definition variable_words (i : item) (override : str) (versioned : bool) : list str :=
  match it_pay i with
  | PVariable _ _ _ value _ _ => variable_get_items value override versioned
  | _ => []
  end.

(** SubItems of variables and functions (cls_item.py:313-319, 680-687) *)
Definition sub_items (i : item) : list str :=
  match it_pay i with
  | PVariable _ _ subs _ _ _ => subs
  | PFunction _ _ _ _ subs _ _ => subs
  | _ => []
  end.

(** GetMachineEntry (cls_item.py:437-446, 730-739) *)
Definition machine_entry (i : item) : str :=
  match it_pay i with
  | PVariable _ _ subs _ _ _ => get_machine_entry nomachine_var subs
  | PFunction _ _ _ _ subs _ _ => get_machine_entry nomachine_func subs
  | _ => []
  end.

(** GetDistroEntry (cls_item.py:428-435, 721-728) *)
Definition distro_entry (db : cval) (i : item) : str := get_distro_entry (distros_known db) (sub_items i).

(** GetClassOverride (cls_item.py:448-457) *)
Definition class_override (i : item) : str :=
  match it_pay i with
  | PVariable _ _ subs _ _ _ => get_class_override subs
  | _ => []
  end.

(** IsAppend of functions (cls_item.py:741-747) *)
Definition appends_function (i : item) : bool :=
  match it_pay i with
  | PFunction _ _ _ _ subs _ _ => func_is_append subs
  | _ => false
  end.

(** FunctionExports.get_items_unaliased (cls_item.py:911-918) *)
Definition unaliased (i : item) : list str :=
  match it_pay i with
  | PFunctionExports names => exports_unaliased (it_origin i) names
  | _ => []
  end.

(** Variable.IsMultiLine (cls_item.py:420-426) *)
Definition in_several_lines (i : item) : bool := is_multiline (it_raw i).
