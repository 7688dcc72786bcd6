(** * Vocabulary of the statements about recipes that consist of several files

    Definitions only. *)

From Verif Require Import Props_Items.
From Verif Require Import PyStr PyPath Res Inline Const Item Lines Stash Spec_Parse Spec_Query Spec_Const Spec_Files Props_Lines
  Spec_Expand Spec_Recipe.

(** What GetItemsFor finds for a file without further conditions. *)
Definition items_for (e : env) (s : stash) (file : str) : list item :=
  get_items_for e s (MkQuery (Some file) ANone ANone ANone false).

(** The item of a statement, as written in the file and as read. *)
Definition says (c : list str * stmt) (i : item) : Prop :=
  reads (snd c) i /\ it_raw i = concat (written (snd c)) /\ it_realraw i = concat (fst c).

(** Both files are added, in either order. *)
Definition in_either_order (e : env) (s0 : stash) (one : str) (l1 : list item) (two : str) (l2 : list item) (s2 : stash) : Prop :=
  exists n1 n2 s1,
    (add_file n1 e one 0 None s0 = (Ok l1, s1) /\ add_file n2 e two 0 None s1 = (Ok l2, s2)) \/
    (add_file n1 e two 0 None s0 = (Ok l2, s1) /\ add_file n2 e one 0 None s1 = (Ok l1, s2)).

(** Values can be told from the statements. *)
Definition plain_names (cs : list (list str * stmt)) : Prop :=
  (forall c, In c cs -> restorable c) /\
  (forall name op vs, In (Assign name op vs) (map snd cs) -> ~ In 36%N name) /\
  (forall name flag, In (Plain (UnsetVar name flag)) (map snd cs) -> length name = 1).
(** The base set of the constants is usable. *)
Definition plain_base (db : cval) : Prop :=
  names_ok db /\ NoDup (dkeys (sets_base db)) /\ forall k, In k (dkeys (sets_base db)) -> plain_text k.

(** [d] has the values that the statements [cs] give, in the order they are in. *)
Definition values_are (s : stash) (file : str) (cs : list (list str * stmt)) (d : list (str * list str)) : Prop :=
  forall x, let evs := coded_events x cs in let start := preset s file x in
    (fold_left at_once evs start = None -> forall v, ~ In (LateRemoves v) evs) ->
    match assigned start evs with
    | None => dget x d = None
    | Some v => forall w, no_code v ->
        expands (coded_meaning (sets_base (st_const s)) cs) (fun k => dget k (builtins file)) [] v w ->
        dget x d = Some (safe_linesplit w)
    end.

(** The one file that an include or an inherit statement adds; classes end with
    .bbclass. *)
Definition brings_file (e : env) (i : item) (p : str) : Prop :=
  match it_pay i with
  | PInclude _ _ f => p <> [] /\ f = p
  | PInherit _ _ fs => p <> [] /\ fs = [p] /\ snd (splitext (file_of e p)) = ".bbclass"
  | _ => False
  end.
