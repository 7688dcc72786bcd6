(** * Calls without caches: specification (cls_stash.py) *)

From Verif Require Import PyStr Regex Patterns PyPath Res Inline Const Item Lines Stash Cache.

(** The answer of a call, computed from the state alone. *)
Definition plain (e : env) (c : call) (s : stash) : answer * stash :=
  match c with
  | CAdd n path off forced => let '(r, s') := add_file n e path off forced s in (RItems r, s')
  | CAppend l => (RDone (Ok tt), append_items l s)
  | CRemove l => let '(r, s') := remove_items l s in (RDone r, s')
  | CFinalize => let '(r, s') := finalize e s in (RDone r, s')
  | CItems q => (RItems (Ok (get_items_for e s q)), s)
  | CRecipes => (RStrs (get_recipes s), s)
  | CLone => (RStrs (get_lone_appends s), s)
  | CConf => (RStrs (get_conf_files e s), s)
  | CClasses => (RStrs (get_bbclasses s), s)
  | CLinks f => (RStrs (get_links_for_file e s f), s)
  | CImage f => (RBool (is_image e s f), s)
  | CGroup f => (RBool (is_packagegroup e s f), s)
  end.
Fixpoint plain_calls (e : env) (cs : list call) (s : stash) : list answer * stash :=
  match cs with
  | [] => ([], s)
  | c :: r => let '(a, s1) := plain e c s in let '(l, s2) := plain_calls e r s1 in (a :: l, s2)
  end.

(** The file is not read again. *)
Definition known_file (e : env) (path : str) (s : stash) : Prop :=
  let file := abspath (fs_cwd (e_fs e)) path in
  (In file (st_seen s) /\ ~ In (snd (splitext file)) ([".inc"; ".bb"; ".conf"; ".bbclass"] : list str)) \/
  In file (st_seenc s).

Definition is_query (c : call) : Prop :=
  match c with CAdd _ _ _ _ | CAppend _ | CRemove _ | CFinalize => False | _ => True end.

(** [served e b s cs]: from state [s], the calls [cs] succeed, appended items
    are objects with an identity of their own, GetBBClasses is not among them,
    and no query stands between an update and Finalize.  [b] says that nothing
    was asked since the last update. *)
Inductive served (e : env) : bool -> stash -> list call -> Prop :=
| served_end : forall b s, served e b s []
| served_add : forall b s cs n path off forced l s', add_file n e path off forced s = (Ok l, s') ->
    ~ known_file e path s -> served e true s' cs -> served e b s (CAdd n path off forced :: cs)
| served_again : forall b s cs n path off forced l s', add_file n e path off forced s = (Ok l, s') ->
    known_file e path s -> served e b s' cs -> served e b s (CAdd n path off forced :: cs)
| served_append : forall b s cs l, (forall i, In i l -> it_id i < st_next s) ->
    (forall i j, In i (st_list s ++ l) -> In j (st_list s ++ l) -> it_id i = it_id j -> i = j) ->
    served e true (append_items l s) cs -> served e b s (CAppend l :: cs)
| served_remove : forall b s cs l s', remove_items l s = (Ok tt, s') ->
    served e true s' cs -> served e b s (CRemove l :: cs)
| served_finalize : forall s cs s', finalize e s = (Ok tt, s') ->
    served e true s' cs -> served e true s (CFinalize :: cs)
| served_query : forall b s cs c, is_query c -> c <> CClasses ->
    served e false s cs -> served e b s (c :: cs).
