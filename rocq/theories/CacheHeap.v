(** * The lists that queries return, as objects (cls_stash.py:302-451)

    The tables of Cache.v hold references to list objects here, and a query
    returns such a reference.  The simplifications of Cache.v apply; lists that
    hold something else than their method put into them read as empty if the
    kind of their elements is another one. *)

From Verif Require Import PyStr Regex Patterns PyPath Res Inline Const Item Lines Stash Cache.

(** A list object: of texts or of items (by identity). (cls_stash.py:309, 325, 334, 343, 425.) *)
Inductive obj := OStrs (l : list str) | OItems (ids : list nat).
(** All list objects made so far; a reference is a position. (cls_stash.py:309, 425.) *)
Definition heap := list obj.
(** The contents of a list (cls_stash.py:353, 425). *)
Definition read (h : heap) (a : nat) : obj := nth a h (OItems []).
(** A caller that changes a list it got (cls_stash.py:309, 388). *)
Definition write (h : heap) (a : nat) (o : obj) : heap := firstn a h ++ o :: skipn (S a) h.
(** The items of a list (cls_stash.py:353). *)
Definition ids_of (o : obj) : list nat := match o with OItems l => l | OStrs _ => [] end.
(** The texts of a list (cls_stash.py:309). *)
Definition strs_of (o : obj) : list str := match o with OStrs l => l | OItems _ => [] end.

(** The tables (cls_stash.py:302-388, 860, 884). *)
Record htables := MkHT {
  h_recipes : option nat;
  h_lone : option nat;
  h_conf : option nat;
  h_classes : option nat;
  h_links : list (str * nat);
  h_linked : list ((nat * str * bool) * bool);
  h_file : list ((bool * list nat * str * bool) * nat);
  h_class : list ((list nat * list str) * nat);
  h_attr : list ((list nat * list str * list pyval) * nat);
  h_image : list (str * bool);
  h_group : list (str * bool)
}.
(** functools.cache starts empty. (cls_stash.py:302, 311.) *)
Definition no_htables : htables := MkHT None None None None [] [] [] [] [] [] [].
(** _clear_cached (cls_stash.py:141-155) *)
Definition clear_h (t : htables) : htables := MkHT None None None (h_classes t) [] [] [] [] [] [] [].
(** Stores into one table (functools.cache). (cls_stash.py:302-309.) *)
Definition hset_recipes (a : nat) (t : htables) : htables :=
  MkHT (Some a) (h_lone t) (h_conf t) (h_classes t) (h_links t) (h_linked t) (h_file t) (h_class t) (h_attr t) (h_image t) (h_group t).
(** cls_stash.py:311-325. *)
Definition hset_lone (a : nat) (t : htables) : htables :=
  MkHT (h_recipes t) (Some a) (h_conf t) (h_classes t) (h_links t) (h_linked t) (h_file t) (h_class t) (h_attr t) (h_image t) (h_group t).
(** cls_stash.py:327-334. *)
Definition hset_conf (a : nat) (t : htables) : htables :=
  MkHT (h_recipes t) (h_lone t) (Some a) (h_classes t) (h_links t) (h_linked t) (h_file t) (h_class t) (h_attr t) (h_image t) (h_group t).
(** cls_stash.py:336-343. *)
Definition hset_classes (a : nat) (t : htables) : htables :=
  MkHT (h_recipes t) (h_lone t) (h_conf t) (Some a) (h_links t) (h_linked t) (h_file t) (h_class t) (h_attr t) (h_image t) (h_group t).
(** cls_stash.py:376-388. *)
Definition hput_links x (t : htables) : htables :=
  MkHT (h_recipes t) (h_lone t) (h_conf t) (h_classes t) (x :: h_links t) (h_linked t) (h_file t) (h_class t) (h_attr t) (h_image t) (h_group t).
(** cls_stash.py:349-353. *)
Definition hput_file tl x (t : htables) : htables :=
  MkHT (h_recipes t) (h_lone t) (h_conf t) (h_classes t) (h_links t) tl (x :: h_file t) (h_class t) (h_attr t) (h_image t) (h_group t).
(** cls_stash.py:355-359. *)
Definition hput_class x (t : htables) : htables :=
  MkHT (h_recipes t) (h_lone t) (h_conf t) (h_classes t) (h_links t) (h_linked t) (h_file t) (x :: h_class t) (h_attr t) (h_image t) (h_group t).
(** cls_stash.py:361-374. *)
Definition hput_attr x (t : htables) : htables :=
  MkHT (h_recipes t) (h_lone t) (h_conf t) (h_classes t) (h_links t) (h_linked t) (h_file t) (h_class t) (x :: h_attr t) (h_image t) (h_group t).
(** cls_stash.py:860-882. *)
Definition hput_image x (t : htables) : htables :=
  MkHT (h_recipes t) (h_lone t) (h_conf t) (h_classes t) (h_links t) (h_linked t) (h_file t) (h_class t) (h_attr t) (x :: h_image t) (h_group t).
(** cls_stash.py:884-896. *)
Definition hput_group x (t : htables) : htables :=
  MkHT (h_recipes t) (h_lone t) (h_conf t) (h_classes t) (h_links t) (h_linked t) (h_file t) (h_class t) (h_attr t) (h_image t) (x :: h_group t).

(** The stash, its tables and the list objects (cls_stash.py:130-139). *)
Definition hst := (heap * htables)%type.
(** A new list object. (cls_stash.py:309, 353, 425.) *)
Definition alloc (o : obj) (x : hst) : nat * hst := (length (fst x), (fst x ++ [o], snd x)).

(** __is_linked_to (cls_stash.py:345-347) *)
Definition linked_h (mp : list (str * list str)) (x : item) (f : str) (nolink : bool)
           (tl : list ((nat * str * bool) * bool)) : bool * list ((nat * str * bool) * bool) :=
  match look key_linked (it_id x, f, nolink) tl with
  | Some b => (b, tl)
  | None => let b := is_linked_to mp (it_origin x) f nolink in (b, ((it_id x, f, nolink), b) :: tl)
  end.
(** The comprehension of cls_stash.py:353. *)
Fixpoint filter_h (mp : list (str * list str)) (l : list item) (f : str) (nolink : bool)
         (tl : list ((nat * str * bool) * bool)) : list item * list ((nat * str * bool) * bool) :=
  match l with
  | [] => ([], tl)
  | x :: r => let '(b, t1) := linked_h mp x f nolink tl in
              let '(r', t2) := filter_h mp r f nolink t1 in
              (if b then x :: r' else r', t2)
  end.
(** __get_items_by_file (cls_stash.py:349-353), called with a file name. *)
Definition by_file_h (mp : list (str * list str)) (froz : bool) (l : list item) (f : str) (nolink : bool) (x : hst)
  : nat * hst :=
  match look key_file (froz, map it_id l, f, nolink) (h_file (snd x)) with
  | Some a => (a, x)
  | None => let '(r, tl) := filter_h mp l f nolink (h_linked (snd x)) in
            let '(a, (h, t)) := alloc (OItems (map it_id r)) x in
            (a, (h, hput_file tl ((froz, map it_id l, f, nolink), a) t))
  end.
(** __get_items_by_classifier (cls_stash.py:355-359), called with classifiers. *)
Definition by_class_h (l : list item) (cl : list str) (x : hst) : nat * hst :=
  match look key_class (map it_id l, cl) (h_class (snd x)) with
  | Some a => (a, x)
  | None => let '(a, (h, t)) := alloc (OItems (map it_id (by_classifier l cl))) x in
            (a, (h, hput_class ((map it_id l, cl), a) t))
  end.
(** __get_items_by_attribute (cls_stash.py:361-374), called with names. *)
Definition by_attr_h (l : list item) (names : list str) (vals : list pyval) (x : hst) : nat * hst :=
  match look key_attr (map it_id l, names, vals) (h_attr (snd x)) with
  | Some a => (a, x)
  | None => let '(a, (h, t)) := alloc (OItems (map it_id (by_attribute l names vals))) x in
            (a, (h, hput_attr ((map it_id l, names, vals), a) t))
  end.
(** The items of a list object, all of them being in [l]. (cls_stash.py:353, 359, 374.) *)
Definition items_at (x : hst) (a : nat) (l : list item) : list item := pick (ids_of (read (fst x) a)) l.

(** Reduce and GetItemsFor (cls_stash.py:390-451): [sorted] makes a new list. *)
Definition items_h (e : env) (s : stash) (q : query) (x : hst) : nat * hst :=
  let cl := norm_arg nonempty (q_class q) in
  let at_ := norm_arg nonempty (q_attr q) in
  let vl := norm_arg pyval_true (q_val q) in
  let '(l1, x1) := match q_file q with
                   | Some (c :: f) => let '(a, x1) := by_file_h (st_map s) false (st_list s) (c :: f) (q_nolink q) x in
                                      (items_at x1 a (st_list s), x1)
                   | _ => (st_list s, x)
                   end in
  let '(l2, x2) := match cl with
                   | [] => (l1, x1)
                   | _ => let '(a, x2) := by_class_h l1 cl x1 in (items_at x2 a l1, x2)
                   end in
  let '(l3, x3) := match at_ with
                   | [] => (l2, x2)
                   | _ => let '(a, x3) := by_attr_h l2 at_ vl x2 in (items_at x3 a l2, x3)
                   end in
  alloc (OItems (map it_id (sort_items (e_iset e l3)))) x3.

(** GetLinksForFile (cls_stash.py:376-388) *)
Definition links_h (e : env) (s : stash) (f : str) (x : hst) : nat * hst :=
  match look str_eqb f (h_links (snd x)) with
  | Some a => (a, x)
  | None =>
      let '(v, x1) := match f with
                      | [] => ([], x)
                      | _ => let '(a, x1) := by_file_h (st_map s) true (e_iset e (st_list s)) f false x in
                             (map it_origin (filter (fun i => negb (str_eqb (it_origin i) f))
                                                    (items_at x1 a (e_iset e (st_list s)))), x1)
                      end in
      let '(a, (h, t)) := alloc (OStrs v) x1 in (a, (h, hput_links (f, a) t))
  end.

(** IsPackageGroup (cls_stash.py:884-896) *)
Definition inherits_h (e : env) (s : stash) (f : str) (x : hst) : list item * hst :=
  let '(a, x1) := items_h e s (MkQuery (Some f) (AOne "Inherit") ANone ANone false) x in (items_at x1 a (st_list s), x1).
(** IsPackageGroup (cls_stash.py:884-896). *)
Definition group_h (e : env) (s : stash) (f : str) (x : hst) : bool * hst :=
  match look str_eqb f (h_group (snd x)) with
  | Some b => (b, x)
  | None => let '(l, (h, t)) := inherits_h e s f x in
            let b := existsb (fun i => mem_str "packagegroup" (get_items_of i)) l in
            (b, (h, hput_group (f, b) t))
  end.

(** IsImage (cls_stash.py:860-882) *)
Fixpoint image_vars_h (e : env) (s : stash) (f : str) (vs : list str) (x : hst) : bool * hst :=
  match vs with
  | [] => (false, x)
  | v :: r =>
      let '(a, x1) := items_h e s (MkQuery (Some f) (AOne "Variable") (AOne "VarName") (AOne (VStr v)) false) x in
      let '(b, x2) := image_vars_h e s f r x1 in
      ((match items_at x1 a (st_list s) with [] => false | _ => true end) || b, x2)
  end.
(** IsImage (cls_stash.py:860-882). *)
Definition image_h (e : env) (s : stash) (f : str) (x : hst) : bool * hst :=
  match look str_eqb f (h_image (snd x)) with
  | Some b => (b, x)
  | None =>
      let '(l, x1) := inherits_h e s f x in
      let '(b, (h, t)) := image_vars_h e s f (cval_iter (images_variables (st_const s))) x1 in
      let b := existsb (fun i => existsb (fun y => cval_contains y (images_classes (st_const s))) (get_items_of i)) l || b in
      (b, (h, hput_image (f, b) t))
  end.

(** GetRecipes, GetLoneAppends, GetConfFiles, GetBBClasses (cls_stash.py:302-343) *)
Definition const_h (o : option nat) (v : list str) (set : nat -> htables -> htables) (x : hst) : nat * hst :=
  match o with
  | Some a => (a, x)
  | None => let '(a, (h, t)) := alloc (OStrs v) x in (a, (h, set a t))
  end.

(** IncludedFrom of the items of one file (cls_stash.py:295-297). *)
Definition mark_h (e : env) (y : stash * hst) (kv : str * list str) : stash * hst :=
  let '(s, x) := y in
  let '(a, x1) := items_h e s (file_query (fst kv)) x in
  (with_list (mark_items (ids_of (read (fst x1) a)) (snd kv) (st_list s)) s, x1).
(** Finalize (cls_stash.py:285-300) *)
Definition finalize_h (e : env) (s : stash) (x : hst) : Res.res unit * (stash * hst) :=
  match link_all e (dkeys (st_map s)) (st_map s) with
  | (Ok _, mp) => let '(s1, (h, t)) := fold_left (mark_h e) mp (with_map mp s, x) in (Ok tt, (s1, (h, clear_h t)))
  | (r, mp) => (r, (with_map mp s, x))
  end.

(** One call: the answer, and the list object that the caller gets, if any. (cls_stash.py:141-155.) *)
Definition clear_of (x : hst) : hst := (fst x, clear_h (snd x)).
(** The list a call returns (cls_stash.py:302-451). *)
Definition gives (f : obj -> answer) (s : stash) (y : nat * hst) : answer * option nat * (stash * hst) :=
  (f (read (fst (snd y)) (fst y)), Some (fst y), (s, snd y)).
(** A call that returns no list (cls_stash.py:860-896). *)
Definition tells (s : stash) (y : bool * hst) : answer * option nat * (stash * hst) := (RBool (fst y), None, (s, snd y)).
(** cls_stash.py:157-451, 860-896. *)
Definition call_h (e : env) (c : call) (s : stash) (x : hst) : answer * option nat * (stash * hst) :=
  match c with
  | CAdd n path off forced =>
      match add_file n e path off forced s with
      | (Ok l, s') =>
          let '(a, x1) := alloc (OItems (map it_id l)) x in
          (RItems (Ok l), Some a, (s', if returns_early e path s then x1 else clear_of x1))
      | (r, s') => (RItems r, None, (s', x))
      end
  | CAppend l => (RDone (Ok tt), None, (append_items l s, clear_of x))
  | CRemove l =>
      match remove_items l s with
      | (Ok u, s') => (RDone (Ok u), None, (s', clear_of x))
      | (r, s') => (RDone r, None, (s', x))
      end
  | CFinalize => let '(r, y) := finalize_h e s x in (RDone r, None, y)
  | CItems q => gives (fun o => RItems (Ok (pick (ids_of o) (st_list s)))) s (items_h e s q x)
  | CRecipes => gives (fun o => RStrs (strs_of o)) s (const_h (h_recipes (snd x)) (get_recipes s) hset_recipes x)
  | CLone => gives (fun o => RStrs (strs_of o)) s (const_h (h_lone (snd x)) (get_lone_appends s) hset_lone x)
  | CConf => gives (fun o => RStrs (strs_of o)) s (const_h (h_conf (snd x)) (get_conf_files e s) hset_conf x)
  | CClasses => gives (fun o => RStrs (strs_of o)) s (const_h (h_classes (snd x)) (get_bbclasses s) hset_classes x)
  | CLinks f => gives (fun o => RStrs (strs_of o)) s (links_h e s f x)
  | CImage f => tells s (image_h e s f x)
  | CGroup f => tells s (group_h e s f x)
  end.

(** What a program does: calls, and changes of a list it was given before; the
    latter change nothing else.  [held] are the lists the program was given. (cls_stash.py:302-451.) *)
Inductive action := ACall (c : call) | AWrite (a : nat) (o : obj).
(** A program using cls_stash.py:157-451. *)
Fixpoint run_h (e : env) (l : list action) (held : list nat) (s : stash) (x : hst) : list answer :=
  match l with
  | [] => []
  | ACall c :: r =>
      let '(v, g, (s', x')) := call_h e c s x in
      v :: run_h e r (match g with Some a => a :: held | None => held end) s' x'
  | AWrite a o :: r =>
      run_h e r held s (if existsb (Nat.eqb a) held then (write (fst x) a o, snd x) else x)
  end.
