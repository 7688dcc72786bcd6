(** * What properties C39 and C40 say *)

From Verif Require Import PyStr Regex Patterns PyPath Res Inline Const Item Lines Stash.

(** ** C39 *)

(** A statement that adds no file: no require, include or inherit, or one that
    finds nothing (parser.py:333-350, 360-377, 431-441). *)
Definition loads (i : item) : Prop :=
  match it_pay i with
  | PInherit _ _ paths => paths <> []
  | PInclude _ _ path => path <> []
  | _ => False
  end.

(** The items that the call from [s] to [s'] added. *)
Definition added (s s' : stash) (i : item) : Prop := In i (st_list s') /\ st_next s <= it_id i.

(** ** C40 *)

(** File [f] has a statement that pattern [k] matches (parser.py:280-292). *)
Definition statement (e : env) (f : str) (k : kind) (mt : rmatch) : Prop :=
  exists off neg cs c r, prepare_file e f off neg = Ok cs /\ In c cs /\ In (k, r) order /\
    re_match r (ck_cnt c) = Some mt.
(** What [f] finds under [name] (parser.py:338, 365, 433). *)
Definition finds (e : env) (f name : str) (g : str) : Prop :=
  exists p, find_local_or_layer (S (length (dirname f))) (e_fs e) name (dirname f) = Some p /\ p <> [] /\
    g = abspath (fs_cwd (e_fs e)) p.
(** A require or include of [f] finds [g] in some state of the stash. *)
Definition requires (e : env) (f g : str) : Prop :=
  exists mt s inc, statement e f KInclude mt /\ expand_term e s f (group_str "incname" mt) = Ok inc /\ finds e f inc g.
(** An inherit or INHERIT of [f] finds [g] in some state of the stash. *)
Definition inherits_file (e : env) (f g : str) : Prop :=
  exists k mt s inh x loc, (k = KInherit \/ k = KInheritGlob) /\ statement e f k mt /\
    expand_term e s f (group_str "inhname" mt) = Ok inh /\ In x (split_char cSP inh) /\
    In loc ["classes"; "classes-recipe"; "classes-global"] /\
    finds e f (path_join loc (if endswith ".bbclass" x then x else x ++ ".bbclass")) g.
Definition pulls (e : env) (f g : str) : Prop := requires e f g \/ inherits_file e f g.

(** Files that are read each time they are pulled in (cls_stash.py:172). *)
Definition rereadable (g : str) : Prop := In (snd (splitext g)) [".inc"; ".bb"; ".conf"].

(** [F] has every file that is pulled in, and [rank] numbers the files such that
    a file pulls only files of smaller number, as far as these are read each
    time.  Classes may inherit each other in any way. *)
Definition ranked (e : env) (F : list str) (rank : str -> nat) : Prop :=
  (forall f g, In f F -> pulls e f g -> In g F) /\
  (forall f g, In f F -> pulls e f g -> rereadable g -> rank g < rank f).

(** What C39 claims of the items [l] of a file, the stash being [s'] after the
    call: items of a file lie between the statement that adds the file and the
    next one. *)
Definition loads_file (x : item) (f : str) : Prop :=
  match it_pay x with
  | PInherit _ _ paths => In f paths
  | PInclude _ _ path => f = path
  | _ => False
  end.
Definition placed (l : list item) (s' : stash) : Prop :=
  forall a x b y, l = a ++ x :: b -> loads_file x (it_origin y) -> In y (st_list s') ->
  (it_line x < it_line y)%Z /\ forall z, In z b -> (it_line y < it_line z)%Z.
