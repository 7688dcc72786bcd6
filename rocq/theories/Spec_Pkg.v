(** * What the package and source queries are about *)

From Verif Require Import PyStr Regex PyPath Res Const Item Lines Stash Spec_Query Spec_Expand Spec_Const.

(** A variable of that name that counts for the file. *)
Definition shown (s : stash) (file n : str) (i : item) : Prop :=
  In i (st_list s) /\ visible s file i /\ exists sub subs v op rawn, it_pay i = PVariable n sub subs v op rawn.

(** An inherited class that counts for the file. *)
Definition inherits (s : stash) (file c : str) : Prop :=
  exists i cls st paths, In i (st_list s) /\ visible s file i /\ it_pay i = PInherit cls st paths /\ In c (safe_linesplit cls).

(** The endings of the packages every recipe has. *)
Definition default_packages : list str := ["ptest"; "src"; "dbg"; "staticdev"; "dev"; "doc"; "locale"].

(** The options of an entry of SRC_URI: [parts] are the texts between semicolons,
    without the first one. *)
Definition parts_of (raw : str) (parts : list str) : Prop :=
  exists p0, raw = join ";" (p0 :: parts) /\ forall p, In p (p0 :: parts) -> ~ In 59%N p.
Definition sets_option (k v o : str) : Prop :=
  ~ In 61%N k /\ ~ In 61%N v /\ (o = k ++ "=" ++ v \/ exists more, o = k ++ "=" ++ v ++ "=" ++ more).
Definition last_option (parts : list str) (k v : str) : Prop :=
  exists a o b, parts = a ++ o :: b /\ sets_option k v o /\ forall o' v', In o' b -> ~ sets_option k v' o'.

(** The known mirrors; each in turn is replaced by what it stands for. *)
Definition mirrors (db : cval) (d : list (str * str)) : Prop :=
  match at_path ["replacements"; "mirrors"] db with
  | Some v => v = CDict (map (fun kv => (fst kv, CStr (snd kv))) d)
  | None => d = []
  end.
Definition mirrored (d : list (str * str)) (x : str) : str :=
  fold_left (fun y kv => replace (fst kv) (snd kv) y) d x.

(** Host and path as one text; a text up to the first semicolon. *)
Inductive located (host : str) : str -> str -> Prop :=
| located_host : located host [] host
| located_path : forall slashes p, (forall c, In c slashes -> c = 47%N) -> (forall q, p <> "/" ++ q) -> slashes ++ p <> [] ->
    located host (slashes ++ p) (host ++ "/" ++ p).
Definition up_to_options (whole src : str) : Prop :=
  ~ In 59%N src /\ (whole = src \/ exists rest, whole = src ++ ";" ++ rest).

(** Cutting a text at every separator, keeping empty pieces. *)
Inductive cuts (sep : N -> Prop) : str -> list str -> Prop :=
| cuts_end : cuts sep [] [[]]
| cuts_sep : forall c s l, sep c -> cuts sep s l -> cuts sep (c :: s) ([] :: l)
| cuts_char : forall c s p l, ~ sep c -> cuts sep s (p :: l) -> cuts sep (c :: s) ((c :: p) :: l).
Definition blank (c : N) : Prop := re_space c = true \/ c = 27%N.

(** An entry of a list of words. *)
Definition entry (v p : str) : Prop := p <> [] /\ exists l, cuts blank v l /\ In p l.

(** Common entries of PACKAGES_DYNAMIC: a literal text, possibly anchored and
    possibly followed by anything. *)
Definition literal (w : str) : Prop := forall c, In c w -> ~ In c "^$\()[]{}|*+?.".
Definition text_entry (w p : str) : Prop := p = w \/ p = w ++ ".*" \/ p = "^" ++ w \/ p = "^" ++ w ++ ".*".

(** The packages of a recipe of the name [pn]: the default ones and the entries of
    PACKAGES and PACKAGE_BEFORE_PN. *)
Definition pn_packages (e : env) (s : stash) (file : str) (strippn : bool) (pn x : str) : Prop :=
  x = pn \/ (exists k, In k default_packages /\ x = pn ++ "-" ++ k) \/
  (exists i v p, (shown s file "PACKAGES" i \/ shown s file "PACKAGE_BEFORE_PN" i) /\
     expand_term_full e s file (stripped i) ["PN"] [] None = Ok v /\ entry v p /\
     x = replace "${PN}" (if strippn then [] else pn) p).
