(** * Parsing with time limits (rpl_regex.py:11-106)

    Every search with a regular expression goes through RegexRpl, which gives
    up after five seconds.  The searches of a run are numbered in the order in
    which they are made; a clock says which of them run into the limit.  The
    functions below are those of Lines.v and Stash.v with the number of
    searches made so far threaded through. *)

From Verif Require Import PyStr Regex Patterns PyPath Res Inline Const Item Lines Stash.

(** Which searches exceed the limit (rpl_regex.py:24-27, 63-66). *)
Definition clock := nat -> bool.

Section timed.
Context (clk : clock).

(** Truth value of RegexRpl.search and RegexRpl.match: the default, None, on
    TimeoutError (rpl_regex.py:24-27, 63-66). *)
Definition ask (b : bool) (k : nat) : bool * nat := (negb (clk k) && b, S k).
(** The same where the match is used (rpl_regex.py:63-66). *)
Definition ask_match {A} (m : option A) (k : nat) : option A * nat :=
  (if clk k then None else m, S k).

(** ** iterate *)

(** parser.py:116-120 *)
Fixpoint cont_loop_t (res line : str) (rest : list str) (k : nat) : Res.res (str * list str) * nat :=
  let '(b, k) := ask (is_next_line line) k in
  if b then
    match rest with
    | [] => (Raise StopIteration, k)
    | l :: r => cont_loop_t (res ++ line) l r k
    end
  else (Ok (res ++ line, rest), k).

(** parser.py:137-149 *)
Fixpoint comment_loop_t (res : str) (rest : list str) (k : nat) : str * str * list str * nat :=
  match rest with
  | [] => (res, [], [], k)
  | l :: r =>
      let '(b, k) := ask (is_comment_pure l) k in
      if b then comment_loop_t (res ++ l) r k else (res, l, r, k)
  end.

(** parser.py:151-166 *)
Fixpoint def_loop_t (res : str) (rest : list str) (k : nat) : str * str * list str * nat :=
  match rest with
  | [] => (res, [], [], k)
  | l :: r =>
      let '(b, k) := ask (is_valid_func_name l) k in
      if b then (res, l, r, k)
      else if startswith "def " l then (res, l, r, k)
      else def_loop_t (res ++ l) r k
  end.

(** parser.py:112-169 *)
Definition iterate_t (buf : str) (rest : list str) (k : nat)
  : Res.res (str * str * list str) * nat :=
  let '(b, k) := ask (is_next_line buf) k in
  if b then
    match rest with
    | [] => (Raise StopIteration, k)
    | l :: r =>
        let '(x, k) := cont_loop_t buf l r k in
        (do y <- x; Ok (fst y, [], snd y), k)
    end
  else
  let '(b, k) := ask (is_func_start buf) k in
  if b then
    match rest with
    | [] => (Raise StopIteration, k)
    | l :: r => let '(t, r') := func_loop buf 0 l r in (Ok (t, [], r'), k)
    end
  else
  let '(b, k) := ask (is_comment_pure buf) k in
  if b then let '(x, k) := comment_loop_t buf rest k in (Ok x, k)
  else if is_def_line buf then let '(x, k) := def_loop_t buf rest k in (Ok x, k)
  else match buf with
       | [] => (Ok ([cNL], [], rest), k)
       | _ => (Ok (buf, [], rest), k)
       end.

(** ** Inline code *)

(** The evaluators with the text they look for before they search
    (inlinerep.py:40-47, 60-67, 80-87, 100-107, 120-127, 140-149, 162-171,
    184-191, 204-211, 224-231, 244-251, 263-268), in the order of
    inlinerep.py:282-295. *)
Definition inline_evals_t (neg : bool) : list (str * (str -> option str)) :=
  [ (("bb.utils.contains" : str), bb_utils_contains neg);
    (("bb.utils.contains_any" : str), bb_utils_contains_any neg);
    (("bb.utils.filter" : str), bb_utils_filter neg);
    (("oe.utils.all_distro_features" : str), oe_utils_all_distro_features neg);
    (("oe.utils.any_distro_features" : str), oe_utils_any_distro_features neg);
    (("oe.utils.both_contain" : str), oe_utils_both_contain neg);
    (("oe.utils.conditional" : str), oe_utils_conditional neg);
    (("oe.utils.ifelse" : str), oe_utils_ifelse neg);
    (("oe.utils.less_or_equal" : str), oe_utils_less_or_equal neg);
    (("oe.utils.vartrue" : str), oe_utils_vartrue neg);
    (("oe.utils.version_less_or_equal" : str), oe_utils_version_less_or_equal neg);
    (("d.getVar" : str), d_getvar) ].

(** First result of the evaluators (inlinerep.py:282-298); all of them are
    called before the first result is taken, and one whose search runs into the
    limit has none. *)
Fixpoint first_eval_t (l : list (str * (str -> option str))) (s : str) (k : nat) : option str * nat :=
  match l with
  | [] => (None, k)
  | (needle, f) :: r =>
      let '(o, k) := if contains needle s then ask_match (f s) k else (None, k) in
      let '(o', k) := first_eval_t r s k in
      (match o with Some v => Some v | None => o' end, k)
  end.

(** inlinerep.py:271-298 *)
Definition inlinerep_t (s : str) (neg : bool) (k : nat) : option str * nat :=
  first_eval_t (inline_evals_t neg) (inline_clean s) k.

(** One round of parser.py:175-182. *)
Definition inline_step_t (neg : bool) (raw : str) (k : nat) : option (str * (str * str)) * nat :=
  match find_str "${@" raw with
  | None => (None, k)
  | Some (pre, _) =>
      let repl := get_full_scope (skipn (length pre) raw) 3 in
      let '(o, k) := inlinerep_t repl neg k in
      let repl' := match o with Some v => v | None => INLINE_BLOCK end in
      (Some (replace repl repl' raw, (repl, repl')), k)
  end.

(** The loop of parser.py:175-182, bounded as [inline_outer]. *)
Fixpoint inline_outer_t (d : nat) (neg : bool)
  : nat -> str -> list (str * str) -> nat -> option (str * list (str * str)) * nat :=
  fix inline_inner (l : nat) (raw : str) (blocks : list (str * str)) (k : nat) :=
    let '(o, k) := inline_step_t neg raw k in
    match o with
    | None => (Some (raw, rev blocks), k)
    | Some (raw', b) =>
        if Nat.ltb (count_char 36 raw') (count_char 36 raw) then
          match d with
          | O => (None, k)
          | S d' => inline_outer_t d' neg (length raw') raw' (b :: blocks) k
          end
        else
          match l with
          | O => (None, k)
          | S l' => inline_inner l' raw' (b :: blocks) k
          end
    end.
(** parser.py:173-182 *)
Definition inline_blocks_t (neg : bool) (raw : str) (k : nat)
  : option (str * list (str * str)) * nat :=
  inline_outer_t (count_char 36 raw) neg (length raw) raw [] k.

(** ** Chunks *)

(** prepare_lines_subparser (parser.py:93-187) *)
Definition subparser_t (lineOffset num : Z) (neg : bool) (line : str) (rest : list str) (k : nat)
  : Res.res (chunk * str * Z * list str) * nat :=
  match iterate_t line rest k with
  | (Raise ex, k) => (Raise ex, k)
  | (NoFuel, k) => (NoFuel, k)
  | (Ok (text, next, rest'), k) =>
      match inline_blocks_t neg text k with
      | (None, k) => (NoFuel, k)
      | (Some (raw, blocks), k) =>
          (Ok (MkChunk (num + lineOffset) raw text blocks
                       (map_char cBSL cESC (remove_char cNL raw)),
               next, Z.of_nat (count_char cNL text), rest'), k)
      end
  end.

(** The main loop of prepare_lines (parser.py:205-229), as [prepare_loop]. *)
Fixpoint prepare_loop_t (fuel : nat) (lineOffset : Z) (neg : bool)
         (nextbuf : str) (rest : list str) (num : Z) (k : nat) : Res.res (list chunk) * nat :=
  match fuel with
  | O => (NoFuel, k)
  | S f =>
      let go (line : str) (rest : list str) :=
        match subparser_t lineOffset num neg line rest k with
        | (Raise ex, k) => (Raise ex, k)
        | (NoFuel, k) => (NoFuel, k)
        | (Ok (c, next, len, rest'), k) =>
            let '(x, k) := prepare_loop_t f lineOffset neg next rest' (num + len) k in
            (do cs <- x; Ok (c :: cs), k)
        end in
      match nextbuf with
      | _ :: _ => go nextbuf rest
      | [] =>
          match rest with
          | [] => (Ok [], k)
          | line :: rest' => go line rest'
          end
      end
  end.

(** prepare_lines on the text of the file (parser.py:190-232). *)
Definition prepare_text_t (lineOffset : Z) (neg : bool) (text : str) (k : nat)
  : Res.res (list chunk) * nat :=
  let lines := readlines text in
  prepare_loop_t (S (length lines)) lineOffset neg [] lines 1 k.

(** prepare_lines with the file access (parser.py:201-232). *)
Definition prepare_file_t (e : env) (file : str) (lineOffset : Z) (neg : bool) (k : nat)
  : Res.res (list chunk) * nat :=
  match fs_read (e_fs e) file with
  | RdText t => prepare_text_t lineOffset neg (universal_newlines t) k
  | RdNotFound => (Ok [], k)
  | RdDenied | RdOther => (Raise OSError, k)
  end.

(** ** Items *)

(** Computations on the number of searches and the stash (cls_stash.py:157-300). *)
Definition TM (A : Type) := nat * stash -> Res.res A * (nat * stash).
(** A result without effect (cls_stash.py:173). *)
Definition retT {A} (a : A) : TM A := fun w => (Ok a, w).
(** One statement after the other (cls_stash.py:170-229). *)
Definition bindT {A B} (x : TM A) (f : A -> TM B) : TM B :=
  fun w => match x w with
           | (Ok a, w') => f a w'
           | (Raise ex, w') => (Raise ex, w')
           | (NoFuel, w') => (NoFuel, w')
           end.
(** Statements that make no search (cls_stash.py:170-191, 218-229). *)
Definition liftM {A} (x : M A) : TM A :=
  fun w => let '(a, s) := x (snd w) in (a, (fst w, s)).

(** AddFile as seen by the parser (parser.py:347, 374, 438). *)
Definition addfile_tt := str -> Z -> str -> TM (list item).

(** What is done with a line that a pattern matches (parser.py:293-466), with
    whatever searches it makes: expansion of class and file names, constructors
    of the items, included files.  Left open here. *)
Definition handler := addfile_tt -> (nat -> iparam) -> str -> Z -> kind -> rmatch -> TM (option (item * Z)).

Context (hd : handler).

(** The loop over the patterns (parser.py:291-467). *)
Fixpoint try_kinds_t (addf : addfile_tt) (p : nat -> iparam) (file : str) (line : Z)
         (cnt : str) (l : list (kind * re)) : TM (item * Z) :=
  match l with
  | [] => bindT (liftM (new_item (fun n => mk_item (p n) (ip_new (p n)) PItem)))
                (fun i => retT (i, 0%Z))
  | (kd, r) :: rest =>
      fun w =>
      let '(m, k) := ask_match (re_match r cnt) (fst w) in
      match m with
      | None => try_kinds_t addf p file line cnt rest (k, snd w)
      | Some mt =>
          bindT (hd addf p file line kd mt)
                (fun o => match o with
                          | Some x => retT x
                          | None => try_kinds_t addf p file line cnt rest
                          end) (k, snd w)
      end
  end.

(** The loop over the chunks (parser.py:280-468). *)
Fixpoint parse_chunks_t (addf : addfile_tt) (file : str) (lineOffset incOffset : Z)
         (new : bool) (cs : list chunk) : TM (list item) :=
  match cs with
  | [] => retT []
  | c :: r =>
      let p := fun n => MkParam n (ck_line c + incOffset) (ck_line c - lineOffset)
                                (ck_raw c) (ck_realraw c) file (ck_blocks c) new in
      bindT (try_kinds_t addf p file (ck_line c) (ck_cnt c) order) (fun x =>
      bindT (parse_chunks_t addf file lineOffset (incOffset + snd x) (new || it_new (fst x)) r) (fun l =>
      retT (fst x :: l)))
  end.

(** get_items (parser.py:235-470) *)
Definition get_items_t (e : env) (addf : addfile_tt) (file : str) (lineOffset : Z) : TM (list item) :=
  bindT (fun w => let '(x, k) := prepare_file_t e file lineOffset (st_neg (snd w)) (fst w) in
                  (x, (k, snd w))) (fun cs =>
  bindT (liftM (liftR (fun s => Ok (st_new s)))) (fun new =>
  parse_chunks_t addf file lineOffset 0 new cs)).

(** ** AddFile *)

(** cls_stash.py:199-202 *)
Definition link_append_t (rx : re) (file : str) (l : list item)
           (acc : list (str * list str) * Z * nat) (x : str) : list (str * list str) * Z * nat :=
  let '(mp, mx, k) := acc in
  let '(b, k) := ask (matched (re_match rx (basename x))) k in
  if b then
    (dset x ((match dget x mp with Some y => y | None => [] end) ++ [file]) mp,
     Z.max mx (max_line (filter (fun i => str_eqb (it_origin i) x) l)), k)
  else (mp, mx, k).

(** The loop of cls_stash.py:209-217. *)
Fixpoint link_recipe_t (file bn : str) (mx : Z) (l : list item) (mp : list (str * list str)) (k : nat)
  : Res.res (list item * list (str * list str)) * nat :=
  match l with
  | [] => (Ok ([], mp), k)
  | i :: r =>
      let keep (j : item) (mp : list (str * list str)) (k : nat) :=
        let '(x, k) := link_recipe_t file bn mx r mp k in
        (do y <- x; Ok (j :: fst y, snd y), k) in
      if endswith ".bbappend" (it_origin i) then
        match dyn_pattern (recipe_pattern (it_origin i)) with
        | None => (Raise RegexUnsupported, k)
        | Some rx =>
            let '(b, k) := ask (matched (re_match rx bn)) k in
            if b then
              keep (set_line (Z.max (it_line i) (it_infile i + mx)) i)
                   (dset file ((match dget file mp with Some x => x | None => [] end)
                               ++ [it_origin i]) mp) k
            else keep i mp k
        end
      else keep i mp k
  end.

(** cls_stash.py:193-217 *)
Definition match_appends_t (file : str) (items : list item) : TM (list item) :=
  fun w =>
    let s := snd w in
    if endswith ".bbappend" file then
      match dyn_pattern (append_pattern file) with
      | None => (Raise RegexUnsupported, w)
      | Some rx =>
          let '(mp, mx, k) := fold_left (link_append_t rx file (st_list s)) (dkeys (st_map s))
                                        (st_map s, 0%Z, fst w) in
          (Ok (map (fun i => set_line (it_line i + mx) i) items), (k, with_map mp s))
      end
    else if endswith ".bb" file then
      match link_recipe_t file (replace ".bb" [] (basename file)) (max_line items)
                          (st_list s) (st_map s) (fst w) with
      | (Ok (l, mp), k) => (Ok items, (k, with_map mp (with_list l s)))
      | (Raise ex, k) => (Raise ex, (k, s))
      | (NoFuel, k) => (NoFuel, (k, s))
      end
    else (Ok items, w).

(** AddFile (cls_stash.py:157-229); [fuel] bounds the nesting of includes. *)
Fixpoint add_file_t (fuel : nat) (e : env) (path : str) (lineOffset : Z) (forced : option str)
  : TM (list item) :=
  fun w =>
    match fuel with
    | O => (NoFuel, w)
    | S n =>
        let s := snd w in
        let file := abspath (fs_cwd (e_fs e)) path in
        let ext := snd (splitext file) in
        if mem_str file (st_seen s) && negb (mem_str ext multi_exts) then (Ok [], w)
        else if mem_str file (st_seenc s) then (Ok [], w)
        else
          let s := with_seen (add_set file (st_seen s))
                             (if str_eqb ext ".bbclass" then add_set file (st_seenc s) else st_seenc s) s in
          bindT (get_items_t e (fun p o f => add_file_t n e p o (Some f)) file lineOffset) (fun items =>
          bindT (liftM (fun s => (Ok tt, with_map (link_file file forced (st_map s)) s))) (fun _ =>
          bindT (match_appends_t file items) (fun items =>
          bindT (liftM (add_distro_machine e file)) (fun _ =>
          bindT (liftM (fun s => (Ok tt, with_fp (st_fp s ++ map (e_repr e) items)
                                                 (with_list (st_list s ++ items) s)))) (fun _ =>
          retT items))))) (fst w, s)
    end.
End timed.

(** The handler of Stash.v (parser.py:293-466): it makes its searches without
    a limit; the included files are parsed with the searches numbered from
    where the handler was called. *)
Definition plain_handler (e : env) : handler :=
  fun addf p file line kd mt w =>
    let addf' : addfile_t := fun path off link s =>
      let '(x, w') := addf path off link (fst w, s) in (x, snd w') in
    let '(x, s) := handle e addf' p file line kd mt (snd w) in
    (x, (fst w, s)).
