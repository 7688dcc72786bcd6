(** * Chunking and inline preprocessing (parser.py:68-232) *)

From Verif Require Import PyStr Regex Patterns Res Inline.

(** parser.py:29 *)
Definition INLINE_BLOCK : str := "!!!inlineblock!!!".

(** ** get_full_scope (parser.py:68-90)

    Called with offset 3 and the brace characters (parser.py:177).  The loop
    runs over the text behind the offset and stops behind the brace that makes
    the level negative. *)
Fixpoint scope_loop (level : Z) (s : str) : str :=
  match s with
  | [] => []
  | c :: t =>
      let level' := if N.eqb c 123 then (level + 1)%Z
                    else if N.eqb c 125 then (level - 1)%Z else level in
      if (level' <? 0)%Z then [c] else c :: scope_loop level' t
  end.
(** parser.py:68-91. *)
Definition get_full_scope (s : str) (offset : nat) : str :=
  firstn offset s ++ scope_loop 0 (skipn offset s).

(** ** The inner function iterate (parser.py:112-169)

    [rest] are the lines the iterator still has.  The result is the text of
    the chunk, the buffered line, and the remaining lines. *)

(** Truth values used by iterate (parser.py:115, 117, 121, 136, 141, 150, 160, 163). *)
Definition is_next_line (s : str) : bool := matched (re_search re_next_line s).
(** parser.py:121. *)
Definition is_func_start (s : str) : bool := matched (re_match re_func_start s).
(** parser.py:136, 141. *)
Definition is_comment_pure (s : str) : bool := matched (re_search re_comments_pure s).
(** parser.py:150. *)
Definition is_def_line (s : str) : bool := startswith "def " (strip_ws s).
(** parser.py:160. *)
Definition is_valid_func_name (s : str) : bool := matched (re_match re_valid_func_name s).

(** parser.py:116-120: [line] has just been read. *)
Fixpoint cont_loop (res line : str) (rest : list str) : Res.res (str * list str) :=
  if is_next_line line then
    match rest with
    | [] => Raise StopIteration
    | l :: r => cont_loop (res ++ line) l r
    end
  else Ok (res ++ line, rest).

(** parser.py:123-135 *)
Fixpoint func_loop (res : str) (level : Z) (line : str) (rest : list str) : str * list str :=
  let res' := res ++ line in
  let level' := (level + Z.of_nat (count_char 123 line) - Z.of_nat (count_char 125 line))%Z in
  if (level' <? 0)%Z then (res', rest)
  else match rest with
       | [] => (res', [])
       | l :: r => func_loop res' level' l r
       end.

(** parser.py:137-149 *)
Fixpoint comment_loop (res : str) (rest : list str) : str * str * list str :=
  match rest with
  | [] => (res, [], [])
  | l :: r => if is_comment_pure l then comment_loop (res ++ l) r else (res, l, r)
  end.

(** parser.py:151-166 *)
Fixpoint def_loop (res : str) (rest : list str) : str * str * list str :=
  match rest with
  | [] => (res, [], [])
  | l :: r =>
      if is_valid_func_name l then (res, l, r)
      else if startswith "def " l then (res, l, r)
      else def_loop (res ++ l) r
  end.

(** parser.py:112-169 *)
Definition iterate (buf : str) (rest : list str) : Res.res (str * str * list str) :=
  if is_next_line buf then
    match rest with
    | [] => Raise StopIteration
    | l :: r => do x <- cont_loop buf l r; Ok (fst x, [], snd x)
    end
  else if is_func_start buf then
    match rest with
    | [] => Raise StopIteration
    | l :: r => let '(t, r') := func_loop buf 0 l r in Ok (t, [], r')
    end
  else if is_comment_pure buf then Ok (comment_loop buf rest)
  else if is_def_line buf then Ok (def_loop buf rest)
  else match buf with
       | [] => Ok ([cNL], [], rest)
       | _ => Ok (buf, [], rest)
       end.

(** ** The inline loop (parser.py:173-182)

    The recursion is on the number of dollar signs [d] and, within, on the
    length [l] of the text; [None] if these do not suffice (shown impossible
    for the bounds used in [inline_blocks_of]). *)
Definition inline_step (neg : bool) (raw : str) : option (str * (str * str)) :=
  match find_str "${@" raw with
  | None => None
  | Some (pre, _) =>
      let repl := get_full_scope (skipn (length pre) raw) 3 in
      let repl' := match inlinerep repl neg with Some v => v | None => INLINE_BLOCK end in
      Some (replace repl repl' raw, (repl, repl'))
  end.

(** The loop of parser.py:175-182. *)
Fixpoint inline_outer (d : nat) (neg : bool) : nat -> str -> list (str * str) ->
                                              option (str * list (str * str)) :=
  fix inline_inner (l : nat) (raw : str) (blocks : list (str * str)) :=
    match inline_step neg raw with
    | None => Some (raw, rev blocks)
    | Some (raw', b) =>
        if Nat.ltb (count_char 36 raw') (count_char 36 raw) then
          match d with
          | O => None
          | S d' => inline_outer d' neg (length raw') raw' (b :: blocks)
          end
        else
          match l with
          | O => None
          | S l' => inline_inner l' raw' (b :: blocks)
          end
    end.
(** parser.py:173-182. *)
Definition inline_blocks_of (neg : bool) (raw : str) : option (str * list (str * str)) :=
  inline_outer (count_char 36 raw) neg (length raw) raw [].

(** ** Chunks *)

(** The dictionary of parser.py:183-186. *)
Record chunk := MkChunk {
  ck_line : Z;
  ck_raw : str;
  ck_realraw : str;
  ck_blocks : list (str * str);
  ck_cnt : str
}.

(** prepare_lines_subparser (parser.py:93-187); [num] is the line counter.
    Returns chunk, buffer, number of newlines, remaining lines. *)
Definition subparser (lineOffset num : Z) (neg : bool) (line : str) (rest : list str)
  : Res.res (chunk * str * Z * list str) :=
  do x <- iterate line rest;
  let '(text, next, rest') := x in
  match inline_blocks_of neg text with
  | None => NoFuel
  | Some (raw, blocks) =>
      Ok (MkChunk (num + lineOffset) raw text blocks
                  (map_char cBSL cESC (remove_char cNL raw)),
          next, Z.of_nat (count_char cNL text), rest')
  end.

(** The main loop of prepare_lines (parser.py:205-229).  The inner loop drains
    the buffer, so the buffer is empty whenever the outer loop reads a line;
    both loops are one function here: a non-empty buffer is parsed next,
    otherwise a line is read. *)
Fixpoint prepare_loop (fuel : nat) (lineOffset : Z) (neg : bool)
         (nextbuf : str) (rest : list str) (num : Z) : Res.res (list chunk) :=
  match fuel with
  | O => NoFuel
  | S f =>
      let go (line : str) (rest : list str) :=
        do x <- subparser lineOffset num neg line rest;
        let '(c, next, len, rest') := x in
        do cs <- prepare_loop f lineOffset neg next rest' (num + len);
        Ok (c :: cs) in
      match nextbuf with
      | _ :: _ => go nextbuf rest
      | [] =>
          match rest with
          | [] => Ok []
          | line :: rest' => go line rest'
          end
      end
  end.

(** prepare_lines on the text of the file (parser.py:190-232). *)
Definition prepare_text (lineOffset : Z) (neg : bool) (text : str) : Res.res (list chunk) :=
  let lines := readlines text in
  prepare_loop (S (length lines)) lineOffset neg [] lines 1.
