(** * os.path and the file system

    posixpath as used by cls_stash.py and parser.py, and the file system as a
    record of functions. *)

From Verif Require Import PyStr.

(** Slash (cls_stash.py:606). *)
Definition cSL : N := 47.   (* slash *)
(** Dot (cls_stash.py:171). *)
Definition cDOT : N := 46.

(** Split before and after the last slash: [i = p.rfind('/') + 1] gives
    [(p[:i], p[i:])] (posixpath; cls_stash.py:195, 208, 604). *)
Fixpoint rsplit_slash (s : str) : str * str :=
  match s with
  | [] => ([], [])
  | c :: t =>
      let '(h, b) := rsplit_slash t in
      match h with
      | [] => if N.eqb c cSL then ([c], b) else ([], c :: b)
      | _ :: _ => (c :: h, b)
      end
  end.

(** os.path.basename (cls_stash.py:195, 199, 207, 212, 279, 693, 722) *)
Definition basename (p : str) : str := snd (rsplit_slash p).

(** os.path.dirname (parser.py:340, cls_stash.py:586, 604, 608, 630, 791) *)
Definition dirname (p : str) : str :=
  let h := fst (rsplit_slash p) in
  if forallb (N.eqb cSL) h then h else rstrip_p (N.eqb cSL) h.

(** Split at the last dot of a slash-free name, [None] if there is none. (os.path.splitext, cls_stash.py:171, 279, 693.) *)
Fixpoint rsplit_dot (s : str) : option (str * str) :=
  match s with
  | [] => None
  | c :: t =>
      match rsplit_dot t with
      | Some (a, b) => Some (c :: a, b)
      | None => if N.eqb c cDOT then Some ([], s) else None
      end
  end.

(** os.path.splitext (cls_stash.py:171, 279, 282, 693, 722): leading dots of
    the base name do not start an extension. *)
Definition splitext (p : str) : str * str :=
  let '(h, b) := rsplit_slash p in
  match rsplit_dot b with
  | Some (a, e) => if forallb (N.eqb cDOT) a then (p, []) else (h ++ a, e)
  | None => (p, [])
  end.

(** os.path.join with two parts (parser.py:339, cls_stash.py:278, 609, 624) *)
Definition path_join (a b : str) : str :=
  if startswith [cSL] b then b
  else if negb (nonempty a) || endswith [cSL] a then a ++ b
  else a ++ [cSL] ++ b.

(** os.path.isabs (parser.py:277) *)
Definition isabs (p : str) : bool := startswith [cSL] p.

(** os.path.normpath, part of abspath (cls_stash.py:170, parser.py:278) *)
Fixpoint norm_comps (slashes : bool) (acc : list str) (l : list str) : list str :=
  match l with
  | [] => rev acc
  | x :: r =>
      if negb (nonempty x) || str_eqb x "." then norm_comps slashes acc r
      else if negb (str_eqb x "..") then norm_comps slashes (x :: acc) r
      else match acc with
           | [] => if slashes then norm_comps slashes acc r
                   else norm_comps slashes (x :: acc) r
           | y :: acc' => if str_eqb y ".." then norm_comps slashes (x :: acc) r
                          else norm_comps slashes acc' r
           end
  end.
(** Leading slashes in os.path.normpath (cls_stash.py:170). *)
Definition initial_slashes (p : str) : nat :=
  if startswith [cSL] p then
    if startswith [cSL; cSL] p && negb (startswith [cSL; cSL; cSL] p) then 2 else 1
  else 0.
(** os.path.normpath (cls_stash.py:170, parser.py:278). *)
Definition normpath (p : str) : str :=
  let n := initial_slashes p in
  let comps := norm_comps (Nat.ltb 0 n) [] (split_char cSL p) in
  let q := repeat cSL n ++ join [cSL] comps in
  match q with [] => "." | _ => q end.

(** os.path.abspath (cls_stash.py:170, parser.py:278) *)
Definition abspath (cwd p : str) : str :=
  normpath (if isabs p then p else path_join cwd p).

(** ** The file system

    What [open(path)] gives: the decoded text before newline translation, or
    one of the exceptions that the code tells apart (parser.py:230,
    cls_stash.py:803). *)
Inductive read_result :=
| RdText (s : str)
| RdNotFound      (* FileNotFoundError *)
| RdDenied        (* PermissionError, NotADirectoryError *)
| RdOther.        (* any other exception, e.g. IsADirectoryError, UnicodeDecodeError *)

(** File system and current directory (parser.py:203, cls_stash.py:278, 604-609,
    624-633, 801). *)
Record fs := MkFs {
  fs_read : str -> read_result;
  fs_exists : str -> bool;
  fs_isfile : str -> bool;
  fs_isdir : str -> bool;
  fs_glob : str -> list str;
  fs_cwd : str
}.

(** ** Layer search *)

(** The loop of GetLayerRoot (cls_stash.py:605-611); [None] if the loop is
    still running after [fuel] rounds. *)
Fixpoint layer_loop (fuel : nat) (w : fs) (cur : str) : option str :=
  match fuel with
  | O => None
  | S n =>
      if fs_isdir w cur then
        if str_eqb cur "/" then Some []
        else
          let up := dirname cur in
          if fs_exists w (path_join up "conf/layer.conf") then Some up
          else layer_loop n w up
      else Some []
  end.

(** GetLayerRoot without its cache (cls_stash.py:594-611). *)
Definition get_layer_root (fuel : nat) (w : fs) (name : str) : option str :=
  layer_loop fuel w (if fs_isfile w name then dirname name else name).

(** The loop of FindLocalOrLayer (cls_stash.py:627-636). *)
Fixpoint find_loop (fuel : nat) (w : fs) (name cur : str) : option str :=
  match fuel with
  | O => None
  | S n =>
      if fs_isdir w cur then
        if str_eqb cur "/" then Some []
        else
          let up := dirname cur in
          if fs_exists w (path_join up "conf/layer.conf") then
            if fs_exists w (path_join up name) then Some (path_join up name)
            else Some []
          else find_loop n w name up
      else Some []
  end.

(** FindLocalOrLayer without its cache (cls_stash.py:613-636). *)
Definition find_local_or_layer (fuel : nat) (w : fs) (name localdir : str) : option str :=
  if fs_exists w (path_join localdir name) then Some (path_join localdir name)
  else find_loop fuel w name localdir.
