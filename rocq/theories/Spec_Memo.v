(** * Lookups of files: specification *)

From Verif Require Import PyStr PyPath Cache Memo.

(** The file system after some events. *)
Fixpoint world (l : list event) (w : fs) : fs :=
  match l with [] => w | Changes w' :: r => world r w' | _ :: r => world r w end.

(** The calls. *)
Fixpoint asks (l : list event) : list lookup_call :=
  match l with [] => [] | Asks q :: r => q :: asks r | _ :: r => asks r end.

(** [q] is asked for the first time after [a]. *)
Definition first_after (l a : list event) (q : lookup_call) : Prop :=
  (exists b, l = a ++ Asks q :: b) /\ ~ In q (asks a).
