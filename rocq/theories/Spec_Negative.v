(** * What negative_inline has an effect on: specification *)

From Verif Require Import PyStr PyPath Item Stash.

(** The helpers of inline code that the parser knows, those of bb.utils and of
    oe.utils, occur nowhere in the text. *)
Definition without_helpers (t : str) : Prop := forall a b, t <> a ++ ".utils." ++ b.
Definition no_helpers (e : env) : Prop := forall p t, fs_read (e_fs e) p = RdText t -> without_helpers t.

(** Two stashes that differ in the switch and in the begin of the text that the
    fingerprint is computed from. *)
Definition differ_in_switch (g g' : list str) (s s' : stash) : Prop :=
  st_list s' = st_list s /\ st_seen s' = st_seen s /\ st_seenc s' = st_seenc s /\ st_map s' = st_map s /\
  st_new s' = st_new s /\ st_const s' = st_const s /\ st_next s' = st_next s /\
  exists l, st_fp s = g ++ l /\ st_fp s' = g' ++ l.

(** Adding one file after the other, whatever comes of it. *)
Definition add_all (n : nat) (e : env) (ps : list str) (s : stash) : stash :=
  fold_left (fun s p => snd (add_file n e p 0 None s)) ps s.
