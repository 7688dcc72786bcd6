(** * Theorems about what stands in front of statements and behind them *)

From Verif Require Import PyStr Regex UniTable Patterns PyPath Res Inline Const Item Lines Stash
  StrFacts Demo ReachFacts Props_Lines Spec_Parse Spec_Group Proofs_Group Props_Group Props_Swallow Spec_Alike Spec_Front Proofs_Front.

(** ** C139 *)

(** A text with further statements in front is read as these and then as the
    text alone, only further down; in whatever files, stashes and file systems. *)
Theorem C139_front : forall n e path off forced s l s' t n' e' path' off' forced' r l2 r' t2 gs,
  add_file n e path off forced s = (Ok l, s') -> considered e path s -> fs_read (e_fs e) (file_of e path) = RdText t ->
  add_file n' e' path' off' forced' r = (Ok l2, r') -> considered e' path' r -> fs_read (e_fs e') (file_of e' path') = RdText t2 ->
  filled e s -> filled e' r -> st_neg s = st_neg r ->
  taken (readlines (universal_newlines t)) gs (readlines (universal_newlines t2)) ->
  exists l1 l3, l = l1 ++ l3 /\ map it_realraw l1 = map (@concat N) gs /\ Forall2 (moved (newlines (concat (concat gs)))) l3 l2.
Proof. exact C139_lemma. Qed.
Print Assumptions C139_front.

(** What two texts begin with is read the same, whatever is behind it. *)
Theorem C139_behind : forall n e path off forced s l s' t n' e' path' off' forced' r l' r' t' gs u u',
  add_file n e path off forced s = (Ok l, s') -> considered e path s -> fs_read (e_fs e) (file_of e path) = RdText t ->
  add_file n' e' path' off' forced' r = (Ok l', r') -> considered e' path' r -> fs_read (e_fs e') (file_of e' path') = RdText t' ->
  filled e s -> filled e' r -> st_neg s = st_neg r ->
  taken (readlines (universal_newlines t)) gs u -> taken (readlines (universal_newlines t')) gs u' ->
  exists l1 l2 l1' l2', l = l1 ++ l2 /\ l' = l1' ++ l2' /\ map it_realraw l1 = map (@concat N) gs /\ Forall2 (moved 0) l1 l1'.
Proof. exact C139_behind_lemma. Qed.
Print Assumptions C139_behind.

(** The assignment of [sw_v] in front of the function of [sw_f] and the rest. *)
Definition fr_t2 : str := sw_f ++ sw_rest.
Definition fr_t : str := sw_v ++ fr_t2.
Notation fr_run := (sw_run fr_t).
Notation fr_run2 := (sw_run fr_t2).
Example C139_case :
  fr_run = (Ok (ok_items fr_run), snd fr_run) /\ considered (sw_env fr_t) "/w/a.bb" demo_stash /\
  fs_read (e_fs (sw_env fr_t)) (file_of (sw_env fr_t) "/w/a.bb") = RdText fr_t /\
  fr_run2 = (Ok (ok_items fr_run2), snd fr_run2) /\ considered (sw_env fr_t2) "/w/a.bb" demo_stash /\
  fs_read (e_fs (sw_env fr_t2)) (file_of (sw_env fr_t2) "/w/a.bb") = RdText fr_t2 /\
  filled (sw_env fr_t) demo_stash /\ filled (sw_env fr_t2) demo_stash /\
  taken (readlines (universal_newlines fr_t)) [[sw_v]] (readlines (universal_newlines fr_t2)) /\
  newlines (concat (concat [[sw_v]])) = 1%Z /\ ok_items fr_run2 <> [].
Proof.
  split; [vm_compute; reflexivity|]. split; [apply sw_considered|]. split; [vm_compute; reflexivity|].
  split; [vm_compute; reflexivity|]. split; [apply sw_considered|]. split; [vm_compute; reflexivity|].
  split; [apply filled_new|]. split; [apply filled_new|]. split; [|split; [vm_compute; reflexivity|]].
  - destruct C118_case as (_ & _ & h & m & _ & _ & _ & _ & _ & V1 & V2 & V3 & V4).
    change (readlines (universal_newlines fr_t)) with (sw_v :: readlines (universal_newlines fr_t2)).
    apply (taken_more _ [sw_v] (readlines (universal_newlines fr_t2))); [exact (block_line sw_v _ V1 V2 V3 V4)|apply taken_none].
  - intro H. apply (f_equal (@length item)) in H. vm_compute in H. discriminate.
Qed.

Example C139_behind_case :
  sw_run sw_v = (Ok (ok_items (sw_run sw_v)), snd (sw_run sw_v)) /\ considered (sw_env sw_v) "/w/a.bb" demo_stash /\
  fs_read (e_fs (sw_env sw_v)) (file_of (sw_env sw_v) "/w/a.bb") = RdText sw_v /\ filled (sw_env sw_v) demo_stash /\
  taken (readlines (universal_newlines sw_v)) [[sw_v]] [] /\
  taken (readlines (universal_newlines fr_t)) [[sw_v]] (readlines (universal_newlines fr_t2)) /\
  readlines (universal_newlines fr_t2) <> [].
Proof.
  destruct C139_case as (_ & _ & _ & _ & _ & _ & _ & _ & T & _).
  destruct C118_case as (_ & _ & h & m & _ & _ & _ & _ & _ & V1 & V2 & V3 & V4).
  split; [vm_compute; reflexivity|]. split; [apply sw_considered|]. split; [vm_compute; reflexivity|].
  split; [apply filled_new|]. split; [|split; [exact T|discriminate]].
  change (readlines (universal_newlines sw_v)) with [sw_v].
  apply (taken_more _ [sw_v] []); [exact (block_line sw_v _ V1 V2 V3 V4)|apply taken_none].
Qed.
