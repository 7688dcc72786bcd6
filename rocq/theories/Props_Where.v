(** * Property C110: a file is where it lies, however its path is written *)

From Verif Require Import PyStr PyPath Res Const Item Lines Stash Demo Spec_Parse Props_Lines Spec_Where Proofs_Where.

(** Every path leads to exactly one place. *)
Theorem C110_lies : forall cwd p, Forall entry_name cwd -> exists d, lies cwd p d /\ Forall entry_name d /\
  forall d', lies cwd p d' -> d' = d.
Proof. exact C110_lies_lemma. Qed.
Print Assumptions C110_lies.

(** AddFile does the same for all paths to one place.  Full statement: without
    [one_root], which is false (C110_refuted). *)
Theorem C110_same_partial : forall e cwd p q d, current (e_fs e) cwd -> one_root p -> one_root q -> lies cwd p d -> lies cwd q d ->
  forall n off forced s, add_file n e p off forced s = add_file n e q off forced s.
Proof. exact C110_same_lemma. Qed.
Print Assumptions C110_same_partial.

(** The Origin of items is the path of the place, so it is the same for the same
    place and different for different ones. *)
Theorem C110_place_partial : forall e cwd path d n off forced s l s' i, current (e_fs e) cwd -> one_root path -> lies cwd path d ->
  add_file n e path off forced s = (Ok l, s') -> In i l -> it_origin i = place d.
Proof. exact C110_items_lemma. Qed.
Print Assumptions C110_place_partial.

Theorem C110_apart_partial : forall w cwd p q d d', current w cwd -> one_root p -> one_root q -> lies cwd p d -> lies cwd q d' ->
  (abspath (fs_cwd w) p = abspath (fs_cwd w) q <-> d = d').
Proof. exact C110_apart_lemma. Qed.
Print Assumptions C110_apart_partial.

(** Every item, also of included files, has an Origin without empty parts and
    without dots, but for a second slash in front. *)
Theorem C110_origin : forall e cwd i, current (e_fs e) cwd -> parsed_item e i -> exists d, Forall entry_name d /\
  (it_origin i = place d \/ it_origin i = "/" ++ place d).
Proof. exact C110_origin_lemma. Qed.
Print Assumptions C110_origin.

Definition w_text : str := "A = ""1""" ++ nl ++ "require ../b/./c.inc" ++ nl.
Definition w_env : env := demo_env [("/w/a/x.bb", w_text); ("//w/a/x.bb", w_text); ("/w/a/../b/./c.inc", "B = ""2""" ++ nl); ("/w/b/c.inc", "B = ""2""" ++ nl)] ["/w"; "/"].
Notation w_run p := (add_file 3 w_env p 0 None demo_stash).

Lemma w_name : forall x, In x (["w"; "a"; "x.bb"; "b"; "c.inc"] : list str) -> entry_name x.
Proof.
  intros x H. repeat (destruct H as [<-|H]; [split; [discriminate|]; split; [discriminate|]; split; [discriminate|];
    intro X; repeat (destruct X as [X|X]; [discriminate X|]); destruct X|]). destruct H.
Qed.
Ltac w_walk := repeat first [ apply walk_here | apply walk_stay; [now (left + right)|] | apply walk_up | apply walk_top
  | apply walk_down; [apply w_name; cbn [In]; tauto|] ].
Ltac w_pieces := split; [discriminate|]; split; [reflexivity|];
  let x := fresh in let H := fresh in let X := fresh in intros x H;
    repeat (destruct H as [<-|H]; [intro X; repeat (destruct X as [X|X]; [discriminate X|]); destruct X|]); destruct H.
Lemma w_current : current (e_fs w_env) ["w"].
Proof. split; [reflexivity|]. constructor; [apply w_name; now left|constructor]. Qed.

Example C110_case : current (e_fs w_env) ["w"] /\ one_root "b//.././a/x.bb" /\ one_root "///w/a/x.bb" /\
  lies ["w"] "b//.././a/x.bb" ["x.bb"; "a"; "w"] /\ lies ["w"] "/.././w/a/x.bb" ["x.bb"; "a"; "w"] /\
  map it_origin (ok_items (w_run "b//.././a/x.bb")) = ["/w/a/x.bb"; "/w/a/x.bb"] /\
  map it_origin (ok_items (w_run "/.././w/a/x.bb")) = ["/w/a/x.bb"; "/w/a/x.bb"] /\
  map it_origin (st_list (snd (w_run "a/x.bb"))) = ["/w/b/c.inc"; "/w/a/x.bb"; "/w/a/x.bb"].
Proof.
  split; [exact w_current|]. split; [intros q E; discriminate E|]. split; [intros q E; injection E as <-; now eexists|].
  split.
  { apply (lies_relative _ _ ["b"; ""; ".."; "."; "a"; "x.bb"]); [discriminate|w_pieces|w_walk]. }
  split.
  { apply (lies_absolute _ ".././w/a/x.bb" [""; ".."; "."; "w"; "a"; "x.bb"]); [w_pieces|w_walk]. }
  repeat split; vm_compute; reflexivity.
Qed.

(** Two slashes in front make another file of the same place. *)
Theorem C110_refuted : exists e cwd p q d s, current (e_fs e) cwd /\ lies cwd p d /\ lies cwd q d /\
  forall n off forced l s' l' s'' i j, add_file n e p off forced s = (Ok l, s') -> add_file n e q off forced s = (Ok l', s'') ->
    In i l -> In j l' -> it_origin i <> it_origin j.
Proof.
  exists w_env, ["w"], "/w/a/x.bb", "//w/a/x.bb", ["x.bb"; "a"; "w"], demo_stash.
  split; [exact w_current|]. split; [apply (lies_absolute _ "w/a/x.bb" [""; "w"; "a"; "x.bb"]); [w_pieces|w_walk]|].
  split; [apply (lies_absolute _ "/w/a/x.bb" [""; ""; "w"; "a"; "x.bb"]); [w_pieces|w_walk]|].
  intros n off forced l s' l' s'' i j H H' Hi Hj.
  rewrite (C110_items_origin _ _ _ _ _ _ _ _ _ H Hi), (C110_items_origin _ _ _ _ _ _ _ _ _ H' Hj). vm_compute. discriminate.
Qed.
Print Assumptions C110_refuted.
Example C110_refuted_case : is_ok (fst (w_run "/w/a/x.bb")) = true /\ is_ok (fst (w_run "//w/a/x.bb")) = true /\
  length (ok_items (w_run "/w/a/x.bb")) = 2 /\ length (ok_items (w_run "//w/a/x.bb")) = 2.
Proof. repeat split; vm_compute; reflexivity. Qed.
