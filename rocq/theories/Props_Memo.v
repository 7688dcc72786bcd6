(** * Theorems about lookups of files while the file system changes *)

From Verif Require Import PyStr PyPath Cache Memo Spec_Memo Proofs_Memo Demo.

(** ** C116 *)

(** The answer is the one of the first call with the same arguments on the same
    stash.  Missing is that it is the one for the present files, which is false
    if they have changed since, see [C116_refuted]. *)
Theorem C116_first_partial : forall w l a q b p, l = a ++ Asks q :: b ->
  nth_error (lookups l w []) (length (asks a)) = Some p ->
  exists c, first_after l c q /\ p = body (world c w) q.
Proof. exact C116_first_lemma. Qed.
Print Assumptions C116_first_partial.

(** As long as the files stay as they are, every answer is the one for them. *)
Theorem C116_same_partial : forall w l, (forall w', ~ In (Changes w') l) -> (forall q, In q (asks l) -> body w q <> None) ->
  lookups l w [] = map (body w) (asks l).
Proof. exact C116_same_lemma. Qed.
Print Assumptions C116_same_partial.

(** A layer, and the same one with another include and another layer inside. *)
Definition me_fs : fs := demo_fs [("/l/conf/layer.conf", ""); ("/l/a.inc", "")] ["/"; "/l"; "/l/r"; "/l/r/x"] [].
Definition me_fs2 : fs := demo_fs [("/l/conf/layer.conf", ""); ("/l/a.inc", ""); ("/l/r/a.inc", ""); ("/l/r/conf/layer.conf", "")]
  ["/"; "/l"; "/l/r"; "/l/r/x"] [].
Definition me_find (o : nat) : event := Asks (QFind o "a.inc" "/l/r").
Definition me_root (o : nat) : event := Asks (QRoot o "/l/r/x").
Definition me_l : list event :=
  [me_find 0; Changes me_fs2; me_find 0; me_root 0; Clears 0; me_find 1; Changes me_fs; me_root 0; me_root 1].
Example C116_case :
  lookups me_l me_fs [] = [Some ("/l/a.inc" : str); Some ("/l/a.inc" : str); Some ("/l/r" : str); Some ("/l/r/a.inc" : str); Some ("/l/r" : str); Some ("/l" : str)] /\
  (let l := [me_find 0; me_root 0; Clears 0; me_find 0; me_find 1] in
   (forall w', ~ In (Changes w') l) /\ forall q, In q (asks l) -> body me_fs q <> None).
Proof.
  split; [vm_compute; reflexivity|]. cbv zeta. split.
  - intros w' H. repeat (destruct H as [H|H]; [discriminate H|]). exact H.
  - intros q H. repeat (destruct H as [<-|H]; [vm_compute; discriminate|]). destruct H.
Qed.

(** A file that is there is not found, and one that is gone is still found, also
    after the stash has cleared its tables. *)
Theorem C116_refuted : exists w w' q p, body w q = Some [] /\ body w' q = Some p /\ p <> [] /\
  forall o, lookups [Asks q; Changes w'; Clears o; Asks q] w [] = [Some []; Some []] /\
            lookups [Asks q; Changes w; Clears o; Asks q] w' [] = [Some p; Some p].
Proof.
  exists (demo_fs [] ["/"; "/l"] []), (demo_fs [("/l/a.inc", "")] ["/"; "/l"] []), (QFind 0 "a.inc" "/l"), "/l/a.inc".
  split; [vm_compute; reflexivity|]. split; [vm_compute; reflexivity|]. split; [discriminate|].
  intro o. split; vm_compute; reflexivity.
Qed.
Print Assumptions C116_refuted.
