(** * Theorems about changes of the constants in any order *)

From Coq Require Import Permutation.
From Verif Require Import PyStr Res Const Spec_Const Proofs_Const Props_Const Spec_Swap Proofs_Swap.

(** ** C138 *)

(** AddConstants in any order: every list has the same entries behind the old
    ones, equally often. *)
Theorem C138_add : forall db bs bs' db1 db2 p old, calls add_constants db bs db1 -> calls add_constants db bs' db2 ->
  Permutation bs bs' -> Forall keys_once bs -> lists db p old -> Forall (fun b => exists l, gives b p l) bs ->
  exists l1 l2, lists db1 p (old ++ l1) /\ lists db2 p (old ++ l2) /\ Permutation l1 l2.
Proof. exact C138_add_lemma. Qed.
Print Assumptions C138_add.

(** RemoveConstants in any order: every list is the same. *)
Theorem C138_remove : forall db bs bs' db1 db2 p old, calls remove_constants db bs db1 -> calls remove_constants db bs' db2 ->
  Permutation bs bs' -> Forall keys_once bs -> lists db p old -> Forall (fun b => exists l, gives b p l) bs ->
  exists l, lists db1 p l /\ lists db2 p l.
Proof. exact C138_remove_lemma. Qed.
Print Assumptions C138_remove.

(** One of each in either order: the same if nothing is both added and removed. *)
Theorem C138_mixed : forall db b b' db1 db12 db2 db21 p old l l', keys_once b -> keys_once b' ->
  add_constants db b = (db1, None) -> remove_constants db1 b' = (db12, None) ->
  remove_constants db b' = (db2, None) -> add_constants db2 b = (db21, None) ->
  lists db p old -> gives b p l -> gives b' p l' -> (forall x, In x l -> ~ In x l') ->
  exists r, lists db12 p r /\ lists db21 p r.
Proof. exact C138_mixed_lemma. Qed.
Print Assumptions C138_mixed.

Definition s_fun (l : list str) : cval := CDict [("functions", CDict [("known", CList l)])].
Definition s_dis (l : list str) : cval := CDict [("replacements", CDict [("distros", CList l)])].
Definition s_path : list str := ["functions"; "known"].
Lemma s_once : forall l, keys_once (s_fun l) /\ keys_once (s_dis l).
Proof.
  intro l. cbn. repeat split; repeat constructor; intros [].
Qed.
Lemma s_gives : forall l, gives (s_fun l) s_path l /\ gives (s_dis l) s_path [].
Proof.
  intro l. split; [left; reflexivity|]. right. split; [|reflexivity]. split; [reflexivity|].
  intros q r v E H. destruct q as [|a q]; [injection H as <-; eexists; reflexivity|].
  injection E as <- _. cbn in H. discriminate.
Qed.

Example C138_case :
  let bs := [s_fun ["x"; "do_b"]; s_dis ["d"]; s_fun ["y"]] in
  let bs' := [s_fun ["y"]; s_fun ["x"; "do_b"]; s_dis ["d"]] in
  (exists db1, calls add_constants c_db bs db1) /\ (exists db2, calls add_constants c_db bs' db2) /\
  (exists db1, calls remove_constants c_db bs db1) /\ (exists db2, calls remove_constants c_db bs' db2) /\
  Permutation bs bs' /\ Forall keys_once bs /\ lists c_db s_path ["do_a"; "do_b"] /\
  Forall (fun b => exists l, gives b s_path l) bs.
Proof.
  cbv zeta. assert (A : forall f db b1 b2 b3, snd (f db b1) = None -> snd (f (fst (f db b1)) b2) = None ->
    snd (f (fst (f (fst (f db b1)) b2)) b3) = None -> exists db', calls f db [b1; b2; b3] db').
  { intros f db b1 b2 b3 H1 H2 H3. eexists.
    eapply calls_more; [rewrite <- H1; apply surjective_pairing|].
    eapply calls_more; [rewrite <- H2; apply surjective_pairing|].
    eapply calls_more; [rewrite <- H3; apply surjective_pairing|]. apply calls_none. }
  split; [apply A; vm_compute; reflexivity|]. split; [apply A; vm_compute; reflexivity|].
  split; [apply A; vm_compute; reflexivity|]. split; [apply A; vm_compute; reflexivity|].
  split. { apply (Permutation_app_comm [s_fun ["x"; "do_b"]; s_dis ["d"]] [s_fun ["y"]]). }
  split. { constructor; [apply s_once|]. constructor; [apply s_once|]. constructor; [apply s_once|constructor]. }
  split; [vm_compute; reflexivity|].
  constructor; [eexists; apply s_gives|]. constructor; [exists []; apply s_gives; exact []|]. constructor; [eexists; apply s_gives|constructor].
Qed.

(** The list is then not the old one in either case. *)
Example C138_mixed_case : exists db1 db12 db2 db21,
  keys_once (s_fun ["x"]) /\ keys_once (s_fun ["do_a"]) /\
  add_constants c_db (s_fun ["x"]) = (db1, None) /\ remove_constants db1 (s_fun ["do_a"]) = (db12, None) /\
  remove_constants c_db (s_fun ["do_a"]) = (db2, None) /\ add_constants db2 (s_fun ["x"]) = (db21, None) /\
  lists c_db s_path ["do_a"; "do_b"] /\ gives (s_fun ["x"]) s_path ["x"] /\ gives (s_fun ["do_a"]) s_path ["do_a"] /\
  (forall x, In x ["x"] -> ~ In x ["do_a"]) /\ lists db12 s_path ["do_b"; "x"].
Proof.
  do 4 eexists. split; [apply s_once|]. split; [apply s_once|]. split; [vm_compute; reflexivity|]. split; [vm_compute; reflexivity|].
  split; [vm_compute; reflexivity|]. split; [vm_compute; reflexivity|]. split; [vm_compute; reflexivity|].
  split; [apply s_gives|]. split; [apply s_gives|].
  split; [intros x [<-|[]] [E|[]]; discriminate E|]. vm_compute. reflexivity.
Qed.

(** With an entry that is both added and removed the order matters. *)
Example C138_needed : exists db b b' db1 db12 db2 db21 l l',
  add_constants db b = (db1, None) /\ remove_constants db1 b' = (db12, None) /\
  remove_constants db b' = (db2, None) /\ add_constants db2 b = (db21, None) /\
  lists db12 s_path l /\ lists db21 s_path l' /\ l <> l'.
Proof.
  exists c_db, (s_fun ["do_a"]), (s_fun ["do_a"]). do 6 eexists.
  do 6 (split; [vm_compute; reflexivity|]). discriminate.
Qed.
