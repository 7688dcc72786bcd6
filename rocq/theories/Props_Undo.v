(** * Properties C135 and C136: changes of constants, taken back and repeated *)

From Verif Require Import PyStr Res Const StrFacts Spec_Const ConstFacts Spec_Undo Proofs_Undo.

(** ** C135 *)

(** If entries are added to existing lists and none of them was there, then
    RemoveConstants with the same dictionary gives back the very database, the
    order of everything included.  Missing: entries that were there already, and
    new places; what is left then is said by [C135_left]. *)
Theorem C135_back_partial : forall db b, keys_once b -> keys_once db -> is_dict b -> new_entries b db ->
  exists db1, add_constants db b = (db1, None) /\ remove_constants db1 b = (db, None).
Proof. exact C135_back_lemma. Qed.
Print Assumptions C135_back_partial.

(** In general: lists lose the given entries also where they were there before, at
    new places an empty list stays, and everything else is as before. *)
Theorem C135_left : forall db b db1 db2, keys_once b -> add_constants db b = (db1, None) -> remove_constants db1 b = (db2, None) ->
  (forall p l old, at_path p b = Some (CList l) -> at_path p db = Some (CList old) ->
     at_path p db2 = Some (CList (filter (fun x => negb (mem_str x l)) old))) /\
  (forall p l, at_path p b = Some (CList l) -> at_path p db = None -> at_path p db2 = Some (CList [])) /\
  (forall p, apart p b -> at_path p db2 = at_path p db).
Proof. exact C135_left_lemma. Qed.
Print Assumptions C135_left.

Definition un_db : cval :=
  CDict [("functions", CDict [("known", CList ["do_a"]); ("order", CList ["do_a"; "do_b"])]); ("name", CStr "xyz")].
Definition un_new : cval := CDict [("functions", CDict [("order", CList ["do_c"; "do_c"]); ("known", CList [])])].
Ltac keys := cbn; repeat split; repeat constructor; cbn; intros H; repeat (destruct H as [H|H]; [discriminate H|]); exact H.
Example C135_case : keys_once un_new /\ keys_once un_db /\ is_dict un_new /\ new_entries un_new un_db /\
  fst (add_constants un_db un_new) <> un_db.
Proof.
  split; [keys|]. split; [keys|]. split; [eexists; reflexivity|]. split; [|vm_compute; discriminate].
  assert (P : forall p v, at_path p un_new = Some v ->
    (p = [] /\ v = un_new) \/ (p = ["functions"] /\ v = CDict [("order", CList ["do_c"; "do_c"]); ("known", CList [])]) \/
    (p = ["functions"; "order"] /\ v = CList ["do_c"; "do_c"]) \/ (p = ["functions"; "known"] /\ v = CList [])).
  { intros [|k p] v H; [injection H as <-; now left|]. cbn [at_path un_new dget] in H.
    destruct (str_eqb k "functions") eqn:E; [|discriminate]. apply str_eqb_eq in E. subst k. right.
    destruct p as [|k p]; [injection H as <-; now left|]. cbn [at_path dget] in H. right.
    destruct (str_eqb k "order") eqn:E.
    - apply str_eqb_eq in E. subst k. destruct p; [injection H as <-; now left|discriminate].
    - destruct (str_eqb k "known") eqn:E2; [|discriminate]. apply str_eqb_eq in E2. subst k.
      destruct p; [injection H as <-; now right|discriminate]. }
  split; [|split].
  - intros p l H. destruct (P p _ H) as [[-> K]|[[-> K]|[[-> K]|[-> K]]]]; try discriminate; injection K as ->.
    + eexists. split; [reflexivity|]. intros x [<-|[<-|[]]] [E|[E|[]]]; discriminate E.
    + eexists. split; [reflexivity|]. intros x [].
  - intros p s H. destruct (P p _ H) as [[_ K]|[[_ K]|[[_ K]|[_ K]]]]; discriminate.
  - intros p d H. destruct (P p _ H) as [[-> K]|[[-> K]|[[-> K]|[-> K]]]]; try discriminate; eexists; reflexivity.
Qed.

(** An entry that was there before is gone afterwards, although it was only added
    once more. *)
Theorem C135_refuted : exists db b db1 db2 p, keys_once b /\ keys_once db /\ add_constants db b = (db1, None) /\
  remove_constants db1 b = (db2, None) /\ at_path p db = Some (CList ["do_a"; "do_b"]) /\ at_path p db2 = Some (CList ["do_b"]).
Proof.
  exists un_db, (CDict [("functions", CDict [("order", CList ["do_a"])])]). eexists. eexists. exists ["functions"; "order"].
  split; [keys|]. split; [keys|]. repeat (split; [vm_compute; reflexivity|]). vm_compute. reflexivity.
Qed.
Print Assumptions C135_refuted.

(** ** C136 *)

(** Overriding with the same dictionary again, or removing it again, succeeds and
    changes nothing at all. *)
Theorem C136_override : forall db b db1, keys_once b -> keys_once db -> override_constants db b = (db1, None) ->
  override_constants db1 b = (db1, None).
Proof. exact override_again. Qed.
Print Assumptions C136_override.

Theorem C136_remove : forall db b db1, keys_once b -> keys_once db -> remove_constants db b = (db1, None) ->
  remove_constants db1 b = (db1, None).
Proof. exact remove_again. Qed.
Print Assumptions C136_remove.

Example C136_case :
  let b := CDict [("functions", CDict [("order", CList ["do_b"])]); ("name", CStr "x"); ("new", CDict [("a", CStr "b")])] in
  keys_once b /\ keys_once un_db /\
  override_constants un_db b =
    (CDict [("functions", CDict [("known", CList ["do_a"]); ("order", CList ["do_b"])]); ("name", CStr "x"); ("new", CDict [("a", CStr "b")])], None) /\
  remove_constants un_db b =
    (CDict [("functions", CDict [("known", CList ["do_a"]); ("order", CList ["do_a"])]); ("name", CList ["y"; "z"])], None).
Proof. split; [keys|]. split; [keys|]. split; vm_compute; reflexivity. Qed.
