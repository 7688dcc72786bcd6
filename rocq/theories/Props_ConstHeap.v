(** * Theorems about the sharing of constants *)

From Verif Require Import PyStr Res Const ConstHeap StrFacts Spec_Const ConstFacts Spec_ConstHeap Proofs_ConstHeap.

(** ** C56 *)

(** A call of AddConstants with a dictionary that shares no object with the
    database changes no object but those of the database, so the dictionary
    reads the same when the call is over, and gives the database that the
    merge of values gives. *)
Theorem C56_call : forall n h a b db dict A B,
  reads h (RPtr a) db A -> is_dict db -> reads h (RPtr b) dict B -> is_dict dict -> keys_once dict ->
  NoDup A -> NoDup B -> separate A B -> nesting dict <= n ->
  exists h' A', fst (h_add n a b h) = match snd (add_constants db dict) with None => Ok tt | Some e => Raise e end /\
    snd (h_add n a b h) = h' /\
    reads h' (RPtr a) (fst (add_constants db dict)) A' /\ reads h' (RPtr b) dict B /\
    forall x, ~ In x A -> h' x = h x.
Proof. exact C56_call_lemma. Qed.
Print Assumptions C56_call.

(** Any number of calls with dictionaries that give no new path: afterwards
    every dictionary reads as before, and no change of objects outside the
    original database changes the constants.  Missing: dictionaries that give
    new paths, for which the claim is false (C56_refuted). *)
Theorem C56_separate_partial : forall n bs ds h a db A, reads h (RPtr a) db A -> is_dict db -> NoDup A ->
  Forall2 (given n h db A) bs ds ->
  forall h', h_adds n a bs h = (Ok tt, h') ->
  Forall2 (fun b d => exists B, reads h' (RPtr b) d B) bs ds /\
  forall h'', (forall x, In x A -> h'' x = h' x) -> exists A', reads h'' (RPtr a) (added db ds) A'.
Proof. exact C56_separate_lemma. Qed.
Print Assumptions C56_separate_partial.

(** A database with a list and a string in a nested dictionary, and the
    caller's dictionary with more members for the list, added twice. *)
Definition ch_db : cval := CDict [("f", CDict [("known", CList ["a"]); ("s", CStr "x")])].
Definition ch_dict : cval := CDict [("f", CDict [("known", CList ["b"])])].
Definition ch_heap : heap := fun p => nth p
  [Some (NDict [("f", RPtr 1)]); Some (NDict [("known", RPtr 2); ("s", RStr "x")]); Some (NList ["a"]);
   Some (NDict [("f", RPtr 4)]); Some (NDict [("known", RPtr 5)]); Some (NList ["b"])] None.

Lemma ch_reads_db : reads ch_heap (RPtr 0) ch_db [0; 1; 2].
Proof.
  apply reads_dict with [("f", RPtr 1)]; [reflexivity|]. apply (reads_more _ "f" (RPtr 1) _ [1; 2] [] [] []); [|constructor].
  apply reads_dict with [("known", RPtr 2); ("s", RStr "x")]; [reflexivity|].
  apply (reads_more _ "known" (RPtr 2) _ [2] _ _ []); [now constructor|].
  apply (reads_more _ "s" (RStr "x") _ [] [] [] []); constructor.
Qed.
Lemma ch_reads_dict : reads ch_heap (RPtr 3) ch_dict [3; 4; 5].
Proof.
  apply reads_dict with [("f", RPtr 4)]; [reflexivity|]. apply (reads_more _ "f" (RPtr 4) _ [4; 5] [] [] []); [|constructor].
  apply reads_dict with [("known", RPtr 5)]; [reflexivity|].
  apply (reads_more _ "known" (RPtr 5) _ [5] [] [] []); now constructor.
Qed.
Lemma ch_given : given 2 ch_heap ch_db [0; 1; 2] 3 ch_dict.
Proof.
  exists [3; 4; 5]. split; [exact ch_reads_dict|]. split; [eexists; reflexivity|].
  split; [repeat constructor; intros []|]. split; [repeat constructor; simpl; intuition discriminate|].
  split; [intros x; simpl; intuition (subst; discriminate)|]. split; [apply Nat.le_refl|].
  apply new_out. intros k v [E|[]]. injection E as <- <-. eexists. split; [reflexivity|].
  apply new_out. intros k v [E|[]]. injection E as <- <-. eexists. split; [reflexivity|].
  intros [|k p] x H; [eexists; reflexivity|discriminate H].
Qed.
Example C56_case : exists h', h_adds 2 0 [3; 3] ch_heap = (Ok tt, h') /\
  Forall2 (given 2 ch_heap ch_db [0; 1; 2]) [3; 3] [ch_dict; ch_dict] /\
  added ch_db [ch_dict; ch_dict] = CDict [("f", CDict [("known", CList ["a"; "b"; "b"]); ("s", CStr "x")])].
Proof.
  eexists. split; [reflexivity|]. split; [|reflexivity]. constructor; [exact ch_given|]. constructor; [exact ch_given|constructor].
Qed.

(** With a new path the database keeps the caller's list itself: a second call
    with another dictionary changes the first dictionary, and a change that
    the caller makes to the list changes the constants. *)
Theorem C56_refuted : exists h a b c db d1 d2 A B C,
  reads h (RPtr a) db A /\ reads h (RPtr b) d1 B /\ reads h (RPtr c) d2 C /\ NoDup (A ++ B ++ C) /\
  (exists h2 d1' B', h_adds 1 a [b; c] h = (Ok tt, h2) /\ reads h2 (RPtr b) d1' B' /\ d1' <> d1) /\
  (exists h1 p l db1 A1 db2 A2, h_adds 1 a [b] h = (Ok tt, h1) /\ In p B /\
     reads h1 (RPtr a) db1 A1 /\ reads (put p (NList l) h1) (RPtr a) db2 A2 /\ db2 <> db1).
Proof.
  exists (fun p => nth p [Some (NDict []); Some (NDict [("k", RPtr 2)]); Some (NList ["x"]);
                          Some (NDict [("k", RPtr 4)]); Some (NList ["y"])] None), 0, 1, 3,
    (CDict []), (CDict [("k", CList ["x"])]), (CDict [("k", CList ["y"])]), [0], [1; 2], [3; 4].
  assert (R : forall (h : heap) p q l, h p = Some (NDict [("k", RPtr q)]) -> h q = Some (NList l) ->
    reads h (RPtr p) (CDict [("k", CList l)]) [p; q]).
  { intros h p q l H1 H2. apply reads_dict with [("k", RPtr q)]; [exact H1|].
    apply (reads_more _ "k" (RPtr q) _ [q] [] [] []); [now constructor|constructor]. }
  split; [apply reads_dict with []; [reflexivity|constructor]|]. split; [now apply R|]. split; [now apply R|].
  split; [repeat constructor; simpl; intuition discriminate|]. split.
  - eexists. exists (CDict [("k", CList ["x"; "y"])]), [1; 2].
    split; [reflexivity|]. split; [now apply R|discriminate].
  - eexists. exists 2, ["z"], (CDict [("k", CList ["x"])]), [0; 2], (CDict [("k", CList ["z"])]), [0; 2].
    split; [reflexivity|]. split; [simpl; auto|]. split; [now apply R|]. split; [now apply R|discriminate].
Qed.
Print Assumptions C56_refuted.
