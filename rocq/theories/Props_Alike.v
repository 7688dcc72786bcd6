(** * Theorems about two readings of one statement *)

From Verif Require Import PyStr Regex UniTable Patterns PyPath Res Inline Const Item Lines Stash
  StrFacts Demo ReachFacts Spec_Parse Spec_Inline Proofs_Inline Spec_Alike Proofs_Alike.

(** ** C137 *)

(** Items with the same RealRaw have the same Raw and the same inline blocks,
    whatever the files, the stashes and the rest of the world. *)
Theorem C137_text : forall e e' neg i j, parsed_with e neg i -> parsed_with e' neg j -> it_realraw i = it_realraw j ->
  it_raw i = it_raw j /\ it_blocks i = it_blocks j.
Proof. exact C137_text_lemma. Qed.
Print Assumptions C137_text.

(** And with the same override syntax they are of the same kind and say the
    same, unless one of them is an include that the other stash ignores. *)
Theorem C137_same : forall e e' neg i j, parsed_with e neg i -> parsed_with e' neg j -> it_realraw i = it_realraw j ->
  it_new i = it_new j -> (an_include i <-> an_include j) -> alike (it_pay i) (it_pay j).
Proof. exact C137_lemma. Qed.
Print Assumptions C137_same.

(** The line of the example behind other statements in one file, and first in
    another one, in a world with other files and constants. *)
Definition al_line : str := "A:append = ""${@bb.utils.contains('M', 'f', 'y', 'n', d)} ${B}""" ++ nl.
Definition al_func : str := "do_x () {" ++ nl ++ "  :" ++ nl ++ "}" ++ nl.
Definition al_e1 : env := demo_env [("/w/a.bb", "# c" ++ nl ++ "B = ""1""" ++ nl ++ al_line ++ al_func)] [].
Definition al_e2 : env := demo_env [("/w/b.conf", al_line ++ al_func ++ "inherit k" ++ nl); ("/w/classes/k.bbclass", "C = ""2""" ++ nl)] ["/w"].
Definition al_db : cval := CDict [("functions", CDict [("known", CList ["do"])])].
Notation al_run1 := (add_file 2 al_e1 "/w/a.bb" 0 None (new_stash false false no_const)).
Notation al_run2 := (add_file 2 al_e2 "/w/b.conf" 9 None (new_stash true false al_db)).
Definition al_dflt : item := MkItem 0 0 0 [] [] [] [] [] false PItem.
Definition al_i (k : nat) : item := nth k (st_list (snd al_run1)) al_dflt.
Definition al_j (k : nat) : item := nth k (st_list (snd al_run2)) al_dflt.

Lemma al_parsed1 : forall k, k < 4 -> parsed_with al_e1 false (al_i k).
Proof.
  intros k Hk. exists (snd al_run1).
  pose proof (filled_add al_e1 2 "/w/a.bb" 0 None (new_stash false false no_const) (fst al_run1) (snd al_run1)
    (filled_new al_e1 _ _ _) (surjective_pairing al_run1)) as Hf.
  split; [exact Hf|]. split; [vm_compute; reflexivity|].
  unfold al_i. apply nth_In. assert (L : length (st_list (snd al_run1)) = 4) by (vm_compute; reflexivity). rewrite L. exact Hk.
Qed.
Lemma al_parsed2 : forall k, k < 3 -> parsed_with al_e2 false (al_j k).
Proof.
  intros k Hk. exists (snd al_run2).
  pose proof (filled_add al_e2 2 "/w/b.conf" 9 None (new_stash true false al_db) (fst al_run2) (snd al_run2)
    (filled_new al_e2 _ _ _) (surjective_pairing al_run2)) as Hf.
  split; [exact Hf|]. split; [vm_compute; reflexivity|].
  unfold al_j. apply nth_In. assert (L : length (st_list (snd al_run2)) = 4) by (vm_compute; reflexivity). rewrite L. lia.
Qed.
Lemma al_not : forall i, match it_pay i with PInclude _ _ _ => false | _ => true end = true -> ~ an_include i.
Proof. intros i H (a & b & c & E). rewrite E in H. discriminate. Qed.

Example C137_case :
  (parsed_with al_e1 false (al_i 2) /\ parsed_with al_e2 false (al_j 1) /\ it_realraw (al_i 2) = it_realraw (al_j 1) /\
   it_new (al_i 2) = it_new (al_j 1) /\ (an_include (al_i 2) <-> an_include (al_j 1)) /\
   it_realraw (al_i 2) = al_line /\ it_raw (al_i 2) <> al_line) /\
  (parsed_with al_e1 false (al_i 3) /\ parsed_with al_e2 false (al_j 2) /\ it_realraw (al_i 3) = it_realraw (al_j 2) /\
   it_new (al_i 3) = it_new (al_j 2) /\ (an_include (al_i 3) <-> an_include (al_j 2)) /\
   it_realraw (al_i 3) = al_func).
Proof.
  assert (NI : forall i j, ~ an_include i -> ~ an_include j -> (an_include i <-> an_include j)) by tauto.
  split.
  - split; [apply al_parsed1; lia|]. split; [apply al_parsed2; lia|]. split; [vm_compute; reflexivity|].
    split; [vm_compute; reflexivity|]. split; [apply NI; apply al_not; vm_compute; reflexivity|].
    split; [vm_compute; reflexivity|]. intro E. apply (f_equal (@length N)) in E. vm_compute in E. discriminate.
  - split; [apply al_parsed1; lia|]. split; [apply al_parsed2; lia|]. split; [vm_compute; reflexivity|].
    split; [vm_compute; reflexivity|]. split; [apply NI; apply al_not; vm_compute; reflexivity|].
    vm_compute. reflexivity.
Qed.
