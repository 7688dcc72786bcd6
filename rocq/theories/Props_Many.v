(** * Property C99: several stashes *)

From Verif Require Import PyStr Regex Patterns PyPath Res Inline Const Item Lines Stash Demo ReachFacts Cache Spec_Cache
  Props_Cache Many Spec_Many Proofs_Many.

(** A stash answers its calls as if it were alone, whatever happens to the others
    before it is made and between its calls.  What is missing is what C33 misses. *)
Theorem C99_apart_partial : forall e db nw neg before after, env_ok e ->
  served e true (new_stash nw neg db) (calls_on (made before) after) ->
  answers_on (made before) (fst (mcalls_c e db (before ++ MNew nw neg :: after) [])) =
  fst (plain_calls e (calls_on (made before) after) (new_stash nw neg db)).
Proof. exact C99_lemma. Qed.
Print Assumptions C99_apart_partial.

(** The first stash reads a file the second does not, and asks the same before
    and after; the second reads a file that does not exist. *)
Definition m_before : list mcall := [MNew false false; MOn 0 CLone true].
Definition m_after : list mcall :=
  [MOn 0 CLone true; MOn 1 (k_add "/w/a.bb") true; MOn 1 CLone true; MOn 0 (k_add "/w/x.bbappend") true; MOn 0 (k_add "/w/none.bb") true;
   MOn 1 CLone true; MOn 0 CLone true; MOn 1 k_vars true].
Example C99_case : served k_env true (new_stash false false no_const) (calls_on (made m_before) m_after) /\
  answers_on 0 (fst (mcalls_c k_env no_const (m_before ++ MNew false false :: m_after) [])) <> [].
Proof.
  split; [|vm_compute; discriminate].
  change (calls_on (made m_before) m_after) with [k_add "/w/a.bb"; CLone; CLone; k_vars]. unfold k_add, k_vars.
  eapply served_add; [vm_compute; reflexivity| |].
  - intro K. apply Proofs_Cache.early_iff in K. vm_compute in K. discriminate K.
  - do 3 (apply served_query; [exact I|discriminate|]). apply served_end.
Qed.

(** Where a stash alone answers from an old table, making another stash changes
    the answer: _clear_cached clears the tables of all stashes. *)
Theorem C99_refuted : exists e db calls others, env_ok e /\ calls_on 0 others = [] /\
  answers_on 0 (fst (mcalls_c e db (MNew false false :: map (fun c => MOn 0 c false) calls) [])) <>
  answers_on 0 (fst (mcalls_c e db
    (MNew false false :: map (fun c => MOn 0 c false) (removelast calls) ++ others ++ [MOn 0 (last calls CLone) false]) [])).
Proof.
  set (x := nth 0 (ok_items (add_file 4 k_env "/w/x.bbappend" 0 None demo_stash)) (mk_item (MkParam 0 0 0 [] [] [] [] false) false PItem)).
  set (y := mk_item (MkParam 99 0 0 [] [] [] [] false) false PItem).
  exists k_env, no_const, [k_add "/w/x.bbappend"; CLone; CRemove [x; y]; CLone], [MNew false false].
  split; [apply demo_env_ok|]. split; [reflexivity|]. vm_compute. discriminate.
Qed.
Print Assumptions C99_refuted.
