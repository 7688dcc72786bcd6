(** * Property C37, in every stash: what a bbappend says comes after what the recipe says *)

From Verif Require Import PyStr Regex PyPath Res Const Item Lines Stash Demo HistFacts ReachFacts Spec_Query Spec_Files Spec_After
  Proofs_Files Proofs_After.

(** Whatever was added, removed and linked in whatever order, and even if calls
    raised: an item of a bbappend has a greater Line than the items of the recipes it applies to. *)
Theorem C37_always : forall e s i j, loaded e s -> In i (st_list s) -> In j (st_list s) -> applies (it_origin i) (it_origin j) ->
  (it_line j < it_line i)%Z.
Proof. exact C37_always_lemma. Qed.
Print Assumptions C37_always.

(** So no query lists an item of a bbappend before one of such a recipe. *)
Theorem C37_order : forall e s q a i b j, env_ok e -> loaded e s -> get_items_for e s q = a ++ i :: b ->
  applies (it_origin i) (it_origin j) -> ~ In j b.
Proof. exact C37_order_lemma. Qed.
Print Assumptions C37_order.

(** ** An example: two bbappends, one added before and one after the recipe, and the recipe again *)

Definition af_env : env := demo_env
  [ ("/w/foo_1.bb", "# one" ++ nl ++ "# two" ++ nl ++ "A = ""1""" ++ nl); ("/w/foo_1.bbappend", "A = ""3""" ++ nl);
    ("/v/foo_%.bbappend", "A = ""4""" ++ nl) ] ["/w"; "/v"; "/"].
Definition af_q : query := MkQuery (Some "/w/foo_1.bb") (AOne "Variable") ANone ANone false.
Notation af_1 := (add_file 6 af_env "/v/foo_%.bbappend" 0 None demo_stash).
Notation af_2 := (add_file 6 af_env "/w/foo_1.bb" 0 None (snd af_1)).
Notation af_3 := (add_file 6 af_env "/w/foo_1.bbappend" 0 None (snd af_2)).
Notation af_4 := (add_file 6 af_env "/w/foo_1.bb" 0 None (snd af_3)).
Notation af_shown := (map it_origin (get_items_for af_env (snd af_4) af_q)).

Lemma af_loaded : loaded af_env (snd af_4).
Proof.
  eapply (loaded_add af_env 6 "/w/foo_1.bb" 0 None); [lia| |apply surjective_pairing].
  eapply (loaded_add af_env 6 "/w/foo_1.bbappend" 0 None); [lia| |apply surjective_pairing].
  eapply (loaded_add af_env 6 "/w/foo_1.bb" 0 None); [lia| |apply surjective_pairing].
  eapply (loaded_add af_env 6 "/v/foo_%.bbappend" 0 None); [lia| |apply surjective_pairing].
  apply loaded_new.
Qed.
Lemma af_items : af_shown = ["/w/foo_1.bb"; "/w/foo_1.bb"; "/v/foo_%.bbappend"; "/w/foo_1.bbappend"].
Proof. vm_compute. reflexivity. Qed.

Lemma af_name : plain "foo_" /\ plain "1" /\ plain "foo_1".
Proof. split; [|split]; now apply plain_by_compute. Qed.
Theorem C37_case_always : loaded af_env (snd af_4) /\ env_ok af_env /\
  applies "/v/foo_%.bbappend" "/w/foo_1.bb" /\ applies "/w/foo_1.bbappend" "/w/foo_1.bb" /\
  af_shown = ["/w/foo_1.bb"; "/w/foo_1.bb"; "/v/foo_%.bbappend"; "/w/foo_1.bbappend"].
Proof.
  destruct af_name as [H1 [H2 H3]].
  split; [exact af_loaded|]. split; [apply demo_env_ok|]. split; [exact (applies_any "/v" "/w" "foo_" "1" H1 H2 H3)|].
  split; [exact (applies_same "/w" "/w" "foo_1" H3)|]. exact af_items.
Qed.
Print Assumptions C37_case_always.
