(** * Property C129: expanding the words of a value one by one *)

From Verif Require Import Props_Items.
From Verif Require Import PyStr Regex Patterns PyPath Res Inline Const Item Lines Stash Demo StrFacts ReachFacts Spec_Query Spec_Expand
  Proofs_Expand Props_Expand Spec_Each Proofs_Each.

(** The words that get_items gives, expanded one by one with the variable as objref, are what
    the value expanded at once has in their places.  Missing is inline code, with which it is
    false, see [C129_refuted], and what C121 leaves out. *)
Theorem C129_each_partial : forall e s file, env_ok e -> reach e s ->
  exists known, (forall n, n <> [] -> stands_for s file n (known n)) /\
  forall i n sub subs v op r spare ws w us,
    it_pay i = PVariable n sub subs ("""" ++ v ++ """") op r -> ~ In cDQ v -> no_code v -> contains INLINE_BLOCK v = false ->
    rewords (expands known (fun n => dget n (builtins file)) spare) v ws w us ->
    map (fun y => expand_term_full e s file y spare [] (Some i)) (get_items_of i) = map Ok us /\
    expand_term_full e s file (stripped i) spare [] (Some i) = Ok w.
Proof. exact C129_lemma. Qed.
Print Assumptions C129_each_partial.

(** ** Examples *)

Definition ea_env : env := demo_env
  [("/w/rec_1.bb", "A = ""${B} ${PN}-x""" ++ nl ++ "B = ""b c""" ++ nl ++ "C = ""a ${@f()} b""" ++ nl)] ["/w"; "/"].
Notation ea_run := (add_file 4 ea_env "/w/rec_1.bb" 0 None demo_stash).
Definition ea_item (k : nat) : item := nth k (ok_items ea_run) (mk_item (MkParam 0 0 0 [] [] [] [] false) false PItem).
Definition ea_each (k : nat) : list (Res.res str) :=
  map (fun y => expand_term_full ea_env (snd ea_run) "/w/rec_1.bb" y [] [] (Some (ea_item k))) (get_items_of (ea_item k)).

Lemma solid : forall (y v : str), forallb (fun c => negb (re_space c) && negb (N.eqb c 27)) y = true ->
  forall a c b, y = a ++ c :: b -> ~ Props_Items.separator c (b ++ v).
Proof.
  intros y v H a c b E Hs. rewrite forallb_forall in H. specialize (H c). rewrite E in H.
  specialize (H (in_or_app a (c :: b) c (or_intror (or_introl eq_refl)))). apply andb_prop in H. destruct H as [H1 H2].
  destruct Hs as [Hs|[Hs _]]; [now rewrite Hs in H1|]. subst c. discriminate.
Qed.

Theorem C129_case : it_pay (ea_item 0) = PVariable "A" [] [] ("""" ++ "${B} ${PN}-x" ++ """") " = " "A" /\
  no_code "${B} ${PN}-x" /\ contains INLINE_BLOCK "${B} ${PN}-x" = false /\
  rewords (expands (ExpandFacts.content_of ea_env (snd ea_run) "/w/rec_1.bb") (fun n => dget n (builtins "/w/rec_1.bb")) [])
    "${B} ${PN}-x" ["${B}"; "${PN}-x"] "b c rec-x" ["b c"; "rec-x"] /\
  ea_each 0 = [Ok ("b c" : str); Ok ("rec-x" : str)].
Proof.
  split; [vm_compute; reflexivity|]. split; [split; reflexivity|]. split; [reflexivity|]. split; [|vm_compute; reflexivity].
  apply (rw_run _ "${B}" "b c" " ${PN}-x" ["${PN}-x"] " rec-x" ["rec-x"]).
  - discriminate.
  - apply solid. reflexivity.
  - intros c r E. injection E as <- _. now left.
  - apply (ex_known _ _ [] "B" "b c" "b c" [] []); [plain|intros []|vm_compute; reflexivity|split; reflexivity|ex_text|apply ex_end].
  - apply rw_sep; [now left|]. apply (rw_run _ "${PN}-x" "rec-x" [] [] [] []).
    + discriminate.
    + apply solid. reflexivity.
    + discriminate.
    + apply (ex_builtin _ _ [] "PN" "rec" "-x" "-x"); [plain|intros []|vm_compute; reflexivity|vm_compute; reflexivity|cbv; intuition discriminate|ex_text].
    + apply rw_nil.
Qed.
Print Assumptions C129_case.

(** A word that is inline code becomes the whole value. *)
Theorem C129_refuted : it_pay (ea_item 2) = PVariable "C" [] [] ("""" ++ "a " ++ INLINE_BLOCK ++ " b" ++ """") " = " "C" /\
  get_items_of (ea_item 2) = ["a"; INLINE_BLOCK; "b"] /\ it_blocks (ea_item 2) = [("${@f()}" : str, INLINE_BLOCK)] /\
  expand_term_full ea_env (snd ea_run) "/w/rec_1.bb" (stripped (ea_item 2)) [] [] (Some (ea_item 2)) = Ok ("a ${@f()} b" : str) /\
  ea_each 2 = [Ok ("a" : str); Ok ("a ${@f()} b" : str); Ok ("b" : str)].
Proof. repeat split; vm_compute; reflexivity. Qed.
Print Assumptions C129_refuted.
