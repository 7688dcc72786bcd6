(** * Property C92, with the search itself: which files an include and an inherit load *)

From Verif Require Import PyStr Regex PyPath Res Inline Const Item Lines Stash Demo StrFacts HistFacts ReachFacts Spec_Parse Spec_Group
  Spec_Expand Spec_Include Spec_Paths Spec_Load Props_Load Spec_Search Proofs_Search.

(** The file of an include is searched relative to the directory of the file with the
    statement, then relative to the nearest layer above. *)
Theorem C92_include_found : forall n e path off forced s r s' i nm st p cs f, reach e s ->
  add_file n e path off forced s = (r, s') -> added s s' i -> it_pay i = PInclude nm st p -> plain_text nm ->
  comps (cs ++ [f]) -> it_origin i = cpath (cs ++ [f]) -> found (e_fs e) cs nm p.
Proof. exact C92_found_lemma. Qed.
Print Assumptions C92_include_found.

(** So are the classes of an inherit, in each of the directories for classes in turn. *)
Theorem C92_inherit_found : forall n e path off forced s r s' i cl st paths ws cs f, reach e s ->
  add_file n e path off forced s = (r, s') -> added s s' i -> it_pay i = PInherit cl st paths ->
  plain_text cl -> words ws cl -> cval_contains cl (class_ignore (st_const s)) = false ->
  comps (cs ++ [f]) -> it_origin i = cpath (cs ++ [f]) ->
  forall p, In p paths <-> exists w, In w ws /\ class_at (e_fs e) cs (class_dirs st) w p.
Proof. exact C92_class_lemma. Qed.
Print Assumptions C92_inherit_found.

Lemma se_comps : comps (["w"; "r"] ++ ["a.bb"]).
Proof. intros c Hc. cbn in Hc. split; [|intro F]; intuition; subst; try discriminate; cbn in F; intuition discriminate. Qed.
Lemma se_origins : it_origin (l_item 7) = cpath (["w"; "r"] ++ ["a.bb"]) /\ it_origin (l_item 8) = cpath (["w"; "r"] ++ ["a.bb"]).
Proof. vm_compute. auto. Qed.

(** The include that is there, the one that is not, and the classes. *)
Theorem C92_case_found : found (e_fs l_env) ["w"; "r"] "c.inc" "/w/r/c.inc" /\ found (e_fs l_env) ["w"; "r"] "d.inc" [] /\
  forall p, In p ["/w/classes-recipe/k.bbclass"; "/w/classes/l.bbclass"] <->
    exists w, In w ["k"; "l.bbclass"; "no"] /\ class_at (e_fs l_env) ["w"; "r"] ["classes"; "classes-recipe"; "classes-global"] w p.
Proof.
  split; [|split].
  - exact (C92_include_found 5 l_env "/w/r/a.bb" 0 None demo_stash _ _ (l_item 7) "c.inc" "require" "/w/r/c.inc" ["w"; "r"] "a.bb"
      (demo_reach l_env) l_ok (l_added 7 ltac:(lia)) (proj1 l_include) ltac:(repeat split) se_comps (proj1 se_origins)).
  - exact (C92_include_found 5 l_env "/w/r/a.bb" 0 None demo_stash _ _ (l_item 8) "d.inc" "require" [] ["w"; "r"] "a.bb"
      (demo_reach l_env) l_ok (l_added 8 ltac:(lia)) (proj2 l_include) ltac:(repeat split) se_comps (proj2 se_origins)).
  - destruct l_inherit as [H1 H2].
    exact (C92_inherit_found 5 l_env "/w/r/a.bb" 0 None demo_stash _ _ (l_item 6) "k  l.bbclass no" "inherit"
      ["/w/classes-recipe/k.bbclass"; "/w/classes/l.bbclass"] ["k"; "l.bbclass"; "no"] ["w"; "r"] "a.bb"
      (demo_reach l_env) l_ok (l_added 6 ltac:(lia)) H1 ltac:(repeat split) l_words eq_refl se_comps H2).
Qed.
Print Assumptions C92_case_found.
