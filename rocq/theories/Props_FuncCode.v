(** * Functions with inline code *)

From Verif Require Import Props_Items.
From Verif Require Import PyStr Regex UniTable Patterns PyPath Res Inline Const Item Lines Stash
  StrFacts LinesFacts ClassFacts Demo ReachFacts Spec_Query Props_Lines Spec_Parse Spec_Group Proofs_Group Spec_Func Proofs_Func Props_Parse
  Props_Func Spec_Inline Proofs_Inline Props_Inline Proofs_FuncCode.

(** ** C14: a function of a file is one Function item *)

(** The lines [h], [m] and [z] are a function: the head, which may stand before
    the first text of the body, lines with braces in pairs and a line that ends
    it.  The body has blocks of inline code [bs] with results [vs], between
    texts without code; the results do not make further code together with these
    texts.  The item covers these lines and is a Function, whatever its
    name; unless the name begins with python or fakeroot (C86), its parts are
    those that are written, with the results in the body. *)
Theorem C14_function : forall n e path off forced s l s' t ls gs h m z post qs name head b z1 z2 bs vs rest,
  filled e s -> add_file n e path off forced s = (Ok l, s') -> considered e path s ->
  fs_read (e_fs e) (file_of e path) = RdText t -> lines ls -> concat ls = universal_newlines t ->
  taken ls gs (h :: m ++ z :: post) -> ~ carries_on h ->
  h = head ++ b -> function_head qs name head ->
  inside m -> depth m = 0%Z -> (depth [z] < 0)%Z -> z = z1 ++ "}" ++ z2 -> ~ In 125%N z2 ->
  b ++ concat m ++ z1 = written bs rest -> shown (st_neg s) bs vs -> ~ occurs "${@" rest -> ~ occurs "${@" z2 ->
  exists l1 i l2, l = l1 ++ i :: l2 /\ map it_realraw l1 = map (@concat N) gs /\
    it_realraw i = concat (h :: m ++ [z]) /\ classifier i = "Function" /\
    (own_name name -> (is_python i <-> has_word "python" qs) /\ (is_fakeroot i <-> has_word "fakeroot" qs) /\
       func_body i (flat (written vs rest)) /\
       (name <> "__anonymous" -> parted (separator_of i) name -> func_name i name)).
Proof. exact C14_function_lemma. Qed.
Print Assumptions C14_function.

(** A function with two blocks, one of them not evaluated, and one whose results
    form code. *)
Definition k_h : str := "fakeroot do_x:append() {" ++ nl.
Definition k_m : list str := ["  if ${@bb.utils.contains('A', 'b', 'c', 'e', d)} {" ++ nl; "    ${@u()}" ++ nl; "  }" ++ nl].
Definition k_z : str := "}" ++ nl.
Definition k_bad : str := "do_y() {" ++ nl ++ "  $${@bb.utils.contains('A', 'b', '{@', '}', d)}" ++ nl ++ "}" ++ nl.
Definition k_text : str := concat (k_h :: k_m ++ [k_z]) ++ k_bad.
Definition k_env : env := demo_env [("/w/a.bb", k_text)] [].
Notation k_run := (add_file 2 k_env "/w/a.bb" 0 None demo_stash).
Definition k_bs : list (str * str) :=
  [(nl ++ "  if ", "${@bb.utils.contains('A', 'b', 'c', 'e', d)}"); (" {" ++ nl ++ "    ", "${@u()}")].
Definition k_vs : list (str * str) := [(nl ++ "  if ", "c"); (" {" ++ nl ++ "    ", "!!!inlineblock!!!")].
Definition k_rest : str := nl ++ "  }" ++ nl.
Lemma k_lines : readlines k_text = k_h :: k_m ++ k_z :: readlines k_bad.
Proof. vm_compute. reflexivity. Qed.

Example C14_function_case : exists l s',
  filled k_env demo_stash /\ k_run = (Ok l, s') /\ considered k_env "/w/a.bb" demo_stash /\
  fs_read (e_fs k_env) (file_of k_env "/w/a.bb") = RdText k_text /\ lines (readlines k_text) /\
  concat (readlines k_text) = universal_newlines k_text /\
  taken (readlines k_text) [] (k_h :: k_m ++ k_z :: readlines k_bad) /\ ~ carries_on k_h /\
  k_h = ("fakeroot do_x:append() {" : str) ++ nl /\ function_head [("fakeroot", " ")] "do_x:append" "fakeroot do_x:append() {" /\
  inside k_m /\ depth k_m = 0%Z /\ (depth [k_z] < 0)%Z /\ k_z = ([] : str) ++ "}" ++ nl /\ ~ In 125%N nl /\
  nl ++ concat k_m ++ [] = written k_bs k_rest /\ shown (st_neg demo_stash) k_bs k_vs /\
  ~ occurs "${@" k_rest /\ ~ occurs "${@" nl /\ own_name "do_x:append" /\
  map classifier l = ["Function"; "Item"].
Proof.
  exists (ok_items k_run), (snd k_run).
  split; [exact (filled_new k_env _ _ _)|]. split; [vm_compute; reflexivity|]. split; [split; intros []|].
  split; [vm_compute; reflexivity|]. split; [apply ok_are_lines, readlines_ok|]. split; [vm_compute; reflexivity|].
  split; [rewrite k_lines; apply taken_none|].
  split. { intros (a & w & E & _). assert (X : In cBSL k_h) by (rewrite E, !in_app_iff; cbn; tauto). revert X. notin. }
  split; [reflexivity|]. split; [exists [], [], " "; head_of|]. split.
  { intros a b E. destruct a as [|x1 [|x2 [|x3 [|x4 a]]]]; cbn [List.app] in E; unfold k_m in E.
    - vm_compute. discriminate.
    - injection E as <- _. vm_compute. discriminate.
    - injection E as <- <- _. vm_compute. discriminate.
    - injection E as <- <- <- _. vm_compute. discriminate.
    - discriminate E. }
  split; [reflexivity|]. split; [reflexivity|]. split; [reflexivity|]. split; [notin|]. split; [reflexivity|]. split.
  { apply Forall2_cons; [|apply Forall2_cons; [|apply Forall2_nil]]; cbn [fst snd]; (split; [reflexivity|]); (split; [calm|]).
    - split; [is_block ("bb.utils.contains('A', 'b', 'c', 'e', d)" : str)|]. split; [|calm].
      apply (ev_helper _ _ "bb.utils.contains" ["'A'"; "'b'"; "'c'"; "'e'"; "d"]).
      + exists [], "'A', 'b', 'c', 'e', d". split; [reflexivity|]. split; [intros c []|].
        apply (arg_more "'A'" " "); [parg|every|notin|]. apply (arg_more "'b'" " "); [parg|every|notin|].
        apply (arg_more "'c'" " "); [parg|every|notin|]. apply (arg_more "'e'" " "); [parg|every|notin|]. apply arg_last. parg.
      + apply (help_contains false "'A'" "'b'" "'c'" "'e'" "c" "e"); quo cSQ.
    - split; [is_block ("u()" : str)|]. split; [|calm]. apply ev_unknown. unkn. }
  split; [noc|]. split; [noc|]. split; [intro t; split; discriminate|]. vm_compute. reflexivity.
Qed.

(** If the result of a block makes further code together with the text in front
    of it, the closing brace of the function may be taken for the end of that code:
    the lines are covered by one item, but it is not a Function. *)
Theorem C14_code_refuted : exists e s path t l s' pre h m z i qs name head b,
  filled e s /\ add_file 2 e path 0 None s = (Ok l, s') /\ considered e path s /\
  fs_read (e_fs e) (file_of e path) = RdText t /\ t = pre ++ concat (h :: m ++ [z]) /\
  h = head ++ b /\ function_head qs name head /\ own_name name /\ inside m /\ depth m = 0%Z /\ (depth [z] < 0)%Z /\
  In i l /\ it_realraw i = concat (h :: m ++ [z]) /\ classifier i <> "Function".
Proof.
  exists k_env, demo_stash, "/w/a.bb", k_text, (ok_items k_run), (snd k_run), (concat (k_h :: k_m ++ [k_z])),
    ("do_y() {" ++ nl), ["  $${@bb.utils.contains('A', 'b', '{@', '}', d)}" ++ nl], ("}" ++ nl),
    (nth 1 (ok_items k_run) p_dflt), [], "do_y", "do_y() {", nl.
  split; [exact (filled_new k_env _ _ _)|]. split; [vm_compute; reflexivity|]. split; [split; intros []|].
  split; [vm_compute; reflexivity|]. split; [reflexivity|]. split; [reflexivity|].
  split; [exists [], [], " "; head_of|]. split; [intro t; split; discriminate|]. split.
  { intros a b E. destruct a as [|x1 [|x2 a]]; cbn [List.app] in E.
    - vm_compute. discriminate.
    - injection E as <- _. vm_compute. discriminate.
    - discriminate E. }
  split; [reflexivity|]. split; [reflexivity|]. split; [apply nth_In; vm_compute; lia|].
  split; [vm_compute; reflexivity|]. vm_compute. discriminate.
Qed.
Print Assumptions C14_code_refuted.
