(** * Theorems about functions *)

From Verif Require Import Props_Items.
From Verif Require Import PyStr Regex UniTable Patterns PyPath Res Inline Const Item Lines Stash
  StrFacts ClassFacts Demo Props_Lines Spec_Parse Spec_Group Proofs_Group Spec_Func Proofs_Func Props_Parse.

(** ** The recipe of the examples *)

Definition f_head : str := "fakeroot python do_x:append() {".
Definition f_fun : str := f_head ++ nl ++ "  if a {" ++ nl ++ "    b" ++ nl ++ "  }" ++ nl ++ "}" ++ nl.
Definition f_text : str := "A = ""1""" ++ nl ++ f_fun ++
  "pkg_postinst:${PN}() {" ++ nl ++ "  b" ++ nl ++ "}" ++ nl ++
  "pythonize() {" ++ nl ++ "  c" ++ nl ++ "}" ++ nl ++
  "do_z() {" ++ nl ++ "  ${B}}" ++ nl ++ "B = ""2""" ++ nl.
Definition f_env : env := demo_env [("/w/a.bb", f_text)] [].
Notation f_run := (add_file 2 f_env "/w/a.bb" 0 None demo_stash).
Definition f_item (k : nat) : item := nth k (st_list (snd f_run)) p_dflt.
Definition f_pays : list (str * payload) :=
  [ ("A = ""1""" ++ nl, PVariable "A" [] [] """1""" " = " "A");
    (f_fun, PFunction true true "do_x" "append" ["append"] "  if a {    b  }"
       (nl ++ "if a {" ++ nl ++ "  b" ++ nl ++ "}" ++ nl));
    ("pkg_postinst:${PN}() {" ++ nl ++ "  b" ++ nl ++ "}" ++ nl,
       PFunction false false "pkg_postinst:${PN}" [] [] "  b" ("PN}() {" ++ nl ++ "  b" ++ nl));
    ("pythonize() {" ++ nl ++ "  c" ++ nl ++ "}" ++ nl,
       PFunction true false "ize" [] [] "  c" (nl ++ "c" ++ nl));
    ("do_z() {" ++ nl ++ "  ${B}}" ++ nl, PFunction false false "do_z" [] [] "  ${B}" (nl ++ "${B"));
    ("B = ""2""" ++ nl, PVariable "B" [] [] """2""" " = " "B") ].
Lemma f_items : map (fun i => (it_raw i, it_pay i)) (st_list (snd f_run)) = f_pays.
Proof. vm_compute. reflexivity. Qed.

Lemma f_len : length (st_list (snd f_run)) = 6.
Proof. rewrite <- (map_length (fun i => (it_raw i, it_pay i))), f_items. reflexivity. Qed.
Lemma f_raw_of : forall k, it_raw (f_item k) = fst (nth k f_pays (it_raw p_dflt, it_pay p_dflt)).
Proof. intro k. unfold f_item. exact (proj1 (nth_both _ _ _ it_raw it_pay _ p_dflt _ k f_items)). Qed.
Lemma f_pay_of : forall k, it_pay (f_item k) = snd (nth k f_pays (it_raw p_dflt, it_pay p_dflt)).
Proof. intro k. unfold f_item. exact (proj2 (nth_both _ _ _ it_raw it_pay _ p_dflt _ k f_items)). Qed.
Lemma f_line_of : forall k, one_line (f_item k) = flat (fst (nth k f_pays (it_raw p_dflt, it_pay p_dflt))).
Proof. intro k. rewrite one_line_flat, f_raw_of. reflexivity. Qed.
Lemma f_filled : filled f_env demo_stash.
Proof. exact (filled_new f_env _ _ _). Qed.
Lemma f_parsed : forall k, k < 6 -> parsed_item f_env (f_item k).
Proof.
  intros k Hk. exists (snd f_run). split.
  - exact (filled_add f_env 2 "/w/a.bb" 0 None demo_stash (fst f_run) (snd f_run) f_filled (surjective_pairing f_run)).
  - unfold f_item. apply nth_In. rewrite f_len. exact Hk.
Qed.

Ltac fchars := let c := fresh "c" in let Hc := fresh "Hc" in
  intros c Hc; repeat (destruct Hc as [<-|Hc];
    [unfold func_char, letter, digit, between; cbn [In]; (lia || tauto)|]); destruct Hc.
Ltac head_of := split; [reflexivity|]; split;
  [intros ? ? Hk; repeat (destruct Hk as [Hk|Hk]; [injection Hk as <- <-; split; [cbn; tauto|every]|]); destruct Hk|];
  split; [every|]; split; [every|]; split; [every|]; split; [fchars|]; split; [discriminate|];
  intros _ ? ? Hk; repeat (destruct Hk as [Hk|Hk]; [injection Hk as <- <-; discriminate|]); destruct Hk.

Definition f_qs : list (str * str) := [("fakeroot", " "); ("python", " ")].
Lemma f_head_is : function_head f_qs "do_x:append" f_head.
Proof. exists [], [], " ". head_of. Qed.
Lemma f_own : own_name "do_x:append".
Proof. intro t. split; discriminate. Qed.
Lemma f_name_parted : parted 58 "do_x:append".
Proof.
  exists ["do_x"; "append"]. split; [reflexivity|]. split; [discriminate|]. split.
  - repeat constructor; cbn; intuition discriminate.
  - intros p [<-|[<-|[]]]; (split; [discriminate|notin]).
Qed.

(** ** C84: what a function item says *)
Theorem C84_parts : forall e i qs name body, parsed_item e i ->
  function_text qs name body (one_line i) -> own_name name ->
  (is_python i <-> has_word "python" qs) /\ (is_fakeroot i <-> has_word "fakeroot" qs) /\
  func_body i body /\ (name <> "__anonymous" -> parted (separator_of i) name -> func_name i name).
Proof. exact C84_lemma. Qed.
Print Assumptions C84_parts.

Example C84_case : parsed_item f_env (f_item 1) /\
  function_text f_qs "do_x:append" "  if a {    b  }" (one_line (f_item 1)) /\ own_name "do_x:append" /\
  parted (separator_of (f_item 1)) "do_x:append".
Proof.
  split; [apply f_parsed; lia|]. split; [|split; [exact f_own|]].
  - rewrite f_line_of. exists f_head, []. split; [vm_compute; reflexivity|]. split; [exact f_head_is|intros []].
  - replace (separator_of (f_item 1)) with 58%N by (vm_compute; reflexivity). exact f_name_parted.
Qed.

(** ** C86: the same for names that begin with python or fakeroot *)

(** It does not hold: [pythonize] is reported as the python function [ize]. *)
Theorem C86_refuted : exists e i name body, parsed_item e i /\ function_text [] name body (one_line i) /\
  parted (separator_of i) name /\ name <> "__anonymous" /\ is_python i /\ ~ func_name i name.
Proof.
  exists f_env, (f_item 3), "pythonize", "  c". split; [apply f_parsed; lia|]. split.
  { rewrite f_line_of. exists "pythonize() {", []. split; [vm_compute; reflexivity|].
    split; [exists [], [], " "; head_of|intros []]. }
  split.
  { exists ["pythonize"]. split; [reflexivity|]. split; [discriminate|]. split; [repeat constructor; intros []|].
    intros p [<-|[]]. split; [discriminate|]. replace (separator_of (f_item 3)) with 58%N by (vm_compute; reflexivity). notin. }
  split; [discriminate|]. split.
  - unfold is_python. rewrite (f_pay_of 3). cbn. repeat eexists.
  - intros (p & f & n & s & l & b & r & E & En). rewrite (f_pay_of 3) in E. cbn in E.
    injection E as <- <- <- <- <- <- <-. discriminate.
Qed.
Print Assumptions C86_refuted.

(** ** C85: the raw body *)

(** The text between the brace of the header and the last brace, dedented. *)
Theorem C85_raw_partial : forall e i qs name head inner ws, parsed_item e i ->
  it_raw i = head ++ inner ++ "}" ++ ws -> function_head qs name head -> ~ In cNL head -> own_name name ->
  ~ In 123%N name -> white ws -> (forall a, inner <> a ++ "}") ->
  exists ls, dedented (split_char cNL inner) ls /\ raw_body i (join [cNL] ls).
Proof. exact C85_lemma. Qed.
Print Assumptions C85_raw_partial.

Definition f_inner : str := nl ++ "  if a {" ++ nl ++ "    b" ++ nl ++ "  }" ++ nl.
Example C85_case : parsed_item f_env (f_item 1) /\ it_raw (f_item 1) = f_head ++ f_inner ++ "}" ++ nl /\
  function_head f_qs "do_x:append" f_head /\ ~ In cNL f_head /\ own_name "do_x:append" /\
  ~ In 123%N ("do_x:append" : str) /\ white nl /\ (forall a, f_inner <> a ++ "}").
Proof.
  split; [apply f_parsed; lia|]. split; [rewrite f_raw_of; reflexivity|]. split; [exact f_head_is|].
  split; [notin|]. split; [exact f_own|]. split; [notin|]. split; [every|].
  intros a E. apply (f_equal (@rev N)) in E. rewrite rev_app_distr in E. discriminate.
Qed.

(** Missing are names with references, where the raw body begins inside the
    name, and bodies that end with a brace, which is cut off. *)
Theorem C85_refuted :
  (exists e i name head inner ws, parsed_item e i /\ it_raw i = head ++ inner ++ "}" ++ ws /\
     function_head [] name head /\ own_name name /\ white ws /\ (forall a, inner <> a ++ "}") /\
     exists x, raw_body i ("PN}() {" ++ x)) /\
  (exists e i name head inner ws, parsed_item e i /\ it_raw i = head ++ inner ++ "}" ++ ws /\
     function_head [] name head /\ own_name name /\ white ws /\ ~ In 123%N name /\
     number 125 inner = 1%Z /\ forall b, raw_body i b -> number 125 b = 0%Z).
Proof.
  split.
  - exists f_env, (f_item 2), "pkg_postinst:${PN}", "pkg_postinst:${PN}() {", (nl ++ "  b" ++ nl), nl.
    split; [apply f_parsed; lia|]. split; [rewrite f_raw_of; reflexivity|].
    split; [exists [], [], " "; head_of|]. split; [intro t; split; discriminate|]. split; [every|]. split.
    + intros a E. apply (f_equal (@rev N)) in E. rewrite (rev_app_distr a) in E. discriminate.
    + exists (nl ++ "  b" ++ nl). unfold raw_body. rewrite (f_pay_of 2). cbn. repeat eexists.
  - exists f_env, (f_item 4), "do_z", "do_z() {", (nl ++ "  ${B}"), nl.
    split; [apply f_parsed; lia|]. split; [rewrite f_raw_of; reflexivity|].
    split; [exists [], [], " "; head_of|]. split; [intro t; split; discriminate|]. split; [every|]. split; [notin|].
    split; [reflexivity|]. intros b (p & f & n & s & l & x & E). rewrite (f_pay_of 4) in E. cbn in E.
    injection E as <- <- <- <- <- <- <-. reflexivity.
Qed.
Print Assumptions C85_refuted.

(** ** C14: a function of a file is one item *)
Theorem C14_cover : forall n e path off forced s l s' t ls gs h m z post,
  add_file n e path off forced s = (Ok l, s') -> considered e path s ->
  fs_read (e_fs e) (file_of e path) = RdText t -> lines ls -> concat ls = universal_newlines t ->
  taken ls gs (h :: m ++ z :: post) -> ~ carries_on h -> opens h ->
  inside m -> depth m = 0%Z -> (depth [z] < 0)%Z ->
  exists l1 i l2, l = l1 ++ i :: l2 /\ map it_realraw l1 = map (@concat N) gs /\
    it_realraw i = concat (h :: m ++ [z]).
Proof. exact C14_cover_lemma. Qed.
Print Assumptions C14_cover.

(** Without inline code the body is the text as it is written (with inline
    code: C14_function in Props_FuncCode). *)
Theorem C14_plain : forall n e path off forced s l s' t ls gs h m z post qs name head b z1 z2,
  filled e s -> add_file n e path off forced s = (Ok l, s') -> considered e path s ->
  fs_read (e_fs e) (file_of e path) = RdText t -> lines ls -> concat ls = universal_newlines t ->
  taken ls gs (h :: m ++ z :: post) -> ~ carries_on h ->
  h = head ++ b -> function_head qs name head -> own_name name ->
  inside m -> depth m = 0%Z -> (depth [z] < 0)%Z -> z = z1 ++ "}" ++ z2 -> ~ In 125%N z2 ->
  no_inline (concat (h :: m ++ [z])) ->
  exists l1 i l2, l = l1 ++ i :: l2 /\ map it_realraw l1 = map (@concat N) gs /\
    it_realraw i = concat (h :: m ++ [z]) /\
    (is_python i <-> has_word "python" qs) /\ (is_fakeroot i <-> has_word "fakeroot" qs) /\
    func_body i (flat (b ++ concat m ++ z1)) /\
    (name <> "__anonymous" -> parted (separator_of i) name -> func_name i name).
Proof. exact C14_lemma. Qed.
Print Assumptions C14_plain.

(** The first function of the recipe, which has an inner block. *)
Definition f_body : list str := ["  if a {" ++ nl; "    b" ++ nl; "  }" ++ nl].
Example C14_case : exists l s' ls post,
  filled f_env demo_stash /\ f_run = (Ok l, s') /\ considered f_env "/w/a.bb" demo_stash /\
  fs_read (e_fs f_env) (file_of f_env "/w/a.bb") = RdText f_text /\ lines ls /\ concat ls = universal_newlines f_text /\
  taken ls [["A = ""1""" ++ nl]] ((f_head ++ nl) :: f_body ++ ("}" ++ nl) :: post) /\
  ~ carries_on (f_head ++ nl) /\ function_head f_qs "do_x:append" f_head /\ own_name "do_x:append" /\
  inside f_body /\ depth f_body = 0%Z /\ (depth ["}" ++ nl] < 0)%Z /\
  no_inline (concat ((f_head ++ nl) :: f_body ++ ["}" ++ nl])).
Proof.
  exists (ok_items f_run), (snd f_run), (readlines f_text), (skipn 6 (readlines f_text)).
  split; [exact f_filled|]. split; [vm_compute; reflexivity|]. split; [split; intros []|].
  split; [vm_compute; reflexivity|]. split; [apply ok_are_lines, readlines_ok|]. split; [vm_compute; reflexivity|].
  assert (NB : forall x : str, ~ In cBSL x -> ~ carries_on x).
  { intros x Hx (a & w & -> & _). apply Hx. rewrite !in_app_iff. cbn. tauto. }
  assert (NP : forall x : str, ~ In 40%N x -> ~ opens x).
  { intros x Hx (a & w1 & w2 & b & -> & _). apply Hx. rewrite !in_app_iff. cbn. tauto. }
  split.
  { apply (taken_more _ ["A = ""1""" ++ nl] ((f_head ++ nl) :: f_body ++ ("}" ++ nl) :: skipn 6 (readlines f_text)));
      [|apply taken_none].
    replace (readlines f_text) with (("A = ""1""" ++ nl) :: (f_head ++ nl) :: f_body ++ ("}" ++ nl) :: skipn 6 (readlines f_text)) at 1
      by (vm_compute; reflexivity).
    apply block_line; [apply NB; notin|apply NP; notin|intros [t E]; discriminate|].
    intros (w & t & E & Hw & _). destruct w as [|c w]; [discriminate|].
    injection E as <- _. specialize (Hw 65%N (or_introl eq_refl)). discriminate. }
  split; [apply NB; notin|]. split; [exact f_head_is|]. split; [exact f_own|]. split.
  { intros a b E. destruct a as [|x1 [|x2 [|x3 [|x4 a]]]]; cbn [app] in E; unfold f_body in E.
    - vm_compute. discriminate.
    - injection E as <- _. vm_compute. discriminate.
    - injection E as <- <- _. vm_compute. discriminate.
    - injection E as <- <- <- _. vm_compute. discriminate.
    - discriminate E. }
  split; [reflexivity|]. split; [reflexivity|].
  intros a b E. assert (In 36%N (concat ((f_head ++ nl) :: f_body ++ ["}" ++ nl]))).
  { rewrite E, !in_app_iff. cbn. tauto. }
  revert H. vm_compute. intuition discriminate.
Qed.
