(** * Properties C28-C32, C34, C36, C60, C62: queries and updates *)

From Verif Require Import PyStr Regex Patterns PyPath Res Inline Const Item Lines Stash Demo
  ReachFacts Spec_Query Proofs_Query.
From Coq Require Import Permutation Sorted.

(** ** The states of the examples *)

Definition q_files : list (str * str) :=
  [ ("/w/a.bb", "A = ""1""" ++ nl ++ "require b.inc" ++ nl ++ "A = ""2""" ++ nl ++ "python do_x() {" ++ nl ++ "}" ++ nl);
    ("/w/b.inc", "B = ""3""" ++ nl); ("/w/a.bbappend", "A = ""4""" ++ nl); ("/w/z.bbappend", "A = ""5""" ++ nl);
    ("/w/k.bbclass", "K = ""6""" ++ nl); ("/w/l.conf", "L = ""7""" ++ nl) ].
Definition q_env : env := demo_env q_files ["/w"; "/"].
Definition add_all (l : list str) (s : stash) : stash :=
  fold_left (fun s p => snd (add_file 4 q_env p 0 None s)) l s.
Definition q_stash : stash :=
  add_all ["a.bb"; "a.bbappend"; "z.bbappend"; "k.bbclass"; "l.conf"] demo_stash.

Lemma add_all_reach : forall l s, reach q_env s -> reach q_env (add_all l s).
Proof.
  induction l as [|p l IH]; intros s Hs; [exact Hs|]. apply IH. destruct Hs as [nw [neg [db H]]].
  exists nw, neg, db. eapply steps_add; [exact H|apply surjective_pairing].
Qed.
Lemma q_reach : reach q_env q_stash.
Proof. apply add_all_reach. exists false, false, no_const. apply steps_refl. Qed.

(** ** C28 *)

(** GetItemsFor: exactly the selected items, once each, sorted by Line. *)
Theorem C28_exact : forall e s q, env_ok e -> reach e s ->
  (forall i, In i (get_items_for e s q) <-> In i (st_list s) /\ selected s q i) /\
  NoDup (map it_id (get_items_for e s q)) /\ StronglySorted by_line (get_items_for e s q).
Proof. exact C28_lemma. Qed.
Print Assumptions C28_exact.

(** Reduce: the same for any list of items. *)
Theorem C28_reduce : forall e s l q, env_ok e ->
  (forall i j, In i l -> In j l -> it_id i = it_id j -> i = j) ->
  (forall i, In i (reduce_ e s l q) <-> In i l /\ selected s q i) /\
  NoDup (map it_id (reduce_ e s l q)) /\ StronglySorted by_line (reduce_ e s l q).
Proof. exact C28_reduce_lemma. Qed.
Print Assumptions C28_reduce.

Definition vals (l : list item) : list str := map var_value l.
Example C28_case :
  map it_origin (st_list q_stash) =
    ["/w/b.inc"; "/w/a.bb"; "/w/a.bb"; "/w/a.bb"; "/w/a.bb"; "/w/a.bbappend"; "/w/z.bbappend"; "/w/k.bbclass"; "/w/l.conf"]
  /\ vals (get_items_for q_env q_stash (MkQuery (Some "/w/a.bb") (AOne "Variable") ANone ANone false))
     = ["""1"""; """3"""; """2"""; """4"""]
  /\ vals (get_items_for q_env q_stash (MkQuery (Some "/w/a.bb") (AOne "Variable") (AOne "VarName") (AOne (VStr "A")) true))
     = ["""1"""; """2"""]
  /\ vals (get_items_for q_env q_stash (MkQuery None (AMany ["Variable"; "Include"]) (AMany ["VarName"; "IncName"])
             (AMany [VStr "B"; VStr "b.inc"]) true))
     = [""; """3"""].
Proof. vm_compute. auto. Qed.

(** ** C29 *)

(** Different set iteration orders: the same items; the same list if the
    selected items are on different lines. *)
Theorem C29_hash_order : forall e e' s q, env_ok e -> env_ok e' -> reach e s ->
  Permutation (get_items_for e s q) (get_items_for e' s q) /\
  ((forall i j, In i (st_list s) -> In j (st_list s) -> selected s q i -> selected s q j ->
      it_line i = it_line j -> i = j) ->
   get_items_for e s q = get_items_for e' s q).
Proof. exact C29_lemma. Qed.
Print Assumptions C29_hash_order.

(** For items on the same line the order does depend on it. *)
Definition rev_env : env :=
  MkEnv (e_fs q_env) (fun l => rev (dedup_items l)) (fun l => rev (dedup_str l)) (e_repr q_env) (e_url q_env).
Lemma rev_env_ok : env_ok rev_env.
Proof. split; intro l; simpl; symmetry; apply Permutation_rev. Qed.
Theorem C29_refuted : exists e e' s q, env_ok e /\ env_ok e' /\ reach e s /\
  get_items_for e s q <> get_items_for e' s q.
Proof.
  exists q_env, rev_env, q_stash, (MkQuery None ANone ANone ANone false).
  split; [apply demo_env_ok|]. split; [apply rev_env_ok|]. split; [apply q_reach|].
  intro H. apply (f_equal (map it_id)) in H. revert H. vm_compute. discriminate.
Qed.
Print Assumptions C29_refuted.

Example C29_case :
  let q := MkQuery (Some "/w/a.bb") (AOne "Variable") (AOne "VarName") (AOne (VStr "A")) false in
  get_items_for q_env q_stash q = get_items_for rev_env q_stash q /\
  map it_line (get_items_for q_env q_stash q) = [1; 4; 6]%Z.
Proof. vm_compute. auto. Qed.

(** ** C30 *)

Theorem C30_compose : forall e s q1 q2, env_ok e -> reach e s ->
  (forall i, In i (reduce_ e s (get_items_for e s q1) q2) <->
             In i (st_list s) /\ selected s q1 i /\ selected s q2 i) /\
  Permutation (reduce_ e s (get_items_for e s q1) q2) (reduce_ e s (get_items_for e s q2) q1) /\
  Permutation (reduce_ e s (get_items_for e s q1) q1) (get_items_for e s q1).
Proof. exact C30_lemma. Qed.
Print Assumptions C30_compose.

Example C30_case :
  let q1 := MkQuery (Some "/w/a.bb") ANone ANone ANone false in
  let q2 := MkQuery None (AOne "Variable") (AOne "VarName") (AOne (VStr "A")) false in
  map it_line (reduce_ q_env q_stash (get_items_for q_env q_stash q1) q2) = [1; 4; 6]%Z
  /\ length (get_items_for q_env q_stash q1) = 6 /\ length (get_items_for q_env q_stash q2) = 4.
Proof. vm_compute. auto. Qed.

(** ** C31 *)

(** A value that is neither empty nor zero nor false filters. *)
Theorem C31_value : forall e s f c a w nolink i, env_ok e -> reach e s -> ~ falsy w -> a <> [] ->
  In i (get_items_for e s (MkQuery f c (AOne a) (AOne w) nolink)) ->
  exists v, dget a (attributes i) = Some v /\ same_value w v.
Proof. exact C31_lemma. Qed.
Print Assumptions C31_value.

(** Any other value does not: asking for functions that are not python
    returns one that is. *)
Theorem C31_refuted : exists e s a w i, env_ok e /\ reach e s /\ a <> [] /\
  In i (get_items_for e s (MkQuery None ANone (AOne a) (AOne w) false)) /\
  ~ exists v, dget a (attributes i) = Some v /\ same_value w v.
Proof.
  exists q_env, q_stash, "IsPython", (VBool false). eexists.
  split; [apply demo_env_ok|]. split; [apply q_reach|]. split; [discriminate|]. split.
  - vm_compute. left. reflexivity.
  - intros [v [E H]]. vm_compute in E. inversion E; subst. destruct H as [[t [H _]]|[z [H1 H2]]].
    + discriminate.
    + vm_compute in H1, H2. congruence.
Qed.
Print Assumptions C31_refuted.

Example C31_case : ~ falsy (VStr "A") /\
  length (get_items_for q_env q_stash (MkQuery None ANone (AOne "VarName") (AOne (VStr "A")) false)) = 4.
Proof. split; [intros [H|[H|H]]; discriminate|vm_compute; reflexivity]. Qed.

(** ** C32 *)

Theorem C32_recipes : forall s,
  (forall x, In x (get_recipes s) <-> (exists d, x = d ++ ".bb") /\ exists l, dget x (st_map s) = Some l) /\
  StronglySorted before (get_recipes s).
Proof. exact C32_recipes_lemma. Qed.
Print Assumptions C32_recipes.

Theorem C32_classes : forall s,
  (forall x, In x (get_bbclasses s) <->
     (exists d, x = d ++ ".bbclass") /\ exists i, In i (st_list s) /\ it_origin i = x) /\
  StronglySorted before (get_bbclasses s).
Proof. exact C32_classes_lemma. Qed.
Print Assumptions C32_classes.

Theorem C32_conf : forall e s, env_ok e ->
  (forall x, In x (get_conf_files e s) <->
     (exists d, x = d ++ ".conf") /\ exists i, In i (st_list s) /\ it_origin i = x) /\
  NoDup (get_conf_files e s).
Proof. exact C32_conf_lemma. Qed.
Print Assumptions C32_conf.

Theorem C32_lone : forall e s, reach e s ->
  (forall x, In x (get_lone_appends s) <->
     (exists d, x = d ++ ".bbappend") /\ (exists i, In i (st_list s) /\ it_origin i = x) /\
     ~ exists d, linked s (d ++ ".bb") x) /\
  StronglySorted before (get_lone_appends s).
Proof. exact C32_lone_lemma. Qed.
Print Assumptions C32_lone.

Example C32_case :
  get_recipes q_stash = ["/w/a.bb"] /\ get_bbclasses q_stash = ["/w/k.bbclass"]
  /\ get_conf_files q_env q_stash = ["/w/l.conf"] /\ get_lone_appends q_stash = ["/w/z.bbappend"].
Proof. vm_compute. auto. Qed.

(** ** C34 *)

Theorem C34_append : forall l s,
  st_list (append_items l s) = st_list s ++ l /\ same_rest s (append_items l s).
Proof. intros l s. split; [reflexivity|]. destruct s; reflexivity. Qed.
Print Assumptions C34_append.

(** A Remove that succeeds removes the first occurrence of each argument and
    changes nothing else. *)
Theorem C34_remove : forall l s s', remove_items l s = (Ok tt, s') ->
  removed l (st_list s) (st_list s') /\ same_rest s s'.
Proof. exact remove_ok. Qed.
Print Assumptions C34_remove.

(** It succeeds exactly if every item is there often enough. *)
Theorem C34_remove_iff : forall l s, (exists s', remove_items l s = (Ok tt, s')) <->
  forall x, In x l -> times x l <= times x (st_list s).
Proof. exact remove_iff. Qed.
Print Assumptions C34_remove_iff.

(** A Remove that fails may have removed items. *)
Theorem C34_refuted : exists e s l ex s', reach e s /\ remove_items l s = (Raise ex, s') /\
  st_list s' <> st_list s.
Proof.
  exists q_env, q_stash, (firstn 1 (st_list q_stash) ++ firstn 1 (st_list q_stash)), ValueError,
    (snd (remove_items (firstn 1 (st_list q_stash) ++ firstn 1 (st_list q_stash)) q_stash)).
  split; [apply q_reach|]. split; [vm_compute; reflexivity|].
  intro H. apply (f_equal (@length item)) in H. revert H. vm_compute. discriminate.
Qed.
Print Assumptions C34_refuted.

Example C34_case : exists s', remove_items (tl (tl (st_list q_stash))) q_stash = (Ok tt, s') /\
  map it_origin (st_list s') = ["/w/b.inc"; "/w/a.bb"].
Proof. eexists. vm_compute. auto. Qed.

(** ** C36 *)

(** A file that is no recipe, include or conf file is added once; whatever
    happens in between, and however it is spelled. *)
Theorem C36_once : forall n e path off forced s r s1 s2 m path' off' forced',
  let file := abspath (fs_cwd (e_fs e)) path in
  add_file (S n) e path off forced s = (r, s1) -> steps e s1 s2 ->
  abspath (fs_cwd (e_fs e)) path' = file ->
  ~ In (snd (splitext file)) [".inc"; ".bb"; ".conf"] ->
  add_file (S m) e path' off' forced' s2 = (Ok [], s2).
Proof. exact C36_lemma. Qed.
Print Assumptions C36_once.

Example C36_case :
  let s := snd (add_file 1 q_env "k.bbclass" 0 None demo_stash) in
  length (st_list s) = 1 /\ abspath (fs_cwd (e_fs q_env)) "../w/./k.bbclass" = "/w/k.bbclass" /\
  fst (add_file 1 q_env "../w/./k.bbclass" 3 (Some "/w/a.bb") s) = Ok [] /\
  length (st_list (snd (add_file 4 q_env "a.bb" 0 None q_stash))) = 14.
Proof. vm_compute. auto. Qed.

(** ** C60 *)

(** Whether AddFile succeeds or not: the existing items stay in place and
    unchanged but for a larger Line of items from bbappends; the other items
    are new objects behind them. *)
Theorem C60_only_adds : forall n e path off forced s r s',
  add_file n e path off forced s = (r, s') ->
  exists old new, st_list s' = old ++ new /\ Forall2 only_line_raised (st_list s) old /\
    (forall i j, In i new -> In j (st_list s) -> reach e s -> it_id i <> it_id j).
Proof. exact C60_lemma. Qed.
Print Assumptions C60_only_adds.

Example C60_case :
  let s := add_all ["a.bbappend"; "l.conf"] demo_stash in
  map it_line (st_list s) = [1; 1]%Z /\
  map it_line (st_list (snd (add_file 4 q_env "a.bb" 0 None s))) = [6; 1; 3; 1; 2; 4; 5]%Z.
Proof. vm_compute. auto. Qed.

(** ** C62 *)

(** If AddFile neither changes the links of [f] nor adds items of [f] or of
    files linked to it, and no bbappend is involved, all queries for [f] have
    the same answer as before. *)
Theorem C62_frame : forall n e path off forced s r s' f c a v nolink,
  add_file n e path off forced s = (r, s') -> reach e s -> f <> [] ->
  dget f (st_map s') = dget f (st_map s) ->
  (forall i, In i (st_list s') -> st_next s <= it_id i -> it_origin i <> f /\ ~ linked s f (it_origin i)) ->
  (forall i d, In i (st_list s) -> it_origin i = f \/ linked s f (it_origin i) -> it_origin i <> d ++ ".bbappend") ->
  get_items_for e s' (MkQuery (Some f) c a v nolink) = get_items_for e s (MkQuery (Some f) c a v nolink).
Proof. exact C62_lemma. Qed.
Print Assumptions C62_frame.

Example C62_case :
  let s := add_all ["a.bb"] demo_stash in
  let s' := snd (add_file 4 q_env "l.conf" 0 None s) in
  dget "/w/a.bb" (st_map s') = Some ["/w/b.inc"] /\ dget "/w/a.bb" (st_map s) = Some ["/w/b.inc"] /\
  length (st_list s) = 5 /\ length (st_list s') = 6 /\ map it_origin (skipn 5 (st_list s')) = ["/w/l.conf"].
Proof. vm_compute. auto. Qed.
