(** * Properties C112 and C113: what the fingerprint tells *)

From Coq Require Import Permutation.
From Verif Require Import PyStr Regex Patterns PyPath Res Inline Const Item Lines Stash Repr Demo
  StrFacts Spec_Query Spec_Fingerprint Proofs_Fingerprint.

(** ** C112 *)

(** If the fingerprints of two stashes, maybe of different runs, digest the same
    text then the settings are the same and so are the items, in order. *)
Theorem C112_identifies : forall pr e e' new neg new' neg' s s', env_ok e -> env_ok e' -> prints e pr -> prints e' pr ->
  filled e new neg s -> filled e' new' neg' s' -> digested s = digested s' ->
  new = new' /\ neg = neg' /\ Forall2 alike (st_list s) (st_list s').
Proof. exact C112_identifies_lemma. Qed.
Print Assumptions C112_identifies.

(** No character beyond ASCII is printable here. *)
Definition fp_pr (c : N) : bool := false.
Definition fp_files : list (str * str) :=
  [ ("/w/a.bb", "inherit k l" ++ nl ++ "A = ""it's""" ++ nl); ("/w/b.bb", "inherit k" ++ nl ++ "B = ""1""" ++ nl);
    ("/w/classes/k.bbclass", "K = ""1""" ++ nl); ("/w/classes/l.bbclass", "L_x = ""2""" ++ nl ++ "# c" ++ nl) ].
Definition fp_fs : fs := demo_fs fp_files ["/w"; "/"; "/w/classes"] [].
(** Two runs on these files; sets iterate in opposite orders. *)
Definition fp_env : env := MkEnv fp_fs dedup_items dedup_str (item_repr fp_pr dedup_str) (fun _ => None).
Definition fp_env2 : env :=
  MkEnv fp_fs dedup_items (fun l => rev (dedup_str l)) (item_repr fp_pr (fun l => rev (dedup_str l))) (fun _ => None).
Definition fp_add (e : env) (l : list str) : stash := fold_left (fun s p => snd (add_file 3 e p 0 None s)) l demo_stash.

Lemma fp_env_ok : env_ok fp_env /\ env_ok fp_env2.
Proof.
  split; split; intro l; simpl; try apply Permutation_refl. apply Permutation_sym, Permutation_rev.
Qed.
Lemma fp_prints : prints fp_env fp_pr /\ prints fp_env2 fp_pr.
Proof. split; intro i; reflexivity. Qed.
Lemma fp_filled : forall e l, filled e false false (fp_add e l).
Proof.
  intros e l. unfold fp_add. cut (filled e false false demo_stash); [|apply filled_new]. generalize demo_stash.
  induction l as [|p l IH]; intros s Hs; [exact Hs|]. cbn [fold_left]. apply IH.
  eapply filled_add; [exact Hs|apply surjective_pairing].
Qed.

(** Both runs print the same for the second file; the text of a variable. *)
Example C112_case : digested (fp_add fp_env ["b.bb"]) = digested (fp_add fp_env2 ["b.bb"]) /\
  map (e_repr fp_env) (firstn 1 (st_list (fp_add fp_env ["b.bb"]))) =
    ["Variable -- {'VarName': 'K', 'SubItem': '', 'SubItems': [], 'VarValue': '""1""', 'VarOp': ' = ', " ++
     "'VarNameComplete': 'K', 'VarNameCompleteNoModifiers': 'K', 'RawVarName': 'K', 'VarValueStripped': '1', " ++
     "'Line': 2, 'Raw': 'K = ""1""\n', 'Origin': '/w/classes/k.bbclass', 'InFileLine': 1, 'RealRaw': 'K = ""1""\n', " ++
     "'IsFromClass': True, 'OverrideDelimiter': '_', 'IsNewStyleOverrideSyntax': False, 'InlineBlocks': [], " ++
     "'IncludedFrom': set()}" ++ nl].
Proof. split; vm_compute; reflexivity. Qed.

(** ** C113 *)

(** Two runs that end with the same items have the same fingerprint, if no
    inherit found several classes and no item is from a bbappend. *)
Theorem C113_same_partial : forall pr e e' new neg s s', env_ok e -> env_ok e' -> prints e pr -> prints e' pr ->
  filled e new neg s -> filled e' new neg s' -> Forall2 shown_same (st_list s) (st_list s') ->
  Forall (fun i => it_incfrom i = [] /\ one_path (it_pay i) /\ forall d, it_origin i <> d ++ ".bbappend") (st_list s) ->
  digested s = digested s'.
Proof. exact C112_seed_lemma. Qed.
Print Assumptions C113_same_partial.

Lemma fp_refl : forall m, Forall2 shown_same m m.
Proof. induction m as [|i m IH]; constructor; [repeat split|exact IH]. Qed.

Example C113_case : forall l, l = st_list (fp_add fp_env ["b.bb"]) -> length l = 3 /\
  Forall2 shown_same l (st_list (fp_add fp_env2 ["b.bb"])) /\
  Forall (fun i => it_incfrom i = [] /\ one_path (it_pay i)) l /\ existsb (endswith ".bbappend") (map it_origin l) = false.
Proof.
  intros l ->. split; [vm_compute; reflexivity|]. split.
  - assert (E : st_list (fp_add fp_env2 ["b.bb"]) = st_list (fp_add fp_env ["b.bb"])) by (vm_compute; reflexivity).
    exact (eq_ind _ (fun m => Forall2 shown_same (st_list (fp_add fp_env ["b.bb"])) m) (fp_refl _) _ (eq_sym E)).
  - split; [|vm_compute; reflexivity]. apply Forall_forall. intros i Hi.
    assert (H : forallb (fun i => match it_incfrom i with [] => true | _ => false end &&
       match it_pay i with PInherit _ _ (_ :: _ :: _) => false | _ => true end) (st_list (fp_add fp_env ["b.bb"])) = true)
      by (vm_compute; reflexivity).
    rewrite forallb_forall in H. specialize (H i Hi). apply andb_true_iff in H. destruct H as [H1 H2].
    split; [destruct (it_incfrom i); [reflexivity|discriminate H1]|].
    clear Hi. unfold one_path. destruct (it_pay i) as [| | | | | | | | | | | | | | |c st ps|]; try exact I.
    destruct ps as [|a [|b ps]]; [intros x y []|intros x y [<-|[]] [<-|[]]; reflexivity|discriminate H2].
Qed.

(** The same files give different fingerprints in runs with different order of
    sets: an inherit shows the set of the class files it found. *)
Theorem C113_refuted : exists pr e e' path s s', env_ok e /\ env_ok e' /\ prints e pr /\ prints e' pr /\ same_world e e' /\
  snd (add_file 3 e path 0 None demo_stash) = s /\ snd (add_file 3 e' path 0 None demo_stash) = s' /\
  st_list s = st_list s' /\ digested s <> digested s'.
Proof.
  exists fp_pr, fp_env, fp_env2, "a.bb", (snd (add_file 3 fp_env "a.bb" 0 None demo_stash)),
    (snd (add_file 3 fp_env2 "a.bb" 0 None demo_stash)).
  split; [apply fp_env_ok|]. split; [apply fp_env_ok|]. split; [apply fp_prints|]. split; [apply fp_prints|].
  split; [split; reflexivity|]. split; [exact eq_refl|]. split; [exact eq_refl|]. split; [vm_compute; reflexivity|].
  assert (E : str_eqb (digested (snd (add_file 3 fp_env "a.bb" 0 None demo_stash)))
                (digested (snd (add_file 3 fp_env2 "a.bb" 0 None demo_stash))) = false) by (vm_compute; reflexivity).
  intro H. exact (Bool.diff_false_true (eq_trans (eq_sym E) (eq_trans (f_equal (str_eqb _) (eq_sym H)) (str_eqb_refl _)))).
Qed.
Print Assumptions C113_refuted.
