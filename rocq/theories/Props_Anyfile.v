(** * Property C119: ExpandVar without a file name *)

From Verif Require Import PyStr Regex Patterns PyPath Res Inline Const Item Lines Stash Demo
  ReachFacts Spec_Query Spec_Expand VarFacts Proofs_Anyfile.
From Coq Require Import Permutation Sorted.

(** Without a file name all variables of the stash are taken in the order of
    their lines, whatever file they are from; the names, the version and the
    references are those of the file of one variable on the first line. *)
Theorem C119_values : forall e s att val nolink d, env_ok e -> reach e s ->
  NoDup (dkeys (sets_base (st_const s))) -> (forall k, In k (dkeys (sets_base (st_const s))) -> plain_text k) ->
  expand_var e s None att val nolink = Ok d ->
  exists l,
    (forall i, In i l <-> In i (st_list s) /\
       (selected s (MkQuery None (AOne "Variable") att val nolink) i \/
        selected s (MkQuery None (AOne "Unset") ANone ANone false) i)) /\
    NoDup (map it_id l) /\ StronglySorted by_line l /\
    ((l = [] /\ d = []) \/
     exists i0, In i0 l /\
       (forall j, In j l -> classifier j = "Variable" -> classifier i0 = "Variable" /\ (it_line i0 <= it_line j)%Z) /\
       ((forall i, In i l -> plain_text (item_name_nomod i)) ->
        forall n evs, history n l evs ->
          (fold_left at_once evs (preset s (it_origin i0) n) = None -> forall v, ~ In (LateRemoves v) evs) ->
          match assigned (preset s (it_origin i0) n) evs with
          | Some v => exists w, expand_term e s (it_origin i0) v = Ok w /\ dget n d = Some (safe_linesplit w)
          | None => dget n d = None \/ (left_over evs /\ dget n d = Some [])
          end)).
Proof. exact C119_lemma. Qed.
Print Assumptions C119_values.

(** The file name may be left out if all that is found is from that file.
    Missing from the full statement: see C119_refuted. *)
Theorem C119_one_partial : forall e s f att val nolink, env_ok e -> reach e s ->
  (forall i, In i (st_list s) -> selected s (MkQuery None (AOne "Variable") att val nolink) i \/ classifier i = "Unset" ->
     it_origin i = f) ->
  (exists i, In i (st_list s) /\ (selected s (MkQuery None (AOne "Variable") att val nolink) i \/ classifier i = "Unset")) ->
  expand_var e s None att val nolink = expand_var e s (Some f) att val nolink.
Proof. exact C119_one_lemma. Qed.
Print Assumptions C119_one_partial.

(** ** Examples *)

Definition an_files : list (str * str) :=
  [ ("/w/a_1.bb", "A = ""1 ${PN}""" ++ nl); ("/w/b_2.bb", "B = ""2""" ++ nl ++ "A .= ""x""" ++ nl) ].
Definition an_env : env := demo_env an_files ["/w"; "/"].
Definition an_rev : env :=
  MkEnv (e_fs an_env) (fun l => rev (dedup_items l)) (fun l => rev (dedup_str l)) (e_repr an_env) (e_url an_env).
Definition an_add (e : env) (l : list str) : stash :=
  fold_left (fun s p => snd (add_file 4 e p 0 None s)) l demo_stash.
Lemma an_reach : forall e l, reach e (an_add e l).
Proof.
  intros e l. unfold an_add. assert (H : forall s, reach e s -> reach e (fold_left (fun s p => snd (add_file 4 e p 0 None s)) l s)).
  { induction l as [|p l IH]; intros s Hs; [exact Hs|]. apply IH. destruct Hs as [nw [neg [db H]]].
    exists nw, neg, db. eapply steps_add; [exact H|apply surjective_pairing]. }
  apply H. exists false, false, no_const. apply steps_refl.
Qed.
Lemma an_rev_ok : env_ok an_rev.
Proof. split; intro l; simpl; symmetry; apply Permutation_rev. Qed.

Definition an_get (e : env) (l : list str) (f : option str) (n : str) : option (list str) :=
  match expand_var e (an_add e l) f ANone ANone false with Ok d => dget n d | _ => None end.

(** One recipe: with and without its name the same. *)
Example C119_case :
  map it_origin (st_list (an_add an_env ["a_1.bb"])) = ["/w/a_1.bb"] /\
  map classifier (st_list (an_add an_env ["a_1.bb"])) = ["Variable"] /\
  an_get an_env ["a_1.bb"] None "A" = Some ["1"; "a"] /\
  an_get an_env ["a_1.bb"] (Some "/w/a_1.bb") "A" = Some ["1"; "a"] /\
  an_get an_env [] None "PN" = None.
Proof. vm_compute. auto 6. Qed.

(** Two recipes: the values are mixed, and the order of a set decides which
    recipe gives the name. *)
Theorem C119_refuted : exists e e' s d d' v v',
  env_ok e /\ env_ok e' /\ e_fs e = e_fs e' /\ reach e s /\ reach e' s /\
  expand_var e s None ANone ANone false = Ok d /\ expand_var e' s None ANone ANone false = Ok d' /\
  dget "PN" d = Some v /\ dget "PN" d' = Some v' /\ v <> v' /\
  dget "A" d = Some ["1"; "ax"] /\
  match expand_var e s (Some "/w/a_1.bb") ANone ANone false with Ok x => dget "A" x = Some ["1"; "a"] | _ => False end.
Proof.
  assert (E : an_add an_env ["a_1.bb"; "b_2.bb"] = an_add an_rev ["a_1.bb"; "b_2.bb"]) by (vm_compute; reflexivity).
  exists an_env, an_rev, (an_add an_env ["a_1.bb"; "b_2.bb"]). do 4 eexists.
  split; [apply demo_env_ok|]. split; [apply an_rev_ok|]. split; [reflexivity|]. split; [apply an_reach|].
  split; [rewrite E; apply an_reach|].
  split; [vm_compute; reflexivity|]. split; [vm_compute; reflexivity|].
  split; [vm_compute; reflexivity|]. split; [vm_compute; reflexivity|].
  split; [discriminate|]. split; vm_compute; reflexivity.
Qed.
Print Assumptions C119_refuted.
