(** * Property C99, with the constants that all stashes share *)

From Coq Require Import Permutation.
From Verif Require Import PyStr Regex Patterns PyPath Res Inline Const Item Access Lines Stash Demo Spec_Const ReachFacts Cache Spec_Cache
  Many Spec_Many Shared Proofs_Shared.

(** AddFile of one stash extends the constants that the others read by distros and
    machines; still a stash answers its calls as if it were alone.  What is missing is
    what C33 misses. *)
Theorem C99_shared_partial : forall e db nw neg before after, env_ok e -> names_ok db ->
  served e true (new_stash nw neg db) (calls_on (made before) after) ->
  answers_on (made before) (fst (scalls_c e (before ++ MNew nw neg :: after) (db, []))) =
  fst (plain_calls e (calls_on (made before) after) (new_stash nw neg db)).
Proof. exact C99_shared_lemma. Qed.
Print Assumptions C99_shared_partial.

(** ** An example: the first stash reads a recipe of a layer with a distro, the second one without *)

Definition sh_env : env :=
  MkEnv (demo_fs [("/w/a.bb", "A_d1 = ""1""" ++ nl); ("/l/conf/layer.conf", ""); ("/l/r/b.bb", "B = ""1""" ++ nl)] ["/w"; "/l"; "/l/r"; "/"]
           [("/l/conf/distro/*.conf", ["/l/conf/distro/d1.conf"])])
        dedup_items dedup_str (fun i => it_raw i) (fun _ => None).
Definition sh_db : cval := CDict [("replacements", CDict [("distros", CList ["poky"])]); ("images", CDict [("known-classes", CList ["image"])])].
Definition sh_before : list mcall := [MNew false false].
Definition sh_vars : call := CItems (MkQuery (Some "/w/a.bb") (AOne "Variable") ANone ANone false).
Definition sh_after : list mcall :=
  [MOn 1 (CAdd 4 "/w/a.bb" 0 None) false; MOn 1 (CImage "/w/a.bb") false; MOn 0 (CAdd 4 "/l/r/b.bb" 0 None) false;
   MOn 1 (CImage "/w/a.bb") false; MOn 1 sh_vars false].
Notation sh_run l := (scalls_c sh_env l (sh_db, [])).

Lemma sh_names : names_ok sh_db.
Proof.
  split; [eexists; reflexivity|]. split.
  - intros v H. inversion H. eexists. reflexivity.
  - intros key v [<-|[<-|[]]] H; inversion H. eexists. reflexivity.
Qed.
Lemma sh_env_ok : env_ok sh_env.
Proof. split; intro l; apply Permutation_refl. Qed.

Example C99_case_shared : env_ok sh_env /\ names_ok sh_db /\
  served sh_env true (new_stash false false sh_db) (calls_on (made sh_before) sh_after) /\
  fst (snd (sh_run (sh_before ++ MNew false false :: sh_after))) =
    CDict [("replacements", CDict [("distros", CList ["poky"; "d1"])]); ("images", CDict [("known-classes", CList ["image"])])].
Proof.
  split; [apply sh_env_ok|]. split; [apply sh_names|]. split; [|vm_compute; reflexivity].
  change (calls_on (made sh_before) sh_after) with [CAdd 4 "/w/a.bb" 0 None; CImage "/w/a.bb"; CImage "/w/a.bb"; sh_vars]. unfold sh_vars.
  eapply served_add; [vm_compute; reflexivity| |].
  - intro K. apply Proofs_Cache.early_iff in K. vm_compute in K. discriminate K.
  - do 3 (apply served_query; [exact I|discriminate|]). apply served_end.
Qed.

(** An item itself, however, tells another distro after another stash has read a file. *)
Definition sh_item (x : shared) : item :=
  match nth_error (snd x) 1 with
  | Some y => nth 0 (st_list (fst y)) (mk_item (MkParam 0 0 0 [] [] [] [] false) false PItem)
  | None => mk_item (MkParam 0 0 0 [] [] [] [] false) false PItem
  end.
Theorem C99_distro_refuted : exists e db ms m, env_ok e /\ names_ok db /\ calls_on 1 [m] = [] /\
  let x := snd (scalls_c e ms (db, [])) in
  let y := snd (scalls_c e (ms ++ [m]) (db, [])) in
  it_id (sh_item y) = it_id (sh_item x) /\ nth_error (snd y) 1 <> None /\
  distro_entry (fst x) (sh_item x) = [] /\ distro_entry (fst y) (sh_item y) = "d1".
Proof.
  exists sh_env, sh_db, [MNew false false; MNew false false; MOn 1 (CAdd 4 "/w/a.bb" 0 None) false], (MOn 0 (CAdd 4 "/l/r/b.bb" 0 None) false).
  split; [apply sh_env_ok|]. split; [apply sh_names|]. split; [reflexivity|]. cbv zeta.
  split; [vm_compute; reflexivity|]. split; [vm_compute; discriminate|]. split; vm_compute; reflexivity.
Qed.
Print Assumptions C99_distro_refuted.
