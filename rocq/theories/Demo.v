(** * Concrete environments for the examples beside the theorems

    Nothing of /repo is modelled here. *)

From Verif Require Import PyStr Regex Res Const Item PyPath Stash StrFacts.
From Coq Require Import Permutation.

(** A file system given by its files and directories. *)
Definition demo_fs (files : list (str * str)) (dirs : list str) (globs : list (str * list str)) : fs :=
  MkFs (fun p => match dget p files with Some t => RdText t | None => RdNotFound end)
       (fun p => dhas p files || mem_str p dirs)
       (fun p => dhas p files)
       (fun p => mem_str p dirs)
       (fun p => match dget p globs with Some l => l | None => [] end)
       "/w".

(** Sets iterate in order of insertion. *)
Definition demo_env (files : list (str * str)) (dirs : list str) : env :=
  MkEnv (demo_fs files dirs []) dedup_items dedup_str (fun i => it_raw i) (fun _ => None).

Lemma demo_env_ok : forall files dirs, env_ok (demo_env files dirs).
Proof. intros files dirs. split; intro l; apply Permutation_refl. Qed.

(** The empty constant database. *)
Definition no_const : cval := CDict [].
Definition demo_stash : stash := new_stash false false no_const.

(** Items of a result, empty if there is none. *)
Definition ok_items (x : Res.res (list item) * stash) : list item :=
  match fst x with Ok l => l | _ => [] end.
Definition is_ok {A} (x : Res.res A) : bool := match x with Ok _ => true | _ => false end.
(** A newline. *)
Definition nl : str := [cNL].
