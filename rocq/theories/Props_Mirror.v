(** * Property C132: mirrors *)

From Coq Require Import Permutation.
From Verif Require Import PyStr Regex Res Const Item PyPath Stash Demo Spec_Const Spec_Pkg Default Spec_Mirror Proofs_Mirror.

(** Every name of a mirror is replaced by what it stands for, and nothing else:
    GetScrComponents answers as for the text with the mirrors in place. *)
Theorem C132_stands : forall e s d x, mirrors (st_const s) d -> mirrors_ok d ->
  exists y, stands d x y /\ scr_components e s x = scr_components e (with_const (CDict []) s) y.
Proof. exact C132_stands_lemma. Qed.
Print Assumptions C132_stands.

(** The order of the mirrors does not matter. *)
Theorem C132_order : forall e s s' d d' x, mirrors (st_const s) d -> mirrors (st_const s') d' -> mirrors_ok d -> Permutation d d' ->
  scr_components e s' x = scr_components e s x.
Proof. exact C132_order_lemma. Qed.
Print Assumptions C132_order.

(** No name of a mirror is left, also not one that comes about by the replacement. *)
Theorem C132_clean : forall d x y k v, mirrors_ok d -> stands d x y -> In (k, v) d -> contains k y = false.
Proof. exact C132_clean_lemma. Qed.
Print Assumptions C132_clean.

(** All of this holds for the mirrors that come with the package. *)
Theorem C132_shipped : exists d, mirrors const_default d /\ mirrors_ok d /\ length d = 20.
Proof. exact C132_shipped_lemma. Qed.
Print Assumptions C132_shipped.

(** ** An example *)

Definition mi_env : env := MkEnv (demo_fs [] ["/w"] []) dedup_items dedup_str (fun i => it_raw i) (fun x => Some ([], [], x)).
Definition mi_db (l : list (str * str)) : cval :=
  CDict [("replacements", CDict [("mirrors", CDict (map (fun kv => (fst kv, CStr (snd kv))) l))])].
Definition mi_one : list (str * str) := [("${GNU}", "https://g"); ("${X_GNU}", "ftp://x/${PN}")].
Definition mi_two : list (str * str) := [("${X_GNU}", "ftp://x/${PN}"); ("${GNU}", "https://g")].
Notation mi_src l x := (scr_components mi_env (new_stash false false (mi_db l)) x).

Example C132_case : mirrors (mi_db mi_one) mi_one /\ mirrors (mi_db mi_two) mi_two /\ mirrors_ok mi_one /\ Permutation mi_one mi_two /\
  mi_src mi_one "${X_GNU}${GNU}/$${GNU}}${GN${GNU}U};a=1" = ([], "/ftp://x/${PN}https://g/$https://g}${GNhttps://gU}", [("a", "1")]) /\
  mi_src mi_two "${X_GNU}${GNU}/$${GNU}}${GN${GNU}U};a=1" = mi_src mi_one "${X_GNU}${GNU}/$${GNU}}${GN${GNU}U};a=1".
Proof.
  split; [vm_compute; reflexivity|]. split; [vm_compute; reflexivity|].
  split; [apply mirrors_okb_sound; vm_compute; reflexivity|]. split; [apply perm_swap|]. split; vm_compute; reflexivity.
Qed.

(** A mirror that stands for a text with another mirror: the order decides. *)
Theorem C132_nested_refuted : exists e s s' d d' x, mirrors (st_const s) d /\ mirrors (st_const s') d' /\ Permutation d d' /\
  (forall k v, In (k, v) d -> is_reference k /\ solid d v) /\
  scr_components e s' x <> scr_components e s x.
Proof.
  pose (d := [("${A}", "http://a"); ("${B}", "x:${A}/b")] : list (str * str)).
  pose (d' := [("${B}", "x:${A}/b"); ("${A}", "http://a")] : list (str * str)).
  exists mi_env, (new_stash false false (mi_db d)), (new_stash false false (mi_db d')), d, d', "${B}/c".
  split; [vm_compute; reflexivity|]. split; [vm_compute; reflexivity|]. split; [apply perm_swap|]. split.
  - assert (F : forall c, c = 58%N \/ c = 47%N -> foreign d c).
    { intros c Hc k v Hi K. destruct Hi as [E|[E|[]]]; injection E as <- <-; vm_compute in K; destruct Hc as [->| ->];
        repeat (destruct K as [K|K]; [discriminate|]); exact K. }
    intros k v [E|[E|[]]]; injection E as <- <-; (split; [eexists [_]; split; [reflexivity|];
      split; [|split]; intros [K|[]]; discriminate|]).
    + split; [exists "http", 58%N, "//a"|exists "http", 58%N, "//a"]; (split; [reflexivity|split; [intro K; vm_compute in K; tauto || (repeat destruct K as [K|K]; discriminate || exact K)|]]).
      * apply F. now left.
      * right. apply F. now left.
    + split; [exists "x", 58%N, "${A}/b"|exists "x:${A}", 47%N, "b"]; (split; [reflexivity|split; [intro K; vm_compute in K; repeat (destruct K as [K|K]; [discriminate|]); exact K|]]).
      * apply F. now left.
      * right. apply F. now right.
  - vm_compute. discriminate.
Qed.
Print Assumptions C132_nested_refuted.

(** ** The constants that come with the package have the shape that other theorems ask for *)

Example shipped_names : names_ok const_default /\ keys_once const_default.
Proof.
  split.
  - split; [eexists; reflexivity|]. split.
    + intros v H. inversion H. eexists. reflexivity.
    + intros key v [<-|[<-|[]]] H; inversion H; eexists; reflexivity.
  - assert (N : forall l, dedup_str l = l -> NoDup l) by (intros l E; rewrite <- E; apply QueryFacts.dedup_str_NoDup).
    cbn [keys_once const_default]. repeat split; try (apply N; vm_compute; reflexivity).
Qed.
