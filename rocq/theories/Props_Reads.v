(** * Property C131 *)

From Verif Require Import PyStr Regex Patterns PyPath Res Inline Const Item Lines Stash Demo Spec_Const Spec_Reads Proofs_Reads.

(** Of the constants, AddFile reads the known functions, the ignored classes and
    includes, and the base set of values.  With another database that has the same
    there, it returns the same and leaves the same stash behind, but for the
    database (see C64 for what it adds to it). *)
Theorem C131_add : forall n e path off forced s db, names_ok (st_const s) -> names_ok db ->
  same_at add_places (st_const s) db ->
  exists db', add_file n e path off forced (with_const db s) =
    (fst (add_file n e path off forced s), with_const db' (snd (add_file n e path off forced s))).
Proof. exact C131_add_lemma. Qed.
Print Assumptions C131_add.

(** Values depend on the base set only. *)
Theorem C131_values : forall e s db, same_at value_places (st_const s) db ->
  (forall file v spare seen o, expand_term_full e (with_const db s) file v spare seen o = expand_term_full e s file v spare seen o) /\
  (forall file att val nolink, expand_var e (with_const db s) file att val nolink = expand_var e s file att val nolink) /\
  (forall file strip, valid_package_names e (with_const db s) file strip = valid_package_names e s file strip) /\
  (forall file, packages_dynamic e (with_const db s) file = packages_dynamic e s file) /\
  (forall file name, is_dynamic_package e (with_const db s) file name = is_dynamic_package e s file name).
Proof. exact C131_values_lemma. Qed.
Print Assumptions C131_values.

(** The parts of SRC_URI depend on the mirrors only. *)
Theorem C131_uri : forall e s db, same_at mirror_places (st_const s) db ->
  (forall x, scr_components e (with_const db s) x = scr_components e s x) /\
  (forall file, valid_named_resources e (with_const db s) file = valid_named_resources e s file).
Proof. exact C131_uri_lemma. Qed.
Print Assumptions C131_uri.

(** Whether a recipe is an image depends on the known classes and variables only. *)
Theorem C131_image : forall e s db, same_at image_places (st_const s) db ->
  forall file, is_image e (with_const db s) file = is_image e s file.
Proof. exact C131_image_lemma. Qed.
Print Assumptions C131_image.

(** ** An example: two databases that differ everywhere else *)

Definition rd_env : env :=
  MkEnv (demo_fs [("/w/a.bb", "require ${N}.inc" ++ nl ++ "inherit c" ++ nl ++ "do_install_x() {" ++ nl ++ "}" ++ nl);
                  ("/w/i.inc", "I = ""1""" ++ nl); ("/w/classes/c.bbclass", "C = ""2""" ++ nl)] ["/w"; "/w/classes"; "/"] [])
        dedup_items dedup_str (fun i => it_raw i) (fun x => Some ([], [], x)).
Definition rd_db (fk cl inc base mir img vars : list str) : cval :=
  CDict [("functions", CDict [("known", CList fk)]);
         ("ignore", CDict [("classes", CList cl); ("include", CList inc)]);
         ("sets", CDict [("base", CDict (map (fun v => ("N" : str, CStr v)) base))]);
         ("replacements", CDict [("mirrors", CDict (map (fun v => ("M" : str, CStr v)) mir))]);
         ("images", CDict [("known-classes", CList img); ("known-variables", CList vars)])].
Definition rd_one : cval := rd_db ["do_install"] [] [] ["i"] [] [] [].
Definition rd_two : cval := rd_db ["do_install"] [] [] ["i"] ["m"] ["c"] ["I"].
Notation rd_add db := (add_file 4 rd_env "/w/a.bb" 0 None (new_stash false false db)).
Definition written_in (s : stash) : list (str * str) := map (fun i => (it_origin i, it_raw i)) (st_list s).

Lemma rd_names : forall fk cl inc base mir img vars, names_ok (rd_db fk cl inc base mir img vars).
Proof.
  intros. split; [eexists; reflexivity|]. split.
  - intros v H. inversion H. eexists. reflexivity.
  - intros key v [<-|[<-|[]]] H; inversion H.
Qed.
Lemma rd_reach : forall p fk cl inc base mir img vars, In p (add_places ++ value_places ++ mirror_places ++ image_places) ->
  reachable_at p (rd_db fk cl inc base mir img vars).
Proof.
  intros p fk cl inc base mir img vars H q k r v E K.
  destruct q as [|k1 [|k2 q]]; [injection K as <-; eexists; reflexivity| |].
  - repeat (destruct H as [<-|H]; [injection E as <- _ _; injection K as <-; eexists; reflexivity|]). destruct H.
  - exfalso. assert (L : length p = 2). { clear -H. repeat (destruct H as [<-|H]; [reflexivity|]). destruct H. }
    rewrite E in L. cbn in L. rewrite app_length in L. cbn in L. rewrite <- plus_n_Sm in L. discriminate.
Qed.

Example C131_case : names_ok rd_one /\ names_ok rd_two /\ same_at add_places rd_one rd_two /\ same_at value_places rd_one rd_two /\
  at_path ["images"] rd_two <> at_path ["images"] rd_one /\
  at_path ["replacements"] rd_two <> at_path ["replacements"] rd_one /\
  written_in (snd (rd_add rd_one)) =
    [("/w/i.inc", "I = ""1""" ++ nl); ("/w/classes/c.bbclass", "C = ""2""" ++ nl);
     ("/w/a.bb", "require ${N}.inc" ++ nl); ("/w/a.bb", "inherit c" ++ nl); ("/w/a.bb", "do_install_x() {" ++ nl ++ "}" ++ nl)].
Proof.
  split; [apply rd_names|]. split; [apply rd_names|].
  split; [|split; [|split; [vm_compute; discriminate|split; [vm_compute; discriminate|vm_compute]]]].
  - intros p H. split; [|split; apply rd_reach; apply in_or_app; now left]. repeat (destruct H as [<-|H]; [reflexivity|]). destruct H.
  - intros p H. split; [|split; apply rd_reach; apply in_or_app; right; apply in_or_app; now left].
    repeat (destruct H as [<-|H]; [reflexivity|]). destruct H.
  - reflexivity.
Qed.

(** Each of the places does matter. *)
Definition suffixes (s : stash) : list str :=
  flat_map (fun i => match it_pay i with PFunction _ _ _ sub _ _ _ => [sub] | _ => [] end) (st_list s).
Definition others (p : list str) (ps : list (list str)) (db db' : cval) : Prop :=
  forall q, In q ps -> q <> p -> at_path q db' = at_path q db.
Theorem C131_each : forall p, In p add_places ->
  exists (n : nat) (e : env) (path : str) (s : stash) (db : cval), names_ok (st_const s) /\ names_ok db /\ others p add_places (st_const s) db /\
    st_list (snd (add_file n e path 0 None (with_const db s))) <> st_list (snd (add_file n e path 0 None s)).
Proof.
  assert (O : forall p fk cl inc base fk' cl' inc' base',
    (p <> ["functions"; "known"] -> fk' = fk) -> (p <> ["ignore"; "classes"] -> cl' = cl) ->
    (p <> ["ignore"; "include"] -> inc' = inc) -> (p <> ["sets"; "base"] -> base' = base) ->
    others p add_places (rd_db fk cl inc base [] [] []) (rd_db fk' cl' inc' base' [] [] [])).
  { intros p fk cl inc base fk' cl' inc' base' H1 H2 H3 H4 q H Hq.
    destruct H as [<-|[<-|[<-|[<-|[]]]]]; [rewrite H1|rewrite H2|rewrite H3|rewrite H4]; auto; reflexivity. }
  intros p H. exists 4, rd_env, "/w/a.bb", (new_stash false false rd_one).
  destruct H as [<-|[<-|[<-|[<-|[]]]]].
  - exists (rd_db ["do_install_x"] [] [] ["i"] [] [] []).
    split; [apply rd_names|]. split; [apply rd_names|]. split; [apply O; try reflexivity; intro K; now destruct K|].
    intro K. apply (f_equal (fun l => suffixes (with_list l demo_stash))) in K. vm_compute in K. discriminate K.
  - exists (rd_db ["do_install"] ["c"] [] ["i"] [] [] []).
    split; [apply rd_names|]. split; [apply rd_names|]. split; [apply O; try reflexivity; intro K; now destruct K|].
    intro K. apply (f_equal (fun l => written_in (with_list l demo_stash))) in K. vm_compute in K. discriminate K.
  - exists (rd_db ["do_install"] [] ["i.inc"] ["i"] [] [] []).
    split; [apply rd_names|]. split; [apply rd_names|]. split; [apply O; try reflexivity; intro K; now destruct K|].
    intro K. apply (f_equal (fun l => written_in (with_list l demo_stash))) in K. vm_compute in K. discriminate K.
  - exists (rd_db ["do_install"] [] [] [] [] [] []).
    split; [apply rd_names|]. split; [apply rd_names|]. split; [apply O; try reflexivity; intro K; now destruct K|].
    intro K. apply (f_equal (fun l => written_in (with_list l demo_stash))) in K. vm_compute in K. discriminate K.
Qed.
Print Assumptions C131_each.
