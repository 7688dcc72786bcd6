(** * Property C96: when AddFile raises *)

From Verif Require Import PyStr Regex Patterns PyPath Res Inline Const Item Lines Stash Demo StrFacts
  Spec_Const Spec_Group Proofs_Group Spec_Include Props_Include Spec_Total Proofs_Total.

(** ** C96 *)

(** If AddFile raises, then one of the files of the call ends within a statement,
    or is there but cannot be read, or is a bbappend with an odd name. *)
Theorem C96_raises : forall n e path off forced s ex s', names_ok (st_const s) ->
  add_file n e path off forced s = (Raise ex, s') ->
  (ex = StopIteration /\ exists f, read_by e path f /\ unfinished e f) \/
  (ex = OSError /\ exists f, unreadable e f /\ (read_by e path f \/ fs_read (e_fs e) f = RdOther)) \/
  (ex = RegexUnsupported /\ exists f, odd_name f /\ (read_by e path f \/ exists i, In i (st_list s) /\ it_origin i = f)).
Proof. exact raises_why. Qed.
Print Assumptions C96_raises.

(** Otherwise it returns. *)
Theorem C96_completes : forall e F rank path off forced s, env_ok e -> fs_isdir (e_fs e) [] = false ->
  ranked e F rank -> (forall f, In f F -> startswith [cSL; cSL] f = false) -> In (abspath (fs_cwd (e_fs e)) path) F ->
  names_ok (st_const s) ->
  (forall f, In f F -> ~ unfinished e f) -> (forall f, ~ unreadable e f) ->
  (forall f, In f F \/ (exists i, In i (st_list s) /\ it_origin i = f) -> ~ odd_name f) ->
  exists n, forall m, n <= m -> exists l s', add_file m e path off forced s = (Ok l, s').
Proof. exact completes. Qed.
Print Assumptions C96_completes.

Lemma demo_names : names_ok no_const.
Proof. split; [eexists; reflexivity|]. split; intros; discriminate. Qed.

Lemma finished : forall e f t, fs_read (e_fs e) f = RdText t ->
  is_ok (prepare_text 0 false (universal_newlines t)) = true -> ~ unfinished e f.
Proof.
  intros e f t Hr H [t' [gs [u [Hr' [H1 H2]]]]]. rewrite Hr in Hr'. injection Hr' as <-.
  assert (E : prepare_text 0 false (universal_newlines t) = Raise StopIteration) by (apply prepare_waiting; eauto).
  rewrite E in H. discriminate.
Qed.

(** A recipe, an include and two classes that inherit each other. *)
Example C96_completes_case : exists n, forall m, n <= m -> exists l s', add_file m t_env "a.bb" 0 None demo_stash = (Ok l, s').
Proof.
  apply (C96_completes t_env t_files t_rank).
  - apply demo_env_ok.
  - reflexivity.
  - split.
    + intros f g Hf Hp. now apply (t_pulls f g).
    + intros f g Hf Hp Hr. destruct (t_pulls f g Hf Hp) as [_ H]. destruct (H Hr) as [-> ->]. vm_compute. lia.
  - intros f Hf. destruct Hf as [<-|[<-|[<-|[<-|[]]]]]; reflexivity.
  - left. reflexivity.
  - exact demo_names.
  - intros f Hf. destruct Hf as [<-|[<-|[<-|[<-|[]]]]]; (eapply finished; [vm_compute; reflexivity|vm_compute; reflexivity]).
  - intros f [H|H]; unfold t_env, demo_env, demo_fs in H; cbn [e_fs fs_read] in H; destruct (dget _ _); discriminate.
  - intros f [Hf|[i [[] _]]] [Hb _]. destruct Hf as [<-|[<-|[<-|[<-|[]]]]]; vm_compute in Hb; discriminate.
Qed.

(** Each of the reasons occurs: a class ends within a function, a file cannot be
    opened, a bbappend is named like a broken pattern. *)
Definition w_env : env := demo_env
  [ ("/w/a.bb", "inherit k" ++ nl); ("/w/classes/k.bbclass", "A = 1" ++ nl ++ "do_x() {" ++ nl) ] ["/w"; "/w/classes"; "/"].
Example C96_unfinished_case : fst (add_file 5 w_env "a.bb" 0 None demo_stash) = Raise StopIteration.
Proof. vm_compute. reflexivity. Qed.
Definition d_env : env :=
  MkEnv (MkFs (fun p => if str_eqb p "/w/a.bb" then RdText ("inherit k" ++ nl)
                        else if str_eqb p "/w/classes/k.bbclass" then RdDenied else RdNotFound)
              (fun p => mem_str p ["/w/a.bb"; "/w/classes/k.bbclass"; "/w"; "/w/classes"; "/"])
              (fun p => mem_str p ["/w/a.bb"; "/w/classes/k.bbclass"])
              (fun p => mem_str p ["/w"; "/w/classes"; "/"]) (fun _ => []) "/w")
        dedup_items dedup_str (fun i => it_raw i) (fun _ => None).
Example C96_unreadable_case : fst (add_file 5 d_env "a.bb" 0 None demo_stash) = Raise OSError.
Proof. vm_compute. reflexivity. Qed.
Definition o_env : env := demo_env [ ("/w/(a_%.bbappend", "A = 1" ++ nl) ] ["/w"; "/"].
Example C96_odd_case : fst (add_file 5 o_env "(a_%.bbappend" 0 None demo_stash) = Raise RegexUnsupported.
Proof. vm_compute. reflexivity. Qed.
