(** * Property C66 for patterns in general *)

From Verif Require Import PyStr Regex PyPath Res Const Item Lines Stash Demo ReachFacts Spec_Query Spec_Expand Spec_Pkg
  Proofs_Pkg Props_Pkg Spec_Pattern Proofs_Pattern.

(** If all entries are rows of signs with a number of times, a package is dynamic if
    its expanded name agrees with one of them. *)
Theorem C66_pattern : forall e s file name, env_ok e -> reach e s ->
  (forall i v l p, shown s file "PACKAGES_DYNAMIC" i -> expand_term e s file (stripped i) = Ok v -> cuts blank v l -> In p l ->
     exists caret ps dollar, Forall written ps /\ p = pattern_text caret ps dollar) ->
  forall b, is_dynamic_package e s file name = Ok b ->
  (b = true <-> exists n i v l caret ps dollar, expand_term e s file name = Ok n /\
     shown s file "PACKAGES_DYNAMIC" i /\ expand_term e s file (stripped i) = Ok v /\ cuts blank v l /\
     In (pattern_text caret ps dollar) l /\ Forall written ps /\ agrees ps dollar n).
Proof. exact C66_pattern_lemma. Qed.
Print Assumptions C66_pattern.

(** An entry that begins with a number of times is never passed over: no package is
    told not to be dynamic then. *)
Theorem C66_unread : forall e s file name i v l c t, env_ok e -> reach e s ->
  shown s file "PACKAGES_DYNAMIC" i -> expand_term e s file (stripped i) = Ok v -> cuts blank v l ->
  In c "*+?" -> In (c :: t) l \/ In ("^" ++ c :: t) l -> is_dynamic_package e s file name <> Ok false.
Proof. exact C66_unread_lemma. Qed.
Print Assumptions C66_unread.

(** ** A case *)

Definition pt_files : list (str * str) :=
  [ ("/w/b_1.bb", "PACKAGES_DYNAMIC = ""^libx-v+y?.*z$""" ++ nl);
    ("/w/c_1.bb", "PACKAGES_DYNAMIC = ""+x""" ++ nl) ].
Definition pt_env : env :=
  MkEnv (demo_fs pt_files ["/w"; "/"] []) dedup_items dedup_str (fun i => it_raw i) (fun x => Some ([], [], x)).
Definition pt_add (p : str) : stash := snd (add_file 4 pt_env p 0 None p_start).
Definition pt_pieces : list piece :=
  map (fun c => Piece (Plain c) Once false) "libx-" ++
  [ Piece (Plain 118) Repeated false; Piece (Plain 121) Maybe false; Piece Dot Many false; Piece (Plain 122) Once false ].

Example C66_pattern_case :
  "^libx-v+y?.*z$" = pattern_text true pt_pieces true /\
  is_dynamic_package pt_env (pt_add "b_1.bb") "/w/b_1.bb" "libx-vvy1z" = Ok true /\
  is_dynamic_package pt_env (pt_add "b_1.bb") "/w/b_1.bb" "libx-z" = Ok false /\
  is_dynamic_package pt_env (pt_add "b_1.bb") "/w/b_1.bb" "libx-vzy" = Ok false /\
  is_dynamic_package pt_env (pt_add "c_1.bb") "/w/c_1.bb" "x" = Raise RegexUnsupported.
Proof. repeat split; vm_compute; reflexivity. Qed.
Example C66_pattern_written : Forall written pt_pieces /\ agrees pt_pieces true "libx-vvy1z".
Proof.
  split.
  - unfold pt_pieces. cbn [map List.app]. repeat (constructor; [split; [cbn [p_sign]; try exact I; vm_compute; intuition discriminate|]; cbn; auto; discriminate|]).
    constructor.
  - exists (map (fun c => [c]) "libx-" ++ [("vv" : str); "y"; "1"; "z"]), []. split; [reflexivity|]. split; [|now left].
    unfold pt_pieces. cbn [map List.app].
    repeat (constructor; [split; [intros c Hc; cbn in Hc; cbn [p_sign stands_for]; intuition (subst; try discriminate; auto)|cbn; lia || exact I]|]).
    constructor.
Qed.
