(** * Properties C39 and C123: several included files, and the last word *)

From Verif Require Import PyStr Regex Patterns PyPath Res Inline Const Item Lines Stash Demo StrFacts
  ParseFacts HistFacts ReachFacts Spec_Query Spec_Expand Spec_Include Props_Include Props_Recipe Props_Coded Spec_Compose
  Spec_Before Proofs_Before.

(** ** C39: any number of statements that add files *)

(** The files that are added add no further ones, and no bbappend takes part.
    The line of a statement of the file is that in the file, moved by the offset
    and by nothing else as long as no statement before it adds a file.  Every
    other item that the call adds goes with a statement [x] that adds files: its
    line is that of [x] in the file plus its own, and it lies before every
    statement behind [x].  (With several such statements it may lie before [x],
    as C39_refuted shows.) *)
Theorem C39_before_partial : forall n e path off forced s l s', reach e s ->
  add_file n e path off forced s = (Ok l, s') -> l <> [] ->
  (forall y, added s s' y -> endswith ".bbappend" (it_origin y) = false) ->
  (forall y, added s s' y -> loads y -> exists x, In x l /\ it_id y = it_id x) ->
  (forall a z b, l = a ++ z :: b -> (it_infile z + off <= it_line z)%Z /\
     ((forall x, In x a -> ~ loads x) -> it_line z = (it_infile z + off)%Z)) /\
  forall y, added s s' y -> ~ In y l ->
  exists a x b, l = a ++ x :: b /\ loads x /\ it_line y = (off + it_infile x + it_infile y)%Z /\ (1 <= it_infile y)%Z /\
    (forall z, In z b -> (it_line y < it_line z)%Z).
Proof. exact C39_before_lemma. Qed.
Print Assumptions C39_before_partial.

(** A recipe with three statements that add files. *)
Definition lw_env : env := demo_env
  [ ("/w/a.bb", "X = " ++ q "0" ++ "require b.inc" ++ nl ++ "require c.inc" ++ nl ++ "inherit k" ++ nl ++ "Y = " ++ q "1" ++
                "X = " ++ q "last" ++ "Z = " ++ q "2");
    ("/w/b.inc", "X = " ++ q "1" ++ "X .= " ++ q "2" ++ "X += " ++ q "3"); ("/w/c.inc", "X ?= " ++ q "4");
    ("/w/classes/k.bbclass", "K = " ++ q "1" ++ "X := " ++ q "5" ++ "unset X" ++ nl ++ "X =. " ++ q "6") ] ["/w"; "/w/classes"; "/"].
Definition lw_start : stash := new_stash false false r_db.
Notation lw_run := (add_file 3 lw_env "/w/a.bb" 0 None lw_start).
Definition lw_items := ok_items lw_run.
Definition lw_stash := snd lw_run.
Lemma lw_ran : lw_run = (Ok lw_items, lw_stash).
Proof. vm_compute. reflexivity. Qed.

Definition flat_b (l : list item) (y : item) : bool :=
  negb (endswith ".bbappend" (it_origin y)) && (negb (loads_b y) || existsb (fun x => Nat.eqb (it_id y) (it_id x)) l).
(** The theorem with hypotheses that can be computed. *)
Lemma C39_before_check : forall n e path db l s', add_file n e path 0 None (new_stash false false db) = (Ok l, s') -> l <> [] ->
  forallb (flat_b l) (st_list s') = true ->
  forall y, In y (st_list s') -> ~ In y l ->
  exists a x b, l = a ++ x :: b /\ loads x /\ it_line y = (it_infile x + it_infile y)%Z /\
    (forall z, In z b -> (it_line y < it_line z)%Z).
Proof.
  intros n e path db l s' E Hnil Hf y Hy Hn. rewrite forallb_forall in Hf.
  destruct (C39_before_partial n e path 0 None (new_stash false false db) l s') as [_ H].
  - exists false, false, db. apply steps_refl.
  - exact E.
  - exact Hnil.
  - intros z [Hz _]. apply Hf in Hz. apply andb_prop in Hz. apply negb_true_iff. apply Hz.
  - intros z [Hz _] Hlz. apply Hf in Hz. apply andb_prop in Hz. destruct Hz as [_ Hz]. apply loads_b_iff in Hlz.
    rewrite Hlz in Hz. cbn [negb orb] in Hz. apply existsb_exists in Hz. destruct Hz as [x [Hx Ex]]. exists x.
    split; [exact Hx|exact (proj1 (Nat.eqb_eq _ _) Ex)].
  - destruct (H y) as [a [x [b [H1 [H2 [H3 [_ H4]]]]]]]; [split; [exact Hy|apply Nat.le_0_l]|exact Hn|].
    exists a, x, b. split; [exact H1|]. split; [exact H2|]. split; [exact H3|exact H4].
Qed.
Example C39_before_case :
  map (fun i => (basename (it_origin i), it_line i)) (st_list lw_stash) =
  [ ("b.inc", 3%Z); ("b.inc", 4%Z); ("b.inc", 5%Z); ("c.inc", 4%Z);
    ("k.bbclass", 5%Z); ("k.bbclass", 6%Z); ("k.bbclass", 7%Z); ("k.bbclass", 8%Z);
    ("a.bb", 1%Z); ("a.bb", 2%Z); ("a.bb", 6%Z); ("a.bb", 8%Z); ("a.bb", 13%Z); ("a.bb", 14%Z); ("a.bb", 15%Z) ] /\
  forall y, In y (st_list lw_stash) -> ~ In y lw_items ->
  exists a x b, lw_items = a ++ x :: b /\ loads x /\ it_line y = (it_infile x + it_infile y)%Z /\
    (forall z, In z b -> (it_line y < it_line z)%Z).
Proof.
  split; [vm_compute; reflexivity|].
  apply (C39_before_check 3 lw_env "/w/a.bb" r_db lw_items lw_stash lw_ran); [vm_compute; discriminate|vm_compute; reflexivity].
Qed.

(** ** C123: the last assignment has the last word *)

(** In a stash with just one recipe, an assignment behind every statement that
    adds a file decides the value of the variable, whatever the included files
    and inherited classes assign, if no override is involved, no later statement
    of the recipe is about the variable, and the files that are added add no
    further ones. *)
Theorem C123_last_partial : forall n e path off forced new neg db a i b s' nm v d, env_ok e -> plain_base db ->
  add_file n e path off forced (new_stash new neg db) = (Ok (a ++ i :: b), s') ->
  (forall y, In y (st_list s') -> endswith ".bbappend" (it_origin y) = false) ->
  (forall y, In y (st_list s') -> loads y -> In y a) ->
  (forall y, In y (st_list s') -> tells nm y -> at_its_place nm y) ->
  (forall y, In y (st_list s') -> plain_text (item_name_nomod y)) ->
  does nm i (Sets v) -> (forall z, In z b -> ~ tells nm z) ->
  expand_var e s' (Some (abspath (fs_cwd (e_fs e)) path)) ANone ANone false = Ok d ->
  exists w, expand_term e s' (abspath (fs_cwd (e_fs e)) path) v = Ok w /\ dget nm d = Some (safe_linesplit w).
Proof. exact C123_lemma. Qed.
Print Assumptions C123_last_partial.

Definition at_place_b (y : item) : bool :=
  match it_pay y with
  | PVariable m sub subs v op rawn =>
      negb (mem_str "append" subs) && negb (mem_str "prepend" subs) && negb (mem_str "remove" subs) &&
      negb (contains INLINE_BLOCK (stripped y)) && mem_str op [" = "; " := "; " ?= "; " ??= "; " += "; " =+ "; " .= "; " =. "]
  | PUnset m f => match f with [] => true | _ => false end
  | _ => true
  end.
Lemma at_place_b_ok : forall nm y, at_place_b y = true -> tells nm y -> at_its_place nm y.
Proof.
  intros nm y H [Ha Hc]. unfold at_place_b in H. unfold about in Ha. unfold classifier in Hc.
  destruct (it_pay y) as [] eqn:E; try (destruct Hc as [Hc|Hc]; discriminate Hc).
  all: try (destruct Ha as [-> ->]; exists Unsets; split; [now apply does_unset|intro u; repeat split; discriminate]).
  repeat (apply andb_prop in H; let H' := fresh "H" in destruct H as [H H']).
  rewrite negb_true_iff in *.
  assert (Hs : forall x, In x ["append"; "prepend"; "remove"] -> ~ In x subs).
  { intros x [<-|[<-|[<-|[]]]] Hx; apply (proj2 (mem_str_In _ _)) in Hx; congruence. }
  apply (proj1 (mem_str_In op [" = "; " := "; " ?= "; " ??= "; " += "; " =+ "; " .= "; " =. "])) in H0.
  assert (Hop : exists f, operator op f /\ forall u w, f u <> LateAdds w /\ f u <> LateLeads w /\ f u <> LateRemoves w).
  { repeat (destruct H0 as [<-|H0]; [eexists; split; [constructor|intros u w; repeat split; discriminate]|]). destruct H0. }
  destruct Hop as [f [Hf Hl]]. exists (f (stripped y)). split; [|apply Hl].
  eapply (does_now _ _ _ _ _ _ _ _ f); eassumption.
Qed.

Notation lw_file := (abspath (fs_cwd (e_fs lw_env)) "/w/a.bb").
Definition plain_b (y : item) : bool :=
  negb (contains "getVar(" (item_name_nomod y)) && negb (contains "oe.utils.read_file(" (item_name_nomod y)) &&
  negb (contains "${" (item_name_nomod y)).
Lemma plain_b_ok : forall y, plain_b y = true -> plain_text (item_name_nomod y).
Proof.
  intros y H. unfold plain_b in H. apply andb_prop in H. destruct H as [H H3]. apply andb_prop in H. destruct H as [H1 H2].
  rewrite negb_true_iff in H1, H2, H3. split; [split|]; assumption.
Qed.
Definition in_ids (l : list item) (y : item) : bool := existsb (fun x => Nat.eqb (it_id y) (it_id x)) l.

Lemma lw_at : does "X" (nth_item 5 lw_items) (Sets "last").
Proof.
  replace ("last" : str) with (stripped (nth_item 5 lw_items)) by (vm_compute; reflexivity).
  eapply (does_now _ _ _ _ _ _ _ _ Sets); [vm_compute; reflexivity|vm_compute; reflexivity| |vm_compute; reflexivity|vm_compute; constructor].
  intros x _ H. exact H.
Qed.
(** The same for C123. *)
Definition other_b (nm : str) (y : item) : bool :=
  match it_pay y with PVariable _ _ _ _ _ _ => negb (str_eqb (item_name_nomod y) nm) | PUnset _ _ => false | _ => true end.
Lemma other_b_ok : forall nm y, other_b nm y = true -> ~ tells nm y.
Proof.
  intros nm y H [Ha Hc]. unfold other_b in H. unfold about in Ha. unfold classifier in Hc.
  destruct (it_pay y); try discriminate H; try (destruct Hc as [Hc|Hc]; discriminate Hc).
  rewrite Ha, str_eqb_refl in H. discriminate H.
Qed.
Lemma C123_check : forall n e path db a i b s' nm v d, env_ok e -> plain_base db ->
  add_file n e path 0 None (new_stash false false db) = (Ok (a ++ i :: b), s') -> reach e s' ->
  (forall x, In x a -> In x (st_list s')) ->
  forallb (fun y => negb (endswith ".bbappend" (it_origin y)) && (negb (loads_b y) || in_ids a y) && at_place_b y && plain_b y)
    (st_list s') = true ->
  does nm i (Sets v) -> forallb (other_b nm) b = true ->
  expand_var e s' (Some (abspath (fs_cwd (e_fs e)) path)) ANone ANone false = Ok d ->
  exists w, expand_term e s' (abspath (fs_cwd (e_fs e)) path) v = Ok w /\ dget nm d = Some (safe_linesplit w).
Proof.
  intros n e path db a i b s' nm v d He Hdb H Hr Hin Hf Hd Hb Hx. rewrite forallb_forall in Hf, Hb.
  assert (Hf' : forall y, In y (st_list s') -> endswith ".bbappend" (it_origin y) = false /\
    (loads_b y = true -> in_ids a y = true) /\ at_place_b y = true /\ plain_b y = true).
  { intros y Hy. specialize (Hf y Hy). apply andb_prop in Hf. destruct Hf as [Hf H4]. apply andb_prop in Hf. destruct Hf as [Hf H3].
    apply andb_prop in Hf. destruct Hf as [H1 H2]. split; [now apply negb_true_iff|]. split; [|split; assumption].
    intro E. rewrite E in H2. exact H2. }
  refine (C123_last_partial n e path 0 None false false db a i b s' nm v d He Hdb H _ _ _ _ Hd _ Hx).
  - intros y Hy. apply Hf'. exact Hy.
  - intros y Hy Hl. apply loads_b_iff in Hl. apply (proj1 (proj2 (Hf' y Hy))) in Hl. apply existsb_exists in Hl.
    destruct Hl as [x [Hxa Ex]]. destruct (reach_ids _ _ Hr) as [Hids _].
    rewrite (Hids y x Hy (Hin x Hxa) (proj1 (Nat.eqb_eq _ _) Ex)). exact Hxa.
  - intros y Hy. apply at_place_b_ok. apply Hf'. exact Hy.
  - intros y Hy. apply plain_b_ok. apply Hf'. exact Hy.
  - intros z Hz. apply other_b_ok. exact (Hb z Hz).
Qed.
Lemma lw_holds : exists a, st_list lw_stash = a ++ firstn 5 lw_items ++ skipn 5 lw_items.
Proof. exists (firstn 8 (st_list lw_stash)). vm_compute. reflexivity. Qed.
Lemma lw_checks : forallb (fun y => negb (endswith ".bbappend" (it_origin y)) && (negb (loads_b y) || in_ids (firstn 5 lw_items) y) &&
  at_place_b y && plain_b y) (st_list lw_stash) = true.
Proof. vm_compute. reflexivity. Qed.
Lemma lw_behind : forallb (other_b "X") (skipn 6 lw_items) = true.
Proof. vm_compute. reflexivity. Qed.
Lemma lw_ran' : lw_run = (Ok (firstn 5 lw_items ++ nth_item 5 lw_items :: skipn 6 lw_items), lw_stash).
Proof. vm_compute. reflexivity. Qed.
Lemma lw_reach : reach lw_env lw_stash.
Proof. exists false, false, r_db. eapply steps_add; [apply steps_refl|exact lw_ran]. Qed.
Lemma lw_value : expand_term lw_env lw_stash lw_file "last" = Ok ("last" : str).
Proof. vm_compute. reflexivity. Qed.
Example C123_case : forall d, expand_var lw_env lw_stash (Some lw_file) ANone ANone false = Ok d -> dget "X" d = Some ["last"].
Proof.
  intros d Hd.
  assert (H : exists w, expand_term lw_env lw_stash lw_file "last" = Ok w /\ dget "X" d = Some (safe_linesplit w)).
  { refine (C123_check 3 lw_env "/w/a.bb" r_db (firstn 5 lw_items) (nth_item 5 lw_items) (skipn 6 lw_items) lw_stash "X" "last" d
      _ r_db_ok lw_ran' lw_reach _ lw_checks lw_at lw_behind Hd).
    - apply demo_env_ok.
    - intros x Hx. destruct lw_holds as [a ->]. apply in_or_app. right. apply in_or_app. left. exact Hx. }
  destruct H as [w [H1 H2]]. rewrite lw_value in H1. apply (f_equal (fun r => match r with Ok x => x | _ => w end)) in H1.
  rewrite <- H1 in H2. exact H2.
Qed.

(** An included file that includes a file itself may have the last word: its
    statement behind that include is placed behind the recipe's. *)
Definition ln_env : env := demo_env
  [ ("/w/a.bb", "require b.inc" ++ nl ++ "X = " ++ q "last"); ("/w/b.inc", "require c.inc" ++ nl ++ "X = " ++ q "inc");
    ("/w/c.inc", "C = " ++ q "1" ++ "C = " ++ q "2" ++ "C = " ++ q "3") ] ["/w"; "/"].
Notation ln_run := (add_file 4 ln_env "/w/a.bb" 0 None lw_start).
Definition ln_items := ok_items ln_run.
Definition ln_stash := snd ln_run.
Lemma ln_ran : ln_run = (Ok (firstn 1 ln_items ++ nth_item 1 ln_items :: []), ln_stash).
Proof. vm_compute. reflexivity. Qed.
Lemma ln_at : does "X" (nth_item 1 ln_items) (Sets "last").
Proof.
  replace ("last" : str) with (stripped (nth_item 1 ln_items)) by (vm_compute; reflexivity).
  eapply (does_now _ _ _ _ _ _ _ _ Sets); [vm_compute; reflexivity|vm_compute; reflexivity| |vm_compute; reflexivity|vm_compute; constructor].
  intros x _ H. exact H.
Qed.
Lemma ln_checks : forallb (fun y => negb (endswith ".bbappend" (it_origin y)) && at_place_b y && plain_b y) (st_list ln_stash) = true.
Proof. vm_compute. reflexivity. Qed.
Lemma ln_loads : forallb (fun y => negb (loads_b y)) [nth_item 1 ln_items] = true.
Proof. vm_compute. reflexivity. Qed.
Theorem C123_refuted : exists n e path db a i b s' nm v d, env_ok e /\ plain_base db /\
  add_file n e path 0 None (new_stash false false db) = (Ok (a ++ i :: b), s') /\
  (forall y, In y (st_list s') -> endswith ".bbappend" (it_origin y) = false) /\
  (forall y, In y (a ++ i :: b) -> loads y -> In y a) /\
  (forall y, In y (st_list s') -> tells nm y -> at_its_place nm y) /\
  (forall y, In y (st_list s') -> plain_text (item_name_nomod y)) /\
  does nm i (Sets v) /\ (forall z, In z b -> ~ tells nm z) /\
  expand_var e s' (Some (abspath (fs_cwd (e_fs e)) path)) ANone ANone false = Ok d /\
  expand_term e s' (abspath (fs_cwd (e_fs e)) path) v = Ok v /\ dget nm d <> Some (safe_linesplit v).
Proof.
  exists 4, ln_env, "/w/a.bb", r_db, (firstn 1 ln_items), (nth_item 1 ln_items), [], ln_stash, "X", "last".
  assert (Hf : forall y, In y (st_list ln_stash) -> endswith ".bbappend" (it_origin y) = false /\ at_place_b y = true /\ plain_b y = true).
  { pose proof ln_checks as Hf. rewrite forallb_forall in Hf. intros y Hy. specialize (Hf y Hy).
    apply andb_prop in Hf. destruct Hf as [Hf H3]. apply andb_prop in Hf. destruct Hf as [H1 H2].
    split; [apply negb_true_iff; exact H1|split; assumption]. }
  eexists. split; [apply demo_env_ok|]. split; [exact r_db_ok|]. split; [exact ln_ran|].
  split; [intros y Hy; exact (proj1 (Hf y Hy))|]. split.
  { intros y Hy Hl. apply in_app_or in Hy. destruct Hy as [Hy|Hy]; [exact Hy|]. exfalso. pose proof ln_loads as G.
    rewrite forallb_forall in G. specialize (G y Hy). apply loads_b_iff in Hl. rewrite Hl in G. discriminate G. }
  split; [intros y Hy; apply at_place_b_ok; exact (proj1 (proj2 (Hf y Hy)))|].
  split; [intros y Hy; apply plain_b_ok; exact (proj2 (proj2 (Hf y Hy)))|].
  split; [exact ln_at|]. split; [intros z []|]. split; [vm_compute; reflexivity|]. split; [vm_compute; reflexivity|].
  clear Hf. vm_compute. intro H. discriminate H.
Qed.
Print Assumptions C123_refuted.
