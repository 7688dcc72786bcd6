(** * Properties C18-C22, C63, C67: names and values of items *)

From Verif Require Import PyStr Regex Patterns PyPath Res Const Item StrFacts ReFacts ItemFacts.

(** ** C18: safe_linesplit *)

(** A separator: white space, or the escape character unless an [x] follows
    it. *)
Definition separator (c : N) (behind : str) : Prop :=
  re_space c = true \/ (c = 27%N /\ forall r, behind <> "x" ++ r).

(** [words s l]: [l] are the maximal separator free runs of [s], in order. *)
Inductive words : str -> list str -> Prop :=
| words_nil : words [] []
| words_sep : forall c t l, separator c t -> words t l -> words (c :: t) l
| words_run : forall w t l,
    w <> [] ->
    (forall a c b, w = a ++ c :: b -> ~ separator c (b ++ t)) ->
    (forall c r, t = c :: r -> separator c r) ->
    words t l -> words (w ++ t) (w :: l).

Lemma separator_iff : forall c t, separator c t <-> safe_sep c t = true.
Proof.
  intros c t. unfold separator, safe_sep. rewrite Bool.orb_true_iff, Bool.andb_true_iff.
  rewrite N.eqb_eq. unfold cESC. split; (intros [H|[H1 H2]]; [now left|right; split; [assumption|]]).
  - destruct t as [|x t]; [reflexivity|]. destruct (N.eqb_spec x 120) as [->|]; [|reflexivity].
    exfalso. now apply (H2 t).
  - intros r E. subst t. simpl in H2. discriminate.
Qed.

Lemma words_tokens : forall s l, words s l <-> tokens s l.
Proof.
  intros s l. split; intro H.
  - induction H as [|c t l Hs Ht IH|w t l Hw Hin Ht Hwd IH].
    + constructor.
    + constructor; [now apply separator_iff|assumption].
    + constructor; [assumption| | |assumption].
      * intros a c b E. destruct (safe_sep c (b ++ t)) eqn:Es; [|reflexivity].
        apply separator_iff in Es. now apply Hin in E.
      * destruct t as [|c r]; [exact I|]. apply separator_iff. now apply Ht.
  - induction H as [|c t l Hs Ht IH|w t l Hw Hin Ht Hwd IH].
    + constructor.
    + constructor; [now apply separator_iff|assumption].
    + constructor; [assumption| | |assumption].
      * intros a c b E Hs. apply separator_iff in Hs. rewrite (Hin a c b E) in Hs. discriminate.
      * intros c r E. subst t. now apply separator_iff.
Qed.

Lemma C18_lemma : forall s l, safe_linesplit s = l <-> words s l.
Proof. intros s l. rewrite words_tokens. symmetry. apply tokens_iff. Qed.

(** safe_linesplit returns exactly the maximal separator free runs. *)
Theorem C18_words : forall s l, safe_linesplit s = l <-> words s l.
Proof. exact C18_lemma. Qed.
Print Assumptions C18_words.

(** The separators of a text removed. *)
Inductive without_separators : str -> str -> Prop :=
| ws_nil : without_separators [] []
| ws_drop : forall c t r, separator c t -> without_separators t r -> without_separators (c :: t) r
| ws_keep : forall c t r, ~ separator c t -> without_separators t r -> without_separators (c :: t) (c :: r).

Lemma C18_lossless_lemma : forall s,
  without_separators s (concat (safe_linesplit s)) /\ ~ In [] (safe_linesplit s).
Proof.
  intro s. rewrite safe_linesplit_eq. split.
  - rewrite keep_nonempty_concat, split_safe_concat. simpl.
    induction s as [|c t IH]; simpl; [constructor|].
    destruct (safe_sep c t) eqn:E.
    + constructor; [now apply separator_iff|assumption].
    + constructor; [|assumption]. intro H. apply separator_iff in H. congruence.
  - intro H. apply keep_nonempty_In in H. now destruct H.
Qed.

(** The tokens joined are the input without its separators; none is empty. *)
Theorem C18_lossless : forall s,
  without_separators s (concat (safe_linesplit s)) /\ ~ In [] (safe_linesplit s).
Proof. exact C18_lossless_lemma. Qed.
Print Assumptions C18_lossless.

Example C18_case : safe_linesplit (" a" ++ [9%N; 27%N] ++ "b" ++ [27%N] ++ "x1  c ") = ["a"; "b" ++ [27%N] ++ "x1"; "c"].
Proof. vm_compute. reflexivity. Qed.

(** ** C19: splitting of variable names *)

(** The non-empty parts of a name. *)
Definition parts_of (d : N) (name : str) : list str := filter nonempty (split_char d name).

(** The delimiter an item uses for a name: the colon if it is asked for or
    occurs in the name, else the underscore. *)
Definition delimiter (new : bool) (name : str) (d : N) : Prop :=
  ((new = true \/ In 58%N name) -> d = 58%N) /\ (~ (new = true \/ In 58%N name) -> d = 95%N).

(** A part behind the first one is an override if it starts with a lower case
    letter, digit, brace or dollar sign, unless the name is pkg_...; and if it
    is the recipe name, possibly with a suffix. *)
Definition is_override (first part : str) : Prop :=
  (first <> "pkg" /\ exists c r, part = c :: r /\
     ((97 <= c <= 122)%N \/ (48 <= c <= 57)%N \/ In c "{}$"))
  \/ part = "${PN}" \/ exists r, part = "${PN}-" ++ r.

Lemma is_override_iff : forall first p, is_override first p <-> sub_chunk first p = true.
Proof.
  intros first p. rewrite sub_chunk_iff. unfold is_override, override_part.
  assert (E : forall c, id_char c = true <-> ((97 <= c <= 122)%N \/ (48 <= c <= 57)%N \/ In c "{}$")).
  { intro c. unfold id_char, low_c, dig_c, range. rewrite !Bool.orb_true_iff, !Bool.andb_true_iff.
    rewrite !N.leb_le, in_chars_In. tauto. }
  split; intros [[H1 H2]|H]; try (now right); left; (split; [assumption|]).
  - destruct H2 as [c [r [-> H2]]]. now apply E.
  - destruct p as [|c r]; [contradiction|]. exists c, r. split; [reflexivity|]. now apply E.
Qed.

Lemma delim_spec : forall new name, delimiter new name (delim (new || contains ":" name)).
Proof.
  intros new name. assert (E : contains ":" name = true <-> In 58%N name).
  { rewrite contains_spec. split.
    - intros [a [b ->]]. apply in_or_app. right. now left.
    - intro H. apply in_split in H. destruct H as [a [b ->]]. now exists a, b. }
  unfold delimiter, delim. destruct new; simpl.
  - split; [reflexivity|]. intro H. exfalso. apply H. now left.
  - destruct (contains ":" name) eqn:Ec.
    + split; [reflexivity|]. intro H. exfalso. apply H. right. now apply E.
    + split; [|reflexivity]. intros [H|H]; [discriminate|]. apply E in H. discriminate.
Qed.

Lemma split_hd_tl : forall c s, split_char c s = hd [] (split_char c s) :: tl (split_char c s).
Proof. intros c s. pose proof (split_char_nonnil c s). destruct (split_char c s); [congruence|reflexivity]. Qed.

Lemma mk_variable_spec : forall p name value op,
  let new := ip_new p || contains ":" name in
  let first := hd [] (split_char (delim new) name) in
  let rest := keep_nonempty (tl (split_char (delim new) name)) in
  let ns := keep_nonempty [first] ++ filter (fun i => negb (sub_chunk first i)) rest in
  let os := filter (sub_chunk first) rest in
  it_new (mk_variable p name value op) = new /\
  it_pay (mk_variable p name value op)
  = PVariable (join (delim_str new) ns) (join (delim_str new) os) os value op (join (delim_str new) ns)
  /\ interleave ns os (parts_of (delim new) name).
Proof.
  intros p name value op. cbv zeta. unfold mk_variable.
  rewrite (extract_sub_spec (ip_new p) name). cbv zeta.
  set (new := ip_new p || contains ":" name). set (d := delim new).
  set (ps := split_char d name).
  cbn [it_new it_pay mk_item]. split; [reflexivity|]. split.
  - f_equal. apply split_join_keep. intros q Hq. apply filter_In in Hq. destruct Hq as [Hq _].
    apply keep_nonempty_In in Hq. destruct Hq as [Hq Hn]. split; [|assumption].
    apply (split_char_no_sep d name). rewrite split_hd_tl. now right.
  - unfold parts_of. fold ps. replace ps with (hd [] ps :: tl ps) at 5 by (symmetry; apply split_hd_tl).
    unfold keep_nonempty. simpl.
    destruct (nonempty (hd [] ps)); simpl; [apply il_left|]; apply interleave_filter.
Qed.

Lemma C19_lemma : forall p name value op,
  exists d vn sub subs names,
    delimiter (ip_new p) name d /\
    it_pay (mk_variable p name value op) = PVariable vn sub subs value op vn /\
    it_new (mk_variable p name value op) = N.eqb d 58 /\
    vn = join [d] names /\ sub = join [d] subs /\
    interleave names subs (parts_of d name) /\
    (forall part, In part subs -> is_override (hd [] (split_char d name)) part) /\
    (forall part, In part names -> part <> hd [] (split_char d name) ->
                  ~ is_override (hd [] (split_char d name)) part).
Proof.
  intros p name value op. destruct (mk_variable_spec p name value op) as [H1 [H2 H3]].
  eexists _, _, _, _, _. split; [apply delim_spec|]. split; [exact H2|]. split.
  { rewrite H1. unfold delim. now destruct (ip_new p || contains ":" name). }
  split; [reflexivity|]. split; [reflexivity|]. split; [exact H3|]. split.
  - intros part Hp. apply filter_In in Hp. now apply is_override_iff.
  - intros part Hp Hn Ho. apply in_app_or in Hp. destruct Hp as [Hp|Hp].
    + apply keep_nonempty_In in Hp. destruct Hp as [[Hp|[]] _]. congruence.
    + apply filter_In in Hp. destruct Hp as [_ Hp]. apply is_override_iff in Ho. rewrite Ho in Hp. discriminate.
Qed.

(** Splitting a name loses nothing: the parts of VarName and SubItems are an
    interleaving of the non-empty parts of the written name. *)
Theorem C19_split : forall p name value op,
  exists d vn sub subs names,
    delimiter (ip_new p) name d /\
    it_pay (mk_variable p name value op) = PVariable vn sub subs value op vn /\
    it_new (mk_variable p name value op) = N.eqb d 58 /\
    vn = join [d] names /\ sub = join [d] subs /\
    interleave names subs (parts_of d name) /\
    (forall part, In part subs -> is_override (hd [] (split_char d name)) part) /\
    (forall part, In part names -> part <> hd [] (split_char d name) ->
                  ~ is_override (hd [] (split_char d name)) part).
Proof. exact C19_lemma. Qed.
Print Assumptions C19_split.

(** Parameters of the examples. *)
Definition demo_param (new : bool) : iparam := MkParam 0 1 1 "x" "x" "/a.bb" [] new.

Example C19_case :
  it_pay (mk_variable (demo_param false) "FILES_${PN}-dev_append_SOLIBS" "v" " = ")
  = PVariable "FILES_SOLIBS" "${PN}-dev_append" ["${PN}-dev"; "append"] "v" " = " "FILES_SOLIBS".
Proof. vm_compute. reflexivity. Qed.

(** ** C20: VarNameComplete *)

Definition complete_name (i : item) : str :=
  match it_pay i with PVariable n _ subs _ _ _ => var_name_complete (it_new i) n subs | _ => [] end.

(** No part of the name stands behind an override part. *)
Definition overrides_last (d : N) (name : str) : Prop :=
  exists ns os, parts_of d name = ns ++ os /\
    (forall q, In q os -> is_override (hd [] (split_char d name)) q) /\
    (forall q, In q ns -> q = hd [] (split_char d name) \/ ~ is_override (hd [] (split_char d name)) q).

Lemma C20_lemma : forall p name value op d,
  delimiter (ip_new p) name d -> hd [] (split_char d name) <> [] ->
  ~ is_override (hd [] (split_char d name)) (hd [] (split_char d name)) ->
  (complete_name (mk_variable p name value op) = join [d] (parts_of d name) <-> overrides_last d name).
Proof.
  intros p name value op d Hd Hf Ho.
  assert (Ed : d = delim (ip_new p || contains ":" name)).
  { pose proof (delim_spec (ip_new p) name) as [D1 D2]. destruct Hd as [E1 E2].
    destruct (ip_new p) eqn:En.
    - rewrite D1, E1; auto.
    - destruct (in_dec N.eq_dec 58%N name) as [Hi|Hi].
      + rewrite D1, E1; auto.
      + rewrite D2, E2; auto; intros [H|H]; try discriminate; contradiction. }
  destruct (mk_variable_spec p name value op) as [H1 [H2 H3]]. rewrite <- Ed in *.
  set (first := hd [] (split_char d name)) in *.
  set (rest := keep_nonempty (tl (split_char d name))) in *.
  unfold complete_name. rewrite H2, H1. unfold var_name_complete, delim_str.
  rewrite <- Ed.
  assert (Ek : keep_nonempty [first] = [first]) by (destruct first; [congruence|reflexivity]).
  rewrite Ek in *. set (nr := filter (fun i => negb (sub_chunk first i)) rest) in *.
  set (os := filter (sub_chunk first) rest) in *.
  assert (Ep : parts_of d name = first :: rest).
  { unfold parts_of. rewrite split_hd_tl. fold first. simpl.
    destruct first as [|c f]; [congruence|]. reflexivity. }
  assert (Hall : forall q, In q (parts_of d name) -> ~ In d q /\ q <> []).
  { intros q Hq. split; [now apply keep_parts_no_sep in Hq|]. now apply keep_nonempty_In in Hq. }
  assert (Hall' : forall q, In q (([first] ++ nr) ++ os) -> ~ In d q /\ q <> []).
  { intros q Hq. apply Hall. rewrite Ep. apply in_app_or in Hq. destruct Hq as [Hq|Hq].
    - simpl in Hq. destruct Hq as [->|Hq]; [now left|]. apply filter_In in Hq. now right.
    - apply filter_In in Hq. now right. }
  rewrite join_cons_join by discriminate. split.
  - intro E. exists ([first] ++ nr), os.
    assert (E' : ([first] ++ nr) ++ os = parts_of d name).
    { apply (f_equal (fun x => keep_nonempty (split_char d x))) in E.
      rewrite !split_join_keep in E by assumption. exact E. }
    split; [exact (eq_sym E')|]. split.
    + intros q Hq. apply filter_In in Hq. now apply is_override_iff.
    + intros q Hq. simpl in Hq. destruct Hq as [Hq|Hq]; [now left|]. right. intro Hq'.
      apply filter_In in Hq. destruct Hq as [_ Hq]. apply is_override_iff in Hq'. fold first in Hq'.
      rewrite Hq' in Hq. discriminate.
  - intros [ns [os' [E [Hos Hns]]]]. f_equal. rewrite E.
    assert (F : forall x, In x ns -> x = first \/ sub_chunk first x = false).
    { intros x Hx. destruct (Hns x Hx) as [->|Hx']; [now left|]. right.
      destruct (sub_chunk first x) eqn:Es; [|reflexivity]. exfalso. apply Hx'. now apply is_override_iff. }
    assert (Fo : forall x, In x os' -> sub_chunk first x = true).
    { intros x Hx. apply is_override_iff. now apply Hos. }
    assert (Ffirst : sub_chunk first first = false).
    { destruct (sub_chunk first first) eqn:Es; [|reflexivity]. exfalso. apply Ho. now apply is_override_iff. }
    rewrite Ep in E. destruct ns as [|x ns].
    + simpl in E. assert (Hx : In first os') by (rewrite <- E; now left).
      apply Fo in Hx. congruence.
    + simpl in E. inversion E as [[E1 E2]]. subst x. simpl.
      assert (F' : forall x, In x ns -> sub_chunk first x = false).
      { intros x Hx. destruct (F x (or_intror Hx)) as [->|Hx']; assumption. }
      unfold nr, os. rewrite E2. rewrite !filter_app. f_equal.
      assert (G1 : filter (fun i => negb (sub_chunk first i)) ns = ns).
      { clear - F'. induction ns as [|y l IH]; [reflexivity|]. simpl. rewrite F' by now left.
        simpl. now rewrite IH by (intros; apply F'; now right). }
      assert (G2 : filter (sub_chunk first) ns = []).
      { clear - F'. induction ns as [|y l IH]; [reflexivity|]. simpl. rewrite F' by now left.
        now rewrite IH by (intros; apply F'; now right). }
      assert (G3 : filter (fun i => negb (sub_chunk first i)) os' = []).
      { clear - Fo. induction os' as [|y l IH]; [reflexivity|]. simpl. rewrite Fo by now left.
        now rewrite IH by (intros; apply Fo; now right). }
      assert (G4 : filter (sub_chunk first) os' = os').
      { clear - Fo. induction os' as [|y l IH]; [reflexivity|]. simpl. rewrite Fo by now left.
        now rewrite IH by (intros; apply Fo; now right). }
      rewrite G1, G2, G3, G4. now rewrite app_nil_r.
Qed.

(** For a name with a plain first part, VarNameComplete is the written name
    (without empty parts) exactly if no name part follows an override. *)
Theorem C20_complete : forall p name value op d,
  delimiter (ip_new p) name d -> hd [] (split_char d name) <> [] ->
  ~ is_override (hd [] (split_char d name)) (hd [] (split_char d name)) ->
  (complete_name (mk_variable p name value op) = join [d] (parts_of d name) <-> overrides_last d name).
Proof. exact C20_lemma. Qed.
Print Assumptions C20_complete.

Example C20_case : delimiter false "FILES_${PN}_append" 95
  /\ complete_name (mk_variable (demo_param false) "FILES__${PN}_append" "v" " = ") = "FILES_${PN}_append".
Proof. split; [exact (delim_spec false "FILES_${PN}_append")|vm_compute; reflexivity]. Qed.

(** In general the name is not returned as written. *)
Theorem C20_refuted : exists name,
  complete_name (mk_variable (demo_param false) name "v" " = ") <> name /\
  parts_of 95 name = split_char 95 name.
Proof. exists "A_b_C". split; [vm_compute; discriminate|reflexivity]. Qed.
Print Assumptions C20_refuted.

(** ** C21: operation predicates *)

Lemma C21_immediate_lemma : forall subs,
  is_immediate subs = false <-> (In "append" subs \/ In "prepend" subs \/ In "remove" subs).
Proof.
  intro subs. unfold is_immediate. rewrite Bool.negb_false_iff, existsb_exists. split.
  - intros [x [Hx Hm]]. apply mem_str_In in Hm. simpl in Hm.
    destruct Hm as [<-|[<-|[<-|[]]]]; auto.
  - intros [H|[H|H]]; eexists; (split; [exact H|reflexivity]).
Qed.

(** IsImmediateModify is false exactly if a deferred operation is among the
    overrides. *)
Theorem C21_immediate : forall subs,
  is_immediate subs = false <-> (In "append" subs \/ In "prepend" subs \/ In "remove" subs).
Proof. exact C21_immediate_lemma. Qed.
Print Assumptions C21_immediate.

Lemma append_op_not_remove : forall op, mem_str (strip_ws op) append_ops = true -> op <> "remove".
Proof. intros op H ->. vm_compute in H. discriminate. Qed.

Lemma C21_append_lemma : forall op subs,
  (is_append op subs = true <-> exists x, In x (append_operation op subs) /\ x <> "remove") /\
  (append_operation op subs = [] <-> is_immediate subs = true /\ is_append op subs = false) /\
  (In "remove" (append_operation op subs) <-> In "remove" subs).
Proof.
  intros op subs. unfold is_append, append_operation.
  pose proof (C21_immediate_lemma subs) as Hi.
  pose proof (append_op_not_remove op) as Hr.
  rewrite <- !mem_str_In in Hi.
  rewrite <- (mem_str_In "remove" subs).
  destruct (mem_str (strip_ws op) append_ops) eqn:E1; destruct (mem_str "append" subs) eqn:E2;
    destruct (mem_str "prepend" subs) eqn:E3; destruct (mem_str "remove" subs) eqn:E4; simpl;
    (split; [split; [intros _; eexists; split; [left; reflexivity|]; first [now apply Hr | discriminate]
                    |intros _; reflexivity]
            |]) || idtac.
  all: try (split; [split; [discriminate|intros [x [Hx Hn]]; simpl in Hx; intuition congruence]|]).
  all: split; [split; [discriminate || (intros _; split; [|reflexivity]; destruct (is_immediate subs); [reflexivity|intuition congruence])
                      |intros [Ha Hb]; try discriminate; try reflexivity;
                       destruct (is_immediate subs); intuition congruence]|].
  all: split; intro H; try reflexivity; try discriminate; intuition congruence.
Qed.

(** IsAppend is true exactly if AppendOperation lists something besides remove;
    AppendOperation is empty exactly for immediate assignments that do not
    append; it lists remove exactly for remove overrides. *)
Theorem C21_append : forall op subs,
  (is_append op subs = true <-> exists x, In x (append_operation op subs) /\ x <> "remove") /\
  (append_operation op subs = [] <-> is_immediate subs = true /\ is_append op subs = false) /\
  (In "remove" (append_operation op subs) <-> In "remove" subs).
Proof. exact C21_append_lemma. Qed.
Print Assumptions C21_append.

Lemma strip_pad : forall b1 o b2 : str, forallb py_space b1 = true -> forallb py_space b2 = true ->
  (forall c, In c o -> py_space c = false) -> o <> [] -> strip_ws (b1 ++ o ++ b2) = o.
Proof.
  intros b1 o b2 H1 H2 Ho Hn. unfold strip_ws, strip_p. rewrite lstrip_p_app by exact H1.
  rewrite lstrip_p_id.
  2:{ destruct o as [|c o]; [now elim Hn|]. apply Ho. now left. }
  rewrite rstrip_p_app by exact H2. unfold rstrip_p. rewrite lstrip_p_id; [apply rev_involutive|].
  destruct (rev o) as [|c r] eqn:E; [exact I|]. apply Ho. apply in_rev. rewrite E. now left.
Qed.

Definition appending (o : str) : Prop := o = "+=" \/ o = "=+" \/ o = ".=" \/ o = "=.".

Lemma C21_operator_lemma : forall b1 o b2 subs x, forallb py_space b1 = true -> forallb py_space b2 = true ->
  (forall c, In c o -> py_space c = false) -> o <> [] ->
  (is_append (b1 ++ o ++ b2) subs = true <-> appending o \/ In "append" subs \/ In "prepend" subs) /\
  (In x (append_operation (b1 ++ o ++ b2) subs) <->
   (x = b1 ++ o ++ b2 /\ appending o) \/ (In x ["append"; "prepend"; "remove"] /\ In x subs)).
Proof.
  intros b1 o b2 subs x H1 H2 Ho Hn. unfold is_append, append_operation.
  rewrite (strip_pad b1 o b2 H1 H2 Ho Hn).
  assert (Ha : mem_str o append_ops = true <-> appending o).
  { rewrite mem_str_In. unfold appending. simpl. split; intuition congruence. }
  rewrite !Bool.orb_true_iff, Ha, !mem_str_In. split; [tauto|].
  rewrite !in_app_iff.
  assert (Hk : forall k : str, In x (if mem_str k subs then [k] else []) <-> x = k /\ In k subs).
  { intro k. rewrite <- (mem_str_In k subs). destruct (mem_str k subs); simpl; split.
    - intros [E|[]]. now split.
    - intros [E _]. now left.
    - intros [].
    - intros [_ H]. discriminate H. }
  rewrite !Hk.
  assert (H0 : In x (if mem_str o append_ops then [b1 ++ o ++ b2] else []) <-> x = b1 ++ o ++ b2 /\ appending o).
  { rewrite <- Ha. destruct (mem_str o append_ops); simpl; split.
    - intros [E|[]]. now split.
    - intros [E _]. now left.
    - intros [].
    - intros [_ H]. discriminate H. }
  rewrite H0. simpl. split.
  - intros [H|[[-> H]|[[-> H]|[-> H]]]]; [now left|right; split; [|exact H]..]; [now left|right; now left|right; right; now left].
  - intros [H|[[<-|[<-|[<-|[]]]] H]]; [now left|right; now left|right; right; now left|right; right; now right].
Qed.

(** With whatever white space around the operator: IsAppend says whether the
    operator is one of the four that append, or append or prepend is among the
    overrides; AppendOperation lists exactly the operator as written and the
    deferred operations among the overrides. *)
Theorem C21_operator : forall b1 o b2 subs x, forallb py_space b1 = true -> forallb py_space b2 = true ->
  (forall c, In c o -> py_space c = false) -> o <> [] ->
  (is_append (b1 ++ o ++ b2) subs = true <-> appending o \/ In "append" subs \/ In "prepend" subs) /\
  (In x (append_operation (b1 ++ o ++ b2) subs) <->
   (x = b1 ++ o ++ b2 /\ appending o) \/ (In x ["append"; "prepend"; "remove"] /\ In x subs)).
Proof. exact C21_operator_lemma. Qed.
Print Assumptions C21_operator.

Example C21_operator_case : forallb py_space " " = true /\ (forall c, In c (".=" : str) -> py_space c = false)
  /\ appending ".=" /\ append_operation (" " ++ ".=" ++ " ") ["x"] = [" .= "].
Proof. split; [reflexivity|]. split; [|split; [unfold appending; auto|reflexivity]].
  simpl. intros c [<-|[<-|[]]]; reflexivity. Qed.

Lemma filter_id_iff : forall A (f : A -> bool) l, filter f l = l <-> forall x, In x l -> f x = true.
Proof.
  intros A f l. split.
  - intros E x Hx. rewrite <- E in Hx. apply filter_In in Hx. tauto.
  - intro H. induction l as [|y l IH]; [reflexivity|]. simpl. rewrite H by now left.
    now rewrite IH by (intros; apply H; now right).
Qed.

Lemma join_length : forall d l, length (join d l) = length (concat l) + length d * (length l - 1).
Proof.
  intros d l. induction l as [|x l IH]; [simpl; lia|].
  destruct l as [|y l]; [simpl; rewrite app_nil_r; lia|].
  change (join d (x :: y :: l)) with (x ++ d ++ join d (y :: l)).
  rewrite !app_length, IH. cbn [concat length]. rewrite !app_length. lia.
Qed.

Lemma filter_shorter : forall (f : str -> bool) l,
  length (filter f l) <= length l /\ length (concat (filter f l)) <= length (concat l) /\
  (length (filter f l) = length l -> filter f l = l).
Proof.
  intros f l. induction l as [|x l [H1 [H2 H3]]]; simpl; [auto|].
  destruct (f x); simpl; rewrite ?app_length.
  - repeat split; [lia|lia|]. intro H. f_equal. apply H3. lia.
  - repeat split; [lia|lia|]. intro H. lia.
Qed.

Lemma C21_nomod_lemma : forall new name subs d,
  d = delim new -> (forall q, In q subs -> ~ In d q) ->
  (var_name_nomod new name subs = var_name_complete new name subs <-> is_immediate subs = true) /\
  (forall part, In part (split_char d (var_name_nomod new name subs)) ->
     In part ["append"; "prepend"; "remove"] -> In part (split_char d name)) /\
  (forall part, In part subs -> ~ In part ["append"; "prepend"; "remove"] ->
     In part (split_char d (var_name_nomod new name subs))).
Proof.
  intros new name subs d -> Hs. unfold var_name_nomod, var_name_complete, delim_str.
  set (d := delim new) in *. set (fs := filter (fun x => negb (mem_str x modifiers)) subs).
  assert (Hsplit : forall l, (forall q, In q l -> ~ In d q) ->
            split_char d (join [d] (name :: l)) = split_char d name ++ l).
  { intros l Hl. rewrite <- (split_char_join d name) at 1.
    pose proof (split_char_nonnil d name) as Hn.
    rewrite join_cons_join by assumption.
    apply split_char_join_parts.
    - destruct (split_char d name); [congruence|discriminate].
    - intros q Hq. apply in_app_or in Hq. destruct Hq as [Hq|Hq]; [now apply split_char_no_sep in Hq|now apply Hl]. }
  assert (Hf : forall q, In q fs -> ~ In d q) by (intros q Hq; apply filter_In in Hq; now apply Hs).
  split; [|split].
  - split.
    + intro E. apply (f_equal (split_char d)) in E. rewrite !Hsplit in E by assumption.
      apply app_inv_head in E. unfold fs in E. rewrite filter_id_iff in E.
      unfold is_immediate. rewrite Bool.negb_true_iff. destruct (existsb (fun x => mem_str x modifiers) subs) eqn:Ex; [|reflexivity].
      apply existsb_exists in Ex. destruct Ex as [x [Hx Hm]]. apply E in Hx. rewrite Hm in Hx. discriminate.
    + intro H. f_equal. f_equal. unfold fs. apply filter_id_iff. intros x Hx.
      unfold is_immediate in H. rewrite Bool.negb_true_iff in H.
      destruct (mem_str x modifiers) eqn:Em; [|reflexivity].
      exfalso. assert (existsb (fun x => mem_str x modifiers) subs = true)
        by (apply existsb_exists; now exists x). congruence.
  - intros part Hp Hm. rewrite Hsplit in Hp by assumption. apply in_app_or in Hp.
    destruct Hp as [Hp|Hp]; [assumption|]. exfalso. apply filter_In in Hp. destruct Hp as [_ Hp].
    apply Bool.negb_true_iff, mem_str_not_In in Hp. apply Hp. simpl in *. tauto.
  - intros part Hp Hm. rewrite Hsplit by assumption. apply in_or_app. right.
    apply filter_In. split; [assumption|]. apply Bool.negb_true_iff, mem_str_not_In. simpl in *. tauto.
Qed.

(** VarNameCompleteNoModifiers is the complete name exactly for immediate
    assignments; it has no append, prepend or remove part beyond those of
    VarName itself, and keeps all other overrides. *)
Theorem C21_nomod : forall new name subs d,
  d = delim new -> (forall q, In q subs -> ~ In d q) ->
  (var_name_nomod new name subs = var_name_complete new name subs <-> is_immediate subs = true) /\
  (forall part, In part (split_char d (var_name_nomod new name subs)) ->
     In part ["append"; "prepend"; "remove"] -> In part (split_char d name)) /\
  (forall part, In part subs -> ~ In part ["append"; "prepend"; "remove"] ->
     In part (split_char d (var_name_nomod new name subs))).
Proof. exact C21_nomod_lemma. Qed.
Print Assumptions C21_nomod.

Example C21_case : is_immediate ["x"; "append"] = false /\ is_append " = " ["x"; "append"] = true
  /\ append_operation " += " ["x"; "remove"] = [" += "; "remove"]
  /\ var_name_nomod false "A" ["x"; "append"; "y"] = "A_x_y".
Proof. vm_compute. auto. Qed.

(** ** C22: VarValueStripped *)

(** Text of white space only, of double quotes only. *)
Definition all_space (s : str) : Prop := forall c, In c s -> py_space c = true.
Definition all_quotes (s : str) : Prop := forall c, In c s -> c = cDQ.

Lemma forallb_In : forall (p : N -> bool) s, forallb p s = true <-> forall c, In c s -> p c = true.
Proof. intros p s. apply forallb_forall. Qed.

Lemma all_space_intro : forall s, forallb py_space s = true -> all_space s.
Proof. intros s H. exact (proj1 (forallb_In py_space s) H). Qed.

Lemma C22_lemma : forall v, exists a q1 q2 b,
  v = a ++ (q1 ++ var_value_stripped v ++ q2) ++ b /\
  all_space a /\ all_space b /\ all_quotes q1 /\ all_quotes q2 /\
  (forall c r, var_value_stripped v = c :: r -> c <> cDQ) /\
  (forall c r, var_value_stripped v = r ++ [c] -> c <> cDQ) /\
  (forall c r, q1 ++ var_value_stripped v ++ q2 = c :: r -> py_space c = false) /\
  (forall c r, q1 ++ var_value_stripped v ++ q2 = r ++ [c] -> py_space c = false).
Proof.
  intro v. unfold var_value_stripped, strip_ws, strip_p, lstrip, rstrip.
  destruct (lstrip_p_spec py_space v) as [a [Ea [Ha Ha']]].
  set (v1 := lstrip_p py_space v) in *.
  destruct (rstrip_p_spec py_space v1) as [b [Eb [Hb Hb']]].
  set (v2 := rstrip_p py_space v1) in *.
  destruct (lstrip_p_spec (in_chars [cDQ]) v2) as [q1 [E1 [H1 H1']]].
  set (v3 := lstrip_p (in_chars [cDQ]) v2) in *.
  destruct (rstrip_p_spec (in_chars [cDQ]) v3) as [q2 [E2 [H2 H2']]].
  set (v4 := rstrip_p (in_chars [cDQ]) v3) in *.
  assert (Q : forall c, in_chars [cDQ] c = true -> c = cDQ).
  { intros c Hc. apply in_chars_In in Hc. destruct Hc as [Hc|[]]. congruence. }
  assert (Q' : forall c, in_chars [cDQ] c = false -> c <> cDQ).
  { intros c Hc ->. discriminate. }
  assert (E3 : v2 = q1 ++ v4 ++ q2) by (rewrite <- E2; exact E1).
  exists a, q1, q2, b. rewrite <- E3. repeat split.
  - rewrite <- Eb. exact Ea.
  - (apply all_space_intro; assumption).
  - (apply all_space_intro; assumption).
  - intros c Hc. apply Q. rewrite forallb_In in H1. now apply H1.
  - intros c Hc. apply Q. rewrite forallb_In in H2. now apply H2.
  - intros c r E. apply Q'. rewrite E2, E in H1'. exact H1'.
  - intros c r E. apply Q'. rewrite E, rev_app_distr in H2'. exact H2'.
  - intros c r E. rewrite Eb, E in Ha'. exact Ha'.
  - intros c r E. rewrite E, rev_app_distr in Hb'. exact Hb'.
Qed.

(** VarValueStripped removes white space around the value and then double
    quotes, all of them and nothing else. *)
Theorem C22_stripped : forall v, exists a q1 q2 b,
  v = a ++ (q1 ++ var_value_stripped v ++ q2) ++ b /\
  all_space a /\ all_space b /\ all_quotes q1 /\ all_quotes q2 /\
  (forall c r, var_value_stripped v = c :: r -> c <> cDQ) /\
  (forall c r, var_value_stripped v = r ++ [c] -> c <> cDQ) /\
  (forall c r, q1 ++ var_value_stripped v ++ q2 = c :: r -> py_space c = false) /\
  (forall c r, q1 ++ var_value_stripped v ++ q2 = r ++ [c] -> py_space c = false).
Proof. exact C22_lemma. Qed.
Print Assumptions C22_stripped.

Example C22_case : var_value_stripped "  "" a ""b""  " = " a ""b".
Proof. vm_compute. reflexivity. Qed.

(** ** C63: function bodies *)

Lemma C63_lines_lemma : forall i py fr n sub subs body raw,
  it_pay i = PFunction py fr n sub subs body raw ->
  join [cNL] (get_items_of i) = raw /\ (forall l, In l (get_items_of i) -> ~ In cNL l).
Proof.
  intros i py fr n sub subs body raw E. unfold get_items_of. rewrite E. split.
  - apply split_char_join.
  - apply split_char_no_sep.
Qed.

(** The items of a function are the lines of its raw body. *)
Theorem C63_lines : forall i py fr n sub subs body raw,
  it_pay i = PFunction py fr n sub subs body raw ->
  join [cNL] (get_items_of i) = raw /\ (forall l, In l (get_items_of i) -> ~ In cNL l).
Proof. exact C63_lines_lemma. Qed.
Print Assumptions C63_lines.

Lemma strip_In : forall p s c, In c (strip_p p s) -> In c s.
Proof.
  intros p s c H. unfold strip_p in H.
  destruct (lstrip_p_spec p s) as [a [Ea _]]. destruct (rstrip_p_spec p (lstrip_p p s)) as [b [Eb _]].
  rewrite Ea. apply in_or_app. right. rewrite Eb. apply in_or_app. now left.
Qed.

Lemma C63_stripped_lemma : forall body,
  exists a b, filter (fun c => negb (in_chars ("{}" ++ [cNL]) c)) body = a ++ func_body_stripped body ++ b
    /\ all_space a /\ all_space b
    /\ ~ In 123%N (func_body_stripped body) /\ ~ In 125%N (func_body_stripped body)
    /\ ~ In cNL (func_body_stripped body).
Proof.
  intro body. unfold func_body_stripped.
  assert (E : remove_char cNL (remove_char 125 (remove_char 123 body))
              = filter (fun c => negb (in_chars ("{}" ++ [cNL]) c)) body).
  { unfold remove_char. induction body as [|c s IH]; [reflexivity|].
    simpl. destruct (N.eqb_spec c 123) as [->|H1]; simpl; [exact IH|].
    destruct (N.eqb_spec c 125) as [->|H2]; simpl; [exact IH|].
    destruct (N.eqb c cNL); simpl; [exact IH|now f_equal]. }
  rewrite E. set (f := filter _ body).
  destruct (lstrip_p_spec py_space f) as [a [Ea [Ha _]]].
  destruct (rstrip_p_spec py_space (lstrip_p py_space f)) as [b [Eb [Hb _]]].
  exists a, b. unfold strip_ws, strip_p. rewrite <- Eb. split; [exact Ea|].
  split; [(apply all_space_intro; assumption)|]. split; [(apply all_space_intro; assumption)|].
  assert (N : forall c, In c (strip_p py_space f) -> in_chars ("{}" ++ [cNL]) c = false).
  { intros c Hc. apply strip_In in Hc. apply filter_In in Hc. now apply Bool.negb_true_iff. }
  repeat split; intro H; apply N in H; discriminate.
Qed.

(** FuncBodyStripped is the body without braces and newlines, up to
    surrounding white space. *)
Theorem C63_stripped : forall body,
  exists a b, filter (fun c => negb (in_chars ("{}" ++ [cNL]) c)) body = a ++ func_body_stripped body ++ b
    /\ all_space a /\ all_space b
    /\ ~ In 123%N (func_body_stripped body) /\ ~ In 125%N (func_body_stripped body)
    /\ ~ In cNL (func_body_stripped body).
Proof. exact C63_stripped_lemma. Qed.
Print Assumptions C63_stripped.

(** Blank lines and the lines of a text. *)
Definition blank (l : str) : Prop := forall c, In c l -> c = 32%N \/ c = 9%N.

(** [dedented l l']: the lines [l'] are [l] without their longest common
    margin of blanks; blank lines are empty. *)
Definition dedented (ls ls' : list str) : Prop :=
  exists mg, blank mg /\
    Forall2 (fun l l' => (blank l /\ l' = []) \/ (~ blank l /\ l = mg ++ l')) ls ls' /\
    (forall mg', blank mg' -> (exists l, In l ls /\ ~ blank l) ->
       (forall l, In l ls -> ~ blank l -> exists r, l = mg' ++ r) -> length mg' <= length mg).

Lemma blank_iff : forall l, blank l <-> blank_line l = true.
Proof.
  intro l. unfold blank, blank_line. rewrite forallb_In. unfold is_blank_char, cSP, cTAB.
  split; intros H c Hc; specialize (H c Hc).
  - destruct H as [->| ->]; reflexivity.
  - apply Bool.orb_true_iff in H. rewrite !N.eqb_eq in H. exact H.
Qed.

Lemma blank_prefix : forall l mg r, ~ blank l -> l = mg ++ r -> blank mg -> exists r', take_blank l = mg ++ r'.
Proof.
  intros l mg. revert l. induction mg as [|c mg IH]; intros l r Hn E Hb.
  - now exists (take_blank l).
  - subst l. simpl. assert (Hc : is_blank_char c = true).
    { unfold is_blank_char, cSP, cTAB. apply Bool.orb_true_iff. rewrite !N.eqb_eq. apply Hb. now left. }
    rewrite Hc. destruct (IH (mg ++ r) r) as [r' E'].
    + intro H. apply Hn. apply blank_iff. apply blank_iff in H. unfold blank_line in *. simpl. now rewrite Hc, H.
    + reflexivity.
    + intros x Hx. apply Hb. now right.
    + exists r'. now rewrite E'.
Qed.

Lemma dedent_lemma : forall s,
  exists ls', dedent s = join [cNL] ls' /\ dedented (split_char cNL s) ls'.
Proof.
  intro s. unfold dedent. set (ls := split_char cNL s). cbv zeta.
  set (norm := map (fun l => if blank_line l then [] else l) ls).
  set (mg := dedent_margin norm).
  eexists. split; [reflexivity|]. exists mg.
  assert (Hnorm : forall x, In x norm -> x = [] \/ (In x ls /\ blank_line x = false)).
  { intros x Hx. apply in_map_iff in Hx. destruct Hx as [l [El Hl]].
    destruct (blank_line l) eqn:Eb; subst x; [now left|now right]. }
  assert (Hls : forall l, In l ls -> blank_line l = false -> In l norm).
  { intros l Hl Eb. apply in_map_iff. exists l. now rewrite Eb. }
  assert (Hmg : (forall l, In l norm -> blank_line l = false -> exists r, l = mg ++ r) /\ blank mg
                /\ (forall mg', blank mg' -> (exists l, In l ls /\ ~ blank l) ->
                     (forall l, In l ls -> ~ blank l -> exists r, l = mg' ++ r) -> length mg' <= length mg)).
  { unfold mg, dedent_margin.
    set (tb := map take_blank (filter (fun l => negb (blank_line l)) norm)).
    assert (Htb : forall l, In l norm -> blank_line l = false -> In (take_blank l) tb).
    { intros l Hl Eb. apply in_map. apply filter_In. split; [assumption|now rewrite Eb]. }
    assert (Htb' : forall t, In t tb -> exists l, In l ls /\ blank_line l = false /\ t = take_blank l).
    { intros t Ht. apply in_map_iff in Ht. destruct Ht as [l [<- Hl]]. apply filter_In in Hl.
      destruct Hl as [Hl Hb]. apply Bool.negb_true_iff in Hb. exists l. split; [|auto].
      destruct (Hnorm l Hl) as [->|[H _]]; [discriminate|assumption]. }
    destruct tb as [|i r] eqn:Et.
    - split; [|split].
      + intros l Hl Hb. now apply Htb in Hl.
      + intros c [].
      + intros mg' _ [l [Hl Hb]] _. exfalso.
        assert (Eb : blank_line l = false) by (destruct (blank_line l) eqn:E; [apply blank_iff in E; contradiction|reflexivity]).
        exact (Htb l (Hls l Hl Eb) Eb).
    - destruct (fold_prefix r i) as [F1 [F2 F3]]. set (m := fold_left common_prefix r i) in *.
      assert (F : forall t, In t (i :: r) -> exists x, t = m ++ x).
      { intros t [<-|Ht]; [exact F1|now apply F2]. }
      split; [|split].
      + intros l Hl Hb. destruct (F _ (Htb l Hl Hb)) as [x Ex].
        destruct (take_blank_spec l) as [y [Ey _]]. exists (x ++ y). rewrite app_assoc. now rewrite <- Ex.
      + destruct F1 as [x Ex]. destruct (Htb' i (or_introl eq_refl)) as [l [_ [_ Hi]]].
        destruct (take_blank_spec l) as [y [_ [Hy _]]]. rewrite <- Hi, Ex in Hy.
        apply blank_iff. unfold blank_line. rewrite forallb_app in Hy. now apply Bool.andb_true_iff in Hy.
      + intros mg' Hb' _ Hall. apply F3.
        * destruct (Htb' i (or_introl eq_refl)) as [l [Hl [Hbl ->]]].
          assert (Hn : ~ blank l) by (intro H; apply blank_iff in H; congruence).
          destruct (Hall l Hl Hn) as [y Ey]. eapply blank_prefix; eassumption.
        * intros t Ht. destruct (Htb' t (or_intror Ht)) as [l [Hl [Hbl ->]]].
          assert (Hn : ~ blank l) by (intro H; apply blank_iff in H; congruence).
          destruct (Hall l Hl Hn) as [y Ey]. eapply blank_prefix; eassumption. }
  destruct Hmg as [Hm1 [Hm2 Hm3]]. split; [exact Hm2|]. split; [|exact Hm3].
  assert (Hin : forall l, In l ls -> blank_line l = false -> exists r, l = mg ++ r).
  { intros l Hl Eb. now apply Hm1; [apply Hls|]. }
  clearbody mg. unfold norm. clear - Hin. induction ls as [|l ls IH]; simpl; constructor.
  - destruct (blank_line l) eqn:Eb.
    + left. split; [now apply blank_iff|]. destruct (startswith mg []); [|reflexivity].
      now destruct (length mg).
    + right. split; [intro H; apply blank_iff in H; congruence|].
      destruct (Hin l (or_introl eq_refl) Eb) as [r Er]. rewrite Er at 2. rewrite startswith_app.
      rewrite Er at 2. rewrite skipn_app, skipn_all, Nat.sub_diag. exact Er.
  - apply IH. intros l' Hl'. apply Hin. now right.
Qed.

(** The text between the first opening brace and the closing ones. *)
Definition body_text (raw text : str) : Prop :=
  exists head tail ws,
    (raw = head ++ "{" ++ text ++ tail ++ ws /\ ~ In 123%N head
     \/ raw = text ++ tail ++ ws /\ ~ In 123%N raw) /\
    (forall c, In c tail -> c = 125%N) /\ all_space ws /\
    (forall c r, text = r ++ [c] -> c <> 125%N) /\
    (forall c r, text ++ tail = r ++ [c] -> py_space c = false).

Lemma C63_raw_lemma : forall known p name body py fr,
  exists n sub subs raw text ls,
    it_pay (mk_function known p name body py fr) = PFunction py fr n sub subs body raw /\
    body_text (ip_raw p) text /\ dedented (split_char cNL text) ls /\ raw = join [cNL] ls.
Proof.
  intros known p name body py fr. unfold mk_function.
  destruct (extract_sub_func known (ip_new p) _) as [[new var] sub]. simpl.
  unfold func_body_raw.
  set (after := match find_str "{" (ip_raw p) with Some (_, b) => b | None => ip_raw p end).
  destruct (dedent_lemma (rstrip "}" (rstrip_ws after))) as [ls [E1 E2]].
  eexists _, _, _, _, (rstrip "}" (rstrip_ws after)), ls.
  split; [reflexivity|]. split; [|split; [exact E2|exact E1]].
  unfold rstrip, rstrip_ws. destruct (rstrip_p_spec py_space after) as [ws [Ew [Hw Hw']]].
  set (a1 := rstrip_p py_space after) in *.
  destruct (rstrip_p_spec (in_chars "}") a1) as [tl0 [Et [Ht Ht']]].
  set (a2 := rstrip_p (in_chars "}") a1) in *.
  destruct (find_str "{" (ip_raw p)) as [[h b]|] eqn:Ef.
  - exists h, tl0, ws. split.
    + left. pose proof (find_str_some "{" (ip_raw p) h b Ef) as Es.
      split; [rewrite Es; do 2 f_equal; rewrite app_assoc; rewrite <- Et; exact Ew|].
      intro Hi. apply in_split in Hi. destruct Hi as [x [y ->]].
      pose proof (find_str_first "{" _ _ _ Ef x (y ++ "{" ++ b)) as Hf.
      rewrite Es in Hf. specialize (Hf ltac:(now rewrite <- app_assoc)).
      rewrite app_length in Hf. simpl in Hf. lia.
    + split; [|split; [|split]].
      * intros c Hc. rewrite forallb_In in Ht. apply Ht in Hc. apply in_chars_In in Hc.
        destruct Hc as [Hc|[]]. congruence.
      * (apply all_space_intro; assumption).
      * intros c r E. rewrite E, rev_app_distr in Ht'. simpl in Ht'. intros ->. discriminate.
      * intros c r E. rewrite Et, E, rev_app_distr in Hw'. exact Hw'.
  - exists [], tl0, ws. split.
    + right. split; [rewrite app_assoc; rewrite <- Et; exact Ew|].
      intro Hi. apply in_split in Hi. destruct Hi as [x [y E]].
      exact (find_str_none "{" _ Ef x y E).
    + split; [|split; [|split]].
      * intros c Hc. rewrite forallb_In in Ht. apply Ht in Hc. apply in_chars_In in Hc.
        destruct Hc as [Hc|[]]. congruence.
      * (apply all_space_intro; assumption).
      * intros c r E. rewrite E, rev_app_distr in Ht'. simpl in Ht'. intros ->. discriminate.
      * intros c r E. rewrite Et, E, rev_app_distr in Hw'. exact Hw'.
Qed.

(** FuncBodyRaw is the text between the first opening brace and the closing
    braces at the end, without its common margin. *)
Theorem C63_raw : forall known p name body py fr,
  exists n sub subs raw text ls,
    it_pay (mk_function known p name body py fr) = PFunction py fr n sub subs body raw /\
    body_text (ip_raw p) text /\ dedented (split_char cNL text) ls /\ raw = join [cNL] ls.
Proof. exact C63_raw_lemma. Qed.
Print Assumptions C63_raw.

Example C63_case :
  let raw := "do_x() {" ++ [cNL] ++ "  a" ++ [cNL] ++ "   {b}" ++ [cNL] ++ " " ++ [cNL] ++ "}" ++ [cNL] in
  func_body_raw raw = [cNL] ++ "a" ++ [cNL] ++ " {b}" ++ [cNL] ++ [cNL]
  /\ func_body_stripped " a{b} " = "ab".
Proof. vm_compute. auto. Qed.

(** ** C67: splitting of function names *)

Definition func_complete_name (i : item) : str :=
  match it_pay i with PFunction _ _ n _ subs _ _ => join (delim_str (it_new i)) (n :: subs) | _ => [] end.

Lemma from_first_app : forall i a b, ~ In i a -> from_first i (a ++ i :: b) = i :: b.
Proof.
  intros i a b H. induction a as [|x a IH]; simpl.
  - now rewrite str_eqb_refl.
  - destruct (str_eqb x i) eqn:E; [apply str_eqb_eq in E; subst; exfalso; apply H; now left|].
    apply IH. intro Hi. apply H. now right.
Qed.

Lemma sub_func_loop_spec : forall known d chunks rest var,
  chunks = var ++ rest -> NoDup chunks ->
  exists a b, sub_func_loop known d chunks var rest = (var ++ a, b) /\ rest = a ++ b.
Proof.
  intros known d chunks. induction rest as [|i r IH]; intros var E Hn; cbn [sub_func_loop].
  - exists [], []. now rewrite app_nil_r.
  - destruct (mem_str i func_markers || cval_contains (join d var) known).
    + exists [], (i :: r). split; [|reflexivity]. rewrite app_nil_r. f_equal. rewrite E.
      apply from_first_app. rewrite E in Hn. apply NoDup_remove_2 in Hn. intro H. apply Hn.
      apply in_or_app. now left.
    + destruct (IH (var ++ [i])) as [a [b [E1 E2]]].
      * now rewrite <- app_assoc.
      * assumption.
      * exists (i :: a), b. rewrite E1, <- app_assoc. simpl. now rewrite E2.
Qed.

Lemma C67_lemma : forall known p name body py fr d,
  let nm := strip_ws name in
  nm <> "__anonymous" -> delimiter (ip_new p) nm d ->
  NoDup (split_char d nm) -> hd [] (split_char d nm) <> [] ->
  func_complete_name (mk_function known p (Some name) body py fr) = join [d] (parts_of d nm).
Proof.
  intros known p name body py fr d nm Ha Hd Hn Hf. unfold func_complete_name, mk_function. fold nm.
  assert (Ed : d = delim (ip_new p || contains ":" nm)).
  { pose proof (delim_spec (ip_new p) nm) as [D1 D2]. destruct Hd as [E1 E2].
    destruct (ip_new p) eqn:En.
    - rewrite D1, E1; auto.
    - destruct (in_dec N.eq_dec 58%N nm) as [Hi|Hi].
      + rewrite D1, E1; auto.
      + rewrite D2, E2; auto; intros [H|H]; try discriminate; contradiction. }
  unfold extract_sub_func. apply str_eqb_neq in Ha. rewrite Ha.
  set (new := ip_new p || contains ":" nm) in *. unfold delim_str. rewrite <- Ed.
  set (chunks := split_char d nm) in *.
  assert (Ec : chunks = [hd [] chunks] ++ tl chunks) by (apply split_hd_tl).
  destruct (sub_func_loop_spec known [d] chunks (tl chunks) [hd [] chunks] Ec Hn) as [a [b [E1 E2]]].
  rewrite E1. cbn [it_pay it_new mk_item]. rewrite <- Ed.
  assert (Hb : forall q, In q (keep_nonempty b) -> ~ In d q /\ q <> []).
  { intros q Hq. apply keep_nonempty_In in Hq. destruct Hq as [Hq Hne]. split; [|assumption].
    apply (split_char_no_sep d nm). fold chunks. rewrite Ec, E2. simpl. right. apply in_or_app. now right. }
  rewrite (split_join_keep d (keep_nonempty b) Hb).
  assert (Ene : keep_nonempty ([hd [] chunks] ++ a) <> []).
  { simpl. destruct (hd [] chunks); [congruence|discriminate]. }
  rewrite join_cons_join by exact Ene. f_equal. unfold parts_of. fold chunks. rewrite Ec at 2.
  unfold keep_nonempty. rewrite <- filter_app. f_equal. rewrite E2. now rewrite <- app_assoc.
Qed.

(** For a function whose name parts are pairwise different, FuncNameComplete
    is the written name (without empty parts). *)
Theorem C67_funcname : forall known p name body py fr d,
  let nm := strip_ws name in
  nm <> "__anonymous" -> delimiter (ip_new p) nm d ->
  NoDup (split_char d nm) -> hd [] (split_char d nm) <> [] ->
  func_complete_name (mk_function known p (Some name) body py fr) = join [d] (parts_of d nm).
Proof. exact C67_lemma. Qed.
Print Assumptions C67_funcname.

Example C67_case : func_complete_name (mk_function (CList ["do_x"]) (demo_param false) (Some "do_x_append_y ") "" false false)
  = "do_x_append_y".
Proof. vm_compute. reflexivity. Qed.

(** A part that occurs twice is looked up at its first occurrence, and the
    name grows. *)
Theorem C67_refuted : exists name,
  func_complete_name (mk_function (CList []) (demo_param false) (Some name) "" false false) <> name /\
  parts_of 95 name = split_char 95 name.
Proof. exists "append_x_append". split; [vm_compute; discriminate|reflexivity]. Qed.
Print Assumptions C67_refuted.
