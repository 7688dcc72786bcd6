(** * Theorems about statements that are complete on their line *)

From Verif Require Import PyStr Regex UniTable Patterns PyPath Res Inline Const Item Lines Stash
  StrFacts Demo Props_Lines Spec_Parse Spec_Group Proofs_Group Props_Group Spec_Swallow Proofs_Swallow.

(** ** C118 *)

(** A line that has an empty pair of parentheses in front of a brace anywhere
    takes all lines that follow it, up to one that closes a brace too much. *)
Theorem C118_swallow : forall n e path off forced s l s' t gs h m,
  add_file n e path off forced s = (Ok l, s') -> considered e path s ->
  fs_read (e_fs e) (file_of e path) = RdText t ->
  taken (readlines (universal_newlines t)) gs (h :: m) ->
  opens h -> ~ carries_on h -> inside m -> m <> [] ->
  map it_realraw l = map (@concat N) gs ++ [concat (h :: m)].
Proof. exact C118_swallow_lemma. Qed.
Print Assumptions C118_swallow.

(** Any other line that is no comment, no definition and not continued is an
    item of its own, and what follows is read as if it stood alone.  Missing are
    the lines of [C118_swallow], for which this is false, see [C118_refuted];
    comments in the first column are one item together. *)
Theorem C118_line_partial : forall n e path off forced s l s' t gs h r gs',
  add_file n e path off forced s = (Ok l, s') -> considered e path s ->
  fs_read (e_fs e) (file_of e path) = RdText t ->
  taken (readlines (universal_newlines t)) gs (h :: r) -> taken r gs' [] ->
  ~ carries_on h -> ~ opens h -> ~ remark h -> ~ defines h ->
  map it_realraw l = map (@concat N) gs ++ h :: map (@concat N) gs'.
Proof. exact C118_line_lemma. Qed.
Print Assumptions C118_line_partial.

Definition sw_rest : str := "B = ""${C}""" ++ nl ++ "inherit k" ++ nl.
Definition sw_env (t : str) : env := demo_env [("/w/a.bb", t)] ["/w"; "/"].
Notation sw_run t := (add_file 3 (sw_env t) "/w/a.bb" 0 None demo_stash).

Lemma sw_considered : forall t, considered (sw_env t) "/w/a.bb" demo_stash.
Proof. intro t. split; [intros []|intros []]. Qed.

(** The function of the first line takes the rest; without parentheses in front
    of the brace it would not. *)
Definition sw_f : str := "do_x() { echo; }" ++ nl.
Definition sw_v : str := "A = ""f {""" ++ nl.
Example C118_case :
  (sw_run (sw_v ++ sw_f ++ sw_rest) = (Ok (ok_items (sw_run (sw_v ++ sw_f ++ sw_rest))), snd (sw_run (sw_v ++ sw_f ++ sw_rest)))) /\
  considered (sw_env (sw_v ++ sw_f ++ sw_rest)) "/w/a.bb" demo_stash /\
  exists h m, taken (readlines (sw_v ++ sw_f ++ sw_rest)) [[sw_v]] (h :: m) /\
    opens h /\ ~ carries_on h /\ inside m /\ m <> [] /\ ~ carries_on sw_v /\ ~ opens sw_v /\ ~ remark sw_v /\ ~ defines sw_v.
Proof.
  split; [vm_compute; reflexivity|]. split; [apply sw_considered|].
  assert (NB : forall l, ~ In cBSL l -> ~ carries_on l).
  { intros l H [a [w [E _]]]. apply H. rewrite E. apply in_or_app. right. now left. }
  assert (V1 : ~ carries_on sw_v) by (apply NB; cbv; intuition discriminate).
  assert (V2 : ~ opens sw_v).
  { intros (a & w1 & w2 & b & E & _). assert (H : In 40%N sw_v) by (rewrite E; apply in_or_app; right; now left).
    revert H. cbv. intuition discriminate. }
  assert (V3 : ~ remark sw_v) by (intros [t E]; discriminate E).
  assert (V4 : ~ defines sw_v).
  { intros (w & t & E & W & _). destruct w as [|c w]; [discriminate E|]. unfold sw_v in E. injection E as <- _.
    specialize (W 65%N (or_introl eq_refl)). discriminate W. }
  exists sw_f, ["B = ""${C}""" ++ nl; "inherit k" ++ nl]. split.
  - change (readlines (sw_v ++ sw_f ++ sw_rest)) with [sw_v; sw_f; "B = ""${C}""" ++ nl; "inherit k" ++ nl].
    apply (taken_more _ _ [sw_f; "B = ""${C}""" ++ nl; "inherit k" ++ nl]); [now apply block_line|constructor].
  - split; [exists "do_x", [], " ", (" echo; }" ++ nl); split; [reflexivity|]; split; [intros c []|intros c [<-|[]]; reflexivity]|].
    split; [apply NB; cbv; intuition discriminate|]. split; [|split; [discriminate|auto]].
    intros a b E. destruct a as [|x a]; [discriminate|]. injection E as <- E. destruct a as [|x a]; [discriminate|].
    injection E as <- E. destruct a as [|x a]; [discriminate|discriminate].
Qed.

(** A function, a comment and an assignment, each complete on its line: the
    statements behind it are no items. *)
Theorem C118_refuted : forall k, k < 3 ->
  exists h l s', complete h /\ sw_run (h ++ sw_rest) = (Ok l, s') /\ map it_realraw l = [h ++ sw_rest] /\
    map classifier l = [nth k ["Function"; "Comment"; "Variable"] []].
Proof.
  intros k Hk. destruct k as [|[|[|k]]]; [| | |lia].
  - exists sw_f, (ok_items (sw_run (sw_f ++ sw_rest))), (snd (sw_run (sw_f ++ sw_rest))).
    split; [|split; [vm_compute; reflexivity|split; vm_compute; reflexivity]]. apply (complete_function "do_x" " echo; "); [discriminate| |cbv; intuition discriminate|reflexivity].
    intros c H. cbv in H. unfold letter, between. repeat (destruct H as [<-|H]; [lia|]). destruct H.
  - exists ("# do_x() {" ++ nl), (ok_items (sw_run (("# do_x() {" ++ nl) ++ sw_rest))), (snd (sw_run (("# do_x() {" ++ nl) ++ sw_rest))).
    split; [|split; [vm_compute; reflexivity|split; vm_compute; reflexivity]]. apply (complete_comment " do_x() {"); cbv; intuition discriminate.
  - exists ("A = ""f() {""" ++ nl), (ok_items (sw_run (("A = ""f() {""" ++ nl) ++ sw_rest))), (snd (sw_run (("A = ""f() {""" ++ nl) ++ sw_rest))).
    split; [|split; [vm_compute; reflexivity|split; vm_compute; reflexivity]]. apply (complete_assign "A" "f() {"); [discriminate| |cbv; intuition discriminate|cbv; intuition discriminate].
    intros c H. cbv in H. unfold letter, between. repeat (destruct H as [<-|H]; [lia|]). destruct H.
Qed.
Print Assumptions C118_refuted.
