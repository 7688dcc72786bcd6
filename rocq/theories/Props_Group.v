(** * Theorems about how the lines of a file form statements *)

From Verif Require Import PyStr Regex UniTable Patterns PyPath Res Inline Const Item Lines Stash
  StrFacts Demo Props_Lines Spec_Parse Spec_Group Proofs_Group.

(** ** C83: the items of a file are its statements *)

(** The text of every item is a statement of the file, in the order of the
    file, and nothing is left over. *)
Theorem C83_statements : forall n e path off forced s l s',
  add_file n e path off forced s = (Ok l, s') -> considered e path s ->
  match fs_read (e_fs e) (file_of e path) with
  | RdText t => exists gs, taken (readlines (universal_newlines t)) gs [] /\ map it_realraw l = map (@concat N) gs
  | _ => l = []
  end.
Proof. exact add_file_taken. Qed.
Print Assumptions C83_statements.

(** The lines are those of the text: there is one way to cut it into lines. *)
Theorem C83_lines : forall ls, lines ls -> ls = readlines (concat ls).
Proof. exact readlines_unique. Qed.
Print Assumptions C83_lines.

(** Every list of lines is cut into statements up to an end that waits for
    more lines, and in one way only. *)
Theorem C83_total : forall ls, lines ls -> exists gs u, taken ls gs u /\ (u = [] \/ waiting u).
Proof. exact taken_exists. Qed.
Print Assumptions C83_total.

Theorem C83_unique : forall ls gs u, lines ls -> taken ls gs u -> forall gs' u', taken ls gs' u' ->
  (u = [] \/ waiting u) -> (u' = [] \/ waiting u') -> gs = gs' /\ u = u'.
Proof. exact taken_unique. Qed.
Print Assumptions C83_unique.

(** ** C06: when a file is not parsed to its end *)
Theorem C06_waiting : forall off neg text,
  prepare_text off neg text = Raise StopIteration <->
  exists gs u, taken (readlines text) gs u /\ waiting u.
Proof. exact prepare_waiting. Qed.
Print Assumptions C06_waiting.

(** The demo file has a continued assignment, comments, a function and a last
    line without newline. *)
Example C83_case : exists l s', demo_run = (Ok l, s') /\ considered demo_e "a.bb" demo_stash /\
  fs_read (e_fs demo_e) (file_of demo_e "a.bb") = RdText demo_text /\ length l = 4.
Proof.
  exists (ok_items demo_run), (snd demo_run). split; [vm_compute; reflexivity|].
  split; [exact demo_considered|]. split; vm_compute; reflexivity.
Qed.

Example C06_waiting_case : exists gs u,
  taken (readlines ("B = 1" ++ nl ++ "do_x() {" ++ nl)) gs u /\ waiting u /\ gs <> [].
Proof.
  destruct (proj1 (prepare_waiting 0 false ("B = 1" ++ nl ++ "do_x() {" ++ nl))) as [gs [u [H W]]];
    [vm_compute; reflexivity|].
  exists gs, u. split; [exact H|]. split; [exact W|]. intros ->. inversion H; subst.
  destruct W as [[_ F]|[h [E _]]]; [|discriminate E].
  inversion F as [|x y [a [w [E _]]]]. subst.
  assert (In cBSL ("B = 1" ++ nl)).
  { match type of E with ?x = _ => change (In cBSL x) end. rewrite E, !in_app_iff. cbn. tauto. }
  cbn in *. intuition discriminate.
Qed.
