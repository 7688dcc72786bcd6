(** * Names without overrides *)

From Verif Require Import PyStr Regex UniTable Patterns PyPath Res Inline Const Item Lines Stash
  StrFacts ReFacts LinesFacts Spec_Parse ClassFacts MatchFacts ShapeFacts Proofs_Parse.

Lemma extract_plain : forall new name, name <> [] -> ~ In 58%N name -> ~ In 95%N name ->
  extract_sub new name = (new, name, []).
Proof.
  intros new name H0 H1 H2. unfold extract_sub.
  assert (C : contains ":" name = false).
  { destruct (contains ":" name) eqn:E; [|reflexivity]. apply contains_spec in E. destruct E as [a [b ->]]. exfalso. apply H1. apply in_mid. }
  rewrite C, orb_false_r.
  assert (S : split_char (delim new) name = [name]) by (apply split_char_none; destruct new; assumption).
  rewrite S. destruct name as [|c name]; [congruence|]. reflexivity.
Qed.

Lemma C10_plain_lemma : forall e i name op value, parsed_item e i -> assignment name op value (one_line i) ->
  ~ statement_word name -> ~ In 58%N name -> ~ In 95%N name -> it_pay i = PVariable name [] [] value op name.
Proof.
  intros e i name op value Hi Ha Hs H1 H2. destruct (C10_lemma e i name op value Hi Ha Hs) as [_ [p [Hp _]]]. rewrite Hp.
  destruct Ha as [_ [[Hn _] _]]. unfold mk_variable. rewrite (extract_plain (ip_new p) name Hn H1 H2). reflexivity.
Qed.
