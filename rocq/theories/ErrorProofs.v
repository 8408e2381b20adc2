(** * ErrorProofs: facts about Errors.v *)
From Coq Require Import String Ascii List Bool Arith Lia.
From Verif Require Import Base Policy Errors.
Import ListNotations.
Local Open Scope string_scope.

Lemma string_app_inj_l (x : string) : forall y z, x ++ y = x ++ z -> y = z.
Proof. induction x as [|c x IH]; intros y z H; [exact H|]. cbn in H. injection H as H. auto. Qed.

Lemma string_app_length (x y : string) : String.length (x ++ y) = String.length x + String.length y.
Proof. induction x; cbn; auto. Qed.

Lemma string_app_inj_r (z : string) : forall x y, x ++ z = y ++ z -> x = y.
Proof.
  induction x as [|c x IH]; intros [|d y] H; try reflexivity.
  - apply (f_equal String.length) in H. cbn [append] in H. cbn [String.length] in H. rewrite string_app_length in H. lia.
  - apply (f_equal String.length) in H. cbn [append] in H. cbn [String.length] in H. rewrite string_app_length in H. lia.
  - cbn in H. injection H as -> H. f_equal. auto.
Qed.

Lemma display_inj e e' : error_display e = error_display e' -> e = e'.
Proof. intros H. apply string_app_inj_l in H. destruct e, e'. cbn in H. now subst. Qed.

Lemma parse_error_inj lang lang' l l' :
  from_parse_error lang l = from_parse_error lang' l' <-> error_line l = error_line l'.
Proof.
  assert (X : forall lang l, details (from_parse_error lang l) = "Json Policy Error in line " ++ dec (error_line l) ++ newline)
    by (intros [|] ?; reflexivity).
  split; intros H.
  - apply (f_equal details) in H. rewrite !X in H. apply string_app_inj_l, string_app_inj_r in H. now apply dec_inj.
  - destruct lang, lang'; cbn; unfold from_json_error, from_human_error; now rewrite H.
Qed.

Lemma last_line l : match l with
  | AtPos (n, _) => error_line l = n
  | AtSpan (n, _) (m, _) => n <= error_line l /\ m <= error_line l /\ (error_line l = n \/ error_line l = m)
  end.
Proof. destruct l as [[n c]|[n c] [m d]]; cbn; lia. Qed.

Lemma kinds_differ e e' lang l : (from_field_error e = from_field_error e' -> e = e') /\
  from_field_error e <> from_parse_error lang l /\ from_field_error e <> from_slice_error /\
  from_slice_error <> from_parse_error lang l.
Proof. repeat split; destruct e; try destruct e'; destruct lang; intros H; try reflexivity; discriminate H. Qed.
