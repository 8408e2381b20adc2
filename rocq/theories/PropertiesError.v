(** * PropertiesError: what an error tells (C112) *)
From Coq Require Import String Ascii List Bool Arith Lia.
From Verif Require Import Base Policy Errors ErrorProofs.
Import ListNotations.
Local Open Scope string_scope.

(** C112 is false: an error in a human policy is reported as one of a JSON policy. *)
Theorem C112_language_refuted : exists l, from_parse_error HumanPolicy l = from_parse_error JsonPolicy l /\
  error_display (from_parse_error HumanPolicy l) = "Error: Json Policy Error in line 3" ++ newline.
Proof. exists (AtPos (3, 7)). split; reflexivity. Qed.
Print Assumptions C112_language_refuted.

(** The text tells the line and nothing else: not the language, not the column. *)
Theorem C112_line : forall lang lang' l l',
  from_parse_error lang l = from_parse_error lang' l' <-> error_line l = error_line l'.
Proof. exact parse_error_inj. Qed.
Print Assumptions C112_line.

Example C112_example_line : from_parse_error HumanPolicy (AtSpan (1, 2) (2, 5)) = from_parse_error JsonPolicy (AtPos (2, 9)) /\
  from_parse_error HumanPolicy (AtPos (1, 2)) <> from_parse_error HumanPolicy (AtPos (2, 2)).
Proof. split; [reflexivity|]. intros H. apply C112_line in H. discriminate H. Qed.

(** The line is the last one of the place. *)
Theorem C112_last_line : forall l, match l with
  | AtPos (n, _) => error_line l = n
  | AtSpan (n, _) (m, _) => n <= error_line l /\ m <= error_line l /\ (error_line l = n \/ error_line l = m)
  end.
Proof. exact last_line. Qed.
Print Assumptions C112_last_line.

Example C112_example_last : error_line (AtSpan (4, 1) (2, 5)) = 4.
Proof. reflexivity. Qed.

(** Errors that are shown alike are equal. *)
Theorem C112_display : forall e e', error_display e = error_display e' -> e = e'.
Proof. exact display_inj. Qed.
Print Assumptions C112_display.

Example C112_example_display : error_display (from_string "x") = "Error: x".
Proof. reflexivity. Qed.

(** Errors of the field, of slices and of policies are told apart. *)
Theorem C112_kinds : forall e e' lang l, (from_field_error e = from_field_error e' -> e = e') /\
  from_field_error e <> from_parse_error lang l /\ from_field_error e <> from_slice_error /\
  from_slice_error <> from_parse_error lang l.
Proof. exact kinds_differ. Qed.
Print Assumptions C112_kinds.

Example C112_example_kinds : from_field_error NotMember <> from_field_error InvalidSliceLength.
Proof. discriminate. Qed.
