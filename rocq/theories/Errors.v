(** * Errors: /repo/src/error.rs

    The other files leave the text of an error out ([Err]).  This file models the type of errors by
    itself: how it is made from the errors of other crates and how it is shown. *)
From Coq Require Import String Ascii List Bool Arith.
From Verif Require Import Base Policy.
Import ListNotations.
Local Open Scope string_scope.

(** [RabeError]; /repo/src/error.rs:16-21. *)
Record rabe_error : Type := RabeError { details : string }.

(** [RabeError::new]; /repo/src/error.rs:23-28. *)
Definition error_new (msg : string) : rabe_error := RabeError msg.

(** [Display for RabeError]; /repo/src/error.rs:30-34. *)
Definition error_display (e : rabe_error) : string := "Error: " ++ details e.

(** [pest::error::LineColLocation], as /repo/src/error.rs:6 imports it: one place or two, each a line and
    a column. *)
Inductive location : Type := AtPos (p : nat * nat) | AtSpan (p q : nat * nat).

(** The line of the text; the same in both conversions, /repo/src/error.rs:39-42 and 51-54. *)
Definition error_line (l : location) : nat :=
  match l with AtPos p => fst p | AtSpan p q => Nat.max (fst p) (fst q) end.

(** The line feed; not in /repo. *)
Definition newline : string := String (ascii_of_nat 10) "".

(** [From<PestError<jsonRule>>]; /repo/src/error.rs:37-47. *)
Definition from_json_error (l : location) : rabe_error :=
  error_new ("Json Policy Error in line " ++ dec (error_line l) ++ newline).

(** [From<PestError<humanRule>>]; /repo/src/error.rs:49-59. *)
Definition from_human_error (l : location) : rabe_error :=
  error_new ("Json Policy Error in line " ++ dec (error_line l) ++ newline).

(** What [parse] reports for an error of either parser; /repo/src/utils/policy/pest/mod.rs:43-63. *)
Definition from_parse_error (lang : language) (l : location) : rabe_error :=
  match lang with JsonPolicy => from_json_error l | HumanPolicy => from_human_error l end.

(** [rabe_bn::FieldError], as matched in /repo/src/error.rs:63-67. *)
Inductive field_error : Type := InvalidSliceLength | InvalidU512Encoding | NotMember.

(** [From<FieldError>]; /repo/src/error.rs:60-69. *)
Definition from_field_error (e : field_error) : rabe_error :=
  match e with
  | InvalidSliceLength => error_new "FieldError::InvalidSliceLength"
  | InvalidU512Encoding => error_new "FieldError::InvalidU512Encoding"
  | NotMember => error_new "FieldError::NotMember"
  end.

(** [From<TryFromSliceError>]; /repo/src/error.rs:71-75.  The text of that error is fixed in the standard
    library of Rust ([core::array]). *)
Definition from_slice_error : rabe_error := error_new "could not convert slice to array".

(** [From<String>]; /repo/src/error.rs:77-81. *)
Definition from_string (s : string) : rabe_error := error_new s.
