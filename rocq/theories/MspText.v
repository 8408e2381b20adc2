(** * MspText: span programs from policy texts and as texts; /repo/src/utils/policy/msp.rs *)
From Coq Require Import String Ascii List Bool Arith ZArith.
From Verif Require Import Base Policy Parse Msp.
Import ListNotations.
Local Open Scope string_scope.

(** [AbePolicy::from_language]; /repo/src/utils/policy/msp.rs:31-39. *)
Definition from_language (content : string) (lang : language) : outcome abe_policy :=
  obind (parse content lang) calculate_msp.

(** [AbePolicy::new]; /repo/src/utils/policy/msp.rs:24-29. *)
Definition abe_policy_new (policy : string) (lang : language) : outcome abe_policy :=
  from_language policy lang.

(** [AbePolicy::from_policy]; /repo/src/utils/policy/msp.rs:41-43. *)
Definition from_policy (content : pvalue) : outcome abe_policy := calculate_msp content.

(** [String::pop] as used in /repo/src/utils/policy/msp.rs:56,64,68: the last
    character goes; every text popped there ends in one byte of ASCII. *)
Fixpoint pop (s : string) : string :=
  match s with
  | EmptyString => ""
  | String _ EmptyString => ""
  | String b r => String b (pop r)
  end.

(** [i8::to_string]; /repo/src/utils/policy/msp.rs:61. *)
Definition i8_text (z : Z) : string :=
  match z with
  | Z0 => dec 0
  | Zpos p => dec (Pos.to_nat p)
  | Zneg p => "-" ++ dec (Pos.to_nat p)
  end.

(** The first loop; /repo/src/utils/policy/msp.rs:48,50-55. *)
Definition push_name (s attribute : string) : string :=
  s ++ String (ascii_of_nat 34) "" ++ attribute ++ String (ascii_of_nat 34) "" ++ ",".

(** The inner loop; /repo/src/utils/policy/msp.rs:60-63. *)
Definition push_col (s : string) (col : Z) : string := s ++ i8_text col ++ ",".

(** One round of the second loop; /repo/src/utils/policy/msp.rs:58-67. *)
Definition push_row (s : string) (row : list Z) : string :=
  pop (fold_left push_col row (s ++ "(")) ++ ")" ++ ",".

(** [Display for AbePolicy]; /repo/src/utils/policy/msp.rs:46-72. *)
Definition display (msp : abe_policy) : string :=
  let pi_str := pop (fold_left push_name (msp_pi msp) "[") ++ "]" in
  let m_str := pop (fold_left push_row (msp_m msp) "[") ++ "]" in
  "{_m: " ++ m_str ++ ", _pi: " ++ pi_str ++ ", _c: " ++ dec (msp_c msp) ++ "}".
