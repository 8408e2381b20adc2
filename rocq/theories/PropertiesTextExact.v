(** * PropertiesTextExact: further theorems for C51 and C95

    The proofs are in TextExact.v. *)
From Coq Require Import String Ascii List Bool Arith.
From Verif Require Import Base Policy Parse Files FilesProofs TextExact.
Import ListNotations.
Local Open Scope string_scope.

(** C51. The outcome of [read_raw] on every text: the second line, which must not be an empty rest. *)
Theorem C51_read_raw_exact :
  forall raw : string,
  (exists head line tail t, on_one_line head /\ on_one_line line /\
     raw = head ++ String nl (line ++ String nl tail) /\ without_cr line t /\ read_raw raw = Ok t) \/
  (exists head line, on_one_line head /\ on_one_line line /\ line <> "" /\
     raw = head ++ String nl line /\ read_raw raw = Ok line) \/
  ((on_one_line raw \/ exists head, on_one_line head /\ raw = head ++ String nl "") /\ read_raw raw = Panic).
Proof. exact read_raw_exact. Qed.
Print Assumptions C51_read_raw_exact.
Example C51_example_exact :
  read_raw ("head" ++ String nl ("ab" ++ String cr (String nl "tail"))) = Ok "ab" /\
  read_raw ("head" ++ String nl ("ab" ++ String cr "")) = Ok ("ab" ++ String cr "") /\
  read_raw ("head" ++ String nl (String nl "")) = Ok "" /\
  read_raw ("head" ++ String nl "") = Panic.
Proof. repeat split. Qed.

(** C95. Every value has a JSON text, also one that no parser makes; an object of kind Leaf adds
    nothing to it. *)
Theorem C95_json_total :
  forall (v : pvalue) (p : option ptype), exists s : string, serialize_policy v JsonPolicy p = Ok s.
Proof. exact json_total. Qed.
Print Assumptions C95_json_total.
Theorem C95_json_leaf :
  forall (w : pvalue) (p : option ptype), serialize_policy (PObj Leaf w) JsonPolicy p = serialize_policy w JsonPolicy None.
Proof. exact json_leaf. Qed.
Print Assumptions C95_json_leaf.

(** C95. The human serialiser aborts exactly on values with an array outside of [And] and [Or]. *)
Theorem C95_human_exact :
  forall (v : pvalue) (p : option ptype),
  (serialize_policy v HumanPolicy p = Panic <-> dangling p v) /\ serialize_policy v HumanPolicy p <> Err.
Proof. exact human_exact. Qed.
Print Assumptions C95_human_exact.
Example C95_example_values :
  serialize_policy (PObj And (PArr [PStr "A" 1; PObj Leaf (PStr "B" 2)])) HumanPolicy None = Ok "(A and B)" /\
  dangling None (PObj And (PArr [PStr "A" 1; PObj Leaf (PArr [])])) /\
  serialize_policy (PObj And (PArr [PStr "A" 1; PObj Leaf (PArr [])])) HumanPolicy None = Panic.
Proof.
  split; [reflexivity|]. split; [|reflexivity]. constructor. eapply dang_in; [right; left; reflexivity|].
  constructor. apply dang_here; discriminate.
Qed.
