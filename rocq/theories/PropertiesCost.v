(** * PropertiesCost: C86, the work of the parser

    The proofs are in CostProofs.v and CostJson.v.  [parse_cost] counts the
    grammar expressions that the parser tries. *)
From Coq Require Import String Ascii List Bool Arith Lia.
From Verif Require Import Base Policy Spec Peg Grammar Parse ParseText ParseHuman Cost CostProofs CostJson Witnesses.
Import ListNotations.
Local Open Scope string_scope.

(** C86 for the JSON language: every text, accepted or not. *)
Theorem C86_json_cubic_partial :
  forall pol : string, parse_cost pol JsonPolicy <= 200 * 1028 * (String.length pol + 1) ^ 3.
Proof. exact json_cubic. Qed.
Print Assumptions C86_json_cubic_partial.

Example C86_example_json :
  let pol := "{" ++ quote_s ++ "name" ++ quote_s ++ ": " ++ quote_s ++ "and" ++ quote_s ++ ", " ++ quote_s ++ "children" ++ quote_s
    ++ ": [{" ++ quote_s ++ "name" ++ quote_s ++ ": " ++ quote_s ++ "A" ++ quote_s ++ "}, {" ++ quote_s ++ "name" ++ quote_s
    ++ ": " ++ quote_s ++ "B" ++ quote_s ++ "}]}" in
  (exists v, parse pol JsonPolicy = Ok v) /\ 100 <= parse_cost pol JsonPolicy.
Proof. split; [eexists; vm_compute; reflexivity|]. apply Nat.leb_le. vm_compute. reflexivity. Qed.

(** C86 is false for the human language: no polynomial bounds the work. *)
Theorem C86_human_polynomial_refuted :
  forall c k : nat, exists pol : string, c * (String.length pol + 1) ^ k < parse_cost pol HumanPolicy.
Proof. exact human_not_polynomial. Qed.
Print Assumptions C86_human_polynomial_refuted.

(** Every text of opening parentheses is refused, after exponential work. *)
Theorem C86_open_parentheses :
  forall n : nat,
  parse (copies n "(") HumanPolicy = Err /\ 3 * 6 ^ n <= parse_cost (copies n "(") HumanPolicy.
Proof. exact opens_cost. Qed.
Print Assumptions C86_open_parentheses.

Example C86_example_open : parse "(((" HumanPolicy = Err /\ 648 <= parse_cost "(((" HumanPolicy.
Proof. split; [vm_compute; reflexivity|]. apply Nat.leb_le. vm_compute. reflexivity. Qed.

(** Every policy text in [n] pairs of parentheses is accepted, after exponential work. *)
Theorem C86_nested_parentheses :
  forall (f : formula) (n : nat),
  adm f = true -> arity2 f = true ->
  (exists g, parse (nested n (human_text f)) HumanPolicy = Ok (tree g) /\ erase g = erase f) /\
  3 ^ S n <= parse_cost (nested n (human_text f)) HumanPolicy.
Proof. exact nested_cost. Qed.
Print Assumptions C86_nested_parentheses.

Example C86_example_nested :
  adm fP = true /\ arity2 fP = true /\ (exists v, parse (nested 2 (human_text fP)) HumanPolicy = Ok v) /\
  27 <= parse_cost (nested 2 (human_text fP)) HumanPolicy.
Proof.
  split; [reflexivity|]. split; [reflexivity|]. split; [eexists; vm_compute; reflexivity|]. apply Nat.leb_le. vm_compute. reflexivity.
Qed.

(** The text of a disjunction nested to the left, without superfluous parentheses. *)
Theorem C86_left_nested_or :
  forall (n : nat) (f h : formula),
  adm f = true -> adm h = true -> arity2 f = true -> arity2 h = true ->
  (exists g, parse (human_text (left_or n f h)) HumanPolicy = Ok (tree g) /\ erase g = erase (left_or n f h)) /\
  2 ^ n <= parse_cost (human_text (left_or n f h)) HumanPolicy.
Proof. exact left_or_cost. Qed.
Print Assumptions C86_left_nested_or.

Example C86_example_left_or :
  human_text (left_or 2 (FLeaf "A" 1) (FLeaf "B" 1))
    = "((" ++ quote_s ++ "A" ++ quote_s ++ " or " ++ quote_s ++ "B" ++ quote_s ++ ") or " ++ quote_s ++ "B" ++ quote_s ++ ")" /\
  4 <= parse_cost (human_text (left_or 2 (FLeaf "A" 1) (FLeaf "B" 1))) HumanPolicy.
Proof. split; [reflexivity|]. apply Nat.leb_le. vm_compute. reflexivity. Qed.
