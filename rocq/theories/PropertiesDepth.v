(** * PropertiesDepth: C97: how deep the parser recurses

    The number given to [run] (Peg.v) bounds its nested calls; [Fuel] is the
    answer when that many were not enough.  [height] (DepthProofs.v) counts
    nested operators. *)
From Coq Require Import String Ascii List Bool Arith.
From Verif Require Import Base Policy Spec Peg Grammar Parse DepthProofs.
Import ListNotations.
Local Open Scope string_scope.

(** C97: there is no depth that is enough for all texts; the witness for depth
    [n] is short and is a policy that [parse] reads. *)
Theorem C97_bounded_depth_refuted :
  forall (lang : language) (n : nat),
  exists (pol : string) (f : formula),
    parse pol lang = Ok (tree f) /\ String.length pol <= 100 * (n + 2) /\
    run (grammar_of lang) n NonAtomic (ERule content) (St 1 pol) = Fuel.
Proof. exact depth_unbounded. Qed.
Print Assumptions C97_bounded_depth_refuted.

(** Every accepted policy needs at least its own height. *)
Theorem C97_depth_needed :
  forall (pol : string) (lang : language) (f : formula) (n : nat),
  parse pol lang = Ok (tree f) -> n < height f ->
  run (grammar_of lang) n NonAtomic (ERule content) (St 1 pol) = Fuel.
Proof. exact depth_needed. Qed.
Print Assumptions C97_depth_needed.

(** A depth linear in the length of the text is always enough. *)
Theorem C97_depth_enough :
  forall (pol : string) (lang : language) (n : nat),
  3000 * (String.length pol + 1) <= n ->
  run (grammar_of lang) n NonAtomic (ERule content) (St 1 pol) <> Fuel.
Proof. exact depth_enough. Qed.
Print Assumptions C97_depth_enough.

Theorem C97_height_linear :
  forall (pol : string) (lang : language) (f : formula),
  parse pol lang = Ok (tree f) -> height f <= 3000 * (String.length pol + 1).
Proof. exact height_bound. Qed.
Print Assumptions C97_height_linear.

(** Policies of every height have texts in both languages. *)
Theorem C97_every_height :
  forall (lang : language) (n : nat),
  exists (pol : string) (f : formula),
    parse pol lang = Ok (tree f) /\ height f = n /\ String.length pol <= 100 * (n + 1).
Proof. exact deep_texts. Qed.
Print Assumptions C97_every_height.

(** Height 3; a depth of 2 is not enough, a depth of 100 is. *)
Definition three : string :=
  "(" ++ quote_s ++ "A" ++ quote_s ++ " or (" ++ quote_s ++ "B" ++ quote_s ++ " and (" ++
  quote_s ++ "C" ++ quote_s ++ " or " ++ quote_s ++ "D" ++ quote_s ++ ")))".

Example C97_example :
  let f := FOr [FLeaf "A" 3; FAnd [FLeaf "B" 11; FOr [FLeaf "C" 20; FLeaf "D" 27]]] in
  parse three HumanPolicy = Ok (tree f) /\ height f = 3 /\
  run human 2 NonAtomic (ERule content) (St 1 three) = Fuel /\
  run human 100 NonAtomic (ERule content) (St 1 three) <> Fuel.
Proof. split; [vm_compute; reflexivity|]. split; [reflexivity|]. split; [reflexivity|]. vm_compute. discriminate. Qed.
