(** * PropertiesValues: C96: policy values that no parser built

    [reading v t] (ValueProofs.v): the policy a value stands for, below an
    object of kind [t]; an array takes its kind from the nearest object around
    it.  [tree f] is the value a parser builds for [f]. *)
From Coq Require Import String List Bool Arith ZArith.
From Verif Require Import Base Crypto Policy Tools Sharing Spec Msp Dnf Instance ValueProofs.
Import ListNotations.
Local Open Scope string_scope.

(** C96, sharing: as for the parsed policy; without a reading it aborts. *)
Theorem C96_shares :
  forall (C : crypto) (v : pvalue) (t : option ptype),
  match reading v t with
  | Some f => forall (s : F C) tp i, gen_shares_policy s v t tp i = gen_shares_policy s (tree f) None tp i
  | None => forall (s : F C) tp i, gen_shares_policy s v t tp i = Panic
  end.
Proof. exact @shares_all. Qed.
Print Assumptions C96_shares.

(** C96, pruning. *)
Theorem C96_pruned :
  forall (attr : list string) (v : pvalue) (t : option ptype) (f : formula),
  reading v t = Some f -> calc_pruned attr v t = calc_pruned attr (tree f) None.
Proof. exact pruned_read. Qed.
Print Assumptions C96_pruned.

(** C96, span programs. *)
Theorem C96_msp :
  forall (v : pvalue) (f : formula), reading v None = Some f -> calculate_msp v = calculate_msp (tree f).
Proof. exact calculate_read. Qed.
Print Assumptions C96_msp.

(** C96, coefficients, where objects of kind [Leaf] hold a name. *)
Theorem C96_coefficients_partial :
  forall (C : crypto) (v : pvalue) (t : option ptype) (f : formula),
  named_leaves v = true -> reading v t = Some f ->
  forall (k : F C) acc, calc_coefficients v k acc t = calc_coefficients (tree f) k acc None.
Proof. intros C v t f N R. exact (coefficients_read v N t f R). Qed.
Print Assumptions C96_coefficients_partial.

(** C96, the satisfaction check, without objects of kind [Leaf]. *)
Theorem C96_check_partial :
  forall (attr : list string) (v : pvalue) (t : ptype) (f : formula) (t' : ptype),
  no_leaf_objects v = true -> reading v (Some t) = Some f ->
  traverse_policy attr v t = traverse_policy attr (tree f) t'.
Proof. intros attr v t f t' N R. exact (check_read attr v N t f R t'). Qed.
Print Assumptions C96_check_partial.

(** With them it says yes to everybody who has an attribute. *)
Theorem C96_check_leaf_object :
  forall (attr : list string) (w : pvalue) (t : ptype),
  attr <> [] -> traverse_policy attr (PObj Leaf w) t = true.
Proof. exact check_leaf_object. Qed.
Print Assumptions C96_check_leaf_object.

(** C96, normal form: whatever passes has no disjunction below a conjunction. *)
Theorem C96_normal_form :
  forall (v : pvalue) (c : bool) (t : option ptype),
  policy_in_dnf v c t = true ->
  forall (w : pvalue) (l : list pvalue), occurs (PObj And w) v -> ~ occurs (PObj Or (PArr l)) w.
Proof. exact in_dnf_sound. Qed.
Print Assumptions C96_normal_form.

(** C96 is false: the two checks disagree on an object of kind [Leaf] ... *)
Theorem C96_check_refuted :
  exists v f attr, reading v None = Some f /\ traverse_policy attr v Leaf = true /\
    traverse_policy attr (tree f) Leaf = false /\ calc_pruned attr v None = Ok (false, []).
Proof. exists (PObj Leaf (PStr "A" 1)), (FLeaf "A" 1), ["B"]. repeat split; reflexivity. Qed.
Print Assumptions C96_check_refuted.

(** ... and shares and coefficients have different labels. *)
Theorem C96_coefficients_refuted :
  exists v f, reading v None = Some f /\
    (forall (C : crypto) (s : F C) tp i, gen_shares_policy s v None tp i = Ok ([("A_1", s)], i)) /\
    (forall (C : crypto) (k : F C), calc_coefficients v k [] None = Ok (Some [("", k)])).
Proof. exists (PObj Leaf (PObj And (PStr "A" 1))), (FLeaf "A" 1). repeat split; reflexivity. Qed.
Print Assumptions C96_coefficients_refuted.

(** A disjunction inside a second object, and a name inside two. *)
Definition wrapped : pvalue :=
  PObj And (PObj Or (PArr [PObj And (PObj Leaf (PStr "A" 1)); PObj Leaf (PStr "B" 5); PObj And (PArr [PStr "C" 9; PStr "D" 12])])).

Example C96_example :
  reading wrapped None = Some (FOr [FLeaf "A" 1; FLeaf "B" 5; FAnd [FLeaf "C" 9; FLeaf "D" 12]]) /\
  named_leaves wrapped = true /\ no_leaf_objects wrapped = false /\
  calc_pruned ["D"; "C"] wrapped None = Ok (true, [("C", "C_9"); ("D", "D_12")]) /\
  policy_in_dnf wrapped false None = false.
Proof. repeat split; reflexivity. Qed.

Example C96_example_unreadable :
  reading (PObj Or (PArr [PStr "A" 1; PArr [PStr "B" 2]])) None = None /\ reading (PObj Leaf (PArr [])) None = None.
Proof. split; reflexivity. Qed.

Example C96_example_check :
  no_leaf_objects (PObj And (PObj Or (PArr [PStr "A" 1; PStr "B" 4]))) = true /\
  reading (PObj And (PObj Or (PArr [PStr "A" 1; PStr "B" 4]))) (Some Leaf) = Some (FOr [FLeaf "A" 1; FLeaf "B" 4]) /\
  traverse_policy ["B"] (PObj And (PObj Or (PArr [PStr "A" 1; PStr "B" 4]))) Leaf = true.
Proof. repeat split; reflexivity. Qed.

Example C96_example_normal_form :
  policy_in_dnf (PObj Or (PArr [PStr "A" 1; PObj And (PArr [PStr "B" 2; PArr [PStr "C" 3]])])) false None = true /\
  policy_in_dnf (PObj And (PObj Or (PArr []))) false None = false.
Proof. split; reflexivity. Qed.
