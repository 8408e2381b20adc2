(** * Spec: what a policy means, independently of the code *)
From Coq Require Import String Ascii List Bool Arith.
From Verif Require Import Base Policy.
Import ListNotations.

(** A policy as a monotone Boolean formula; a leaf has a name and a position. *)
Inductive formula :=
| FLeaf (name : string) (pos : nat)
| FAnd (l : list formula)
| FOr (l : list formula).

(** Truth of a formula when exactly the names in [own] are true. *)
Fixpoint sat (own : string -> bool) (f : formula) : bool :=
  match f with
  | FLeaf n _ => own n
  | FAnd l => forallb (sat own) l
  | FOr l => existsb (sat own) l
  end.

(** The leaves from left to right. *)
Fixpoint leaves (f : formula) : list (string * nat) :=
  match f with
  | FLeaf n p => [(n, p)]
  | FAnd l => flat_map leaves l
  | FOr l => flat_map leaves l
  end.
Definition names (f : formula) : list string := map fst (leaves f).

(** The tree the parser builds for a formula. *)
Fixpoint tree (f : formula) : pvalue :=
  match f with
  | FLeaf n p => PStr n p
  | FAnd l => PObj And (PArr (map tree l))
  | FOr l => PObj Or (PArr (map tree l))
  end.

(** Every AND/OR node has at least two children. *)
Fixpoint arity2 (f : formula) : bool :=
  match f with
  | FLeaf _ _ => true
  | FAnd l => (2 <=? length l) && forallb arity2 l
  | FOr l => (2 <=? length l) && forallb arity2 l
  end.

(** The largest number of children of an AND node. *)
Fixpoint and_width (f : formula) : nat :=
  match f with
  | FLeaf _ _ => 0
  | FAnd l => Nat.max (length l) (fold_right (fun g m => Nat.max (and_width g) m) 0 l)
  | FOr l => fold_right (fun g m => Nat.max (and_width g) m) 0 l
  end.

(** Ownership by an attribute list. *)
Definition owns (attrs : list string) (n : string) : bool := smem n attrs.

Lemma formula_ind' (P : formula -> Prop) :
  (forall n p, P (FLeaf n p)) ->
  (forall l, Forall P l -> P (FAnd l)) ->
  (forall l, Forall P l -> P (FOr l)) ->
  forall f, P f.
Proof.
  intros HL HA HO. fix IH 1. intros [n p|l|l].
  - apply HL.
  - apply HA. induction l as [|a l IHl]; constructor; [apply IH | exact IHl].
  - apply HO. induction l as [|a l IHl]; constructor; [apply IH | exact IHl].
Qed.

(** Every AND has exactly two children, every OR at least two. *)
Fixpoint binary_and (f : formula) : bool :=
  match f with
  | FLeaf _ _ => true
  | FAnd l => (length l =? 2) && forallb binary_and l
  | FOr l => (2 <=? length l) && forallb binary_and l
  end.

(** A text without underscore. *)
Fixpoint no_us (s : string) : bool :=
  match s with
  | EmptyString => true
  | String c r => negb (Ascii.eqb c "_"%char) && no_us r
  end.

(** No attribute name of the policy contains an underscore. *)
Definition plain_names (f : formula) : bool := forallb no_us (names f).
