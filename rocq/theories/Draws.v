(** * Draws: how much randomness an operation takes, and what its result depends on

    Nothing here is in /repo. *)
From Coq Require Import String List Arith.
From Verif Require Import Base Spec.
Import ListNotations.

(** [takes m n]: [m] draws [n] values, and its result (or its error) is a function of these: wherever the
    same values are drawn, at whatever place of whatever tape, [m] does the same. *)
Definition takes {F A} (m : rand F A) (n : nat) : Prop :=
  forall t i t' i', (forall k, k < n -> t' (i' + k) = t (i + k)) ->
  match m t i with
  | Ok (x, j) => j = i + n /\ m t' i' = Ok (x, i' + n)
  | Err => m t' i' = Err
  | Panic => m t' i' = Panic
  end.

(** The values that sharing along a policy takes: one less than the parts of each conjunction. *)
Fixpoint coins (f : formula) : nat :=
  match f with
  | FLeaf _ _ => 0
  | FAnd l => (length l - 1) + list_sum (map coins l)
  | FOr l => list_sum (map coins l)
  end.

(** [shows m n]: the result of [m] shows all of the [n] values that it draws: from different values it
    makes different results. *)
Definition shows {F A} (m : rand F A) (n : nat) : Prop :=
  forall t i x j t' i' j', m t i = Ok (x, j) -> m t' i' = Ok (x, j') ->
  forall k, k < n -> t' (i' + k) = t (i + k).
