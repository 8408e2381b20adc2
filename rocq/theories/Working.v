(** * Working: how often a session gives its answer

    Nothing here is in /repo. *)
From Coq Require Import String List Arith.
From Verif Require Import Base Crypto Chances.
Import ListNotations.

Section Working.
Context {C : crypto}.

(** [S] lists the runs of [n] values with the property [Q], each one once. *)
Definition all_runs (n : nat) (Q : (nat -> F C) -> Prop) (S : list (list (F C))) : Prop :=
  NoDup S /\ forall r, In r S <-> length r = n /\ Q (from r).

(** [S] makes up the share [((p - 1) / p) ^ k] of all lists of [n] values. *)
Definition share (k p n : nat) (S : list (list (F C))) : Prop :=
  length S * p ^ k = (p - 1) ^ k * p ^ n.

(** With [n] values drawn independently and uniformly from [p], the session [s] gives [a] with the probability
    [((p - 1) / p) ^ k] and ends in a panic in all other runs. *)
Definition works {A} (s : rand (F C) A) (a : A) (k p n : nat) : Prop :=
  exists S, all_runs n (fun t => exists j, s t 0 = Ok (a, j)) S /\ share k p n S /\
    forall r, length r = n -> ~ In r S -> s (from r) 0 = Panic.
End Working.
