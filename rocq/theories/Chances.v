(** * Chances: runs with finitely many random values, counted

    Nothing here is in /repo. *)
From Coq Require Import String List Arith.
From Verif Require Import Base Crypto.
Import ListNotations.

Section Chances.
Context {C : crypto}.

(** The field has [p] elements. *)
Definition field_size (p : nat) : Prop :=
  exists all : list (F C), NoDup all /\ length all = p /\ forall x, In x all.

(** The tape that starts with the values of a list. *)
Definition from (r : list (F C)) : nat -> F C := fun k => nth k r (f0 C).

(** Of all lists of [n] values at most [k] in [p] are in the list [S]: when the [n] values are drawn
    independently and uniformly, the probability to get one of [S] is at most [k / p]. *)
Definition at_most (k p n : nat) (S : list (list (F C))) : Prop :=
  length S * p <= k * p ^ n.

(** [S] is a list of different runs of [n] values that all have the property [Q]. *)
Definition runs (n : nat) (Q : (nat -> F C) -> Prop) (S : list (list (F C))) : Prop :=
  NoDup S /\ forall r, In r S -> length r = n /\ Q (from r).

(** Users with the given attributes; the two values of each one (for its key and for its transformation key)
    stand on the tape one after the other, starting at position [b]. *)
Fixpoint cloud (us : list (list string)) (b : nat) (t : nat -> F C) : list (list string * (nat -> F C)) :=
  match us with
  | [] => []
  | a :: us => (a, fun n => t (b + n)) :: cloud us (b + 2) t
  end.

(** Authorities with the given attributes; the two values of every attribute stand on the tape one after the other,
    starting at position [b]. *)
Fixpoint offices (Us : list (list string)) (b : nat) (t : nat -> F C) : list (list string * (nat -> F C)) :=
  match Us with
  | [] => []
  | U :: Us => (U, fun n => t (b + n)) :: offices Us (b + 2 * length U) t
  end.
End Chances.
Arguments field_size : clear implicits.
