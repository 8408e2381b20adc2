(** * Refresh: the draws between two ciphertexts (C154)

    Specification only: nothing here is code of the crate. *)
From Coq Require Import List.
From Verif Require Import Base Crypto.

(** The tape that leads from one tape to another; not in /repo. *)
Definition tape_to {C : crypto} (t t' : nat -> F C) : nat -> F C := fun k => fsub C (t' k) (t k).
