(** * Sp80038d: GCM as NIST SP 800-38D writes it, without associated data

    Specification only; nothing of /repo is modelled here.  Section and algorithm
    numbers are those of SP 800-38D (November 2007).  The block cipher is a
    function [E] on blocks of 16 bytes, nonces have 12 bytes, tags 16. *)
From Coq Require Import List Bool Arith NArith.
Import ListNotations.
Local Open Scope nat_scope.

(** Strings of bytes, the first one most significant, as numbers, and back. *)
Definition number (X : list N) : N := fold_left (fun a b => (a * 256 + b)%N) X 0%N.
Definition four_bytes (n : N) : list N :=
  [n / 2 ^ 24 mod 256; n / 2 ^ 16 mod 256; n / 2 ^ 8 mod 256; n mod 256]%N.
Definition eight_bytes (n : N) : list N := four_bytes (n / 2 ^ 32) ++ four_bytes n.
Definition xor_string (X Y : list N) : list N := map (fun p => N.lxor (fst p) (snd p)) (combine X Y).

(** 6.2: the counter in the last four bytes. *)
Definition inc32 (X : list N) : list N := firstn 12 X ++ four_bytes ((number (skipn 12 X) + 1) mod 2 ^ 32).

(** 6.3: blocks as polynomials over two elements, the first bit being the
    constant coefficient, and their product modulo
    1 + u + u^2 + u^7 + u^128. *)
Definition coefficient_of (X : list N) (i : nat) : bool :=
  if i <? 128 then N.testbit (nth (i / 8) X 0%N) (N.of_nat (7 - i mod 8)) else false.
Definition modulus (i : nat) : bool := existsb (Nat.eqb i) [0; 1; 2; 7; 128].
Definition times (x y : nat -> bool) (k : nat) : bool :=
  fold_right xorb false (map (fun i => x i && y (k - i)) (seq 0 (S k))).
Definition is_block (X : list N) : Prop := length X = 16 /\ Forall (fun b => (b < 256)%N) X.
Definition is_product (X Y Z : list N) : Prop :=
  is_block Z /\
  exists q : nat -> bool, (forall i, 127 <= i -> q i = false) /\
    forall k, times (coefficient_of X) (coefficient_of Y) k = xorb (coefficient_of Z k) (times modulus q k).

(** 6.4, algorithm 2: GHASH, from the value [Y] on. *)
Inductive ghash_from (H : list N) : list N -> list (list N) -> list N -> Prop :=
| ghash_end Y : ghash_from H Y [] Y
| ghash_block Y X Y' Xs R : is_product (xor_string Y X) H Y' -> ghash_from H Y' Xs R -> ghash_from H Y (X :: Xs) R.
Definition is_ghash (H : list N) (Xs : list (list N)) (R : list N) : Prop := ghash_from H (repeat 0%N 16) Xs R.

(** 6.5, algorithm 3: GCTR; the last block may be short. *)
Fixpoint counters (n : nat) (CB : list N) : list (list N) :=
  match n with O => [] | S k => CB :: counters k (inc32 CB) end.
Definition gctr (E : list N -> list N) (ICB X : list N) : list N :=
  xor_string X (concat (map E (counters ((length X + 15) / 16) ICB))).

(** A string whose length is a multiple of 16 as blocks. *)
Fixpoint split_blocks (n : nat) (X : list N) : list (list N) :=
  match n with O => [] | S k => firstn 16 X :: split_blocks k (skipn 16 X) end.
Definition blocks (X : list N) : list (list N) := split_blocks (length X / 16) X.

(** 7.1, algorithm 4: authenticated encryption. *)
Definition is_gcm (E : list N -> list N) (IV P C T : list N) : Prop :=
  let H := E (repeat 0%N 16) in
  let J0 := IV ++ [0; 0; 0; 1]%N in
  C = gctr E (inc32 J0) P /\
  let u := 16 * ((length C + 15) / 16) - length C in
  exists S, is_ghash H (blocks (C ++ repeat 0%N u ++ eight_bytes 0 ++ eight_bytes (8 * N.of_nat (length C)))) S /\
    T = gctr E J0 S.
