(** * Fips202: SHA3-256 as FIPS 202 writes it, on strings of bits

    Specification only; nothing of /repo is modelled here.  Section and algorithm
    numbers are those of FIPS 202 (August 2015).  The rotation amounts and the
    round constants are in PrimitiveSpec.v. *)
From Coq Require Import List Bool Arith NArith.
From Verif Require Import PrimitiveSpec.
Import ListNotations.
Local Open Scope nat_scope.

(** 3.1: state arrays of 5 by 5 by 64 bits, and strings of 1600 bits. *)
Definition state_array : Type := nat -> nat -> nat -> bool.
Definition array_of (S : list bool) : state_array := fun x y z => nth (64 * (5 * y + x) + z) S false.
Definition string_of (A : state_array) : list bool :=
  flat_map (fun y => flat_map (fun x => map (A x y) (seq 0 64)) (seq 0 5)) (seq 0 5).

(** 3.2.1, algorithm 1. *)
Definition parity (A : state_array) (x z : nat) : bool :=
  xorb (A x 0 z) (xorb (A x 1 z) (xorb (A x 2 z) (xorb (A x 3 z) (A x 4 z)))).
Definition theta_step (A : state_array) : state_array := fun x y z =>
  xorb (A x y z) (xorb (parity A ((x + 4) mod 5) z) (parity A ((x + 1) mod 5) ((z + 63) mod 64))).

(** 3.2.2, algorithm 2. *)
Definition rho_step (A : state_array) : state_array := fun x y z =>
  A x y ((z + 64 - N.to_nat (rho_spec (x + 5 * y))) mod 64).

(** 3.2.3, algorithm 3. *)
Definition pi_step (A : state_array) : state_array := fun x y z => A ((x + 3 * y) mod 5) x z.

(** 3.2.4, algorithm 4. *)
Definition chi_step (A : state_array) : state_array := fun x y z =>
  xorb (A x y z) (xorb (A ((x + 1) mod 5) y z) true && A ((x + 2) mod 5) y z).

(** 3.2.5, algorithm 6: bit 2^j - 1 of the constant is the bit rc (j + 7 ir). *)
Definition iota_step (ir : nat) (A : state_array) : state_array := fun x y z =>
  if (x =? 0) && (y =? 0) then xorb (A x y z) (N.testbit (rc_spec ir) (N.of_nat z)) else A x y z.

(** 3.3 and 3.4, algorithm 7: KECCAK-f[1600]. *)
Definition round_step (A : state_array) (ir : nat) : state_array :=
  iota_step ir (chi_step (pi_step (rho_step (theta_step A)))).
Definition keccak_p (S : list bool) : list bool :=
  string_of (fold_left round_step (seq 0 24) (array_of S)).

(** 5.1, algorithm 9: pad10*1, with j = (-m - 2) mod x zeros. *)
Definition pad101 (x m : nat) : list bool :=
  true :: repeat false ((x - (m + 2) mod x) mod x) ++ [true].

(** 4, algorithm 8: the sponge with rate [r] and capacity 1600 - r, for outputs
    of at most [r] bits. *)
Definition xor_bits (a b : list bool) : list bool := map (fun p => xorb (fst p) (snd p)) (combine a b).
Fixpoint absorbing (r n : nat) (S P : list bool) : list bool :=
  match n with
  | O => S
  | Datatypes.S k =>
      absorbing r k (keccak_p (xor_bits S (firstn r P ++ repeat false (1600 - r)))) (skipn r P)
  end.
Definition sponge (r : nat) (N : list bool) (d : nat) : list bool :=
  let P := N ++ pad101 r (length N) in
  firstn d (absorbing r (length P / r) (repeat false 1600) P).

(** 6.1: SHA3-256(M) = KECCAK[512](M || 01, 256). *)
Definition sha3_256_bits (M : list bool) : list bool := sponge 1088 (M ++ [false; true]) 256.

(** B.1: a string of bytes as bits, the low bit of a byte first. *)
Definition bits_of_byte (b : N) : list bool := map (fun i => N.testbit b (N.of_nat i)) (seq 0 8).
Definition bits_of_bytes (bs : list N) : list bool := flat_map bits_of_byte bs.
