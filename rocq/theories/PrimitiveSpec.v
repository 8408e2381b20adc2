(** * PrimitiveSpec: how the standards derive the tables of Sha3.v and Gcm.v

    Specification only; nothing of /repo is modelled here. *)
From Coq Require Import List Bool Arith NArith.
Import ListNotations.
Local Open Scope N_scope.

(** FIPS 202, algorithm 5: the bits of a shift register of 8 bits. *)
Definition lfsr_step (r : N) : N := let d := 2 * r in if d <? 256 then d else N.lxor d 369.
Fixpoint lfsr (n : nat) (r : N) : N := match n with O => r | S k => lfsr k (lfsr_step r) end.
Definition rc_bit (t : nat) : bool := N.testbit (lfsr t 1) 0.

(** FIPS 202, algorithm 6: seven of the bits make a round constant. *)
Definition rc_spec (round : nat) : N :=
  fold_left (fun a j => if rc_bit (j + 7 * round) then N.setbit a (2 ^ N.of_nat j - 1) else a) (seq 0 7) 0.

(** FIPS 202, algorithm 2: the walk over the lanes other than the first one;
    the lane at step [t] is turned by (t+1)(t+2)/2. *)
Fixpoint rho_walk (n t x y : nat) (out : list (nat * N)) : list (nat * N) :=
  match n with
  | O => out
  | S k => rho_walk k (S t) y ((2 * x + 3 * y) mod 5)%nat
             (((x + 5 * y)%nat, N.of_nat ((t + 1) * (t + 2) / 2) mod 64) :: out)
  end.
Definition rho_spec (i : nat) : N :=
  match find (fun p => Nat.eqb (fst p) i) (rho_walk 24 0 1 0 []) with Some p => snd p | None => 0 end.

(** FIPS 197, 4.2: product of two bytes as polynomials modulo
    x^8 + x^4 + x^3 + x + 1. *)
Fixpoint byte_mul (n : nat) (a b : N) : N :=
  match n with
  | O => 0
  | S k => N.lxor (if N.testbit a 0 then b else 0)
             (byte_mul k (a / 2) (let d := 2 * b in if d <? 256 then d else N.lxor d 283))
  end.

(** FIPS 197, 5.1.1: the affine map of [SubBytes]. *)
Definition affine (c : N) : N :=
  fold_left (fun a i =>
    if xorb (N.testbit c i) (xorb (N.testbit c ((i + 4) mod 8)) (xorb (N.testbit c ((i + 5) mod 8))
        (xorb (N.testbit c ((i + 6) mod 8)) (xorb (N.testbit c ((i + 7) mod 8)) (N.testbit 99 i)))))
    then N.setbit a i else a) (map N.of_nat (seq 0 8)) 0.

(** FIPS 197, 4.2: the inverse of a byte is its 254th power. *)
Definition inverse_byte (b : N) : N :=
  let sq x := byte_mul 8 x x in
  let b2 := sq b in let b4 := sq b2 in let b8 := sq b4 in let b16 := sq b8 in
  let b32 := sq b16 in let b64 := sq b32 in let b128 := sq b64 in
  byte_mul 8 b128 (byte_mul 8 b64 (byte_mul 8 b32 (byte_mul 8 b16 (byte_mul 8 b8 (byte_mul 8 b4 b2))))).
