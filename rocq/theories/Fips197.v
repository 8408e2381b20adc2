(** * Fips197: AES with a key of 256 bits as FIPS 197 writes it

    Specification only; nothing of /repo is modelled here.  Section numbers are
    those of FIPS 197 (November 2001).  Bytes are numbers below 256; their
    product [byte_mul], the inverse and the affine map are in PrimitiveSpec.v. *)
From Coq Require Import List Bool Arith NArith.
From Verif Require Import PrimitiveSpec.
Import ListNotations.
Local Open Scope nat_scope.

(** 3.4: the state, by row and column; input and output go column by column. *)
Definition state : Type := nat -> nat -> N.
Definition state_of (input : list N) : state := fun r c => nth (r + 4 * c) input 0%N.
Definition output_of (s : state) : list N := flat_map (fun c => map (fun r => s r c) (seq 0 4)) (seq 0 4).

(** 5.1.1: the inverse, then the affine map. *)
Definition sub (b : N) : N := affine (inverse_byte b).
Definition SubBytes (s : state) : state := fun r c => sub (s r c).

(** 5.1.2 *)
Definition ShiftRows (s : state) : state := fun r c => s r ((c + r) mod 4).

(** 5.1.3: each column times 3 x^3 + x^2 + x + 2 modulo x^4 + 1. *)
Definition coefficient (k : nat) : N := nth (k mod 4) [2; 1; 1; 3]%N 0%N.
Definition MixColumns (s : state) : state := fun r c =>
  fold_right N.lxor 0%N (map (fun k => byte_mul 8 (coefficient (r + 4 - k)) (s k c)) (seq 0 4)).

(** 5.2: the words of the key schedule, with 8 words of key and 14 rounds. *)
Definition xor_word (a b : list N) : list N := map (fun k => N.lxor (nth k a 0%N) (nth k b 0%N)) (seq 0 4).
Definition SubWord (a : list N) : list N := map sub a.
Definition RotWord (a : list N) : list N := map (fun k => nth ((k + 1) mod 4) a 0%N) (seq 0 4).
Fixpoint rcon (i : nat) : N := match i with O => 0%N | 1 => 1%N | S k => byte_mul 8 2 (rcon k) end.
Definition schedule (key : list N) (w : nat -> list N) : Prop :=
  (forall i, i < 8 -> w i = map (fun k => nth (4 * i + k) key 0%N) (seq 0 4)) /\
  (forall i, 8 <= i < 60 -> w i = xor_word (w (i - 8))
     (if i mod 8 =? 0 then xor_word (SubWord (RotWord (w (i - 1)))) [rcon (i / 8); 0; 0; 0]%N
      else if i mod 8 =? 4 then SubWord (w (i - 1))
      else w (i - 1))).

(** 5.1.4 and 5.1, figure 5. *)
Definition AddRoundKey (w : nat -> list N) (round : nat) (s : state) : state :=
  fun r c => N.lxor (s r c) (nth r (w (4 * round + c)) 0%N).
Definition Cipher (w : nat -> list N) (input : list N) : list N :=
  let s0 := AddRoundKey w 0 (state_of input) in
  let s13 := fold_left (fun s round => AddRoundKey w round (MixColumns (ShiftRows (SubBytes s)))) (seq 1 13) s0 in
  output_of (AddRoundKey w 14 (ShiftRows (SubBytes s13))).
