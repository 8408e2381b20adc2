(** * Sha3: the digest behind the hash of attributes and the key derivation

    The code calls [Sha3_256] of the crate sha3 at
    /repo/src/utils/hash/mod.rs:14-16, 27-29 and at
    /repo/src/utils/aes/mod.rs:52-54 (the dependency is named at
    /repo/Cargo.toml:36).  Elsewhere in the model the digest is an operation of
    [crypto]; here it is written out after FIPS 202.  A lane is a number below
    2^64, a state is the list of the lanes [x + 5 y]. *)
From Coq Require Import String Ascii List Bool Arith NArith ZArith.
Import ListNotations.
Local Open Scope N_scope.

(** Rotation of a lane to the left; used by the digest of
    /repo/src/utils/hash/mod.rs:14-16. *)
Definition rotl (x : N) (n : N) : N :=
  N.lor (N.shiftl x n mod 2 ^ 64) (N.shiftr x (64 - n)).

(** Rotation amounts of the step rho, lane by lane; FIPS 202, 3.2.2, for
    /repo/src/utils/hash/mod.rs:14-16. *)
Definition rho_offsets : list N :=
  [0; 1; 62; 28; 27; 36; 44; 6; 55; 20; 3; 10; 43; 25; 39; 41; 45; 15; 21; 8; 18; 2; 61; 56; 14].

(** Round constants of the step iota; FIPS 202, 3.2.5, for
    /repo/src/utils/hash/mod.rs:14-16. *)
Definition round_constants : list N :=
  [1; 32898; 9223372036854808714; 9223372039002292224;
   32907; 2147483649; 9223372039002292353; 9223372036854808585;
   138; 136; 2147516425; 2147483658;
   2147516555; 9223372036854775947; 9223372036854808713; 9223372036854808579;
   9223372036854808578; 9223372036854775936; 32778; 9223372039002259466;
   9223372039002292353; 9223372036854808704; 2147483649; 9223372039002292232].

(** Lane [i] of a state; not in /repo. *)
Definition lane (s : list N) (i : nat) : N := nth i s 0.

(** The steps of a round; FIPS 202, 3.2, for /repo/src/utils/hash/mod.rs:14-16. *)
Definition theta (s : list N) : list N :=
  let c := map (fun x => N.lxor (lane s x) (N.lxor (lane s (x + 5)) (N.lxor (lane s (x + 10))
                          (N.lxor (lane s (x + 15)) (lane s (x + 20)))))) (seq 0 5) in
  let d := map (fun x => N.lxor (lane c ((x + 4) mod 5)) (rotl (lane c ((x + 1) mod 5)) 1)) (seq 0 5) in
  map (fun i => N.lxor (lane s i) (lane d (i mod 5)%nat)) (seq 0 25).

(** FIPS 202, 3.2.2 and 3.2.3, for /repo/src/utils/hash/mod.rs:14-16. *)
Definition rho (s : list N) : list N :=
  map (fun i => rotl (lane s i) (lane rho_offsets i)) (seq 0 25).
Definition pi (s : list N) : list N :=
  map (fun i => lane s ((i mod 5 + 3 * (i / 5)) mod 5 + 5 * (i mod 5))%nat) (seq 0 25).

(** FIPS 202, 3.2.4 and 3.2.5, for /repo/src/utils/hash/mod.rs:14-16. *)
Definition chi (s : list N) : list N :=
  map (fun i => N.lxor (lane s i)
                  (N.ldiff (lane s ((i + 2) mod 5 + 5 * (i / 5)))
                           (lane s ((i + 1) mod 5 + 5 * (i / 5))))%nat) (seq 0 25).
Definition iota (rc : N) (s : list N) : list N :=
  match s with [] => [] | a :: r => N.lxor a rc :: r end.

(** The permutation of the state, 24 rounds; FIPS 202, 3.3, for
    /repo/src/utils/hash/mod.rs:14-16. *)
Definition keccak_round (s : list N) (rc : N) : list N := iota rc (chi (pi (rho (theta s)))).
Definition keccak_f (s : list N) : list N := fold_left keccak_round round_constants s.

(** Eight bytes read as a lane, and a lane written as eight bytes; FIPS 202,
    B.1, for /repo/src/utils/hash/mod.rs:14-16. *)
Fixpoint lane_of_bytes (bs : list N) : N :=
  match bs with [] => 0 | b :: r => b + 256 * lane_of_bytes r end.
Fixpoint bytes_of_lane (n : nat) (x : N) : list N :=
  match n with O => [] | S k => x mod 256 :: bytes_of_lane k (x / 256) end.

(** The rate of SHA3-256 in bytes, and the padding; FIPS 202, 5.1 and 6.1, for
    [Sha3_256::new], [update] and [finalize]; /repo/src/utils/hash/mod.rs:14-16. *)
Definition rate : nat := 136.
Definition padding (len : nat) : list N :=
  match (rate - len mod rate)%nat with
  | S (S k) => 6 :: repeat 0 k ++ [128]
  | _ => [134]
  end.

(** One block into the state, and all blocks; FIPS 202, 4, for
    /repo/src/utils/hash/mod.rs:15. *)
Definition absorb_block (s block : list N) : list N :=
  keccak_f (map (fun i => N.lxor (lane s i) (lane_of_bytes (firstn 8 (skipn (8 * i) block)))) (seq 0 25)).
Fixpoint absorb (blocks : nat) (s bs : list N) : list N :=
  match blocks with
  | O => s
  | S k => absorb k (absorb_block s (firstn rate bs)) (skipn rate bs)
  end.

(** [hasher.update(data); hasher.finalize()]; /repo/src/utils/hash/mod.rs:14-16
    and /repo/src/utils/aes/mod.rs:52-54. *)
Definition sha3_bytes (bs : list N) : list N :=
  let padded := bs ++ padding (List.length bs) in
  let s := absorb (List.length padded / rate) (repeat 0 25) padded in
  flat_map (bytes_of_lane 8) (firstn 4 s).

(** The bytes of a text, and back; not in /repo. *)
Definition text_bytes (s : string) : list N := map N_of_ascii (list_ascii_of_string s).
Definition bytes_text (bs : list N) : string := string_of_list_ascii (map ascii_of_N bs).

(** The digest of a text; /repo/src/utils/aes/mod.rs:47-55. *)
Definition sha3_256 (s : string) : string := bytes_text (sha3_bytes (text_bytes s)).

(** The digest as a number, first byte first, the way [Fr::from_slice] reads it;
    /repo/src/utils/hash/mod.rs:16, 29. *)
Definition be_number (bs : list N) : Z := fold_left (fun a b => (a * 256 + Z.of_N b)%Z) bs 0%Z.
Definition sha3_number (s : string) : Z := be_number (sha3_bytes (text_bytes s)).
