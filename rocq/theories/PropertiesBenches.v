(** * PropertiesBenches: C142 *)
From Coq Require Import String List Bool Arith ZArith Lia.
From Verif Require Import Base Crypto Instance Witnesses Benches BenchesProofs.
Import ListNotations.
Local Open Scope nat_scope.
Local Open Scope string_scope.

(** C142. However often criterion runs each setup, the benchmark completes if no BSW
    setup draws zero for [beta]; it then has drawn 9, 2, 5, 4, 7, 6 and 12 values in
    each run of AC17, AW11, BDABE, BSW, LSW, MKE08 and YCT14. *)
Theorem C142_completes :
  forall (C : crypto), laws C -> forall (ac aw bd bsw lsw mk yct : nat) (t : nat -> F C) (i : nat),
  (forall k, k < bsw -> t (i + 9 * ac + 2 * aw + 5 * bd + 4 * k + 2) <> f0 C) ->
  bench_setup (ac, aw, bd, bsw, lsw, mk, yct) t i =
    Ok (tt, i + 9 * ac + 2 * aw + 5 * bd + 4 * bsw + 7 * lsw + 6 * mk + 12 * yct).
Proof. exact @bench_completes. Qed.
Print Assumptions C142_completes.

(** C142. It aborts if one of them does. *)
Theorem C142_aborts :
  forall (C : crypto), laws C -> forall (ac aw bd bsw lsw mk yct : nat) (t : nat -> F C) (i k : nat),
  k < bsw -> t (i + 9 * ac + 2 * aw + 5 * bd + 4 * k + 2) = f0 C ->
  bench_setup (ac, aw, bd, bsw, lsw, mk, yct) t i = Panic.
Proof. exact @bench_aborts. Qed.
Print Assumptions C142_aborts.

(** C142. The ten attributes of the YCT14 benchmark. *)
Theorem C142_attributes : bench_attributes = ["0"; "1"; "2"; "3"; "4"; "5"; "6"; "7"; "8"; "9"].
Proof. reflexivity. Qed.
Print Assumptions C142_attributes.

(** Two rounds of everything; the same with a zero for the second [beta]. *)
Example C142_example :
  bench_setup (C := ZC) (2, 2, 2, 2, 2, 2, 2) (fun _ => zmk 3) 0 = Ok (tt, 90) /\
  bench_setup (C := ZC) (2, 2, 2, 2, 2, 2, 2) (fun i => if Nat.eqb i 38 then zmk 0 else zmk 3) 0 = Panic.
Proof.
  split.
  - apply (C142_completes ZC ZL 2 2 2 2 2 2 2). intros k _ H. vm_compute in H. discriminate.
  - apply (C142_aborts ZC ZL 2 2 2 2 2 2 2 _ 0 1); [lia | reflexivity].
Qed.
