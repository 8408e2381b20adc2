(** * Benches: the benchmarks of the crate, benches/rabe.rs *)
From Coq Require Import String List Bool Arith.
From Verif Require Import Base Crypto SchemeLib Yct14 Bsw Lsw Ac17 Aw11 Bdabe Mke08.
Import ListNotations.
Local Open Scope string_scope.
Local Open Scope rand_scope.

Section Benches.
Context {C : crypto}.

(** [Bencher::iter] as called in benches/rabe.rs:12-14, 17-19, 22-24, 27-29, 32-34,
    37-39 and 42-44: the closure is run [n] times, its results are dropped.  How often
    is criterion's choice. *)
Fixpoint iter {A} (n : nat) (m : rand (F C) A) : rand (F C) unit :=
  match n with
  | O => rret tt
  | S n => _ <- m ;; iter n m
  end.

(** The attributes at benches/rabe.rs:43. *)
Definition bench_attributes : list string := map dec (seq 0 10).

(** [criterion_compare_schemes_setup]; benches/rabe.rs:9-47.  [n] says how often each
    of the seven closures is run. *)
Definition bench_setup (n : nat * nat * nat * nat * nat * nat * nat) : rand (F C) unit :=
  let '(ac, aw, bd, bsw, lsw, mk, yct) := n in
  _ <- iter ac (ac_setup (C := C)) ;;
  _ <- iter aw (aw_setup (C := C)) ;;
  _ <- iter bd (bd_setup (C := C)) ;;
  _ <- iter bsw (bsw_setup (C := C)) ;;
  _ <- iter lsw (lsw_setup (C := C)) ;;
  _ <- iter mk (mk_setup (C := C)) ;;
  iter yct (yct_setup (C := C) bench_attributes).
End Benches.
