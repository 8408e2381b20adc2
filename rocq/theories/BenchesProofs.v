(** * BenchesProofs: when the benchmarks complete, and what they draw *)
From Coq Require Import String List Bool Arith Lia.
From Verif Require Import Base Crypto SchemeLib Yct14 Bsw Lsw Ac17 Aw11 Bdabe Mke08 Benches.
Import ListNotations.
Local Open Scope nat_scope.
Local Open Scope string_scope.

Section Proofs.
Context {C : crypto} (L : laws C).
Local Notation F := (F C).

(** A closure that always completes and draws [w] values. *)
Definition steady {A} (w : nat) (m : rand F A) : Prop := forall t i, exists a, m t i = Ok (a, i + w).

Lemma iter_steady {A} w (m : rand F A) n t i : steady w m -> iter n m t i = Ok (tt, i + w * n).
Proof.
  intros H. revert i. induction n as [|n IH]; intros i; cbn [iter].
  - unfold rret. do 2 f_equal. lia.
  - unfold rbind. destruct (H t i) as [a ->]. rewrite IH. do 2 f_equal. lia.
Qed.

Lemma ac_steady : steady 9 (ac_setup (C := C)).
Proof. intros t i. rewrite Nat.add_comm. cbn. eexists. reflexivity. Qed.
Lemma aw_steady : steady 2 (aw_setup (C := C)).
Proof. intros t i. rewrite Nat.add_comm. cbn. eexists. reflexivity. Qed.
Lemma bd_steady : steady 5 (bd_setup (C := C)).
Proof. intros t i. rewrite Nat.add_comm. cbn. eexists. reflexivity. Qed.
Lemma lsw_steady : steady 7 (lsw_setup (C := C)).
Proof. intros t i. rewrite Nat.add_comm. cbn. eexists. reflexivity. Qed.
Lemma mk_steady : steady 6 (mk_setup (C := C)).
Proof. intros t i. rewrite Nat.add_comm. cbn. eexists. reflexivity. Qed.
Lemma yct_steady : steady 12 (yct_setup (C := C) bench_attributes).
Proof. intros t i. rewrite Nat.add_comm. cbn. eexists. reflexivity. Qed.

Lemma bsw_setup_zero t i : t (2 + i) = f0 C -> bsw_setup (C := C) t i = Panic.
Proof.
  intros H. cbn in H. cbn. unfold finv_opt. now rewrite (proj2 (feqb_eq L _ _) H).
Qed.
Lemma bsw_setup_fine t i : t (2 + i) <> f0 C -> exists a, bsw_setup (C := C) t i = Ok (a, i + 4).
Proof.
  intros H. cbn in H. rewrite Nat.add_comm. cbn. unfold finv_opt.
  destruct (feqb C (t (S (S i))) (f0 C)) eqn:Z; [apply (feqb_eq L) in Z; contradiction|].
  cbn. eexists. reflexivity.
Qed.

Lemma bsw_iter_fine n t i : (forall k, k < n -> t (i + 4 * k + 2) <> f0 C) ->
  iter n (bsw_setup (C := C)) t i = Ok (tt, i + 4 * n).
Proof.
  revert i. induction n as [|n IH]; intros i H; cbn [iter].
  - unfold rret. do 2 f_equal. lia.
  - unfold rbind. destruct (bsw_setup_fine t i) as [a ->].
    { specialize (H 0 ltac:(lia)). now replace (2 + i) with (i + 4 * 0 + 2) by lia. }
    rewrite IH; [do 2 f_equal; lia|]. intros k K. specialize (H (S k) ltac:(lia)).
    now replace (i + 4 + 4 * k + 2) with (i + 4 * S k + 2) by lia.
Qed.
Lemma bsw_iter_zero n t i k : k < n -> t (i + 4 * k + 2) = f0 C -> iter n (bsw_setup (C := C)) t i = Panic.
Proof.
  revert i k. induction n as [|n IH]; intros i k K H; [lia|]. cbn [iter]. unfold rbind.
  destruct (feqb C (t (2 + i)) (f0 C)) eqn:Z; [apply (feqb_eq L) in Z; now rewrite (bsw_setup_zero _ _ Z)|].
  assert (N : t (2 + i) <> f0 C) by (intros X; apply (feqb_eq L) in X; congruence). clear Z. rename N into Z.
  destruct (bsw_setup_fine t i Z) as [a ->]. destruct k as [|k].
  - exfalso. apply Z. now replace (2 + i) with (i + 4 * 0 + 2) by lia.
  - apply (IH (i + 4) k); [lia|]. now replace (i + 4 + 4 * k + 2) with (i + 4 * S k + 2) by lia.
Qed.

(** The place of the [beta] of the [k]-th BSW setup. *)
Definition beta_at (ac aw bd i k : nat) : nat := i + 9 * ac + 2 * aw + 5 * bd + 4 * k + 2.

Theorem bench_completes ac aw bd bsw lsw mk yct t i :
  (forall k, k < bsw -> t (beta_at ac aw bd i k) <> f0 C) ->
  bench_setup (ac, aw, bd, bsw, lsw, mk, yct) t i =
    Ok (tt, i + 9 * ac + 2 * aw + 5 * bd + 4 * bsw + 7 * lsw + 6 * mk + 12 * yct).
Proof.
  intros H. unfold bench_setup, rbind.
  rewrite (iter_steady 9 _ _ _ _ ac_steady), (iter_steady 2 _ _ _ _ aw_steady), (iter_steady 5 _ _ _ _ bd_steady),
    bsw_iter_fine by exact H.
  now rewrite (iter_steady 7 _ _ _ _ lsw_steady), (iter_steady 6 _ _ _ _ mk_steady), (iter_steady 12 _ _ _ _ yct_steady).
Qed.

Theorem bench_aborts ac aw bd bsw lsw mk yct t i k :
  k < bsw -> t (beta_at ac aw bd i k) = f0 C -> bench_setup (ac, aw, bd, bsw, lsw, mk, yct) t i = Panic.
Proof.
  intros K H. unfold bench_setup, rbind.
  rewrite (iter_steady 9 _ _ _ _ ac_steady), (iter_steady 2 _ _ _ _ aw_steady), (iter_steady 5 _ _ _ _ bd_steady).
  now rewrite (bsw_iter_zero bsw t _ k K H).
Qed.
End Proofs.
