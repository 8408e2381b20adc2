(** The field of BN254 meets the hypotheses of C108. *)
From Coq Require Import String Ascii List Bool Arith ZArith Lia.
From Verif Require Import Base Crypto Policy Spec Peg Grammar Parse Instance SessionProofs Witnesses Primes BnInstance SizeProofs.
Import ListNotations.
Local Open Scope string_scope.
Local Open Scope nat_scope.

Lemma bn_hash : @hash_total BN.
Proof. intros s H. discriminate H. Qed.

Theorem bn_groups : exists C : crypto, inhabited (laws C) /\ scalar_order C bn_order /\ @hash_total C.
Proof. exists BN. split; [exact (inhabits BL)|]. split; [exact bn_scalars|exact bn_hash]. Qed.

Lemma bn_live : live (C := BN) (fun _ => f1 BN).
Proof.
  intros n H. apply (f_equal (qval bn_order)) in H. discriminate H.
Qed.

Lemma bn_example : scalar_order BN bn_order /\ (Z.of_nat (String.length P) < 2 ^ 64)%Z /\
  parse P HumanPolicy = Ok (tree fP) /\ 0 < 2 <= and_width fP /\ @hash_total BN /\
  live (C := BN) (fun _ => f1 BN).
Proof.
  split; [exact bn_scalars|]. split; [apply Z.ltb_lt; vm_compute; reflexivity|]. split; [ground|].
  split; [cbn; lia|]. split; [exact bn_hash|exact bn_live].
Qed.
