(** * BnInstance: the laws over the scalar field of BN254

    The schemes take their scalars from the type [Fr] of the crate rabe-bn
    (/repo/Cargo.toml:33, imported for instance at
    /repo/src/schemes/bsw/mod.rs:23), the integers modulo the order of the curve
    BN254.  The order is proved prime here, so that the laws of Crypto.v have
    an instance over this very field; the groups are the additive group of the
    field, as in Instance.v. *)
From Coq Require Import String Ascii List Bool ZArith Znumtheory Zpow_facts Lia Field Eqdep_dec.
From Verif Require Import Base Crypto Poly Instance Primes.
Import ListNotations.
Local Open Scope Z_scope.

(** The order of the groups of BN254. *)
Definition bn_order : Z :=
  21888242871839275222246405745257275088548364400416034343698204186575808495617.

Local Ltac tried := apply (trial_prime 60); [reflexivity|vm_compute; reflexivity].

Lemma prime_1637 : prime 1637. Proof. tried. Qed.
Lemma prime_853 : prime 853. Proof. tried. Qed.
Lemma prime_661 : prime 661. Proof. tried. Qed.
Lemma prime_93001 : prime 93001.
Proof. apply (trial_prime 310); [reflexivity|vm_compute; reflexivity]. Qed.

Lemma prime_12048837557 : prime 12048837557.
Proof.
  apply (pocklington _ 2 [(93001, 0); (661, 0)]); [vm_compute; reflexivity|].
  intros pe [<-|[<-|[]]]; [exact prime_93001|exact prime_661].
Qed.

Lemma prime_5156902474397 : prime 5156902474397.
Proof.
  apply (pocklington _ 2 [(12048837557, 0)]); [vm_compute; reflexivity|].
  intros pe [<-|[]]. exact prime_12048837557.
Qed.

Lemma prime_1670836401704629 : prime 1670836401704629.
Proof.
  apply (pocklington _ 2 [(5156902474397, 0)]); [vm_compute; reflexivity|].
  intros pe [<-|[]]. exact prime_5156902474397.
Qed.

Lemma prime_639533339 : prime 639533339.
Proof.
  apply (pocklington _ 2 [(1637, 0); (853, 0)]); [vm_compute; reflexivity|].
  intros pe [<-|[<-|[]]]; [exact prime_1637|exact prime_853].
Qed.

Lemma prime_65865678001877903 : prime 65865678001877903.
Proof.
  apply (pocklington _ 2 [(639533339, 0)]); [vm_compute; reflexivity|].
  intros pe [<-|[]]. exact prime_639533339.
Qed.

Lemma prime_13818364434197438864469338081 : prime 13818364434197438864469338081.
Proof.
  apply (pocklington _ 2 [(65865678001877903, 0)]); [vm_compute; reflexivity|].
  intros pe [<-|[]]. exact prime_65865678001877903.
Qed.

Theorem bn_prime : prime bn_order.
Proof.
  refine (pocklington2 bn_order
    4067217240286848671452265983065331897323918408910809300406102239489012348584
    13818364434197438864469338081 1670836401704629 _
    prime_13818364434197438864469338081 prime_1670836401704629).
  vm_compute. reflexivity.
Qed.

(** ** The integers modulo a prime *)
Section Modulo.
Context (q : Z) (Q : prime q).

Record zq : Type := Zq { qval : Z; qok : (qval mod q =? qval) = true }.

Lemma zq_eq (a b : zq) : qval a = qval b -> a = b.
Proof.
  destruct a as [a Ha], b as [b Hb]. cbn. intros ->. f_equal. apply UIP_dec. apply bool_dec.
Qed.

Lemma q_pos : 1 < q. Proof. exact (prime_pos q Q). Qed.

Lemma qmod_ok z : ((z mod q) mod q =? z mod q) = true.
Proof. apply Z.eqb_eq. pose proof q_pos. apply Z.mod_mod. lia. Qed.

Definition qmk (z : Z) : zq := Zq (z mod q) (canon _ (qmod_ok z)).

Lemma qval_mod (a : zq) : qval a mod q = qval a.
Proof. destruct a as [a H]. cbn. now apply Z.eqb_eq. Qed.

Definition qadd (a b : zq) := qmk (qval a + qval b).
Definition qmul (a b : zq) := qmk (qval a * qval b).
Definition qsub (a b : zq) := qmk (qval a - qval b).
Definition qopp (a : zq) := qmk (- qval a).
Definition qinv (a : zq) := qmk (Zpow_mod (qval a) (q - 2) q).
Definition qdiv (a b : zq) := qmul a (qinv b).
Definition qeqb (a b : zq) := qval a =? qval b.

Lemma zq_field : field_theory (qmk 0) (qmk 1) qadd qmul qsub qopp qdiv qinv (@eq zq).
Proof.
  pose proof q_pos as P.
  assert (One : 1 mod q = 1) by (apply Z.mod_1_l; exact P).
  constructor.
  - constructor; intros; apply zq_eq; cbn -[Z.mul Z.add Z.modulo];
      try (rewrite ?Z.mod_0_l by lia).
    + now rewrite Z.add_0_l, qval_mod.
    + now rewrite Z.add_comm.
    + rewrite Z.add_mod_idemp_r, Z.add_mod_idemp_l by lia. now rewrite Z.add_assoc.
    + now rewrite One, Z.mul_1_l, qval_mod.
    + now rewrite Z.mul_comm.
    + rewrite Z.mul_mod_idemp_r, Z.mul_mod_idemp_l by lia. now rewrite Z.mul_assoc.
    + rewrite Z.mul_mod_idemp_l by lia. rewrite <- Z.add_mod by lia. now rewrite Z.mul_add_distr_r.
    + rewrite Z.add_mod_idemp_r by lia. f_equal.
    + rewrite Z.add_mod_idemp_r by lia. rewrite Z.add_opp_diag_r. apply Z.mod_0_l. lia.
  - intros H. apply (f_equal qval) in H. cbn -[Z.modulo] in H. rewrite One, Z.mod_0_l in H by lia. discriminate.
  - reflexivity.
  - intros x Hx. apply zq_eq. cbn -[Z.mul Z.modulo Zpow_mod].
    rewrite Z.mul_mod_idemp_l by lia. rewrite Zpow_mod_correct by lia.
    rewrite Z.mul_mod_idemp_l by lia.
    assert (N : ~ (q | qval x)).
    { intros D. apply Hx. apply zq_eq. cbn -[Z.modulo]. rewrite Z.mod_0_l by lia.
      apply Z.mod_divide in D; [|lia]. now rewrite qval_mod in D. }
    pose proof (fermat q (qval x) Q N) as E.
    replace (q - 1) with (q - 2 + 1) in E by lia. rewrite Z.pow_add_r, Z.pow_1_r in E by lia.
    rewrite E. symmetry. exact One.
Qed.

Lemma qeqb_ok x y : qeqb x y = true <-> x = y.
Proof. unfold qeqb. rewrite Z.eqb_eq. split; [apply zq_eq|now intros ->]. Qed.

(** Toy hash and toy text of a scalar, as in Instance.v. *)
Definition prime_crypto : crypto :=
  of_field zq (qmk 0) (qmk 1) qadd qmul qsub qopp qinv qeqb
    (fun s => Some (qmk (toy_hash s 1))) (fun x => dec (Z.to_nat (qval x mod 1009))).

Lemma prime_laws : laws prime_crypto.
Proof. exact (of_field_laws _ _ _ _ _ _ _ _ _ zq_field _ qeqb_ok _ _). Qed.

Lemma qusize n : qval (usize_to_fr (C := prime_crypto) n) = Z.of_nat n mod q.
Proof.
  pose proof q_pos as P. induction n as [|n IH].
  - reflexivity.
  - cbn [usize_to_fr]. cbn -[Z.modulo Z.of_nat usize_to_fr].
    rewrite IH. rewrite Z.mod_1_l by exact P.
    rewrite Z.add_mod_idemp_l by lia. f_equal. lia.
Qed.

End Modulo.

(** Adding [f1] to itself gives zero after a multiple of [q] steps and at no other time. *)
Definition scalar_order (C : crypto) (q : Z) : Prop :=
  forall n : nat, usize_to_fr n = f0 C <-> (q | Z.of_nat n).

Lemma prime_order q (Q : prime q) : scalar_order (prime_crypto q Q) q.
Proof.
  pose proof (prime_pos q Q) as P. intros n. rewrite <- Z.mod_divide by lia. rewrite <- (qusize q Q n).
  split.
  - intros ->. cbn -[Z.modulo]. apply Z.mod_0_l. lia.
  - intros E. apply zq_eq. cbn -[Z.modulo usize_to_fr]. now rewrite Z.mod_0_l by lia.
Qed.

Definition BN : crypto := prime_crypto bn_order bn_prime.
Lemma BL : laws BN.
Proof. exact (prime_laws bn_order bn_prime). Qed.
Lemma bn_scalars : scalar_order BN bn_order.
Proof. exact (prime_order bn_order bn_prime). Qed.

Lemma order_small C q n : scalar_order C q -> 0 < q -> Z.of_nat n < q -> small_ok C n.
Proof.
  intros O Hq Hn k Hk E. apply O in E. apply Z.divide_pos_le in E; lia.
Qed.
