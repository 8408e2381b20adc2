(** * BillsEncrypt: public keys with empty bills, for the cost of encryption

    The functions are not in /repo; cited are the types. *)
From Coq Require Import String List Arith ZArith.
From Verif Require Import Base Crypto Bdabe Mke08 Bsw Ghw11 Lsw Ac17 Aw11 Bills.
Import ListNotations.

Section Given.
Context {C : crypto}.
Notation T := (tally C).

(** [CpAbePublicKey]; /repo/src/schemes/bsw/mod.rs:43-49. *)
Definition t_bsw_pk (k : bsw_pk C) : bsw_pk T :=
  BswPk (e1 (bpk_g1 k)) (e2 (bpk_g2 k)) (e1 (bpk_h k)) (e2 (bpk_f k)) (eT (bpk_egg k)).
(** [Ghw11PublicKey]; /repo/src/schemes/ghw11/mod.rs:22-28. *)
Definition t_ghw_pk (k : ghw_pk C) : ghw_pk T :=
  GhwPk (e1 (gpk_g1 k)) (e2 (gpk_g2 k)) (e1 (gpk_g1a k)) (e2 (gpk_g2a k)) (eT (gpk_egg k)).
(** [KpAbePublicKey]; /repo/src/schemes/lsw/mod.rs:44-51. *)
Definition t_lsw_pk (k : lsw_pk C) : lsw_pk T :=
  LswPk (e1 (lpk_g1 k)) (e2 (lpk_g2 k)) (e1 (lpk_g1b k)) (e1 (lpk_g1b2 k)) (e1 (lpk_hb k)) (eT (lpk_egg k)).
(** [Ac17PublicKey]; /repo/src/schemes/ac17/mod.rs:62-66. *)
Definition t_ac_pk (k : ac_pk C) : ac_pk T :=
  AcPk (e1 (apk_g k)) (map e2 (apk_ha k)) (map eT (apk_egh k)).
(** [Aw11PublicKey]; /repo/src/schemes/aw11/mod.rs:57-61. *)
Definition t_aw_pk (k : aw_pk C) : aw_pk T :=
  AwPk (map (fun a => (fst (fst a), eT (snd (fst a)), e2 (snd a))) (apk_attr k)).
(** [BdabePublicKey]; /repo/src/schemes/bdabe/mod.rs:49-55. *)
Definition t_bd_pk (k : bd_pk C) : bd_pk T :=
  BdPk (e1 (Bdabe.bpk_g1 k)) (e2 (Bdabe.bpk_g2 k)) (e1 (bpk_p1 k)) (e2 (bpk_p2 k)) (eT (Bdabe.bpk_egg k)).
(** [BdabePublicAttributeKey]; /repo/src/schemes/bdabe/mod.rs:108-113. *)
Definition t_bd_apk (k : bd_apk C) : bd_apk T :=
  BdApk (bapk_attr k) (e1 (bapk_a1 k)) (e2 (bapk_a2 k)) (eT (bapk_a3 k)).
(** [Mke08PublicKey]; /repo/src/schemes/mke08/mod.rs:54-61. *)
Definition t_mk_pk (k : mk_pk C) : mk_pk T :=
  MkPk (e1 (mpk_g1 k)) (e2 (mpk_g2 k)) (e1 (mpk_p1 k)) (e2 (mpk_p2 k)) (eT (mpk_egg1 k)) (eT (mpk_egg2 k)).
(** [Mke08PublicAttributeKey]; /repo/src/schemes/mke08/mod.rs:114-120. *)
Definition t_mk_apk (k : mk_apk C) : mk_apk T :=
  MkApk (mapk_attr k) (e1 (mapk_g1 k)) (e2 (mapk_g2 k)) (eT (mapk_gt1 k)) (eT (mapk_gt2 k)).

End Given.

(** The entries of a row that are not zero; not in /repo. *)
Definition nonzero (row : list Z) : nat := length (filter (fun z => negb (z =? 0)%Z) row).
