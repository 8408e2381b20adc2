(** * BillsKeygen: master keys with empty bills, for the cost of key generation

    The functions are not in /repo; cited are the types. *)
From Coq Require Import String List Arith ZArith.
From Verif Require Import Base Crypto Bdabe Mke08 Bsw Ghw11 Lsw Ac17 Bills.
Import ListNotations.

Section Given.
Context {C : crypto}.
Notation T := (tally C).

(** [CpAbeMasterKey]; /repo/src/schemes/bsw/mod.rs:55-58. *)
Definition t_bsw_msk (k : bsw_msk C) : bsw_msk T := @BswMsk T (bmsk_beta k) (e2 (bmsk_g2a k)).
(** [Ghw11SecretKey]; /repo/src/schemes/ghw11/mod.rs:41-56. *)
Definition t_ghw_sk (k : ghw_sk C) : ghw_sk T :=
  GhwSk (e2 (gsk_k k)) (e2 (gsk_l k)) (map (fun a => (fst a, e2 (snd a))) (gsk_attr k)).
(** [KpAbeMasterKey]; /repo/src/schemes/lsw/mod.rs:57-63. *)
Definition t_lsw_msk (k : lsw_msk C) : lsw_msk T :=
  @LswMsk T (lmsk_alpha1 k) (lmsk_alpha2 k) (lmsk_b k) (e1 (lmsk_hg1 k)) (e2 (lmsk_hg2 k)).
(** [Ac17MasterKey]; /repo/src/schemes/ac17/mod.rs:72-78. *)
Definition t_ac_msk (k : ac_msk C) : ac_msk T :=
  @AcMsk T (e1 (amsk_g k)) (e2 (amsk_h k)) (map e1 (amsk_gk k)) (amsk_a k) (amsk_b k).
(** [BdabeSecretAuthorityKey]; /repo/src/schemes/bdabe/mod.rs:119-124. *)
Definition t_bd_auth (k : bd_auth C) : bd_auth T :=
  @BdAuth T (bau_name k) (e1 (bau_a1 k)) (e2 (bau_a2 k)) (bau_a3 k).
(** [Mke08MasterKey]; /repo/src/schemes/mke08/mod.rs:67-70. *)
Definition t_mk_msk (k : mk_msk C) : mk_msk T := MkMsk (e1 (mmsk_g1 k)) (e2 (mmsk_g2 k)).

End Given.

(** Seven for the column [k] of a row if its entry is not zero, fourteen for the next, and so on;
    not in /repo. *)
Fixpoint climb (k : nat) (row : list Z) : nat :=
  match row with
  | [] => 0
  | z :: r => (if (z =? 0)%Z then 0 else 7 * k) + climb (S k) r
  end.
