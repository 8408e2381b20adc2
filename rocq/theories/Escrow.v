(** * Escrow: opening with a master key, and no key of any attribute

    Nothing here models code of rabe: the crate has no such functions.  They are what the holder of a master
    key, or of the key of one authority, can compute from it and a ciphertext with operations of the groups;
    the fields they read are those of the records at bsw/mod.rs:55-70, ghw11/mod.rs:22-83, lsw/mod.rs:44-84,
    yct14/mod.rs:51-204, ac17/mod.rs:72-89, mke08/mod.rs:67-155 and bdabe/mod.rs:49-147. *)
From Coq Require Import String List.
From Verif Require Import Base Crypto Tools Symmetric Dnf Bdabe Mke08 Bsw Ghw11 Lsw Yct14 Ac17.
Import ListNotations.

Section Escrow.
Context {C : crypto}.

(** The blinding [b] taken off [a], and the payload opened with what remains; as the last lines of every
    decryption, e.g. bsw/mod.rs:308-310. *)
Definition strip (a b : GT C) (data : string) : outcome string := decrypt_symmetric (gtmul C a (gtinv C b)) data.

(** BSW: [g2_alpha^(1/beta)] against [c]; fields of bsw/mod.rs:55-58, 64-70. *)
Definition bsw_escrow (msk : bsw_msk C) (ct : bsw_ct C) : outcome string :=
  strip (Bsw.bct_cp ct) (pairing C (bct_c ct) (g2mul C (bmsk_g2a msk) (finv C (bmsk_beta msk)))) (Bsw.bct_data ct).

(** GHW11: [g2^alpha] against [c1]; fields of ghw11/mod.rs:33-36, 77-83. *)
Definition ghw_escrow (msk : ghw_msk C) (ct : ghw_ct C) : outcome string :=
  strip (gct_c ct) (pairing C (gct_c1 ct) (gmsk_g2al msk)) (gct_data ct).

(** LSW: [g1^(alpha1 alpha2)] against [e2]; fields of lsw/mod.rs:57-63, 78-83. *)
Definition lsw_escrow (pk : lsw_pk C) (msk : lsw_msk C) (ct : lsw_ct C) : outcome string :=
  strip (lct_e1 ct) (pairing C (g1mul C (lpk_g1 pk) (fmul C (lmsk_alpha1 msk) (lmsk_alpha2 msk))) (lct_e2 ct)) (lct_ct ct).

(** AC17: the three [g^k] against the three elements of [c_0]; fields of ac17/mod.rs:72-89. *)
Definition ac_escrow (msk : ac_msk C) (ct : ac_ct C) : outcome string :=
  match amsk_gk msk, act_c0 ct with
  | [k0; k1; k2], [u0; u1; u2] =>
      strip (act_cp ct) (gtmul C (gtmul C (pairing C k0 u0) (pairing C k1 u1)) (pairing C k2 u2)) (act_ct ct)
  | _, _ => Err
  end.

(** YCT14: the part of one attribute [n] of the ciphertext, raised to [s] over the secret of [n]; fields of yct14/mod.rs:151-154, 199-202. *)
Definition yct_escrow (msk : yct_msk C) (n : string) (ct : yct_ct C) : outcome string :=
  obind (ct_get_public ct n) (fun g =>
  obind (msk_get_private msk n) (fun si =>
  decrypt_symmetric (gtpow C g (fmul C (ymsk_s msk) (finv C si))) (yct_data ct))).

(** MKE08: the two elements of the master key against one conjunction [t]; fields of mke08/mod.rs:67-70, 146-155. *)
Definition mk_escrow (msk : mk_msk C) (t : mk_conj C) (data : string) : outcome string :=
  strip (gtmul C (mj_1 t) (mj_2 t))
        (gtmul C (pairing C (mmsk_g1 msk) (mj_6 t)) (pairing C (mj_5 t) (mmsk_g2 msk))) data.

(** BDABE: the master key against one conjunction [t]; fields of bdabe/mod.rs:61-63, 130-137. *)
Definition bd_escrow (pk : bd_pk C) (msk : bd_msk C) (t : bd_tuple C) (data : string) : outcome string :=
  strip (bt_e1 t) (gtpow C (pairing C (bt_e4 t) (Bdabe.bpk_g2 pk)) (bmsk_y msk)) data.

(** BDABE: the two elements of the key of one authority against one conjunction [t]; fields of bdabe/mod.rs:119-137. *)
Definition bd_authority_opens (au : bd_auth C) (t : bd_tuple C) (data : string) : outcome string :=
  strip (bt_e1 t) (gtmul C (pairing C (bau_a1 au) (bt_e5 t)) (pairing C (bt_e4 t) (bau_a2 au))) data.
End Escrow.
