(** * PropertiesPayload: the payload key and the sealed data (C113, C114)

    C113: only the sealed data depends on the plaintext.  C114: one draw decides the payload key, every
    key belongs to exactly one value of it, and besides the key it decides one element of the
    ciphertext.  The proofs are in PayloadProofs.v and UniformProofs.v. *)
From Coq Require Import String List Bool Arith ZArith Lia.
From Verif Require Import Base Crypto Policy Parse Spec PolicyProofs Poly SchemeLib Symmetric Msp Dnf DnfProofs Bdabe BdabeProofs Mke08 Mke08Proofs
  Bsw Ghw11 Lsw Yct14 Ac17 Aw11 Aw11Proofs Instance Sessions Witnesses Generic Views Payloads GenericProofs GenericWitnesses
  PayloadProofs UniformProofs InsiderWitnesses UniformWitnesses.
Import ListNotations.
Local Open Scope string_scope.

(** BSW. *)
Theorem C113_bsw :
  forall (C : crypto) nonce nonce' (pk : bsw_pk C) pol lang data data' t i ct j,
  bsw_encrypt nonce pk pol lang data t i = Ok (ct, j) ->
  exists d', bsw_encrypt nonce' pk pol lang data' t i = Ok (bsw_with ct d', j) /\
  sealed_alike C nonce nonce' data data' (bct_data ct) d'.
Proof. exact @bsw_header. Qed.
Print Assumptions C113_bsw.

Example C113_example_bsw : exists (pk : bsw_pk ZC) ct k, bsw_encrypt nc pk P HumanPolicy "m" (ztape 7) 0 = Ok (ct, k).
Proof. destruct bsw_run as (pk & _ & _ & _ & _ & ct & k & _ & _ & H). exists pk, ct, k. exact H. Qed.

(** GHW11. *)
Theorem C113_ghw :
  forall (C : crypto) nonce nonce' (pk : ghw_pk C) pol lang data data' t i ct j,
  ghw_encrypt nonce pk pol lang data t i = Ok (ct, j) ->
  exists d', ghw_encrypt nonce' pk pol lang data' t i = Ok (ghw_with ct d', j) /\
  sealed_alike C nonce nonce' data data' (gct_data ct) d'.
Proof. exact @ghw_header. Qed.
Print Assumptions C113_ghw.

Example C113_example_ghw : exists (pk : ghw_pk ZC) ct k, ghw_encrypt nc pk P HumanPolicy "m" (ztape 7) 0 = Ok (ct, k).
Proof. destruct ghw_run as (pk & _ & _ & _ & _ & ct & k & _ & _ & H). exists pk, ct, k. exact H. Qed.

(** LSW. *)
Theorem C113_lsw :
  forall (C : crypto) nonce nonce' (pk : lsw_pk C) attrs data data' t i ct j, data' <> "" ->
  lsw_encrypt nonce pk attrs data t i = Ok (ct, j) ->
  exists d', lsw_encrypt nonce' pk attrs data' t i = Ok (lsw_with ct d', j) /\
  sealed_alike C nonce nonce' data data' (lct_ct ct) d'.
Proof. exact @lsw_header. Qed.
Print Assumptions C113_lsw.

Example C113_example_lsw : exists (pk : lsw_pk ZC) ct k, lsw_encrypt nc pk ["C"; "A"] "m" (ztape 7) 0 = Ok (ct, k).
Proof. destruct lsw_run as (pk & _ & _ & _ & _ & ct & k & _ & _ & H). exists pk, ct, k. exact H. Qed.

(** YCT14. *)
Theorem C113_yct :
  forall (C : crypto) nonce nonce' (pk : yct_pk C) attrs data data' t i ct j, data' <> "" ->
  yct_encrypt nonce pk attrs data t i = Ok (ct, j) ->
  exists d', yct_encrypt nonce' pk attrs data' t i = Ok (yct_with ct d', j) /\
  sealed_alike C nonce nonce' data data' (yct_data ct) d'.
Proof. exact @yct_header. Qed.
Print Assumptions C113_yct.

Example C113_example_yct : exists (pk : yct_pk ZC) ct k, yct_encrypt nc pk ["C"; "A"] "m" (ztape 7) 0 = Ok (ct, k).
Proof. destruct yct_run as (pk & _ & _ & _ & _ & ct & k & _ & _ & H). exists pk, ct, k. exact H. Qed.

(** AC17 with policies in ciphertexts. *)
Theorem C113_ac17_cp :
  forall (C : crypto) nonce nonce' (pk : ac_pk C) pol lang data data' t i ct j,
  cp_encrypt nonce pk pol data lang t i = Ok (ct, j) ->
  exists d', cp_encrypt nonce' pk pol data' lang t i = Ok (cp_with ct d', j) /\
  sealed_alike C nonce nonce' data data' (act_ct (acp_ct ct)) d'.
Proof. exact @cp_header. Qed.
Print Assumptions C113_ac17_cp.

Example C113_example_ac17_cp : exists (pk : ac_pk ZC) ct k, cp_encrypt nc pk P "m" HumanPolicy (ztape 7) 0 = Ok (ct, k).
Proof. destruct cp_run as (pk & _ & _ & _ & _ & ct & k & _ & _ & H). exists pk, ct, k. exact H. Qed.

(** AC17 with policies in keys. *)
Theorem C113_ac17_kp :
  forall (C : crypto) nonce nonce' (pk : ac_pk C) attrs data data' t i ct j,
  kp_encrypt nonce pk attrs data t i = Ok (ct, j) ->
  exists d', kp_encrypt nonce' pk attrs data' t i = Ok (kp_with ct d', j) /\
  sealed_alike C nonce nonce' data data' (act_ct (akp_ct ct)) d'.
Proof. exact @kp_header. Qed.
Print Assumptions C113_ac17_kp.

Example C113_example_ac17_kp : exists (pk : ac_pk ZC) ct k, kp_encrypt nc pk ["C"; "A"] "m" (ztape 7) 0 = Ok (ct, k).
Proof. destruct kp_run as (pk & _ & _ & _ & _ & ct & k & _ & _ & H). exists pk, ct, k. exact H. Qed.

(** AW11. *)
Theorem C113_aw :
  forall (C : crypto) nonce nonce' (gk : aw_gk C) pks pol lang data data' t i ct j,
  aw_encrypt nonce gk pks pol lang data t i = Ok (ct, j) ->
  exists d', aw_encrypt nonce' gk pks pol lang data' t i = Ok (aw_with ct d', j) /\
  sealed_alike C nonce nonce' data data' (awct_data ct) d'.
Proof. exact @aw_header. Qed.
Print Assumptions C113_aw.

Example C113_example_aw : exists (gk : aw_gk ZC) pks ct k, aw_encrypt nc gk pks P HumanPolicy "m" (ztape 7) 0 = Ok (ct, k).
Proof. destruct aw_run as (gk & As & _ & _ & ct & k & _ & _ & _ & _ & _ & _ & H). eexists gk, _, ct, k. exact H. Qed.

(** BDABE. *)
Theorem C113_bdabe :
  forall (C : crypto) nonce nonce' (pk : bd_pk C) apks pol lang data data' t i ct j,
  bd_encrypt nonce pk apks pol lang data t i = Ok (ct, j) ->
  exists d', bd_encrypt nonce' pk apks pol lang data' t i = Ok (bd_with ct d', j) /\
  sealed_alike C nonce nonce' data data' (Bdabe.bct_data ct) d'.
Proof. exact @bd_header. Qed.
Print Assumptions C113_bdabe.

Example C113_example_bdabe : exists (pk : bd_pk ZC) apks ct k, bd_encrypt nc pk apks PX HumanPolicy "m" (ztape 7) 0 = Ok (ct, k).
Proof. destruct bd_run as (pk & _ & _ & _ & apks & ct & k & _ & _ & _ & _ & _ & _ & H & _). exists pk, apks, ct, k. exact H. Qed.

(** MKE08. *)
Theorem C113_mke :
  forall (C : crypto) nonce nonce' (pk : mk_pk C) apks pol lang data data' t i ct j,
  mk_encrypt nonce pk apks pol lang data t i = Ok (ct, j) ->
  exists d', mk_encrypt nonce' pk apks pol lang data' t i = Ok (mk_with ct d', j) /\
  sealed_alike C nonce nonce' data data' (mct_data ct) d'.
Proof. exact @mk_header. Qed.
Print Assumptions C113_mke.

Example C113_example_mke : exists (pk : mk_pk ZC) apks ct k, mk_encrypt nc pk apks PX HumanPolicy "m" (ztape 7) 0 = Ok (ct, k).
Proof. destruct mk_run as (pk & _ & _ & _ & apks & ct & k & _ & _ & _ & _ & _ & H & _). exists pk, apks, ct, k. exact H. Qed.

(** The payload keys of a draw: each key is the payload of exactly one scalar. *)
Theorem C114_payload : forall (C : crypto), laws C -> forall key : GT C, exists m, forall m', payload m' = key <-> m' = m.
Proof. exact @payload_onto. Qed.
Print Assumptions C114_payload.

Example C114_example_payload : payload (C := ZC) (zmk 5) <> payload (C := ZC) (zmk 6).
Proof.
  destruct (C114_payload ZC ZL (payload (C := ZC) (zmk 5))) as (m & H). intros E.
  pose proof (proj1 (H (zmk 6)) (eq_sym E)) as E1. pose proof (proj1 (H (zmk 5)) eq_refl) as E2.
  apply (f_equal zval) in E1. apply (f_equal zval) in E2. rewrite <- E2 in E1. vm_compute in E1. discriminate.
Qed.

(** BSW: the draw of the payload key. *)
Theorem C114_bsw : forall (C : crypto) nonce (pk : bsw_pk C) pol lang data t i ct j,
  bsw_encrypt nonce pk pol lang data t i = Ok (ct, j) ->
  encrypt_symmetric nonce (payload (t (i + 1))) data = Ok (bct_data ct) /\
  forall m, exists ct', bsw_encrypt nonce pk pol lang data (put t (i + 1) m) i = Ok (ct', j) /\
  bct_policy ct' = bct_policy ct /\ bct_c ct' = bct_c ct /\ bct_cy ct' = bct_cy ct /\
  encrypt_symmetric nonce (payload m) data = Ok (bct_data ct').
Proof. exact @bsw_uniform. Qed.
Print Assumptions C114_bsw.

Example C114_example_bsw : exists (pk : bsw_pk ZC) ct k, bsw_encrypt nc pk P HumanPolicy "m" (ztape 7) 0 = Ok (ct, k).
Proof. exact C113_example_bsw. Qed.

(** GHW11: the draw of the payload key. *)
Theorem C114_ghw : forall (C : crypto) nonce (pk : ghw_pk C) pol lang data t i ct j,
  ghw_encrypt nonce pk pol lang data t i = Ok (ct, j) ->
  encrypt_symmetric nonce (payload (t (i + 1))) data = Ok (gct_data ct) /\
  forall m, exists ct', ghw_encrypt nonce pk pol lang data (put t (i + 1) m) i = Ok (ct', j) /\
  gct_policy ct' = gct_policy ct /\ gct_c1 ct' = gct_c1 ct /\ gct_cidi ct' = gct_cidi ct /\
  encrypt_symmetric nonce (payload m) data = Ok (gct_data ct').
Proof. exact @ghw_uniform. Qed.
Print Assumptions C114_ghw.

Example C114_example_ghw : exists (pk : ghw_pk ZC) ct k, ghw_encrypt nc pk P HumanPolicy "m" (ztape 7) 0 = Ok (ct, k).
Proof. exact C113_example_ghw. Qed.

(** LSW: the draw of the payload key. *)
Theorem C114_lsw : forall (C : crypto) nonce (pk : lsw_pk C) attrs data t i ct j,
  lsw_encrypt nonce pk attrs data t i = Ok (ct, j) ->
  encrypt_symmetric nonce (payload (t (i + 1 + Datatypes.length attrs))) data = Ok (lct_ct ct) /\
  forall m, exists ct', lsw_encrypt nonce pk attrs data (put t (i + 1 + Datatypes.length attrs) m) i = Ok (ct', j) /\
  lct_e2 ct' = lct_e2 ct /\ lct_ej ct' = lct_ej ct /\
  encrypt_symmetric nonce (payload m) data = Ok (lct_ct ct').
Proof. exact @lsw_uniform. Qed.
Print Assumptions C114_lsw.

Example C114_example_lsw : exists (pk : lsw_pk ZC) ct k, lsw_encrypt nc pk ["C"; "A"] "m" (ztape 7) 0 = Ok (ct, k).
Proof. exact C113_example_lsw. Qed.

(** AC17 with policies in ciphertexts: the draw of the payload key. *)
Theorem C114_ac17_cp : forall (C : crypto) nonce (pk : ac_pk C) pol lang data t i ct j,
  cp_encrypt nonce pk pol data lang t i = Ok (ct, j) ->
  encrypt_symmetric nonce (payload (t (i + 2))) data = Ok (act_ct (acp_ct ct)) /\
  forall m, exists ct', cp_encrypt nonce pk pol data lang (put t (i + 2) m) i = Ok (ct', j) /\
  acp_policy ct' = acp_policy ct /\ act_c0 (acp_ct ct') = act_c0 (acp_ct ct) /\ act_c (acp_ct ct') = act_c (acp_ct ct) /\
  encrypt_symmetric nonce (payload m) data = Ok (act_ct (acp_ct ct')).
Proof. exact @cp_uniform. Qed.
Print Assumptions C114_ac17_cp.

Example C114_example_ac17_cp : exists (pk : ac_pk ZC) ct k, cp_encrypt nc pk P "m" HumanPolicy (ztape 7) 0 = Ok (ct, k).
Proof. exact C113_example_ac17_cp. Qed.

(** AC17 with policies in keys: the draw of the payload key. *)
Theorem C114_ac17_kp : forall (C : crypto) nonce (pk : ac_pk C) attrs data t i ct j,
  kp_encrypt nonce pk attrs data t i = Ok (ct, j) ->
  encrypt_symmetric nonce (payload (t (i + 2))) data = Ok (act_ct (akp_ct ct)) /\
  forall m, exists ct', kp_encrypt nonce pk attrs data (put t (i + 2) m) i = Ok (ct', j) /\
  akp_attr ct' = akp_attr ct /\ act_c0 (akp_ct ct') = act_c0 (akp_ct ct) /\ act_c (akp_ct ct') = act_c (akp_ct ct) /\
  encrypt_symmetric nonce (payload m) data = Ok (act_ct (akp_ct ct')).
Proof. exact @kp_uniform. Qed.
Print Assumptions C114_ac17_kp.

Example C114_example_ac17_kp : exists (pk : ac_pk ZC) ct k, kp_encrypt nc pk ["C"; "A"] "m" (ztape 7) 0 = Ok (ct, k).
Proof. exact C113_example_ac17_kp. Qed.

(** AW11; the position of the draw depends on the policy. *)
Theorem C114_aw : forall (C : crypto) nonce (gk : aw_gk C) pks pol lang data t i ct j,
  aw_encrypt nonce gk pks pol lang data t i = Ok (ct, j) ->
  exists q, i <= q < j /\ encrypt_symmetric nonce (payload (t q)) data = Ok (awct_data ct) /\
  forall m, exists ct', aw_encrypt nonce gk pks pol lang data (put t q m) i = Ok (ct', j) /\
  awct_policy ct' = awct_policy ct /\ awct_c ct' = awct_c ct /\
  encrypt_symmetric nonce (payload m) data = Ok (awct_data ct').
Proof. exact @aw_uniform. Qed.
Print Assumptions C114_aw.

Example C114_example_aw : exists (gk : aw_gk ZC) pks ct k, aw_encrypt nc gk pks P HumanPolicy "m" (ztape 7) 0 = Ok (ct, k).
Proof. exact C113_example_aw. Qed.

(** YCT14: the key is a power of a public element. *)
Theorem C114_yct : forall (C : crypto), laws C -> forall nonce (pk : yct_pk C) attrs data t i ct j,
  yct_encrypt nonce pk attrs data t i = Ok (ct, j) ->
  encrypt_symmetric nonce (gtpow C (ypk_g pk) (t i)) data = Ok (yct_data ct) /\
  (ypk_g pk <> gtone C -> forall key, exists m, forall m', gtpow C (ypk_g pk) m' = key <-> m' = m).
Proof. exact @yct_key. Qed.
Print Assumptions C114_yct.

Example C114_example_yct : exists (pk : yct_pk ZC) ct k, yct_encrypt nc pk ["C"; "A"] "m" (ztape 7) 0 = Ok (ct, k).
Proof. exact C113_example_yct. Qed.

(** BDABE and MKE08: the key is a product of draws. *)
Theorem C114_bdabe : forall (C : crypto), laws C -> forall nonce (pk : bd_pk C) apks pol lang data t i ct j,
  bd_encrypt nonce pk apks pol lang data t i = Ok (ct, j) ->
  encrypt_symmetric nonce (payload (t i * t (i + 1)%nat)%F) data = Ok (Bdabe.bct_data ct).
Proof. exact @bd_key. Qed.
Print Assumptions C114_bdabe.

Example C114_example_bdabe : exists (pk : bd_pk ZC) apks ct k, bd_encrypt nc pk apks PX HumanPolicy "m" (ztape 7) 0 = Ok (ct, k).
Proof. exact C113_example_bdabe. Qed.

Theorem C114_mke : forall (C : crypto), laws C -> forall nonce (pk : mk_pk C) apks pol lang data t i ct j,
  mk_encrypt nonce pk apks pol lang data t i = Ok (ct, j) ->
  encrypt_symmetric nonce (payload (t i * t (i + 1)%nat * (1 + t (i + 2)%nat))%F) data = Ok (mct_data ct).
Proof. exact @mk_key. Qed.
Print Assumptions C114_mke.

Example C114_example_mke : exists (pk : mk_pk ZC) apks ct k, mk_encrypt nc pk apks PX HumanPolicy "m" (ztape 7) 0 = Ok (ct, k).
Proof. exact C113_example_mke. Qed.

(** The other draw of a product decides the key exactly when the first is not zero. *)
Theorem C114_product : forall (C : crypto), laws C -> forall x : F C,
  x <> f0 C <-> forall key : GT C, exists m, forall m', payload (x * m')%F = key <-> m' = m.
Proof. exact @product_exact. Qed.
Print Assumptions C114_product.

Example C114_example_product : zmk 5 <> f0 ZC.
Proof. intros H. apply (f_equal zval) in H. vm_compute in H. discriminate. Qed.

(** C114 is false for BDABE and MKE08: two encryptions with different draws of the second factor use the same key. *)
Theorem C114_bdabe_refuted : exists (pk : bd_pk ZC) apks (t t' : nat -> F ZC) ct j ct' j',
  bd_encrypt nc pk apks PX HumanPolicy "m" t 0 = Ok (ct, j) /\ bd_encrypt nc pk apks PX HumanPolicy "m" t' 0 = Ok (ct', j') /\
  t 1 <> t' 1 /\ encrypt_symmetric nc (gtone ZC) "m" = Ok (Bdabe.bct_data ct) /\
  encrypt_symmetric nc (gtone ZC) "m" = Ok (Bdabe.bct_data ct').
Proof. exact bd_same_key. Qed.
Print Assumptions C114_bdabe_refuted.

Theorem C114_mke_refuted : exists (pk : mk_pk ZC) apks (t t' : nat -> F ZC) ct j ct' j',
  mk_encrypt nc pk apks PX HumanPolicy "m" t 0 = Ok (ct, j) /\ mk_encrypt nc pk apks PX HumanPolicy "m" t' 0 = Ok (ct', j') /\
  t 1 <> t' 1 /\ encrypt_symmetric nc (gtone ZC) "m" = Ok (mct_data ct) /\
  encrypt_symmetric nc (gtone ZC) "m" = Ok (mct_data ct').
Proof. exact mk_same_key. Qed.
Print Assumptions C114_mke_refuted.
