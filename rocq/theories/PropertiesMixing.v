(** * PropertiesMixing: ciphertexts multiply (C115)

    Encryption with the sum of two tapes gives the product of the two ciphertexts; whoever knows the
    public key can so turn a ciphertext into another one of the same plaintext.  The proofs are in
    MixingProofs.v. *)
From Coq Require Import String List Bool Arith ZArith Lia.
From Verif Require Import Base Crypto Policy Parse Spec PolicyProofs Poly SchemeLib Symmetric Msp Dnf DnfProofs Bdabe BdabeProofs Mke08 Mke08Proofs
  Bsw Ghw11 Lsw Yct14 Ac17 Aw11 Aw11Proofs Instance Sessions Witnesses Generic Views Payloads GenericProofs GenericWitnesses
  PayloadProofs UniformProofs InsiderWitnesses UniformWitnesses Mixing MixingProofs PropertiesPayload.
Import ListNotations.
Local Open Scope string_scope.

(** BSW. *)
Theorem C115_bsw : forall (C : crypto), laws C -> forall nonce nonce' (pk : bsw_pk C) pol lang data data' t t' i ct j ct' j',
  bsw_encrypt nonce pk pol lang data t i = Ok (ct, j) -> bsw_encrypt nonce' pk pol lang data' t' i = Ok (ct', j') ->
  exists d, bsw_encrypt nonce pk pol lang data (tadd t t') i = Ok (bsw_with (bsw_mix ct ct') d, j) /\
  encrypt_symmetric nonce (payload (fadd C (t (i + 1)) (t' (i + 1)))) data = Ok d /\
  (t' (i + 1) = f0 C -> d = bct_data ct).
Proof. exact @bsw_product. Qed.
Print Assumptions C115_bsw.

Example C115_example_bsw : exists (pk : bsw_pk ZC) ct ct' k,
  bsw_encrypt nc pk P HumanPolicy "m" (ztape 7) 0 = Ok (ct, k) /\
  bsw_encrypt nc pk P HumanPolicy "m" (put (C := ZC) (ztape 7) (0 + 1) (f0 ZC)) 0 = Ok (ct', k).
Proof.
  destruct C113_example_bsw as (pk & ct & k & H). destruct (C114_bsw ZC _ _ _ _ _ _ _ _ _ H) as (_ & X).
  destruct (X (f0 ZC)) as (ct' & H' & _). exists pk, ct, ct', k. split; [exact H|exact H'].
Qed.

(** GHW11. *)
Theorem C115_ghw : forall (C : crypto), laws C -> forall nonce nonce' (pk : ghw_pk C) pol lang data data' t t' i ct j ct' j',
  ghw_encrypt nonce pk pol lang data t i = Ok (ct, j) -> ghw_encrypt nonce' pk pol lang data' t' i = Ok (ct', j') ->
  exists d, ghw_encrypt nonce pk pol lang data (tadd t t') i = Ok (ghw_with (ghw_mix ct ct') d, j) /\
  encrypt_symmetric nonce (payload (fadd C (t (i + 1)) (t' (i + 1)))) data = Ok d /\
  (t' (i + 1) = f0 C -> d = gct_data ct).
Proof. exact @ghw_product. Qed.
Print Assumptions C115_ghw.

Example C115_example_ghw : exists (pk : ghw_pk ZC) ct ct' k,
  ghw_encrypt nc pk P HumanPolicy "m" (ztape 7) 0 = Ok (ct, k) /\
  ghw_encrypt nc pk P HumanPolicy "m" (put (C := ZC) (ztape 7) (0 + 1) (f0 ZC)) 0 = Ok (ct', k).
Proof.
  destruct C113_example_ghw as (pk & ct & k & H). destruct (C114_ghw ZC _ _ _ _ _ _ _ _ _ H) as (_ & X).
  destruct (X (f0 ZC)) as (ct' & H' & _). exists pk, ct, ct', k. split; [exact H|exact H'].
Qed.

(** LSW. *)
Theorem C115_lsw : forall (C : crypto), laws C -> forall nonce nonce' (pk : lsw_pk C) attrs data data' t t' i ct j ct' j',
  lsw_encrypt nonce pk attrs data t i = Ok (ct, j) -> lsw_encrypt nonce' pk attrs data' t' i = Ok (ct', j') ->
  exists d, lsw_encrypt nonce pk attrs data (tadd t t') i = Ok (lsw_with (lsw_mix ct ct') d, j) /\
  encrypt_symmetric nonce (payload (fadd C (t (i + 1 + Datatypes.length attrs)) (t' (i + 1 + Datatypes.length attrs)))) data = Ok d /\
  (t' (i + 1 + Datatypes.length attrs) = f0 C -> d = lct_ct ct).
Proof. exact @lsw_product. Qed.
Print Assumptions C115_lsw.

Example C115_example_lsw : exists (pk : lsw_pk ZC) ct ct' k,
  lsw_encrypt nc pk ["C"; "A"] "m" (ztape 7) 0 = Ok (ct, k) /\
  lsw_encrypt nc pk ["C"; "A"] "m" (put (C := ZC) (ztape 7) (0 + 1 + 2) (f0 ZC)) 0 = Ok (ct', k).
Proof.
  destruct C113_example_lsw as (pk & ct & k & H). destruct (C114_lsw ZC _ _ _ _ _ _ _ _ H) as (_ & X).
  destruct (X (f0 ZC)) as (ct' & H' & _). exists pk, ct, ct', k. split; [exact H|exact H'].
Qed.

(** AC17 with policies in ciphertexts. *)
Theorem C115_ac17_cp : forall (C : crypto), laws C -> forall nonce nonce' (pk : ac_pk C) pol lang data data' t t' i ct j ct' j',
  cp_encrypt nonce pk pol data lang t i = Ok (ct, j) -> cp_encrypt nonce' pk pol data' lang t' i = Ok (ct', j') ->
  exists d, cp_encrypt nonce pk pol data lang (tadd t t') i = Ok (cp_with (cp_mix ct ct') d, j) /\
  encrypt_symmetric nonce (payload (fadd C (t (i + 2)) (t' (i + 2)))) data = Ok d /\
  (t' (i + 2) = f0 C -> d = act_ct (acp_ct ct)).
Proof. exact @cp_product. Qed.
Print Assumptions C115_ac17_cp.

Example C115_example_ac17_cp : exists (pk : ac_pk ZC) ct ct' k,
  cp_encrypt nc pk P "m" HumanPolicy (ztape 7) 0 = Ok (ct, k) /\
  cp_encrypt nc pk P "m" HumanPolicy (put (C := ZC) (ztape 7) (0 + 2) (f0 ZC)) 0 = Ok (ct', k).
Proof.
  destruct C113_example_ac17_cp as (pk & ct & k & H). destruct (C114_ac17_cp ZC _ _ _ _ _ _ _ _ _ H) as (_ & X).
  destruct (X (f0 ZC)) as (ct' & H' & _). exists pk, ct, ct', k. split; [exact H|exact H'].
Qed.

(** AC17 with policies in keys. *)
Theorem C115_ac17_kp : forall (C : crypto), laws C -> forall nonce nonce' (pk : ac_pk C) attrs data data' t t' i ct j ct' j',
  kp_encrypt nonce pk attrs data t i = Ok (ct, j) -> kp_encrypt nonce' pk attrs data' t' i = Ok (ct', j') ->
  exists d, kp_encrypt nonce pk attrs data (tadd t t') i = Ok (kp_with (kp_mix ct ct') d, j) /\
  encrypt_symmetric nonce (payload (fadd C (t (i + 2)) (t' (i + 2)))) data = Ok d /\
  (t' (i + 2) = f0 C -> d = act_ct (akp_ct ct)).
Proof. exact @kp_product. Qed.
Print Assumptions C115_ac17_kp.

Example C115_example_ac17_kp : exists (pk : ac_pk ZC) ct ct' k,
  kp_encrypt nc pk ["C"; "A"] "m" (ztape 7) 0 = Ok (ct, k) /\
  kp_encrypt nc pk ["C"; "A"] "m" (put (C := ZC) (ztape 7) (0 + 2) (f0 ZC)) 0 = Ok (ct', k).
Proof.
  destruct C113_example_ac17_kp as (pk & ct & k & H). destruct (C114_ac17_kp ZC _ _ _ _ _ _ _ _ H) as (_ & X).
  destruct (X (f0 ZC)) as (ct' & H' & _). exists pk, ct, ct', k. split; [exact H|exact H'].
Qed.

(** AW11; the payload key is drawn at a place that only depends on the policy. *)
Theorem C115_aw : forall (C : crypto), laws C -> forall pol lang f, parse pol lang = Ok (tree f) ->
  exists q, forall nonce nonce' (gk : aw_gk C) pks data data' t t' i ct j ct' j',
  aw_encrypt nonce gk pks pol lang data t i = Ok (ct, j) -> aw_encrypt nonce' gk pks pol lang data' t' i = Ok (ct', j') ->
  encrypt_symmetric nonce (payload (t (i + q))) data = Ok (awct_data ct) /\
  exists d, aw_encrypt nonce gk pks pol lang data (tadd t t') i = Ok (aw_with (aw_mix ct ct') d, j) /\
  encrypt_symmetric nonce (payload (fadd C (t (i + q)) (t' (i + q)))) data = Ok d /\
  (t' (i + q) = f0 C -> d = awct_data ct).
Proof. exact @aw_product. Qed.
Print Assumptions C115_aw.

Example C115_example_aw : parse P HumanPolicy = Ok (tree fP) /\ exists (gk : aw_gk ZC) pks q ct ct' k,
  aw_encrypt nc gk pks P HumanPolicy "m" (ztape 7) 0 = Ok (ct, k) /\
  aw_encrypt nc gk pks P HumanPolicy "m" (put (C := ZC) (ztape 7) q (f0 ZC)) 0 = Ok (ct', k).
Proof.
  split; [vm_compute; reflexivity|].
  destruct C113_example_aw as (gk & pks & ct & k & H). destruct (C114_aw ZC _ _ _ _ _ _ _ _ _ _ H) as (q & _ & _ & X).
  destruct (X (f0 ZC)) as (ct' & H' & _). exists gk, pks, q, ct, ct', k. split; [exact H|exact H'].
Qed.

(** YCT14: the exponent that hides is also the one that makes the key, so the key changes too. *)
Theorem C115_yct : forall (C : crypto), laws C -> forall nonce nonce' (pk : yct_pk C) attrs data data' t t' i ct j ct' j',
  yct_encrypt nonce pk attrs data t i = Ok (ct, j) -> yct_encrypt nonce' pk attrs data' t' i = Ok (ct', j') ->
  exists d, yct_encrypt nonce pk attrs data (tadd t t') i = Ok (yct_with (yct_mix ct ct') d, j) /\
  encrypt_symmetric nonce (gtmul C (gtpow C (ypk_g pk) (t i)) (gtpow C (ypk_g pk) (t' i))) data = Ok d.
Proof. exact @yct_product. Qed.
Print Assumptions C115_yct.

Example C115_example_yct : exists (pk : yct_pk ZC) ct k, yct_encrypt nc pk ["C"; "A"] "m" (ztape 7) 0 = Ok (ct, k).
Proof. exact C113_example_yct. Qed.

(** BDABE and MKE08: the second tape has zeros where the payload key is drawn. *)
Theorem C115_bdabe : forall (C : crypto), laws C -> forall nonce nonce' (pk : bd_pk C) apks pol lang data data' t t' i ct j ct' j',
  bd_encrypt nonce pk apks pol lang data t i = Ok (ct, j) -> bd_encrypt nonce' pk apks pol lang data' t' i = Ok (ct', j') ->
  t' i = f0 C -> t' (i + 1) = f0 C ->
  bd_encrypt nonce pk apks pol lang data (tadd t t') i = Ok (bd_mix ct ct', j).
Proof. exact @bd_sum. Qed.
Print Assumptions C115_bdabe.

Definition three_zeros (n : nat) : F ZC := match n with 0 | 1 | 2 => f0 ZC | _ => zmk 5 end.

Example C115_example_bdabe : exists (pk : bd_pk ZC) apks ct ct' j j',
  bd_encrypt nc pk apks PX HumanPolicy "m" (ztape 7) 0 = Ok (ct, j) /\
  bd_encrypt nc pk apks PX HumanPolicy "m" three_zeros 0 = Ok (ct', j') /\ three_zeros 0 = f0 ZC /\ three_zeros (0 + 1) = f0 ZC.
Proof.
  destruct C113_example_bdabe as (pk & apks & ct & j & H).
  assert (Q : parse PX HumanPolicy = Ok (tree fX)) by (vm_compute; reflexivity).
  destruct (bd_encrypt_runs nc pk apks PX HumanPolicy "m" fX three_zeros 0 Q eq_refl) as (ct' & j' & H').
  exists pk, apks, ct, ct', j, j'. split; [exact H|]. split; [exact H'|]. split; reflexivity.
Qed.

Theorem C115_mke : forall (C : crypto), laws C -> forall nonce nonce' (pk : mk_pk C) apks pol lang data data' t t' i ct j ct' j',
  mk_encrypt nonce pk apks pol lang data t i = Ok (ct, j) -> mk_encrypt nonce' pk apks pol lang data' t' i = Ok (ct', j') ->
  t' i = f0 C -> t' (i + 1) = f0 C -> t' (i + 2) = f0 C ->
  mk_encrypt nonce pk apks pol lang data (tadd t t') i = Ok (mk_mix ct ct', j).
Proof. exact @mk_sum. Qed.
Print Assumptions C115_mke.

Example C115_example_mke : exists (pk : mk_pk ZC) apks ct ct' j j',
  mk_encrypt nc pk apks PX HumanPolicy "m" (ztape 7) 0 = Ok (ct, j) /\
  mk_encrypt nc pk apks PX HumanPolicy "m" three_zeros 0 = Ok (ct', j') /\
  three_zeros 0 = f0 ZC /\ three_zeros (0 + 1) = f0 ZC /\ three_zeros (0 + 2) = f0 ZC.
Proof.
  destruct C113_example_mke as (pk & apks & ct & j & H).
  assert (Q : parse PX HumanPolicy = Ok (tree fX)) by (vm_compute; reflexivity).
  destruct (mk_encrypt_runs nc pk apks PX HumanPolicy "m" fX three_zeros 0 Q eq_refl) as (ct' & j' & H').
  exists pk, apks, ct, ct', j, j'. split; [exact H|]. split; [exact H'|]. repeat apply conj; reflexivity.
Qed.

(** The product is another ciphertext unless the second one has a trivial element. *)
Theorem C115_differ : forall (C : crypto), laws C ->
  (forall ct ct' : bsw_ct C, bsw_mix ct ct' = ct -> bct_c ct' = g1zero C) /\
  (forall ct ct' : ghw_ct C, ghw_mix ct ct' = ct -> gct_c1 ct' = g1zero C) /\
  (forall ct ct' : lsw_ct C, lsw_mix ct ct' = ct -> lct_e2 ct' = g2zero C) /\
  (forall ct ct' : ac_cpct C, cp_mix ct ct' = ct -> act_cp (acp_ct ct') = gtone C) /\
  (forall ct ct' : ac_kpct C, kp_mix ct ct' = ct -> act_cp (akp_ct ct') = gtone C) /\
  (forall ct ct' : aw_ct C, aw_mix ct ct' = ct -> awct_c0 ct' = gtone C) /\
  (forall (ct ct' : bd_ct C) k x x', bd_mix ct ct' = ct -> nth_error (Bdabe.bct_j ct) k = Some x ->
     nth_error (Bdabe.bct_j ct') k = Some x' -> bt_e2 x' = g1zero C) /\
  (forall (ct ct' : mk_ct C) k x x', mk_mix ct ct' = ct -> nth_error (mct_e ct) k = Some x ->
     nth_error (mct_e ct') k = Some x' -> mj_3 x' = g1zero C).
Proof. exact @products_differ. Qed.
Print Assumptions C115_differ.

Example C115_example_differ : g1one ZC <> g1zero ZC.
Proof. intros H. apply (f_equal zval) in H. vm_compute in H. discriminate. Qed.
