(** * PayloadProofs: the sealed data is the only part of a ciphertext that depends on the plaintext *)
From Coq Require Import String List Bool Arith.
From Verif Require Import Base Crypto Policy Parse Tools SchemeLib Symmetric Sharing Msp Dnf Bdabe Mke08 Bsw Ghw11 Lsw Yct14 Ac17 Aw11 Payloads.
Import ListNotations.

Section PayloadProofs.
Context {C : crypto}.
Notation F := (F C).

Ltac follow := unfold rbind, rlift, rret, rerr, encrypt_symmetric;
  repeat match goal with
  | |- match ?x with Ok _ => _ | Err => _ | Panic => _ end = Ok _ -> _ =>
      destruct x as [?| |]; [|intros X; discriminate X|intros X; discriminate X]
  | |- (let (_, _) := ?x in _) _ _ = Ok _ -> _ => destruct x as [? ?]
  | |- (let (_, _) := ?x in _) = Ok _ -> _ => destruct x as [? ?]
  | |- (if ?b then _ else _) _ _ = Ok _ -> _ => destruct b; [|intros X; discriminate X]
  | |- Ok _ = Ok _ -> _ => let X := fresh in intros X; injection X as <- <-
  end.

Lemma bsw_header nonce nonce' (pk : bsw_pk C) pol lang data data' t i ct j :
  bsw_encrypt nonce pk pol lang data t i = Ok (ct, j) ->
  exists d', bsw_encrypt nonce' pk pol lang data' t i = Ok (bsw_with ct d', j) /\
  sealed_alike C nonce nonce' data data' (bct_data ct) d'.
Proof. unfold bsw_encrypt. follow. eexists. split; [reflexivity|]. eexists. split; reflexivity. Qed.

Lemma ghw_header nonce nonce' (pk : ghw_pk C) pol lang data data' t i ct j :
  ghw_encrypt nonce pk pol lang data t i = Ok (ct, j) ->
  exists d', ghw_encrypt nonce' pk pol lang data' t i = Ok (ghw_with ct d', j) /\
  sealed_alike C nonce nonce' data data' (gct_data ct) d'.
Proof. unfold ghw_encrypt. follow. eexists. split; [reflexivity|]. eexists. split; reflexivity. Qed.

Lemma lsw_header nonce nonce' (pk : lsw_pk C) attrs data data' t i ct j : data' <> EmptyString ->
  lsw_encrypt nonce pk attrs data t i = Ok (ct, j) ->
  exists d', lsw_encrypt nonce' pk attrs data' t i = Ok (lsw_with ct d', j) /\
  sealed_alike C nonce nonce' data data' (lct_ct ct) d'.
Proof.
  intros N. unfold lsw_encrypt. destruct attrs as [|a r]; [discriminate|]. destruct data as [|b s]; [discriminate|].
  destruct data' as [|b' s']; [contradiction|]. follow. eexists. split; [reflexivity|]. eexists. split; reflexivity.
Qed.

Lemma yct_header nonce nonce' (pk : yct_pk C) attrs data data' t i ct j : data' <> EmptyString ->
  yct_encrypt nonce pk attrs data t i = Ok (ct, j) ->
  exists d', yct_encrypt nonce' pk attrs data' t i = Ok (yct_with ct d', j) /\
  sealed_alike C nonce nonce' data data' (yct_data ct) d'.
Proof.
  intros N. unfold yct_encrypt. destruct attrs as [|a r]; [discriminate|]. destruct data as [|b s]; [discriminate|].
  destruct data' as [|b' s']; [contradiction|]. follow. eexists. split; [reflexivity|]. eexists. split; reflexivity.
Qed.

Lemma cp_header nonce nonce' (pk : ac_pk C) pol lang data data' t i ct j :
  cp_encrypt nonce pk pol data lang t i = Ok (ct, j) ->
  exists d', cp_encrypt nonce' pk pol data' lang t i = Ok (cp_with ct d', j) /\
  sealed_alike C nonce nonce' data data' (act_ct (acp_ct ct)) d'.
Proof. unfold cp_encrypt. follow. eexists. split; [reflexivity|]. eexists. split; reflexivity. Qed.

Lemma kp_header nonce nonce' (pk : ac_pk C) attrs data data' t i ct j :
  kp_encrypt nonce pk attrs data t i = Ok (ct, j) ->
  exists d', kp_encrypt nonce' pk attrs data' t i = Ok (kp_with ct d', j) /\
  sealed_alike C nonce nonce' data data' (act_ct (akp_ct ct)) d'.
Proof. unfold kp_encrypt. follow. eexists. split; [reflexivity|]. eexists. split; reflexivity. Qed.

Lemma aw_header nonce nonce' (gk : aw_gk C) pks pol lang data data' t i ct j :
  aw_encrypt nonce gk pks pol lang data t i = Ok (ct, j) ->
  exists d', aw_encrypt nonce' gk pks pol lang data' t i = Ok (aw_with ct d', j) /\
  sealed_alike C nonce nonce' data data' (awct_data ct) d'.
Proof. unfold aw_encrypt. follow. eexists. split; [reflexivity|]. eexists. split; reflexivity. Qed.

Lemma bd_header nonce nonce' (pk : bd_pk C) apks pol lang data data' t i ct j :
  bd_encrypt nonce pk apks pol lang data t i = Ok (ct, j) ->
  exists d', bd_encrypt nonce' pk apks pol lang data' t i = Ok (bd_with ct d', j) /\
  sealed_alike C nonce nonce' data data' (Bdabe.bct_data ct) d'.
Proof. unfold bd_encrypt. follow. eexists. split; [reflexivity|]. eexists. split; reflexivity. Qed.

Lemma mk_header nonce nonce' (pk : mk_pk C) apks pol lang data data' t i ct j :
  mk_encrypt nonce pk apks pol lang data t i = Ok (ct, j) ->
  exists d', mk_encrypt nonce' pk apks pol lang data' t i = Ok (mk_with ct d', j) /\
  sealed_alike C nonce nonce' data data' (mct_data ct) d'.
Proof. unfold mk_encrypt. follow. eexists. split; [reflexivity|]. eexists. split; reflexivity. Qed.

End PayloadProofs.
