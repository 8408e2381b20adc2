(** * PropertiesRefresh: every ciphertext is a refreshed one (C154)

    C115 shows that the product of a ciphertext with one whose payload key is one is again a
    ciphertext of the same plaintext.  Here: every ciphertext of the same payload key is such a product, so a
    refreshed ciphertext shows nothing of the one it was made from.  The proofs are in RefreshProofs.v. *)
From Coq Require Import String List Bool Arith ZArith Lia.
From Verif Require Import Base Crypto Policy Parse Spec SchemeLib Symmetric Dnf Bdabe Mke08 Bsw Ghw11 Lsw Ac17 Aw11
  Instance Sessions Witnesses InsiderWitnesses Generic Views Payloads Mixing Refresh RefreshProofs PropertiesPayload.
Import ListNotations.
Local Open Scope string_scope.
Local Open Scope rand_scope.

Theorem C154_bsw : forall (C : crypto), laws C -> forall nonce nonce' (pk : bsw_pk C) pol lang data data' t t' i ct j,
  bsw_encrypt nonce pk pol lang data t i = Ok (ct, j) -> t' (i + 1) = t (i + 1) ->
  exists z k, bsw_encrypt nonce' pk pol lang data' (tape_to t t') i = Ok (z, k) /\
    bsw_encrypt nonce pk pol lang data t' i = Ok (bsw_mix ct z, j).
Proof. exact @bsw_refresh. Qed.
Print Assumptions C154_bsw.

Theorem C154_ghw : forall (C : crypto), laws C -> forall nonce nonce' (pk : ghw_pk C) pol lang data data' t t' i ct j,
  ghw_encrypt nonce pk pol lang data t i = Ok (ct, j) -> t' (i + 1) = t (i + 1) ->
  exists z k, ghw_encrypt nonce' pk pol lang data' (tape_to t t') i = Ok (z, k) /\
    ghw_encrypt nonce pk pol lang data t' i = Ok (ghw_mix ct z, j).
Proof. exact @ghw_refresh. Qed.
Print Assumptions C154_ghw.

Theorem C154_lsw : forall (C : crypto), laws C -> forall nonce nonce' (pk : lsw_pk C) attrs data data' t t' i ct j,
  lsw_encrypt nonce pk attrs data t i = Ok (ct, j) ->
  t' (i + 1 + Datatypes.length attrs) = t (i + 1 + Datatypes.length attrs) -> data' <> "" ->
  exists z k, lsw_encrypt nonce' pk attrs data' (tape_to t t') i = Ok (z, k) /\
    lsw_encrypt nonce pk attrs data t' i = Ok (lsw_mix ct z, j).
Proof. exact @lsw_refresh. Qed.
Print Assumptions C154_lsw.

(** AW11; the payload key is drawn at a place that only depends on the policy. *)
Theorem C154_aw : forall (C : crypto), laws C -> forall pol lang f, parse pol lang = Ok (tree f) ->
  exists q, forall nonce nonce' (gk : aw_gk C) pks data data' t t' i ct j,
  aw_encrypt nonce gk pks pol lang data t i = Ok (ct, j) ->
  encrypt_symmetric nonce (payload (t (i + q))) data = Ok (awct_data ct) /\
  (t' (i + q) = t (i + q) ->
   exists z k, aw_encrypt nonce' gk pks pol lang data' (tape_to t t') i = Ok (z, k) /\
    aw_encrypt nonce gk pks pol lang data t' i = Ok (aw_mix ct z, j)).
Proof. exact @aw_refresh. Qed.
Print Assumptions C154_aw.

Theorem C154_ac17_cp : forall (C : crypto), laws C -> forall nonce nonce' (pk : ac_pk C) msk t0 i0 j0 pol lang data data' t t' i ct j,
  ac_setup t0 i0 = Ok (pk, msk, j0) ->
  cp_encrypt nonce pk pol data lang t i = Ok (ct, j) -> t' (i + 2) = t (i + 2) ->
  exists z k, cp_encrypt nonce' pk pol data' lang (tape_to t t') i = Ok (z, k) /\
    cp_encrypt nonce pk pol data lang t' i = Ok (cp_mix ct z, j).
Proof. exact @cp_refresh. Qed.
Print Assumptions C154_ac17_cp.

Theorem C154_ac17_kp : forall (C : crypto), laws C -> forall nonce nonce' (pk : ac_pk C) msk t0 i0 j0 attrs data data' t t' i ct j,
  ac_setup t0 i0 = Ok (pk, msk, j0) ->
  kp_encrypt nonce pk attrs data t i = Ok (ct, j) -> t' (i + 2) = t (i + 2) ->
  exists z k, kp_encrypt nonce' pk attrs data' (tape_to t t') i = Ok (z, k) /\
    kp_encrypt nonce pk attrs data t' i = Ok (kp_mix ct z, j).
Proof. exact @kp_refresh. Qed.
Print Assumptions C154_ac17_kp.

Theorem C154_bdabe : forall (C : crypto), laws C -> forall nonce nonce' (pk : bd_pk C) apks pol lang data data' t t' i ct j,
  bd_encrypt nonce pk apks pol lang data t i = Ok (ct, j) -> t' i = t i -> t' (i + 1) = t (i + 1) ->
  exists z k, bd_encrypt nonce' pk apks pol lang data' (tape_to t t') i = Ok (z, k) /\
    bd_encrypt nonce pk apks pol lang data t' i = Ok (bd_mix ct z, j).
Proof. exact @bd_refresh. Qed.
Print Assumptions C154_bdabe.

Theorem C154_mke : forall (C : crypto), laws C -> forall nonce nonce' (pk : mk_pk C) apks pol lang data data' t t' i ct j,
  mk_encrypt nonce pk apks pol lang data t i = Ok (ct, j) -> t' i = t i -> t' (i + 1) = t (i + 1) -> t' (i + 2) = t (i + 2) ->
  exists z k, mk_encrypt nonce' pk apks pol lang data' (tape_to t t') i = Ok (z, k) /\
    mk_encrypt nonce pk apks pol lang data t' i = Ok (mk_mix ct z, j).
Proof. exact @mk_refresh. Qed.
Print Assumptions C154_mke.

(** The tape agrees with [ztape 7] at one place only; not in /repo. *)
Definition kept (q : nat) (n : nat) : F ZC := if (n =? q)%nat then ztape 7 n else fadd ZC (ztape 7 n) (f1 ZC).

(** A ciphertext of each scheme. *)
Example C154_example : (forall q, kept q q = ztape 7 q) /\ (forall q n, n <> q -> kept q n <> ztape 7 n) /\
  exists bpk bmsk bi bct bj gpk gmsk gi gct gj lpk lmsk li lct lj apk amsk ai cct cj kct kj,
  bsw_setup (C := ZC) (ztape 3) 0 = Ok (bpk, bmsk, bi) /\ bsw_encrypt nc bpk P HumanPolicy "m" (ztape 7) 0 = Ok (bct, bj) /\
  ghw_setup (C := ZC) (ztape 3) 0 = Ok (gpk, gmsk, gi) /\ ghw_encrypt nc gpk P HumanPolicy "m" (ztape 7) 0 = Ok (gct, gj) /\
  lsw_setup (C := ZC) (ztape 3) 0 = Ok (lpk, lmsk, li) /\ lsw_encrypt nc lpk ["C"; "A"] "m" (ztape 7) 0 = Ok (lct, lj) /\
  ac_setup (C := ZC) (ztape 3) 0 = Ok (apk, amsk, ai) /\ cp_encrypt nc apk P "m" HumanPolicy (ztape 7) 0 = Ok (cct, cj) /\
  kp_encrypt nc apk ["C"; "A"] "m" (ztape 7) 0 = Ok (kct, kj).
Proof.
  split; [intros q; unfold kept; now rewrite Nat.eqb_refl|].
  split.
  { intros q n N H. unfold kept in H. destruct (Nat.eqb_spec n q); [contradiction|].
    assert (E : f1 ZC = f0 ZC); [|pose proof (proj2 (zeqb_ok _ _) E) as X; vm_compute in X; discriminate X].
    exact (sum_same ZL _ _ H). }
  anew_steps (' (bpk, bmsk) <- anew (ztape 3) (bsw_setup (C := ZC)) ;;
    bct <- anew (ztape 7) (bsw_encrypt nc bpk P HumanPolicy "m") ;;
    ' (gpk, gmsk) <- anew (ztape 3) (ghw_setup (C := ZC)) ;;
    gct <- anew (ztape 7) (ghw_encrypt nc gpk P HumanPolicy "m") ;;
    ' (lpk, lmsk) <- anew (ztape 3) (lsw_setup (C := ZC)) ;;
    lct <- anew (ztape 7) (lsw_encrypt nc lpk ["C"; "A"] "m") ;;
    ' (apk, amsk) <- anew (ztape 3) (ac_setup (C := ZC)) ;;
    cct <- anew (ztape 7) (cp_encrypt nc apk P "m" HumanPolicy) ;;
    kct <- anew (ztape 7) (kp_encrypt nc apk ["C"; "A"] "m") ;; rret tt) tt.
  give.
Qed.

Example C154_example_authorities : parse P HumanPolicy = Ok (tree fP) /\
  (exists (gk : aw_gk ZC) pks ct k, aw_encrypt nc gk pks P HumanPolicy "m" (ztape 7) 0 = Ok (ct, k)) /\
  (exists (pk : bd_pk ZC) apks ct k, bd_encrypt nc pk apks PX HumanPolicy "m" (ztape 7) 0 = Ok (ct, k)) /\
  (exists (pk : mk_pk ZC) apks ct k, mk_encrypt nc pk apks PX HumanPolicy "m" (ztape 7) 0 = Ok (ct, k)).
Proof.
  split; [vm_compute; reflexivity|]. split; [exact C113_example_aw|]. split; [exact C113_example_bdabe|exact C113_example_mke].
Qed.
