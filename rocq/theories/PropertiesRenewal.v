(** * PropertiesRenewal: new keys without the master key (C152)

    The crate has a function for this in BSW only.  The proofs are in RenewalProofs.v. *)
From Coq Require Import String List Bool Arith ZArith Lia.
From Verif Require Import Base Crypto Policy Parse Spec SchemeLib Draws Symmetric Ghw11 Lsw EquationProofs
  Instance Sessions Witnesses InsiderWitnesses Renewal RenewalProofs.
Import ListNotations.
Local Open Scope string_scope.
Local Open Scope rand_scope.

(** Every key that could have been issued for the same attributes, with whatever draws, is a renewal. *)
Theorem C152_ghw : forall (C : crypto), laws C -> forall (pk : ghw_pk C) msk attrs t i sk j t' i',
  ghw_keygen pk msk attrs t i = Ok (Some sk, j) ->
  exists sk', ghw_renew pk sk (fsub C (t' i') (t i)) = Ok sk' /\ ghw_keygen pk msk attrs t' i' = Ok (Some sk', S i').
Proof. exact @ghw_renewed. Qed.
Print Assumptions C152_ghw.

Theorem C152_ghw_differs : forall (C : crypto), laws C -> forall (pk : ghw_pk C) sk r sk',
  ghw_renew pk sk r = Ok sk' -> gpk_g2 pk <> g2zero C -> r <> f0 C -> sk' <> sk.
Proof. exact @ghw_renew_differs. Qed.
Print Assumptions C152_ghw_differs.

(** LSW: shares of zero added to those of the policy. *)
Theorem C152_lsw : forall (C : crypto), laws C -> forall (pk : lsw_pk C) msk pol lang f t i sk j tr,
  parse pol lang = Ok (tree f) -> lmsk_alpha2 msk <> f0 C ->
  lsw_keygen pk msk pol lang t i = Ok (sk, j) ->
  Forall (fun d => String.prefix "!" (ld_name d) = false) (lsk_dj sk) ->
  exists sk', lsw_renew pk sk tr i = Ok (sk', j) /\
    lsw_keygen pk msk pol lang (both (lmsk_alpha2 msk) i (coins f) t tr) i = Ok (sk', j).
Proof. exact @lsw_renewed. Qed.
Print Assumptions C152_lsw.

(** Every sequence of draws is that of some renewal. *)
Theorem C152_lsw_all : forall (C : crypto), laws C -> forall (a : F C) i n t t', a <> f0 C -> forall k,
  both a i n t (fun k => if (k <? i + n)%nat then fmul C a (fsub C (t' k) (t k)) else fsub C (t' k) (t k)) k = t' k.
Proof. exact @both_all. Qed.
Print Assumptions C152_lsw_all.

Example C152_example : exists gpk gmsk gi gsk gj gsk' lpk lmsk li lsk lj lsk' lj',
  ghw_setup (C := ZC) (ztape 3) 0 = Ok (gpk, gmsk, gi) /\ ghw_keygen gpk gmsk ["C"; "A"] (ztape 5) 0 = Ok (Some gsk, gj) /\
  ghw_renew gpk gsk (ztape 7 0) = Ok gsk' /\ gpk_g2 gpk <> g2zero ZC /\
  lsw_setup (C := ZC) (ztape 3) 0 = Ok (lpk, lmsk, li) /\ lsw_keygen lpk lmsk P HumanPolicy (ztape 5) 0 = Ok (lsk, lj) /\
  parse P HumanPolicy = Ok (tree fP) /\ lmsk_alpha2 lmsk <> f0 ZC /\
  Forall (fun d => String.prefix "!" (ld_name d) = false) (lsk_dj lsk) /\
  lsw_renew lpk lsk (ztape 7) 0 = Ok (lsk', lj').
Proof.
  anew_steps (' (gpk, gmsk) <- anew (ztape 3) (ghw_setup (C := ZC)) ;;
    gko <- anew (ztape 5) (ghw_keygen gpk gmsk ["C"; "A"]) ;; gsk <- rlift (unwrap gko) ;;
    gsk' <- rlift (ghw_renew gpk gsk (ztape 7 0)) ;;
    ' (lpk, lmsk) <- anew (ztape 3) (lsw_setup (C := ZC)) ;;
    lsk <- anew (ztape 5) (lsw_keygen lpk lmsk P HumanPolicy) ;;
    lsk' <- anew (ztape 7) (lsw_renew lpk lsk) ;;
    rret (zeqb (gpk_g2 gpk) (g2zero ZC), zeqb (lmsk_alpha2 lmsk) (f0 ZC),
          forallb (fun d => negb (String.prefix "!" (ld_name d))) (lsk_dj lsk))) (false, false, true).
  give.
  - intros X. apply (proj2 (zeqb_ok _ _)) in X. match goal with H : zeqb (gpk_g2 _) _ = false |- _ => pose proof (eq_trans (eq_sym X) H) as Y end. discriminate Y.
  - vm_compute. reflexivity.
  - intros X. apply (proj2 (zeqb_ok _ _)) in X. match goal with H : zeqb (lmsk_alpha2 _) _ = false |- _ => pose proof (eq_trans (eq_sym X) H) as Y end. discriminate Y.
  - apply Forall_forall. intros d I. match goal with H : forallb _ _ = true |- _ => apply negb_true_iff; exact (proj1 (forallb_forall _ _) H d I) end.
Qed.
