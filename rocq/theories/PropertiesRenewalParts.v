(** * PropertiesRenewalParts: keys for less, made by the holder (C153)

    What BSW has a function for, delegation, holders of keys can do in GHW11 and LSW too.  The proofs
    are in RenewalPartsProofs.v. *)
From Coq Require Import String List Bool Arith ZArith Lia.
From Verif Require Import Base Crypto Policy Parse Spec SchemeLib Draws Symmetric Ghw11 Lsw
  Instance Sessions Witnesses InsiderWitnesses Thinning Alternative Renewal RenewalPartsProofs PropertiesAlternative.
Import ListNotations.
Local Open Scope string_scope.
Local Open Scope rand_scope.
Local Open Scope list_scope.

(** Every key that could have been issued for some of the attributes, with whatever draws. *)
Theorem C153_ghw : forall (C : crypto), laws C -> forall (pk : ghw_pk C) msk attrs keep t i sk j t' i',
  ghw_keygen pk msk attrs t i = Ok (Some sk, j) -> filter keep attrs <> [] ->
  exists sk', ghw_renew pk (ghw_thin keep sk) (fsub C (t' i') (t i)) = Ok sk' /\
    ghw_keygen pk msk (filter keep attrs) t' i' = Ok (Some sk', S i').
Proof. exact @ghw_renewed_part. Qed.
Print Assumptions C153_ghw.

(** Every key that could have been issued for one alternative of the policy. *)
Theorem C153_lsw : forall (C : crypto), laws C -> forall (pk : lsw_pk C) msk pol lang pol' lang' pre g post g' t i sk j,
  parse pol lang = Ok (tree (FOr (pre ++ g :: post))) -> parse pol' lang' = Ok (tree g') -> blank g' = blank g ->
  lsw_keygen pk msk pol lang t i = Ok (sk, j) -> lmsk_alpha2 msk <> f0 C ->
  exists A B D, lsk_dj sk = A ++ B ++ D /\ length A = length (flat_map leaves pre) /\ length D = length (flat_map leaves post) /\
    (Forall (fun d => String.prefix "!" (ld_name d) = false) B -> forall t' i',
     exists tr k sk', lsw_renew pk (LswSk (pol', lang') B) tr 0 = Ok (sk', k) /\
       lsw_keygen pk msk pol' lang' t' i' = Ok (sk', i' + (coins g + length (leaves g)))).
Proof. exact @lsw_renewed_alternative. Qed.
Print Assumptions C153_lsw.

Example C153_example :
  parse QO HumanPolicy = Ok (tree (FOr ([FLeaf "A" 2] ++ gB :: [FLeaf "D" 26]))) /\
  parse QA HumanPolicy = Ok (tree gB') /\ blank gB' = blank gB /\
  filter (fun a => seqb a "A") ["C"; "A"] <> [] /\
  exists gpk gmsk gi gsk gj lpk lmsk li lsk lj,
  ghw_setup (C := ZC) (ztape 3) 0 = Ok (gpk, gmsk, gi) /\ ghw_keygen gpk gmsk ["C"; "A"] (ztape 5) 0 = Ok (Some gsk, gj) /\
  lsw_setup (C := ZC) (ztape 3) 0 = Ok (lpk, lmsk, li) /\ lsw_keygen lpk lmsk QO HumanPolicy (ztape 5) 0 = Ok (lsk, lj) /\
  lmsk_alpha2 lmsk <> f0 ZC /\ Forall (fun d => String.prefix "!" (ld_name d) = false) (lsk_dj lsk).
Proof.
  split; [vm_compute; reflexivity|]. split; [vm_compute; reflexivity|]. split; [reflexivity|]. split; [discriminate|].
  anew_steps (' (gpk, gmsk) <- anew (ztape 3) (ghw_setup (C := ZC)) ;;
    gko <- anew (ztape 5) (ghw_keygen gpk gmsk ["C"; "A"]) ;; gsk <- rlift (unwrap gko) ;;
    ' (lpk, lmsk) <- anew (ztape 3) (lsw_setup (C := ZC)) ;;
    lsk <- anew (ztape 5) (lsw_keygen lpk lmsk QO HumanPolicy) ;;
    rret (zeqb (lmsk_alpha2 lmsk) (f0 ZC), forallb (fun d => negb (String.prefix "!" (ld_name d))) (lsk_dj lsk))) (false, true).
  give.
  - intros X. apply (proj2 (zeqb_ok _ _)) in X. match goal with H : zeqb (lmsk_alpha2 _) _ = false |- _ => pose proof (eq_trans (eq_sym X) H) as Y end. discriminate Y.
  - apply Forall_forall. intros d I. match goal with H : forallb _ _ = true |- _ => apply negb_true_iff; exact (proj1 (forallb_forall _ _) H d I) end.
Qed.
