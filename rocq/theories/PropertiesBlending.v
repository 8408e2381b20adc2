(** * PropertiesBlending: two keys make a third (C119)

    Of two keys for the same attributes, or for the same policy, anyone can compute a third one that
    key generation could have issued, with the operations of the groups only.  The proofs are in
    BlendingProofs.v. *)
From Coq Require Import String List Bool Arith ZArith Lia.
From Verif Require Import Base Crypto Policy Parse Spec PolicyProofs Poly SchemeLib Symmetric Msp Dnf DnfProofs Bdabe BdabeProofs Mke08 Mke08Proofs
  Bsw Ghw11 Lsw Yct14 Ac17 Instance Sessions Witnesses InsiderWitnesses Mixing Blending BlendingProofs.
Import ListNotations.
Local Open Scope string_scope.
Local Open Scope rand_scope.

(** BSW. *)
Theorem C119_bsw : forall (C : crypto), laws C -> forall (x : F C) (pk : bsw_pk C) msk attrs t i sk j t' i' sk' j',
  bsw_keygen pk msk attrs t i = Ok (Some sk, j) -> bsw_keygen pk msk attrs t' i' = Ok (Some sk', j') ->
  exists n, j = i + n /\ j' = i' + n /\ bsw_keygen pk msk attrs (tblend x t i t' i') 0 = Ok (Some (bsw_blend x sk sk'), n).
Proof. exact @bsw_blended. Qed.
Print Assumptions C119_bsw.

Example C119_example_bsw : exists pk msk i sk j sk' j', bsw_setup (C := ZC) (ztape 3) 0 = Ok (pk, msk, i) /\
  bsw_keygen pk msk ["C"; "A"] (ztape 5) 0 = Ok (Some sk, j) /\ bsw_keygen pk msk ["C"; "A"] (ztape 7) 0 = Ok (Some sk', j').
Proof.
  anew_steps (' (pk, msk) <- anew (ztape 3) (bsw_setup (C := ZC)) ;;
    ko <- anew (ztape 5) (bsw_keygen pk msk ["C"; "A"]) ;; sk <- rlift (unwrap ko) ;;
    ko' <- anew (ztape 7) (bsw_keygen pk msk ["C"; "A"]) ;; sk' <- rlift (unwrap ko') ;; rret tt) tt.
  give.
Qed.

(** GHW11. *)
Theorem C119_ghw : forall (C : crypto), laws C -> forall (x : F C) (pk : ghw_pk C) msk attrs t i sk j t' i' sk' j',
  ghw_keygen pk msk attrs t i = Ok (Some sk, j) -> ghw_keygen pk msk attrs t' i' = Ok (Some sk', j') ->
  exists n, j = i + n /\ j' = i' + n /\ ghw_keygen pk msk attrs (tblend x t i t' i') 0 = Ok (Some (ghw_blend x sk sk'), n).
Proof. exact @ghw_blended. Qed.
Print Assumptions C119_ghw.

Example C119_example_ghw : exists pk msk i sk j sk' j', ghw_setup (C := ZC) (ztape 3) 0 = Ok (pk, msk, i) /\
  ghw_keygen pk msk ["C"; "A"] (ztape 5) 0 = Ok (Some sk, j) /\ ghw_keygen pk msk ["C"; "A"] (ztape 7) 0 = Ok (Some sk', j').
Proof.
  anew_steps (' (pk, msk) <- anew (ztape 3) (ghw_setup (C := ZC)) ;;
    ko <- anew (ztape 5) (ghw_keygen pk msk ["C"; "A"]) ;; sk <- rlift (unwrap ko) ;;
    ko' <- anew (ztape 7) (ghw_keygen pk msk ["C"; "A"]) ;; sk' <- rlift (unwrap ko') ;; rret tt) tt.
  give.
Qed.

(** LSW. *)
Theorem C119_lsw : forall (C : crypto), laws C -> forall (x : F C) (pk : lsw_pk C) msk pol lang t i sk j t' i' sk' j',
  lsw_keygen pk msk pol lang t i = Ok (sk, j) -> lsw_keygen pk msk pol lang t' i' = Ok (sk', j') ->
  exists n, j = i + n /\ j' = i' + n /\ lsw_keygen pk msk pol lang (tblend x t i t' i') 0 = Ok (lsw_blend x sk sk', n).
Proof. exact @lsw_blended. Qed.
Print Assumptions C119_lsw.

Example C119_example_lsw : exists pk msk i sk j sk' j', lsw_setup (C := ZC) (ztape 3) 0 = Ok (pk, msk, i) /\
  lsw_keygen pk msk P HumanPolicy (ztape 5) 0 = Ok (sk, j) /\ lsw_keygen pk msk P HumanPolicy (ztape 7) 0 = Ok (sk', j').
Proof.
  anew_steps (' (pk, msk) <- anew (ztape 3) (lsw_setup (C := ZC)) ;;
    sk <- anew (ztape 5) (lsw_keygen pk msk P HumanPolicy) ;;
    sk' <- anew (ztape 7) (lsw_keygen pk msk P HumanPolicy) ;; rret tt) tt.
  give.
Qed.

(** YCT14. *)
Theorem C119_yct : forall (C : crypto), laws C -> forall (x : F C) (msk : yct_msk C) pol lang t i sk j t' i' sk' j',
  yct_keygen msk pol lang t i = Ok (sk, j) -> yct_keygen msk pol lang t' i' = Ok (sk', j') ->
  exists n, j = i + n /\ j' = i' + n /\ yct_keygen msk pol lang (tblend x t i t' i') 0 = Ok (yct_blend x sk sk', n).
Proof. exact @yct_blended. Qed.
Print Assumptions C119_yct.

Example C119_example_yct : exists pk msk i sk j sk' j', yct_setup (C := ZC) ["A"; "B"; "C"] (ztape 3) 0 = Ok (pk, msk, i) /\
  yct_keygen msk P HumanPolicy (ztape 5) 0 = Ok (sk, j) /\ yct_keygen msk P HumanPolicy (ztape 7) 0 = Ok (sk', j').
Proof.
  anew_steps (' (pk, msk) <- anew (ztape 3) (yct_setup (C := ZC) ["A"; "B"; "C"]) ;;
    sk <- anew (ztape 5) (yct_keygen msk P HumanPolicy) ;;
    sk' <- anew (ztape 7) (yct_keygen msk P HumanPolicy) ;; rret tt) tt.
  give.
Qed.

(** AC17 with policies in ciphertexts. *)
Theorem C119_ac17_cp : forall (C : crypto), laws C -> forall (x : F C) (msk : ac_msk C) attrs t i sk j t' i' sk' j',
  cp_keygen msk attrs t i = Ok (sk, j) -> cp_keygen msk attrs t' i' = Ok (sk', j') ->
  exists n, j = i + n /\ j' = i' + n /\ cp_keygen msk attrs (tblend x t i t' i') 0 = Ok (cp_blend x sk sk', n).
Proof. exact @cp_blended. Qed.
Print Assumptions C119_ac17_cp.

Example C119_example_ac17_cp : exists pk msk i sk j sk' j', ac_setup (C := ZC) (ztape 3) 0 = Ok (pk, msk, i) /\
  cp_keygen msk ["C"; "A"] (ztape 5) 0 = Ok (sk, j) /\ cp_keygen msk ["C"; "A"] (ztape 7) 0 = Ok (sk', j').
Proof.
  anew_steps (' (pk, msk) <- anew (ztape 3) (ac_setup (C := ZC)) ;;
    sk <- anew (ztape 5) (cp_keygen msk ["C"; "A"]) ;;
    sk' <- anew (ztape 7) (cp_keygen msk ["C"; "A"]) ;; rret tt) tt.
  give.
Qed.

(** AC17 with policies in keys. *)
Theorem C119_ac17_kp : forall (C : crypto), laws C -> forall (x : F C) (msk : ac_msk C) pol lang t i sk j t' i' sk' j',
  kp_keygen msk pol lang t i = Ok (sk, j) -> kp_keygen msk pol lang t' i' = Ok (sk', j') ->
  exists n, j = i + n /\ j' = i' + n /\ kp_keygen msk pol lang (tblend x t i t' i') 0 = Ok (kp_blend x sk sk', n).
Proof. exact @kp_blended. Qed.
Print Assumptions C119_ac17_kp.

Example C119_example_ac17_kp : exists pk msk i sk j sk' j', ac_setup (C := ZC) (ztape 3) 0 = Ok (pk, msk, i) /\
  kp_keygen msk P HumanPolicy (ztape 5) 0 = Ok (sk, j) /\ kp_keygen msk P HumanPolicy (ztape 7) 0 = Ok (sk', j').
Proof.
  anew_steps (' (pk, msk) <- anew (ztape 3) (ac_setup (C := ZC)) ;;
    sk <- anew (ztape 5) (kp_keygen msk P HumanPolicy) ;;
    sk' <- anew (ztape 7) (kp_keygen msk P HumanPolicy) ;; rret tt) tt.
  give.
Qed.

(** BDABE: two user keys of one authority with keys for the same attributes. *)
Theorem C119_bdabe : forall (C : crypto), laws C -> forall (x : F C) (pk : bd_pk C) As A u u' t i uk j t' i' uk' j' asks asks',
  bd_unique As -> In A As -> bd_keygen pk A u t i = Ok (uk, j) -> bd_keygen pk A u' t' i' = Ok (uk', j') ->
  Forall (bd_sk_issued (buk_pk uk) As) asks -> Forall (bd_sk_issued (buk_pk uk') As) asks' -> map bask_attr asks = map bask_attr asks' ->
  bd_user pk As (bd_blend x (fold_left bd_add asks uk) (fold_left bd_add asks' uk')).
Proof. exact @bd_users_blended. Qed.
Print Assumptions C119_bdabe.

Example C119_example_bdabe : exists (pk : bd_pk ZC) au uk j uk' j' s s',
  bd_unique [au] /\ bd_keygen pk au "bob" (ztape 5) 0 = Ok (uk, j) /\ bd_keygen pk au "eve" (ztape 7) 0 = Ok (uk', j') /\
  Forall (bd_sk_issued (buk_pk uk) [au]) [s] /\ Forall (bd_sk_issued (buk_pk uk') [au]) [s'] /\
  map bask_attr [s] = ["x::B"] /\ map bask_attr [s'] = ["x::B"].
Proof.
  anew_steps (' (pk, msk) <- anew (ztape 3) (bd_setup (C := ZC)) ;;
    au <- anew (ztape 4) (bd_authgen pk msk "x") ;; uk <- anew (ztape 5) (bd_keygen pk au "bob") ;;
    uk' <- anew (ztape 7) (bd_keygen pk au "eve") ;;
    s <- rlift (bd_request_sk (buk_pk uk) au "x::B") ;; s' <- rlift (bd_request_sk (buk_pk uk') au "x::B") ;; rret tt) tt.
  match goal with
  | Hu : bd_keygen ?pk ?au "bob" _ _ = Ok (?uk, ?j), Hu' : bd_keygen _ _ "eve" _ _ = Ok (?uk', ?j'),
    H1 : bd_request_sk (buk_pk ?uk) _ _ = Ok ?s, H2 : bd_request_sk (buk_pk ?uk') _ _ = Ok ?s' |- _ =>
      exists pk, au, uk, j, uk', j', s, s'; split; [intros A B [<-|[]] [<-|[]] _; reflexivity|];
      split; [exact Hu|]; split; [exact Hu'|];
      split; [constructor; [do 2 eexists; split; [left; reflexivity|exact H1]|constructor]|];
      split; [constructor; [do 2 eexists; split; [left; reflexivity|exact H2]|constructor]|];
      split; cbn [map]; f_equal; [exact (proj1 (bd_request_inv _ _ _ _ H1))|exact (proj1 (bd_request_inv _ _ _ _ H2))]
  end.
Qed.

(** MKE08. *)
Theorem C119_mke : forall (C : crypto), laws C -> forall (x : F C) (pk : mk_pk C) msk As u u' t i uk j t' i' uk' j' asks asks',
  mk_unique As -> mk_keygen pk msk u t i = Ok (uk, j) -> mk_keygen pk msk u' t' i' = Ok (uk', j') ->
  Forall (mk_sk_issued (muk_pk uk) As) asks -> Forall (mk_sk_issued (muk_pk uk') As) asks' -> map mask_attr asks = map mask_attr asks' ->
  mk_user pk msk As (mk_blend x (fold_left mk_add asks uk) (fold_left mk_add asks' uk')).
Proof. exact @mk_users_blended. Qed.
Print Assumptions C119_mke.

Example C119_example_mke : exists (pk : mk_pk ZC) msk au uk j uk' j' s s',
  mk_unique [au] /\ mk_keygen pk msk "bob" (ztape 5) 0 = Ok (uk, j) /\ mk_keygen pk msk "eve" (ztape 7) 0 = Ok (uk', j') /\
  Forall (mk_sk_issued (muk_pk uk) [au]) [s] /\ Forall (mk_sk_issued (muk_pk uk') [au]) [s'] /\
  map mask_attr [s] = ["x::B"] /\ map mask_attr [s'] = ["x::B"].
Proof.
  anew_steps (' (pk, msk) <- anew (ztape 3) (mk_setup (C := ZC)) ;;
    au <- anew (ztape 4) (mk_authgen (C := ZC) "x") ;; uk <- anew (ztape 5) (mk_keygen pk msk "bob") ;;
    uk' <- anew (ztape 7) (mk_keygen pk msk "eve") ;;
    s <- rlift (mk_request_sk (muk_pk uk) "x::B" au) ;; s' <- rlift (mk_request_sk (muk_pk uk') "x::B" au) ;; rret tt) tt.
  match goal with
  | Ha : mk_authgen _ _ _ = Ok (?au, _), Hu : mk_keygen ?pk ?msk "bob" _ _ = Ok (?uk, ?j), Hu' : mk_keygen _ _ "eve" _ _ = Ok (?uk', ?j'),
    H1 : mk_request_sk (muk_pk ?uk) _ _ = Ok ?s, H2 : mk_request_sk (muk_pk ?uk') _ _ = Ok ?s' |- _ =>
      exists pk, msk, au, uk, j, uk', j', s, s'; split; [intros A B [<-|[]] [<-|[]] _; reflexivity|];
      split; [exact Hu|]; split; [exact Hu'|];
      split; [constructor; [do 2 eexists; split; [left; reflexivity|exact H1]|constructor]|];
      split; [constructor; [do 2 eexists; split; [left; reflexivity|exact H2]|constructor]|];
      split; cbn [map]; f_equal; [exact (proj1 (mk_request_inv _ _ _ _ H1))|exact (proj1 (mk_request_inv _ _ _ _ H2))]
  end.
Qed.

(** The third key is neither of the two, unless these agree. *)
Theorem C119_new : forall (C : crypto), laws C -> forall x : F C, x <> f0 C -> x <> f1 C ->
  (forall sk sk' : bsw_sk C, bsw_blend x sk sk' = sk \/ bsw_blend x sk sk' = sk' -> bsk_d sk = bsk_d sk') /\
  (forall sk sk' : ghw_sk C, ghw_blend x sk sk' = sk \/ ghw_blend x sk sk' = sk' -> gsk_k sk = gsk_k sk' /\ gsk_l sk = gsk_l sk') /\
  (forall (sk sk' : lsw_sk C) k a b, nth_error (lsk_dj sk) k = Some a -> nth_error (lsk_dj sk') k = Some b ->
     lsw_blend x sk sk' = sk \/ lsw_blend x sk sk' = sk' -> ld_1 a = ld_1 b /\ ld_2 a = ld_2 b /\ ld_3 a = ld_3 b /\ ld_4 a = ld_4 b /\ ld_5 a = ld_5 b) /\
  (forall (sk sk' : ac_cpsk C) k a b, nth_error (ask_k0 (acps_sk sk)) k = Some a -> nth_error (ask_k0 (acps_sk sk')) k = Some b ->
     cp_blend x sk sk' = sk \/ cp_blend x sk sk' = sk' -> a = b) /\
  (forall (sk sk' : ac_kpsk C) k a b, nth_error (ask_k0 (akps_sk sk)) k = Some a -> nth_error (ask_k0 (akps_sk sk')) k = Some b ->
     kp_blend x sk sk' = sk \/ kp_blend x sk sk' = sk' -> a = b) /\
  (forall uk uk' : bd_uk C, bd_blend x uk uk' = uk \/ bd_blend x uk uk' = uk' -> buk_sk uk = buk_sk uk') /\
  (forall uk uk' : mk_uk C, mk_blend x uk uk' = uk \/ mk_blend x uk uk' = uk' -> muk_sk uk = muk_sk uk').
Proof. exact @blends_differ. Qed.
Print Assumptions C119_new.

(** Two keys issued one after the other on one tape, and their combination with the weight 3. *)
Example C119_example_new : zmk 3 <> f0 ZC /\ zmk 3 <> f1 ZC /\ exists pk msk i sk j sk' k, bsw_setup (C := ZC) (ztape 3) 0 = Ok (pk, msk, i) /\
  bsw_keygen pk msk ["C"; "A"] (ztape 3) i = Ok (Some sk, j) /\ bsw_keygen pk msk ["C"; "A"] (ztape 3) j = Ok (Some sk', k) /\
  bsw_blend (C := ZC) (zmk 3) sk sk' <> sk /\ bsw_blend (C := ZC) (zmk 3) sk sk' <> sk'.
Proof.
  assert (N0 : zmk 3 <> f0 ZC) by (intros H; apply (f_equal zval) in H; vm_compute in H; discriminate H).
  assert (N1 : zmk 3 <> f1 ZC) by (intros H; apply (f_equal zval) in H; vm_compute in H; discriminate H).
  split; [exact N0|]. split; [exact N1|].
  assert (R : exists j, (' (pk, msk) <- bsw_setup (C := ZC) ;;
    ko <- bsw_keygen pk msk ["C"; "A"] ;; sk <- rlift (unwrap ko) ;;
    ko' <- bsw_keygen pk msk ["C"; "A"] ;; sk' <- rlift (unwrap ko') ;;
    rret (zeqb (bsk_d sk) (bsk_d sk'))) (ztape 3%Z) 0%nat = Ok (false, j)) by run.
  destruct R as (j & R). steps R.
  assert (D : bsk_d x0 <> bsk_d x2) by (intros D; apply (proj2 (zeqb_ok _ _)) in D; rewrite R in D; discriminate D).
  destruct (C119_new ZC ZL _ N0 N1) as (X & _).
  exists y, z, i, x0, i1, x2, i3. split; [exact E|]. split; [exact E0|]. split; [exact E2|].
  split; intros H; apply D, X; [left|right]; exact H.
Qed.
