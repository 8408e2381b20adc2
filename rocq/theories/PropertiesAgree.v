(** * PropertiesAgree: all who may read need not agree, remaining schemes (C151)

    With one entry of a ciphertext changed, one of two fitting keys opens it and the other fails. *)
From Coq Require Import String List Bool Arith ZArith Lia.
From Verif Require Import Base Crypto Policy Parse Spec SchemeLib Symmetric Tools Sharing Ghw11 Yct14 Ac17 Aw11
  Instance Sessions Witnesses InsiderWitnesses PropertiesSelected Agree.
Import ListNotations.
Local Open Scope string_scope.
Local Open Scope rand_scope.

Theorem C151_ghw_agree_refuted : exists (pk : ghw_pk ZC) msk i skA j skB k tA zA j' tB zB k' ct m,
  ghw_setup (C := ZC) (ztape 3) 0 = Ok (pk, msk, i) /\
  ghw_keygen pk msk ["A"] (ztape 5) 0 = Ok (Some skA, j) /\ ghw_keygen pk msk ["B"] (ztape 6) 0 = Ok (Some skB, k) /\
  ghw_tkgen skA (ztape 8) 0 = Ok (tA, zA, j') /\ ghw_tkgen skB (ztape 9) 0 = Ok (tB, zB, k') /\
  ghw_encrypt nc pk AorB HumanPolicy "m" (ztape 7) 0 = Ok (ct, m) /\
  obind (ghw_transform (ghw_spoilt "B" ct) tA) (fun x => ghw_decrypt_out x zA (gct_data ct)) = Ok "m" /\
  obind (ghw_transform (ghw_spoilt "B" ct) tB) (fun x => ghw_decrypt_out x zB (gct_data ct)) = Err.
Proof.
  anew_steps (' (pk, msk) <- anew (ztape 3) (ghw_setup (C := ZC)) ;;
    ko <- anew (ztape 5) (ghw_keygen pk msk ["A"]) ;; skA <- rlift (unwrap ko) ;;
    ko' <- anew (ztape 6) (ghw_keygen pk msk ["B"]) ;; skB <- rlift (unwrap ko') ;;
    ' (tA, zA) <- anew (ztape 8) (ghw_tkgen skA) ;; ' (tB, zB) <- anew (ztape 9) (ghw_tkgen skB) ;;
    ct <- anew (ztape 7) (ghw_encrypt nc pk AorB HumanPolicy "m") ;;
    rret (obind (ghw_transform (ghw_spoilt "B" ct) tA) (fun x => ghw_decrypt_out x zA (gct_data ct)),
          obind (ghw_transform (ghw_spoilt "B" ct) tB) (fun x => ghw_decrypt_out x zB (gct_data ct)))) (@Ok string "m", @Err string).
  give; congruence.
Qed.
Print Assumptions C151_ghw_agree_refuted.

Theorem C151_yct_agree_refuted : exists (pk : yct_pk ZC) msk i skA j skB k ct m,
  yct_setup (C := ZC) ["A"; "B"] (ztape 3) 0 = Ok (pk, msk, i) /\
  yct_keygen msk PolA HumanPolicy (ztape 5) 0 = Ok (skA, j) /\ yct_keygen msk PolB HumanPolicy (ztape 6) 0 = Ok (skB, k) /\
  yct_encrypt nc pk ["A"; "B"] "m" (ztape 7) 0 = Ok (ct, m) /\
  yct_decrypt skA (yct_spoilt "B" ct) = Ok "m" /\ yct_decrypt skB (yct_spoilt "B" ct) = Err.
Proof.
  anew_steps (' (pk, msk) <- anew (ztape 3) (yct_setup (C := ZC) ["A"; "B"]) ;;
    skA <- anew (ztape 5) (yct_keygen msk PolA HumanPolicy) ;;
    skB <- anew (ztape 6) (yct_keygen msk PolB HumanPolicy) ;;
    ct <- anew (ztape 7) (yct_encrypt nc pk ["A"; "B"] "m") ;;
    rret (yct_decrypt skA (yct_spoilt "B" ct), yct_decrypt skB (yct_spoilt "B" ct))) (@Ok string "m", @Err string).
  give; congruence.
Qed.
Print Assumptions C151_yct_agree_refuted.

Theorem C151_aw_agree_refuted : exists (gk : aw_gk ZC) i pk msk j skA skB ct m,
  aw_setup (C := ZC) (ztape 3) 0 = Ok (gk, i) /\ aw_authgen gk ["A"; "B"] (ztape 4) 0 = Ok (Some (pk, msk), j) /\
  aw_keygen gk msk "ann" ["A"] = Ok skA /\ aw_keygen gk msk "bob" ["B"] = Ok skB /\
  aw_encrypt nc gk [pk] AorB HumanPolicy "m" (ztape 7) 0 = Ok (ct, m) /\
  aw_decrypt gk skA (aw_spoilt "B" ct) = Ok "m" /\ aw_decrypt gk skB (aw_spoilt "B" ct) = Err.
Proof.
  anew_steps (gk <- anew (ztape 3) (aw_setup (C := ZC)) ;;
    ao <- anew (ztape 4) (aw_authgen gk ["A"; "B"]) ;; ' (pk, msk) <- rlift (unwrap ao) ;;
    skA <- rlift (aw_keygen gk msk "ann" ["A"]) ;; skB <- rlift (aw_keygen gk msk "bob" ["B"]) ;;
    ct <- anew (ztape 7) (aw_encrypt nc gk [pk] AorB HumanPolicy "m") ;;
    rret (aw_decrypt gk skA (aw_spoilt "B" ct), aw_decrypt gk skB (aw_spoilt "B" ct))) (@Ok string "m", @Err string).
  give; congruence.
Qed.
Print Assumptions C151_aw_agree_refuted.

Theorem C151_cp_agree_refuted : exists (pk : ac_pk ZC) msk i skA j skB k ct m,
  ac_setup (C := ZC) (ztape 3) 0 = Ok (pk, msk, i) /\
  cp_keygen msk ["A"] (ztape 5) 0 = Ok (skA, j) /\ cp_keygen msk ["B"] (ztape 6) 0 = Ok (skB, k) /\
  cp_encrypt nc pk AorB "m" HumanPolicy (ztape 7) 0 = Ok (ct, m) /\
  cp_decrypt skA (cp_spoilt "B" ct) = Ok "m" /\ cp_decrypt skB (cp_spoilt "B" ct) = Err.
Proof.
  anew_steps (' (pk, msk) <- anew (ztape 3) (ac_setup (C := ZC)) ;;
    skA <- anew (ztape 5) (cp_keygen msk ["A"]) ;; skB <- anew (ztape 6) (cp_keygen msk ["B"]) ;;
    ct <- anew (ztape 7) (cp_encrypt nc pk AorB "m" HumanPolicy) ;;
    rret (cp_decrypt skA (cp_spoilt "B" ct), cp_decrypt skB (cp_spoilt "B" ct))) (@Ok string "m", @Err string).
  give; congruence.
Qed.
Print Assumptions C151_cp_agree_refuted.

Theorem C151_kp_agree_refuted : exists (pk : ac_pk ZC) msk i skA j skB k ct m,
  ac_setup (C := ZC) (ztape 3) 0 = Ok (pk, msk, i) /\
  kp_keygen msk PolA HumanPolicy (ztape 5) 0 = Ok (skA, j) /\ kp_keygen msk PolB HumanPolicy (ztape 6) 0 = Ok (skB, k) /\
  kp_encrypt nc pk ["A"; "B"] "m" (ztape 7) 0 = Ok (ct, m) /\
  kp_decrypt skA (kp_spoilt "B" ct) = Ok "m" /\ kp_decrypt skB (kp_spoilt "B" ct) = Err.
Proof.
  anew_steps (' (pk, msk) <- anew (ztape 3) (ac_setup (C := ZC)) ;;
    skA <- anew (ztape 5) (kp_keygen msk PolA HumanPolicy) ;;
    skB <- anew (ztape 6) (kp_keygen msk PolB HumanPolicy) ;;
    ct <- anew (ztape 7) (kp_encrypt nc pk ["A"; "B"] "m") ;;
    rret (kp_decrypt skA (kp_spoilt "B" ct), kp_decrypt skB (kp_spoilt "B" ct))) (@Ok string "m", @Err string).
  give; congruence.
Qed.
Print Assumptions C151_kp_agree_refuted.
