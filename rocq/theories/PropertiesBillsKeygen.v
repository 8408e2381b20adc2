(** * PropertiesBillsKeygen: the cost of key generation (C148)

    Counted as in C127 and C146: the functions of the model are run in
    [tally C] of Bills.v on keys whose elements have empty bills.  Elements of
    [G1] and [G2] count powers, those of [Gt] pairings and powers.  A value that
    is used twice is billed twice. *)
From Coq Require Import String List Bool Arith ZArith.
From Verif Require Import Base Crypto Policy Tools Msp Parse Symmetric Bdabe Mke08 Bsw Ghw11 Lsw Ac17 Aw11.
From Verif Require Import Spec Instance Witnesses Bills BillsEncrypt BillsKeygen BillsKeygenProofs.
Import ListNotations.
Local Open Scope nat_scope.
Local Open Scope string_scope.

(** C148: BSW: two powers for [d], and four for each attribute. *)
Theorem C148_bsw :
  forall (C : crypto) (pk : bsw_pk C) (msk : bsw_msk C) attrs t i sk j,
  bsw_keygen (C := tally C) (t_bsw_pk pk) (t_bsw_msk msk) attrs t i = Ok (Some sk, j) ->
  snd (bsk_d sk) = 2 /\ Forall (fun y : battr (tally C) => snd (b_g1 y) = 1 /\ snd (b_g2 y) = 3) (bsk_dj sk).
Proof. exact @bsw_keygen_bill. Qed.
Print Assumptions C148_bsw.

(** C148: BSW, delegation: one power for [d], and four for each attribute of the subset. *)
Theorem C148_bsw_delegate :
  forall (C : crypto) (pk : bsw_pk C) (sk : bsw_sk C) subset t i sk' j,
  bsw_delegate (C := tally C) (t_bsw_pk pk) (t_bsw_sk sk) subset t i = Ok (Some sk', j) ->
  snd (bsk_d sk') = 1 /\ Forall (fun y : battr (tally C) => snd (b_g1 y) = 1 /\ snd (b_g2 y) = 3) (bsk_dj sk').
Proof. exact @bsw_delegate_bill. Qed.
Print Assumptions C148_bsw_delegate.

(** C148: GHW11: two powers, and two for each attribute. *)
Theorem C148_ghw :
  forall (C : crypto) (pk : ghw_pk C) (g : G2 C) pk' attrs t i sk j,
  ghw_keygen (C := tally C) (t_ghw_pk pk) (GhwMsk (e2 g) pk') attrs t i = Ok (Some sk, j) ->
  snd (gsk_k sk) = 1 /\ snd (gsk_l sk) = 1 /\ Forall (fun y : string * G2 (tally C) => snd (snd y) = 2) (gsk_attr sk).
Proof. exact @ghw_keygen_bill. Qed.
Print Assumptions C148_ghw.

(** C148: GHW11, transform key: a power for every element of the secret key. *)
Theorem C148_ghw_transform :
  forall (C : crypto) (sk : ghw_sk C) t i tk z j,
  ghw_tkgen (C := tally C) (t_ghw_sk sk) t i = Ok ((tk, z), j) ->
  snd (gtk_k tk) = 1 /\ snd (gtk_l tk) = 1 /\ Forall (fun y : string * G2 (tally C) => snd (snd y) = 1) (gtk_attr tk).
Proof. exact @ghw_tkgen_bill. Qed.
Print Assumptions C148_ghw_transform.

(** C148: LSW: five powers for a negated leaf, four for another one. *)
Theorem C148_lsw :
  forall (C : crypto) (pk : lsw_pk C) (msk : lsw_msk C) pol lang t i sk j,
  lsw_keygen (C := tally C) (t_lsw_pk pk) (t_lsw_msk msk) pol lang t i = Ok (sk, j) ->
  Forall (fun y : lsw_dj (tally C) => exists neg, is_negative (ld_name y) = Ok neg /\
    (snd (ld_1 y), snd (ld_2 y), snd (ld_3 y), snd (ld_4 y), snd (ld_5 y)) =
    if neg : bool then (0, 0, 2, 2, 1) else (3, 1, 0, 0, 0)) (lsk_dj sk).
Proof. exact @lsw_keygen_bill. Qed.
Print Assumptions C148_lsw.

(** C148: AW11, authority: a pairing for every attribute, of the same two elements each time, and two powers. *)
Theorem C148_aw11_authority :
  forall (C : crypto) (gk : aw_gk C) attrs t i pk msk j,
  aw_authgen (C := tally C) (t_aw_gk gk) attrs t i = Ok (Some (pk, msk), j) ->
  Forall (fun y : string * GT (tally C) * G2 (tally C) => snd (snd (fst y)) = (1, 1) /\ snd (snd y) = 1) (apk_attr pk).
Proof. exact @aw_authgen_bill. Qed.
Print Assumptions C148_aw11_authority.

(** C148: AW11: three powers for each attribute. *)
Theorem C148_aw11 :
  forall (C : crypto) (gk : aw_gk C) (msk : aw_msk (tally C)) name attrs sk,
  aw_keygen (C := tally C) (t_aw_gk gk) msk name attrs = Ok sk ->
  Forall (fun y : string * G1 (tally C) => snd (snd y) = 3) (awsk_attr sk).
Proof. exact @aw_keygen_bill. Qed.
Print Assumptions C148_aw11.

(** C148: BDABE: a power for every element of a key, and no pairing after the setup. *)
Theorem C148_bdabe :
  forall (C : crypto) (pk : bd_pk C) (msk : bd_msk (tally C)) (au : bd_auth C) (upk : bd_upk C),
  (forall name t i a j, bd_authgen (C := tally C) (t_bd_pk pk) msk name t i = Ok (a, j) ->
    snd (bau_a1 a) = 1 /\ snd (bau_a2 a) = 1) /\
  (forall name t i uk j, bd_keygen (C := tally C) (t_bd_pk pk) (t_bd_auth au) name t i = Ok (uk, j) ->
    snd (busk_u1 (buk_sk uk)) = 1 /\ snd (busk_u2 (buk_sk uk)) = 1 /\
    snd (bupk_u1 (buk_pk uk)) = 1 /\ snd (bupk_u2 (buk_pk uk)) = 1) /\
  (forall attr k, bd_request_pk (C := tally C) (t_bd_pk pk) (t_bd_auth au) attr = Ok k ->
    snd (bapk_a1 k) = 1 /\ snd (bapk_a2 k) = 1 /\ snd (bapk_a3 k) = (0, 1)) /\
  (forall attr k, bd_request_sk (C := tally C) (t_bd_upk upk) (t_bd_auth au) attr = Ok k ->
    snd (bask_au1 k) = 1 /\ snd (bask_au2 k) = 1).
Proof. exact @bd_keys_bill. Qed.
Print Assumptions C148_bdabe.

(** C148: MKE08: the same. *)
Theorem C148_mke08 :
  forall (C : crypto) (pk : mk_pk C) (msk : mk_msk C) (au : mk_auth (tally C)) (upk : mk_upk C),
  (forall name t i uk j, mk_keygen (C := tally C) (t_mk_pk pk) (t_mk_msk msk) name t i = Ok (uk, j) ->
    snd (musk_g1 (muk_sk uk)) = 1 /\ snd (musk_g2 (muk_sk uk)) = 1 /\
    snd (mupk_g1 (muk_pk uk)) = 1 /\ snd (mupk_g2 (muk_pk uk)) = 1) /\
  (forall attr k, mk_request_pk (C := tally C) (t_mk_pk pk) attr au = Ok k ->
    snd (mapk_g1 k) = 1 /\ snd (mapk_g2 k) = 1 /\ snd (mapk_gt1 k) = (0, 1) /\ snd (mapk_gt2 k) = (0, 1)) /\
  (forall attr k, mk_request_sk (C := tally C) (t_mk_upk upk) attr au = Ok k ->
    snd (mask_g1 k) = 1 /\ snd (mask_g2 k) = 1).
Proof. exact @mk_keys_bill. Qed.
Print Assumptions C148_mke08.

(** C148: AC17, ciphertext policy: seven, seven and one power for each attribute and for the part without one. *)
Theorem C148_ac17_cp :
  forall (C : crypto) (msk : ac_msk C) attrs t i sk j,
  cp_keygen (C := tally C) (t_ac_msk msk) attrs t i = Ok (sk, j) ->
  Forall (fun g : G2 (tally C) => snd g = 1) (ask_k0 (acps_sk sk)) /\
  Forall (fun y : string * list (G1 (tally C)) => map (fun g : G1 (tally C) => snd g) (snd y) = [7; 7; 1]) (ask_k (acps_sk sk)) /\
  map (fun g : G1 (tally C) => snd g) (ask_kp (acps_sk sk)) = [7; 7; 1].
Proof. exact @cp_keygen_bill. Qed.
Print Assumptions C148_ac17_cp.

(** C148: AC17, key policy: the sum over the columns is carried from one column to the next
    (/repo/src/schemes/ac17/mod.rs:499-518), so column [k] of a row enters with [7 * k] powers. *)
Theorem C148_ac17_kp :
  forall (C : crypto) (msk : ac_msk C) pol lang t i sk j f msp,
  parse pol lang = Ok (tree f) -> binary_and f = true -> calculate_msp (tree f) = Ok msp ->
  kp_keygen (C := tally C) (t_ac_msk msk) pol lang t i = Ok (sk, j) ->
  Forall (fun g : G2 (tally C) => snd g = 1) (ask_k0 (akps_sk sk)) /\
  Forall2 (fun (row : list Z) (y : string * list (G1 (tally C))) =>
    map (fun g : G1 (tally C) => snd g) (snd y) = [7 + climb 1 (tl row); 7 + climb 1 (tl row); 1 + nonzero (tl row)])
    (msp_m msp) (ask_k (akps_sk sk)).
Proof. exact @kp_keygen_bill. Qed.
Print Assumptions C148_ac17_kp.

(** Nothing but the bills of a run. *)
Definition only {A B} (f : A -> B) (r : outcome (A * nat)) : outcome B :=
  match r with Ok (x, _) => Ok (f x) | Err => Err | Panic => Panic end.
Local Open Scope rand_scope.
Notation TZ := (tally ZC).
Definition dj_bills (l : list (battr TZ)) := map (fun y : battr TZ => (snd (b_g1 y), snd (b_g2 y))) l.

Definition bsw_spent (attrs : list string) :=
  only (option_map (fun k : bsw_sk TZ => (snd (bsk_d k), dj_bills (bsk_dj k))))
    ((' (pk, msk) <- bsw_setup (C := ZC) ;; bsw_keygen (C := TZ) (t_bsw_pk pk) (t_bsw_msk msk) attrs) (ztape 3%Z) 0).
Definition bsw_delegated (attrs subset : list string) :=
  only (option_map (fun k : bsw_sk TZ => (snd (bsk_d k), dj_bills (bsk_dj k))))
    ((' (pk, msk) <- bsw_setup (C := ZC) ;;
      ko <- bsw_keygen pk msk attrs ;;
      sk <- rlift (unwrap ko) ;;
      bsw_delegate (C := TZ) (t_bsw_pk pk) (t_bsw_sk sk) subset) (ztape 3%Z) 0).
Definition lsw_spent (pol : string) :=
  only (fun k : lsw_sk TZ => map (fun y : lsw_dj TZ => [snd (ld_1 y); snd (ld_2 y); snd (ld_3 y); snd (ld_4 y); snd (ld_5 y)]) (lsk_dj k))
    ((' (pk, msk) <- lsw_setup (C := ZC) ;; lsw_keygen (C := TZ) (t_lsw_pk pk) (t_lsw_msk msk) pol HumanPolicy) (ztape 3%Z) 0).
Definition cp_spent (attrs : list string) :=
  only (fun k : ac_cpsk TZ => (map (fun g : G2 TZ => snd g) (ask_k0 (acps_sk k)),
      map (fun y : string * list (G1 TZ) => map (fun g : G1 TZ => snd g) (snd y)) (ask_k (acps_sk k)),
      map (fun g : G1 TZ => snd g) (ask_kp (acps_sk k))))
    ((' (pk, msk) <- ac_setup (C := ZC) ;; cp_keygen (C := TZ) (t_ac_msk msk) attrs) (ztape 3%Z) 0).
Definition kp_spent (pol : string) :=
  only (fun k : ac_kpsk TZ =>
      map (fun y : string * list (G1 TZ) => map (fun g : G1 TZ => snd g) (snd y)) (ask_k (akps_sk k)))
    ((' (pk, msk) <- ac_setup (C := ZC) ;; kp_keygen (C := TZ) (t_ac_msk msk) pol HumanPolicy) (ztape 3%Z) 0).

(** The last policy has a row (1, 1, 0), a row (0, -1, 1) and a row (0, 0, -1). *)
Example C148_example :
  bsw_spent ["A"; "B"] = Ok (Some (2, [(1, 3); (1, 3)])) /\
  bsw_delegated ["A"; "B"] ["B"] = Ok (Some (1, [(1, 3)])) /\
  lsw_spent """!A"" or ""B""" = Ok [[0; 0; 2; 2; 1]; [3; 1; 0; 0; 0]] /\
  cp_spent ["A"] = Ok ([1; 1; 1], [[7; 7; 1]], [7; 7; 1]) /\
  parse P HumanPolicy = Ok (tree fP) /\ binary_and fP = true /\
  obind (calculate_msp (tree fP)) (fun m => Ok (msp_m m)) = Ok [[1; 1]; [0; -1]; [0; -1]]%Z /\
  kp_spent P = Ok [[14; 14; 2]; [14; 14; 2]; [14; 14; 2]] /\
  kp_spent """A"" and (""B"" and ""C"")" = Ok [[14; 14; 2]; [28; 28; 3]; [21; 21; 2]].
Proof. repeat apply conj; vm_compute; reflexivity. Qed.

Definition ghw_spent (attrs : list string) :=
  only (option_map (fun k : ghw_sk TZ => (snd (gsk_k k), snd (gsk_l k), map (fun y : string * G2 TZ => snd (snd y)) (gsk_attr k))))
    ((' (pk, msk) <- ghw_setup (C := ZC) ;;
      ghw_keygen (C := TZ) (t_ghw_pk pk) (GhwMsk (e2 (gmsk_g2al msk)) (t_ghw_pk pk)) attrs) (ztape 3%Z) 0).
Definition ghw_transformed (attrs : list string) :=
  only (fun r : ghw_tk TZ * F TZ => (snd (gtk_k (fst r)), snd (gtk_l (fst r)), map (fun y : string * G2 TZ => snd (snd y)) (gtk_attr (fst r))))
    ((' (pk, msk) <- ghw_setup (C := ZC) ;;
      ko <- ghw_keygen pk msk attrs ;;
      sk <- rlift (unwrap ko) ;;
      ghw_tkgen (C := TZ) (t_ghw_sk sk)) (ztape 3%Z) 0).
Definition aw_spent (attrs : list string) (subset : list string) :=
  only (fun r : list (nat * nat * nat) * list nat => r)
    ((gk <- aw_setup (C := ZC) ;;
      ko <- aw_authgen (C := TZ) (t_aw_gk gk) attrs ;;
      ' (pk, msk) <- rlift (unwrap ko) ;;
      sk <- rlift (aw_keygen (C := TZ) (t_aw_gk gk) msk "bob" subset) ;;
      rret (map (fun y : string * GT TZ * G2 TZ => (snd (snd (fst y)), snd (snd y))) (apk_attr pk),
            map (fun y : string * G1 TZ => snd (snd y)) (awsk_attr sk))) (ztape 3%Z) 0).
Definition bd_spent :=
  only (fun r : list nat => r)
    ((' (pk, msk) <- bd_setup (C := ZC) ;;
      au <- bd_authgen pk msk "aa" ;;
      ta <- bd_authgen (C := TZ) (t_bd_pk pk) (@BdMsk TZ (bmsk_y msk)) "aa" ;;
      uk <- bd_keygen pk au "bob" ;;
      tu <- bd_keygen (C := TZ) (t_bd_pk pk) (t_bd_auth au) "bob" ;;
      apk <- rlift (bd_request_pk (C := TZ) (t_bd_pk pk) (t_bd_auth au) "aa::A") ;;
      ask <- rlift (bd_request_sk (C := TZ) (t_bd_upk (buk_pk uk)) (t_bd_auth au) "aa::A") ;;
      rret [snd (bau_a1 ta); snd (busk_u1 (buk_sk tu)); snd (bupk_u2 (buk_pk tu)); snd (bapk_a1 apk); snd (snd (bapk_a3 apk)); snd (bask_au1 ask)])
      (ztape 3%Z) 0).
Definition mk_spent :=
  only (fun r : list nat => r)
    ((' (pk, msk) <- mk_setup (C := ZC) ;;
      au <- mk_authgen (C := TZ) "aa" ;;
      uk <- mk_keygen pk msk "bob" ;;
      tu <- mk_keygen (C := TZ) (t_mk_pk pk) (t_mk_msk msk) "bob" ;;
      apk <- rlift (mk_request_pk (C := TZ) (t_mk_pk pk) "aa::A" au) ;;
      ask <- rlift (mk_request_sk (C := TZ) (t_mk_upk (muk_pk uk)) "aa::A" au) ;;
      rret [snd (musk_g1 (muk_sk tu)); snd (mupk_g2 (muk_pk tu)); snd (mapk_g1 apk); snd (snd (mapk_gt2 apk)); snd (mask_g1 ask)])
      (ztape 3%Z) 0).

Example C148_example_others :
  ghw_spent ["A"; "B"] = Ok (Some (1, 1, [2; 2])) /\
  ghw_transformed ["A"; "B"] = Ok (1, 1, [1; 1]) /\
  aw_spent ["A"; "B"] ["B"] = Ok ([((1, 1), 1); ((1, 1), 1)], [3]) /\
  bd_spent = Ok [1; 1; 1; 1; 1; 1] /\ mk_spent = Ok [1; 1; 1; 1; 1].
Proof. repeat apply conj; vm_compute; reflexivity. Qed.
