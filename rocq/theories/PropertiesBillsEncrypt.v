(** * PropertiesBillsEncrypt: the cost of encryption (C146)

    An encryption of the model is run in [tally C] of Bills.v on public keys
    whose elements have empty bills.  Every element of the ciphertext then shows
    with how many pairings and powers it was made, and the sealed bytes show the
    bill of the payload key.  As Crypto.v models them, a random element of [Gt]
    is a pairing and a power, one of [G1] or [G2] a power, and a hash into a
    group a power.  A value that is used twice is billed twice. *)
From Coq Require Import String List Bool Arith ZArith.
From Verif Require Import Base Crypto Policy Msp Parse Symmetric Bdabe Mke08 Bsw Ghw11 Lsw Ac17 Aw11.
From Verif Require Import Spec Instance Witnesses Bills BillsEncrypt BillsEncryptProofs.
Import ListNotations.
Local Open Scope nat_scope.
Local Open Scope string_scope.

(** C146: BSW: one pairing, which is that of the random element of [Gt], and per leaf three powers. *)
Theorem C146_bsw :
  forall (C : crypto) nonce (pk : bsw_pk C) pol lang data t i ct j,
  bsw_encrypt (C := (tally C)) nonce (t_bsw_pk pk) pol lang data t i = Ok (ct, j) ->
  snd (bct_c ct) = 1 /\ snd (bct_cp ct) = (1, 2) /\
  Forall (fun y : battr (tally C) => snd (b_g1 y) = 1 /\ snd (b_g2 y) = 2) (bct_cy ct) /\
  bct_data ct = (nonce ++ bill 1 1)%string.
Proof. exact @bsw_encrypt_bill. Qed.
Print Assumptions C146_bsw.

(** C146: GHW11: one pairing, which is that of the random element, and per leaf four powers. *)
Theorem C146_ghw :
  forall (C : crypto) nonce (pk : ghw_pk C) pol lang data t i ct j,
  ghw_encrypt (C := (tally C)) nonce (t_ghw_pk pk) pol lang data t i = Ok (ct, j) ->
  snd (gct_c ct) = (1, 2) /\ snd (gct_c1 ct) = 1 /\
  Forall (fun y : string * (G1 (tally C) * G1 (tally C)) => snd (fst (snd y)) = 3 /\ snd (snd (snd y)) = 1) (gct_cidi ct) /\
  gct_data ct = (nonce ++ bill 1 1)%string.
Proof. exact @ghw_encrypt_bill. Qed.
Print Assumptions C146_ghw.

(** C146: LSW: one pairing, and per attribute five powers. *)
Theorem C146_lsw :
  forall (C : crypto) nonce (pk : lsw_pk C) attrs data t i ct j,
  lsw_encrypt (C := (tally C)) nonce (t_lsw_pk pk) attrs data t i = Ok (ct, j) ->
  snd (lct_e1 ct) = (1, 2) /\ snd (lct_e2 ct) = 1 /\
  Forall (fun y : lsw_ej (tally C) => snd (le_1 y) = 2 /\ snd (le_2 y) = 1 /\ snd (le_3 y) = 2) (lct_ej ct) /\
  lct_ct ct = (nonce ++ bill 1 1)%string.
Proof. exact @lsw_encrypt_bill. Qed.
Print Assumptions C146_lsw.

(** C146: AC17, ciphertext policy: one pairing.  Each of the three elements of a row of the matrix of the
    policy costs four powers and two for each entry of the row that is not zero. *)
Theorem C146_ac17_cp :
  forall (C : crypto) nonce (pk : ac_pk C) pol lang data t i ct j f msp,
  parse pol lang = Ok (tree f) -> binary_and f = true -> calculate_msp (tree f) = Ok msp ->
  cp_encrypt (C := (tally C)) nonce (t_ac_pk pk) pol data lang t i = Ok (ct, j) ->
  Forall (fun g : G2 (tally C) => snd g = 1) (act_c0 (acp_ct ct)) /\
  Forall2 (fun (row : list Z) (y : string * list (G1 (tally C))) =>
    length (snd y) = 3 /\ Forall (fun g : G1 (tally C) => snd g = 4 + 2 * nonzero row) (snd y)) (msp_m msp) (act_c (acp_ct ct)) /\
  snd (act_cp (acp_ct ct)) = (1, 3) /\
  act_ct (acp_ct ct) = (nonce ++ bill 1 1)%string.
Proof. exact @cp_encrypt_bill. Qed.
Print Assumptions C146_ac17_cp.

(** C146: AC17, key policy: one pairing, and for each of the three elements of an attribute four powers. *)
Theorem C146_ac17_kp :
  forall (C : crypto) nonce (pk : ac_pk C) attrs data t i ct j,
  kp_encrypt (C := (tally C)) nonce (t_ac_pk pk) attrs data t i = Ok (ct, j) ->
  Forall (fun g : G2 (tally C) => snd g = 1) (act_c0 (akp_ct ct)) /\
  Forall (fun y : string * list (G1 (tally C)) => length (snd y) = 3 /\ Forall (fun g : G1 (tally C) => snd g = 4) (snd y)) (act_c (akp_ct ct)) /\
  snd (act_cp (akp_ct ct)) = (1, 3) /\
  act_ct (akp_ct ct) = (nonce ++ bill 1 1)%string.
Proof. exact @kp_encrypt_bill. Qed.
Print Assumptions C146_ac17_kp.

(** C146: AW11: a pairing for every leaf with a public key, one for the payload and that of the random element;
    per leaf five powers. *)
Theorem C146_aw11 :
  forall (C : crypto) nonce (gk : aw_gk C) (pks : list (aw_pk C)) pol lang data t i ct j,
  aw_encrypt (C := (tally C)) nonce (t_aw_gk gk) (map t_aw_pk pks) pol lang data t i = Ok (ct, j) ->
  snd (awct_c0 ct) = (2, 2) /\
  Forall (fun y : string * GT (tally C) * G2 (tally C) * G2 (tally C) =>
    snd (snd (fst (fst y))) = (1, 2) /\ snd (snd (fst y)) = 1 /\ snd (snd y) = 2) (awct_c ct) /\
  awct_data ct = (nonce ++ bill 1 1)%string.
Proof. exact @aw_encrypt_bill. Qed.
Print Assumptions C146_aw11.

(** C146: BDABE: the payload key is a pairing of two random elements, and every conjunction adds five powers to it. *)
Theorem C146_bdabe :
  forall (C : crypto) nonce (pk : bd_pk C) (apks : list (bd_apk C)) pol lang data t i ct j,
  bd_encrypt (C := (tally C)) nonce (t_bd_pk pk) (map t_bd_apk apks) pol lang data t i = Ok (ct, j) ->
  Forall (fun y : bd_tuple (tally C) =>
    snd (bt_e1 y) = (1, 3) /\ snd (bt_e2 y) = 1 /\ snd (bt_e3 y) = 1 /\ snd (bt_e4 y) = 1 /\ snd (bt_e5 y) = 1)
    (Bdabe.bct_j ct) /\
  Bdabe.bct_data ct = (nonce ++ bill 1 2)%string.
Proof. exact @bd_encrypt_bill. Qed.
Print Assumptions C146_bdabe.

(** C146: MKE08: the same with a second payload, a power of the first.  The key of the payload uses the
    pairing twice and so has it twice on its bill. *)
Theorem C146_mke08 :
  forall (C : crypto) nonce (pk : mk_pk C) (apks : list (mk_apk C)) pol lang data t i ct j,
  mk_encrypt (C := (tally C)) nonce (t_mk_pk pk) (map t_mk_apk apks) pol lang data t i = Ok (ct, j) ->
  Forall (fun y : mk_conj (tally C) =>
    snd (mj_1 y) = (1, 3) /\ snd (mj_2 y) = (1, 4) /\
    snd (mj_3 y) = 1 /\ snd (mj_4 y) = 1 /\ snd (mj_5 y) = 1 /\ snd (mj_6 y) = 1) (mct_e ct) /\
  mct_data ct = (nonce ++ bill 2 5)%string.
Proof. exact @mk_encrypt_bill. Qed.
Print Assumptions C146_mke08.

(** Nothing but the bills of a run. *)
Definition only {A B} (f : A -> B) (r : outcome (A * nat)) : outcome B :=
  match r with Ok (x, _) => Ok (f x) | Err => Err | Panic => Panic end.
Local Open Scope rand_scope.
Notation TZ := (tally ZC).

Definition bsw_paid (pol : string) :=
  only (fun c : bsw_ct TZ => (snd (bct_c c), snd (bct_cp c), map (fun y : battr TZ => (snd (b_g1 y), snd (b_g2 y))) (bct_cy c), bct_data c))
    ((' (pk, msk) <- bsw_setup (C := ZC) ;; bsw_encrypt (C := TZ) nc (t_bsw_pk pk) pol HumanPolicy "hello") (ztape 3%Z) 0).
Definition ghw_paid (pol : string) :=
  only (fun c : ghw_ct TZ => (snd (gct_c c), snd (gct_c1 c), map (fun y : string * (G1 TZ * G1 TZ) => (snd (fst (snd y)), snd (snd (snd y)))) (gct_cidi c)))
    ((' (pk, msk) <- ghw_setup (C := ZC) ;; ghw_encrypt (C := TZ) nc (t_ghw_pk pk) pol HumanPolicy "hello") (ztape 3%Z) 0).
Definition lsw_paid (attrs : list string) :=
  only (fun c : lsw_ct TZ => (snd (lct_e1 c), snd (lct_e2 c), map (fun y : lsw_ej TZ => (snd (le_1 y), snd (le_2 y), snd (le_3 y))) (lct_ej c)))
    ((' (pk, msk) <- lsw_setup (C := ZC) ;; lsw_encrypt (C := TZ) nc (t_lsw_pk pk) attrs "hello") (ztape 3%Z) 0).
Definition cp_paid (pol : string) :=
  only (fun c : ac_cpct TZ => (map (fun g : G2 TZ => snd g) (act_c0 (acp_ct c)), map (fun y : string * list (G1 TZ) => map (fun g : G1 TZ => snd g) (snd y)) (act_c (acp_ct c)), snd (act_cp (acp_ct c))))
    ((' (pk, msk) <- ac_setup (C := ZC) ;; cp_encrypt (C := TZ) nc (t_ac_pk pk) pol "hello" HumanPolicy) (ztape 3%Z) 0).
Definition kp_paid (attrs : list string) :=
  only (fun c : ac_kpct TZ => (map (fun g : G2 TZ => snd g) (act_c0 (akp_ct c)), map (fun y : string * list (G1 TZ) => map (fun g : G1 TZ => snd g) (snd y)) (act_c (akp_ct c)), snd (act_cp (akp_ct c))))
    ((' (pk, msk) <- ac_setup (C := ZC) ;; kp_encrypt (C := TZ) nc (t_ac_pk pk) attrs "hello") (ztape 3%Z) 0).
Definition aw_paid (pol : string) :=
  only (fun c : aw_ct TZ => (snd (awct_c0 c), map (fun y : string * GT TZ * G2 TZ * G2 TZ => (snd (snd (fst (fst y))), snd (snd (fst y)), snd (snd y))) (awct_c c)))
    ((gk <- aw_setup (C := ZC) ;;
      ko <- aw_authgen gk ["A"; "B"] ;;
      ' (pk, msk) <- rlift (unwrap ko) ;;
      aw_encrypt (C := TZ) nc (t_aw_gk gk) [t_aw_pk pk] pol HumanPolicy "hello") (ztape 3%Z) 0).
Definition bd_paid (pubs : list string) (pol : string) :=
  only (fun c : bd_ct TZ => (map (fun y : bd_tuple TZ => (snd (bt_e1 y), snd (bt_e4 y))) (Bdabe.bct_j c), Bdabe.bct_data c))
    ((' (pk, msk) <- bd_setup (C := ZC) ;;
      au <- bd_authgen pk msk "aa" ;;
      apks <- rlift (omap (bd_request_pk pk au) pubs) ;;
      bd_encrypt (C := TZ) nc (t_bd_pk pk) (map t_bd_apk apks) pol HumanPolicy "hello") (ztape 3%Z) 0).
Definition mk_paid (pubs : list string) (pol : string) :=
  only (fun c : mk_ct TZ => (map (fun y : mk_conj TZ => (snd (mj_1 y), snd (mj_2 y), snd (mj_5 y))) (mct_e c), mct_data c))
    ((' (pk, msk) <- mk_setup (C := ZC) ;;
      au <- mk_authgen "aa" ;;
      apks <- rlift (omap (fun a => mk_request_pk pk a au) pubs) ;;
      mk_encrypt (C := TZ) nc (t_mk_pk pk) (map t_mk_apk apks) pol HumanPolicy "hello") (ztape 3%Z) 0).

(** Under the policy of C01, an [and] with an [or] below it; AW11 has no public key for its last leaf.  The
    rows of its matrix are (1, 1), (0, -1), (0, -1). *)
Example C146_example :
  parse P HumanPolicy = Ok (tree fP) /\ binary_and fP = true /\
  obind (calculate_msp (tree fP)) (fun m => Ok (map nonzero (msp_m m))) = Ok [2; 1; 1] /\
  bsw_paid P = Ok (1, (1, 2), [(1, 2); (1, 2); (1, 2)], nc ++ "1 pairings, 1 powers") /\
  ghw_paid P = Ok ((1, 2), 1, [(3, 1); (3, 1); (3, 1)]) /\
  lsw_paid ["A"; "C"] = Ok ((1, 2), 1, [(2, 1, 2); (2, 1, 2)]) /\
  cp_paid P = Ok ([1; 1; 1], [[8; 8; 8]; [6; 6; 6]; [6; 6; 6]], (1, 3)) /\
  kp_paid ["A"; "C"] = Ok ([1; 1; 1], [[4; 4; 4]; [4; 4; 4]], (1, 3)) /\
  aw_paid P = Ok ((2, 2), [((1, 2), 1, 2); ((1, 2), 1, 2)]).
Proof. repeat apply conj; vm_compute; reflexivity. Qed.

Example C146_example_conjunctions :
  bd_paid ["aa::A"; "aa::B"] """aa::A"" and ""aa::B""" = Ok ([((1, 3), 1)], nc ++ "1 pairings, 2 powers") /\
  mk_paid ["aa::A"; "aa::B"] """aa::A"" and ""aa::B""" = Ok ([((1, 3), (1, 4), 1)], nc ++ "2 pairings, 5 powers").
Proof. repeat apply conj; vm_compute; reflexivity. Qed.
