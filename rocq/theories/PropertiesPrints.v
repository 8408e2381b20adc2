(** * PropertiesPrints: C133: what the library prints

    The functions of Prints.v give the lines printed and the result.  [plainly pest pol lang m o]: [m] has the
    result [o] of the function of the other files; if the policy [pol] cannot be read, that result is an
    error and one line is printed; otherwise nothing is printed.  The proofs are in PrintsProofs.v. *)
From Coq Require Import String Ascii List Bool Arith ZArith Lia.
From Verif Require Import Base Crypto Policy Tools Sharing Spec Parse Dnf Files Bdabe Mke08 Bsw Ghw11 Lsw Yct14
  Ac17 Aw11 TruncationProofs Prints PrintsProofs Instance Witnesses.
Import ListNotations.
Local Open Scope string_scope.

Theorem C133_bsw_encrypt :
  forall (C : crypto) pest nonce (pk : bsw_pk C) pol lang data t i,
  plainly pest pol lang (said_bsw_encrypt pest nonce pk pol lang data t i) (bsw_encrypt nonce pk pol lang data t i).
Proof. exact @bsw_encrypt_said. Qed.
Print Assumptions C133_bsw_encrypt.

Theorem C133_bsw_decrypt :
  forall (C : crypto) pest (sk : bsw_sk C) ct,
  plainly pest (fst (Bsw.bct_policy ct)) (snd (Bsw.bct_policy ct)) (said_bsw_decrypt pest sk ct) (bsw_decrypt sk ct).
Proof. exact @bsw_decrypt_said. Qed.
Print Assumptions C133_bsw_decrypt.

Theorem C133_ghw_encrypt :
  forall (C : crypto) pest nonce (pk : ghw_pk C) pol lang data t i,
  plainly pest pol lang (said_ghw_encrypt pest nonce pk pol lang data t i) (ghw_encrypt nonce pk pol lang data t i).
Proof. exact @ghw_encrypt_said. Qed.
Print Assumptions C133_ghw_encrypt.

Theorem C133_ghw_transform :
  forall (C : crypto) pest (ct : ghw_ct C) tk,
  plainly pest (fst (gct_policy ct)) (snd (gct_policy ct)) (said_ghw_transform pest ct tk) (ghw_transform ct tk).
Proof. exact @ghw_transform_said. Qed.
Print Assumptions C133_ghw_transform.

Theorem C133_lsw_keygen :
  forall (C : crypto) pest (pk : lsw_pk C) msk pol lang t i,
  plainly pest pol lang (said_lsw_keygen pest pk msk pol lang t i) (lsw_keygen pk msk pol lang t i).
Proof. exact @lsw_keygen_said. Qed.
Print Assumptions C133_lsw_keygen.

Theorem C133_lsw_decrypt :
  forall (C : crypto) pest (sk : lsw_sk C) ct,
  plainly pest (fst (lsk_policy sk)) (snd (lsk_policy sk)) (said_lsw_decrypt pest sk ct) (lsw_decrypt sk ct).
Proof. exact @lsw_decrypt_said. Qed.
Print Assumptions C133_lsw_decrypt.

Theorem C133_yct_decrypt :
  forall (C : crypto) pest (sk : yct_sk C) ct,
  plainly pest (fst (ysk_policy sk)) (snd (ysk_policy sk)) (said_yct_decrypt pest sk ct) (yct_decrypt sk ct).
Proof. exact @yct_decrypt_said. Qed.
Print Assumptions C133_yct_decrypt.

Theorem C133_cp_encrypt :
  forall (C : crypto) pest nonce (pk : ac_pk C) pol data lang t i,
  plainly pest pol lang (said_cp_encrypt pest nonce pk pol data lang t i) (cp_encrypt nonce pk pol data lang t i).
Proof. exact @cp_encrypt_said. Qed.
Print Assumptions C133_cp_encrypt.

Theorem C133_cp_decrypt :
  forall (C : crypto) pest (sk : ac_cpsk C) ct,
  plainly pest (fst (acp_policy ct)) (snd (acp_policy ct)) (said_cp_decrypt pest sk ct) (cp_decrypt sk ct).
Proof. exact @cp_decrypt_said. Qed.
Print Assumptions C133_cp_decrypt.

Theorem C133_kp_keygen :
  forall (C : crypto) pest (msk : ac_msk C) pol lang t i,
  plainly pest pol lang (said_kp_keygen pest msk pol lang t i) (kp_keygen msk pol lang t i).
Proof. exact @kp_keygen_said. Qed.
Print Assumptions C133_kp_keygen.

Theorem C133_kp_decrypt :
  forall (C : crypto) pest (sk : ac_kpsk C) ct,
  plainly pest (fst (akps_policy sk)) (snd (akps_policy sk)) (said_kp_decrypt pest sk ct) (kp_decrypt sk ct).
Proof. exact @kp_decrypt_said. Qed.
Print Assumptions C133_kp_decrypt.

Theorem C133_aw_encrypt :
  forall (C : crypto) pest nonce (gk : aw_gk C) pks pol lang data t i,
  plainly pest pol lang (said_aw_encrypt pest nonce gk pks pol lang data t i) (aw_encrypt nonce gk pks pol lang data t i).
Proof. exact @aw_encrypt_said. Qed.
Print Assumptions C133_aw_encrypt.

Theorem C133_aw_decrypt :
  forall (C : crypto) pest (gk : aw_gk C) sk ct,
  plainly pest (fst (awct_policy ct)) (snd (awct_policy ct)) (said_aw_decrypt pest gk sk ct) (aw_decrypt gk sk ct).
Proof. exact @aw_decrypt_said. Qed.
Print Assumptions C133_aw_decrypt.

Theorem C133_bd_encrypt :
  forall (C : crypto) pest nonce (pk : bd_pk C) apks pol lang data t i,
  plainly pest pol lang (said_bd_encrypt pest nonce pk apks pol lang data t i) (bd_encrypt nonce pk apks pol lang data t i).
Proof. exact @bd_encrypt_said. Qed.
Print Assumptions C133_bd_encrypt.

Theorem C133_bd_decrypt :
  forall (C : crypto) pest (sk : bd_uk C) ct,
  plainly pest (fst (Bdabe.bct_policy ct)) (snd (Bdabe.bct_policy ct)) (said_bd_decrypt pest sk ct) (bd_decrypt sk ct).
Proof. exact @bd_decrypt_said. Qed.
Print Assumptions C133_bd_decrypt.

Theorem C133_mk_encrypt :
  forall (C : crypto) pest nonce (pk : mk_pk C) apks pol lang data t i,
  plainly pest pol lang (said_mk_encrypt pest nonce pk apks pol lang data t i) (mk_encrypt nonce pk apks pol lang data t i).
Proof. exact @mk_encrypt_said. Qed.
Print Assumptions C133_mk_encrypt.

Theorem C133_mk_decrypt :
  forall (C : crypto) pest (sk : mk_uk C) ct,
  plainly pest (fst (mct_policy ct)) (snd (mct_policy ct)) (said_mk_decrypt pest sk ct) (mk_decrypt sk ct).
Proof. exact @mk_decrypt_said. Qed.
Print Assumptions C133_mk_decrypt.

(** C133: so a call of these that succeeds prints nothing. *)
Theorem C133_silent :
  forall A pest pol lang (m : said A) o x, plainly pest pol lang m o -> o = Ok x -> fst m = [].
Proof. exact @plainly_silent. Qed.
Print Assumptions C133_silent.

(** C133: [policy_in_dnf] prints nothing about a policy that was read. *)
Theorem C133_in_dnf :
  forall v conjunction parent, snd (said_in_dnf v conjunction parent) = policy_in_dnf v conjunction parent /\
  forall pol lang, parse pol lang = Ok v -> fst (said_in_dnf v conjunction parent) = [].
Proof. intros v b p. split; [exact (in_dnf_same v b p)|]. intros pol lang. exact (in_dnf_parsed pol lang v b p). Qed.
Print Assumptions C133_in_dnf.

(** C133: about a list of policies with neither AND nor OR above it, which no text gives, it prints a line. *)
Theorem C133_array :
  forall l conjunction parent, parent <> Some And -> parent <> Some Or ->
  said_in_dnf (PArr l) conjunction parent = (["policy_in_dnf: policy is not in DNF! Array without parent AND or OR."], false).
Proof. intros l b [[| |]|] A O; try reflexivity; congruence. Qed.
Print Assumptions C133_array.

(** C133: [delegate] prints one line exactly when it gives no key, and the line says why. *)
Theorem C133_delegate :
  forall (C : crypto) (pk : bsw_pk C) sk subset t i,
  let m := said_bsw_delegate pk sk subset t i in
  snd m = bsw_delegate pk sk subset t i /\
  ((exists a, In a subset /\ ~ In a (map b_string (bsk_dj sk))) -> fst m = ["Error: the given attribute set is not a subset of the given sk."]) /\
  (subset = [] -> fst m = ["Error: the given attribute subset is empty."]) /\
  (subset <> [] -> (forall a, In a subset -> In a (map b_string (bsk_dj sk))) -> fst m = []).
Proof. exact @delegate_said. Qed.
Print Assumptions C133_delegate.

(** C133: YCT14 key generation: the lines of a call that succeeds are about the leaves, in their order, for
    whose name the master key has no part. *)
Theorem C133_yct_keygen :
  forall (C : crypto) pest debug (msk : yct_msk C) pol lang t i,
  snd (said_yct_keygen pest debug msk pol lang t i) = yct_keygen msk pol lang t i /\
  (parse pol lang = Err -> yct_keygen msk pol lang t i = Err /\
     fst (said_yct_keygen pest debug msk pol lang t i) = [parse_line pest pol lang]).
Proof.
  intros C pest debug msk pol lang t i. split; [exact (yct_keygen_same pest debug msk pol lang t i)|].
  exact (yct_keygen_unreadable pest debug msk pol lang t i).
Qed.
Print Assumptions C133_yct_keygen.

Theorem C133_yct_keygen_lines :
  forall (C : crypto) pest debug, laws C -> forall (msk : yct_msk C) pol lang f t i sk j,
  parse pol lang = Ok (tree f) -> yct_keygen msk pol lang t i = Ok (sk, j) ->
  fst (said_yct_keygen pest debug msk pol lang t i) =
  map (skip_line debug) (filter (unlisted msk) (map before_us (names f))).
Proof. exact @yct_keygen_lines. Qed.
Print Assumptions C133_yct_keygen_lines.

(** C133: they depend on which names the master key has, not on its exponents or the random values. *)
Theorem C133_yct_keygen_secrets :
  forall (C : crypto) pest debug, laws C -> forall (msk msk' : yct_msk C) pol lang t i sk j t' i' sk' j',
  (forall n, unlisted msk n = unlisted msk' n) ->
  yct_keygen msk pol lang t i = Ok (sk, j) -> yct_keygen msk' pol lang t' i' = Ok (sk', j') ->
  fst (said_yct_keygen pest debug msk pol lang t i) = fst (said_yct_keygen pest debug msk' pol lang t' i').
Proof. exact @yct_keygen_lines_same. Qed.
Print Assumptions C133_yct_keygen_secrets.

(** C133: "a call that succeeds prints nothing" is false of YCT14 key generation. *)
Theorem C133_silent_refuted :
  exists (msk : yct_msk ZC) sk j,
  yct_keygen msk """A"" or ""B""" HumanPolicy (ztape 3%Z) 0%nat = Ok (sk, j) /\
  forall pest debug, fst (said_yct_keygen pest debug msk """A"" or ""B""" HumanPolicy (ztape 3%Z) 0%nat) <> [].
Proof.
  set (msk := YctMsk (C := ZC) (ztape 5%Z 0%nat) [YAttr (C := ZC) "A" (Some (YPriv (C := ZC) (ztape 7%Z 1%nat)))]).
  exists msk.
  assert (P : exists p q, parse """A"" or ""B""" HumanPolicy = Ok (tree (FOr [FLeaf "A" p; FLeaf "B" q])))
    by (eexists _, _; vm_compute; reflexivity).
  destruct P as (p & q & P).
  assert (X : match yct_keygen msk """A"" or ""B""" HumanPolicy (ztape 3%Z) 0%nat with Ok _ => true | _ => false end = true)
    by (vm_compute; reflexivity).
  destruct (yct_keygen msk """A"" or ""B""" HumanPolicy (ztape 3%Z) 0%nat) as [[sk j]| |] eqn:E;
    [|discriminate X|discriminate X].
  exists sk, j. split; [reflexivity|]. intros pest debug.
  rewrite (yct_keygen_lines pest debug ZL msk _ _ _ _ _ _ _ P E).
  intros H. apply (f_equal (@length string)) in H. rewrite map_length in H. vm_compute in H. discriminate H.
Qed.
Print Assumptions C133_silent_refuted.

(** C133: files. *)
Theorem C133_read_to_vec :
  forall d path, snd (said_read_to_vec d path) = read_to_vec d path /\
  (forall s, read_to_vec d path = Ok s ->
     fst (said_read_to_vec d path) = ["parsed " ++ number (String.length s) ++ " bytes"]) /\
  (read_to_vec d path = Panic -> fst (said_read_to_vec d path) = []).
Proof. exact read_to_vec_said. Qed.
Print Assumptions C133_read_to_vec.

Theorem C133_number : forall n m, number n = number m -> n = m.
Proof. exact number_inj. Qed.
Print Assumptions C133_number.

Theorem C133_write_from_vec :
  forall d path data, snd (said_write_from_vec d path data) = write_from_vec d path data /\
  (forall d', write_from_vec d path data = Ok d' -> fst (said_write_from_vec d path data) = [wrote_line path]) /\
  (write_from_vec d path data = Panic -> fst (said_write_from_vec d path data) = []).
Proof. exact write_from_vec_said. Qed.
Print Assumptions C133_write_from_vec.

Theorem C133_write_file :
  forall d path data, snd (said_write_file d path data) = write_file d path data /\
  (forall r, write_file d path data = Ok r -> fst (said_write_file d path data) = [wrote_line path]) /\
  (write_file d path data = Panic -> fst (said_write_file d path data) = []).
Proof. exact write_file_said. Qed.
Print Assumptions C133_write_file.

(** A policy that cannot be read, one that can, and a delegation to nobody. *)
Example C133_unreadable_example :
  parse """A"" and" HumanPolicy = Err /\ parse_line (fun _ _ => "?") """A"" and" HumanPolicy = "error Human Parse: ?".
Proof. split; vm_compute; reflexivity. Qed.
Example C133_readable_example : exists v, parse """A"" and ""B""" HumanPolicy = Ok v.
Proof. eexists. vm_compute. reflexivity. Qed.
Example C133_number_example : number 1024 = "1024".
Proof. vm_compute. reflexivity. Qed.
Example C133_skip_example :
  skip_line (fun s => String (ascii_of_nat 34) s ++ String (ascii_of_nat 34) "") "B" =
  "Error: RabeError { details: ""no private key found for B"" }".
Proof. vm_compute. reflexivity. Qed.
