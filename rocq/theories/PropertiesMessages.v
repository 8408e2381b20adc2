(** * PropertiesMessages: what the errors of the schemes say (C125)

    [unread], [reasons], [unfit], [unfit_pruned] (MessagesProofs.v) and [aborts] (RobustProofs.v) belong to the
    statements: an error is that of a policy that cannot be read, that of attributes that do not fit, or a later
    one, each with its own text. *)
From Coq Require Import String Ascii List Bool Arith ZArith Lia.
From Verif Require Import Base Crypto Policy Tools Sharing Spec Parse Symmetric Dnf DnfProofs Errors Bdabe Mke08 Bsw
  Ghw11 Lsw Yct14 Ac17 Aw11 RobustProofs Messages MessagesProofs Instance Witnesses Sessions.
Import ListNotations.
Local Open Scope string_scope.

(** C125. Without the texts, these are the functions of the model. *)
Theorem C125_decrypt : forall C, laws C -> forall place fe,
  (forall (sk : bsw_sk C) ct, forget (told_bsw_decrypt place sk ct) = bsw_decrypt sk ct) /\
  (forall (ct : ghw_ct C) tk, forget (told_ghw_transform place ct tk) = ghw_transform ct tk) /\
  (forall (ct : ghw_tct C) z d, forget (told_ghw_out ct z d) = ghw_decrypt_out ct z d) /\
  (forall (sk : lsw_sk C) ct, forget (told_lsw_decrypt place sk ct) = lsw_decrypt sk ct) /\
  (forall (sk : yct_sk C) ct, forget (told_yct_decrypt place sk ct) = yct_decrypt sk ct) /\
  (forall (gk : aw_gk C) sk ct, forget (told_aw_decrypt place fe gk sk ct) = aw_decrypt gk sk ct) /\
  (forall (sk : bd_uk C) ct, forget (told_bd_decrypt place sk ct) = bd_decrypt sk ct) /\
  (forall (sk : mk_uk C) ct, forget (told_mk_decrypt place sk ct) = mk_decrypt sk ct) /\
  (forall (sk : ac_cpsk C) ct, forget (told_cp_decrypt place sk ct) = cp_decrypt sk ct) /\
  (forall (sk : ac_kpsk C) ct, forget (told_kp_decrypt place sk ct) = kp_decrypt sk ct).
Proof.
  intros C L place fe.
  exact (conj (bsw_decrypt_forget L place) (conj (ghw_transform_forget L place) (conj ghw_out_forget
    (conj (lsw_decrypt_forget L place) (conj (yct_decrypt_forget L place) (conj (aw_decrypt_forget L place fe)
    (conj (bd_decrypt_forget place) (conj (mk_decrypt_forget place) (conj (cp_decrypt_forget place)
    (kp_decrypt_forget place)))))))))).
Qed.
Print Assumptions C125_decrypt.

Theorem C125_make : forall C place fe,
  (forall nonce (pk : bsw_pk C) p l d t i, forget (told_bsw_encrypt place nonce pk p l d t i) = bsw_encrypt nonce pk p l d t i) /\
  (forall nonce (pk : ghw_pk C) p l d t i, forget (told_ghw_encrypt place nonce pk p l d t i) = ghw_encrypt nonce pk p l d t i) /\
  (forall (pk : lsw_pk C) msk p l t i, forget (told_lsw_keygen place pk msk p l t i) = lsw_keygen pk msk p l t i) /\
  (forall nonce (pk : lsw_pk C) a d t i, forget (told_lsw_encrypt nonce pk a d t i) = lsw_encrypt nonce pk a d t i) /\
  (forall (msk : yct_msk C) p l t i, forget (told_yct_keygen place msk p l t i) = yct_keygen msk p l t i) /\
  (forall nonce (pk : yct_pk C) a d t i, forget (told_yct_encrypt nonce pk a d t i) = yct_encrypt nonce pk a d t i) /\
  (forall (gk : aw_gk C) msk a sk, forget (told_aw_add fe gk msk a sk) = aw_add gk msk a sk) /\
  (forall (gk : aw_gk C) msk n l, forget (told_aw_keygen fe gk msk n l) = aw_keygen gk msk n l) /\
  (forall nonce (gk : aw_gk C) ks p l d t i, forget (told_aw_encrypt place nonce gk ks p l d t i) = aw_encrypt nonce gk ks p l d t i) /\
  (forall (pk : bd_pk C) au a, forget (told_bd_request_pk fe pk au a) = bd_request_pk pk au a) /\
  (forall (pk : bd_upk C) au a, forget (told_bd_request_sk fe pk au a) = bd_request_sk pk au a) /\
  (forall nonce (pk : bd_pk C) ks p l d t i, forget (told_bd_encrypt place nonce pk ks p l d t i) = bd_encrypt nonce pk ks p l d t i) /\
  (forall (pk : mk_pk C) a au, forget (told_mk_request_pk fe pk a au) = mk_request_pk pk a au) /\
  (forall (pk : mk_upk C) a au, forget (told_mk_request_sk fe pk a au) = mk_request_sk pk a au) /\
  (forall nonce (pk : mk_pk C) ks p l d t i, forget (told_mk_encrypt place nonce pk ks p l d t i) = mk_encrypt nonce pk ks p l d t i) /\
  (forall (msk : ac_msk C) a t i, forget (told_cp_keygen msk a t i) = cp_keygen msk a t i) /\
  (forall nonce (pk : ac_pk C) p d l t i, forget (told_cp_encrypt place fe nonce pk p d l t i) = cp_encrypt nonce pk p d l t i) /\
  (forall (msk : ac_msk C) p l t i, forget (told_kp_keygen place msk p l t i) = kp_keygen msk p l t i) /\
  (forall nonce (pk : ac_pk C) a d t i, forget (told_kp_encrypt fe nonce pk a d t i) = kp_encrypt nonce pk a d t i).
Proof.
  intros C place fe.
  exact (conj (bsw_encrypt_forget place) (conj (ghw_encrypt_forget place) (conj (lsw_keygen_forget place)
    (conj lsw_encrypt_forget (conj (yct_keygen_forget place) (conj yct_encrypt_forget (conj (aw_add_forget fe)
    (conj (aw_keygen_forget fe) (conj (aw_encrypt_forget place) (conj (bd_request_pk_forget fe)
    (conj (bd_request_sk_forget fe) (conj (bd_encrypt_forget place) (conj (mk_request_pk_forget fe)
    (conj (mk_request_sk_forget fe) (conj (mk_encrypt_forget place) (conj cp_keygen_forget
    (conj (cp_encrypt_forget place fe) (conj (kp_keygen_forget place) (kp_encrypt_forget fe))))))))))))))))))).
Qed.
Print Assumptions C125_make.

(** A place for the examples, and a key with the attribute B and a ciphertext under "A" and ("B" or "C"). *)
Definition first_line (l : language) (p : string) : location := AtPos (1, 1).
Definition key_b : bsw_sk ZC := BswSk (g2zero ZC) [BAttr "B" (g1zero ZC) (g2zero ZC)].
Definition ct_of (p : string) : bsw_ct ZC :=
  BswCt (p, HumanPolicy) (g1zero ZC) (gtone ZC) [] "".

Example C125_example_forget :
  told_bsw_decrypt first_line key_b (ct_of P) = Tell (error_new "Error in bsw/encrypt: attributes do not match policy.") /\ bsw_decrypt key_b (ct_of P) = Err.
Proof. split; vm_compute; reflexivity. Qed.

(** C125 is false: the error of a decryption speaks of an encryption. *)
Theorem C125_operation_refuted : exists place (sk : bsw_sk ZC) ct e,
  told_bsw_decrypt place sk ct = Tell e /\
  error_display e = "Error: Error in bsw/encrypt: attributes do not match policy.".
Proof. exists first_line, key_b, (ct_of P), (error_new "Error in bsw/encrypt: attributes do not match policy."). split; [vm_compute; reflexivity|reflexivity]. Qed.
Print Assumptions C125_operation_refuted.

(** C125. What each text of a decryption means. *)
Theorem C125_bsw : forall C, laws C -> forall place (sk : bsw_sk C) ct e,
  told_bsw_decrypt place sk ct = Tell e <->
  reasons place (Bsw.bct_policy ct) (unfit (map b_string (bsk_dj sk))) (error_new "Error in bsw/encrypt: attributes do not match policy.")
    (fun e => bsw_decrypt sk ct = Err /\ e = unsealed) e.
Proof. exact @bsw_texts. Qed.
Print Assumptions C125_bsw.

Example C125_example_bsw :
  reasons first_line (P, HumanPolicy) (unfit ["B"]) (error_new "Error in bsw/encrypt: attributes do not match policy.") (fun e => bsw_decrypt key_b (ct_of P) = Err /\ e = unsealed)
    (error_new "Error in bsw/encrypt: attributes do not match policy.") /\
  told_bsw_decrypt first_line key_b (ct_of "(") = Tell (error_new ("Json Policy Error in line 1" ++ newline)).
Proof.
  split.
  - right. exists fP. split; [vm_compute; reflexivity|]. left. split; [right; reflexivity|reflexivity].
  - vm_compute. reflexivity.
Qed.

Theorem C125_ghw : forall C, laws C -> forall place (ct : ghw_ct C) tk e,
  told_ghw_transform place ct tk = Tell e <->
  reasons place (gct_policy ct) (unfit (map fst (gtk_attr tk))) (error_new "Error: attributes in tk do not match policy in ct.") (fun _ => False) e.
Proof. intros C _. exact (@ghw_texts C). Qed.
Print Assumptions C125_ghw.

Theorem C125_ghw_out : forall C (pct : ghw_tct C) z d e,
  told_ghw_out pct z d = Tell e <-> ghw_decrypt_out pct z d = Err /\ e = unsealed.
Proof. exact @ghw_out_texts. Qed.
Print Assumptions C125_ghw_out.

Example C125_example_out : exists z d, told_ghw_out (GhwTct (gtone ZC) (gtone ZC)) z d = Tell unsealed.
Proof. exists (zmk 1%Z), "abcdefghijklmno". vm_compute. reflexivity. Qed.

Theorem C125_lsw : forall C, laws C -> forall place (sk : lsw_sk C) ct e,
  told_lsw_decrypt place sk ct = Tell e <->
  reasons place (lsk_policy sk) (unfit_pruned (map le_name (lct_ej ct))) (error_new "Error in lsw/decrypt: attributes do not match policy.")
    (fun e => lsw_decrypt sk ct = Err /\ e = unsealed) e.
Proof. exact @lsw_texts. Qed.
Print Assumptions C125_lsw.

Theorem C125_yct : forall C, laws C -> forall place (sk : yct_sk C) ct e,
  told_yct_decrypt place sk ct = Tell e <->
  reasons place (ysk_policy sk) (unfit_pruned (map y_name (yct_attrs ct))) (error_new "Error in decrypt: attributes do not match policy.")
    (fun e => yct_decrypt sk ct = Err /\ e = unsealed) e.
Proof. exact @yct_texts. Qed.
Print Assumptions C125_yct.

Theorem C125_aw : forall C, laws C -> forall place fe (gk : aw_gk C) sk ct e,
  told_aw_decrypt place fe gk sk ct = Tell e <->
  reasons place (awct_policy ct) (unfit (map fst (awsk_attr sk))) (error_new "Error: attributes in sk do not match policy in ct.")
    (fun e => aw_decrypt gk sk ct = Err /\
       e = match hash C (awsk_gid sk) with None => from_field_error fe | Some _ => unsealed end) e.
Proof. exact @aw_texts. Qed.
Print Assumptions C125_aw.

Theorem C125_bd : forall C place (sk : bd_uk C) ct e,
  told_bd_decrypt place sk ct = Tell e <->
  reasons place (Bdabe.bct_policy ct) (unfit (map bask_attr (buk_ska sk))) (error_new "Error in bdabe/decrypt: attributes in sk do not match policy in ct.")
    (fun e => bd_decrypt sk ct = Err /\ e = unsealed) e.
Proof. exact @bd_texts. Qed.
Print Assumptions C125_bd.

Theorem C125_mk : forall C place (sk : mk_uk C) ct e,
  told_mk_decrypt place sk ct = Tell e <->
  reasons place (mct_policy ct) (unfit (map mask_attr (muk_ska sk))) (error_new "Error in mke08/decrypt: attributes in sk do not match policy in ct.")
    (fun e => mk_decrypt sk ct = Err /\ e = unsealed) e.
Proof. exact @mk_texts. Qed.
Print Assumptions C125_mk.

Theorem C125_cp : forall C place (sk : ac_cpsk C) ct e,
  told_cp_decrypt place sk ct = Tell e <->
  reasons place (acp_policy ct) (unfit (acps_attr sk)) (error_new "Error in cp_decrypt: attributes in SK do not match policy in CT.") (fun e => cp_decrypt sk ct = Err /\ e = unsealed) e.
Proof. exact @cp_texts. Qed.
Print Assumptions C125_cp.

Theorem C125_kp : forall C place (sk : ac_kpsk C) ct e,
  told_kp_decrypt place sk ct = Tell e <->
  reasons place (akps_policy sk) (unfit (akp_attr ct)) (error_new "Error in kp_decrypt: attributes in ct do not match policy in sk.") (fun e => kp_decrypt sk ct = Err /\ e = unsealed) e.
Proof. exact @kp_texts. Qed.
Print Assumptions C125_kp.

(** A key for the policy "A" and ("B" or "C") of each of the key-policy schemes, and a ciphertext for B. *)
Example C125_example_kp :
  told_lsw_decrypt (C := ZC) first_line (LswSk (P, HumanPolicy) [])
    (LswCt (gtone ZC) (g2zero ZC) [LswEj "B" (g1zero ZC) (g1zero ZC) (g1zero ZC)] "") = Tell (error_new "Error in lsw/decrypt: attributes do not match policy.") /\
  told_yct_decrypt (C := ZC) first_line (YctSk (P, HumanPolicy) []) (YctCt [YAttr "B" None] "") = Tell (error_new "Error in decrypt: attributes do not match policy.") /\
  told_kp_decrypt (C := ZC) first_line (AcKpSk (P, HumanPolicy) (AcSk [] [] []))
    (AcKpCt ["B"] (AcCt [] [] (gtone ZC) "")) = Tell (error_new "Error in kp_decrypt: attributes in ct do not match policy in sk.") /\
  told_cp_decrypt (C := ZC) first_line (AcCpSk ["B"] (AcSk [] [] []))
    (AcCpCt ("x", HumanPolicy) (AcCt [] [] (gtone ZC) "")) = Tell (unread first_line ("x", HumanPolicy)).
Proof. repeat apply conj; vm_compute; reflexivity. Qed.

(** The text for attributes that do not fit appears exactly when the policy can be read and they do not fit. *)
Theorem C125_mismatch : forall C, laws C -> forall place fe
  (bsk : bsw_sk C) bct gct gtk lsk lct ysk yct gk ask act dsk dct msk mct csk cct ksk kct,
  (told_bsw_decrypt place bsk bct = Tell (error_new "Error in bsw/encrypt: attributes do not match policy.") <-> exists f,
     parse (fst (Bsw.bct_policy bct)) (snd (Bsw.bct_policy bct)) = Ok (tree f) /\ unfit (map b_string (bsk_dj bsk)) f) /\
  (told_ghw_transform (C := C) place gct gtk = Tell (error_new "Error: attributes in tk do not match policy in ct.") <-> exists f,
     parse (fst (gct_policy gct)) (snd (gct_policy gct)) = Ok (tree f) /\ unfit (map fst (gtk_attr gtk)) f) /\
  (told_lsw_decrypt (C := C) place lsk lct = Tell (error_new "Error in lsw/decrypt: attributes do not match policy.") <-> exists f,
     parse (fst (lsk_policy lsk)) (snd (lsk_policy lsk)) = Ok (tree f) /\ unfit_pruned (map le_name (lct_ej lct)) f) /\
  (told_yct_decrypt (C := C) place ysk yct = Tell (error_new "Error in decrypt: attributes do not match policy.") <-> exists f,
     parse (fst (ysk_policy ysk)) (snd (ysk_policy ysk)) = Ok (tree f) /\ unfit_pruned (map y_name (yct_attrs yct)) f) /\
  (told_aw_decrypt (C := C) place fe gk ask act = Tell (error_new "Error: attributes in sk do not match policy in ct.") <-> exists f,
     parse (fst (awct_policy act)) (snd (awct_policy act)) = Ok (tree f) /\ unfit (map fst (awsk_attr ask)) f) /\
  (told_bd_decrypt (C := C) place dsk dct = Tell (error_new "Error in bdabe/decrypt: attributes in sk do not match policy in ct.") <-> exists f,
     parse (fst (Bdabe.bct_policy dct)) (snd (Bdabe.bct_policy dct)) = Ok (tree f) /\ unfit (map bask_attr (buk_ska dsk)) f) /\
  (told_mk_decrypt (C := C) place msk mct = Tell (error_new "Error in mke08/decrypt: attributes in sk do not match policy in ct.") <-> exists f,
     parse (fst (mct_policy mct)) (snd (mct_policy mct)) = Ok (tree f) /\ unfit (map mask_attr (muk_ska msk)) f) /\
  (told_cp_decrypt (C := C) place csk cct = Tell (error_new "Error in cp_decrypt: attributes in SK do not match policy in CT.") <-> exists f,
     parse (fst (acp_policy cct)) (snd (acp_policy cct)) = Ok (tree f) /\ unfit (acps_attr csk) f) /\
  (told_kp_decrypt (C := C) place ksk kct = Tell (error_new "Error in kp_decrypt: attributes in ct do not match policy in sk.") <-> exists f,
     parse (fst (akps_policy ksk)) (snd (akps_policy ksk)) = Ok (tree f) /\ unfit (akp_attr kct) f).
Proof. exact @mismatch_texts. Qed.
Print Assumptions C125_mismatch.

Example C125_example_mismatch : unfit ["B"] fP /\ ~ unfit ["A"; "B"] fP /\ unfit [] fP /\ unfit_pruned ["B"] fP.
Proof.
  split; [right; reflexivity|]. split; [intros [X|X]; discriminate X|]. split; [now left|]. split; reflexivity.
Qed.

(** Texts that no decryption ever gives, though the code has them. *)
Theorem C125_never : forall C, laws C -> forall place fe
  (bsk : bsw_sk C) bct gct gtk lsk lct ysk yct gk ask act csk cct ksk kct,
  told_bsw_decrypt place bsk bct <> Tell (error_new "Error in calc_pruned: unknown array type!") /\
  told_ghw_transform (C := C) place gct gtk <> Tell (error_new "Error in calc_pruned: unknown array type!") /\
  told_ghw_transform (C := C) place gct gtk <> Tell (error_new "Error in Ghw11/decrypt: attributes in sk do not match policy in ct.") /\
  told_lsw_decrypt (C := C) place lsk lct <> Tell (error_new "Error in calc_pruned: unknown array type!") /\
  told_yct_decrypt (C := C) place ysk yct <> Tell (error_new "Error in calc_pruned: unknown array type!") /\
  told_aw_decrypt (C := C) place fe gk ask act <> Tell (error_new "Error in calc_pruned: unknown array type!") /\
  told_aw_decrypt (C := C) place fe gk ask act <> Tell (error_new "Error in aw11/decrypt: attributes in sk do not match policy in ct.") /\
  told_cp_decrypt (C := C) place csk cct <> Tell (error_new "Error in calc_pruned: unknown array type!") /\
  told_cp_decrypt (C := C) place csk cct <> Tell (error_new "Error: attributes in sk do not match policy in ct.") /\
  told_kp_decrypt (C := C) place ksk kct <> Tell (error_new "Error in calc_pruned: unknown array type!") /\
  told_kp_decrypt (C := C) place ksk kct <> Tell (error_new "Error in kp_decrypt: pruned attributes in sk do not match policy in ct.").
Proof. exact @dead_texts. Qed.
Print Assumptions C125_never.

Example C125_example_never : (error_new "Error in aw11/decrypt: attributes in sk do not match policy in ct.") <> (error_new "Error: attributes in sk do not match policy in ct.") /\ (error_new "Error: attributes in sk do not match policy in ct.") = (error_new "Error: attributes in sk do not match policy in ct.").
Proof. split; [discriminate|reflexivity]. Qed.

(** C125. What a text of a key or of an encryption means.  Empty data and an empty policy are not reported as
    such by BSW and GHW11, whose check has no effect. *)
Theorem C125_policy : forall C place p l e,
  (forall nonce (pk : bsw_pk C) d t i,
     told_bsw_encrypt place nonce pk p l d t i = Tell e <-> parse p l = Err /\ e = unread place (p, l)) /\
  (forall nonce (pk : ghw_pk C) d t i,
     told_ghw_encrypt place nonce pk p l d t i = Tell e <-> parse p l = Err /\ e = unread place (p, l)) /\
  (forall nonce (gk : aw_gk C) pks d t i,
     told_aw_encrypt place nonce gk pks p l d t i = Tell e <-> parse p l = Err /\ e = unread place (p, l)) /\
  (forall (pk : lsw_pk C) msk t i,
     told_lsw_keygen place pk msk p l t i = Tell e <-> parse p l = Err /\ e = unread place (p, l)) /\
  (forall (msk : yct_msk C) t i,
     told_yct_keygen place msk p l t i = Tell e <-> parse p l = Err /\ e = unread place (p, l)) /\
  (forall (msk : ac_msk C) t i,
     told_kp_keygen place msk p l t i = Tell e <-> parse p l = Err /\ e = unread place (p, l)).
Proof.
  intros C place p l e.
  exact (conj (fun nonce pk d t i => bsw_encrypt_texts place nonce pk p l d t i e)
    (conj (fun nonce pk d t i => ghw_encrypt_texts place nonce pk p l d t i e)
    (conj (fun nonce gk ks d t i => aw_encrypt_texts place nonce gk ks p l d t i e)
    (conj (fun pk msk t i => lsw_keygen_texts place pk msk p l t i e)
    (conj (fun msk t i => yct_keygen_texts place msk p l t i e)
    (fun msk t i => kp_keygen_texts place msk p l t i e)))))).
Qed.
Print Assumptions C125_policy.

Example C125_example_policy : parse "" HumanPolicy = Err /\ unread first_line ("", JsonPolicy) = unread first_line ("", HumanPolicy).
Proof. split; vm_compute; reflexivity. Qed.

Theorem C125_dnf : forall C place nonce p l d t i e,
  (forall (pk : bd_pk C) ks, told_bd_encrypt place nonce pk ks p l d t i = Tell e <->
     reasons place (p, l) (fun f => ~ no_or_below_and f) (error_new "Error in bdabe/encrypt: Policy not in DNF.") (fun _ => False) e) /\
  (forall (pk : mk_pk C) ks, told_mk_encrypt place nonce pk ks p l d t i = Tell e <->
     reasons place (p, l) (fun f => ~ no_or_below_and f) (error_new "Error in mke08/encrypt: policy is not in dnf") (fun _ => False) e).
Proof.
  intros C place nonce p l d t i e.
  exact (conj (fun pk ks => bd_encrypt_texts place nonce pk ks p l d t i e)
    (fun pk ks => mk_encrypt_texts place nonce pk ks p l d t i e)).
Qed.
Print Assumptions C125_dnf.

Example C125_example_dnf : reasons first_line (P, HumanPolicy) (fun f => ~ no_or_below_and f) (error_new "Error in mke08/encrypt: policy is not in dnf") (fun _ => False) (error_new "Error in mke08/encrypt: policy is not in dnf").
Proof.
  right. exists fP. split; [vm_compute; reflexivity|]. left. split; [|reflexivity].
  intros N. apply policy_in_dnf_iff in N. discriminate N.
Qed.

Theorem C125_empty : forall C nonce attrs d t i e,
  (forall pk : lsw_pk C, told_lsw_encrypt nonce pk attrs d t i = Tell e <-> (attrs = [] \/ d = "") /\ e = error_new "attributes or data empty") /\
  (forall pk : yct_pk C, told_yct_encrypt nonce pk attrs d t i = Tell e <->
     (attrs = [] /\ e = error_new "attributes empty") \/ (attrs <> [] /\ d = "" /\ e = error_new "plaintext empty")) /\
  (forall msk : ac_msk C, told_cp_keygen msk attrs t i = Tell e <-> attrs = [] /\ e = error_new "empty attributes!").
Proof.
  intros C nonce attrs d t i e.
  exact (conj (fun pk => lsw_encrypt_texts nonce pk attrs d t i e)
    (conj (fun pk => yct_encrypt_texts nonce pk attrs d t i e) (fun msk => cp_keygen_texts msk attrs t i e))).
Qed.
Print Assumptions C125_empty.

Example C125_example_empty :
  told_yct_encrypt (C := ZC) nc (YctPk (gtone ZC) []) ["A"] "" (ztape 3) 0 = Tell (error_new "plaintext empty") /\
  told_cp_keygen (C := ZC) (AcMsk (g1zero ZC) (g2zero ZC) [] [] []) [] (ztape 3) 0 = Tell (error_new "empty attributes!").
Proof. split; reflexivity. Qed.

(** AC17 encryption, when hashes do not fail. *)
Theorem C125_ac17 : forall C, (forall s, hash C s <> None) -> forall place fe nonce (pk : ac_pk C) t i e,
  (forall p d l, told_cp_encrypt place fe nonce pk p d l t i = Tell e <-> parse p l = Err /\ e = unread place (p, l)) /\
  (forall attrs d, told_kp_encrypt fe nonce pk attrs d t i <> Tell e).
Proof.
  intros C T place fe nonce pk t i e.
  exact (conj (fun p d l => cp_encrypt_texts place fe T nonce pk p d l t i e)
    (fun attrs d => kp_encrypt_texts fe T nonce pk attrs d t i e)).
Qed.
Print Assumptions C125_ac17.

Example C125_example_ac17 : (forall s, hash ZC s <> None) /\ parse "(" JsonPolicy = Err.
Proof. split; [discriminate|vm_compute; reflexivity]. Qed.

(** The keys of BDABE and MKE08. *)
Theorem C125_request : forall C fe e,
  (forall (pk : bd_pk C) au a, told_bd_request_pk fe pk au a = Tell e <->
     (from_authority a (bau_name au) = false /\ e = not_handled a) \/
     (from_authority a (bau_name au) = true /\
      (hash C a = None \/ hash C (bau_name au) = None) /\ e = from_field_error fe)) /\
  (forall (pk : bd_upk C) au a, told_bd_request_sk fe pk au a = Tell e <->
     (from_authority a (bau_name au) && is_eligible a (bupk_u pk) = false /\ e = not_handled a) \/
     (from_authority a (bau_name au) && is_eligible a (bupk_u pk) = true /\
      (hash C a = None \/ hash C (bau_name au) = None) /\ e = from_field_error fe)) /\
  (forall (pk : mk_pk C) a au, told_mk_request_pk fe pk a au = Tell e <->
     (from_authority a (mau_name au) = false /\ e = not_handled a) \/
     (from_authority a (mau_name au) = true /\
      (hash C a = None \/ hash C (mau_name au) = None) /\ e = from_field_error fe)) /\
  (forall (pk : mk_upk C) a au, told_mk_request_sk fe pk a au = Tell e <->
     (from_authority a (mau_name au) && is_eligible a (mupk_name pk) = false /\ e = not_handled a) \/
     (from_authority a (mau_name au) && is_eligible a (mupk_name pk) = true /\
      (hash C a = None \/ hash C (mau_name au) = None) /\ e = from_field_error fe)).
Proof.
  intros C fe e.
  exact (conj (fun pk au a => bd_request_pk_texts fe pk au a e) (conj (fun pk au a => bd_request_sk_texts fe pk au a e)
    (conj (fun pk a au => mk_request_pk_texts fe pk a au e) (fun pk a au => mk_request_sk_texts fe pk a au e)))).
Qed.
Print Assumptions C125_request.

Example C125_example_request : from_authority "x::A" "y" = false /\
  details (not_handled "x::A") = "attribute x::A is not from_authority() or !is_eligible()".
Proof. split; reflexivity. Qed.

(** The keys of AW11. *)
Theorem C125_aw_add : forall C fe (gk : aw_gk C) msk a sk e,
  told_aw_add fe gk msk a sk = Tell e <->
  (a = "" /\ e = (error_new "empty _attributes")) \/ (a <> "" /\ awsk_gid sk = "" /\ e = (error_new "empty _gid")) \/
  (a <> "" /\ awsk_gid sk <> "" /\ hash C (awsk_gid sk) = None /\ e = from_field_error fe).
Proof. exact @aw_add_texts. Qed.
Print Assumptions C125_aw_add.

Theorem C125_aw_keygen : forall C fe (gk : aw_gk C) msk n l e, hash C n <> None ->
  (told_aw_keygen fe gk msk n l = Tell e <->
   (l = [] /\ e = (error_new "empty _attributes")) \/ (l <> [] /\ n = "" /\ e = (error_new "empty _name")) \/
   (n <> "" /\ e = (error_new "empty _attributes") /\ exists a b, l = (a ++ "" :: b)%list /\
     forall x, In x a -> x <> "" /\ In x (map n3 (amsk_attr msk)))).
Proof. exact @aw_keygen_texts. Qed.
Print Assumptions C125_aw_keygen.

Example C125_example_aw :
  let text l := match told_aw_keygen (C := ZC) NotMember (AwGk (g1zero ZC) (g2zero ZC))
                        (AwMsk (C := ZC) [("A", zmk 1%Z, zmk 2%Z)]) "u" l with
                | Fine _ => "a key" | Tell e => details e | Abort => "a panic"
                end in
  hash ZC "u" <> None /\ text ["A"] = "a key" /\ text ["A"; ""; "Z"] = "empty _attributes" /\
  text ["A"; "Z"; ""] = "a panic".
Proof. split; [discriminate|]. repeat split; vm_compute; reflexivity. Qed.

(** The texts above, letter by letter. *)
Theorem C125_spelled :
  map error_display
    [unsealed; (error_new "Error in bsw/encrypt: attributes do not match policy."); (error_new "Error: attributes in tk do not match policy in ct."); (error_new "Error in lsw/decrypt: attributes do not match policy."); (error_new "Error in decrypt: attributes do not match policy."); (error_new "Error: attributes in sk do not match policy in ct."); (error_new "Error in bdabe/decrypt: attributes in sk do not match policy in ct."); (error_new "Error in mke08/decrypt: attributes in sk do not match policy in ct.");
     (error_new "Error in cp_decrypt: attributes in SK do not match policy in CT."); (error_new "Error in kp_decrypt: attributes in ct do not match policy in sk."); (error_new "Error in bdabe/encrypt: Policy not in DNF."); (error_new "Error in mke08/encrypt: policy is not in dnf"); (error_new "empty _attributes"); (error_new "empty _name"); (error_new "empty _gid"); (error_new "empty attributes!");
     not_handled "aa::A"; from_field_error InvalidSliceLength; from_field_error InvalidU512Encoding;
     from_field_error NotMember; from_slice_error] =
    ["Error: decryption error: ""aead::Error""";
     "Error: Error in bsw/encrypt: attributes do not match policy.";
     "Error: Error: attributes in tk do not match policy in ct.";
     "Error: Error in lsw/decrypt: attributes do not match policy.";
     "Error: Error in decrypt: attributes do not match policy.";
     "Error: Error: attributes in sk do not match policy in ct.";
     "Error: Error in bdabe/decrypt: attributes in sk do not match policy in ct.";
     "Error: Error in mke08/decrypt: attributes in sk do not match policy in ct.";
     "Error: Error in cp_decrypt: attributes in SK do not match policy in CT.";
     "Error: Error in kp_decrypt: attributes in ct do not match policy in sk.";
     "Error: Error in bdabe/encrypt: Policy not in DNF.";
     "Error: Error in mke08/encrypt: policy is not in dnf";
     "Error: empty _attributes"; "Error: empty _name"; "Error: empty _gid"; "Error: empty attributes!";
     "Error: attribute aa::A is not from_authority() or !is_eligible()";
     "Error: FieldError::InvalidSliceLength"; "Error: FieldError::InvalidU512Encoding";
     "Error: FieldError::NotMember"; "Error: could not convert slice to array"] /\
  (forall l place, list_ascii_of_string (error_display (from_parse_error l place)) =
     list_ascii_of_string ("Error: Json Policy Error in line " ++ dec (error_line place)) ++
     [Ascii.Ascii false true false true false false false false])%list.
Proof.
  split; [reflexivity|]. intros l place.
  assert (H : forall a b, list_ascii_of_string (a ++ b) = (list_ascii_of_string a ++ list_ascii_of_string b)%list).
  { induction a as [|c a IH]; intros b; simpl; [reflexivity|now rewrite IH]. }
  destruct l; simpl; repeat f_equal; apply H.
Qed.
Print Assumptions C125_spelled.
