(** * PropertiesOrder: C102 and C103, the order of the parts of keys, ciphertexts
    and key lists; C46, C93 and C100, refusals

    Every statement is written out in full; the proofs are in OrderProofs.v,
    Aw11Proofs.v and Refusals.v. *)
From Coq Require Import String Ascii List Bool Arith NArith Permutation.
From Verif Require Import Base Crypto Policy Tools Sharing Spec Parse Symmetric Msp Poly SharingProofs Files
  Borsh Console ConsoleWitnesses Dnf Bdabe Mke08 Bsw Ghw11 Lsw Yct14 Ac17 Aw11 Aw11Proofs
  OrderProofs Refusals Instance Sessions Witnesses.
Import ListNotations.
Local Open Scope string_scope.
Local Open Scope rand_scope.

(** C102, BSW: for all keys and ciphertexts, honest or not. *)
Theorem C102_bsw :
  forall (C : crypto) (d : G2 C) (dj dj' : list (battr C)) (pol : string * language) (c : G1 C) (cp : GT C)
    (cy cy' : list (battr C)) (data : string),
  NoDup (map b_string dj) -> Permutation dj dj' ->
  NoDup (map b_string cy) -> Permutation cy cy' ->
  bsw_decrypt (BswSk d dj) (BswCt pol c cp cy data) = bsw_decrypt (BswSk d dj') (BswCt pol c cp cy' data).
Proof. exact @bsw_order. Qed.
Print Assumptions C102_bsw.

Theorem C102_bsw_delegate :
  forall (C : crypto) (pk : bsw_pk C) (d : G2 C) (dj dj' : list (battr C)) (subset : list string)
    (t : nat -> F C) (i : nat),
  NoDup (map b_string dj) -> Permutation dj dj' ->
  bsw_delegate pk (BswSk d dj) subset t i = bsw_delegate pk (BswSk d dj') subset t i.
Proof. exact @bsw_delegate_order. Qed.
Print Assumptions C102_bsw_delegate.

(** C102, GHW11 (the rest of decryption does not use the lists). *)
Theorem C102_ghw :
  forall (C : crypto) (k l : G2 C) (ka ka' : list (string * G2 C)) (pol : string * language) (c : GT C)
    (c1 : G1 C) (cd cd' : list (string * (G1 C * G1 C))) (data : string),
  NoDup (map fst ka) -> Permutation ka ka' ->
  NoDup (map fst cd) -> Permutation cd cd' ->
  ghw_transform (GhwCt pol c c1 cd data) (GhwTk k l ka) = ghw_transform (GhwCt pol c c1 cd' data) (GhwTk k l ka').
Proof. exact @ghw_order. Qed.
Print Assumptions C102_ghw.

Theorem C102_lsw :
  forall (C : crypto) (pol : string * language) (dj dj' : list (lsw_dj C)) (e1 : GT C) (e2 : G2 C)
    (ej ej' : list (lsw_ej C)) (data : string),
  NoDup (map ld_name dj) -> Permutation dj dj' ->
  NoDup (map le_name ej) -> Permutation ej ej' ->
  lsw_decrypt (LswSk pol dj) (LswCt e1 e2 ej data) = lsw_decrypt (LswSk pol dj') (LswCt e1 e2 ej' data).
Proof. exact @lsw_order. Qed.
Print Assumptions C102_lsw.

Theorem C102_yct :
  forall (C : crypto) (pol : string * language) (du du' at1 at2 : list (yct_attr C)) (data : string),
  NoDup (map y_name du) -> Permutation du du' ->
  NoDup (map y_name at1) -> Permutation at1 at2 ->
  yct_decrypt (YctSk pol du) (YctCt at1 data) = yct_decrypt (YctSk pol du') (YctCt at2 data).
Proof. exact @yct_order. Qed.
Print Assumptions C102_yct.

Theorem C102_aw :
  forall (C : crypto) (gk : aw_gk C) (gid : string) (sa sa' : list (string * G1 C)) (pol : string * language)
    (c0 : GT C) (ca ca' : list (string * GT C * G2 C * G2 C)) (data : string),
  NoDup (map fst sa) -> Permutation sa sa' ->
  NoDup (map n4 ca) -> Permutation ca ca' ->
  aw_decrypt gk (AwSk gid sa) (AwCt pol c0 ca data) = aw_decrypt gk (AwSk gid sa') (AwCt pol c0 ca' data).
Proof. exact @aw_order. Qed.
Print Assumptions C102_aw.

Theorem C102_bd :
  forall (C : crypto) (sk : bd_usk C) (pk : bd_upk C) (sa sa' : list (bd_ask C)) (ct : bd_ct C),
  NoDup (map bask_attr sa) -> Permutation sa sa' ->
  bd_decrypt (BdUk sk pk sa) ct = bd_decrypt (BdUk sk pk sa') ct.
Proof. exact @bd_order. Qed.
Print Assumptions C102_bd.

Theorem C102_mk :
  forall (C : crypto) (sk : mk_usk C) (pk : mk_upk C) (sa sa' : list (mk_ask C)) (ct : mk_ct C),
  NoDup (map mask_attr sa) -> Permutation sa sa' ->
  mk_decrypt (MkUk sk pk sa) ct = mk_decrypt (MkUk sk pk sa') ct.
Proof. exact @mk_order. Qed.
Print Assumptions C102_mk.

(** C102, AC17: sums over all parts with a name, so the names may repeat. *)
Theorem C102_cp :
  forall C : crypto, laws C ->
  forall (at1 at2 : list string) (k0 : list (G2 C)) (k k' : list (string * list (G1 C))) (kp : list (G1 C))
    (pol : string * language) (c0 : list (G2 C)) (c c' : list (string * list (G1 C))) (cp : GT C) (data : string),
  Permutation at1 at2 -> Permutation k k' -> Permutation c c' ->
  cp_decrypt (AcCpSk at1 (AcSk k0 k kp)) (AcCpCt pol (AcCt c0 c cp data)) =
  cp_decrypt (AcCpSk at2 (AcSk k0 k' kp)) (AcCpCt pol (AcCt c0 c' cp data)).
Proof. exact @cp_order. Qed.
Print Assumptions C102_cp.

Theorem C102_kp :
  forall C : crypto, laws C ->
  forall (at1 at2 : list string) (k0 : list (G2 C)) (k k' : list (string * list (G1 C))) (kp : list (G1 C))
    (pol : string * language) (c0 : list (G2 C)) (c c' : list (string * list (G1 C))) (cp : GT C) (data : string),
  Permutation at1 at2 -> Permutation k k' -> Permutation c c' ->
  kp_decrypt (AcKpSk pol (AcSk k0 k kp)) (AcKpCt at1 (AcCt c0 c cp data)) =
  kp_decrypt (AcKpSk pol (AcSk k0 k' kp)) (AcKpCt at2 (AcCt c0 c' cp data)).
Proof. exact @kp_order. Qed.
Print Assumptions C102_kp.

(** A key and a ciphertext with their parts reversed. *)
Example C102_example : exists (pk : bsw_pk ZC) msk sk ct t i j k,
  bsw_setup t 0 = Ok (pk, msk, i) /\ bsw_keygen pk msk ["A"; "B"] t i = Ok (Some sk, j) /\
  bsw_encrypt nc pk """A"" and ""B""" HumanPolicy "hello" t j = Ok (ct, k) /\
  map b_string (bsk_dj sk) = ["A"; "B"] /\
  bsw_decrypt (BswSk (bsk_d sk) (rev (bsk_dj sk)))
    (BswCt (bct_policy ct) (bct_c ct) (bct_cp ct) (rev (bct_cy ct)) (bct_data ct)) = Ok "hello".
Proof.
  by_run (' (pk, msk) <- bsw_setup (C := ZC) ;; so <- bsw_keygen pk msk ["A"; "B"] ;; sk <- rlift (unwrap so) ;;
    ct <- bsw_encrypt nc pk """A"" and ""B""" HumanPolicy "hello" ;;
    rret (map b_string (bsk_dj sk), bsw_decrypt (BswSk (bsk_d sk) (rev (bsk_dj sk)))
      (BswCt (bct_policy ct) (bct_c ct) (bct_cp ct) (rev (bct_cy ct)) (bct_data ct))))
   (["A"; "B"], Ok "hello").
Qed.

(** C102 without distinct names is false: two parts for the same attribute from two keys. *)
Theorem C102_repeated_refuted : exists (pk : bsw_pk ZC) msk sk sk' ct t i j k l,
  bsw_setup t 0 = Ok (pk, msk, i) /\ bsw_keygen pk msk ["A"] t i = Ok (Some sk, j) /\
  bsw_keygen pk msk ["A"] t j = Ok (Some sk', k) /\
  bsw_encrypt nc pk """A""" HumanPolicy "hello" t k = Ok (ct, l) /\
  bsw_decrypt (BswSk (bsk_d sk) (bsk_dj sk ++ bsk_dj sk')) ct = Ok "hello" /\
  bsw_decrypt (BswSk (bsk_d sk) (bsk_dj sk' ++ bsk_dj sk)) ct = Err.
Proof.
  by_run (' (pk, msk) <- bsw_setup (C := ZC) ;; so <- bsw_keygen pk msk ["A"] ;; sk <- rlift (unwrap so) ;;
    so' <- bsw_keygen pk msk ["A"] ;; sk' <- rlift (unwrap so') ;;
    ct <- bsw_encrypt nc pk """A""" HumanPolicy "hello" ;;
    rret (bsw_decrypt (BswSk (bsk_d sk) (bsk_dj sk ++ bsk_dj sk')) ct,
          bsw_decrypt (BswSk (bsk_d sk) (bsk_dj sk' ++ bsk_dj sk)) ct))
   (Ok "hello", @Err string).
Qed.
Print Assumptions C102_repeated_refuted.

(** C103, AW11: public keys in any order; only the attributes they list count. *)
Theorem C103_aw_order :
  forall (C : crypto) (nonce : string) (gk : aw_gk C) (pks pks' : list (aw_pk C)) (pol : string) (lang : language)
    (data : string) (t : nat -> F C) (i : nat),
  NoDup (map n3 (concat (map apk_attr pks))) -> Permutation pks pks' ->
  aw_encrypt nonce gk pks pol lang data t i = aw_encrypt nonce gk pks' pol lang data t i.
Proof. exact @aw_encrypt_order. Qed.
Print Assumptions C103_aw_order.

Theorem C103_aw_merge :
  forall (C : crypto) (nonce : string) (gk : aw_gk C) (a b : list (string * GT C * G2 C)) (pks : list (aw_pk C))
    (pol : string) (lang : language) (data : string) (t : nat -> F C) (i : nat),
  aw_encrypt nonce gk (AwPk a :: AwPk b :: pks) pol lang data t i =
  aw_encrypt nonce gk (AwPk (a ++ b) :: pks) pol lang data t i.
Proof. exact @aw_encrypt_merge. Qed.
Print Assumptions C103_aw_merge.

Theorem C103_aw_keygen :
  forall (C : crypto) (gk : aw_gk C) (ms ms' : list (string * F C * F C)) (name : string) (attrs : list string),
  NoDup (map n3 ms) -> Permutation ms ms' ->
  aw_keygen gk (AwMsk ms) name attrs = aw_keygen gk (AwMsk ms') name attrs.
Proof. exact @aw_keygen_order. Qed.
Print Assumptions C103_aw_keygen.

(** C103, BDABE, MKE08 and YCT14. *)
Theorem C103_bd :
  forall (C : crypto) (nonce : string) (pk : bd_pk C) (apks apks' : list (bd_apk C)) (pol : string)
    (lang : language) (data : string) (t : nat -> F C) (i : nat),
  NoDup (map bapk_attr apks) -> Permutation apks apks' ->
  bd_encrypt nonce pk apks pol lang data t i = bd_encrypt nonce pk apks' pol lang data t i.
Proof. exact @bd_encrypt_order. Qed.
Print Assumptions C103_bd.

Theorem C103_mk :
  forall (C : crypto) (nonce : string) (pk : mk_pk C) (apks apks' : list (mk_apk C)) (pol : string)
    (lang : language) (data : string) (t : nat -> F C) (i : nat),
  NoDup (map mapk_attr apks) -> Permutation apks apks' ->
  mk_encrypt nonce pk apks pol lang data t i = mk_encrypt nonce pk apks' pol lang data t i.
Proof. exact @mk_encrypt_order. Qed.
Print Assumptions C103_mk.

Theorem C103_yct_encrypt :
  forall (C : crypto) (nonce : string) (g : GT C) (at1 at2 : list (yct_attr C)) (attrs : list string)
    (data : string) (t : nat -> F C) (i : nat),
  NoDup (map y_name at1) -> Permutation at1 at2 ->
  yct_encrypt nonce (YctPk g at1) attrs data t i = yct_encrypt nonce (YctPk g at2) attrs data t i.
Proof. exact @yct_encrypt_order. Qed.
Print Assumptions C103_yct_encrypt.

Theorem C103_yct_keygen :
  forall (C : crypto) (s : F C) (at1 at2 : list (yct_attr C)) (pol : string) (lang : language)
    (t : nat -> F C) (i : nat),
  NoDup (map y_name at1) -> Permutation at1 at2 ->
  yct_keygen (YctMsk s at1) pol lang t i = yct_keygen (YctMsk s at2) pol lang t i.
Proof. exact @yct_keygen_order. Qed.
Print Assumptions C103_yct_keygen.

(** C103, AW11 authorities that share attributes: the first of the list counts. *)
Theorem C103_aw_first :
  forall C : crypto, laws C ->
  forall (nonce : string) (gk : aw_gk C) (As : list (list string * (aw_pk C * aw_msk C))) (gid : string)
    (issued : list (aw_msk C * string)) (sk : aw_sk C) (pol : string) (lang : language) (data : string)
    (ct : aw_ct C) (f : formula) (te : nat -> F C) (ie je : nat),
  Forall (fun A => exists t i j, aw_authgen gk (fst A) t i = Ok (Some (snd A), j)) As ->
  (forall m a, In (m, a) issued -> exists l A r, As = (l ++ A :: r)%list /\ m = snd (snd A) /\
     Forall (fun B => ~ In a (map (upper C) (fst B))) l) ->
  aw_issue gk gid issued = Ok sk ->
  aw_encrypt nonce gk (map (fun A => fst (snd A)) As) pol lang data te ie = Ok (ct, je) ->
  parse pol lang = Ok (tree f) ->
  String.length nonce = 12%nat ->
  NoDup (leaves f) -> plain_names f = true -> upper_names C f ->
  small_ok C (and_width f) ->
  sat (owns (map snd issued)) f = true ->
  aw_decrypt gk sk ct = Ok data.
Proof. exact @aw_correct_first. Qed.
Print Assumptions C103_aw_first.

(** C103 is false when two authorities offer the same attribute: a key of the first
    opens what is encrypted with the first in front, and only that. *)
Theorem C103_aw_shared_refuted : exists (gk : aw_gk ZC) pk1 msk1 pk2 msk2 sk ct ct' t i j k l m,
  aw_setup t 0 = Ok (gk, i) /\
  aw_authgen gk ["A"] t i = Ok (Some (pk1, msk1), j) /\
  aw_authgen gk ["A"; "B"] t j = Ok (Some (pk2, msk2), k) /\
  aw_keygen gk msk1 "bob" ["A"] = Ok sk /\
  aw_encrypt nc gk [pk1; pk2] """A""" HumanPolicy "hello" t k = Ok (ct, l) /\
  aw_encrypt nc gk [pk2; pk1] """A""" HumanPolicy "hello" t l = Ok (ct', m) /\
  aw_decrypt gk sk ct = Ok "hello" /\ aw_decrypt gk sk ct' = Err.
Proof.
  by_run (gk <- aw_setup (C := ZC) ;; ao <- aw_authgen gk ["A"] ;; ' (pk1, msk1) <- rlift (unwrap ao) ;;
    ao2 <- aw_authgen gk ["A"; "B"] ;; ' (pk2, msk2) <- rlift (unwrap ao2) ;;
    sk <- rlift (aw_keygen gk msk1 "bob" ["A"]) ;;
    ct <- aw_encrypt nc gk [pk1; pk2] """A""" HumanPolicy "hello" ;;
    ct' <- aw_encrypt nc gk [pk2; pk1] """A""" HumanPolicy "hello" ;;
    rret (aw_decrypt gk sk ct, aw_decrypt gk sk ct')) (Ok "hello", @Err string).
Qed.
Print Assumptions C103_aw_shared_refuted.

(** C46. A request is answered or refused, never aborted, and the names decide. *)
Theorem C46_requests_decided :
  forall C : crypto,
  let decided A (o : outcome A) (name attr : string) :=
    (from_authority attr name = true /\ hash C attr <> None /\ hash C name <> None -> exists k, o = Ok k) /\
    (~ (from_authority attr name = true /\ hash C attr <> None /\ hash C name <> None) -> o = Err) in
  (forall (pk : bd_pk C) A n, decided _ (bd_request_pk pk A n) (bau_name A) n) /\
  (forall (pku : bd_upk C) A n, decided _ (bd_request_sk pku A n) (bau_name A) n) /\
  (forall (pk : mk_pk C) A n, decided _ (mk_request_pk pk n A) (mau_name A) n) /\
  (forall (pku : mk_upk C) A n, decided _ (mk_request_sk pku n A) (mau_name A) n).
Proof. exact @request_decided. Qed.
Print Assumptions C46_requests_decided.

(** C93. Which hexadecimal texts are read, and as what. *)
Theorem C93_hex_exact :
  forall s b : string, from_hex s = Some b <-> plain_hex s = to_hex b.
Proof. exact hex_exact. Qed.
Print Assumptions C93_hex_exact.

Example C93_example_hex : from_hex "4A 6b" = Some "Jk" /\ plain_hex "4A 6b" = "4a6b" /\
  from_hex "4a6" = None /\ from_hex "4g" = None.
Proof. repeat split. Qed.

(** C100. When encryption in the library aborts, so does the command; nothing is written. *)
Theorem C100_encrypt_aborts :
  forall (C : crypto) (E : env C) (t : nat -> F C) (nonce text : string) (m : args) (s : scheme)
    (lang : language) (d : fs) (doc : string),
  read_to_vec d (text_arg m FILE) = Ok doc ->
  (let one A (c : codec A) (f : A -> Prop) :=
     exists file pk, enc_pk_files m = [file] /\ ser_dec E c file d = (d, Ok pk) /\ f pk in
   match s with
   | AC17CP => one _ (c_ac_pk (e_wire E)) (fun pk => cp_encrypt nonce pk (text_arg m POLICY) doc lang t 0 = Panic)
   | BSW => one _ (c_bsw_pk (e_wire E)) (fun pk => bsw_encrypt nonce pk (text_arg m POLICY) lang doc t 0 = Panic)
   | LSW => one _ (c_lsw_pk (e_wire E)) (fun pk => lsw_encrypt nonce pk (attr_args m) doc t 0 = Panic)
   | YCT14 => one _ (c_yct_pk (e_wire E)) (fun pk => yct_encrypt nonce pk (attr_args m) doc t 0 = Panic)
   | AW11 => exists gp file pk, ser_dec E (c_aw_gk (e_wire E)) (file_arg m GP_FILE) d = (d, Ok gp) /\
       enc_pk_files m = [file] /\ ser_dec E (c_aw_pk (e_wire E)) file d = (d, Ok pk) /\
       aw_encrypt nonce gp [pk] (text_arg m POLICY) lang doc t 0 = Panic
   | _ => False
   end) ->
  run E t nonce text Encrypt m s lang d = (d, Panic).
Proof. exact @encrypt_aborts. Qed.
Print Assumptions C100_encrypt_aborts.
