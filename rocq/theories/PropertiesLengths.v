(** * PropertiesLengths: C131: how many bytes keys and ciphertexts take

    [long c v n]: written with the codec [c], [v] has [n] bytes.  [text s] and [listing n] are the lengths
    of a text and of a list, with the four bytes of the count; [sealed data] that of the sealed data.  The
    bytes are those of the feature "borsh".  The proofs are in LengthsProofs.v. *)
From Coq Require Import String Ascii List Bool Arith NArith ZArith Lia.
From Verif Require Import Base Crypto Policy Spec Symmetric Parse Dnf Borsh Lengths LengthsProofs
  Bdabe Mke08 Bsw Lsw Yct14 Ac17 Aw11 Instance Witnesses BnInstance Sha3 Gcm PrimitiveProofs RealInstance.
Import ListNotations.
Local Open Scope string_scope.

(** C131: public and master keys that hold no list. *)
Theorem C131_fixed :
  forall (C : crypto) (W : wire C) (wf wa wb wt : nat),
  widths W wf wa wb wt ->
  (forall k : bsw_pk C, long (c_bsw_pk W) k (2 * wa + 2 * wb + wt)) /\
  (forall k : bsw_msk C, long (c_bsw_msk W) k (wf + wb)) /\
  (forall k : lsw_pk C, long (c_lsw_pk W) k (4 * wa + wb + wt)) /\
  (forall k : lsw_msk C, long (c_lsw_msk W) k (3 * wf + wa + wb)) /\
  (forall k : aw_gk C, long (c_aw_gk W) k (wa + wb)) /\
  (forall k : bd_pk C, long (c_bd_pk W) k (2 * wa + 2 * wb + wt)) /\
  (forall k : bd_msk C, long (c_bd_msk W) k wf) /\
  (forall k : mk_pk C, long (c_mk_pk W) k (2 * wa + 2 * wb + 2 * wt)) /\
  (forall k : mk_msk C, long (c_mk_msk W) k (wa + wb)).
Proof. exact @fixed_long. Qed.
Print Assumptions C131_fixed.

(** C131: a BSW key. *)
Theorem C131_bsw_keygen :
  forall C : crypto,
  laws C ->
  forall (W : wire C) (wf wa wb wt : nat),
  widths W wf wa wb wt ->
  forall (pk : bsw_pk C) (msk : bsw_msk C) (attrs : list string) (t : nat -> F C) (i : nat) 
    (sk : bsw_sk C) (j : nat),
  bsw_keygen pk msk attrs t i = Ok (Some sk, j) ->
  long (c_bsw_sk W) sk (wb + listing (map (fun a : string => text a + wa + wb) attrs)).
Proof. exact @bsw_keygen_long. Qed.
Print Assumptions C131_bsw_keygen.

(** C131: a delegated BSW key is as long as a fresh one. *)
Theorem C131_bsw_delegate :
  forall (C : crypto) (W : wire C) (wf wa wb wt : nat),
  widths W wf wa wb wt ->
  forall (pk : bsw_pk C) (sk0 : bsw_sk C) (attrs : list string) (t : nat -> F C) (i : nat) 
    (sk : bsw_sk C) (j : nat),
  bsw_delegate pk sk0 attrs t i = Ok (Some sk, j) ->
  long (c_bsw_sk W) sk (wb + listing (map (fun a : string => text a + wa + wb) attrs)).
Proof. exact @bsw_delegate_long. Qed.
Print Assumptions C131_bsw_delegate.

(** C131: a BSW ciphertext. *)
Theorem C131_bsw_encrypt :
  forall C : crypto,
  laws C ->
  forall (W : wire C) (wf wa wb wt : nat),
  widths W wf wa wb wt ->
  forall (nonce : string) (pk : bsw_pk C) (pol : string) (lang : language) (data : string) 
    (t : nat -> F C) (i : nat) (ct : bsw_ct C) (j : nat) (f : formula),
  seals C nonce ->
  parse pol lang = Ok (tree f) ->
  bsw_encrypt nonce pk pol lang data t i = Ok (ct, j) ->
  long (c_bsw_ct W) ct
    (text pol + 1 + wa + wt +
     listing (map (fun l : string * nat => text (node_index (fst l) (snd l)) + wa + wb) (leaves f)) +
     sealed data).
Proof. exact @bsw_encrypt_long. Qed.
Print Assumptions C131_bsw_encrypt.

(** C131: an LSW key. *)
Theorem C131_lsw_keygen :
  forall C : crypto,
  laws C ->
  forall (W : wire C) (wf wa wb wt : nat),
  widths W wf wa wb wt ->
  forall (pk : lsw_pk C) (msk : lsw_msk C) (pol : string) (lang : language) (t : nat -> F C) 
    (i : nat) (sk : lsw_sk C) (j : nat) (f : formula),
  parse pol lang = Ok (tree f) ->
  lsw_keygen pk msk pol lang t i = Ok (sk, j) ->
  long (c_lsw_sk W) sk
    (text pol + 1 +
     listing
       (map (fun l : string * nat => text (remove_index (node_index (fst l) (snd l))) + wa + wb + wa + wa + wa)
          (leaves f))).
Proof. exact @lsw_keygen_long. Qed.
Print Assumptions C131_lsw_keygen.

(** C131: an LSW ciphertext. *)
Theorem C131_lsw_encrypt :
  forall C : crypto,
  laws C ->
  forall (W : wire C) (wf wa wb wt : nat),
  widths W wf wa wb wt ->
  forall (nonce : string) (pk : lsw_pk C) (attrs : list string) (data : string) (t : nat -> F C) 
    (i : nat) (ct : lsw_ct C) (j : nat),
  seals C nonce ->
  lsw_encrypt nonce pk attrs data t i = Ok (ct, j) ->
  long (c_lsw_ct W) ct (wt + wb + listing (map (fun a : string => text a + wa + wa + wa) attrs) + sealed data).
Proof. exact @lsw_encrypt_long. Qed.
Print Assumptions C131_lsw_encrypt.

(** C131: YCT14 public and master key, whose attribute values are not written (C66). *)
Theorem C131_yct_setup :
  forall (C : crypto) (W : wire C) (wf wa wb wt : nat),
  widths W wf wa wb wt ->
  forall (attrs : list string) (t : nat -> F C) (i : nat) (pk : yct_pk C) (msk : yct_msk C) (j : nat),
  yct_setup attrs t i = Ok (pk, msk, j) ->
  long (c_yct_pk W) pk (wt + listing (map text attrs)) /\ long (c_yct_msk W) msk (wf + listing (map text attrs)).
Proof. exact @yct_setup_long. Qed.
Print Assumptions C131_yct_setup.

(** C131: a YCT14 key: only the leaves for which the master key has a part. *)
Theorem C131_yct_keygen :
  forall C : crypto,
  laws C ->
  forall (msk : yct_msk C) (pol : string) (lang : language) (t : nat -> F C) (i : nat) 
    (sk : yct_sk C) (j : nat) (f : formula),
  parse pol lang = Ok (tree f) ->
  yct_keygen msk pol lang t i = Ok (sk, j) ->
  long c_yct_sk sk
    (text pol + 1 +
     listing
       (map text
          (filter (served msk)
             (map (fun l : string * nat => remove_index (node_index (fst l) (snd l))) (leaves f))))).
Proof. exact @yct_keygen_long. Qed.
Print Assumptions C131_yct_keygen.

(** C131: a YCT14 ciphertext. *)
Theorem C131_yct_encrypt :
  forall (C : crypto) (nonce : string) (pk : yct_pk C) (attrs : list string) (data : string) 
    (t : nat -> F C) (i : nat) (ct : yct_ct C) (j : nat),
  seals C nonce ->
  yct_encrypt nonce pk attrs data t i = Ok (ct, j) -> long c_yct_ct ct (listing (map text attrs) + sealed data).
Proof. exact @yct_encrypt_long. Qed.
Print Assumptions C131_yct_encrypt.

(** C131: AC17 public and master key. *)
Theorem C131_ac_setup :
  forall (C : crypto) (W : wire C) (wf wa wb wt : nat),
  widths W wf wa wb wt ->
  forall (t : nat -> F C) (i : nat) (pk : ac_pk C) (msk : ac_msk C) (j : nat),
  ac_setup t i = Ok (pk, msk, j) ->
  long (c_ac_pk W) pk (wa + (4 + 3 * wb) + (4 + 2 * wt)) /\
  long (c_ac_msk W) msk (wa + wb + (4 + 3 * wa) + (4 + 2 * wf) + (4 + 2 * wf)).
Proof. exact @ac_setup_long. Qed.
Print Assumptions C131_ac_setup.

(** C131: an AC17 CP key; each name is written twice. *)
Theorem C131_cp_keygen :
  forall C : crypto,
  laws C ->
  forall (W : wire C) (wf wa wb wt : nat),
  widths W wf wa wb wt ->
  forall (t0 : nat -> F C) (i0 : nat) (pk : ac_pk C) (msk : ac_msk C) (j0 : nat) (attrs : list string)
    (t : nat -> F C) (i : nat) (sk : ac_cpsk C) (j : nat),
  ac_setup t0 i0 = Ok (pk, msk, j0) ->
  cp_keygen msk attrs t i = Ok (sk, j) ->
  long (c_ac_cpsk W) sk
    (listing (map text attrs) +
     (4 + 3 * wb + listing (map (fun a : string => text a + (4 + 3 * wa)) attrs) + (4 + 3 * wa))).
Proof. exact @cp_keygen_long. Qed.
Print Assumptions C131_cp_keygen.

(** C131: an AC17 CP ciphertext. *)
Theorem C131_cp_encrypt :
  forall C : crypto,
  laws C ->
  forall (W : wire C) (wf wa wb wt : nat),
  widths W wf wa wb wt ->
  forall (nonce : string) (t0 : nat -> F C) (i0 : nat) (pk : ac_pk C) (msk : ac_msk C) 
    (j0 : nat) (pol : string) (lang : language) (data : string) (t : nat -> F C) (i : nat) 
    (ct : ac_cpct C) (j : nat) (f : formula),
  ac_setup t0 i0 = Ok (pk, msk, j0) ->
  seals C nonce ->
  parse pol lang = Ok (tree f) ->
  binary_and f = true ->
  cp_encrypt nonce pk pol data lang t i = Ok (ct, j) ->
  long (c_ac_cpct W) ct
    (text pol + 1 +
     (4 + 3 * wb + listing (map (fun n : string => text n + (4 + 3 * wa)) (names f)) + wt + sealed data)).
Proof. exact @cp_encrypt_long. Qed.
Print Assumptions C131_cp_encrypt.

(** C131: an AC17 KP key. *)
Theorem C131_kp_keygen :
  forall C : crypto,
  laws C ->
  forall (W : wire C) (wf wa wb wt : nat),
  widths W wf wa wb wt ->
  forall (t0 : nat -> F C) (i0 : nat) (pk : ac_pk C) (msk : ac_msk C) (j0 : nat) (pol : string)
    (lang : language) (t : nat -> F C) (i : nat) (sk : ac_kpsk C) (j : nat) (f : formula),
  ac_setup t0 i0 = Ok (pk, msk, j0) ->
  parse pol lang = Ok (tree f) ->
  binary_and f = true ->
  kp_keygen msk pol lang t i = Ok (sk, j) ->
  long (c_ac_kpsk W) sk
    (text pol + 1 + (4 + 3 * wb + listing (map (fun n : string => text n + (4 + 3 * wa)) (names f)) + 4)).
Proof. exact @kp_keygen_long. Qed.
Print Assumptions C131_kp_keygen.

(** C131: an AC17 KP ciphertext. *)
Theorem C131_kp_encrypt :
  forall C : crypto,
  laws C ->
  forall (W : wire C) (wf wa wb wt : nat),
  widths W wf wa wb wt ->
  forall (nonce : string) (t0 : nat -> F C) (i0 : nat) (pk : ac_pk C) (msk : ac_msk C) 
    (j0 : nat) (attrs : list string) (data : string) (t : nat -> F C) (i : nat) (ct : ac_kpct C) 
    (j : nat),
  ac_setup t0 i0 = Ok (pk, msk, j0) ->
  seals C nonce ->
  kp_encrypt nonce pk attrs data t i = Ok (ct, j) ->
  long (c_ac_kpct W) ct
    (listing (map text attrs) +
     (4 + 3 * wb + listing (map (fun n : string => text n + (4 + 3 * wa)) attrs) + wt + sealed data)).
Proof. exact @kp_encrypt_long. Qed.
Print Assumptions C131_kp_encrypt.

(** C131: the keys of an AW11 authority. *)
Theorem C131_aw_authgen :
  forall (C : crypto) (W : wire C) (wf wa wb wt : nat),
  widths W wf wa wb wt ->
  forall (gk : aw_gk C) (attrs : list string) (t : nat -> F C) (i : nat) (pk : aw_pk C) 
    (msk : aw_msk C) (j : nat),
  aw_authgen gk attrs t i = Ok (Some (pk, msk), j) ->
  long (c_aw_pk W) pk (listing (map (fun a : string => text (upper C a) + wt + wb) attrs)) /\
  long (c_aw_msk W) msk (listing (map (fun a : string => text (upper C a) + wf + wf) attrs)).
Proof. exact @aw_authgen_long. Qed.
Print Assumptions C131_aw_authgen.

(** C131: an AW11 key. *)
Theorem C131_aw_keygen :
  forall (C : crypto) (W : wire C) (wf wa wb wt : nat),
  widths W wf wa wb wt ->
  forall (gk : aw_gk C) (msk : aw_msk C) (gid : string) (attrs : list string) (sk : aw_sk C),
  aw_keygen gk msk gid attrs = Ok sk ->
  long (c_aw_sk W) sk (text gid + listing (map (fun a : string => text (upper C a) + wa) attrs)).
Proof. exact @aw_keygen_long. Qed.
Print Assumptions C131_aw_keygen.

(** C131: an AW11 ciphertext: only the leaves for which there is a public key. *)
Theorem C131_aw_encrypt :
  forall C : crypto,
  laws C ->
  forall (W : wire C) (wf wa wb wt : nat),
  widths W wf wa wb wt ->
  forall (nonce : string) (gk : aw_gk C) (pks : list (aw_pk C)) (pol : string) (lang : language) 
    (data : string) (t : nat -> F C) (i : nat) (ct : aw_ct C) (j : nat) (f : formula),
  seals C nonce ->
  parse pol lang = Ok (tree f) ->
  aw_encrypt nonce gk pks pol lang data t i = Ok (ct, j) ->
  long (c_aw_ct W) ct
    (text pol + 1 + wt +
     listing
       (map (fun n : string => text (upper C n) + wt + wb + wb)
          (filter (published pks) (map (fun l : string * nat => node_index (fst l) (snd l)) (leaves f)))) +
     sealed data).
Proof. exact @aw_encrypt_long. Qed.
Print Assumptions C131_aw_encrypt.

(** C131: a BDABE authority. *)
Theorem C131_bd_authgen :
  forall (C : crypto) (W : wire C) (wf wa wb wt : nat),
  widths W wf wa wb wt ->
  forall (pk : bd_pk C) (msk : bd_msk C) (name : string) (t : nat -> F C) (i : nat) (au : bd_auth C) (j : nat),
  bd_authgen pk msk name t i = Ok (au, j) -> long (c_bd_auth W) au (text name + wa + wb + wf).
Proof. exact @bd_authgen_long. Qed.
Print Assumptions C131_bd_authgen.

(** C131: a BDABE user. *)
Theorem C131_bd_keygen :
  forall (C : crypto) (W : wire C) (wf wa wb wt : nat),
  widths W wf wa wb wt ->
  forall (pk : bd_pk C) (au : bd_auth C) (name : string) (t : nat -> F C) (i : nat) (uk : bd_uk C) (j : nat),
  bd_keygen pk au name t i = Ok (uk, j) -> long (c_bd_uk W) uk (wa + wb + (text name + wa + wb) + 4).
Proof. exact @bd_keygen_long. Qed.
Print Assumptions C131_bd_keygen.

(** C131: a public attribute key. *)
Theorem C131_bd_request_pk :
  forall (C : crypto) (W : wire C) (wf wa wb wt : nat),
  widths W wf wa wb wt ->
  forall (pk : bd_pk C) (au : bd_auth C) (a : string) (k : bd_apk C),
  bd_request_pk pk au a = Ok k -> long (c_bd_apk W) k (text a + wa + wb + wt).
Proof. exact @bd_request_pk_long. Qed.
Print Assumptions C131_bd_request_pk.

(** C131: a secret one. *)
Theorem C131_bd_request_sk :
  forall (C : crypto) (W : wire C) (wf wa wb wt : nat),
  widths W wf wa wb wt ->
  forall (pk : bd_upk C) (au : bd_auth C) (a : string) (k : bd_ask C),
  bd_request_sk pk au a = Ok k -> long (c_bd_ask W) k (text a + wa + wb).
Proof. exact @bd_request_sk_long. Qed.
Print Assumptions C131_bd_request_sk.

(** C131: a BDABE ciphertext. *)
Theorem C131_bd_encrypt :
  forall (C : crypto) (W : wire C) (wf wa wb wt : nat),
  widths W wf wa wb wt ->
  forall (nonce : string) (pk : bd_pk C) (apks : list (bd_apk C)) (pol : string) (lang : language)
    (data : string) (t : nat -> F C) (i : nat) (ct : bd_ct C) (j : nat) (v : pvalue) 
    (T : list (term C)),
  seals C nonce ->
  parse pol lang = Ok v ->
  json_to_dnf v (map bd_pak apks) = Ok T ->
  bd_encrypt nonce pk apks pol lang data t i = Ok (ct, j) ->
  long (c_bd_ct W) ct
    (text pol + 1 + listing (map (fun c : term C => listing (map text (tm_attrs c)) + wt + wa + wb + wa + wb) T) +
     sealed data).
Proof. exact @bd_encrypt_long. Qed.
Print Assumptions C131_bd_encrypt.

(** C131: an MKE08 authority. *)
Theorem C131_mk_authgen :
  forall (C : crypto) (W : wire C) (wf wa wb wt : nat),
  widths W wf wa wb wt ->
  forall (name : string) (t : nat -> F C) (i : nat) (au : mk_auth C) (j : nat),
  mk_authgen (C := C) name t i = Ok (au, j) -> long (c_mk_auth W) au (text name + wf).
Proof. exact @mk_authgen_long. Qed.
Print Assumptions C131_mk_authgen.

(** C131: an MKE08 user. *)
Theorem C131_mk_keygen :
  forall (C : crypto) (W : wire C) (wf wa wb wt : nat),
  widths W wf wa wb wt ->
  forall (pk : mk_pk C) (msk : mk_msk C) (name : string) (t : nat -> F C) (i : nat) (uk : mk_uk C) (j : nat),
  mk_keygen pk msk name t i = Ok (uk, j) -> long (c_mk_uk W) uk (wa + wb + (text name + wa + wb) + 4).
Proof. exact @mk_keygen_long. Qed.
Print Assumptions C131_mk_keygen.

(** C131: a public attribute key. *)
Theorem C131_mk_request_pk :
  forall (C : crypto) (W : wire C) (wf wa wb wt : nat),
  widths W wf wa wb wt ->
  forall (pk : mk_pk C) (a : string) (au : mk_auth C) (k : mk_apk C),
  mk_request_pk pk a au = Ok k -> long (c_mk_apk W) k (text a + wa + wb + wt + wt).
Proof. exact @mk_request_pk_long. Qed.
Print Assumptions C131_mk_request_pk.

(** C131: a secret one. *)
Theorem C131_mk_request_sk :
  forall (C : crypto) (W : wire C) (wf wa wb wt : nat),
  widths W wf wa wb wt ->
  forall (pk : mk_upk C) (a : string) (au : mk_auth C) (k : mk_ask C),
  mk_request_sk pk a au = Ok k -> long (c_mk_ask W) k (text a + wa + wb).
Proof. exact @mk_request_sk_long. Qed.
Print Assumptions C131_mk_request_sk.

(** C131: an MKE08 ciphertext. *)
Theorem C131_mk_encrypt :
  forall (C : crypto) (W : wire C) (wf wa wb wt : nat),
  widths W wf wa wb wt ->
  forall (nonce : string) (pk : mk_pk C) (apks : list (mk_apk C)) (pol : string) (lang : language)
    (data : string) (t : nat -> F C) (i : nat) (ct : mk_ct C) (j : nat) (v : pvalue) 
    (T : list (term C)),
  seals C nonce ->
  parse pol lang = Ok v ->
  json_to_dnf v (map mk_pak apks) = Ok T ->
  mk_encrypt nonce pk apks pol lang data t i = Ok (ct, j) ->
  long (c_mk_ct W) ct
    (text pol + 1 +
     listing (map (fun c : term C => listing (map text (tm_attrs c)) + wt + wt + wa + wb + wa + wb) T) +
     sealed data).
Proof. exact @mk_encrypt_long. Qed.
Print Assumptions C131_mk_encrypt.

(** C131: so values that agree in these lengths take the same number of bytes, whatever was drawn. *)
Theorem C131_alike :
  forall (A : Type) (c : codec A) (v v' : A) (n : nat) (b b' : string),
  long c v n -> long c v' n -> enc c v = Some b -> enc c v' = Some b' -> String.length b = String.length b'.
Proof. exact @long_alike. Qed.
Print Assumptions C131_alike.

(** C131: the cipher of the code seals as assumed. *)
Theorem C131_seals :
  forall (C : crypto) (nonce : string), aead_enc C = gcm_enc -> String.length nonce = 12 -> seals C nonce.
Proof. exact gcm_seals. Qed.
Print Assumptions C131_seals.

(** ** A case: the operations of RealInstance.v, elements written in 32 bytes *)
Definition le32 (z : Z) : string :=
  string_of_list_ascii (map (fun i => ascii_of_N (Z.to_N (Z.shiftr z (8 * Z.of_nat i)) mod 256)) (seq 0 32)).
Definition rcodec : codec (zq bn_order) := Codec (fun x => Some (le32 (qval bn_order x))) (fun _ => None).
Definition RC : crypto := real (fun x => le32 (qval bn_order x)) (fun s => s).
Definition rwire : wire RC := Wire RC rcodec rcodec rcodec rcodec.
Definition rtape (n : nat) : zq bn_order := qmk bn_order bn_prime (Z.of_nat n + 2).
(** The number of bytes of what a program returns. *)
Definition weight {A} (c : codec A) (m : rand (F RC) A) : option nat :=
  match m rtape 5%nat with Ok (x, _) => option_map String.length (enc c x) | _ => None end.

Example C131_example_widths : widths rwire 32 32 32 32 /\ seals RC nc.
Proof.
  split; [repeat split; intros x b E; injection E as <-; reflexivity|].
  apply gcm_seals; reflexivity.
Qed.
Example C131_example :
  parse P HumanPolicy = Ok (tree fP) /\ binary_and fP = true /\
  weight (c_bsw_ct rwire) (' (pk, msk) <- bsw_setup (C := RC) ;; bsw_encrypt nc pk P HumanPolicy "hello")%rand = Some 345%nat /\
  (text P + 1 + 32 + 32 + listing (map (fun l => text (node_index (fst l) (snd l)) + 32 + 32) (leaves fP)) + sealed "hello")%nat = 345%nat /\
  weight (c_lsw_ct rwire) (' (pk, msk) <- lsw_setup (C := RC) ;; lsw_encrypt nc pk ["A"; "B"] "hello")%rand = Some 307%nat /\
  weight (c_yct_ct) (' (pk, msk) <- yct_setup (C := RC) ["A"; "B"] ;; yct_encrypt nc pk ["A"; "B"] "hello")%rand = Some 51%nat /\
  weight (c_ac_cpct rwire) (' (pk, msk) <- ac_setup (C := RC) ;; cp_encrypt nc pk P "hello" HumanPolicy)%rand = Some 513%nat.
Proof. repeat apply conj; vm_compute; reflexivity. Qed.
