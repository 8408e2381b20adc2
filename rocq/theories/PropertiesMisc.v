(** * PropertiesMisc: C48 to C51: symmetric layer and files

    Every statement is written out in full; the proofs are in the *Proofs files. *)
From Coq Require Import String Ascii List Bool Arith ZArith Lia.
From Verif Require Import Base Crypto Policy Tools Sharing Spec PolicyProofs Poly SharingProofs
  Msp MspProofs Dnf Symmetric Peg Grammar Parse PegProofs ParseProofs ParseText ParseHuman
  SchemeLib CoreProofs Files FilesProofs DnfProofs Bdabe BdabeProofs Mke08 Mke08Proofs
  Bsw BswProofs Ghw11 Ghw11Proofs Lsw LswProofs Yct14 Yct14Proofs Ac17 Ac17Proofs
  Aw11 Aw11Proofs EdgeProofs TruncationProofs Instance Sessions SessionProofs Witnesses.
Import ListNotations.
Local Open Scope string_scope.
Local Open Scope rand_scope.
Local Open Scope nat_scope.

(** C48. *)
Theorem C48_symmetric_roundtrip :
  (forall C : crypto,
  laws C ->
  forall (nonce : string) (m : GT C) (data ct : string),
  String.length nonce = 12 ->
  encrypt_symmetric nonce m data = Ok ct -> decrypt_symmetric m ct = Ok data)%F.
Proof. exact @symmetric_roundtrip. Qed.
Print Assumptions C48_symmetric_roundtrip.

Example C48_example : String.length nc = 12 /\ exists ct, encrypt_symmetric (C := ZC) nc (ztape 3 5) "hello" = Ok ct.
Proof. split; [ground|]. eexists. ground. Qed.

(** C48, the form of the output. *)
Theorem C48_symmetric_form :
  (forall (C : crypto) (nonce : string) (m : GT C) (data ct : string),
  encrypt_symmetric nonce m data = Ok ct ->
  ct = (nonce ++ aead_enc C (kdf C m) nonce data)%string)%F.
Proof. exact @symmetric_form. Qed.
Print Assumptions C48_symmetric_form.

(** C49 is false for short payloads. *)
Theorem C49_symmetric_short :
  (forall (C : crypto) (m : GT C) (ct : string),
  String.length ct < 12 -> decrypt_symmetric m ct = Panic)%F.
Proof. exact @symmetric_short. Qed.
Print Assumptions C49_symmetric_short.

(** C49 is false. *)
Theorem C49_short_payload_refuted : exists payload, decrypt_symmetric (C := ZC) (ztape 3 5) payload = Panic.
Proof. exists "short". ground. Qed.
Print Assumptions C49_short_payload_refuted.

(** C49 holds from 12 bytes on. *)
Theorem C49_symmetric_long_partial :
  (forall (C : crypto) (m : GT C) (ct : string),
  12 <= String.length ct -> decrypt_symmetric m ct <> Panic)%F.
Proof. exact @symmetric_long. Qed.
Print Assumptions C49_symmetric_long_partial.

Example C49_example : 12 <= String.length "abcdefghijklm" /\
  decrypt_symmetric (C := ZC) (ztape 3 5) "abcdefghijklm" = Err.
Proof. split; [cbn; lia|ground]. Qed.

(** C50 holds for write_file. *)
Theorem C50_write_read_back :
  forall (d : fs) (path content : string) (b : bool) (d' : fs),
  write_file d path content = Ok (b, d') ->
  (forall f : file, fs_files d path = Some f -> f_readable f = true) ->
  b = true /\
  read_to_vec d' path = Ok content /\
  (utf8 content = true -> read_file d' path = Ok content).
Proof. exact @write_read_back. Qed.
Print Assumptions C50_write_read_back.

(** C50: no other path changes. *)
Theorem C50_write_file_other :
  forall (d : fs) (path content : string) (b : bool) (d' : fs) (q : string),
  write_file d path content = Ok (b, d') -> q <> path -> fs_files d' q = fs_files d q.
Proof. exact @write_file_other. Qed.
Print Assumptions C50_write_file_other.

(** C50 is false for write_from_vec: it aborts on every non-empty content. *)
Theorem C50_write_from_vec_never :
  forall (d : fs) (path data : string),
  data <> ""%string -> write_from_vec d path data = Panic.
Proof. exact @write_from_vec_never. Qed.
Print Assumptions C50_write_from_vec_never.

(** C50: when write_from_vec returns, nothing was written. *)
Theorem C50_write_from_vec_noop :
  forall (d : fs) (path data : string) (d' : fs),
  write_from_vec d path data = Ok d' -> data = ""%string /\ d' = d.
Proof. exact @write_from_vec_noop. Qed.
Print Assumptions C50_write_from_vec_noop.

(** An empty file system in which every path can be created. *)
Definition empty_fs : fs := Fs (fun _ => None) (fun _ => true).

Example C50_example : exists d', write_file empty_fs "k" "data" = Ok (true, d') /\ read_to_vec d' "k" = Ok "data".
Proof. eexists. split; [reflexivity|]. reflexivity. Qed.

(** C50 is false for the other helper. *)
Theorem C50_write_from_vec_refuted : exists d path data, write_from_vec d path data = Panic.
Proof. exists empty_fs, "k", "data". ground. Qed.
Print Assumptions C50_write_from_vec_refuted.

(** C51. *)
Theorem C51_read_raw_middle :
  forall head payload tail : string,
  no_break head = true ->
  no_break payload = true ->
  read_raw (head ++ String nl (payload ++ String nl tail)) = Ok payload.
Proof. exact @read_raw_middle. Qed.
Print Assumptions C51_read_raw_middle.

Example C51_example : read_raw ("-----BEGIN CT-----" ++ String nl ("c0ffee" ++ String nl "-----END CT-----")) = Ok "c0ffee".
Proof. ground. Qed.

(** C51: a text of one line aborts. *)
Theorem C51_read_raw_short :
  forall raw : string, no_break raw = true -> read_raw raw = Panic.
Proof. exact @read_raw_short. Qed.
Print Assumptions C51_read_raw_short.

