(** * PropertiesConsole: C65 to C78: serialised keys and the command line tool

    Every statement is written out in full; the proofs are in BorshProofs.v and ConsoleProofs.v. *)
From Coq Require Import String Ascii List Bool Arith ZArith Lia.
From Verif Require Import Base Crypto Policy Tools Spec Parse Files FilesProofs
  Bdabe Mke08 Bsw Lsw Yct14 Ac17 Aw11 Instance Witnesses
  Borsh BorshProofs Console ConsoleProofs ConsoleWitnesses.
Import ListNotations.
Local Open Scope string_scope.

(** C65. Every value that fits the format (texts are UTF-8, lengths below 2^32) is read back. *)
Theorem C65_bsw_borsh :
  forall (C : crypto) (W : wire C),
  wire_ok W ->
  (forall x : bsw_pk C, survives (c_bsw_pk W) x) /\
  (forall x : bsw_msk C, survives (c_bsw_msk W) x) /\
  (forall x : bsw_sk C, wf_bsw_sk x -> survives (c_bsw_sk W) x) /\
  (forall x : bsw_ct C, wf_bsw_ct x -> survives (c_bsw_ct W) x).
Proof. exact @bsw_borsh. Qed.
Print Assumptions C65_bsw_borsh.

Example C65_example_wire : wire_ok zwire.
Proof. exact zwire_ok. Qed.
Example C65_example_value :
  wf_bsw_ct (BswCt ("""A"" and ""B""", HumanPolicy) (zmk 3 : G1 ZC) (zmk 5 : GT ZC)
    [BAttr "A_1" (zmk 7 : G1 ZC) (zmk 8 : G2 ZC); BAttr "B_7" (zmk 9 : G1 ZC) (zmk 2 : G2 ZC)] "payload").
Proof.
  split; [split; [reflexivity|]; unfold fits; vm_compute; reflexivity|].
  split; [split; [unfold fits; vm_compute; reflexivity|] | unfold fits; vm_compute; reflexivity].
  repeat constructor; unfold fits; vm_compute; reflexivity.
Qed.

(** C65, LSW. *)
Theorem C65_lsw_borsh :
  forall (C : crypto) (W : wire C),
  wire_ok W ->
  (forall x : lsw_pk C, survives (c_lsw_pk W) x) /\
  (forall x : lsw_msk C, survives (c_lsw_msk W) x) /\
  (forall x : lsw_sk C, wf_lsw_sk x -> survives (c_lsw_sk W) x) /\
  (forall x : lsw_ct C, wf_lsw_ct x -> survives (c_lsw_ct W) x).
Proof. exact @lsw_borsh. Qed.
Print Assumptions C65_lsw_borsh.

(** C65, AC17 in both forms. *)
Theorem C65_ac17_borsh :
  forall (C : crypto) (W : wire C),
  wire_ok W ->
  (forall x : ac_pk C, wf_ac_pk x -> survives (c_ac_pk W) x) /\
  (forall x : ac_msk C, wf_ac_msk x -> survives (c_ac_msk W) x) /\
  (forall x : ac_cpsk C, wf_ac_cpsk x -> survives (c_ac_cpsk W) x) /\
  (forall x : ac_kpsk C, wf_ac_kpsk x -> survives (c_ac_kpsk W) x) /\
  (forall x : ac_cpct C, wf_ac_cpct x -> survives (c_ac_cpct W) x) /\
  (forall x : ac_kpct C, wf_ac_kpct x -> survives (c_ac_kpct W) x).
Proof. exact @ac17_borsh. Qed.
Print Assumptions C65_ac17_borsh.

(** C65, AW11. *)
Theorem C65_aw11_borsh :
  forall (C : crypto) (W : wire C),
  wire_ok W ->
  (forall x : aw_gk C, survives (c_aw_gk W) x) /\
  (forall x : aw_pk C, wf_aw_pk x -> survives (c_aw_pk W) x) /\
  (forall x : aw_msk C, wf_aw_msk x -> survives (c_aw_msk W) x) /\
  (forall x : aw_sk C, wf_aw_sk x -> survives (c_aw_sk W) x) /\
  (forall x : aw_ct C, wf_aw_ct x -> survives (c_aw_ct W) x).
Proof. exact @aw11_borsh. Qed.
Print Assumptions C65_aw11_borsh.

(** C65, BDABE. *)
Theorem C65_bdabe_borsh :
  forall (C : crypto) (W : wire C),
  wire_ok W ->
  (forall x : bd_pk C, survives (c_bd_pk W) x) /\
  (forall x : bd_msk C, survives (c_bd_msk W) x) /\
  (forall x : bd_auth C, wf_bd_auth x -> survives (c_bd_auth W) x) /\
  (forall x : bd_apk C, wf_bd_apk x -> survives (c_bd_apk W) x) /\
  (forall x : bd_ask C, wf_bd_ask x -> survives (c_bd_ask W) x) /\
  (forall x : bd_uk C, wf_bd_uk x -> survives (c_bd_uk W) x) /\
  (forall x : bd_ct C, wf_bd_ct x -> survives (c_bd_ct W) x).
Proof. exact @bdabe_borsh. Qed.
Print Assumptions C65_bdabe_borsh.

(** C65, MKE08. *)
Theorem C65_mke08_borsh :
  forall (C : crypto) (W : wire C),
  wire_ok W ->
  (forall x : mk_pk C, survives (c_mk_pk W) x) /\
  (forall x : mk_msk C, survives (c_mk_msk W) x) /\
  (forall x : mk_auth C, wf_mk_auth x -> survives (c_mk_auth W) x) /\
  (forall x : mk_apk C, wf_mk_apk x -> survives (c_mk_apk W) x) /\
  (forall x : mk_ask C, wf_mk_ask x -> survives (c_mk_ask W) x) /\
  (forall x : mk_uk C, wf_mk_uk x -> survives (c_mk_uk W) x) /\
  (forall x : mk_ct C, wf_mk_ct x -> survives (c_mk_ct W) x).
Proof. exact @mke08_borsh. Qed.
Print Assumptions C65_mke08_borsh.

(** C66 is false: reading back a public key loses the values of all attributes. *)
Theorem C66_yct_pk_reads :
  forall (C : crypto) (W : wire C),
  wire_ok W ->
  forall pk : yct_pk C,
  all named (ypk_attrs pk) ->
  exists s : string,
    enc (c_yct_pk W) pk = Some s /\ try_from_slice (c_yct_pk W) s = Ok (forget_pk pk).
Proof. exact @yct_pk_reads. Qed.
Print Assumptions C66_yct_pk_reads.

Theorem C66_yct_borsh_refuted :
  exists (W : wire ZC) (pk pk' : yct_pk ZC) s, wire_ok W /\
    enc (c_yct_pk W) pk = Some s /\ try_from_slice (c_yct_pk W) s = Ok pk' /\ pk' <> pk.
Proof.
  pose (pk := YctPk (zmk 3 : GT ZC) [YAttr "A" (Some (YPub (zmk 7 : GT ZC)))]).
  destruct (yct_pk_reads zwire zwire_ok pk) as (s & H1 & H2).
  { split; [vm_compute; reflexivity|]. repeat constructor. }
  exists zwire, pk, (forget_pk pk), s. repeat split; try apply zwire_ok; auto. discriminate.
Qed.
Print Assumptions C66_yct_borsh_refuted.

(** C66, the master key. *)
Theorem C66_yct_msk_reads :
  forall (C : crypto) (W : wire C),
  wire_ok W ->
  forall msk : yct_msk C,
  all named (ymsk_attrs msk) ->
  exists s : string,
    enc (c_yct_msk W) msk = Some s /\ try_from_slice (c_yct_msk W) s = Ok (forget_msk msk).
Proof. exact @yct_msk_reads. Qed.
Print Assumptions C66_yct_msk_reads.

(** C66, secret keys. *)
Theorem C66_yct_sk_reads :
  forall (C : crypto) (sk : yct_sk C),
  text (fst (ysk_policy sk)) ->
  all named (ysk_du sk) ->
  exists s : string,
    enc c_yct_sk sk = Some s /\ try_from_slice (@c_yct_sk C) s = Ok (forget_sk sk).
Proof. exact @yct_sk_reads. Qed.
Print Assumptions C66_yct_sk_reads.

(** C66, ciphertexts. *)
Theorem C66_yct_ct_reads :
  forall (C : crypto) (ct : yct_ct C),
  all named (yct_attrs ct) ->
  bytes (yct_data ct) ->
  exists s : string,
    enc c_yct_ct ct = Some s /\ try_from_slice (@c_yct_ct C) s = Ok (forget_ct ct).
Proof. exact @yct_ct_reads. Qed.
Print Assumptions C66_yct_ct_reads.

(** C66. Encryption under a public key that was read back aborts. *)
Theorem C66_lost_encrypt :
  forall (C : crypto) (nonce : string) (pk : yct_pk C) (attrs : list string)
    (data : string) (t : nat -> F C) (i : nat),
  attrs <> [] -> data <> "" -> yct_encrypt nonce (forget_pk pk) attrs data t i = Panic.
Proof. exact @lost_encrypt. Qed.
Print Assumptions C66_lost_encrypt.

(** C66. A key made with a master key that was read back is empty. *)
Theorem C66_lost_keygen :
  forall (C : crypto) (msk : yct_msk C) (policy : string) (lang : language)
    (t : nat -> F C) (i : nat) (sk : yct_sk C) (j : nat),
  yct_keygen (forget_msk msk) policy lang t i = Ok (sk, j) -> ysk_du sk = [].
Proof. exact @lost_keygen. Qed.
Print Assumptions C66_lost_keygen.

(** C66. A secret key that was read back opens nothing. *)
Theorem C66_lost_sk :
  forall (C : crypto) (sk : yct_sk C) (ct : yct_ct C) (data : string),
  yct_decrypt (forget_sk sk) ct <> Ok data.
Proof. exact @lost_sk. Qed.
Print Assumptions C66_lost_sk.

(** C66. A ciphertext that was read back cannot be opened. *)
Theorem C66_lost_ct :
  forall (C : crypto) (sk : yct_sk C) (ct : yct_ct C) (data : string),
  yct_decrypt sk (forget_ct ct) <> Ok data.
Proof. exact @lost_ct. Qed.
Print Assumptions C66_lost_ct.

(** C67. For every type of key and every value that the format keeps. *)
Theorem C67_store_load :
  forall (C : crypto) (E : env C),
  env_ok E ->
  forall (A : Type) (p : string) (c : codec A) (v : A) (w : string) (d d' : fs),
  In w labels ->
  readable d p ->
  survives c v -> store E p c v w d = (d', Ok tt) -> ser_dec E c p d' = (d', Ok v).
Proof. exact @store_load. Qed.
Print Assumptions C67_store_load.

Example C67_example : forall pk : bsw_pk ZC,
  In "PK" labels /\ readable disk "pk.key" /\ survives (c_bsw_pk zwire) pk /\ env_ok zenv.
Proof.
  intros pk. split; [cbn; tauto|]. split; [apply disk_readable|]. split; [|exact zenv_ok].
  exact (proj1 (bsw_borsh zwire zwire_ok) pk).
Qed.
Example C67_example_run :
  snd (store zenv "pk.key" (c_bsw_pk zwire) (BswPk (zmk 1 : G1 ZC) (zmk 2 : G2 ZC) (zmk 3 : G1 ZC) (zmk 4 : G2 ZC) (zmk 5 : GT ZC)) "PK" disk) = Ok tt.
Proof. vm_compute. reflexivity. Qed.

(** C67, the hexadecimal text. *)
Theorem C67_hex_back :
  forall s : string, from_hex (to_hex s) = Some s.
Proof. exact @hex_back. Qed.
Print Assumptions C67_hex_back.

(** C68 is false: decrypt changes no file, whatever the keys. *)
Theorem C68_decrypt_state :
  forall (C : crypto) (E : env C) (m : args) (s : scheme) (d d' : fs) (r : outcome unit),
  run_decrypt E m s d = (d', r) -> d' = d.
Proof. exact @decrypt_state. Qed.
Print Assumptions C68_decrypt_state.

(** C68. If decryption works and the plaintext is not empty, the tool aborts. *)
Theorem C68_decrypt_panics :
  forall (C : crypto) (E : env C) (m : args) (s : scheme) (d : fs) (pt : string),
  snd (open_file E m s d) = Ok pt -> pt <> "" -> run_decrypt E m s d = (d, Panic).
Proof. exact @decrypt_panics. Qed.
Print Assumptions C68_decrypt_panics.

Theorem C68_decrypt_writes_refuted :
  exists (m : args) (d : fs), clap_ok Decrypt m /\
    snd (open_file zenv m AC17CP d) = Ok "hello" /\ run_decrypt zenv m AC17CP d = (d, Panic).
Proof.
  exists (args_of l_decrypt), (after_encrypt AC17CP l_setup l_keygen l_encrypt).
  assert (H : snd (open_file zenv (args_of l_decrypt) AC17CP (after_encrypt AC17CP l_setup l_keygen l_encrypt)) = Ok "hello")
    by (vm_compute; reflexivity).
  split; [apply clap_checked; vm_compute; reflexivity|]. split; [exact H|].
  apply (decrypt_panics zenv _ _ _ "hello" H). discriminate.
Qed.
Print Assumptions C68_decrypt_writes_refuted.

(** C68. The only success is the empty plaintext. *)
Theorem C68_decrypt_success :
  forall (C : crypto) (E : env C) (m : args) (s : scheme) (d d' : fs),
  run_decrypt E m s d = (d', Ok tt) -> d' = d /\ snd (open_file E m s d) = Ok "".
Proof. exact @decrypt_success. Qed.
Print Assumptions C68_decrypt_success.

(** C69 is false for BSW: the file does not decode to the ciphertext. *)
Theorem C69_wrap_bsw :
  forall (C : crypto) (E : env C),
  env_ok E ->
  forall (t : nat -> F C) (nonce text : string) (m : args) (lang : language) 
    (d d' : fs) (pk : bsw_pk C) (data : string) (ct : bsw_ct C) 
    (j : nat),
  clap_ok Encrypt m ->
  reads_pk E (c_bsw_pk (e_wire E)) m d pk ->
  reads_data m d data ->
  bsw_encrypt nonce pk (text_arg m POLICY) lang data t 0 = Ok (ct, j) ->
  readable d (enc_ct_file m) ->
  run_encrypt E t nonce text m BSW lang d = (d', Ok tt) ->
  snd (ser_dec E (c_bsw_ct (e_wire E)) (enc_ct_file m) d') <> Ok ct.
Proof. exact @wrap_bsw. Qed.
Print Assumptions C69_wrap_bsw.

(** The key satisfies the policy and the ciphertext was made (the first byte read back is
    the tag of [Ok]), but the file cannot be opened. *)
Theorem C69_ciphertext_file_refuted :
  exists (me md : args) (d d' : fs) (b : string), clap_ok Encrypt me /\ clap_ok Decrypt md /\
    run_encrypt zenv (ztape 5) nc "" me BSW HumanPolicy d = (d', Ok tt) /\
    ser_dec_bin zenv d' (enc_ct_file me) = Ok (String "001" b) /\
    text_arg md FILE = enc_ct_file me /\ snd (open_file zenv md BSW d') = Err.
Proof.
  exists (args_of l_encrypt), (args_of l_decrypt), (after_keygen BSW l_setup l_keygen),
    (after_encrypt BSW l_setup l_keygen l_encrypt).
  destruct (ser_dec_bin zenv (after_encrypt BSW l_setup l_keygen l_encrypt) "doc.ct") as [[|a b]| |] eqn:B;
    try (exfalso; vm_compute in B; discriminate).
  exists b.
  split; [apply clap_checked; vm_compute; reflexivity|].
  split; [apply clap_checked; vm_compute; reflexivity|].
  split; [apply stepped; vm_compute; reflexivity|].
  split; [|split; vm_compute; reflexivity].
  replace (enc_ct_file (args_of l_encrypt)) with "doc.ct" by (vm_compute; reflexivity).
  rewrite B. repeat f_equal. vm_compute in B. congruence.
Qed.
Print Assumptions C69_ciphertext_file_refuted.

(** C69, LSW. *)
Theorem C69_wrap_lsw :
  forall (C : crypto) (E : env C),
  env_ok E ->
  forall (t : nat -> F C) (nonce text : string) (m : args) (lang : language) 
    (d d' : fs) (pk : lsw_pk C) (data : string) (ct : lsw_ct C) 
    (j : nat),
  clap_ok Encrypt m ->
  reads_pk E (c_lsw_pk (e_wire E)) m d pk ->
  reads_data m d data ->
  lsw_encrypt nonce pk (attr_args m) data t 0 = Ok (ct, j) ->
  readable d (enc_ct_file m) ->
  run_encrypt E t nonce text m LSW lang d = (d', Ok tt) ->
  snd (ser_dec E (c_lsw_ct (e_wire E)) (enc_ct_file m) d') <> Ok ct.
Proof. exact @wrap_lsw. Qed.
Print Assumptions C69_wrap_lsw.

(** C69, AW11. *)
Theorem C69_wrap_aw11 :
  forall (C : crypto) (E : env C),
  env_ok E ->
  forall (t : nat -> F C) (nonce text : string) (m : args) (lang : language) 
    (d d' : fs) (gp : aw_gk C) (pk : aw_pk C) (data : string) 
    (ct : aw_ct C) (j : nat),
  clap_ok Encrypt m ->
  ser_dec E (c_aw_gk (e_wire E)) (file_arg m GP_FILE) d = (d, Ok gp) ->
  reads_pk E (c_aw_pk (e_wire E)) m d pk ->
  reads_data m d data ->
  aw_encrypt nonce gp [pk] (text_arg m POLICY) lang data t 0 = Ok (ct, j) ->
  readable d (enc_ct_file m) ->
  run_encrypt E t nonce text m AW11 lang d = (d', Ok tt) ->
  snd (ser_dec E (c_aw_ct (e_wire E)) (enc_ct_file m) d') <> Ok ct.
Proof. exact @wrap_aw11. Qed.
Print Assumptions C69_wrap_aw11.

(** C70 is false: a refused encryption is reported as a success and leaves a file. *)
Theorem C70_refused_bsw :
  forall (C : crypto) (E : env C) (t : nat -> F C) (nonce text : string) 
    (m : args) (lang : language) (d : fs) (pk : bsw_pk C) (data s : string),
  clap_ok Encrypt m ->
  reads_pk E (c_bsw_pk (e_wire E)) m d pk ->
  reads_data m d data ->
  bsw_encrypt nonce pk (text_arg m POLICY) lang data t 0 = Err ->
  fs_may_create d (enc_ct_file m) = true ->
  enc c_string text = Some s ->
  exists d' : fs,
    run_encrypt E t nonce text m BSW lang d = (d', Ok tt) /\
    fs_files d' (enc_ct_file m) <> None.
Proof. exact @refused_bsw. Qed.
Print Assumptions C70_refused_bsw.

Theorem C70_refused_reported_refuted :
  exists (m : args) (d d' : fs) (b : string), clap_ok Encrypt m /\
    parse (text_arg m POLICY) HumanPolicy = Err /\
    run_encrypt zenv (ztape 5) nc "no policy" m BSW HumanPolicy d = (d', Ok tt) /\
    ser_dec_bin zenv d' (enc_ct_file m) = Ok (String "000" b).
Proof.
  exists (args_of l_bad), (after_setup BSW l_setup).
  exists (fst (run_encrypt zenv (ztape 5) nc "no policy" (args_of l_bad) BSW HumanPolicy (after_setup BSW l_setup))).
  destruct (ser_dec_bin zenv (fst (run_encrypt zenv (ztape 5) nc "no policy" (args_of l_bad) BSW HumanPolicy (after_setup BSW l_setup))) "doc.ct")
    as [[|a b]| |] eqn:B; try (exfalso; vm_compute in B; discriminate).
  exists b.
  split; [apply clap_checked; vm_compute; reflexivity|].
  split; [vm_compute; reflexivity|].
  split; [apply stepped; vm_compute; reflexivity|].
  replace (enc_ct_file (args_of l_bad)) with "doc.ct" by (vm_compute; reflexivity).
  rewrite B. repeat f_equal. vm_compute in B. congruence.
Qed.
Print Assumptions C70_refused_reported_refuted.

(** C70, LSW. *)
Theorem C70_refused_lsw :
  forall (C : crypto) (E : env C) (t : nat -> F C) (nonce text : string) 
    (m : args) (lang : language) (d : fs) (pk : lsw_pk C) (data s : string),
  clap_ok Encrypt m ->
  reads_pk E (c_lsw_pk (e_wire E)) m d pk ->
  reads_data m d data ->
  lsw_encrypt nonce pk (attr_args m) data t 0 = Err ->
  fs_may_create d (enc_ct_file m) = true ->
  enc c_string text = Some s ->
  exists d' : fs,
    run_encrypt E t nonce text m LSW lang d = (d', Ok tt) /\
    fs_files d' (enc_ct_file m) <> None.
Proof. exact @refused_lsw. Qed.
Print Assumptions C70_refused_lsw.

(** C71 is false: no accepted command line delegates a key. *)
Theorem C71_delegate_never :
  forall (C : crypto) (E : env C) (t : nat -> F C) (m : args) 
    (s : scheme) (d d' : fs) (r : outcome unit),
  clap_ok Delegate m ->
  posix d -> run_delegate E t m s d = (d', r) -> d' = d /\ r <> Ok tt.
Proof. exact @delegate_never. Qed.
Print Assumptions C71_delegate_never.

Theorem C71_delegate_refuted :
  exists (m : args) (d : fs), clap_ok Delegate m /\ posix disk /\
    d = after_keygen BSW l_setup l_keygen /\
    run_delegate zenv (ztape 6) m BSW d = (d, Panic).
Proof.
  exists (args_of l_delegate), (after_keygen BSW l_setup l_keygen).
  split; [apply clap_checked; vm_compute; reflexivity|].
  split; [exact disk_posix|]. split; [reflexivity|].
  assert (H : snd (run_delegate zenv (ztape 6) (args_of l_delegate) BSW (after_keygen BSW l_setup l_keygen)) = Panic)
    by (vm_compute; reflexivity).
  destruct (run_delegate zenv (ztape 6) (args_of l_delegate) BSW (after_keygen BSW l_setup l_keygen)) as [d' r] eqn:R.
  cbn [snd] in H. subst r. f_equal.
  refine (proj1 (delegate_never zenv (ztape 6) (args_of l_delegate) BSW _ _ _ _ _ R)).
  - apply clap_checked; vm_compute; reflexivity.
  - split; vm_compute; reflexivity.
Qed.
Print Assumptions C71_delegate_refuted.

(** C71. No accepted command line encrypts with AC17KP, BDABE or MKE08. *)
Theorem C71_encrypt_never :
  forall (C : crypto) (E : env C) (t : nat -> F C) (nonce text : string) 
    (m : args) (s : scheme) (lang : language) (d : fs),
  clap_ok Encrypt m ->
  posix d ->
  In s [AC17KP; BDABE; MKE08] -> run_encrypt E t nonce text m s lang d = (d, Panic).
Proof. exact @encrypt_never. Qed.
Print Assumptions C71_encrypt_never.

Theorem C71_encrypt_refuted :
  exists m : args, clap_ok Encrypt m /\ posix disk /\
    run_encrypt zenv (ztape 5) nc "" m BDABE HumanPolicy disk = (disk, Panic).
Proof.
  exists (args_of l_encrypt).
  assert (H : clap_ok Encrypt (args_of l_encrypt)) by (apply clap_checked; vm_compute; reflexivity).
  split; [exact H|]. split; [exact disk_posix|].
  apply encrypt_never; [exact H | exact disk_posix | cbn; tauto].
Qed.
Print Assumptions C71_encrypt_refuted.

(** C72 is false: setup writes the AW11 parameters where authgen does not look. *)
Theorem C72_aw11_lost :
  forall (C : crypto) (E : env C) (t t' : nat -> F C) (m m' : args) (d d' : fs),
  clap_ok Setup m ->
  clap_ok Authgen m' ->
  file_arg m MSK_FILE <> file_arg m' GP_FILE ->
  fs_files d (file_arg m' GP_FILE) = None ->
  run_setup E t m AW11 d = (d', Ok tt) -> run_authgen E t' m' AW11 d' = (d', Panic).
Proof. exact @aw11_lost. Qed.
Print Assumptions C72_aw11_lost.

Theorem C72_aw11_refuted :
  exists (m m' : args) (d : fs), clap_ok Setup m /\ clap_ok Authgen m' /\
    (forall k, In k [MSK_FILE; PK_FILE; GP_FILE] -> m k = m' k) /\
    run_setup zenv (ztape 3) m AW11 disk = (d, Ok tt) /\
    run_authgen zenv (ztape 4) m' AW11 d = (d, Panic).
Proof.
  exists (args_of l_setup), (args_of l_auth), (after_setup AW11 l_setup).
  assert (S : clap_ok Setup (args_of l_setup)) by (apply clap_checked; vm_compute; reflexivity).
  assert (A : clap_ok Authgen (args_of l_auth)) by (apply clap_checked; vm_compute; reflexivity).
  assert (R : run_setup zenv (ztape 3) (args_of l_setup) AW11 disk = (after_setup AW11 l_setup, Ok tt))
    by (apply stepped; vm_compute; reflexivity).
  split; [exact S|]. split; [exact A|].
  split; [intros k [<-|[<-|[<-|[]]]]; vm_compute; reflexivity|]. split; [exact R|].
  apply (aw11_lost zenv (ztape 3) (ztape 4) (args_of l_setup) (args_of l_auth) disk); auto.
  vm_compute. discriminate.
Qed.
Print Assumptions C72_aw11_refuted.

(** C73 is false: a key has at most one attribute. *)
Theorem C73_keygen_single :
  forall m : args,
  clap_ok Keygen m -> attr_args m = [] \/ (exists a : string, attr_args m = [a]).
Proof. exact @keygen_single. Qed.
Print Assumptions C73_keygen_single.

(** C73. No key that the tool writes opens a file whose policy needs two attributes. *)
Theorem C73_cp_single :
  forall C : crypto,
  laws C ->
  forall E : env C,
  env_ok E ->
  forall (ts tk te : nat -> F C) (nonce text : string) (ms mk me md : args)
    (lang lang' : language) (d d1 d2 d3 : fs) (data : string) 
    (f : formula),
  let msk := file_arg ms MSK_FILE in
  let pk := file_arg ms PK_FILE in
  let sk := file_arg mk SK_FILE in
  let ct := enc_ct_file me in
  clap_ok Keygen mk ->
  (forall a : string, sat (owns [a]) f = false) ->
  run_setup E ts ms AC17CP d = (d1, Ok tt) ->
  run_keygen E tk mk AC17CP lang' d1 = (d2, Ok tt) ->
  run_encrypt E te nonce text me AC17CP lang d2 = (d3, Ok tt) ->
  file_arg mk MSK_FILE = msk ->
  enc_pk_files me = [pk] ->
  file_arg md SK_FILE = sk ->
  text_arg md FILE = ct ->
  NoDup [msk; pk; sk; ct] ->
  ~ In (text_arg me FILE) [msk; pk; sk] ->
  Forall (readable d) [msk; pk; sk; ct] ->
  fs_open d (text_arg me FILE) = Some data ->
  Forall valid (attr_args mk) ->
  Forall valid (names f) ->
  valid (text_arg me POLICY) ->
  parse (text_arg me POLICY) lang = Ok (tree f) ->
  String.length nonce = 12 ->
  binary_and f = true -> NoDup (names f) -> snd (open_file E md AC17CP d3) = Err.
Proof. exact @cp_single. Qed.
Print Assumptions C73_cp_single.

Example C73_example : forall a, sat (owns [a]) (FAnd [FLeaf "A" 2; FLeaf "B" 10]) = false.
Proof.
  intros a. cbn. unfold seqb. destruct (String.eqb_spec "A" a) as [<-|]; [reflexivity|].
  destruct (String.eqb "B" a); reflexivity.
Qed.
Theorem C73_two_attributes_refuted :
  exists ms mk me md : args, clap_ok Setup ms /\ clap_ok Keygen mk /\ clap_ok Encrypt me /\ clap_ok Decrypt md /\
    exists d1 d2 d3,
    run_setup zenv (ztape 3) ms AC17CP disk = (d1, Ok tt) /\
    run_keygen zenv (ztape 4) mk AC17CP HumanPolicy d1 = (d2, Ok tt) /\
    run_encrypt zenv (ztape 5) nc "" me AC17CP HumanPolicy d2 = (d3, Ok tt) /\
    parse (text_arg me POLICY) HumanPolicy = Ok (tree (FAnd [FLeaf "A" 2; FLeaf "B" 10])) /\
    attr_args mk = ["A"] /\ snd (open_file zenv md AC17CP d3) = Err.
Proof.
  exists (args_of l_setup), (args_of l_keygen), (args_of l_and), (args_of l_decrypt).
  split; [apply clap_checked; vm_compute; reflexivity|].
  split; [apply clap_checked; vm_compute; reflexivity|].
  split; [apply clap_checked; vm_compute; reflexivity|].
  split; [apply clap_checked; vm_compute; reflexivity|].
  exists (after_setup AC17CP l_setup), (after_keygen AC17CP l_setup l_keygen),
    (after_encrypt AC17CP l_setup l_keygen l_and).
  split; [apply stepped; vm_compute; reflexivity|].
  split; [apply stepped; vm_compute; reflexivity|].
  split; [apply stepped; vm_compute; reflexivity|].
  repeat split; vm_compute; reflexivity.
Qed.
Print Assumptions C73_two_attributes_refuted.

(** C74. *)
Theorem C74_cp_console :
  forall C : crypto,
  laws C ->
  forall E : env C,
  env_ok E ->
  forall (ts tk te : nat -> F C) (nonce text : string) (ms mk me md : args)
    (lang lang' : language) (d d1 d2 d3 : fs) (data : string) 
    (f : formula),
  let msk := file_arg ms MSK_FILE in
  let pk := file_arg ms PK_FILE in
  let sk := file_arg mk SK_FILE in
  let ct := enc_ct_file me in
  run_setup E ts ms AC17CP d = (d1, Ok tt) ->
  run_keygen E tk mk AC17CP lang' d1 = (d2, Ok tt) ->
  run_encrypt E te nonce text me AC17CP lang d2 = (d3, Ok tt) ->
  file_arg mk MSK_FILE = msk ->
  enc_pk_files me = [pk] ->
  file_arg md SK_FILE = sk ->
  text_arg md FILE = ct ->
  NoDup [msk; pk; sk; ct] ->
  ~ In (text_arg me FILE) [msk; pk; sk] ->
  Forall (readable d) [msk; pk; sk; ct] ->
  fs_open d (text_arg me FILE) = Some data ->
  Forall valid (attr_args mk) ->
  Forall valid (names f) ->
  valid (text_arg me POLICY) ->
  parse (text_arg me POLICY) lang = Ok (tree f) ->
  String.length nonce = 12 ->
  binary_and f = true ->
  NoDup (names f) ->
  NoDup (attr_args mk) ->
  snd (open_file E md AC17CP d3) = (if sat (owns (attr_args mk)) f then Ok data else Err).
Proof. exact @cp_console. Qed.
Print Assumptions C74_cp_console.

(** A session that meets all conditions; the conclusion is then the document itself. *)
Example C74_example :
  snd (open_file zenv (args_of l_decrypt) AC17CP (after_encrypt AC17CP l_setup l_keygen l_encrypt)) = Ok "hello".
Proof.
  rewrite (C74_cp_console ZC ZL zenv zenv_ok (ztape 3) (ztape 4) (ztape 5) nc "" (args_of l_setup) (args_of l_keygen)
    (args_of l_encrypt) (args_of l_decrypt) HumanPolicy HumanPolicy disk (after_setup AC17CP l_setup)
    (after_keygen AC17CP l_setup l_keygen) (after_encrypt AC17CP l_setup l_keygen l_encrypt) "hello"
    (FOr [FLeaf "A" 2; FLeaf "B" 9])).
  - vm_compute. reflexivity.
  - apply stepped; vm_compute; reflexivity.
  - apply stepped; vm_compute; reflexivity.
  - apply stepped; vm_compute; reflexivity.
  - vm_compute. reflexivity.
  - vm_compute. reflexivity.
  - vm_compute. reflexivity.
  - vm_compute. reflexivity.
  - vm_compute. repeat constructor; cbn; intuition congruence.
  - vm_compute. intuition congruence.
  - repeat constructor; apply disk_readable.
  - vm_compute. reflexivity.
  - replace (attr_args (args_of l_keygen)) with ["A"] by (vm_compute; reflexivity). repeat constructor.
  - cbn. repeat constructor.
  - vm_compute. reflexivity.
  - vm_compute. reflexivity.
  - vm_compute. reflexivity.
  - vm_compute. reflexivity.
  - vm_compute. repeat constructor; cbn; intuition congruence.
  - vm_compute. repeat constructor; cbn; intuition congruence.
Qed.

(** C75 is false: no call encrypts with YCT14. *)
Theorem C75_yct_console_encrypt :
  forall (C : crypto) (E : env C) (t : nat -> F C) (nonce text : string) 
    (m : args) (lang : language) (d d' : fs) (r : outcome unit),
  run_encrypt E t nonce text m YCT14 lang d = (d', r) -> r <> Ok tt.
Proof. exact @yct_console_encrypt. Qed.
Print Assumptions C75_yct_console_encrypt.

(** C75. Every YCT14 key that the tool writes is empty. *)
Theorem C75_yct_console_keygen :
  forall (C : crypto) (E : env C) (t : nat -> F C) (m : args) 
    (lang : language) (d d' : fs),
  run_keygen E t m YCT14 lang d = (d', Ok tt) ->
  exists sk : yct_sk C,
    ysk_du sk = [] /\ store E (file_arg m SK_FILE) c_yct_sk sk "SK" d = (d', Ok tt).
Proof. exact @yct_console_keygen. Qed.
Print Assumptions C75_yct_console_keygen.

Theorem C75_yct_console_refuted :
  exists (ms mk me : args) (d1 d2 : fs), clap_ok Setup ms /\ clap_ok Keygen mk /\ clap_ok Encrypt me /\
    run_setup zenv (ztape 3) ms YCT14 disk = (d1, Ok tt) /\
    run_keygen zenv (ztape 4) mk YCT14 HumanPolicy d1 = (d2, Ok tt) /\
    attr_args ms = ["A"; "B"] /\ attr_args me = ["A"] /\
    snd (run_encrypt zenv (ztape 5) nc "" me YCT14 HumanPolicy d2) = Panic.
Proof.
  exists (args_of l_yct), (args_of l_ykey), (args_of l_encrypt), (after_setup YCT14 l_yct),
    (after_keygen YCT14 l_yct l_ykey).
  split; [apply clap_checked; vm_compute; reflexivity|].
  split; [apply clap_checked; vm_compute; reflexivity|].
  split; [apply clap_checked; vm_compute; reflexivity|].
  split; [apply stepped; vm_compute; reflexivity|].
  split; [apply stepped; vm_compute; reflexivity|].
  repeat split; vm_compute; reflexivity.
Qed.
Print Assumptions C75_yct_console_refuted.

(** C75. No call decrypts with YCT14. *)
Theorem C75_yct_console_decrypt :
  forall (C : crypto) (E : env C) (m : args) (d : fs) (data : string),
  snd (open_file E m YCT14 d) <> Ok data.
Proof. exact @yct_console_decrypt. Qed.
Print Assumptions C75_yct_console_decrypt.

(** C76 is false: whatever is called after keygen, the key file of the user opens nothing. *)
Theorem C76_bd_console_calls :
  forall (C : crypto) (E : env C),
  env_ok E ->
  forall (t : nat -> F C) (m : args) (lang : language) (md : args)
    (l : list (command * args)) (d d1 d2 : fs) (data : string),
  run_keygen E t m BDABE lang d = (d1, Ok tt) ->
  calls E l d1 d2 ->
  Forall (spares (named_file m)) l ->
  readable d (named_file m) ->
  valid (text_arg m NAME) ->
  file_arg md SK_FILE = named_file m -> snd (open_file E md BDABE d2) <> Ok data.
Proof. exact @bd_console_calls. Qed.
Print Assumptions C76_bd_console_calls.

Theorem C76_bd_console_refuted :
  exists (m : args) (d d1 : fs), clap_ok Keygen m /\
    run_keygen zenv (ztape 5) m BDABE HumanPolicy d = (d1, Ok tt) /\
    forall l d2 md data, calls zenv l d1 d2 -> Forall (spares (named_file m)) l ->
      file_arg md SK_FILE = named_file m -> snd (open_file zenv md BDABE d2) <> Ok data.
Proof.
  pose (m := args_of l_user).
  assert (R : run_keygen zenv (ztape 5) m BDABE HumanPolicy bd_authority =
              (fst (run_keygen zenv (ztape 5) m BDABE HumanPolicy bd_authority), Ok tt))
    by (apply stepped; vm_compute; reflexivity).
  exists m, bd_authority, (fst (run_keygen zenv (ztape 5) m BDABE HumanPolicy bd_authority)).
  split; [apply clap_checked; vm_compute; reflexivity|]. split; [exact R|].
  intros l d2 md data H S F.
  apply (bd_console_calls zenv zenv_ok (ztape 5) m HumanPolicy md l bd_authority _ d2 data R H S); [|vm_compute; reflexivity|exact F].
  intros f X. exfalso. vm_compute in X. discriminate.
Qed.
Print Assumptions C76_bd_console_refuted.

(** C76, MKE08. *)
Theorem C76_mk_console_calls :
  forall (C : crypto) (E : env C),
  env_ok E ->
  forall (t : nat -> F C) (m : args) (lang : language) (md : args)
    (l : list (command * args)) (d d1 d2 : fs) (data : string),
  run_keygen E t m MKE08 lang d = (d1, Ok tt) ->
  calls E l d1 d2 ->
  Forall (spares (named_file m)) l ->
  readable d (named_file m) ->
  valid (text_arg m NAME) ->
  file_arg md SK_FILE = named_file m -> snd (open_file E md MKE08 d2) <> Ok data.
Proof. exact @mk_console_calls. Qed.
Print Assumptions C76_mk_console_calls.

Theorem C76_mk_console_refuted :
  exists (m : args) (d d1 : fs), clap_ok Keygen m /\
    run_keygen zenv (ztape 5) m MKE08 HumanPolicy d = (d1, Ok tt) /\
    forall l d2 md data, calls zenv l d1 d2 -> Forall (spares (named_file m)) l ->
      file_arg md SK_FILE = named_file m -> snd (open_file zenv md MKE08 d2) <> Ok data.
Proof.
  pose (m := args_of l_user). pose (d := after_setup MKE08 l_setup).
  assert (R : run_keygen zenv (ztape 5) m MKE08 HumanPolicy d =
              (fst (run_keygen zenv (ztape 5) m MKE08 HumanPolicy d), Ok tt))
    by (apply stepped; vm_compute; reflexivity).
  exists m, d, (fst (run_keygen zenv (ztape 5) m MKE08 HumanPolicy d)).
  split; [apply clap_checked; vm_compute; reflexivity|]. split; [exact R|].
  intros l d2 md data H S F.
  apply (mk_console_calls zenv zenv_ok (ztape 5) m HumanPolicy md l d _ d2 data R H S); [|vm_compute; reflexivity|exact F].
  intros f X. exfalso. vm_compute in X. discriminate.
Qed.
Print Assumptions C76_mk_console_refuted.

(** C77. Whatever the result. *)
Theorem C77_run_frame :
  forall (C : crypto) (E : env C) (t : nat -> F C) (nonce text : string) 
    (c : command) (m : args) (s : scheme) (lang : language),
  frame (outputs c m) (run E t nonce text c m s lang).
Proof. exact @run_frame. Qed.
Print Assumptions C77_run_frame.

(** Not vacuous: setup changes the two files it may change, and spares the document. *)
Example C77_example :
  outputs Setup (args_of l_setup) = ["msk.key"; "pk.key"] /\
  snd (run zenv (ztape 3) nc "" Setup (args_of l_setup) BSW HumanPolicy disk) = Ok tt /\
  fs_files (after_setup BSW l_setup) "pk.key" <> None /\ fs_files (after_setup BSW l_setup) "doc" = fs_files disk "doc".
Proof. repeat split; vm_compute; congruence. Qed.

(** C77, for any number of calls. *)
Theorem C77_calls_frame :
  forall (C : crypto) (E : env C) (l : list (command * args)) (d d' : fs) (p : string),
  calls E l d d' -> Forall (spares p) l -> same_at d d' p.
Proof. exact @calls_frame. Qed.
Print Assumptions C77_calls_frame.

(** C78. *)
Theorem C78_run_clean :
  forall (C : crypto) (E : env C) (t : nat -> F C) (nonce text : string) 
    (c : command) (m : args) (s : scheme) (lang : language),
  clean (run E t nonce text c m s lang).
Proof. exact @run_clean. Qed.
Print Assumptions C78_run_clean.

(** An error that is reported: YCT14 setup without attributes. *)
Example C78_example :
  run zenv (ztape 3) nc "" Setup (args_of l_setup) YCT14 HumanPolicy disk = (disk, Err).
Proof. reflexivity. Qed.

