(** * PropertiesFiles: C99 and C100: the files of the command line tool

    [kinds], [holds], [first_key], [on_damage] are in ConsoleFiles.v: which
    files each command writes for each scheme, what such a file looks like,
    which key file is read first, and how a damaged one is answered. *)
From Coq Require Import String Ascii List Bool Arith NArith ZArith.
From Verif Require Import Base Crypto Policy Parse Files Instance Witnesses Borsh Console ConsoleProofs
  ConsoleWitnesses ConsoleFiles.
From Verif Require Bsw Lsw Yct14 Ac17 Aw11 Bdabe Mke08.
Import ListNotations.
Local Open Scope string_scope.

(** C99: whatever the result, a file that a command changed carries the label
    of its kind in both lines and the bytes of a value of its type. *)
Theorem C99_only_kinds :
  forall (C : crypto) (E : env C) (t : nat -> F C) (nonce text : string) (c : command) (m : args) (s : scheme)
    (lang : language) (d d' : fs) (r : outcome unit),
  run E t nonce text c m s lang d = (d', r) ->
  forall p, same_at d d' p \/ exists k, In k (kinds E c s m) /\ k_path k = p /\ holds E d' k.
Proof. exact @run_only. Qed.
Print Assumptions C99_only_kinds.

(** C99, after success, for all commands but one. *)
Theorem C99_success_writes_partial :
  forall (C : crypto) (E : env C) (t : nat -> F C) (nonce text : string) (c : command) (m : args) (s : scheme)
    (lang : language),
  (c, s) <> (ReqAttrSk, BDABE) ->
  forall d d' : fs, run E t nonce text c m s lang d = (d', Ok tt) ->
  forall k, In k (kinds E c s m) -> exists k', In k' (kinds E c s m) /\ k_path k' = k_path k /\ holds E d' k'.
Proof. intros C E t nonce text c m s lang. exact (run_every E t nonce text c m s lang). Qed.
Print Assumptions C99_success_writes_partial.

(** That command: a BDABE attribute key request that is refused. *)
Theorem C99_request_refused :
  forall (C : crypto) (E : env C) (t : nat -> F C) (nonce text : string) (m : args) (lang : language) (d : fs)
    (a : string) (usk : Bdabe.bd_uk C) (skau : Bdabe.bd_auth C),
  req_attrs m = [a] ->
  ser_dec E (c_bd_uk (e_wire E)) (file_arg m SK_FILE) d = (d, Ok usk) ->
  ser_dec E (c_bd_auth (e_wire E)) (file_arg m AU_SK_FILE) d = (d, Ok skau) ->
  Bdabe.bd_request_sk (Bdabe.buk_pk usk) skau a = Err ->
  run E t nonce text ReqAttrSk m BDABE lang d = (d, Ok tt).
Proof. exact @request_refused. Qed.
Print Assumptions C99_request_refused.

Definition l_ask := [(SK_FILE, ["u.key"]); (AU_SK_FILE, ["ska.key"]); (SKA_FILE, ["aska.key"]); (ATTRIBUTES, ["A"])].
Definition d_auth : fs := fst (run_authgen zenv (ztape 5) (args_of l_auth) BDABE (after_setup BDABE l_setup)).
Definition d_user : fs := fst (run_keygen zenv (ztape 4) (args_of l_user) BDABE HumanPolicy d_auth).

(** C99 is false: setup, authority, user and the request for a key succeed, and
    the key is not there. *)
Theorem C99_success_writes_refuted :
  exists (ms ma mu mr : args) (d1 d2 d3 d4 : fs),
    clap_ok Setup ms /\ clap_ok Authgen ma /\ clap_ok Keygen mu /\ clap_ok ReqAttrSk mr /\
    run zenv (ztape 3) nc "" Setup ms BDABE HumanPolicy disk = (d1, Ok tt) /\
    run zenv (ztape 5) nc "" Authgen ma BDABE HumanPolicy d1 = (d2, Ok tt) /\
    run zenv (ztape 4) nc "" Keygen mu BDABE HumanPolicy d2 = (d3, Ok tt) /\
    run zenv (ztape 6) nc "" ReqAttrSk mr BDABE HumanPolicy d3 = (d4, Ok tt) /\
    map k_path (kinds zenv ReqAttrSk BDABE mr) = ["aska.key"] /\ fs_files d4 "aska.key" = None.
Proof.
  exists (args_of l_setup), (args_of l_auth), (args_of l_user), (args_of l_ask),
    (after_setup BDABE l_setup), d_auth, d_user,
    (fst (run zenv (ztape 6) nc "" ReqAttrSk (args_of l_ask) BDABE HumanPolicy d_user)).
  split; [apply clap_checked; vm_compute; reflexivity|].
  split; [apply clap_checked; vm_compute; reflexivity|].
  split; [apply clap_checked; vm_compute; reflexivity|].
  split; [apply clap_checked; vm_compute; reflexivity|].
  split; [apply stepped; vm_compute; reflexivity|].
  split; [apply stepped; vm_compute; reflexivity|].
  split; [apply stepped; vm_compute; reflexivity|].
  split; [apply stepped; vm_compute; reflexivity|].
  split; vm_compute; reflexivity.
Qed.
Print Assumptions C99_success_writes_refuted.

(** Two files after setup; a refused setup leaves none. *)
Example C99_example :
  map (fun k => (k_path k, k_label k)) (kinds zenv Setup BSW (args_of l_setup)) = [("msk.key", "MSK"); ("pk.key", "PK")] /\
  (exists x, fs_files (after_setup BSW l_setup) "pk.key" = Some (File ("-----BEGIN PK-----" ++ nls ++ x) true)) /\
  run zenv (ztape 3) nc "" Setup (args_of l_setup) YCT14 HumanPolicy disk = (disk, Err).
Proof.
  split; [vm_compute; reflexivity|]. split; [eexists; vm_compute; reflexivity|]. reflexivity.
Qed.

(** C100: a key file whose text is not hexadecimal or does not inflate is
    reported, except in one command, and nothing is changed. *)
Theorem C100_damaged_key :
  forall (C : crypto) (E : env C) (t : nat -> F C) (nonce text : string) (c : command) (m : args) (s : scheme)
    (lang : language) (d : fs) (p : string),
  first_key c s m = Some p -> ser_dec_bin E d p = Err ->
  run E t nonce text c m s lang d = (d, on_damage c s).
Proof. exact @run_damaged. Qed.
Print Assumptions C100_damaged_key.

(** C100: a key file that cannot be opened stops every command. *)
Theorem C100_missing_key :
  forall (C : crypto) (E : env C) (t : nat -> F C) (nonce text : string) (c : command) (m : args) (s : scheme)
    (lang : language) (d : fs) (p : string),
  first_key c s m = Some p -> fs_open d p = None ->
  run E t nonce text c m s lang d = (d, Panic).
Proof. exact @run_missing. Qed.
Print Assumptions C100_missing_key.

(** C100: so does a document that cannot be opened. *)
Theorem C100_missing_document :
  forall (C : crypto) (E : env C) (t : nat -> F C) (nonce text : string) (m : args) (s : scheme)
    (lang : language) (d : fs),
  fs_open d (text_arg m FILE) = None -> run E t nonce text Encrypt m s lang d = (d, Panic).
Proof. exact @document_missing. Qed.
Print Assumptions C100_missing_document.

(** C100: so does, in the three schemes with policies in keys, a policy that
    the parser refuses. *)
Theorem C100_refused_policy :
  forall (C : crypto) (E : env C) (t : nat -> F C) (nonce text : string) (m : args) (lang : language) (d : fs)
    (s : scheme),
  parse (text_arg m POLICY) lang = Err ->
  match s with
  | AC17KP => forall msk, ser_dec E (c_ac_msk (e_wire E)) (file_arg m MSK_FILE) d = (d, Ok msk) ->
              run E t nonce text Keygen m AC17KP lang d = (d, Panic)
  | LSW => forall pk msk, ser_dec E (c_lsw_pk (e_wire E)) (file_arg m PK_FILE) d = (d, Ok pk) ->
           ser_dec E (c_lsw_msk (e_wire E)) (file_arg m MSK_FILE) d = (d, Ok msk) ->
           run E t nonce text Keygen m LSW lang d = (d, Panic)
  | YCT14 => forall pk msk, ser_dec E (c_yct_pk (e_wire E)) (file_arg m PK_FILE) d = (d, Ok pk) ->
           ser_dec E (c_yct_msk (e_wire E)) (file_arg m MSK_FILE) d = (d, Ok msk) ->
           run E t nonce text Keygen m YCT14 lang d = (d, Panic)
  | _ => True
  end.
Proof. exact @policy_refused. Qed.
Print Assumptions C100_refused_policy.

(** C100 is false: the master key file is a text file of two lines. *)
Definition torn : fs :=
  Fs (fun p => if seqb p "msk.key" then Some (File ("x" ++ nls ++ "zz") true) else None) (fun p => negb (seqb p "")).

Theorem C100_reported_refuted :
  exists (m : args) (d d' : fs), clap_ok Keygen m /\
    ser_dec_bin zenv d (file_arg m MSK_FILE) = Err /\ fs_files d' (file_arg m MSK_FILE) = None /\
    run zenv (ztape 4) nc "" Keygen m AC17CP HumanPolicy d = (d, Panic) /\
    run zenv (ztape 4) nc "" Keygen m AC17KP HumanPolicy d = (d, Err) /\
    run zenv (ztape 4) nc "" Keygen m AC17KP HumanPolicy d' = (d', Panic).
Proof.
  exists (args_of l_keygen), torn, disk. split; [apply clap_checked; vm_compute; reflexivity|].
  split; [reflexivity|]. split; [reflexivity|]. repeat split.
Qed.
Print Assumptions C100_reported_refuted.
