(** * PropertiesConsolePrints: C135: rabe-console as a program: files, standard output and exit status

    [main E place fe pest debug T t nonce s l sub d] is the text on standard output, the files afterwards and the
    exit status of rabe-console with the scheme [s], the language [l] and the subcommand [sub] on the files [d];
    [matches c given] are the arguments of the subcommand with the default values.  [place], [fe], [pest], [debug] and [T]
    stand for texts of other crates.  [wrote p] is the line "successfully wrote to p".  The proofs are in
    ConsolePrintsProofs.v. *)
From Coq Require Import String Ascii List Bool Arith ZArith.
From Verif Require Import Base Crypto Policy Parse Spec Files Borsh Errors Messages Prints PrintsProofs Console
  CommandLine ConsolePrints TruncationProofs ConsolePrintsProofs Instance Witnesses ConsoleWitnesses.
From Verif Require Bdabe Yct14.
Import ListNotations.
Local Open Scope nat_scope.
Local Open Scope string_scope.

(** C135: files and outcome are those of Console.v, and the exit status is 0, 1 or 101 after success, an error
    or a panic. *)
Theorem C135_status :
  forall (C : crypto), laws C -> forall (E : env C) place fe pest debug T t nonce s l sub d, exists text,
  let r := app E t nonce text s l sub d in
  snd (main E place fe pest debug T t nonce s l sub d) =
  (fst r, match snd r with Ok _ => 0 | Err => 1 | Panic => 101 end).
Proof. exact @main_app. Qed.
Print Assumptions C135_status.

(** C135: exit status 1 comes with a last line that says why. *)
Theorem C135_error_line :
  forall (C : crypto) (E : env C) place fe pest debug T t nonce s l sub d o d',
  main E place fe pest debug T t nonce s l sub d = (o, (d', 1)) ->
  s = None /\ o = "Application error: Scheme missing" ++ nls \/
  exists before details, o = before ++ "Application Error: Error: " ++ details ++ nls.
Proof. exact @main_one. Qed.
Print Assumptions C135_error_line.

(** C135: without a scheme nothing is done; without a subcommand nothing is done and nothing is said. *)
Theorem C135_nothing :
  forall (C : crypto) (E : env C) place fe pest debug T t nonce l sub s d,
  main E place fe pest debug T t nonce None l sub d = ("Application error: Scheme missing" ++ nls, (d, 1)) /\
  main E place fe pest debug T t nonce (Some s) l None d = ("", (d, 0)).
Proof. intros. split; reflexivity. Qed.
Print Assumptions C135_nothing.

(** C135: whatever the exit status, each file that is not as before is named in the output. *)
Theorem C135_announced :
  forall (C : crypto) (E : env C) place fe pest debug T t nonce s l sub d o d' n p,
  main E place fe pest debug T t nonce s l sub d = (o, (d', n)) -> fs_files d' p <> fs_files d p ->
  exists before after, o = before ++ "successfully wrote to " ++ p ++ nls ++ after.
Proof.
  intros C E place fe pest debug T t nonce s l sub d o d' n p H D.
  destruct (main_announced E place fe pest debug T t nonce s l sub d o d' n p H D) as (x & y & ->). exists x, y.
  unfold wrote. now rewrite !sapp_assoc.
Qed.
Print Assumptions C135_announced.

(** ** The output of a run that ends with exit status 0 *)

Theorem C135_setup :
  forall (C : crypto) (E : env C) place fe pest debug T t nonce s l given d o d',
  main E place fe pest debug T t nonce (Some s) l (Some ("setup", given)) d = (o, (d', 0)) ->
  let m := matches Setup given in
  o = match scheme_of s with
      | AW11 => wrote (file_arg m MSK_FILE)
      | _ => wrote (file_arg m MSK_FILE) ++ wrote (file_arg m PK_FILE)
      end.
Proof. intros C E place fe pest debug T t nonce s l given d o d' H m. eapply main_zero in H as (x & H); [|reflexivity]. exact (setup_out _ _ _ _ _ _ _ _ H). Qed.
Print Assumptions C135_setup.

Theorem C135_authgen :
  forall (C : crypto) (E : env C) place fe pest debug T t nonce s l given d o d',
  main E place fe pest debug T t nonce (Some s) l (Some ("authgen", given)) d = (o, (d', 0)) ->
  let m := matches Authgen given in
  o = match scheme_of s with
      | AW11 => wrote (file_arg m MSK_FILE) ++ wrote (file_arg m PK_FILE)
      | _ => wrote (named_file m)
      end.
Proof. intros C E place fe pest debug T t nonce s l given d o d' H m. eapply main_zero in H as (x & H); [|reflexivity]. exact (authgen_out _ _ _ _ _ _ _ _ _ H). Qed.
Print Assumptions C135_authgen.

Theorem C135_keygen :
  forall (C : crypto) (E : env C) place fe pest debug T t nonce s l given d o d', scheme_of s <> YCT14 ->
  main E place fe pest debug T t nonce (Some s) l (Some ("keygen", given)) d = (o, (d', 0)) ->
  let m := matches Keygen given in
  o = match scheme_of s with
      | AC17CP =>
          "loading " ++ file_arg m MSK_FILE ++ " ...... done" ++ nls ++
          "creating AC17CP sk for " ++ debug_list debug (attr_args m) ++ " ...... done" ++ nls ++
          "saving as " ++ file_arg m SK_FILE ++ nls ++ wrote (file_arg m SK_FILE)
      | AW11 | BDABE | MKE08 => wrote (named_file m)
      | _ => wrote (file_arg m SK_FILE)
      end.
Proof.
  intros C E place fe pest debug T t nonce s l given d o d' N H m. eapply main_zero in H as (x & H); [|reflexivity]. exact (keygen_out _ _ _ _ _ _ _ _ _ _ _ _ _ _ N H).
Qed.
Print Assumptions C135_keygen.

(** A YCT14 master key that was read from a file has no part for any name (C66): every name in the policy is
    complained of. *)
Theorem C135_yct_keygen :
  forall (C : crypto), laws C -> forall (E : env C) place fe pest debug T t nonce s l given d o d', scheme_of s = YCT14 ->
  main E place fe pest debug T t nonce (Some s) l (Some ("keygen", given)) d = (o, (d', 0)) ->
  let m := matches Keygen given in
  exists f, parse (text_arg m POLICY) (lang_of l) = Ok (tree f) /\
    o = printed (map (skip_line debug) (map before_us (names f))) ++ wrote (file_arg m SK_FILE).
Proof.
  intros C L E place fe pest debug T t nonce s l given d o d' Y H m. eapply main_zero in H as (x & H); [|reflexivity]. rewrite Y in H.
  exact (yct_keygen_out L E place fe pest debug T t (matches Keygen given) _ d o d' x H).
Qed.
Print Assumptions C135_yct_keygen.

Theorem C135_delegate :
  forall (C : crypto) (E : env C) place fe pest debug T t nonce s l given d o d',
  main E place fe pest debug T t nonce (Some s) l (Some ("delegate", given)) d = (o, (d', 0)) ->
  let m := matches Delegate given in
  scheme_of s = BSW /\ o = wrote (match value_of m SK_FILE with None => SK_FILE ++ ".del.key" | Some _ => "" end).
Proof. intros C E place fe pest debug T t nonce s l given d o d' H m. eapply main_zero in H as (x & H); [|reflexivity]. exact (delegate_out _ _ _ _ _ _ _ _ _ H). Qed.
Print Assumptions C135_delegate.

(** A policy that cannot be read leaves a line in the output, and the exit status can be 0 all the same. *)
Theorem C135_encrypt :
  forall (C : crypto) (E : env C) place fe pest debug T t nonce s l given d o d',
  main E place fe pest debug T t nonce (Some s) l (Some ("encrypt", given)) d = (o, (d', 0)) ->
  let m := matches Encrypt given in
  exists data, fs_open d (text_arg m FILE) = Some data /\
    o = "parsed " ++ number (String.length data) ++ " bytes" ++ nls ++
        (match scheme_of s with
         | AC17CP | AC17KP | LSW | YCT14 => ""
         | _ => match parse (text_arg m POLICY) (lang_of l) with
                | Err => parse_line pest (text_arg m POLICY) (lang_of l) ++ nls
                | _ => ""
                end
         end) ++
        wrote (enc_ct_file m).
Proof.
  intros C E place fe pest debug T t nonce s l given d o d' H m. eapply main_zero in H as (x & H); [|reflexivity].
  destruct (encrypt_out E place fe pest T t nonce (matches Encrypt given) _ _ d o d' x H) as (data & D & ->). exists data. split; [exact D|].
  unfold encrypt_output. destruct (scheme_of s); reflexivity.
Qed.
Print Assumptions C135_encrypt.

(** Only an empty plaintext gets exit status 0; it is said to be written, and no file changes. *)
Theorem C135_decrypt :
  forall (C : crypto), laws C -> forall (E : env C) place fe pest debug T t nonce s l given d o d',
  main E place fe pest debug T t nonce (Some s) l (Some ("decrypt", given)) d = (o, (d', 0)) ->
  let m := matches Decrypt given in
  o = wrote (pop (pop (pop (text_arg m FILE)))) /\ d' = d /\ open_file E m (scheme_of s) d = (d, Ok "").
Proof. intros C L E place fe pest debug T t nonce s l given d o d' H m. eapply main_zero in H as (x & H); [|reflexivity]. exact (decrypt_out L E place fe pest T (matches Decrypt given) _ d o d' x H). Qed.
Print Assumptions C135_decrypt.

Theorem C135_request_pk :
  forall (C : crypto) (E : env C) place fe pest debug T t nonce s l given d o d',
  main E place fe pest debug T t nonce (Some s) l (Some ("req-attr-pk", given)) d = (o, (d', 0)) ->
  let m := matches ReqAttrPk given in
  (scheme_of s = MKE08 \/ scheme_of s = BDABE) /\ o = wrote (file_arg m PKA_FILE).
Proof. intros C E place fe pest debug T t nonce s l given d o d' H m. eapply main_zero in H as (x & H); [|reflexivity]. exact (req_pk_out _ _ _ _ _ _ _ _ _ H). Qed.
Print Assumptions C135_request_pk.

Theorem C135_request_sk :
  forall (C : crypto) (E : env C) place fe pest debug T t nonce s l given d o d',
  main E place fe pest debug T t nonce (Some s) l (Some ("req-attr-sk", given)) d = (o, (d', 0)) ->
  let m := matches ReqAttrSk given in
  (scheme_of s = MKE08 \/ scheme_of s = BDABE) /\
  (o = wrote (file_arg m SKA_FILE) \/
   scheme_of s = BDABE /\ d' = d /\ exists a usk au e, req_attrs m = [a] /\
     ser_dec E (c_bd_uk (e_wire E)) (file_arg m SK_FILE) d = (d, Ok usk) /\
     ser_dec E (c_bd_auth (e_wire E)) (file_arg m AU_SK_FILE) d = (d, Ok au) /\
     told_bd_request_sk fe (Bdabe.buk_pk usk) au a = Tell e /\ o = "Error: Error: " ++ details e ++ nls).
Proof. intros C E place fe pest debug T t nonce s l given d o d' H m. eapply main_zero in H as (x & H); [|reflexivity]. exact (req_sk_out _ _ _ _ _ _ _ _ _ H). Qed.
Print Assumptions C135_request_sk.

(** C135: so the output of such a run does not depend on the random values: it says nothing about the keys. *)
Theorem C135_same :
  forall (C : crypto), laws C -> forall (E : env C) place fe pest debug T t t' nonce nonce' s l sub d o d1 o' d1',
  main E place fe pest debug T t nonce s l sub d = (o, (d1, 0)) ->
  main E place fe pest debug T t' nonce' s l sub d = (o', (d1', 0)) -> o = o'.
Proof.
  intros C L E place fe pest debug T t t' nonce nonce' s l sub d o d1 o' d1' H H'.
  destruct s as [s|]; [|discriminate H]. destruct sub as [[name given]|]; [|cbn in H, H'; congruence].
  destruct (command_of name) as [c|] eqn:N; [|unfold main in H, H'; rewrite N in H, H'; cbn in H, H'; congruence].
  apply (main_zero _ _ _ _ _ _ _ _ _ _ _ _ _ _ _ _ N) in H as ([] & H), H' as ([] & H').
  exact (show_same L E place fe pest debug T t t' nonce nonce' c _ _ _ d o d1 o' d1' H H').
Qed.
Print Assumptions C135_same.

(** ** The output of commands that are refused *)

(** C135: a decryption whose first file holds no hexadecimal digits, or digits that do not inflate. *)
Theorem C135_bad_file :
  forall (C : crypto) (E : env C) place fe pest debug T t nonce s l given d raw h,
  let m := matches Decrypt given in
  let first := match scheme_of s with AW11 | MKE08 => GP_FILE | BDABE => PK_FILE | _ => SK_FILE end in
  read_file d (file_arg m first) = Ok raw -> read_raw raw = Ok h ->
  (from_hex h = None ->
   main E place fe pest debug T t nonce (Some s) l (Some ("decrypt", given)) d =
   ("Application Error: Error: ser_dec_bin: Error: read_raw: " ++ t_hex T h ++ nls, (d, 1))) /\
  (forall b, from_hex h = Some b -> e_inflate E b = None ->
   main E place fe pest debug T t nonce (Some s) l (Some ("decrypt", given)) d =
   ("Application Error: Error: ser_dec_bin: Error: inflate_bytes: " ++ t_inflate T b ++ nls, (d, 1))).
Proof.
  intros C E place fe pest debug T t nonce s l given d raw h m first R1 R2. subst m first.
  assert (X : forall A (c : codec A) text, told_dec_bin E T d (file_arg (matches Decrypt given)
    (match scheme_of s with AW11 | MKE08 => GP_FILE | BDABE => PK_FILE | _ => SK_FILE end)) = Tell (error_new text) ->
    told_dec E T c d (file_arg (matches Decrypt given)
    (match scheme_of s with AW11 | MKE08 => GP_FILE | BDABE => PK_FILE | _ => SK_FILE end)) =
    Tell (error_new ("ser_dec_bin: Error: " ++ text))).
  { intros A c text H. unfold told_dec. rewrite H. reflexivity. }
  split.
  - intros N. assert (B := fun A (c : codec A) => X A c ("read_raw: " ++ t_hex T h)).
    unfold told_dec_bin in B. rewrite R1 in B. cbn [calm tbind] in B. rewrite R2 in B. cbn [calm tbind] in B. rewrite N in B.
    unfold main. cbn [command_of]. change (command_of "decrypt") with (Some Decrypt). cbv iota beta.
    unfold show, show_decrypt, show_open. destruct (scheme_of s); unfold hbind, hdec, hcall; rewrite B by reflexivity; reflexivity.
  - intros b N I. assert (B := fun A (c : codec A) => X A c ("inflate_bytes: " ++ t_inflate T b)).
    unfold told_dec_bin in B. rewrite R1 in B. cbn [calm tbind] in B. rewrite R2 in B. cbn [calm tbind] in B. rewrite N, I in B.
    unfold main. change (command_of "decrypt") with (Some Decrypt). cbv iota beta.
    unfold show, show_decrypt, show_open. destruct (scheme_of s); unfold hbind, hdec, hcall; rewrite B by reflexivity; reflexivity.
Qed.
Print Assumptions C135_bad_file.

(** C135: an encryption with no or with several public keys, in the schemes that take one; YCT14 is called LSW. *)
Theorem C135_several_keys :
  forall (C : crypto) (E : env C) place fe pest debug T t nonce s l given d data,
  let m := matches Encrypt given in
  fs_open d (text_arg m FILE) = Some data -> (forall f, enc_pk_files m <> [f]) ->
  ~ In (scheme_of s) [AW11; BDABE; MKE08] ->
  main E place fe pest debug T t nonce (Some s) l (Some ("encrypt", given)) d =
  ("parsed " ++ number (String.length data) ++ " bytes" ++ nls ++
   "Application Error: Error: sorry, encryption using the " ++
   match scheme_of s with AC17CP => "AC17CP" | AC17KP => "AC17KP" | BSW => "BSW" | _ => "LSW" end ++
   " Scheme with zero or multiple PKs is not possible. " ++ nls, (d, 1)).
Proof.
  intros C E place fe pest debug T t nonce s l given d data m D N X. subst m.
  unfold main. change (command_of "encrypt") with (Some Encrypt). cbv iota beta.
  unfold show, show_encrypt, hbind at 1, hread, said_read_to_vec. rewrite D. cbn [unwrap still sbind say fst snd calm hcall].
  destruct (scheme_of s); try (exfalso; apply X; cbn; tauto);
    (destruct (enc_pk_files (matches Encrypt given)) as [|f [|g r]]; [|destruct (N f eq_refl)|];
     unfold hcall, hfail, pks_text; cbn [fst snd finish]; unfold printed; cbn [map String.concat List.app];
     unfold error_display, error_new; cbn [details]; rewrite ?sapp_assoc; reflexivity).
Qed.
Print Assumptions C135_several_keys.

(** C135: requests for other than one attribute, and those in schemes without requests. *)
Theorem C135_no_request :
  forall (C : crypto) (E : env C) place fe pest debug T t nonce s l given d,
  let refusal text := ("Application Error: Error: sorry, " ++ text ++ nls, (d, 1)) in
  ((forall a, req_attrs (matches ReqAttrPk given) <> [a]) ->
   main E place fe pest debug T t nonce (Some s) l (Some ("req-attr-pk", given)) d =
   refusal "could not request because only one attribute is allowed.") /\
  ((forall a, req_attrs (matches ReqAttrSk given) <> [a]) ->
   main E place fe pest debug T t nonce (Some s) l (Some ("req-attr-sk", given)) d =
   refusal "could not request because only one attribute is allowed.") /\
  (forall a, req_attrs (matches ReqAttrPk given) = [a] -> scheme_of s <> MKE08 -> scheme_of s <> BDABE ->
   main E place fe pest debug T t nonce (Some s) l (Some ("req-attr-pk", given)) d =
   refusal "this scheme does not support the request attribute PK algorithm.") /\
  (forall a, req_attrs (matches ReqAttrSk given) = [a] -> scheme_of s <> MKE08 -> scheme_of s <> BDABE ->
   main E place fe pest debug T t nonce (Some s) l (Some ("req-attr-sk", given)) d =
   refusal "this scheme does not support the request attribute SK algorithm.").
Proof.
  intros C E place fe pest debug T t nonce s l given d refusal. subst refusal. cbv beta.
  unfold main. change (command_of "req-attr-pk") with (Some ReqAttrPk). change (command_of "req-attr-sk") with (Some ReqAttrSk).
  cbv iota beta. unfold show, show_req_attr_pk, show_req_attr_sk. repeat apply conj.
  - intros N. destruct (req_attrs (matches ReqAttrPk given)) as [|a [|b r]]; [reflexivity|destruct (N a eq_refl)|reflexivity].
  - intros N. destruct (req_attrs (matches ReqAttrSk given)) as [|a [|b r]]; [reflexivity|destruct (N a eq_refl)|reflexivity].
  - intros a -> N1 N2. destruct (scheme_of s); try contradiction; reflexivity.
  - intros a -> N1 N2. destruct (scheme_of s); try contradiction; reflexivity.
Qed.
Print Assumptions C135_no_request.

(** C135: the list of attributes in the output of an AC17 key generation (C135_keygen). *)
Theorem C135_list :
  forall debug, debug_list debug [] = "[]" /\ (forall a, debug_list debug [a] = "[" ++ debug a ++ "]") /\
  forall a b r, exists rest,
    debug_list debug (b :: r) = "[" ++ rest /\ debug_list debug (a :: b :: r) = "[" ++ debug a ++ ", " ++ rest.
Proof.
  intros debug. split; [reflexivity|]. split; [reflexivity|]. intros a b r.
  exists (String.concat ", " (map debug (b :: r)) ++ "]"). split; [reflexivity|].
  unfold debug_list. change (String.concat ", " (map debug (a :: b :: r))) with
    (debug a ++ ", " ++ String.concat ", " (map debug (b :: r))). now rewrite !sapp_assoc.
Qed.
Print Assumptions C135_list.

(** ** Runs *)

Definition at_one (l : language) (p : string) : location := AtPos (1, 1).
Definition quoted (s : string) : string := """" ++ s ++ """".
Definition no_texts : crate_texts := CrateTexts (fun _ => "hex") (fun _ => "inflate") (fun _ => "slice").
Definition zmain (s c : string) (l : list (string * list string)) (d : fs) : string * (fs * nat) :=
  main zenv at_one NotMember (fun _ _ => "?") quoted no_texts (ztape 4) nc (Some s) None (Some (c, args_of l)) d.

(** A set-up and a key; then a key without a file to make it from. *)
Example C135_example :
  fst (zmain "BSW" "setup" l_setup disk) =
    "successfully wrote to msk.key" ++ nls ++ "successfully wrote to pk.key" ++ nls /\
  snd (snd (zmain "BSW" "setup" l_setup disk)) = 0 /\
  fst (zmain "AC17CP" "keygen" l_keygen (after_setup AC17CP l_setup)) =
    "loading msk.key ...... done" ++ nls ++ "creating AC17CP sk for [""A""] ...... done" ++ nls ++
    "saving as sk.key" ++ nls ++ "successfully wrote to sk.key" ++ nls /\
  snd (snd (zmain "AC17CP" "keygen" l_keygen (after_setup AC17CP l_setup))) = 0 /\
  fst (zmain "AC17CP" "keygen" l_keygen disk) = "loading msk.key ..." /\
  snd (snd (zmain "AC17CP" "keygen" l_keygen disk)) = 101 /\
  fst (zmain "YCT14" "setup" l_setup disk) = "Application Error: Error: sorry, yct14 needs attributes at setup()" ++ nls /\
  snd (snd (zmain "YCT14" "setup" l_setup disk)) = 1.
Proof. repeat apply conj; vm_compute; reflexivity. Qed.

(** C135 is false: a BDABE request for a secret key that is refused, and a BSW encryption for a policy that
    cannot be read, have exit status 0. *)
Definition l_request := [(SK_FILE, ["u.key"]); (AU_SK_FILE, ["ska.key"]); (ATTRIBUTES, ["other::X"])].
Definition bd_user : fs := fst (run_keygen zenv (ztape 5) (args_of l_user) BDABE HumanPolicy bd_authority).

Theorem C135_request_refuted :
  exists d o, zmain "BDABE" "req-attr-sk" l_request d = (o, (d, 0)) /\
  o = "Error: Error: attribute other::X is not from_authority() or !is_eligible()" ++ nls.
Proof.
  destruct (zmain "BDABE" "req-attr-sk" l_request bd_user) as (o & d' & n) eqn:R. exists bd_user, o.
  assert (n = 0) by (change n with (snd (snd (o, (d', n)))); rewrite <- R; vm_compute; reflexivity). subst n.
  assert (X : o = "Error: Error: attribute other::X is not from_authority() or !is_eligible()" ++ nls)
    by (change o with (fst (o, (d', 0))); rewrite <- R; vm_compute; reflexivity).
  split; [|exact X]. destruct (C135_request_sk _ _ _ _ _ _ _ _ _ _ _ _ _ _ _ R) as [_ [W|(_ & -> & _)]]; [|exact R].
  rewrite X in W. vm_compute in W. discriminate W.
Qed.
Print Assumptions C135_request_refuted.

Theorem C135_encrypt_refuted :
  exists d, parse (text_arg (args_of l_bad) POLICY) HumanPolicy = Err /\ snd (snd (zmain "BSW" "encrypt" l_bad d)) = 0 /\
  fst (zmain "BSW" "encrypt" l_bad d) =
    "parsed 5 bytes" ++ nls ++ "error Human Parse: ?" ++ nls ++ "successfully wrote to doc.ct" ++ nls.
Proof. exists (after_setup BSW l_setup). repeat apply conj; vm_compute; reflexivity. Qed.
Print Assumptions C135_encrypt_refuted.

Example C135_yct_example :
  let l := (files3 ++ [(SK_FILE, ["sk.key"]); (POLICY, ["""A"" or ""B"""])])%list in
  snd (snd (zmain "YCT14" "keygen" l (after_setup YCT14 l_yct))) = 0 /\
  fst (zmain "YCT14" "keygen" l (after_setup YCT14 l_yct)) =
    "Error: RabeError { details: ""no private key found for A"" }" ++ nls ++
    "Error: RabeError { details: ""no private key found for B"" }" ++ nls ++ "successfully wrote to sk.key" ++ nls.
Proof. split; vm_compute; reflexivity. Qed.

(** Refused commands: a key that is no key file, a second public key, a request in BSW, two attributes. *)
Example C135_refused_example :
  let broken := Fs (fun p => if seqb p "sk.key" then Some (File ("-----BEGIN SK-----" ++ nls ++ "zz" ++ nls ++ "-----END SK-----") true) else fs_files disk p)
    (fs_may_create disk) in
  fst (zmain "BSW" "decrypt" [(FILE, ["doc.ct"]); (SK_FILE, ["sk.key"])] broken) =
    "Application Error: Error: ser_dec_bin: Error: read_raw: hex" ++ nls /\
  fst (zmain "YCT14" "encrypt" [(FILE, ["doc"]); (PK_FILE, ["a.key"; "b.key"])] disk) =
    "parsed 5 bytes" ++ nls ++ "Application Error: Error: sorry, encryption using the LSW Scheme with zero or multiple PKs is not possible. " ++ nls /\
  fst (zmain "BSW" "req-attr-pk" [(ATTRIBUTES, ["A"])] disk) =
    "Application Error: Error: sorry, this scheme does not support the request attribute PK algorithm." ++ nls /\
  fst (zmain "MKE08" "req-attr-sk" [(ATTRIBUTES, ["A B"])] disk) =
    "Application Error: Error: sorry, could not request because only one attribute is allowed." ++ nls /\
  debug_list quoted ["A"; "B"; "C"] = "[""A"", ""B"", ""C""]".
Proof. repeat apply conj; vm_compute; reflexivity. Qed.
