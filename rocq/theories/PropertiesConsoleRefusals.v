(** * PropertiesConsoleRefusals: C135: the other texts with which rabe-console refuses *)
From Coq Require Import String Ascii List Bool Arith ZArith.
From Verif Require Import Base Crypto Policy Parse Spec Files Borsh Errors Messages Prints PrintsProofs Console
  CommandLine ConsolePrints ConsolePrintsProofs Tools Aw11 Bsw ConsoleRefusals Instance Witnesses ConsoleWitnesses
  PropertiesConsolePrints.
Import ListNotations.
Local Open Scope nat_scope.
Local Open Scope string_scope.

(** C135: each of these calls says why it is refused, changes no file and ends with exit status 1. *)
Theorem C135_no_authorities :
  forall (C : crypto) (E : env C) place fe pest debug T t nonce s l given d,
  ~ In (scheme_of s) [AW11; BDABE; MKE08] ->
  main E place fe pest debug T t nonce (Some s) l (Some ("authgen", given)) d =
  ("Application Error: Error: sorry, this is not a multi-authoriy scheme" ++ nls, (d, 1)).
Proof. exact @authgen_refused. Qed.
Print Assumptions C135_no_authorities.

Theorem C135_no_attributes :
  forall (C : crypto) (E : env C) place fe pest debug T t nonce s l given d gp,
  scheme_of s = AW11 -> attr_args (matches Authgen given) = [] ->
  ser_dec E (c_aw_gk (e_wire E)) (file_arg (matches Authgen given) GP_FILE) d = (d, Ok gp) ->
  main E place fe pest debug T t nonce (Some s) l (Some ("authgen", given)) d =
  ("Application Error: Error: sorry, could not generate authority. The attribute set empty." ++ nls, (d, 1)).
Proof. exact @authgen_empty. Qed.
Print Assumptions C135_no_attributes.

Theorem C135_yct_setup :
  forall (C : crypto) (E : env C) place fe pest debug T t nonce s l given d,
  scheme_of s = YCT14 -> attr_args (matches Setup given) = [] ->
  main E place fe pest debug T t nonce (Some s) l (Some ("setup", given)) d =
  ("Application Error: Error: sorry, yct14 needs attributes at setup()" ++ nls, (d, 1)).
Proof. exact @setup_refused. Qed.
Print Assumptions C135_yct_setup.

Theorem C135_no_name :
  forall (C : crypto) (E : env C) place fe pest debug T t nonce s l given d pk msk,
  scheme_of s = MKE08 -> text_arg (matches Keygen given) NAME = "" ->
  ser_dec E (c_mk_pk (e_wire E)) (file_arg (matches Keygen given) PK_FILE) d = (d, Ok pk) ->
  ser_dec E (c_mk_msk (e_wire E)) (file_arg (matches Keygen given) MSK_FILE) d = (d, Ok msk) ->
  main E place fe pest debug T t nonce (Some s) l (Some ("keygen", given)) d =
  ("Application Error: Error: sorry, the name/id for the user key is not set." ++ nls, (d, 1)).
Proof. exact @keygen_refused. Qed.
Print Assumptions C135_no_name.

Theorem C135_no_delegation :
  forall (C : crypto) (E : env C) place fe pest debug T t nonce s l given d,
  scheme_of s <> BSW ->
  main E place fe pest debug T t nonce (Some s) l (Some ("delegate", given)) d =
  ("Application Error: Error: sorry, this scheme does not support the delegation algorithm." ++ nls, (d, 1)).
Proof. exact @delegate_refused. Qed.
Print Assumptions C135_no_delegation.

Theorem C135_outside :
  forall (C : crypto) (E : env C) place fe pest debug T t nonce s l given d pk sk a,
  scheme_of s = BSW ->
  ser_dec E (c_bsw_pk (e_wire E)) (file_arg (matches Delegate given) PK_FILE) d = (d, Ok pk) ->
  ser_dec E (c_bsw_sk (e_wire E)) (file_arg (matches Delegate given) SK_FILE) d = (d, Ok sk) ->
  In a (attr_args (matches Delegate given)) -> ~ In a (map b_string (bsk_dj sk)) ->
  main E place fe pest debug T t nonce (Some s) l (Some ("delegate", given)) d =
  ("Error: the given attribute set is not a subset of the given sk." ++ nls ++
   "Application Error: Error: sorry, could not delegate attributes. The given attributes are not a subset." ++ nls, (d, 1)).
Proof. exact @delegate_outside. Qed.
Print Assumptions C135_outside.

Theorem C135_nothing_delegated :
  forall (C : crypto) (E : env C) place fe pest debug T t nonce s l given d pk sk,
  scheme_of s = BSW ->
  ser_dec E (c_bsw_pk (e_wire E)) (file_arg (matches Delegate given) PK_FILE) d = (d, Ok pk) ->
  ser_dec E (c_bsw_sk (e_wire E)) (file_arg (matches Delegate given) SK_FILE) d = (d, Ok sk) ->
  attr_args (matches Delegate given) = [] ->
  main E place fe pest debug T t nonce (Some s) l (Some ("delegate", given)) d =
  ("Error: the given attribute subset is empty." ++ nls ++
   "Application Error: Error: sorry, could not delegate attributes. The given attributes are not a subset." ++ nls, (d, 1)).
Proof. exact @delegate_nothing. Qed.
Print Assumptions C135_nothing_delegated.

Definition l_gp := [(GP_FILE, ["msk.key"]); (MSK_FILE, ["a.key"]); (PK_FILE, ["b.key"])].
Definition l_more := [(PK_FILE, ["pk.key"]); (SK_FILE, ["sk.key"]); (ATTRIBUTES, ["A"; "B"])].
Definition l_none := [(PK_FILE, ["pk.key"]); (SK_FILE, ["sk.key"])].

Example C135_refusals_example :
  fst (zmain "BSW" "authgen" l_auth disk) = "Application Error: Error: sorry, this is not a multi-authoriy scheme" ++ nls /\
  fst (zmain "AW11" "authgen" l_gp (after_setup AW11 l_setup)) =
    "Application Error: Error: sorry, could not generate authority. The attribute set empty." ++ nls /\
  fst (zmain "MKE08" "keygen" l_keygen (after_setup MKE08 l_setup)) =
    "Application Error: Error: sorry, the name/id for the user key is not set." ++ nls /\
  fst (zmain "LSW" "delegate" l_more disk) =
    "Application Error: Error: sorry, this scheme does not support the delegation algorithm." ++ nls /\
  fst (zmain "BSW" "delegate" l_more (after_keygen BSW l_setup l_keygen)) =
    "Error: the given attribute set is not a subset of the given sk." ++ nls ++
    "Application Error: Error: sorry, could not delegate attributes. The given attributes are not a subset." ++ nls /\
  fst (zmain "BSW" "delegate" l_none (after_keygen BSW l_setup l_keygen)) =
    "Error: the given attribute subset is empty." ++ nls ++
    "Application Error: Error: sorry, could not delegate attributes. The given attributes are not a subset." ++ nls.
Proof. repeat apply conj; vm_compute; reflexivity. Qed.
