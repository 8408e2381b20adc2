(** * Sessions: one complete use of each scheme

    Each session runs setup, key generation, encryption and decryption as the
    documentation examples of the schemes do, on one random tape.  The result
    separates what decryption answered from failures of earlier steps. *)
From Coq Require Import String List Bool Arith.
From Verif Require Import Base Crypto Policy Parse Symmetric Bsw Ghw11 Lsw Yct14 Ac17 Aw11 Bdabe Mke08.
Import ListNotations.

Section Sessions.
Context {C : crypto}.
Local Open Scope rand_scope.

(** /repo/src/schemes/bsw/mod.rs:9-24 *)
Definition bsw_session (nonce : string) (attrs : list string) (pol : string) (lang : language)
  (data : string) : rand (F C) (outcome string) :=
  ' (pk, msk) <- bsw_setup ;;
  ko <- bsw_keygen pk msk attrs ;;
  sk <- rlift (unwrap ko) ;;
  ct <- bsw_encrypt nonce pk pol lang data ;;
  rret (bsw_decrypt sk ct).

(** The same with a delegated key; /repo/src/schemes/bsw/mod.rs:162-206. *)
Definition bsw_delegated_session (nonce : string) (attrs subset : list string) (pol : string)
  (lang : language) (data : string) : rand (F C) (outcome string) :=
  ' (pk, msk) <- bsw_setup ;;
  ko <- bsw_keygen pk msk attrs ;;
  sk <- rlift (unwrap ko) ;;
  do_ <- bsw_delegate pk sk subset ;;
  dk <- rlift (unwrap do_) ;;
  ct <- bsw_encrypt nonce pk pol lang data ;;
  rret (bsw_decrypt dk ct).

(** /repo/src/schemes/ghw11/mod.rs:94-304 *)
Definition ghw_session (nonce : string) (attrs : list string) (pol : string) (lang : language)
  (data : string) : rand (F C) (outcome string) :=
  ' (pk, msk) <- ghw_setup ;;
  ko <- ghw_keygen pk msk attrs ;;
  sk <- rlift (unwrap ko) ;;
  ' (tk, rk) <- ghw_tkgen sk ;;
  ct <- ghw_encrypt nonce pk pol lang data ;;
  rret (obind (ghw_transform ct tk) (fun tct => ghw_decrypt_out tct rk (gct_data ct))).

(** /repo/src/schemes/lsw/mod.rs:9-24 *)
Definition lsw_session (nonce : string) (pol : string) (lang : language) (attrs : list string)
  (data : string) : rand (F C) (outcome string) :=
  ' (pk, msk) <- lsw_setup ;;
  sk <- lsw_keygen pk msk pol lang ;;
  ct <- lsw_encrypt nonce pk attrs data ;;
  rret (lsw_decrypt sk ct).

(** /repo/src/schemes/yct14/mod.rs:9-22 *)
Definition yct_session (nonce : string) (universe : list string) (pol : string) (lang : language)
  (attrs : list string) (data : string) : rand (F C) (outcome string) :=
  ' (pk, msk) <- yct_setup universe ;;
  sk <- yct_keygen msk pol lang ;;
  ct <- yct_encrypt nonce pk attrs data ;;
  rret (yct_decrypt sk ct).

(** /repo/src/schemes/ac17/mod.rs:10-45 *)
Definition cp_session (nonce : string) (attrs : list string) (pol : string) (lang : language)
  (data : string) : rand (F C) (outcome string) :=
  ' (pk, msk) <- ac_setup ;;
  sk <- cp_keygen msk attrs ;;
  ct <- cp_encrypt nonce pk pol data lang ;;
  rret (cp_decrypt sk ct).

(** /repo/src/schemes/ac17/mod.rs:10-45 *)
Definition kp_session (nonce : string) (pol : string) (lang : language) (attrs : list string)
  (data : string) : rand (F C) (outcome string) :=
  ' (pk, msk) <- ac_setup ;;
  sk <- kp_keygen msk pol lang ;;
  ct <- kp_encrypt nonce pk attrs data ;;
  rret (kp_decrypt sk ct).

(** /repo/src/schemes/aw11/mod.rs:9-28; one authority for all names. *)
Definition aw_session (nonce : string) (universe : list string) (user : string) (attrs : list string)
  (pol : string) (lang : language) (data : string) : rand (F C) (outcome string) :=
  gk <- aw_setup ;;
  ao <- aw_authgen gk universe ;;
  ' (pk, msk) <- rlift (unwrap ao) ;;
  sk <- rlift (aw_keygen gk msk user attrs) ;;
  ct <- aw_encrypt nonce gk [pk] pol lang data ;;
  rret (aw_decrypt gk sk ct).

(** /repo/src/schemes/bdabe/mod.rs:9-35; one authority. [pubs] are the attributes whose public
    keys are handed to [encrypt], [attrs] those the user gets secret keys for. *)
Definition bd_session (nonce : string) (auth user : string) (pubs attrs : list string)
  (pol : string) (lang : language) (data : string) : rand (F C) (outcome string) :=
  ' (pk, msk) <- bd_setup ;;
  au <- bd_authgen pk msk auth ;;
  uk <- bd_keygen pk au user ;;
  apks <- rlift (omap (bd_request_pk pk au) pubs) ;;
  asks <- rlift (omap (bd_request_sk (buk_pk uk) au) attrs) ;;
  ct <- bd_encrypt nonce pk apks pol lang data ;;
  rret (bd_decrypt (fold_left bd_add asks uk) ct).

(** /repo/src/schemes/mke08/mod.rs:9-40; one authority. *)
Definition mk_session (nonce : string) (auth user : string) (pubs attrs : list string)
  (pol : string) (lang : language) (data : string) : rand (F C) (outcome string) :=
  ' (pk, msk) <- mk_setup ;;
  uk <- mk_keygen pk msk user ;;
  au <- mk_authgen auth ;;
  apks <- rlift (omap (fun a => mk_request_pk pk a au) pubs) ;;
  asks <- rlift (omap (fun a => mk_request_sk (muk_pk uk) a au) attrs) ;;
  ct <- mk_encrypt nonce pk apks pol lang data ;;
  rret (mk_decrypt (fold_left mk_add asks uk) ct).

End Sessions.
