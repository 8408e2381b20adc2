(** * ConsoleRefusals: the texts with which rabe-console refuses *)
From Coq Require Import String Ascii List Bool Arith.
From Verif Require Import Base Crypto Policy Parse Spec Files Borsh Errors Messages Prints PrintsProofs Console
  CommandLine ConsolePrints ConsolePrintsProofs Tools Aw11 Bsw BswProofs.
Import ListNotations.
Local Open Scope nat_scope.
Local Open Scope string_scope.

Section Refusals.
Context {C : crypto} (E : env C).
Variable place : language -> string -> location.
Variable fe : field_error.
Variable pest : language -> string -> string.
Variable debug : string -> string.
Variable T : crate_texts.
Local Notation main := (main E place fe pest debug T).

Lemma ser_told {A} (c : codec A) f d a : ser_dec E c f d = (d, Ok a) -> told_dec E T c d f = Fine a.
Proof.
  rewrite <- (plain_dec E T c f d). unfold plain, hdec, hcall. cbn [fst snd].
  destruct (told_dec E T c d f) as [x| |]; cbn; congruence.
Qed.

Lemma authgen_refused t nonce s l given d :
  ~ In (scheme_of s) [AW11; BDABE; MKE08] ->
  main t nonce (Some s) l (Some ("authgen", given)) d =
  ("Application Error: Error: sorry, this is not a multi-authoriy scheme" ++ nls, (d, 1)).
Proof.
  intros N. unfold ConsolePrints.main. change (command_of "authgen") with (Some Authgen). cbv iota beta.
  unfold show, show_authgen. destruct (scheme_of s); try reflexivity; exfalso; apply N; cbn; tauto.
Qed.

Lemma authgen_empty t nonce s l given d gp :
  scheme_of s = AW11 -> attr_args (matches Authgen given) = [] ->
  ser_dec E (c_aw_gk (e_wire E)) (file_arg (matches Authgen given) GP_FILE) d = (d, Ok gp) ->
  main t nonce (Some s) l (Some ("authgen", given)) d =
  ("Application Error: Error: sorry, could not generate authority. The attribute set empty." ++ nls, (d, 1)).
Proof.
  intros S N H. unfold ConsolePrints.main. change (command_of "authgen") with (Some Authgen). cbv iota beta.
  unfold show, show_authgen. rewrite S, N. apply ser_told in H. unfold hbind, hdec, hcall. rewrite H. reflexivity.
Qed.

Lemma setup_refused t nonce s l given d :
  scheme_of s = YCT14 -> attr_args (matches Setup given) = [] ->
  main t nonce (Some s) l (Some ("setup", given)) d =
  ("Application Error: Error: sorry, yct14 needs attributes at setup()" ++ nls, (d, 1)).
Proof.
  intros S N. unfold ConsolePrints.main. change (command_of "setup") with (Some Setup). cbv iota beta.
  unfold show, show_setup. rewrite S, N. reflexivity.
Qed.

Lemma keygen_refused t nonce s l given d pk msk :
  scheme_of s = MKE08 -> text_arg (matches Keygen given) NAME = "" ->
  ser_dec E (c_mk_pk (e_wire E)) (file_arg (matches Keygen given) PK_FILE) d = (d, Ok pk) ->
  ser_dec E (c_mk_msk (e_wire E)) (file_arg (matches Keygen given) MSK_FILE) d = (d, Ok msk) ->
  main t nonce (Some s) l (Some ("keygen", given)) d =
  ("Application Error: Error: sorry, the name/id for the user key is not set." ++ nls, (d, 1)).
Proof.
  intros S N H H'. unfold ConsolePrints.main. change (command_of "keygen") with (Some Keygen). cbv iota beta.
  unfold show, show_keygen. rewrite S, N. apply ser_told in H, H'. unfold hbind, hdec, hcall. rewrite H, H'. reflexivity.
Qed.

Lemma delegate_refused t nonce s l given d :
  scheme_of s <> BSW ->
  main t nonce (Some s) l (Some ("delegate", given)) d =
  ("Application Error: Error: sorry, this scheme does not support the delegation algorithm." ++ nls, (d, 1)).
Proof.
  intros N. unfold ConsolePrints.main. change (command_of "delegate") with (Some Delegate). cbv iota beta.
  unfold show, show_delegate. destruct (scheme_of s); try reflexivity; congruence.
Qed.

Lemma delegate_outside t nonce s l given d pk sk a :
  scheme_of s = BSW ->
  ser_dec E (c_bsw_pk (e_wire E)) (file_arg (matches Delegate given) PK_FILE) d = (d, Ok pk) ->
  ser_dec E (c_bsw_sk (e_wire E)) (file_arg (matches Delegate given) SK_FILE) d = (d, Ok sk) ->
  In a (attr_args (matches Delegate given)) -> ~ In a (map b_string (bsk_dj sk)) ->
  main t nonce (Some s) l (Some ("delegate", given)) d =
  ("Error: the given attribute set is not a subset of the given sk." ++ nls ++
   "Application Error: Error: sorry, could not delegate attributes. The given attributes are not a subset." ++ nls, (d, 1)).
Proof.
  intros S H H' I O. unfold ConsolePrints.main. change (command_of "delegate") with (Some Delegate). cbv iota beta.
  unfold show, show_delegate. rewrite S. apply ser_told in H, H'. unfold hbind, hdec, hcall. rewrite H, H'.
  destruct (delegate_said pk sk (attr_args (matches Delegate given)) t 0) as (Q & R & _ & _).
  cbn zeta in Q, R. rewrite R by (exists a; auto).
  assert (X : is_subset (attr_args (matches Delegate given)) (map b_string (bsk_dj sk)) = false).
  { destruct (is_subset _ _) eqn:X; [|reflexivity]. destruct O. exact (proj1 (is_subset_iff _ _) X a I). }
  unfold bsw_delegate. rewrite X. reflexivity.
Qed.

Lemma delegate_nothing t nonce s l given d pk sk :
  scheme_of s = BSW ->
  ser_dec E (c_bsw_pk (e_wire E)) (file_arg (matches Delegate given) PK_FILE) d = (d, Ok pk) ->
  ser_dec E (c_bsw_sk (e_wire E)) (file_arg (matches Delegate given) SK_FILE) d = (d, Ok sk) ->
  attr_args (matches Delegate given) = [] ->
  main t nonce (Some s) l (Some ("delegate", given)) d =
  ("Error: the given attribute subset is empty." ++ nls ++
   "Application Error: Error: sorry, could not delegate attributes. The given attributes are not a subset." ++ nls, (d, 1)).
Proof.
  intros S H H' N. unfold ConsolePrints.main. change (command_of "delegate") with (Some Delegate). cbv iota beta.
  unfold show, show_delegate. rewrite S, N. apply ser_told in H, H'. unfold hbind, hdec, hcall. rewrite H, H'. reflexivity.
Qed.
End Refusals.
