(** * PropertiesLayoutNames: C143; C35 and C36 without a condition on the shape of the policy *)
From Coq Require Import String Ascii List Bool Arith NArith Lia.
From Verif Require Import Base Crypto Policy Spec Parse Files Ac17 Ac17Proofs Layout LayoutNames Instance Witnesses.
Import ListNotations.
Local Open Scope nat_scope.
Local Open Scope string_scope.

(** C143. Every leaf of a parsed policy is a part of the text between quotes, and its
    number is the column of its first character. *)
Theorem C143_quoted :
  forall (pol : string) (lang : language) (f : formula) (n : string) (p : nat),
  parse pol lang = Ok (tree f) -> In (n, p) (leaves f) ->
  exists u v, pol = u ++ dquote ++ n ++ dquote ++ v /\ p = column_after (u ++ dquote) 1.
Proof. exact parsed_quoted. Qed.
Print Assumptions C143_quoted.

(** C143. The names of a policy text in UTF-8 are UTF-8. *)
Theorem C143_utf8 :
  forall (pol : string) (lang : language) (f : formula),
  parse pol lang = Ok (tree f) -> utf8 pol = true -> Forall (fun n => utf8 n = true) (names f).
Proof. exact parsed_utf8. Qed.
Print Assumptions C143_utf8.

(** C143. An ASCII character never lies inside a character of several bytes. *)
Theorem C143_split :
  forall (a : string) (c : ascii) (b : string), nat_of_ascii c < 128 ->
  utf8 (a ++ String c b) = true -> utf8 a = true /\ utf8 b = true.
Proof. exact utf8_split. Qed.
Print Assumptions C143_split.

(** Two names of two-byte characters: a-umlaut, o-umlaut. *)
Definition umlaut (b : nat) : string := String (ascii_of_nat 195) (String (ascii_of_nat b) "").
Definition umlauts : string := dquote ++ umlaut 164 ++ dquote ++ " or " ++ dquote ++ umlaut 182 ++ dquote.
Example C143_example :
  parse umlauts HumanPolicy = Ok (tree (FOr [FLeaf (umlaut 164) 2; FLeaf (umlaut 182) 9])) /\ utf8 umlauts = true /\
  Forall (fun n => utf8 n = true) [umlaut 164; umlaut 182] /\
  exists u v, umlauts = u ++ dquote ++ umlaut 182 ++ dquote ++ v /\ 9 = column_after (u ++ dquote) 1.
Proof.
  assert (P : parse umlauts HumanPolicy = Ok (tree (FOr [FLeaf (umlaut 164) 2; FLeaf (umlaut 182) 9])))
    by (vm_compute; reflexivity).
  split; [exact P|]. split; [reflexivity|].
  split; [exact (C143_utf8 _ _ _ P eq_refl)|]. apply (C143_quoted _ _ _ _ _ P). cbn. tauto.
Qed.

(** C35. What was encrypted is decrypted, whatever the shape of the policy. *)
Theorem C35_cp_whenever :
  forall (C : crypto) (L : laws C) (nonce : string) (pk : ac_pk C) (msk : ac_msk C) (attrs : list string)
    (sk : ac_cpsk C) (pol : string) (lang : language) (data : string) (ct : ac_cpct C) (f : formula)
    (ts : nat -> F C) (is js : nat) (tk : nat -> F C) (ik jk : nat) (te : nat -> F C) (ie je : nat),
  ac_setup ts is = Ok (pk, msk, js) ->
  cp_keygen msk attrs tk ik = Ok (sk, jk) ->
  cp_encrypt nonce pk pol data lang te ie = Ok (ct, je) ->
  parse pol lang = Ok (tree f) -> String.length nonce = 12 -> NoDup (names f) -> NoDup attrs ->
  sat (owns attrs) f = true -> cp_decrypt sk ct = Ok data.
Proof.
  intros C L nonce pk msk attrs sk pol lang data ct f ts is js tk ik jk te ie je S K E P.
  destruct (binary_and f) eqn:B; [intros; eapply (cp_correct L); eassumption|].
  rewrite (cp_encrypt_wide_and _ _ _ _ _ _ _ _ P B) in E. discriminate.
Qed.
Print Assumptions C35_cp_whenever.

(** C36. The same with the policy in the key. *)
Theorem C36_kp_whenever :
  forall (C : crypto) (L : laws C) (nonce : string) (pk : ac_pk C) (msk : ac_msk C) (attrs : list string)
    (sk : ac_kpsk C) (pol : string) (lang : language) (data : string) (ct : ac_kpct C) (f : formula)
    (ts : nat -> F C) (is js : nat) (tk : nat -> F C) (ik jk : nat) (te : nat -> F C) (ie je : nat),
  ac_setup ts is = Ok (pk, msk, js) ->
  kp_keygen msk pol lang tk ik = Ok (sk, jk) ->
  kp_encrypt nonce pk attrs data te ie = Ok (ct, je) ->
  parse pol lang = Ok (tree f) -> String.length nonce = 12 -> NoDup (names f) -> NoDup attrs ->
  sat (owns attrs) f = true -> kp_decrypt sk ct = Ok data.
Proof.
  intros C L nonce pk msk attrs sk pol lang data ct f ts is js tk ik jk te ie je S K E P.
  destruct (binary_and f) eqn:B; [intros; eapply (kp_correct L); eassumption|].
  rewrite (kp_keygen_wide_and _ _ _ _ _ _ P B) in K. discriminate.
Qed.
Print Assumptions C36_kp_whenever.
