(** * PropertiesPad: YCT14 keys for one policy open what lacks a name (C159)

    The proofs are in PadProofs.v. *)
From Coq Require Import String Ascii List Bool Arith ZArith Lia.
From Verif Require Import Base Crypto Policy Tools Sharing Spec PolicyProofs Poly SharingProofs
  Symmetric Parse ParseProofs SchemeLib Yct14 Yct14Proofs
  Instance Sessions Witnesses Blending Pad PadProofs.
Import ListNotations.
Local Open Scope string_scope.
Local Open Scope rand_scope.
Local Open Scope nat_scope.

(** Two keys for any policy, with different values for the name n, open every ciphertext that would satisfy
    the policy with n. *)
Theorem C159_yct_two_keys : forall (C : crypto), laws C ->
  forall nonce U (pk : yct_pk C) msk attrs n sk1 sk2 a1 a2 pol lang data ct f ts is js t1 i1 j1 t2 i2 j2 te ie je,
  yct_setup U ts is = Ok ((pk, msk), js) ->
  yct_keygen msk pol lang t1 i1 = Ok (sk1, j1) ->
  yct_keygen msk pol lang t2 i2 = Ok (sk2, j2) ->
  yct_encrypt nonce pk attrs data te ie = Ok (ct, je) ->
  parse pol lang = Ok (tree f) -> String.length nonce = 12 ->
  arity2 f = true -> NoDup (names f) -> plain_names f = true -> small_ok C (and_width f) ->
  In n U -> sk_get_private sk1 n = Ok a1 -> sk_get_private sk2 n = Ok a2 -> a1 <> a2 ->
  sat (owns (n :: attrs)) f = true ->
  yct_open_without sk1 sk2 n ct = Ok data.
Proof. exact @yct_opens_without. Qed.
Print Assumptions C159_yct_two_keys.

(** More generally an issued key opens, by the crate's own decryption, a ciphertext without the names for
    which its entries are zero.  Keys combined from issued ones are issued keys for other draws (C119_yct),
    so each further key lets one more name be missing. *)
Theorem C159_yct_zeros : forall (C : crypto), laws C ->
  forall nonce U (pk : yct_pk C) msk attrs miss sk pol lang data ct f ts is js tk ik jk te ie je,
  yct_setup U ts is = Ok ((pk, msk), js) ->
  yct_keygen msk pol lang tk ik = Ok (sk, jk) ->
  yct_encrypt nonce pk attrs data te ie = Ok (ct, je) ->
  parse pol lang = Ok (tree f) -> String.length nonce = 12 ->
  arity2 f = true -> NoDup (names f) -> plain_names f = true -> small_ok C (and_width f) ->
  incl miss U -> (forall n, In n miss -> In n (names f) -> sk_get_private sk n = Ok (f0 C)) ->
  sat (owns (miss ++ attrs)) f = true ->
  yct_decrypt sk (yct_pad miss ct) = Ok data.
Proof. exact @yct_pad_opens. Qed.
Print Assumptions C159_yct_zeros.

(** Any number of keys for one policy, one more than names are missing: if elimination goes through, that is
    if no two values that it compares are the same, the result opens. *)
Theorem C159_yct_many_keys : forall (C : crypto), laws C ->
  forall nonce U (pk : yct_pk C) msk attrs miss keys sk pol lang data ct f ts is js te ie je,
  yct_setup U ts is = Ok ((pk, msk), js) ->
  Forall (fun k => exists t i j, yct_keygen msk pol lang t i = Ok (k, j)) keys ->
  yct_encrypt nonce pk attrs data te ie = Ok (ct, je) ->
  parse pol lang = Ok (tree f) -> String.length nonce = 12 ->
  arity2 f = true -> NoDup (names f) -> plain_names f = true -> small_ok C (and_width f) ->
  incl miss U -> yct_eliminate miss keys = Ok sk ->
  sat (owns (miss ++ attrs)) f = true ->
  yct_decrypt sk (yct_pad miss ct) = Ok data.
Proof. exact @yct_many_open. Qed.
Print Assumptions C159_yct_many_keys.

(** Two keys for a policy with four names, and a ciphertext with two of the three that it takes. *)
Theorem C159_yct_refuted : exists (pk : yct_pk ZC) msk sk1 sk2 ct t i1 i2 i3 i4,
  yct_setup ["A"; "B"; "C"; "D"] t 0 = Ok (pk, msk, i1) /\
  yct_keygen msk """A"" and (""B"" or ""C"") and ""D""" HumanPolicy t i1 = Ok (sk1, i2) /\
  yct_keygen msk """A"" and (""B"" or ""C"") and ""D""" HumanPolicy t i2 = Ok (sk2, i3) /\
  yct_encrypt nc pk ["C"; "D"] "hello" t i3 = Ok (ct, i4) /\
  yct_decrypt sk1 ct = Err /\ yct_decrypt sk2 ct = Err /\
  yct_open_without sk1 sk2 "A" ct = Ok "hello".
Proof.
  by_run (' (pk, msk) <- yct_setup (C := ZC) ["A"; "B"; "C"; "D"] ;;
    sk1 <- yct_keygen msk """A"" and (""B"" or ""C"") and ""D""" HumanPolicy ;;
    sk2 <- yct_keygen msk """A"" and (""B"" or ""C"") and ""D""" HumanPolicy ;;
    ct <- yct_encrypt nc pk ["C"; "D"] "hello" ;;
    rret (yct_decrypt sk1 ct, yct_decrypt sk2 ct, yct_open_without sk1 sk2 "A" ct)) (@Err string, @Err string, Ok "hello").
Qed.
Print Assumptions C159_yct_refuted.

(** Three keys for the same policy, and a ciphertext with one name only. *)
Theorem C159_yct_many_refuted : exists (pk : yct_pk ZC) msk sk1 sk2 sk3 sk ct t i1 i2 i3 i4 i5,
  yct_setup ["A"; "B"; "C"; "D"] t 0 = Ok (pk, msk, i1) /\
  yct_keygen msk """A"" and (""B"" or ""C"") and ""D""" HumanPolicy t i1 = Ok (sk1, i2) /\
  yct_keygen msk """A"" and (""B"" or ""C"") and ""D""" HumanPolicy t i2 = Ok (sk2, i3) /\
  yct_keygen msk """A"" and (""B"" or ""C"") and ""D""" HumanPolicy t i3 = Ok (sk3, i4) /\
  yct_encrypt nc pk ["C"] "hello" t i4 = Ok (ct, i5) /\
  yct_decrypt sk1 ct = Err /\ yct_decrypt sk2 ct = Err /\ yct_decrypt sk3 ct = Err /\
  yct_eliminate ["A"; "D"] [sk1; sk2; sk3] = Ok sk /\ yct_decrypt sk (yct_pad ["A"; "D"] ct) = Ok "hello".
Proof.
  by_run (' (pk, msk) <- yct_setup (C := ZC) ["A"; "B"; "C"; "D"] ;;
    sk1 <- yct_keygen msk """A"" and (""B"" or ""C"") and ""D""" HumanPolicy ;;
    sk2 <- yct_keygen msk """A"" and (""B"" or ""C"") and ""D""" HumanPolicy ;;
    sk3 <- yct_keygen msk """A"" and (""B"" or ""C"") and ""D""" HumanPolicy ;;
    ct <- yct_encrypt nc pk ["C"] "hello" ;;
    sk <- rlift (yct_eliminate ["A"; "D"] [sk1; sk2; sk3]) ;;
    rret (yct_decrypt sk1 ct, yct_decrypt sk2 ct, yct_decrypt sk3 ct, yct_decrypt sk (yct_pad ["A"; "D"] ct)))
    (@Err string, @Err string, @Err string, Ok "hello").
Qed.
Print Assumptions C159_yct_many_refuted.

(** The policy of the two keys; not in /repo. *)
Definition fV : formula := FAnd [FLeaf "A" 2; FOr [FLeaf "B" 11; FLeaf "C" 18]; FLeaf "D" 27].

Example C159_example :
  parse """A"" and (""B"" or ""C"") and ""D""" HumanPolicy = Ok (tree fV) /\
  arity2 fV = true /\ NoDup (names fV) /\ plain_names fV = true /\ small_ok ZC (and_width fV) /\
  sat (owns ["A"; "C"; "D"]) fV = true /\ sat (owns ["C"; "D"]) fV = false /\
  exists (pk : yct_pk ZC) (msk : yct_msk ZC) (sk1 sk2 : yct_sk ZC) i1 i2 i3 a1 a2,
    yct_setup (C := ZC) ["A"; "B"; "C"; "D"] (ztape 3%Z) 0 = Ok (pk, msk, i1) /\
    yct_keygen msk """A"" and (""B"" or ""C"") and ""D""" HumanPolicy (ztape 3%Z) i1 = Ok (sk1, i2) /\
    yct_keygen msk """A"" and (""B"" or ""C"") and ""D""" HumanPolicy (ztape 3%Z) i2 = Ok (sk2, i3) /\
    sk_get_private sk1 "A" = Ok a1 /\ sk_get_private sk2 "A" = Ok a2 /\ a1 <> a2.
Proof.
  split; [vm_compute; reflexivity|]. split; [reflexivity|].
  split; [repeat constructor; cbn; intuition discriminate|]. split; [reflexivity|]. split; [ground|].
  split; [reflexivity|]. split; [reflexivity|].
  do 9 eexists. split; [reflexivity|]. split; [reflexivity|]. split; [reflexivity|].
  split; [reflexivity|]. split; [reflexivity|].
  intros E. apply (f_equal zval) in E. vm_compute in E. discriminate E.
Qed.
