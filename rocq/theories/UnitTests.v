(** * UnitTests: the tests in the sources, as programs of the model

    Each definition follows one [#[test]] function of the crate, or one example
    in its documentation, step by step.
    [assert!] and [assert_eq!] that fail and [unwrap] of an error panic, so a
    test passes when its program ends with [Ok].  Random draws come from the
    tape, the nonces of AES-GCM are arguments.  Where several tests of a file
    run the same statements on different constants, the statements are one
    definition with the constants as arguments. *)
From Coq Require Import String Ascii List Bool Arith ZArith.
From Verif Require Import Base Crypto Policy Tools Sharing Msp Dnf Parse Symmetric Sha3 Gcm Bdabe Mke08 Bsw Ghw11 Lsw Yct14 Ac17 Aw11.
Import ListNotations.
Local Open Scope string_scope.
Local Open Scope nat_scope.

(** The plaintext of almost all tests; /repo/src/schemes/bsw/mod.rs:340. *)
Definition dance : string := "dance like no one's watching, encrypt like everyone is!".

(** [assert!]; /repo/src/utils/secretsharing/mod.rs:243. *)
Definition assert (b : bool) : outcome unit := if b then Ok tt else Panic.

(** [assert_eq!(r.unwrap(), s)]; /repo/src/schemes/lsw/mod.rs:313. *)
Definition gives (r : outcome string) (s : string) : outcome unit :=
  obind (unwrap_res r) (fun x => assert (seqb x s)).

(** [assert_eq!(r.is_ok(), false)]; /repo/src/schemes/lsw/mod.rs:372. *)
Definition is_err {A} (r : outcome A) : outcome unit :=
  match r with Ok _ => Panic | Err => Ok tt | Panic => Panic end.

(** [unwrap] of a function that draws; /repo/src/schemes/lsw/mod.rs:309. *)
Definition runwrap {F A} (m : rand F A) : rand F A := fun t i => unwrap_res (m t i).

(** The names [a1], [a2] and so on; /repo/src/schemes/bsw/mod.rs:363-366, 408-411. *)
Definition numbered (stem : string) (from n : nat) : list string :=
  map (fun k => stem ++ dec k)%string (seq from n).

(** The policy built in the tests [and10]; /repo/src/schemes/bsw/mod.rs:377-389. *)
Definition and10_policy : string :=
  ("{""name"": ""and"", ""children"": [" ++
   fold_left (fun acc n => acc ++ ("{""name"": ""attr" ++ dec n ++ (if (n <? 10)%nat then """}, " else """}]")))%string
     (seq 1 10) "" ++ "}")%string.

(** The policy built in the test [nested]; /repo/src/schemes/bsw/mod.rs:420-429. *)
Definition nested_policy : string :=
  fold_left (fun policy i =>
    "{""name"":""and"", ""children"":[" ++ "{""name"":""" ++ nth (i - 1) (numbered "a" 1 30) "" ++ """}," ++ policy ++ "]}")%string
    (seq 3 27) "{""name"":""and"", ""children"": [{""name"": ""a2""}, {""name"": ""a1""}]}".

Section UnitTests.
Context {C : crypto}.
Local Open Scope rand_scope.
Notation test := (rand (F C) unit).

(** ** BSW *)

(** The statements of eight of the tests; /repo/src/schemes/bsw/mod.rs:326-356, 359-400, 403-438,
    441-469, 472-497, 500-524, 527-553, 556-576.  The call of [encrypt] precedes the two of [keygen]. *)
Definition bsw_test (nonce policy : string) (matching not_matching : list string) : test :=
  ' (pk, msk) <- bsw_setup ;;
  ct <- runwrap (bsw_encrypt nonce pk policy JsonPolicy dance) ;;
  k1 <- bsw_keygen pk msk matching ;;
  sk1 <- rlift (unwrap k1) ;;
  _ <- rlift (gives (bsw_decrypt sk1 ct) dance) ;;
  k2 <- bsw_keygen pk msk not_matching ;;
  sk2 <- rlift (unwrap k2) ;;
  rlift (is_err (bsw_decrypt sk2 ct)).

(** /repo/src/schemes/bsw/mod.rs:326-356 *)
Definition test_bsw_or nonce : test := bsw_test nonce "{""name"": ""or"", ""children"": [{""name"": ""A""}, {""name"": ""B""}]}" ["D"; "B"] ["C"; "D"].
(** /repo/src/schemes/bsw/mod.rs:359-400 *)
Definition test_bsw_and10 nonce : test := bsw_test nonce and10_policy (numbered "attr" 1 10) ["attr201"; "attr200"].
(** /repo/src/schemes/bsw/mod.rs:403-438 *)
Definition test_bsw_nested nonce : test := bsw_test nonce nested_policy (numbered "a" 1 30) ["x"; "y"].
(** /repo/src/schemes/bsw/mod.rs:441-469 *)
Definition test_bsw_or3 nonce : test := bsw_test nonce "{""name"": ""or"", ""children"": [{""name"": ""X""}, {""name"": ""Y""}, {""name"": ""A""}]}" ["A"] ["B"; "C"].
(** /repo/src/schemes/bsw/mod.rs:472-497 *)
Definition test_bsw_and nonce : test := bsw_test nonce "{""name"": ""and"", ""children"":  [{""name"": ""A""}, {""name"": ""B""}]}" ["A"; "B"; "C"] ["A"; "D"].
(** /repo/src/schemes/bsw/mod.rs:500-524 *)
Definition test_bsw_dual_attributes nonce : test := bsw_test nonce
  "{""name"": ""or"", ""children"": [{""name"": ""and"", ""children"":  [{""name"": ""A""}, {""name"": ""B""}]}, {""name"": ""and"", ""children"":  [{""name"": ""B""}, {""name"": ""C""}]}]}"
  ["A"; "B"] ["A"; "C"].
(** /repo/src/schemes/bsw/mod.rs:527-553 *)
Definition test_bsw_and3 nonce : test := bsw_test nonce "{""name"": ""and"", ""children"":  [{""name"": ""A""}, {""name"": ""B""}, {""name"": ""C""}]}" ["A"; "B"; "C"] ["A"; "D"].
(** /repo/src/schemes/bsw/mod.rs:556-576 *)
Definition test_bsw_or_and nonce : test := bsw_test nonce
  "{""name"": ""or"", ""children"": [{""name"": ""and"", ""children"":  [{""name"": ""A""}, {""name"": ""B""}]}, {""name"": ""and"", ""children"":  [{""name"": ""C""}, {""name"": ""D""}]}]}"
  ["A"; "B"; "C"; "D"] ["A"; "C"].
(** The statements of the test of [delegate]; /repo/src/schemes/bsw/mod.rs:579-601. *)
Definition bsw_delegation (nonce policy : string) (attrs subset : list string) : test :=
  ' (pk, msk) <- bsw_setup ;;
  ct <- runwrap (bsw_encrypt nonce pk policy JsonPolicy dance) ;;
  k <- bsw_keygen pk msk attrs ;;
  sk <- rlift (unwrap k) ;;
  d <- bsw_delegate pk sk subset ;;
  del <- rlift (unwrap d) ;;
  rlift (gives (bsw_decrypt del ct) dance).
(** /repo/src/schemes/bsw/mod.rs:579-601 *)
Definition test_bsw_delegate_ab nonce : test := bsw_delegation nonce "{""name"": ""and"", ""children"":  [{""name"": ""A""}, {""name"": ""B""}]}" ["A"; "B"; "C"] ["A"; "B"].

(** The statements of the example in the documentation; /repo/src/schemes/bsw/mod.rs:16-21. *)
Definition bsw_example (nonce policy : string) (lang : language) (data : string) (attrs : list string) : test :=
  ' (pk, msk) <- bsw_setup ;;
  ct <- runwrap (bsw_encrypt nonce pk policy lang data) ;;
  k <- bsw_keygen pk msk attrs ;;
  sk <- rlift (unwrap k) ;;
  rlift (gives (bsw_decrypt sk ct) data).
(** /repo/src/schemes/bsw/mod.rs:16-21 *)
Definition doc_bsw nonce : test := bsw_example nonce """A"" and ""B""" HumanPolicy dance ["A"; "B"].

(** ** GHW11 *)

(** The statements of two tests; /repo/src/schemes/ghw11/mod.rs:311-354, 395-448.  The transformation
    of the key that does not match is computed after the other. *)
Definition ghw_test (nonce policy : string) (matching not_matching : list string) : test :=
  ' (pk, msk) <- ghw_setup ;;
  k1 <- ghw_keygen pk msk matching ;;
  sk1 <- rlift (unwrap k1) ;;
  k2 <- ghw_keygen pk msk not_matching ;;
  sk2 <- rlift (unwrap k2) ;;
  ct <- runwrap (ghw_encrypt nonce pk policy JsonPolicy dance) ;;
  ' (tk1, rk1) <- runwrap (ghw_tkgen sk1) ;;
  ' (tk2, _) <- runwrap (ghw_tkgen sk2) ;;
  tct <- rlift (unwrap_res (ghw_transform ct tk1)) ;;
  _ <- rlift (is_err (ghw_transform ct tk2)) ;;
  rlift (gives (ghw_decrypt_out tct rk1 (gct_data ct)) dance).

(** /repo/src/schemes/ghw11/mod.rs:311-354 *)
Definition test_ghw_or nonce : test := ghw_test nonce "{""name"": ""or"", ""children"": [{""name"": ""A""}, {""name"": ""B""}]}" ["D"; "B"] ["C"; "D"].
(** /repo/src/schemes/ghw11/mod.rs:395-448 *)
Definition test_ghw_and10 nonce : test := ghw_test nonce and10_policy (numbered "attr" 1 10) ["attr201"; "attr200"].
(** The statements of the third test; /repo/src/schemes/ghw11/mod.rs:357-391.  The text is printed, not compared, after the assertion. *)
Definition ghw_plain (nonce policy data : string) (attrs : list string) : test :=
  ' (pk, msk) <- ghw_setup ;;
  k <- ghw_keygen pk msk attrs ;;
  sk <- rlift (unwrap k) ;;
  ct <- runwrap (ghw_encrypt nonce pk policy JsonPolicy data) ;;
  ' (tk, rk) <- runwrap (ghw_tkgen sk) ;;
  tct <- rlift (unwrap_res (ghw_transform ct tk)) ;;
  rlift (gives (ghw_decrypt_out tct rk (gct_data ct)) data).
(** /repo/src/schemes/ghw11/mod.rs:357-391 *)
Definition test_ghw_and2 nonce : test := ghw_plain nonce "{""name"": ""and"", ""children"": [{""name"": ""attr0""}, {""name"": ""attr1""}]}" "ghw11 OABE" ["attr0"; "attr1"].

(** ** LSW *)

(** Setup, encryption and key generation common to the four tests; /repo/src/schemes/lsw/mod.rs:298-314, 317-333, 336-353, 356-373. *)
Definition lsw_test (nonce policy : string) (lang : language) (data : string) (attrs : list string) (check : outcome string -> outcome unit) : test :=
  ' (pk, msk) <- lsw_setup ;;
  ct <- runwrap (lsw_encrypt nonce pk attrs data) ;;
  sk <- runwrap (lsw_keygen pk msk policy lang) ;;
  rlift (check (lsw_decrypt sk ct)).

(** /repo/src/schemes/lsw/mod.rs:298-314 *)
Definition test_lsw_and nonce : test := lsw_test nonce "{""name"": ""and"", ""children"": [{""name"": ""C""}, {""name"": ""B""}]}" JsonPolicy dance ["A"; "B"; "C"] (fun r => gives r dance).
(** /repo/src/schemes/lsw/mod.rs:317-333 *)
Definition test_lsw_or nonce : test := lsw_test nonce "{""name"": ""or"", ""children"": [{""name"": ""X""}, {""name"": ""B""}]}" JsonPolicy dance ["A"; "B"; "C"] (fun r => gives r dance).
(** /repo/src/schemes/lsw/mod.rs:336-353 *)
Definition test_lsw_or_and nonce : test := lsw_test nonce
  "{""name"": ""or"", ""children"": [{""name"": ""A""}, {""name"": ""and"", ""children"": [{""name"": ""Y""}, {""name"": ""Z""}]}]}"
  JsonPolicy dance ["X"; "Y"; "Z"] (fun r => gives r dance).
(** /repo/src/schemes/lsw/mod.rs:356-373 *)
Definition test_lsw_not nonce : test := lsw_test nonce "{""name"": ""or"", ""children"": [{""name"": ""X""}, {""name"": ""Y""}]}" JsonPolicy dance ["A"; "B"] is_err.

(** The example in the documentation; /repo/src/schemes/lsw/mod.rs:16-21. *)
Definition doc_lsw nonce : test := lsw_test nonce """B"" or ""C""" HumanPolicy "our plaintext!" ["A"; "B"] (fun r => gives r "our plaintext!").

(** ** YCT14 *)

(** The statements of the test and of the example in the documentation; /repo/src/schemes/yct14/mod.rs:25-30, 373-393. *)
Definition yct_test (nonce policy : string) (lang : language) (data : string) (universe attrs : list string) : test :=
  ' (pk, msk) <- yct_setup universe ;;
  ct <- runwrap (yct_encrypt nonce pk attrs data) ;;
  sk <- runwrap (yct_keygen msk policy lang) ;;
  rlift (gives (yct_decrypt sk ct) data).

(** /repo/src/schemes/yct14/mod.rs:373-393 *)
Definition test_yct_or nonce : test := yct_test nonce "{""name"": ""or"", ""children"": [{""name"": ""A""}, {""name"": ""C""}]}" JsonPolicy dance ["A"; "B"; "C"] ["A"; "B"; "C"].
(** /repo/src/schemes/yct14/mod.rs:25-30 *)
Definition doc_yct nonce : test := yct_test nonce """A"" or ""B""" HumanPolicy "our plaintext!" ["A"; "B"; "C"] ["A"; "B"].

(** ** AC17 *)

(** Encryption, key generation and decryption under keys made before; /repo/src/schemes/ac17/mod.rs:692-697, 710-722. *)
Definition kp_round (nonce policy : string) (lang : language) (data : string) (pk : ac_pk C) (msk : ac_msk C) (attrs : list string)
  (check : outcome string -> outcome unit) : test :=
  ct <- runwrap (kp_encrypt nonce pk attrs data) ;;
  sk <- runwrap (kp_keygen msk policy lang) ;;
  rlift (check (kp_decrypt sk ct)).

(** /repo/src/schemes/ac17/mod.rs:683-698 *)
Definition test_kp_and nonce : test :=
  ' (pk, msk) <- ac_setup ;; kp_round nonce "{""name"": ""and"", ""children"": [{""name"": ""A""}, {""name"": ""B""}]}" JsonPolicy dance pk msk ["A"; "B"] (fun r => gives r dance).
(** /repo/src/schemes/ac17/mod.rs:701-723 *)
Definition test_kp_or_and nonce nonce' : test :=
  let policy := "{""name"":""or"", ""children"": [{""name"": ""and"", ""children"": [{""name"": ""A""}, {""name"": ""B""}]}, {""name"": ""and"", ""children"": [{""name"": ""C""}, {""name"": ""D""}]}]}" in
  ' (pk, msk) <- ac_setup ;;
  _ <- kp_round nonce policy JsonPolicy dance pk msk ["A"; "B"] (fun r => gives r dance) ;;
  kp_round nonce' policy JsonPolicy dance pk msk ["C"; "D"] (fun r => gives r dance).
(** /repo/src/schemes/ac17/mod.rs:726-740 *)
Definition test_kp_or nonce : test :=
  ' (pk, msk) <- ac_setup ;; kp_round nonce "{""name"": ""or"", ""children"": [{""name"": ""A""}, {""name"": ""B""}]}" JsonPolicy dance pk msk ["B"] (fun r => gives r dance).
(** /repo/src/schemes/ac17/mod.rs:743-757 *)
Definition test_kp_not nonce : test :=
  ' (pk, msk) <- ac_setup ;; kp_round nonce "{""name"": ""or"", ""children"": [{""name"": ""A""}, {""name"": ""B""}]}" JsonPolicy dance pk msk ["C"] is_err.

(** The statements of the three tests; /repo/src/schemes/ac17/mod.rs:760-774, 777-792, 795-809. *)
Definition cp_test (nonce policy : string) (lang : language) (data : string) (attrs : list string) : test :=
  ' (pk, msk) <- ac_setup ;;
  ct <- runwrap (cp_encrypt nonce pk policy data lang) ;;
  sk <- runwrap (cp_keygen msk attrs) ;;
  rlift (gives (cp_decrypt sk ct) data).

(** /repo/src/schemes/ac17/mod.rs:760-774 *)
Definition test_cp_and nonce : test := cp_test nonce "{""name"": ""and"", ""children"": [{""name"": ""A""}, {""name"": ""B""}]}" JsonPolicy dance ["A"; "B"].
(** /repo/src/schemes/ac17/mod.rs:777-792 *)
Definition test_cp_or nonce : test := cp_test nonce "{""name"": ""or"", ""children"": [{""name"": ""A""}, {""name"": ""B""}, {""name"": ""C""}]}" JsonPolicy dance ["A"].
(** /repo/src/schemes/ac17/mod.rs:795-809 *)
Definition test_cp_or_and_and nonce : test := cp_test nonce
  "{""name"": ""or"", ""children"": [{""name"": ""and"", ""children"": [{""name"": ""A""}, {""name"": ""B""}]}, {""name"": ""and"", ""children"": [{""name"": ""C""}, {""name"": ""D""}]}]}"
  JsonPolicy dance ["A"; "B"; "C"; "D"].

(** The two examples in the documentation; /repo/src/schemes/ac17/mod.rs:18-23. *)
Definition doc_kp nonce : test :=
  ' (pk, msk) <- ac_setup ;;
  kp_round nonce """A"" and ""B""" HumanPolicy "our plaintext!" pk msk ["A"; "B"] (fun r => gives r "our plaintext!").
(** /repo/src/schemes/ac17/mod.rs:31-36 *)
Definition doc_cp nonce : test := cp_test nonce """A"" and ""B""" HumanPolicy "our plaintext!" ["A"; "B"].

(** ** AW11 *)

(** /repo/src/schemes/aw11/mod.rs:398-434 *)
Definition test_aw_and (nonce : string) : test :=
  gp <- aw_setup ;;
  a1 <- aw_authgen gp ["A"; "B"; "C"] ;; ' (pk1, msk1) <- rlift (unwrap a1) ;;
  a2 <- aw_authgen gp ["D"; "E"; "F"] ;; ' (pk2, msk2) <- rlift (unwrap a2) ;;
  a3 <- aw_authgen gp ["G"; "H"; "I"] ;; ' (pk3, msk3) <- rlift (unwrap a3) ;;
  bob <- rlift (unwrap_res (aw_keygen gp msk3 "bob" ["H"; "I"])) ;;
  bob1 <- rlift (unwrap_res (aw_add gp msk1 "B" bob)) ;;
  ct <- runwrap (aw_encrypt nonce gp [pk3; pk1] "{""name"": ""and"", ""children"": [{""name"": ""H""}, {""name"": ""B""}]}" JsonPolicy dance) ;;
  rlift (gives (aw_decrypt gp bob1 ct) dance).

(** The other three tests have two authorities and give the user [A] of the first and further
    attributes of the second; /repo/src/schemes/aw11/mod.rs:437-475, 478-521, 524-560.  The vector of
    public keys is made before or after the additions. *)
Definition aw_test (nonce policy : string) (more : list string) (check : outcome string -> outcome unit) : test :=
  gp <- aw_setup ;;
  a1 <- aw_authgen gp ["A"; "B"] ;; ' (pk1, msk1) <- rlift (unwrap a1) ;;
  a2 <- aw_authgen gp ["C"; "D"] ;; ' (pk2, msk2) <- rlift (unwrap a2) ;;
  bob <- rlift (unwrap_res (aw_keygen gp msk1 "bob" ["A"])) ;;
  bob1 <- rlift (unwrap_res (ofold (fun b a => aw_add gp msk2 a b) more bob)) ;;
  ct <- runwrap (aw_encrypt nonce gp [pk2; pk1] policy JsonPolicy dance) ;;
  rlift (check (aw_decrypt gp bob1 ct)).

(** /repo/src/schemes/aw11/mod.rs:437-475 *)
Definition test_aw_or nonce : test := aw_test nonce "{""name"": ""or"", ""children"": [{""name"": ""B""}, {""name"": ""C""}]}" ["C"] (fun r => gives r dance).
(** /repo/src/schemes/aw11/mod.rs:478-521 *)
Definition test_aw_or_and nonce : test := aw_test nonce
  "{""name"": ""or"", ""children"": [{""name"": ""B""}, {""name"": ""and"", ""children"": [{""name"": ""C""}, {""name"": ""D""}]}]}"
  ["C"; "D"] (fun r => gives r dance).
(** /repo/src/schemes/aw11/mod.rs:524-560 *)
Definition test_aw_not nonce : test := aw_test nonce
  "{""name"": ""or"", ""children"": [{""name"": ""B""}, {""name"": ""and"", ""children"": [{""name"": ""C""}, {""name"": ""A""}]}]}"
  ["D"] is_err.

(** The example in the documentation; /repo/src/schemes/aw11/mod.rs:16-23. *)
Definition doc_aw (nonce : string) : test :=
  gk <- aw_setup ;;
  a <- aw_authgen gk ["A"; "B"] ;; ' (pk, msk) <- rlift (unwrap a) ;;
  bob <- rlift (unwrap_res (aw_keygen gk msk "bob" ["A"])) ;;
  ct <- runwrap (aw_encrypt nonce gk [pk] """A"" or ""B""" HumanPolicy "our plaintext!") ;;
  rlift (gives (aw_decrypt gk bob ct) "our plaintext!").

(** ** BDABE *)

(** The statements of the four tests; /repo/src/schemes/bdabe/mod.rs:493-535, 538-574, 577-623, 626-661:
    authorities, a user of one of them, public keys [(authority, attribute)], secret keys pushed in
    order, then [encrypt] with some of the public keys ([used], by position). *)
Definition bd_test (nonce policy : string) (lang : language) (data : string) (auths : list string) (home : nat)
  (atts : list (nat * string)) (used : list nat) (check : outcome string -> outcome unit) : test :=
  ' (pk, msk) <- bd_setup ;;
  As <- rmap (bd_authgen pk msk) auths ;;
  A <- rlift (unwrap (nth_error As home)) ;;
  uk <- bd_keygen pk A "u1" ;;
  pks <- rlift (omap (fun a => obind (unwrap (nth_error As (fst a))) (fun A => unwrap_res (bd_request_pk pk A (snd a)))) atts) ;;
  sks <- rlift (omap (fun a => obind (unwrap (nth_error As (fst a))) (fun A => unwrap_res (bd_request_sk (buk_pk uk) A (snd a)))) atts) ;;
  apks <- rlift (omap (fun k => unwrap (nth_error pks k)) used) ;;
  ct <- runwrap (bd_encrypt nonce pk apks policy lang data) ;;
  rlift (check (bd_decrypt (fold_left bd_add sks uk) ct)).

(** /repo/src/schemes/bdabe/mod.rs:493-535 *)
Definition test_bd_and nonce : test := bd_test nonce "{""name"": ""and"", ""children"": [{""name"": ""aa1::A""}, {""name"": ""aa2::B""}]}"
  JsonPolicy dance ["aa1"; "aa2"] 0 [(0, "aa1::A"); (1, "aa2::B")] [0; 1] (fun r => gives r dance).
(** /repo/src/schemes/bdabe/mod.rs:538-574 *)
Definition test_bd_or nonce : test := bd_test nonce "{""name"": ""or"", ""children"": [{""name"": ""aa1::A""}, {""name"": ""aa2::B""}]}"
  JsonPolicy dance ["aa1"; "aa2"] 1 [(0, "aa1::C"); (1, "aa2::B")] [0; 1] (fun r => gives r dance).
(** /repo/src/schemes/bdabe/mod.rs:577-623; the name [_att2_pk] is bound twice, so the keys of [A] and [C] are used and that of
    [B] is not. *)
Definition test_bd_or_and nonce : test := bd_test nonce
  "{""name"": ""or"", ""children"": [{""name"": ""and"", ""children"": [{""name"": ""aa3::C""}, {""name"": ""aa2::B""}]}, {""name"": ""aa1::X""}]}"
  JsonPolicy dance ["aa1"; "aa2"; "aa3"] 1 [(0, "aa1::A"); (1, "aa2::B"); (2, "aa3::C")] [0; 2] (fun r => gives r dance).
(** /repo/src/schemes/bdabe/mod.rs:626-661 *)
Definition test_bd_not nonce : test := bd_test nonce "{""name"": ""or"", ""children"": [{""name"": ""aa1::B""}, {""name"": ""aa2::A""}]}"
  JsonPolicy dance ["aa1"; "aa2"] 1 [(0, "aa1::A"); (1, "aa2::B")] [0; 1] is_err.

(** The example in the documentation; /repo/src/schemes/bdabe/mod.rs:16-26. *)
Definition doc_bd nonce : test := bd_test nonce """auth1::A"" or ""auth1::B""" HumanPolicy "our plaintext!"
  ["auth1"] 0 [(0, "auth1::A")] [0] (fun r => gives r "our plaintext!").

(** ** MKE08 *)

(** The statements of the three tests; /repo/src/schemes/mke08/mod.rs:502-535, 538-571, 574-618. *)
Definition mk_test (nonce policy : string) (lang : language) (data : string) (name1 name2 : string) (atts : list (nat * string)) : test :=
  ' (pk, msk) <- mk_setup ;;
  uk <- mk_keygen pk msk "user1" ;;
  auth1 <- mk_authgen name1 ;;
  auth2 <- mk_authgen name2 ;;
  let As := [auth1; auth2] in
  pks <- rlift (omap (fun a => obind (unwrap (nth_error As (fst a))) (fun A => unwrap_res (mk_request_pk pk (snd a) A))) atts) ;;
  sks <- rlift (omap (fun a => obind (unwrap (nth_error As (fst a))) (fun A => unwrap_res (mk_request_sk (muk_pk uk) (snd a) A))) atts) ;;
  ct <- runwrap (mk_encrypt nonce pk pks policy lang data) ;;
  rlift (gives (mk_decrypt (fold_left mk_add sks uk) ct) data).

(** /repo/src/schemes/mke08/mod.rs:502-535 *)
Definition test_mk_and nonce : test := mk_test nonce "{""name"": ""and"", ""children"": [{""name"": ""auth1::A""}, {""name"": ""auth2::B""}]}"
  JsonPolicy dance "auth1" "auth2" [(0, "auth1::A"); (1, "auth2::B")].
(** /repo/src/schemes/mke08/mod.rs:538-571 *)
Definition test_mk_or nonce : test := mk_test nonce "{""name"": ""or"", ""children"": [{""name"": ""auth1::A""}, {""name"": ""auth2::B""}]}"
  JsonPolicy dance "auth1" "auth2" [(0, "auth1::C"); (1, "auth2::B")].
(** /repo/src/schemes/mke08/mod.rs:574-618 *)
Definition test_mk_or_and nonce : test := mk_test nonce
  "{""name"": ""or"", ""children"": [{""name"": ""and"", ""children"": [{""name"": ""auth1::A""}, {""name"": ""auth2::B""}]}, {""name"": ""auth2::X""}]}"
  JsonPolicy dance "auth1" "auth2" [(0, "auth1::A"); (1, "auth2::B"); (1, "auth2::X")].

(** The example in the documentation; /repo/src/schemes/mke08/mod.rs:17-31. *)
Definition doc_mk nonce : test := mk_test nonce """aa1::A"" and ""aa2::B""" HumanPolicy "our plaintext!" "aa1" "aa2"
  [(0, "aa1::A"); (1, "aa2::B")].

(** ** Secret sharing *)

(** [_shares[i]]; /repo/src/utils/secretsharing/mod.rs:235. *)
Definition share (l : list (F C)) (i : nat) : outcome (F C) := unwrap (nth_error l i).

(** [recover_secret] with its own parsing; /repo/src/utils/secretsharing/mod.rs:204-213. *)
Definition recover (shares : list (F C)) (policy : string) : outcome (F C) :=
  obind (unwrap_res (parse policy JsonPolicy)) (recover_secret shares).

(** /repo/src/utils/secretsharing/mod.rs:229-244 *)
Definition test_secret_sharing_or : test :=
  secret <- draw ;;
  shares <- gen_shares secret 1 2 ;;
  k <- rlift (share shares 0) ;;
  s1 <- rlift (share shares 1) ;;
  r <- rlift (recover [s1] "{""name"":""or"", ""children"": [{""name"": ""A""}, {""name"": ""B""}]}") ;;
  rlift (assert (feqb C k r)).

(** /repo/src/utils/secretsharing/mod.rs:247-261; a policy that does not parse is only reported. *)
Definition test_gen_shares_json : test :=
  secret <- draw ;;
  match parse "{""name"": ""and"", ""children"": [{""name"": ""A""}, {""name"": ""B""}, {""name"": ""C""}, {""name"": ""D""}]}" JsonPolicy with
  | Ok pol =>
      shares <- gen_shares_policy secret pol None ;;
      o <- rlift (calc_coefficients pol (f1 C) [] None) ;;
      coeff <- rlift (unwrap o) ;;
      rlift (assert (length coeff =? length shares))
  | Err => rret tt
  | Panic => rpanic
  end.

(** /repo/src/utils/secretsharing/mod.rs:264-283 *)
Definition test_secret_sharing_and : test :=
  secret <- draw ;;
  shares <- gen_shares secret 2 2 ;;
  k <- rlift (share shares 0) ;;
  s1 <- rlift (share shares 1) ;;
  s2 <- rlift (share shares 2) ;;
  r <- rlift (recover [s1; s2] "{""name"": ""and"", ""children"": [{""name"": ""A""}, {""name"": ""B""}]}") ;;
  rlift (assert (feqb C k r)).

(** ** DNF *)

(** A key as in the test; /repo/src/utils/policy/dnf.rs:268-294. *)
Definition unit_key (name : string) : bd_apk C := BdApk name (g1one C) (g2one C) (gtone C).

(** [DnfPolicy::from_string(..).unwrap().terms.len()]; /repo/src/utils/policy/dnf.rs:28-39, 298-304. *)
Definition terms_len (policy : string) : outcome nat :=
  obind (unwrap_res (obind (parse policy JsonPolicy) (fun p =>
    json_to_dnf p (map bd_pak (map unit_key ["A"; "B"; "C"; "D"]))))) (fun l => Ok (length l)).

(** One of the five assertions on [policy_in_dnf]; /repo/src/utils/policy/dnf.rs:246-266. *)
Definition in_dnf (policy : string) (expected : bool) : outcome unit :=
  match parse policy JsonPolicy with
  | Ok pol => assert (Bool.eqb (policy_in_dnf pol false None) expected)
  | Err => Ok tt
  | Panic => Panic
  end.

(** /repo/src/utils/policy/dnf.rs:239-305 *)
Definition test_dnf_from : outcome unit :=
  let p1 := "{""name"": ""or"", ""children"": [{""name"": ""and"", ""children"": [{""name"": ""A""}, {""name"": ""B""}]}, {""name"": ""and"", ""children"":  [{""name"": ""A""}, {""name"": ""C""}]}]}" in
  let p2 := "{""name"": ""and"", ""children"": [{""name"": ""C""}, {""name"": ""D""}]}" in
  let p3 := "{""name"": ""or"", ""children"": [{""name"": ""C""}, {""name"": ""and"",  ""children"": [{""name"": ""A""}, {""name"": ""C""}]}, {""name"" :""and"",  ""children"": [{""name"": ""A""}, {""name"": ""D""}]}]}" in
  let n1 := "{""name"": ""and"", ""children"": [{""name"": ""or"",  ""children"":: [{""name"": ""A""}, {""name"": ""B""}]}, {""name"": ""and"",  ""children"": [{""name"": ""C""}, {""name"": ""D""}]}]}" in
  let n2 := "{""name"": ""or"", ""children"":  [{""name"": ""and"",  ""children"": [{""name"": ""or"",  ""children"": [{""name"": ""C""}, {""name"": ""D""}]}, {""name"": ""B""}]}, {""name"": ""and"",  ""children"": [{""name"": ""C""}, {""name"": ""D""}]}]}" in
  obind (in_dnf p1 true) (fun _ => obind (in_dnf p2 true) (fun _ => obind (in_dnf p3 true) (fun _ =>
  obind (in_dnf n1 false) (fun _ => obind (in_dnf n2 false) (fun _ =>
  obind (terms_len p1) (fun l1 => obind (terms_len p2) (fun l2 => obind (terms_len p3) (fun l3 =>
  obind (assert (l1 =? 3)) (fun _ => obind (assert (l2 =? 1)) (fun _ => assert (l3 =? 5))))))))))).

End UnitTests.

(** ** The symmetric cipher *)

(** [encrypt_symmetric] and [decrypt_symmetric] with a text for the key material, with the digest and
    the cipher of Sha3.v and Gcm.v; /repo/src/utils/aes/mod.rs:10-56. *)
Definition text_encrypt (nonce key data : string) : outcome string :=
  Ok (nonce ++ gcm_enc (sha3_256 key) nonce data)%string.
(** /repo/src/utils/aes/mod.rs:29-56 *)
Definition text_decrypt (key nonce_ct : string) : outcome string :=
  if String.length nonce_ct <? 12 then Panic
  else match gcm_dec (sha3_256 key) (String.substring 0 12 nonce_ct)
               (String.substring 12 (String.length nonce_ct - 12) nonce_ct) with
       | Some data => Ok data
       | None => Err
       end.

(** /repo/src/utils/aes/mod.rs:61-69 *)
Definition test_aes_correctness1 (nonce : string) : outcome unit :=
  let key := "7h15 15 4 v3ry 53cr37 k3ysdfsfsdfsdfdsfdsf1896957848" in
  obind (unwrap_res (text_encrypt nonce key dance)) (fun ct =>
  gives (text_decrypt key ct) dance).

(** ** Parsing *)

(** The statements of the three tests of the parser; /repo/src/utils/policy/pest/mod.rs:119-127, 130-138, 141-149. *)
Definition parse_test (pol human : string) : outcome unit :=
  obind (unwrap_res (parse pol JsonPolicy)) (fun json =>
  obind (serialize_policy json JsonPolicy None) (fun sj =>
  obind (serialize_policy json HumanPolicy None) (fun sh =>
  obind (assert (seqb sj pol)) (fun _ => assert (seqb sh human))))).

(** /repo/src/utils/policy/pest/mod.rs:119-127 *)
Definition test_single_parsing : outcome unit := parse_test "{""name"": ""A""}" "A".
(** /repo/src/utils/policy/pest/mod.rs:130-138 *)
Definition test_children_parsing : outcome unit := parse_test "{""name"": ""and"", ""children"": [{""name"": ""B""}, {""name"": ""C""}]}" "(B and C)".
(** /repo/src/utils/policy/pest/mod.rs:141-149 *)
Definition test_sub_children_parsing : outcome unit :=
  parse_test "{""name"": ""or"", ""children"": [{""name"": ""A""}, {""name"": ""and"", ""children"": [{""name"": ""B""}, {""name"": ""C""}]}]}" "(A or (B and C))".

(** ** Span programs *)

(** Rows and names compared entry by entry; /repo/src/utils/policy/msp.rs:183-192. *)
Definition same_msp (msp expected : abe_policy) : outcome unit :=
  obind (ofold (fun _ i =>
    obind (unwrap (nth_error (msp_m msp) i)) (fun p =>
    obind (unwrap (nth_error (msp_m expected) i)) (fun q =>
    obind (ofold (fun _ j =>
      obind (unwrap (nth_error p j)) (fun x => obind (unwrap (nth_error q j)) (fun y => assert (Z.eqb x y))))
      (seq 0 3) tt) (fun _ =>
    obind (unwrap (nth_error (msp_pi expected) i)) (fun x =>
    obind (unwrap (nth_error (msp_pi msp) i)) (fun y => assert (seqb x y)))))))
    (seq 0 4) tt) (fun _ => assert (msp_c expected =? msp_c msp)).

(** /repo/src/utils/policy/msp.rs:157-199 *)
Definition test_msp_from : outcome unit :=
  match parse "{name:""and"", children:[{name:""A""}, {name:""or"", ""children"":[{name:""D""}, {name:""and"", ""children"":[{name:""B""},{name:""C""}]}]} ]}" JsonPolicy with
  | Ok pol =>
      match calculate_msp pol with
      | Ok msp => same_msp msp (AbePolicy [[1; 1; 0]; [0; -1; 1]; [0; 0; -1]; [0; -1; 0]]%Z ["A"; "B"; "C"; "D"] 3)
      | Err => assert false
      | Panic => Panic
      end
  | Err => Ok tt
  | Panic => Panic
  end.

(** ** Satisfaction *)

(** The assertions on one policy; /repo/src/utils/tools/mod.rs:102-127. *)
Definition traverse_test (policy : string) (expected : list (list string * bool)) : outcome unit :=
  match parse policy JsonPolicy with
  | Ok pol => ofold (fun _ e => assert (Bool.eqb (traverse_policy (fst e) pol Leaf) (snd e))) expected tt
  | Err => Ok tt
  | Panic => Panic
  end.

(** /repo/src/utils/tools/mod.rs:77-129 *)
Definition test_traverse : outcome unit :=
  let set0 := ["X"; "Y"] in let set1 := ["A"; "B"] in let set2 := ["C"; "D"] in let set3 := ["A"; "B"; "C"; "D"] in
  obind (is_err (parse "what-the-heck?" JsonPolicy)) (fun _ =>
  obind (traverse_test "{""name"": ""and"", ""children"": [{""name"": ""A""}, {""name"": ""B""}]}" [(set0, false); (set1, true); (set2, false); (set3, true)]) (fun _ =>
  obind (traverse_test "{""name"": ""or"", ""children"": [{""name"": ""A""}, {""name"": ""B""}]}" [(set1, true); (set2, false); (set3, true)]) (fun _ =>
  traverse_test "{""name"": ""and"", ""children"": [{""name"":""or"", ""children"": [{""name"": ""C""}, {""name"": ""D""}]}, {""name"": ""B""}]}" [(set1, false); (set2, false); (set3, true)]))).

(** ** Pruning *)

(** Equality of lists of pairs of texts ([Vec<(String, String)>]); /repo/src/utils/secretsharing/mod.rs:315. *)
Fixpoint same_pairs (a b : list (string * string)) : bool :=
  match a, b with
  | [], [] => true
  | x :: a', y :: b' => seqb (fst x) (fst y) && seqb (snd x) (snd y) && same_pairs a' b'
  | _, _ => false
  end.

(** One call with its assertions; /repo/src/utils/secretsharing/mod.rs:297-301, 313-315. *)
Definition prune_test (policy : string) (expected : list (string * string)) : outcome unit :=
  obind (unwrap_res (parse policy JsonPolicy)) (fun pol =>
  obind (unwrap_res (calc_pruned ["A"; "B"; "C"] pol None)) (fun ml =>
  obind (assert (fst ml)) (fun _ => assert (same_pairs (snd ml) expected)))).

(** /repo/src/utils/secretsharing/mod.rs:286-324 *)
Definition test_pruning : outcome unit :=
  obind (prune_test "{""name"": ""or"", ""children"": [{""name"": ""and"", ""children"": [{""name"": ""A""}, {""name"": ""B""}]}, {""name"": ""and"", ""children"": [{""name"": ""C""}, {""name"": ""D""}]}]}" [("A", "A_68"); ("B", "B_83")]) (fun _ =>
  obind (prune_test "{""name"": ""or"", ""children"": [{""name"": ""C""}, {""name"": ""and"", ""children"": [{""name"": ""A""}, {""name"": ""E""}]}]}" [("C", "C_39")]) (fun _ =>
  prune_test "{""name"": ""or"", ""children"": [{""name"": ""and"", ""children"": [{""name"": ""A""}, {""name"": ""C""}]}, {""name"": ""and"", ""children"": [{""name"": ""C""}, {""name"": ""A""}]}]}" [("A", "A_68"); ("C", "C_83")])).
