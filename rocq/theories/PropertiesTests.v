(** * PropertiesTests: the crate's own tests and examples pass whatever is drawn (C126)

    [passes] (UnitTestProofs.v) belongs to the statements: the program of the test ends normally, so no
    assertion fails and nothing is unwrapped in vain, on every tape without a zero. *)
From Coq Require Import String Ascii List Bool Arith ZArith Lia.
From Verif Require Import Base Crypto Policy Tools Sharing Spec Poly Msp Parse Symmetric Dnf DnfProofs Bdabe Mke08 DnfExact Bsw
  Ghw11 Lsw Yct14 Ac17 Aw11 Sessions SessionProofs UnitTests UnitTestProofs Instance Witnesses.
Import ListNotations.
Local Open Scope string_scope.
Local Open Scope nat_scope.

(** C126 for the nine tests and the example of BSW. *)
Theorem C126_bsw : forall C, laws C -> @hash_total C -> small_ok C 10 -> forall nonce, String.length nonce = 12 ->
  passes (C := C) (test_bsw_or nonce) /\ passes (C := C) (test_bsw_and10 nonce) /\ passes (C := C) (test_bsw_nested nonce) /\
  passes (C := C) (test_bsw_or3 nonce) /\ passes (C := C) (test_bsw_and nonce) /\ passes (C := C) (test_bsw_dual_attributes nonce) /\
  passes (C := C) (test_bsw_and3 nonce) /\ passes (C := C) (test_bsw_or_and nonce) /\ passes (C := C) (test_bsw_delegate_ab nonce) /\
  passes (C := C) (doc_bsw nonce).
Proof. exact @bsw_tests_pass. Qed.
Print Assumptions C126_bsw.

(** C126 for the three tests of GHW11. *)
Theorem C126_ghw : forall C, laws C -> @hash_total C -> small_ok C 10 -> forall nonce, String.length nonce = 12 ->
  passes (C := C) (test_ghw_or nonce) /\ passes (C := C) (test_ghw_and10 nonce) /\ passes (C := C) (test_ghw_and2 nonce).
Proof. exact @ghw_tests_pass. Qed.
Print Assumptions C126_ghw.

(** C126 for the four tests and the example of LSW. *)
Theorem C126_lsw : forall C, laws C -> @hash_total C -> small_ok C 10 -> forall nonce, String.length nonce = 12 ->
  passes (C := C) (test_lsw_and nonce) /\ passes (C := C) (test_lsw_or nonce) /\ passes (C := C) (test_lsw_or_and nonce) /\
  passes (C := C) (test_lsw_not nonce) /\ passes (C := C) (doc_lsw nonce).
Proof. exact @lsw_tests_pass. Qed.
Print Assumptions C126_lsw.

(** C126 for the test and the example of YCT14. *)
Theorem C126_yct : forall C, laws C -> small_ok C 10 -> forall nonce, String.length nonce = 12 ->
  passes (C := C) (test_yct_or nonce) /\ passes (C := C) (doc_yct nonce).
Proof. exact @yct_tests_pass. Qed.
Print Assumptions C126_yct.

(** C126 for the seven tests and the two examples of AC17. *)
Theorem C126_ac : forall C, laws C -> @hash_total C -> forall nonce nonce', String.length nonce = 12 -> String.length nonce' = 12 ->
  passes (C := C) (test_kp_and nonce) /\ passes (C := C) (test_kp_or_and nonce nonce') /\ passes (C := C) (test_kp_or nonce) /\
  passes (C := C) (test_kp_not nonce) /\ passes (C := C) (doc_kp nonce) /\
  passes (C := C) (test_cp_and nonce) /\ passes (C := C) (test_cp_or nonce) /\ passes (C := C) (test_cp_or_and_and nonce) /\
  passes (C := C) (doc_cp nonce).
Proof. exact @ac_tests_pass. Qed.
Print Assumptions C126_ac.

(** C126 for the four tests and the example of AW11. *)
Theorem C126_aw : forall C, laws C -> @hash_total C -> small_ok C 10 -> forall nonce, String.length nonce = 12 ->
  passes (C := C) (test_aw_and nonce) /\ passes (C := C) (test_aw_or nonce) /\ passes (C := C) (test_aw_or_and nonce) /\
  passes (C := C) (test_aw_not nonce) /\ passes (C := C) (doc_aw nonce).
Proof. exact @aw_tests_pass. Qed.
Print Assumptions C126_aw.

(** C126 for the four tests and the example of BDABE. *)
Theorem C126_bd : forall C, laws C -> @hash_total C -> forall nonce, String.length nonce = 12 ->
  passes (C := C) (test_bd_and nonce) /\ passes (C := C) (test_bd_or nonce) /\ passes (C := C) (test_bd_or_and nonce) /\
  passes (C := C) (test_bd_not nonce) /\ passes (C := C) (doc_bd nonce).
Proof. exact @bd_tests_pass. Qed.
Print Assumptions C126_bd.

(** C126 for the three tests and the example of MKE08. *)
Theorem C126_mk : forall C, laws C -> @hash_total C -> forall nonce, String.length nonce = 12 ->
  passes (C := C) (test_mk_and nonce) /\ passes (C := C) (test_mk_or nonce) /\ passes (C := C) (test_mk_or_and nonce) /\
  passes (C := C) (doc_mk nonce).
Proof. exact @mk_tests_pass. Qed.
Print Assumptions C126_mk.

(** C126 for the three tests of the sharing that draw. *)
Theorem C126_sharing : forall C, laws C ->
  passes (C := C) test_secret_sharing_or /\ passes (C := C) test_secret_sharing_and /\ passes (C := C) test_gen_shares_json.
Proof. exact (fun C L => conj (sharing_or_passes L) (conj (sharing_and_passes L) (gen_shares_json_passes L))). Qed.
Print Assumptions C126_sharing.

(** C126 for the tests that draw nothing: parsing, span programs, satisfaction, pruning and disjunctive normal form. *)
Theorem C126_plain :
  (test_single_parsing = Ok tt /\ test_children_parsing = Ok tt /\ test_sub_children_parsing = Ok tt /\
   test_msp_from = Ok tt /\ test_traverse = Ok tt /\ test_pruning = Ok tt) /\
  forall C : crypto, test_dnf_from (C := C) = Ok tt.
Proof. exact (conj parsing_passes (@dnf_passes)). Qed.
Print Assumptions C126_plain.

(** C126 for the test of the symmetric cipher, with every nonce. *)
Theorem C126_aes : forall nonce, String.length nonce = 12 -> test_aes_correctness1 nonce = Ok tt.
Proof. exact aes_passes. Qed.
Print Assumptions C126_aes.

(** The hypotheses hold of residues modulo 1009, of the nonce of twelve letters and of the tape of threes. *)
Example C126_example : inhabited (laws ZC) /\ @hash_total ZC /\ small_ok ZC 10 /\ String.length nc = 12 /\
  live (C := ZC) (fun _ => ztape 3 0).
Proof.
  split; [exact (inhabits ZL)|]. split; [intros s; discriminate|]. split; [apply Zsmall; lia|].
  split; [reflexivity|]. intros n E. vm_compute in E. discriminate.
Qed.

(** A test that expects success where the policy is not satisfied, or an error where it is, does not pass. *)
Example C126_wrong_expectation :
  (exists t, live (C := ZC) t /\ lsw_test (C := ZC) nc "{""name"": ""or"", ""children"": [{""name"": ""X""}, {""name"": ""Y""}]}"
     JsonPolicy dance ["A"; "B"] (fun r => gives r dance) t 0 = Panic) /\
  (exists t, live (C := ZC) t /\ lsw_test (C := ZC) nc "{""name"": ""or"", ""children"": [{""name"": ""X""}, {""name"": ""B""}]}"
     JsonPolicy dance ["A"; "B"; "C"] is_err t 0 = Panic).
Proof.
  assert (Lv : live (C := ZC) (fun _ => ztape 3 0)) by (intros n E; vm_compute in E; discriminate).
  split; exists (fun _ => ztape 3 0); (split; [exact Lv|]); vm_compute; reflexivity.
Qed.

(** What the test [or_and] of BDABE encrypts to: of the keys of its attributes that of [aa2::B] is not handed to
    [encrypt], so [aa3::C] alone opens the ciphertext though the policy asks for both. *)
Example C126_bd_or_and_opens :
  let f := policy_of "{""name"": ""or"", ""children"": [{""name"": ""and"", ""children"": [{""name"": ""aa3::C""}, {""name"": ""aa2::B""}]}, {""name"": ""aa1::X""}]}" JsonPolicy in
  blocks ["aa1::A"; "aa3::C"] f = [["aa3::C"]] /\ sat (owns ["aa3::C"]) f = false.
Proof. vm_compute. split; reflexivity. Qed.

(** What the test of the normal form counts: three terms for two conjunctions and five for three. *)
Example C126_dnf_counts :
  let p1 := "{""name"": ""or"", ""children"": [{""name"": ""and"", ""children"": [{""name"": ""A""}, {""name"": ""B""}]}, {""name"": ""and"", ""children"":  [{""name"": ""A""}, {""name"": ""C""}]}]}" in
  let p3 := "{""name"": ""or"", ""children"": [{""name"": ""C""}, {""name"": ""and"",  ""children"": [{""name"": ""A""}, {""name"": ""C""}]}, {""name"" :""and"",  ""children"": [{""name"": ""A""}, {""name"": ""D""}]}]}" in
  length (conjs (policy_of p1 JsonPolicy)) = 2 /\ terms_len (C := ZC) p1 = Ok 3 /\
  length (conjs (policy_of p3 JsonPolicy)) = 3 /\ terms_len (C := ZC) p3 = Ok 5.
Proof. vm_compute. repeat split. Qed.

(** One of its policies is not read, and its assertion is not reached. *)
Example C126_dnf_unread :
  parse "{""name"": ""and"", ""children"": [{""name"": ""or"",  ""children"":: [{""name"": ""A""}, {""name"": ""B""}]}, {""name"": ""and"",  ""children"": [{""name"": ""C""}, {""name"": ""D""}]}]}" JsonPolicy = Err.
Proof. vm_compute. reflexivity. Qed.
