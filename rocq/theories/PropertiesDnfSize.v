(** * PropertiesDnfSize: C145: what a BDABE or MKE08 ciphertext holds, by the policy and the keys alone

    [key_blocks attr ks f]: the keys that go together, read off the policy; [by_length]: the order;
    [keys_for attr ks ns]: the keys for the names [ns].  None of them is a definition of the model.
    The proofs are in DnfSize.v. *)
From Coq Require Import String Ascii List Bool Arith NArith ZArith Lia Permutation.
From Verif Require Import Base Crypto Policy Spec Symmetric Parse Borsh Lengths DnfExact DnfSize
  Bdabe Mke08 Instance Witnesses BnInstance RealInstance PropertiesLengths.
Import ListNotations.
Local Open Scope nat_scope.
Local Open Scope string_scope.

(** C145: a BDABE ciphertext. *)
Theorem C145_bd_parts :
  forall C : crypto, laws C ->
  forall (nonce : string) (pk : bd_pk C) (apks : list (bd_apk C)) (pol : string) (lang : language)
    (data : string) (t : nat -> F C) (i : nat) (ct : bd_ct C) (j : nat) (f : formula),
  parse pol lang = Ok (tree f) -> bd_encrypt nonce pk apks pol lang data t i = Ok (ct, j) ->
  let m := pairing C (g1mul C (g1one C) (t i)) (g2mul C (g2one C) (t (i + 1))) in
  let bs := by_length (key_blocks bapk_attr apks f) in
  bct_policy ct = (pol, lang) /\ encrypt_symmetric nonce m data = Ok (bct_data ct) /\
  j = i + 2 + length bs /\ length (bct_j ct) = length bs /\
  forall (k : nat) (b : list (bd_apk C)), nth_error bs k = Some b ->
  let r := t (i + 2 + k) in
  nth_error (bct_j ct) k = Some
    {| bt_attr := map bapk_attr b;
       bt_e1 := gtmul C (gtpow C (prodT C (map bapk_a3 b)) r) m;
       bt_e2 := g1mul C (bpk_p1 pk) r;
       bt_e3 := g2mul C (bpk_p2 pk) r;
       bt_e4 := g1mul C (sum1 C (map bapk_a1 b)) r;
       bt_e5 := g2mul C (sum2 C (map bapk_a2 b)) r |}.
Proof. exact @bd_parts. Qed.
Print Assumptions C145_bd_parts.

(** C145: an MKE08 ciphertext. *)
Theorem C145_mk_parts :
  forall C : crypto, laws C ->
  forall (nonce : string) (pk : mk_pk C) (apks : list (mk_apk C)) (pol : string) (lang : language)
    (data : string) (t : nat -> F C) (i : nat) (ct : mk_ct C) (j : nat) (f : formula),
  parse pol lang = Ok (tree f) -> mk_encrypt nonce pk apks pol lang data t i = Ok (ct, j) ->
  let m1 := pairing C (g1mul C (g1one C) (t i)) (g2mul C (g2one C) (t (i + 1))) in
  let m2 := gtpow C m1 (t (i + 2)) in
  let bs := by_length (key_blocks mapk_attr apks f) in
  mct_policy ct = (pol, lang) /\ encrypt_symmetric nonce (gtmul C m1 m2) data = Ok (mct_data ct) /\
  j = i + 3 + length bs /\ length (mct_e ct) = length bs /\
  forall (k : nat) (b : list (mk_apk C)), nth_error bs k = Some b ->
  let r := t (i + 3 + k) in
  nth_error (mct_e ct) k = Some
    {| mj_str := map mapk_attr b;
       mj_1 := gtmul C (gtpow C (prodT C (map mapk_gt1 b)) r) m1;
       mj_2 := gtmul C (gtpow C (prodT C (map mapk_gt2 b)) r) m2;
       mj_3 := g1mul C (mpk_p1 pk) r;
       mj_4 := g2mul C (mpk_p2 pk) r;
       mj_5 := g1mul C (sum1 C (map mapk_g1 b)) r;
       mj_6 := g2mul C (sum2 C (map mapk_g2 b)) r |}.
Proof. exact @mk_parts. Qed.
Print Assumptions C145_mk_parts.

(** C145: the keys of the parts are those for the leaves, each leaf once with every key of its attribute.
    The parts are in the order of their sizes, and none is empty. *)
Theorem C145_every_leaf :
  forall (K : Type) (attr : K -> string) (ks : list K) (f : formula),
  concat (key_blocks attr ks f) = keys_for attr ks (names f) /\
  Permutation (key_blocks attr ks f) (by_length (key_blocks attr ks f)) /\
  Forall (fun b => b <> []) (key_blocks attr ks f).
Proof.
  exact (fun K attr ks f => conj (key_blocks_concat attr ks f)
    (conj (by_length_perm _ (key_blocks_nonempty attr ks f)) (key_blocks_nonempty attr ks f))).
Qed.
Print Assumptions C145_every_leaf.

(** C145: there are fewer than two parts for each alternative of the policy, and at most one for each
    leaf and key. *)
Theorem C145_count :
  forall (K : Type) (attr : K -> string) (ks : list K) (f : formula),
  length (key_blocks attr ks f) <= 2 * alternatives f - 1 /\
  length (key_blocks attr ks f) <= length (keys_for attr ks (names f)).
Proof. exact (fun K attr ks f => conj (key_blocks_length attr ks f) (key_blocks_keys attr ks f)). Qed.
Print Assumptions C145_count.

(** C145: by their names these are the sets of attributes of C94. *)
Theorem C145_names :
  forall (K : Type) (attr : K -> string) (ks : list K) (f : formula),
  map (map attr) (key_blocks attr ks f) = blocks (map attr ks) f.
Proof.
  intros K attr ks f. rewrite <- (key_blocks_map attr ks attr (fun n => n)) by reflexivity. apply key_blocks_blocks.
Qed.
Print Assumptions C145_names.

(** C145: the bytes of a BDABE ciphertext. *)
Theorem C145_bd_bytes :
  forall (C : crypto) (W : wire C) (wf wa wb wt : nat), widths W wf wa wb wt ->
  forall (nonce : string) (pk : bd_pk C) (apks : list (bd_apk C)) (pol : string) (lang : language)
    (data : string) (t : nat -> F C) (i : nat) (ct : bd_ct C) (j : nat) (f : formula),
  seals C nonce -> parse pol lang = Ok (tree f) -> bd_encrypt nonce pk apks pol lang data t i = Ok (ct, j) ->
  long (c_bd_ct W) ct (text pol + 1 +
    (4 + length (key_blocks bapk_attr apks f) * (4 + wt + 2 * wa + 2 * wb) +
     list_sum (map (fun k => text (bapk_attr k)) (keys_for bapk_attr apks (names f)))) + sealed data).
Proof. exact @bd_bytes. Qed.
Print Assumptions C145_bd_bytes.

(** C145: the bytes of an MKE08 ciphertext. *)
Theorem C145_mk_bytes :
  forall (C : crypto) (W : wire C) (wf wa wb wt : nat), widths W wf wa wb wt ->
  forall (nonce : string) (pk : mk_pk C) (apks : list (mk_apk C)) (pol : string) (lang : language)
    (data : string) (t : nat -> F C) (i : nat) (ct : mk_ct C) (j : nat) (f : formula),
  seals C nonce -> parse pol lang = Ok (tree f) -> mk_encrypt nonce pk apks pol lang data t i = Ok (ct, j) ->
  long (c_mk_ct W) ct (text pol + 1 +
    (4 + length (key_blocks mapk_attr apks f) * (4 + 2 * wt + 2 * wa + 2 * wb) +
     list_sum (map (fun k => text (mapk_attr k)) (keys_for mapk_attr apks (names f)))) + sealed data).
Proof. exact @mk_bytes. Qed.
Print Assumptions C145_mk_bytes.

(** ** A policy whose second alternative comes first, with keys for its three attributes *)

Definition PD : string := "(""x::A"" and ""x::B"") or ""x::C""".
Definition fD : formula := FOr [FAnd [FLeaf "x::A" 2; FLeaf "x::B" 13]; FLeaf "x::C" 24].
Definition nD : list string := ["x::C"; "x::B"; "x::A"].

Example C145_example_blocks :
  (exists p q r, parse PD HumanPolicy = Ok (tree (FOr [FAnd [FLeaf "x::A" p; FLeaf "x::B" q]; FLeaf "x::C" r]))) /\
  key_blocks (fun n => n) nD fD = [["x::A"; "x::B"]; ["x::C"]] /\
  by_length (key_blocks (fun n => n) nD fD) = [["x::C"]; ["x::A"; "x::B"]] /\
  keys_for (fun n => n) nD (names fD) = ["x::A"; "x::B"; "x::C"] /\ alternatives fD = 2.
Proof. repeat apply conj; try reflexivity. do 3 eexists. vm_compute. reflexivity. Qed.

(** The bytes of the two ciphertexts, with groups whose elements take 32 bytes. *)
Definition bdD : rand (F RC) (bd_ct RC) :=
  (' (pk, msk) <- bd_setup (C := RC) ;;
   au <- bd_authgen pk msk "x" ;;
   ks <- rlift (omap (bd_request_pk pk au) nD) ;;
   bd_encrypt nc pk ks PD HumanPolicy "hello")%rand.
Definition mkD : rand (F RC) (mk_ct RC) :=
  (' (pk, msk) <- mk_setup (C := RC) ;;
   au <- mk_authgen "x" ;;
   ks <- rlift (omap (fun a => mk_request_pk pk a au) nD) ;;
   mk_encrypt nc pk ks PD HumanPolicy "hello")%rand.

Example C145_example_bytes :
  weight (c_bd_ct rwire) bdD = Some (text PD + 1 + (4 + 2 * (4 + 5 * 32) + 3 * text "x::A") + sealed "hello") /\
  weight (c_mk_ct rwire) mkD = Some (text PD + 1 + (4 + 2 * (4 + 6 * 32) + 3 * text "x::A") + sealed "hello") /\
  (match bdD rtape 5 with Ok (ct, _) => map bt_attr (bct_j ct) | _ => [] end) = [["x::C"]; ["x::A"; "x::B"]].
Proof. repeat apply conj; vm_compute; reflexivity. Qed.
