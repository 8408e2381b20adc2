(** * PropertiesReal: SHA3-256 and AES-256-GCM written out (C116, C117, C118)

    The other properties hold for every digest and every cipher that decrypts
    what it has encrypted.  Here the two are the ones the code names.  The
    proofs are in PrimitiveProofs.v and RealInstance.v. *)
From Coq Require Import String Ascii List Bool Arith NArith ZArith Znumtheory Lia.
From Verif Require Import Base Crypto Policy Tools Sharing Spec PolicyProofs Poly SharingProofs
  Msp MspProofs Dnf Symmetric Peg Grammar Parse PegProofs ParseProofs ParseText ParseHuman
  SchemeLib CoreProofs Files FilesProofs DnfProofs Bdabe BdabeProofs Mke08 Mke08Proofs
  Bsw BswProofs Ghw11 Ghw11Proofs Lsw LswProofs Yct14 Yct14Proofs Ac17 Ac17Proofs
  Aw11 Aw11Proofs EdgeProofs TruncationProofs Instance Sessions SessionProofs Witnesses
  Primes BnInstance SizeProofs BnWitnesses Sha3 Gcm PrimitiveSpec PrimitiveProofs RealInstance.
Import ListNotations.
Local Open Scope string_scope.
Local Open Scope rand_scope.
Local Open Scope nat_scope.

(** C116.  Every digest has 32 bytes, the length that [Key::from_slice] asks for. *)
Theorem C116_length : forall s : string, String.length (sha3_256 s) = 32.
Proof. exact sha3_length. Qed.
Print Assumptions C116_length.

(** As a number it is below 2^256. *)
Theorem C116_number : forall s : string, (0 <= sha3_number s < 2 ^ 256)%Z.
Proof. exact sha3_number_range. Qed.
Print Assumptions C116_number.

(** The padding fills up the last block with at least one byte, and different
    texts stay different. *)
Theorem C116_padding :
  forall bs : list N,
  0 < List.length (padding (List.length bs)) <= 136 /\
  exists n : nat, List.length (bs ++ padding (List.length bs)) = 136 * n.
Proof.
  intros bs. destruct (padding_length (List.length bs)) as [H1 H2]. split; [exact H1|].
  rewrite List.app_length. apply Nat.mod_divides in H2; [|discriminate]. exact H2.
Qed.
Print Assumptions C116_padding.

Theorem C116_padding_injective :
  forall bs cs : list N,
  (bs ++ padding (List.length bs) = cs ++ padding (List.length cs))%list -> bs = cs.
Proof. exact padded_inj. Qed.
Print Assumptions C116_padding_injective.

(** The two tables come from the shift register and from the walk of FIPS 202. *)
Theorem C116_tables :
  round_constants = map rc_spec (seq 0 24) /\ rho_offsets = map rho_spec (seq 0 25).
Proof. exact (conj rc_table rho_table). Qed.
Print Assumptions C116_tables.

(** FIPS 202 on the text of three letters. *)
Example C116_example : sha3_bytes (text_bytes "abc") =
  [58; 152; 93; 167; 79; 226; 37; 178; 4; 92; 23; 45; 107; 211; 144; 189;
   133; 95; 8; 110; 62; 157; 82; 91; 70; 191; 226; 69; 17; 67; 21; 50]%N.
Proof. vm_compute. reflexivity. Qed.

(** C117.  Decryption gives the data back, and it accepts nothing else. *)
Theorem C117_exact :
  forall k n c m : string, gcm_dec k n c = Some m <-> c = gcm_enc k n m.
Proof. exact gcm_exact. Qed.
Print Assumptions C117_exact.

Theorem C117_length :
  forall k n m : string, String.length (gcm_enc k n m) = String.length m + 16.
Proof. exact gcm_enc_length. Qed.
Print Assumptions C117_length.

(** For one ciphertext one tag is accepted. *)
Theorem C117_one_tag :
  forall k n c t t' m : string,
  String.length t = 16 -> String.length t' = 16 ->
  gcm_dec k n (c ++ t) = Some m -> t <> t' -> gcm_dec k n (c ++ t') = None.
Proof. exact gcm_one_tag. Qed.
Print Assumptions C117_one_tag.

(** A nonce used twice with one key shows the difference of the two texts. *)
Theorem C117_reuse :
  forall (k n m1 m2 : string) (j : nat) (x y : ascii),
  String.get j m1 = Some x -> String.get j m2 = Some y ->
  exists x' y' : ascii,
    String.get j (gcm_enc k n m1) = Some x' /\ String.get j (gcm_enc k n m2) = Some y' /\
    xor_ascii x' y' = xor_ascii x y.
Proof. exact gcm_reuse. Qed.
Print Assumptions C117_reuse.

(** [decrypt_symmetric] succeeds exactly on what [encrypt_symmetric] returns
    with a nonce of 12 bytes. *)
Theorem C117_open_exact :
  forall C : crypto, aead_enc C = gcm_enc -> aead_dec C = gcm_dec ->
  forall (k : GT C) (c data : string),
  decrypt_symmetric k c = Ok data <->
  exists nonce : string, String.length nonce = 12 /\ encrypt_symmetric nonce k data = Ok c.
Proof. exact @open_exact. Qed.
Print Assumptions C117_open_exact.

Theorem C117_sealed_length :
  forall C : crypto, aead_enc C = gcm_enc ->
  forall (k : GT C) (nonce data c : string),
  encrypt_symmetric nonce k data = Ok c ->
  String.length c = String.length nonce + String.length data + 16.
Proof. exact @seal_length. Qed.
Print Assumptions C117_sealed_length.

Theorem C117_open_short :
  forall C : crypto, aead_enc C = gcm_enc -> aead_dec C = gcm_dec ->
  forall (k : GT C) (c : string), 12 <= String.length c < 28 -> decrypt_symmetric k c = Err.
Proof. exact @open_short. Qed.
Print Assumptions C117_open_short.

(** The table of AES is the affine map of the inverse in the field of 256 elements. *)
Theorem C117_sbox :
  forall b : N, (b < 256)%N ->
  exists c : N, (c < 256)%N /\ sub_byte b = affine c /\
    (b = 0%N -> c = 0%N) /\ (b <> 0%N -> byte_mul 8 b c = 1%N).
Proof. exact sbox_spec. Qed.
Print Assumptions C117_sbox.

(** Test case 14 of the paper on GCM: key, nonce and data of zeros. *)
Example C117_example :
  text_bytes (gcm_enc (bytes_text (repeat 0%N 32)) (bytes_text (repeat 0%N 12)) (bytes_text (repeat 0%N 16))) =
  [206; 167; 64; 61; 77; 96; 107; 110; 7; 78; 197; 211; 186; 243; 157; 24;
   208; 209; 200; 167; 153; 153; 107; 240; 38; 91; 152; 181; 212; 138; 185; 25]%N.
Proof. vm_compute. reflexivity. Qed.

(** Three changed bits: rejected. *)
Example C117_example_reject :
  gcm_dec (bytes_text (repeat 0%N 32)) (bytes_text (repeat 0%N 12))
    (bytes_text [206; 167; 64; 61; 77; 96; 107; 110; 7; 78; 197; 211; 186; 243; 157; 24;
     208; 209; 200; 167; 153; 153; 107; 240; 38; 91; 152; 181; 212; 138; 185; 30]%N) = None.
Proof. vm_compute. reflexivity. Qed.

(** C118.  For every way to write an element of Gt as bytes and for every
    conversion to upper case with the stated laws there are operations with the
    laws of Crypto.v, the order of BN254, this digest and this cipher. *)
Theorem C118_laws :
  forall (gt_bytes : zq bn_order -> string) (up : string -> string), upper_laws up ->
  let C := real gt_bytes up in
  inhabited (laws C) /\ scalar_order C bn_order /\ @hash_total C /\
  aead_enc C = gcm_enc /\ aead_dec C = gcm_dec /\ upper C = up /\
  (forall x : zq bn_order, kdf C x = sha3_256 (gt_bytes x)) /\
  (forall s : string, hash C s = Some (qmk bn_order bn_prime (sha3_number s))).
Proof.
  intros g up U C. split; [exact (inhabits (real_laws _ _ g up U))|].
  split; [exact (real_order _ _ g up)|]. split; [exact (real_total _ _ g up)|].
  repeat (split; [reflexivity|]). reflexivity.
Qed.
Print Assumptions C118_laws.

Example C118_example : upper_laws toy_upper /\ toy_upper "dept_a1" = "DEPT_A1".
Proof. split; [exact toy_upper_laws|reflexivity]. Qed.

Theorem C118_bsw :
  forall (gt_bytes : zq bn_order -> string) (up : string -> string), upper_laws up ->
  forall (nonce : string) (attrs : list string) (pol : string) (lang : language) (data : string)
    (f : formula) (t : nat -> zq bn_order) (i : nat),
  live (C := real gt_bytes up) t ->
  (Z.of_nat (String.length pol) <= bn_order)%Z ->
  arity2 f = true ->
  NoDup (leaves f) ->
  plain_names f = true ->
  attrs <> [] ->
  parse pol lang = Ok (tree f) ->
  String.length nonce = 12 ->
  exists j : nat,
    bsw_session (C := real gt_bytes up) nonce attrs pol lang data t i =
    Ok (if sat (owns attrs) f then Ok data else Err, j).
Proof.
  intros g up U. intros. apply (@bsw_session_exact (real g up) (real_laws _ _ g up U));
    try assumption; [exact (real_total _ _ g up)|].
  now apply (wide_enough (real g up) bn_order pol lang f); [exact (real_order _ _ g up)|..].
Qed.
Print Assumptions C118_bsw.

Theorem C118_bsw_delegated :
  forall (gt_bytes : zq bn_order -> string) (up : string -> string), upper_laws up ->
  forall (nonce : string) (attrs subset : list string) (pol : string) (lang : language) (data : string)
    (f : formula) (t : nat -> zq bn_order) (i : nat),
  live (C := real gt_bytes up) t ->
  (Z.of_nat (String.length pol) <= bn_order)%Z ->
  arity2 f = true ->
  NoDup (leaves f) ->
  plain_names f = true ->
  incl subset attrs ->
  subset <> [] ->
  parse pol lang = Ok (tree f) ->
  String.length nonce = 12 ->
  exists j : nat,
    bsw_delegated_session (C := real gt_bytes up) nonce attrs subset pol lang data t i =
    Ok (if sat (owns subset) f then Ok data else Err, j).
Proof.
  intros g up U. intros. apply (@bsw_delegated_session_exact (real g up) (real_laws _ _ g up U));
    try assumption; [exact (real_total _ _ g up)|].
  now apply (wide_enough (real g up) bn_order pol lang f); [exact (real_order _ _ g up)|..].
Qed.
Print Assumptions C118_bsw_delegated.

Theorem C118_ghw :
  forall (gt_bytes : zq bn_order -> string) (up : string -> string), upper_laws up ->
  forall (nonce : string) (attrs : list string) (pol : string) (lang : language) (data : string)
    (f : formula) (t : nat -> zq bn_order) (i : nat),
  live (C := real gt_bytes up) t ->
  (Z.of_nat (String.length pol) <= bn_order)%Z ->
  arity2 f = true ->
  NoDup (leaves f) ->
  plain_names f = true ->
  attrs <> [] ->
  parse pol lang = Ok (tree f) ->
  String.length nonce = 12 ->
  exists j : nat,
    ghw_session (C := real gt_bytes up) nonce attrs pol lang data t i =
    Ok (if sat (owns attrs) f then Ok data else Err, j).
Proof.
  intros g up U. intros. apply (@ghw_session_exact (real g up) (real_laws _ _ g up U));
    try assumption; [exact (real_total _ _ g up)|].
  now apply (wide_enough (real g up) bn_order pol lang f); [exact (real_order _ _ g up)|..].
Qed.
Print Assumptions C118_ghw.

Theorem C118_lsw :
  forall (gt_bytes : zq bn_order -> string) (up : string -> string), upper_laws up ->
  forall (nonce pol : string) (lang : language) (attrs : list string) (data : string)
    (f : formula) (t : nat -> zq bn_order) (i : nat),
  (Z.of_nat (String.length pol) <= bn_order)%Z ->
  data <> "" ->
  arity2 f = true ->
  NoDup (names f) ->
  plain_names f = true ->
  (forall n : string, In n (names f) -> is_negative n = Ok false) ->
  attrs <> [] ->
  parse pol lang = Ok (tree f) ->
  String.length nonce = 12 ->
  exists j : nat,
    lsw_session (C := real gt_bytes up) nonce pol lang attrs data t i =
    Ok (if sat (owns attrs) f then Ok data else Err, j).
Proof.
  intros g up U. intros. apply (@lsw_session_exact (real g up) (real_laws _ _ g up U));
    try assumption; [exact (real_total _ _ g up)|].
  now apply (wide_enough (real g up) bn_order pol lang f); [exact (real_order _ _ g up)|..].
Qed.
Print Assumptions C118_lsw.

Theorem C118_yct :
  forall (gt_bytes : zq bn_order -> string) (up : string -> string), upper_laws up ->
  forall (nonce : string) (U : list string) (pol : string) (lang : language) (attrs : list string) (data : string)
    (f : formula) (t : nat -> zq bn_order) (i : nat),
  live (C := real gt_bytes up) t ->
  (Z.of_nat (String.length pol) <= bn_order)%Z ->
  data <> "" ->
  arity2 f = true ->
  NoDup (names f) ->
  plain_names f = true ->
  incl attrs U ->
  attrs <> [] ->
  parse pol lang = Ok (tree f) ->
  String.length nonce = 12 ->
  exists j : nat,
    yct_session (C := real gt_bytes up) nonce U pol lang attrs data t i =
    Ok (if sat (owns attrs) f then Ok data else Err, j).
Proof.
  intros g up U. intros. apply (@yct_session_exact (real g up) (real_laws _ _ g up U));
    try assumption.
  now apply (wide_enough (real g up) bn_order pol lang f); [exact (real_order _ _ g up)|..].
Qed.
Print Assumptions C118_yct.

Theorem C118_ac17_cp :
  forall (gt_bytes : zq bn_order -> string) (up : string -> string), upper_laws up ->
  forall (nonce : string) (attrs : list string) (pol : string) (lang : language) (data : string)
    (f : formula) (t : nat -> zq bn_order) (i : nat),
  live (C := real gt_bytes up) t ->
  binary_and f = true ->
  NoDup (names f) ->
  NoDup attrs ->
  attrs <> [] ->
  parse pol lang = Ok (tree f) ->
  String.length nonce = 12 ->
  exists j : nat,
    cp_session (C := real gt_bytes up) nonce attrs pol lang data t i =
    Ok (if sat (owns attrs) f then Ok data else Err, j).
Proof.
  intros g up U. intros. apply (@cp_session_exact (real g up) (real_laws _ _ g up U));
    try assumption. exact (real_total _ _ g up).
Qed.
Print Assumptions C118_ac17_cp.

Theorem C118_ac17_kp :
  forall (gt_bytes : zq bn_order -> string) (up : string -> string), upper_laws up ->
  forall (nonce pol : string) (lang : language) (attrs : list string) (data : string)
    (f : formula) (t : nat -> zq bn_order) (i : nat),
  live (C := real gt_bytes up) t ->
  binary_and f = true ->
  NoDup (names f) ->
  NoDup attrs ->
  parse pol lang = Ok (tree f) ->
  String.length nonce = 12 ->
  exists j : nat,
    kp_session (C := real gt_bytes up) nonce pol lang attrs data t i =
    Ok (if sat (owns attrs) f then Ok data else Err, j).
Proof.
  intros g up U. intros. apply (@kp_session_exact (real g up) (real_laws _ _ g up U));
    try assumption. exact (real_total _ _ g up).
Qed.
Print Assumptions C118_ac17_kp.

Theorem C118_aw :
  forall (gt_bytes : zq bn_order -> string) (up : string -> string), upper_laws up ->
  forall (nonce : string) (U : list string) (gid : string) (attrs : list string) (pol : string) (lang : language) (data : string)
    (f : formula) (t : nat -> zq bn_order) (i : nat),
  (Z.of_nat (String.length pol) <= bn_order)%Z ->
  gid <> "" ->
  (forall a : string, In a attrs -> a <> "" /\ In a (map up U)) ->
  binary_and f = true ->
  NoDup (leaves f) ->
  plain_names f = true ->
  upper_names (real gt_bytes up) f ->
  attrs <> [] ->
  parse pol lang = Ok (tree f) ->
  String.length nonce = 12 ->
  exists j : nat,
    aw_session (C := real gt_bytes up) nonce U gid attrs pol lang data t i =
    Ok (if sat (owns attrs) f then Ok data else Err, j).
Proof.
  intros g up U. intros. apply (@aw_session_exact (real g up) (real_laws _ _ g up U));
    try assumption; [exact (real_total _ _ g up)|].
  now apply (wide_enough (real g up) bn_order pol lang f); [exact (real_order _ _ g up)|..].
Qed.
Print Assumptions C118_aw.

Theorem C118_bdabe :
  forall (gt_bytes : zq bn_order -> string) (up : string -> string), upper_laws up ->
  forall (nonce auth user : string) (pubs attrs : list string) (pol : string) (lang : language) (data : string)
    (f : formula) (t : nat -> zq bn_order) (i : nat),
  flat f = true ->
  served auth pubs ->
  served auth attrs ->
  (forall c, In c (conjs f) -> exists n, In n c /\ In n pubs) ->
  parse pol lang = Ok (tree f) ->
  String.length nonce = 12 ->
  exists j : nat,
    bd_session (C := real gt_bytes up) nonce auth user pubs attrs pol lang data t i =
    Ok (if sat (owns attrs) f then Ok data else Err, j).
Proof.
  intros g up U. intros. apply (@bd_session_exact (real g up) (real_laws _ _ g up U));
    try assumption. exact (real_total _ _ g up).
Qed.
Print Assumptions C118_bdabe.

Theorem C118_mke :
  forall (gt_bytes : zq bn_order -> string) (up : string -> string), upper_laws up ->
  forall (nonce auth user : string) (pubs attrs : list string) (pol : string) (lang : language) (data : string)
    (f : formula) (t : nat -> zq bn_order) (i : nat),
  flat f = true ->
  served auth pubs ->
  served auth attrs ->
  (forall c, In c (conjs f) -> exists n, In n c /\ In n pubs) ->
  parse pol lang = Ok (tree f) ->
  String.length nonce = 12 ->
  exists j : nat,
    mk_session (C := real gt_bytes up) nonce auth user pubs attrs pol lang data t i =
    Ok (if sat (owns attrs) f then Ok data else Err, j).
Proof.
  intros g up U. intros. apply (@mk_session_exact (real g up) (real_laws _ _ g up U));
    try assumption. exact (real_total _ _ g up).
Qed.
Print Assumptions C118_mke.

(** One of the sessions with names, digest and cipher as they are. *)
Example C118_example_run :
  exists j, bsw_session (C := real (fun _ => "any bytes") toy_upper) nc ["A"; "C"] P HumanPolicy "hello"
    (fun _ => qmk bn_order bn_prime 1) 0 = Ok (Ok "hello", j).
Proof.
  refine (C118_bsw (fun _ => "any bytes") toy_upper toy_upper_laws nc ["A"; "C"] P HumanPolicy "hello" fP
    (fun _ => qmk bn_order bn_prime 1) 0 _ _ _ _ _ _ _ _).
  - intros n H. apply (f_equal (qval bn_order)) in H. discriminate H.
  - apply Z.leb_le. vm_compute. reflexivity.
  - reflexivity.
  - ground.
  - reflexivity.
  - discriminate.
  - ground.
  - reflexivity.
Qed.
