(** * PropertiesStandards: the digest and the cipher step by step as the standards write them (C124) *)
From Coq Require Import String Ascii List Bool Arith NArith ZArith Lia.
From Verif Require Import Base Crypto Symmetric Sha3 Gcm PrimitiveSpec PrimitiveProofs BnInstance RealInstance
  Fips202 Fips202Proofs Fips197 Fips197Proofs Sp80038d Sp80038dProofs PropertiesReal.
Import ListNotations.
Local Open Scope string_scope.
Local Open Scope nat_scope.

(** The digest of a text is SHA3-256 of its bits. *)
Theorem C124_sha3 :
  forall s : string, bits_of_bytes (text_bytes (sha3_256 s)) = sha3_256_bits (bits_of_bytes (text_bytes s)).
Proof. exact sha3_text. Qed.
Print Assumptions C124_sha3.

(** The digest of the empty message, from the specification of the bits. *)
Example C124_example_sha3 :
  sha3_256_bits [] = bits_of_bytes
    [167; 255; 198; 248; 191; 30; 215; 102; 81; 193; 71; 86; 160; 97; 214; 98;
     245; 128; 255; 77; 228; 59; 73; 250; 130; 216; 10; 75; 128; 248; 67; 74]%N.
Proof. symmetry. exact (sha3_text ""). Qed.

(** Every key of 32 bytes has exactly one key schedule. *)
Theorem C124_schedule :
  forall key : list N, List.length key = 32 -> Forall (fun b => (b < 256)%N) key ->
  exists w : nat -> list N, schedule key w /\
    forall v : nat -> list N, schedule key v -> forall i, i < 60 -> v i = w i.
Proof.
  intros key L O. destruct (key_words_good key L O) as (_ & _ & S). eexists. split; [exact S|].
  intros v Sv. exact (schedule_unique key v _ Sv S).
Qed.
Print Assumptions C124_schedule.

(** A block is enciphered as AES-256 does with that schedule. *)
Theorem C124_aes :
  forall (key block : list N) (w : nat -> list N),
  List.length key = 32 -> Forall (fun b => (b < 256)%N) key -> is_block block -> schedule key w ->
  aes_block (round_keys key) block = Cipher w block /\ is_block (Cipher w block).
Proof.
  intros key block w L O [Lb Ob] S. rewrite <- (aes_fips key w block L O Lb Ob S). split; [reflexivity|].
  exact (aes_form key block L O Lb Ob).
Qed.
Print Assumptions C124_aes.

(** FIPS 197, appendix C.3. *)
Example C124_example_aes :
  exists w : nat -> list N, schedule (map N.of_nat (seq 0 32)) w /\
    Cipher w (map (fun i => (17 * N.of_nat i)%N) (seq 0 16)) =
    [142; 162; 183; 202; 81; 103; 69; 191; 234; 252; 73; 144; 75; 73; 96; 137]%N.
Proof.
  assert (O : Forall (fun b => (b < 256)%N) (map N.of_nat (seq 0 32))) by (repeat constructor).
  destruct (C124_schedule (map N.of_nat (seq 0 32)) eq_refl O) as (w & S & _). exists w. split; [exact S|].
  assert (B : is_block (map (fun i => (17 * N.of_nat i)%N) (seq 0 16))) by (split; [reflexivity|repeat constructor]).
  destruct (C124_aes (map N.of_nat (seq 0 32)) (map (fun i => (17 * N.of_nat i)%N) (seq 0 16)) w eq_refl O B S) as [E _].
  rewrite <- E. vm_compute. reflexivity.
Qed.

(** The multiplication of blocks is that of polynomials modulo
    1 + u + u^2 + u^7 + u^128, and there is only one product. *)
Theorem C124_product :
  forall X Y : list N, is_block X -> is_block Y ->
  is_product X Y (be_bytes 16 (gf_mul 128 (be_n X) (be_n Y) 0)).
Proof. exact product_is. Qed.
Print Assumptions C124_product.

Theorem C124_product_unique :
  forall X Y Z Z' : list N, is_product X Y Z -> is_product X Y Z' -> Z = Z'.
Proof. exact product_unique. Qed.
Print Assumptions C124_product_unique.

(** u^127 times u is 1 + u + u^2 + u^7. *)
Example C124_example_product :
  is_product (repeat 0%N 15 ++ [1%N]) (64%N :: repeat 0%N 15) (225%N :: repeat 0%N 15).
Proof. apply (C124_product (repeat 0%N 15 ++ [1%N]) (64%N :: repeat 0%N 15)); (split; [reflexivity|repeat constructor]). Qed.

(** Encryption is GCM over AES-256; ciphertext and tag are determined. *)
Theorem C124_seal :
  forall (key nonce data : string) (w : nat -> list N),
  String.length key = 32 -> String.length nonce = 12 -> (8 * N.of_nat (String.length data) < 2 ^ 64)%N ->
  schedule (text_bytes key) w ->
  exists c t : string, gcm_enc key nonce data = c ++ t /\ String.length t = 16 /\
    is_gcm (Cipher w) (text_bytes nonce) (text_bytes data) (text_bytes c) (text_bytes t).
Proof. exact gcm_enc_is. Qed.
Print Assumptions C124_seal.

Theorem C124_seal_unique :
  forall (E : list N -> list N) (IV P C T C' T' : list N),
  is_gcm E IV P C T -> is_gcm E IV P C' T' -> C = C' /\ T = T'.
Proof. exact gcm_unique. Qed.
Print Assumptions C124_seal_unique.

(** Decryption accepts exactly the ciphertexts and tags of GCM. *)
Theorem C124_open :
  forall (key nonce c t m : string) (w : nat -> list N),
  String.length key = 32 -> String.length nonce = 12 -> String.length t = 16 ->
  (8 * N.of_nat (String.length m) < 2 ^ 64)%N -> schedule (text_bytes key) w ->
  gcm_dec key nonce (c ++ t) = Some m <->
  is_gcm (Cipher w) (text_bytes nonce) (text_bytes m) (text_bytes c) (text_bytes t).
Proof. exact gcm_dec_is. Qed.
Print Assumptions C124_open.

(** Test case 14 of the paper on GCM, of the specification. *)
Example C124_example_seal :
  exists w : nat -> list N, schedule (repeat 0%N 32) w /\
    is_gcm (Cipher w) (repeat 0%N 12) (repeat 0%N 16)
      [206; 167; 64; 61; 77; 96; 107; 110; 7; 78; 197; 211; 186; 243; 157; 24]%N
      [208; 209; 200; 167; 153; 153; 107; 240; 38; 91; 152; 181; 212; 138; 185; 25]%N.
Proof.
  destruct (C124_schedule (repeat 0%N 32) eq_refl ltac:(repeat constructor)) as (w & S & _). exists w. split; [exact S|].
  pose proof (gcm_dec_is (bytes_text (repeat 0%N 32)) (bytes_text (repeat 0%N 12))
    (bytes_text [206; 167; 64; 61; 77; 96; 107; 110; 7; 78; 197; 211; 186; 243; 157; 24]%N)
    (bytes_text [208; 209; 200; 167; 153; 153; 107; 240; 38; 91; 152; 181; 212; 138; 185; 25]%N)
    (bytes_text (repeat 0%N 16)) w eq_refl eq_refl eq_refl eq_refl S) as [H _].
  apply H. vm_compute. reflexivity.
Qed.

(** What [encrypt_symmetric] returns: nonce, ciphertext and tag of GCM over
    AES-256 under the SHA3-256 digest of the element, and [decrypt_symmetric]
    accepts nothing else. *)
Theorem C124_message :
  forall (gt_bytes : zq bn_order -> string) (up : string -> string) (x : zq bn_order) (nonce data : string),
  String.length nonce = 12 -> (8 * N.of_nat (String.length data) < 2 ^ 64)%N ->
  exists (K : list N) (w : nat -> list N) (c t : string),
    bits_of_bytes K = sha3_256_bits (bits_of_bytes (text_bytes (gt_bytes x))) /\ schedule K w /\
    encrypt_symmetric (C := real gt_bytes up) nonce x data = Ok (nonce ++ c ++ t) /\ String.length t = 16 /\
    is_gcm (Cipher w) (text_bytes nonce) (text_bytes data) (text_bytes c) (text_bytes t).
Proof.
  intros g up x nonce data Ln Ld. exists (text_bytes (sha3_256 (g x))).
  destruct (C124_schedule (text_bytes (sha3_256 (g x)))) as (w & S & _).
  { rewrite text_bytes_length. apply sha3_length. }
  { apply text_octets. }
  destruct (gcm_enc_is (sha3_256 (g x)) nonce data w (sha3_length _) Ln Ld S) as (c & t & E & Lt & G).
  exists w, c, t. split; [apply sha3_text|]. split; [exact S|]. split; [|now split].
  rewrite <- E. reflexivity.
Qed.
Print Assumptions C124_message.

Theorem C124_message_open :
  forall (gt_bytes : zq bn_order -> string) (up : string -> string) (x : zq bn_order) (ct data : string)
    (K : list N) (w : nat -> list N),
  (8 * N.of_nat (String.length data) < 2 ^ 64)%N ->
  Forall (fun b => (b < 256)%N) K ->
  bits_of_bytes K = sha3_256_bits (bits_of_bytes (text_bytes (gt_bytes x))) -> schedule K w ->
  decrypt_symmetric (C := real gt_bytes up) x ct = Ok data <->
  exists nonce c t : string, ct = nonce ++ c ++ t /\ String.length nonce = 12 /\ String.length t = 16 /\
    is_gcm (Cipher w) (text_bytes nonce) (text_bytes data) (text_bytes c) (text_bytes t).
Proof.
  intros g up x ct data K w Ld O EK S.
  assert (HK : K = text_bytes (sha3_256 (g x))).
  { rewrite <- sha3_text in EK. apply bits_inj; [exact O|apply text_octets|exact EK]. }
  subst K. rewrite (open_exact (C := real g up) eq_refl eq_refl). split.
  - intros (nonce & Ln & E). exists nonce.
    destruct (gcm_enc_is (sha3_256 (g x)) nonce data w (sha3_length _) Ln Ld S) as (c & t & Ec & Lt & G).
    exists c, t. split; [|now repeat (split; [assumption|])].
    injection E as <-. rewrite <- Ec. reflexivity.
  - intros (nonce & c & t & -> & Ln & Lt & G). exists nonce. split; [exact Ln|].
    apply (gcm_dec_is (sha3_256 (g x)) nonce c t data w (sha3_length _) Ln Lt Ld S) in G.
    apply gcm_exact in G. rewrite G. reflexivity.
Qed.
Print Assumptions C124_message_open.
