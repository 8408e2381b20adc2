(** * Borsh: the binary form of keys and ciphertexts

    With the feature "borsh" (the one rabe-console uses) every key and
    ciphertext type derives [BorshSerialize] and [BorshDeserialize].  The
    combinators of this file are the borsh wire format for the types that occur;
    the codecs of field and group elements are those of rabe_bn and stay
    abstract ([wire]). *)
From Coq Require Import String Ascii List Bool Arith NArith.
From Verif Require Import Base Crypto Policy Files.
From Verif Require Bsw Lsw Yct14 Ac17 Aw11 Bdabe Mke08.
Import ListNotations.
Local Open Scope string_scope.

(** [serialize] into a buffer ([None]: an error, which [ser_enc] unwraps) and
    [deserialize] from the front of a buffer; borsh, not in /repo. *)
Record codec (A : Type) : Type := Codec {
  enc : A -> option string;
  dec_ : string -> option (A * string)
}.
Arguments Codec {A} _ _. Arguments enc {A} _ _. Arguments dec_ {A} _ _.

(** Sequencing on options; not in /repo. *)
Definition bind {A B} (o : option A) (k : A -> option B) : option B :=
  match o with Some a => k a | None => None end.

(** Two values one after the other: tuples and the fields of a struct; borsh, not in /repo. *)
Definition c_pair {A B} (a : codec A) (b : codec B) : codec (A * B) :=
  Codec (fun v => bind (enc a (fst v)) (fun s =>
                  bind (enc b (snd v)) (fun t => Some (s ++ t))))
        (fun s => bind (dec_ a s) (fun '(x, r) =>
                  bind (dec_ b r) (fun '(y, r') => Some ((x, y), r')))).

(** A struct seen as the tuple of its fields; borsh, not in /repo. *)
Definition c_as {A B} (f : B -> A) (g : A -> B) (c : codec A) : codec B :=
  Codec (fun v => enc c (f v))
        (fun s => bind (dec_ c s) (fun '(x, r) => Some (g x, r))).

(** A [u8]; borsh, not in /repo. *)
Definition c_u8 : codec ascii :=
  Codec (fun b => Some (String b EmptyString))
        (fun s => match s with String b r => Some (b, r) | EmptyString => None end).

(** The bound of a [u32]; borsh, not in /repo. *)
Definition two32 : N := 4294967296.

(** The four bytes of a [u32], least significant first; borsh, not in /repo. *)
Definition u32_bytes (n : N) : string :=
  String (ascii_of_N (n mod 256))
  (String (ascii_of_N ((n / 256) mod 256))
  (String (ascii_of_N ((n / 65536) mod 256))
  (String (ascii_of_N ((n / 16777216) mod 256)) EmptyString))).

(** The [u32] of four bytes; borsh, not in /repo. *)
Definition u32_of (a b c d : ascii) : N :=
  (N_of_ascii a + 256 * N_of_ascii b + 65536 * N_of_ascii c + 16777216 * N_of_ascii d)%N.

(** A length: a [usize] written as [u32]; too long a collection is an error; borsh, not in /repo. *)
Definition c_len : codec N :=
  Codec (fun n => if (n <? two32)%N then Some (u32_bytes n) else None)
        (fun s => match s with
                  | String a (String b (String c (String d r))) => Some (u32_of a b c d, r)
                  | _ => None
                  end).

(** [Vec<u8>]: length and bytes; borsh, not in /repo. *)
Definition c_bytes : codec string :=
  Codec (fun v => bind (enc c_len (N.of_nat (String.length v))) (fun s => Some (s ++ v)))
        (fun s => bind (dec_ c_len s) (fun '(n, r) =>
           if (n <=? N.of_nat (String.length r))%N
           then Some (String.substring 0 (N.to_nat n) r,
                      String.substring (N.to_nat n) (String.length r - N.to_nat n) r)
           else None)).

(** [String]: the bytes, checked to be UTF-8 when read; borsh, not in /repo. *)
Definition c_string : codec string :=
  Codec (enc c_bytes)
        (fun s => bind (dec_ c_bytes s) (fun '(v, r) => if utf8 v then Some (v, r) else None)).

(** The elements of a [Vec<T>], written and read one after the other; borsh, not in /repo. *)
Fixpoint enc_all {A} (c : codec A) (l : list A) : option string :=
  match l with
  | [] => Some ""
  | x :: l => bind (enc c x) (fun s => bind (enc_all c l) (fun t => Some (s ++ t)))
  end.
Fixpoint dec_all {A} (c : codec A) (n : nat) (s : string) : option (list A * string) :=
  match n with
  | O => Some ([], s)
  | S k => bind (dec_ c s) (fun '(x, r) =>
           bind (dec_all c k r) (fun '(l, r') => Some (x :: l, r')))
  end.

(** [Vec<T>]: length and elements; borsh, not in /repo. *)
Definition c_list {A} (c : codec A) : codec (list A) :=
  Codec (fun l => bind (enc c_len (N.of_nat (List.length l))) (fun s =>
                  bind (enc_all c l) (fun t => Some (s ++ t))))
        (fun s => bind (dec_ c_len s) (fun '(n, r) => dec_all c (N.to_nat n) r)).

(** [PolicyLanguage]: the number of the variant;
    /repo/src/utils/policy/pest/mod.rs:15-23. *)
Definition c_lang : codec language :=
  Codec (fun l => Some (String (ascii_of_N (match l with JsonPolicy => 0 | HumanPolicy => 1 end)) ""))
        (fun s => match s with
                  | String b r => match N_of_ascii b with
                                  | 0%N => Some (JsonPolicy, r)
                                  | 1%N => Some (HumanPolicy, r)
                                  | _ => None
                                  end
                  | EmptyString => None
                  end).

(** [(String, PolicyLanguage)]; as at /repo/src/schemes/lsw/mod.rs:70. *)
Definition c_policy : codec (string * language) := c_pair c_string c_lang.

(** [Result<T, RabeError>]: 1 and the value, or 0 and the text of the error
    (/repo/src/error.rs:16-21).  The model has no error texts; [text] is the one
    of the error at hand. *)
Definition enc_result {A} (c : codec A) (text : string) (o : option A) : option string :=
  match o with
  | Some v => bind (enc c v) (fun s => Some (String (ascii_of_N 1) s))
  | None => bind (enc c_string text) (fun s => Some (String (ascii_of_N 0) s))
  end.

(** [try_from_slice]: nothing may be left over; called at /repo/rabe-console/src/mod.rs:1653. *)
Definition try_from_slice {A} (c : codec A) (s : string) : outcome A :=
  match dec_ c s with
  | Some (v, EmptyString) => Ok v
  | _ => Err
  end.

(** The codecs of rabe_bn; rabe_bn, not in /repo. *)
Record wire (C : crypto) : Type := Wire {
  w_f : codec (F C); w_1 : codec (G1 C); w_2 : codec (G2 C); w_t : codec (GT C)
}.
Arguments w_f {C} _. Arguments w_1 {C} _. Arguments w_2 {C} _. Arguments w_t {C} _.

Section Types.
Context {C : crypto} (W : wire C).
Local Notation f := (w_f W). Local Notation g1 := (w_1 W).
Local Notation g2 := (w_2 W). Local Notation gt := (w_t W).
Local Infix "&" := c_pair (at level 40, left associativity).

(** ** BSW; /repo/src/schemes/bsw/mod.rs *)
Import Bsw.
(** [CpAbeAttribute]; bsw/mod.rs:82-89. *)
Definition c_battr : codec (battr C) :=
  c_as (fun a => (b_string a, b_g1 a, b_g2 a)) (fun '(n, x, y) => BAttr n x y) (c_string & g1 & g2).
(** [CpAbePublicKey]; bsw/mod.rs:40-49. *)
Definition c_bsw_pk : codec (bsw_pk C) :=
  c_as (fun k => (bpk_g1 k, bpk_g2 k, bpk_h k, bpk_f k, bpk_egg k))
       (fun '(a, b, c, d, e) => BswPk a b c d e) (g1 & g2 & g1 & g2 & gt).
(** [CpAbeMasterKey]; bsw/mod.rs:52-58. *)
Definition c_bsw_msk : codec (bsw_msk C) :=
  c_as (fun k => (bmsk_beta k, bmsk_g2a k)) (fun '(a, b) => BswMsk a b) (f & g2).
(** [CpAbeCiphertext]; bsw/mod.rs:61-70. *)
Definition c_bsw_ct : codec (bsw_ct C) :=
  c_as (fun k => (bct_policy k, bct_c k, bct_cp k, bct_cy k, bct_data k))
       (fun '(a, b, c, d, e) => BswCt a b c d e) (c_policy & g1 & gt & c_list c_battr & c_bytes).
(** [CpAbeSecretKey]; bsw/mod.rs:73-79. *)
Definition c_bsw_sk : codec (bsw_sk C) :=
  c_as (fun k => (bsk_d k, bsk_dj k)) (fun '(a, b) => BswSk a b) (g2 & c_list c_battr).

(** ** LSW; /repo/src/schemes/lsw/mod.rs *)
Import Lsw.
(** [KpAbePublicKey]; lsw/mod.rs:41-51. *)
Definition c_lsw_pk : codec (lsw_pk C) :=
  c_as (fun k => (lpk_g1 k, lpk_g2 k, lpk_g1b k, lpk_g1b2 k, lpk_hb k, lpk_egg k))
       (fun '(a, b, c, d, e, h) => LswPk a b c d e h) (g1 & g2 & g1 & g1 & g1 & gt).
(** [KpAbeMasterKey]; lsw/mod.rs:54-63. *)
Definition c_lsw_msk : codec (lsw_msk C) :=
  c_as (fun k => (lmsk_alpha1 k, lmsk_alpha2 k, lmsk_b k, lmsk_hg1 k, lmsk_hg2 k))
       (fun '(a, b, c, d, e) => LswMsk a b c d e) (f & f & f & g1 & g2).
(** [KpAbeSecretKey]; lsw/mod.rs:66-72. *)
Definition c_lsw_dj : codec (lsw_dj C) :=
  c_as (fun k => (ld_name k, ld_1 k, ld_2 k, ld_3 k, ld_4 k, ld_5 k))
       (fun '(a, b, c, d, e, h) => LswDj a b c d e h) (c_string & g1 & g2 & g1 & g1 & g1).
Definition c_lsw_sk : codec (lsw_sk C) :=
  c_as (fun k => (lsk_policy k, lsk_dj k)) (fun '(a, b) => LswSk a b) (c_policy & c_list c_lsw_dj).
(** [KpAbeCiphertext]; lsw/mod.rs:75-83. *)
Definition c_lsw_ej : codec (lsw_ej C) :=
  c_as (fun k => (le_name k, le_1 k, le_2 k, le_3 k))
       (fun '(a, b, c, d) => LswEj a b c d) (c_string & g1 & g1 & g1).
Definition c_lsw_ct : codec (lsw_ct C) :=
  c_as (fun k => (lct_e1 k, lct_e2 k, lct_ej k, lct_ct k))
       (fun '(a, b, c, d) => LswCt a b c d) (gt & g2 & c_list c_lsw_ej & c_bytes).

(** ** YCT14; /repo/src/schemes/yct14/mod.rs *)
Import Yct14.
(** [Yct14Attribute]: the field [node] is skipped when writing and takes the
    default [None] when reading; yct14/mod.rs:48-56. *)
Definition c_yattr : codec (yct_attr C) :=
  c_as y_name (fun n => YAttr n None) c_string.
(** [Yct14AbePublicKey]; yct14/mod.rs:139-145. *)
Definition c_yct_pk : codec (yct_pk C) :=
  c_as (fun k => (ypk_g k, ypk_attrs k)) (fun '(a, b) => YctPk a b) (gt & c_list c_yattr).
(** [Yct14AbeMasterKey]; yct14/mod.rs:148-154. *)
Definition c_yct_msk : codec (yct_msk C) :=
  c_as (fun k => (ymsk_s k, ymsk_attrs k)) (fun '(a, b) => YctMsk a b) (f & c_list c_yattr).
(** [Yct14AbeSecretKey]; yct14/mod.rs:172-178. *)
Definition c_yct_sk : codec (yct_sk C) :=
  c_as (fun k => (ysk_policy k, ysk_du k)) (fun '(a, b) => YctSk a b) (c_policy & c_list c_yattr).
(** [Yct14AbeCiphertext]; yct14/mod.rs:196-202. *)
Definition c_yct_ct : codec (yct_ct C) :=
  c_as (fun k => (yct_attrs k, yct_data k)) (fun '(a, b) => YctCt a b) (c_list c_yattr & c_bytes).

(** ** AC17; /repo/src/schemes/ac17/mod.rs *)
Import Ac17.
(** [Ac17PublicKey]; ac17/mod.rs:59-66. *)
Definition c_ac_pk : codec (ac_pk C) :=
  c_as (fun k => (apk_g k, apk_ha k, apk_egh k))
       (fun '(a, b, c) => AcPk a b c) (g1 & c_list g2 & c_list gt).
(** [Ac17MasterKey]; ac17/mod.rs:69-78. *)
Definition c_ac_msk : codec (ac_msk C) :=
  c_as (fun k => (amsk_g k, amsk_h k, amsk_gk k, amsk_a k, amsk_b k))
       (fun '(a, b, c, d, e) => AcMsk a b c d e) (g1 & g2 & c_list g1 & c_list f & c_list f).
(** [Ac17Ciphertext]; ac17/mod.rs:81-89. *)
Definition c_ac_ct : codec (ac_ct C) :=
  c_as (fun k => (act_c0 k, act_c k, act_cp k, act_ct k))
       (fun '(a, b, c, d) => AcCt a b c d)
       (c_list g2 & c_list (c_string & c_list g1) & gt & c_bytes).
(** [Ac17CpCiphertext]; ac17/mod.rs:92-98. *)
Definition c_ac_cpct : codec (ac_cpct C) :=
  c_as (fun k => (acp_policy k, acp_ct k)) (fun '(a, b) => AcCpCt a b) (c_policy & c_ac_ct).
(** [Ac17KpCiphertext]; ac17/mod.rs:101-107. *)
Definition c_ac_kpct : codec (ac_kpct C) :=
  c_as (fun k => (akp_attr k, akp_ct k)) (fun '(a, b) => AcKpCt a b) (c_list c_string & c_ac_ct).
(** [Ac17SecretKey]; ac17/mod.rs:110-117. *)
Definition c_ac_sk : codec (ac_sk C) :=
  c_as (fun k => (ask_k0 k, ask_k k, ask_kp k)) (fun '(a, b, c) => AcSk a b c)
       (c_list g2 & c_list (c_string & c_list g1) & c_list g1).
(** [Ac17KpSecretKey]; ac17/mod.rs:120-126. *)
Definition c_ac_kpsk : codec (ac_kpsk C) :=
  c_as (fun k => (akps_policy k, akps_sk k)) (fun '(a, b) => AcKpSk a b) (c_policy & c_ac_sk).
(** [Ac17CpSecretKey]; ac17/mod.rs:129-135. *)
Definition c_ac_cpsk : codec (ac_cpsk C) :=
  c_as (fun k => (acps_attr k, acps_sk k)) (fun '(a, b) => AcCpSk a b) (c_list c_string & c_ac_sk).

(** ** AW11; /repo/src/schemes/aw11/mod.rs *)
Import Aw11.
(** [Aw11GlobalKey]; aw11/mod.rs:47-53. *)
Definition c_aw_gk : codec (aw_gk C) :=
  c_as (fun k => (agk_g1 k, agk_g2 k)) (fun '(a, b) => AwGk a b) (g1 & g2).
(** [Aw11PublicKey]; aw11/mod.rs:56-61. *)
Definition c_aw_pk : codec (aw_pk C) :=
  c_as apk_attr AwPk (c_list (c_string & gt & g2)).
(** [Aw11MasterKey]; aw11/mod.rs:64-69. *)
Definition c_aw_msk : codec (aw_msk C) :=
  c_as amsk_attr AwMsk (c_list (c_string & f & f)).
(** [Aw11Ciphertext]; aw11/mod.rs:72-80. *)
Definition c_aw_ct : codec (aw_ct C) :=
  c_as (fun k => (awct_policy k, awct_c0 k, awct_c k, awct_data k))
       (fun '(a, b, c, d) => AwCt a b c d)
       (c_policy & gt & c_list (c_string & gt & g2 & g2) & c_bytes).
(** [Aw11SecretKey]; aw11/mod.rs:83-89. *)
Definition c_aw_sk : codec (aw_sk C) :=
  c_as (fun k => (awsk_gid k, awsk_attr k)) (fun '(a, b) => AwSk a b)
       (c_string & c_list (c_string & g1)).

(** ** BDABE; /repo/src/schemes/bdabe/mod.rs *)
Import Bdabe.
(** [BdabePublicKey]; bdabe/mod.rs:46-55. *)
Definition c_bd_pk : codec (bd_pk C) :=
  c_as (fun k => (bpk_g1 k, bpk_g2 k, bpk_p1 k, bpk_p2 k, bpk_egg k))
       (fun '(a, b, c, d, e) => BdPk a b c d e) (g1 & g2 & g1 & g2 & gt).
(** [BdabeMasterKey]; bdabe/mod.rs:58-63. *)
Definition c_bd_msk : codec (bd_msk C) := c_as bmsk_y BdMsk f.
(** [BdabePublicUserKey]; bdabe/mod.rs:76-83. *)
Definition c_bd_upk : codec (bd_upk C) :=
  c_as (fun k => (bupk_u k, bupk_u1 k, bupk_u2 k)) (fun '(a, b, c) => BdUpk a b c)
       (c_string & g1 & g2).
(** [BdabeSecretUserKey]; bdabe/mod.rs:86-92. *)
Definition c_bd_usk : codec (bd_usk C) :=
  c_as (fun k => (busk_u1 k, busk_u2 k)) (fun '(a, b) => BdUsk a b) (g1 & g2).
(** [BdabeSecretAttributeKey]; bdabe/mod.rs:95-102. *)
Definition c_bd_ask : codec (bd_ask C) :=
  c_as (fun k => (bask_attr k, bask_au1 k, bask_au2 k)) (fun '(a, b, c) => BdAsk a b c)
       (c_string & g1 & g2).
(** [BdabeUserKey]; bdabe/mod.rs:66-73. *)
Definition c_bd_uk : codec (bd_uk C) :=
  c_as (fun k => (buk_sk k, buk_pk k, buk_ska k)) (fun '(a, b, c) => BdUk a b c)
       (c_bd_usk & c_bd_upk & c_list c_bd_ask).
(** [BdabePublicAttributeKey]; bdabe/mod.rs:105-113. *)
Definition c_bd_apk : codec (bd_apk C) :=
  c_as (fun k => (bapk_attr k, bapk_a1 k, bapk_a2 k, bapk_a3 k))
       (fun '(a, b, c, d) => BdApk a b c d) (c_string & g1 & g2 & gt).
(** [BdabeSecretAuthorityKey]; bdabe/mod.rs:116-124. *)
Definition c_bd_auth : codec (bd_auth C) :=
  c_as (fun k => (bau_name k, bau_a1 k, bau_a2 k, bau_a3 k))
       (fun '(a, b, c, d) => BdAuth a b c d) (c_string & g1 & g2 & f).
(** [BdabeCiphertextTuple]; bdabe/mod.rs:127-137. *)
Definition c_bd_tuple : codec (bd_tuple C) :=
  c_as (fun k => (bt_attr k, bt_e1 k, bt_e2 k, bt_e3 k, bt_e4 k, bt_e5 k))
       (fun '(a, b, c, d, e, h) => BdTuple a b c d e h)
       (c_list c_string & gt & g1 & g2 & g1 & g2).
(** [BdabeCiphertext]; bdabe/mod.rs:140-147. *)
Definition c_bd_ct : codec (bd_ct C) :=
  c_as (fun k => (Bdabe.bct_policy k, bct_j k, Bdabe.bct_data k)) (fun '(a, b, c) => BdCt a b c)
       (c_policy & c_list c_bd_tuple & c_bytes).

(** ** MKE08; /repo/src/schemes/mke08/mod.rs *)
Import Mke08.
(** [Mke08PublicKey]; mke08/mod.rs:51-61. *)
Definition c_mk_pk : codec (mk_pk C) :=
  c_as (fun k => (mpk_g1 k, mpk_g2 k, mpk_p1 k, mpk_p2 k, mpk_egg1 k, mpk_egg2 k))
       (fun '(a, b, c, d, e, h) => MkPk a b c d e h) (g1 & g2 & g1 & g2 & gt & gt).
(** [Mke08MasterKey]; mke08/mod.rs:64-70. *)
Definition c_mk_msk : codec (mk_msk C) :=
  c_as (fun k => (mmsk_g1 k, mmsk_g2 k)) (fun '(a, b) => MkMsk a b) (g1 & g2).
(** [Mke08PublicUserKey]; mke08/mod.rs:83-90. *)
Definition c_mk_upk : codec (mk_upk C) :=
  c_as (fun k => (mupk_name k, mupk_g1 k, mupk_g2 k)) (fun '(a, b, c) => MkUpk a b c)
       (c_string & g1 & g2).
(** [Mke08SecretUserKey]; mke08/mod.rs:93-99. *)
Definition c_mk_usk : codec (mk_usk C) :=
  c_as (fun k => (musk_g1 k, musk_g2 k)) (fun '(a, b) => MkUsk a b) (g1 & g2).
(** [Mke08SecretAuthorityKey]; mke08/mod.rs:102-108. *)
Definition c_mk_auth : codec (mk_auth C) :=
  c_as (fun k => (mau_name k, mau_r k)) (fun '(a, b) => MkAuth a b) (c_string & f).
(** [Mke08PublicAttributeKey]; mke08/mod.rs:111-120. *)
Definition c_mk_apk : codec (mk_apk C) :=
  c_as (fun k => (mapk_attr k, mapk_g1 k, mapk_g2 k, mapk_gt1 k, mapk_gt2 k))
       (fun '(a, b, c, d, e) => MkApk a b c d e) (c_string & g1 & g2 & gt & gt).
(** [Mke08SecretAttributeKey]; mke08/mod.rs:123-130. *)
Definition c_mk_ask : codec (mk_ask C) :=
  c_as (fun k => (mask_attr k, mask_g1 k, mask_g2 k)) (fun '(a, b, c) => MkAsk a b c)
       (c_string & g1 & g2).
(** [Mke08UserKey]; mke08/mod.rs:73-80. *)
Definition c_mk_uk : codec (mk_uk C) :=
  c_as (fun k => (muk_sk k, muk_pk k, muk_ska k)) (fun '(a, b, c) => MkUk a b c)
       (c_mk_usk & c_mk_upk & c_list c_mk_ask).
(** [Mke08CTConjunction]; mke08/mod.rs:143-154. *)
Definition c_mk_conj : codec (mk_conj C) :=
  c_as (fun k => (mj_str k, mj_1 k, mj_2 k, mj_3 k, mj_4 k, mj_5 k, mj_6 k))
       (fun '(a, b, c, d, e, h, i) => MkConj a b c d e h i)
       (c_list c_string & gt & gt & g1 & g2 & g1 & g2).
(** [Mke08Ciphertext]; mke08/mod.rs:133-140. *)
Definition c_mk_ct : codec (mk_ct C) :=
  c_as (fun k => (mct_policy k, mct_e k, mct_data k)) (fun '(a, b, c) => MkCt a b c)
       (c_policy & c_list c_mk_conj & c_bytes).

End Types.
