(** * Bdabe: /repo/src/schemes/bdabe/mod.rs *)
From Coq Require Import String Ascii List Bool Arith.
From Verif Require Import Base Crypto Policy Tools Dnf Parse Symmetric.
Import ListNotations.

(** [str::match_indices("::")]: start positions of the non-overlapping matches
    from the left, positions counted in bytes; bdabe/mod.rs:465. *)
Fixpoint match_colons (s : string) (pos : nat) : list nat :=
  match s with
  | String ":" (String ":" r) => pos :: match_colons r (S (S pos))
  | String _ r => match_colons r (S pos)
  | EmptyString => []
  end.

(** [from_authority]; bdabe/mod.rs:461-470 and mke08/mod.rs:469-478 (same text).
    [attr.get(0..k)] cannot fail, the matched byte is a character boundary. *)
Definition from_authority (attr authority : string) : bool :=
  match match_colons attr 0 with
  | [k] => seqb (String.substring 0 k attr) authority
  | _ => false
  end.

(** [is_eligible]; bdabe/mod.rs:481-486 and mke08/mod.rs:490-495 (same text). *)
Definition is_eligible (_attr _user : string) : bool := true.

Section Bdabe.
Context {C : crypto}.
Local Open Scope rand_scope.

(** [BdabePublicKey]; bdabe/mod.rs:49-55. *)
Record bd_pk := BdPk {
  bpk_g1 : G1 C; bpk_g2 : G2 C; bpk_p1 : G1 C; bpk_p2 : G2 C; bpk_egg : GT C }.

(** [BdabeMasterKey]; bdabe/mod.rs:61-63. *)
Record bd_msk := BdMsk { bmsk_y : F C }.

(** [BdabePublicUserKey]; bdabe/mod.rs:79-83. *)
Record bd_upk := BdUpk { bupk_u : string; bupk_u1 : G1 C; bupk_u2 : G2 C }.

(** [BdabeSecretUserKey]; bdabe/mod.rs:89-92. *)
Record bd_usk := BdUsk { busk_u1 : G1 C; busk_u2 : G2 C }.

(** [BdabeSecretAttributeKey]; bdabe/mod.rs:98-102. *)
Record bd_ask := BdAsk { bask_attr : string; bask_au1 : G1 C; bask_au2 : G2 C }.

(** [BdabeUserKey]; bdabe/mod.rs:69-73. *)
Record bd_uk := BdUk { buk_sk : bd_usk; buk_pk : bd_upk; buk_ska : list bd_ask }.

(** [BdabePublicAttributeKey]; bdabe/mod.rs:108-113. *)
Record bd_apk := BdApk { bapk_attr : string; bapk_a1 : G1 C; bapk_a2 : G2 C; bapk_a3 : GT C }.

(** [BdabeSecretAuthorityKey]; bdabe/mod.rs:119-124. *)
Record bd_auth := BdAuth { bau_name : string; bau_a1 : G1 C; bau_a2 : G2 C; bau_a3 : F C }.

(** [BdabeCiphertextTuple]; bdabe/mod.rs:130-137. *)
Record bd_tuple := BdTuple {
  bt_attr : list string; bt_e1 : GT C; bt_e2 : G1 C; bt_e3 : G2 C; bt_e4 : G1 C; bt_e5 : G2 C }.

(** [BdabeCiphertext]; bdabe/mod.rs:143-147. *)
Record bd_ct := BdCt { bct_policy : string * language; bct_j : list bd_tuple; bct_data : string }.

(** [setup]; bdabe/mod.rs:150-163. *)
Definition bd_setup : rand (F C) (bd_pk * bd_msk) :=
  g1 <- draw_g1 ;;
  g2 <- draw_g2 ;;
  p1 <- draw_g1 ;;
  p2 <- draw_g2 ;;
  y <- draw ;;
  rret (BdPk g1 g2 p1 p2 (gtpow C (pairing C g1 g2) y), BdMsk y).

(** [authgen]; bdabe/mod.rs:174-188. *)
Definition bd_authgen (pk : bd_pk) (msk : bd_msk) (name : string) : rand (F C) bd_auth :=
  alpha <- draw ;;
  let beta := fsub C (bmsk_y msk) alpha in
  a3 <- draw ;;
  rret (BdAuth name (g1mul C (bpk_g1 pk) alpha) (g2mul C (bpk_g2 pk) beta) a3).

(** [keygen]; bdabe/mod.rs:201-222. *)
Definition bd_keygen (pk : bd_pk) (sk_a : bd_auth) (name : string) : rand (F C) bd_uk :=
  r_u <- draw ;;
  rret (BdUk (BdUsk (g1add C (bau_a1 sk_a) (g1mul C (bpk_p1 pk) r_u))
                    (g2add C (bau_a2 sk_a) (g2mul C (bpk_p2 pk) r_u)))
             (BdUpk name (g1mul C (bpk_g1 pk) r_u) (g2mul C (bpk_g2 pk) r_u))
             []).

(** [request_attribute_pk]; bdabe/mod.rs:232-260. *)
Definition bd_request_pk (pk : bd_pk) (sk_a : bd_auth) (attribute : string) : outcome bd_apk :=
  if from_authority attribute (bau_name sk_a) then
    obind (sha3_hash_fr attribute) (fun hash_1 =>
    obind (sha3_hash_fr (bau_name sk_a)) (fun hash_2 =>
    let exp := fmul C (fmul C hash_1 hash_2) (bau_a3 sk_a) in
    Ok (BdApk attribute (g1mul C (bpk_g1 pk) exp) (g2mul C (bpk_g2 pk) exp)
              (gtpow C (bpk_egg pk) exp))))
  else Err.

(** [request_attribute_sk]; bdabe/mod.rs:270-297. *)
Definition bd_request_sk (pk_u : bd_upk) (sk_a : bd_auth) (attribute : string) : outcome bd_ask :=
  if from_authority attribute (bau_name sk_a) && is_eligible attribute (bupk_u pk_u) then
    obind (sha3_hash_fr attribute) (fun hash_1 =>
    obind (sha3_hash_fr (bau_name sk_a)) (fun hash_2 =>
    let exp := fmul C (fmul C hash_1 hash_2) (bau_a3 sk_a) in
    Ok (BdAsk attribute (g1mul C (bupk_u1 pk_u) exp) (g2mul C (bupk_u2 pk_u) exp))))
  else Err.

(** The caller's [uk.sk_a.push(key)]; bdabe/mod.rs:510-515 (its tests). The library has no
    function for this. *)
Definition bd_add (uk : bd_uk) (k : bd_ask) : bd_uk :=
  BdUk (buk_sk uk) (buk_pk uk) (buk_ska uk ++ [k]).

(** [PublicAttributeKey for BdabePublicAttributeKey];
    /repo/src/utils/policy/dnf.rs:87-100.  [gt2] keeps the trait's default
    [Gt::one()] (lines 64-66). *)
Definition bd_pak (k : bd_apk) : pak C :=
  Pak (bapk_attr k) (bapk_a1 k) (bapk_a2 k) (bapk_a3 k) (gtone C).

(** One ciphertext tuple; bdabe/mod.rs:328-338. *)
Definition bd_tuple_of (pk : bd_pk) (msg : GT C) (tm : term C) : rand (F C) bd_tuple :=
  r_j <- draw ;;
  rret (BdTuple (tm_attrs tm) (gtmul C (gtpow C (tm_gt1 tm) r_j) msg)
          (g1mul C (bpk_p1 pk) r_j) (g2mul C (bpk_p2 pk) r_j)
          (g1mul C (tm_g1 tm) r_j) (g2mul C (tm_g2 tm) r_j)).

(** [encrypt]; bdabe/mod.rs:309-350.  [from_string] (line 323) parses the same
    text again and is unwrapped.  [pairing(rng.gen(), rng.gen())]: two draws. *)
Definition bd_encrypt (nonce : string) (pk : bd_pk) (attr_pks : list bd_apk) (policy : string)
  (lang : language) (data : string) : rand (F C) bd_ct :=
  pol <- rlift (parse policy lang) ;;
  if policy_in_dnf pol false None then
    terms <- rlift (unwrap_res (obind (parse policy lang) (fun p =>
               json_to_dnf p (map bd_pak attr_pks)))) ;;
    m1 <- draw_g1 ;;
    m2 <- draw_g2 ;;
    let msg := pairing C m1 m2 in
    j <- rmap (bd_tuple_of pk msg) terms ;;
    ct <- rlift (encrypt_symmetric nonce msg data) ;;
    rret (BdCt (policy, lang) j ct)
  else rerr.

(** [is_satisfiable]; bdabe/mod.rs:401-416. *)
Definition bd_satisfiable (conjunction : list string) (sk : list bd_ask) : bool :=
  forallb (fun a => match find (fun x => seqb (bask_attr x) a) sk with
                    | None => false | Some _ => true end) conjunction.

(** [calc_satisfiable]; bdabe/mod.rs:426-447. *)
Fixpoint bd_calc_from (i : nat) (conjunction : list string) (sk : list bd_ask)
  (ret : G1 C * G2 C) : G1 C * G2 C :=
  match conjunction with
  | [] => ret
  | a :: r =>
    match find (fun x => seqb (bask_attr x) a) sk with
    | None => bd_calc_from (S i) r sk ret
    | Some found =>
      bd_calc_from (S i) r sk
        (if i =? 0 then (bask_au1 found, bask_au2 found)
         else (g1add C (fst ret) (bask_au1 found), g2add C (snd ret) (bask_au2 found)))
    end
  end.
Definition bd_calc (conjunction : list string) (sk : list bd_ask) : G1 C * G2 C :=
  bd_calc_from 0 conjunction sk (g1one C, g2one C).

(** The message recovered from one tuple; bdabe/mod.rs:376-380. *)
Definition bd_open (sk : bd_uk) (t : bd_tuple) : GT C :=
  let sum := bd_calc (bt_attr t) (buk_ska sk) in
  gtmul C (gtmul C (gtmul C (bt_e1 t) (pairing C (bt_e2 t) (snd sum)))
                   (pairing C (fst sum) (bt_e3 t)))
          (gtinv C (gtmul C (pairing C (bt_e4 t) (busk_u2 (buk_sk sk)))
                            (pairing C (busk_u1 (buk_sk sk)) (bt_e5 t)))).

(** The loop with [break]; bdabe/mod.rs:373-383. *)
Fixpoint bd_first (sk : bd_uk) (j : list bd_tuple) : GT C :=
  match j with
  | [] => gtone C
  | t :: r => if bd_satisfiable (bt_attr t) (buk_ska sk) then bd_open sk t else bd_first sk r
  end.

(** [decrypt]; bdabe/mod.rs:359-390. *)
Definition bd_decrypt (sk : bd_uk) (ct : bd_ct) : outcome string :=
  let str_attr := map bask_attr (buk_ska sk) in
  obind (parse (fst (bct_policy ct)) (snd (bct_policy ct))) (fun pol =>
  if traverse_policy str_attr pol Leaf then
    decrypt_symmetric (bd_first sk (bct_j ct)) (bct_data ct)
  else Err).

End Bdabe.
Arguments bd_pk C : clear implicits.
Arguments bd_msk C : clear implicits.
Arguments bd_upk C : clear implicits.
Arguments bd_usk C : clear implicits.
Arguments bd_ask C : clear implicits.
Arguments bd_uk C : clear implicits.
Arguments bd_apk C : clear implicits.
Arguments bd_auth C : clear implicits.
Arguments bd_tuple C : clear implicits.
Arguments bd_ct C : clear implicits.
