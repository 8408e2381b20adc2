(** * Mke08: /repo/src/schemes/mke08/mod.rs

    [from_authority] and [is_eligible] have the same text as in BDABE and are
    taken from [Bdabe]. *)
From Coq Require Import String Ascii List Bool Arith.
From Verif Require Import Base Crypto Policy Tools Dnf Parse Symmetric Bdabe.
Import ListNotations.

Section Mke08.
Context {C : crypto}.
Local Open Scope rand_scope.

(** [Mke08PublicKey]; mke08/mod.rs:54-61. *)
Record mk_pk := MkPk {
  mpk_g1 : G1 C; mpk_g2 : G2 C; mpk_p1 : G1 C; mpk_p2 : G2 C; mpk_egg1 : GT C; mpk_egg2 : GT C }.

(** [Mke08MasterKey]; mke08/mod.rs:67-70. *)
Record mk_msk := MkMsk { mmsk_g1 : G1 C; mmsk_g2 : G2 C }.

(** [Mke08PublicUserKey]; mke08/mod.rs:86-90. *)
Record mk_upk := MkUpk { mupk_name : string; mupk_g1 : G1 C; mupk_g2 : G2 C }.

(** [Mke08SecretUserKey]; mke08/mod.rs:96-99. *)
Record mk_usk := MkUsk { musk_g1 : G1 C; musk_g2 : G2 C }.

(** [Mke08SecretAttributeKey]; mke08/mod.rs:126-130. *)
Record mk_ask := MkAsk { mask_attr : string; mask_g1 : G1 C; mask_g2 : G2 C }.

(** [Mke08UserKey]; mke08/mod.rs:76-80. *)
Record mk_uk := MkUk { muk_sk : mk_usk; muk_pk : mk_upk; muk_ska : list mk_ask }.

(** [Mke08SecretAuthorityKey]; mke08/mod.rs:105-108. *)
Record mk_auth := MkAuth { mau_name : string; mau_r : F C }.

(** [Mke08PublicAttributeKey]; mke08/mod.rs:114-120. *)
Record mk_apk := MkApk {
  mapk_attr : string; mapk_g1 : G1 C; mapk_g2 : G2 C; mapk_gt1 : GT C; mapk_gt2 : GT C }.

(** [Mke08CTConjunction]; mke08/mod.rs:146-154. *)
Record mk_conj := MkConj {
  mj_str : list string; mj_1 : GT C; mj_2 : GT C; mj_3 : G1 C; mj_4 : G2 C; mj_5 : G1 C; mj_6 : G2 C }.

(** [Mke08Ciphertext]; mke08/mod.rs:136-140. *)
Record mk_ct := MkCt { mct_policy : string * language; mct_e : list mk_conj; mct_data : string }.

(** [setup]; mke08/mod.rs:157-175. *)
Definition mk_setup : rand (F C) (mk_pk * mk_msk) :=
  g1 <- draw_g1 ;;
  g2 <- draw_g2 ;;
  p1 <- draw_g1 ;;
  p2 <- draw_g2 ;;
  y1 <- draw ;;
  y2 <- draw ;;
  rret (MkPk g1 g2 p1 p2 (gtpow C (pairing C g1 g2) y1) (gtpow C (pairing C g1 g2) y2),
        MkMsk (g1mul C g1 y1) (g2mul C g2 y2)).

(** [keygen]; mke08/mod.rs:185-206. *)
Definition mk_keygen (pk : mk_pk) (msk : mk_msk) (name : string) : rand (F C) mk_uk :=
  mk_u <- draw ;;
  rret (MkUk (MkUsk (g1add C (mmsk_g1 msk) (g1mul C (mpk_p1 pk) mk_u))
                    (g2add C (mmsk_g2 msk) (g2mul C (mpk_p2 pk) mk_u)))
             (MkUpk name (g1mul C (mpk_g1 pk) mk_u) (g2mul C (mpk_g2 pk) mk_u))
             []).

(** [authgen]; mke08/mod.rs:215-223. *)
Definition mk_authgen (name : string) : rand (F C) mk_auth :=
  r <- draw ;;
  rret (MkAuth name r).

(** [request_authority_pk]; mke08/mod.rs:233-262. *)
Definition mk_request_pk (pk : mk_pk) (attribute : string) (sk_a : mk_auth) : outcome mk_apk :=
  if from_authority attribute (mau_name sk_a) then
    obind (sha3_hash_fr attribute) (fun hash_1 =>
    obind (sha3_hash_fr (mau_name sk_a)) (fun hash_2 =>
    let exp := fmul C (fmul C hash_1 hash_2) (mau_r sk_a) in
    Ok (MkApk attribute (g1mul C (mpk_g1 pk) exp) (g2mul C (mpk_g2 pk) exp)
              (gtpow C (mpk_egg1 pk) exp) (gtpow C (mpk_egg2 pk) exp))))
  else Err.

(** [request_authority_sk]; mke08/mod.rs:272-299. *)
Definition mk_request_sk (pk_u : mk_upk) (attr : string) (sk_a : mk_auth) : outcome mk_ask :=
  if from_authority attr (mau_name sk_a) && is_eligible attr (mupk_name pk_u) then
    obind (sha3_hash_fr attr) (fun hash_1 =>
    obind (sha3_hash_fr (mau_name sk_a)) (fun hash_2 =>
    let exp := fmul C (fmul C hash_1 hash_2) (mau_r sk_a) in
    Ok (MkAsk attr (g1mul C (mupk_g1 pk_u) exp) (g2mul C (mupk_g2 pk_u) exp))))
  else Err.

(** The caller's [uk.sk_a.push(key)]; as in the example at mke08/mod.rs:25-26. *)
Definition mk_add (uk : mk_uk) (k : mk_ask) : mk_uk :=
  MkUk (muk_sk uk) (muk_pk uk) (muk_ska uk ++ [k]).

(** [PublicAttributeKey for Mke08PublicAttributeKey];
    /repo/src/utils/policy/dnf.rs:69-85. *)
Definition mk_pak (k : mk_apk) : pak C :=
  Pak (mapk_attr k) (mapk_g1 k) (mapk_g2 k) (mapk_gt1 k) (mapk_gt2 k).

(** One ciphertext conjunction; mke08/mod.rs:333-344. *)
Definition mk_conj_of (pk : mk_pk) (msg1 msg2 : GT C) (tm : term C) : rand (F C) mk_conj :=
  r_j <- draw ;;
  rret (MkConj (tm_attrs tm)
          (gtmul C (gtpow C (tm_gt1 tm) r_j) msg1) (gtmul C (gtpow C (tm_gt2 tm) r_j) msg2)
          (g1mul C (mpk_p1 pk) r_j) (g2mul C (mpk_p2 pk) r_j)
          (g1mul C (tm_g1 tm) r_j) (g2mul C (tm_g2 tm) r_j)).

(** [encrypt]; mke08/mod.rs:311-356. *)
Definition mk_encrypt (nonce : string) (pk : mk_pk) (attr_pks : list mk_apk) (policy : string)
  (lang : language) (data : string) : rand (F C) mk_ct :=
  pol <- rlift (parse policy lang) ;;
  if policy_in_dnf pol false None then
    terms <- rlift (unwrap_res (obind (parse policy lang) (fun p =>
               json_to_dnf p (map mk_pak attr_pks)))) ;;
    m1 <- draw_g1 ;;
    m2 <- draw_g2 ;;
    let msg1 := pairing C m1 m2 in
    x <- draw ;;
    let msg2 := gtpow C msg1 x in
    let msg := gtmul C msg1 msg2 in
    e <- rmap (mk_conj_of pk msg1 msg2) terms ;;
    ct <- rlift (encrypt_symmetric nonce msg data) ;;
    rret (MkCt (policy, lang) e ct)
  else rerr.

(** [is_satisfiable]; mke08/mod.rs:409-424. *)
Definition mk_satisfiable (conjunction : list string) (sk : list mk_ask) : bool :=
  forallb (fun a => match find (fun x => seqb (mask_attr x) a) sk with
                    | None => false | Some _ => true end) conjunction.

(** [calc_satisfiable]; mke08/mod.rs:434-454. *)
Fixpoint mk_calc_from (i : nat) (conjunction : list string) (sk : list mk_ask)
  (ret : G1 C * G2 C) : G1 C * G2 C :=
  match conjunction with
  | [] => ret
  | a :: r =>
    match find (fun x => seqb (mask_attr x) a) sk with
    | None => mk_calc_from (S i) r sk ret
    | Some found =>
      mk_calc_from (S i) r sk
        (if i =? 0 then (mask_g1 found, mask_g2 found)
         else (g1add C (fst ret) (mask_g1 found), g2add C (snd ret) (mask_g2 found)))
    end
  end.
Definition mk_calc (conjunction : list string) (sk : list mk_ask) : G1 C * G2 C :=
  mk_calc_from 0 conjunction sk (g1one C, g2one C).

(** The message recovered from one conjunction; mke08/mod.rs:384-388. *)
Definition mk_open (sk : mk_uk) (t : mk_conj) : GT C :=
  let sum := mk_calc (mj_str t) (muk_ska sk) in
  gtmul C (gtmul C (gtmul C (gtmul C (mj_1 t) (mj_2 t)) (pairing C (mj_3 t) (snd sum)))
                   (pairing C (fst sum) (mj_4 t)))
          (gtinv C (gtmul C (pairing C (mj_5 t) (musk_g2 (muk_sk sk)))
                            (pairing C (musk_g1 (muk_sk sk)) (mj_6 t)))).

(** The loop with [break]; mke08/mod.rs:381-391. *)
Fixpoint mk_first (sk : mk_uk) (e : list mk_conj) : GT C :=
  match e with
  | [] => gtone C
  | t :: r => if mk_satisfiable (mj_str t) (muk_ska sk) then mk_open sk t else mk_first sk r
  end.

(** [decrypt]; mke08/mod.rs:365-398. *)
Definition mk_decrypt (sk : mk_uk) (ct : mk_ct) : outcome string :=
  let attr_str := map mask_attr (muk_ska sk) in
  obind (parse (fst (mct_policy ct)) (snd (mct_policy ct))) (fun pol =>
  if traverse_policy attr_str pol Leaf then
    decrypt_symmetric (mk_first sk (mct_e ct)) (mct_data ct)
  else Err).

End Mke08.
Arguments mk_pk C : clear implicits.
Arguments mk_msk C : clear implicits.
Arguments mk_upk C : clear implicits.
Arguments mk_usk C : clear implicits.
Arguments mk_ask C : clear implicits.
Arguments mk_uk C : clear implicits.
Arguments mk_auth C : clear implicits.
Arguments mk_apk C : clear implicits.
Arguments mk_conj C : clear implicits.
Arguments mk_ct C : clear implicits.
