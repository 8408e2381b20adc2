(** * Lsw: /repo/src/schemes/lsw/mod.rs *)
From Coq Require Import String List Bool Arith.
From Verif Require Import Base Crypto Policy Tools Sharing Parse Symmetric.
Import ListNotations.

Section Lsw.
Context {C : crypto}.
Local Open Scope rand_scope.

(** [KpAbePublicKey]; lsw/mod.rs:44-51. *)
Record lsw_pk := LswPk {
  lpk_g1 : G1 C; lpk_g2 : G2 C; lpk_g1b : G1 C; lpk_g1b2 : G1 C; lpk_hb : G1 C; lpk_egg : GT C }.

(** [KpAbeMasterKey]; lsw/mod.rs:57-63. *)
Record lsw_msk := LswMsk {
  lmsk_alpha1 : F C; lmsk_alpha2 : F C; lmsk_b : F C; lmsk_hg1 : G1 C; lmsk_hg2 : G2 C }.

(** One entry of [KpAbeSecretKey::dj]; lsw/mod.rs:71. *)
Record lsw_dj := LswDj {
  ld_name : string; ld_1 : G1 C; ld_2 : G2 C; ld_3 : G1 C; ld_4 : G1 C; ld_5 : G1 C }.

(** [KpAbeSecretKey]; lsw/mod.rs:69-72. *)
Record lsw_sk := LswSk { lsk_policy : string * language; lsk_dj : list lsw_dj }.

(** One entry of [KpAbeCiphertext::ej]; lsw/mod.rs:81. *)
Record lsw_ej := LswEj { le_name : string; le_1 : G1 C; le_2 : G1 C; le_3 : G1 C }.

(** [KpAbeCiphertext]; lsw/mod.rs:78-83. *)
Record lsw_ct := LswCt { lct_e1 : GT C; lct_e2 : G2 C; lct_ej : list lsw_ej; lct_ct : string }.

(** [setup]; lsw/mod.rs:86-109. *)
Definition lsw_setup : rand (F C) (lsw_pk * lsw_msk) :=
  alpha1 <- draw ;;
  alpha2 <- draw ;;
  b <- draw ;;
  let alpha := fmul C alpha1 alpha2 in
  g1 <- draw_g1 ;;
  g2 <- draw_g2 ;;
  h_g1 <- draw_g1 ;;
  h_g2 <- draw_g2 ;;
  let g1_b := g1mul C g1 b in
  let g1_b2 := g1mul C g1_b b in
  let h_b := g1mul C h_g1 b in
  let e_gg_alpha := gtpow C (pairing C g1 g2) alpha in
  rret (LswPk g1 g2 g1_b g1_b2 h_b e_gg_alpha, LswMsk alpha1 alpha2 b h_g1 h_g2).

(** [keygen]; lsw/mod.rs:121-170. *)
Definition lsw_keygen (pk : lsw_pk) (msk : lsw_msk) (policy : string) (lang : language)
  : rand (F C) lsw_sk :=
  v <- rlift (parse policy lang) ;;
  shares <- gen_shares_policy (lmsk_alpha1 msk) v None ;;
  dj <- rmap (fun x =>
    let striped := remove_index (fst x) in
    random <- draw ;;
    neg <- rlift (is_negative striped) ;;
    if neg : bool then
      share_hash <- rlift (unwrap_res (sha3_hash_fr striped)) ;;
      rret (LswDj striped (g1zero C) (g2zero C)
              (g1add C (g1mul C (lpk_g1 pk) (snd x)) (g1mul C (lpk_g1b2 pk) random))
              (g1add C (g1mul C (lpk_g1b pk) (fmul C share_hash random)) (g1mul C (lmsk_hg1 msk) random))
              (g1mul C (lpk_g1 pk) (fopp C random)))
    else
      share_hash <- rlift (unwrap_res (sha3_hash_g1 (lpk_g1 pk) striped)) ;;
      rret (LswDj striped
              (g1add C (g1mul C (lpk_g1 pk) (fmul C (lmsk_alpha2 msk) (snd x))) (g1mul C share_hash random))
              (g2mul C (lpk_g2 pk) random)
              (g1zero C) (g1zero C) (g1zero C))) shares ;;
  rret (LswSk (policy, lang) dj).

(** Assignment to entry 0 of a vector; lsw/mod.rs:199. *)
Definition set_head {A} (x : A) (l : list A) : list A :=
  match l with [] => [] | _ :: r => x :: r end.

(** The loop at lsw/mod.rs:197-200; [sx] is never empty, so the default of
    [nth] and [hd] is never used. *)
Fixpoint lsw_sx (i : nat) (attributes : list string) (sx : list (F C)) : rand (F C) (list (F C)) :=
  match attributes with
  | [] => rret sx
  | _ :: r =>
      x <- draw ;;
      let sx := sx ++ [x] in
      lsw_sx (S i) r (set_head (fsub C (hd (f0 C) sx) (nth i sx (f0 C))) sx)
  end.

(** The loop at lsw/mod.rs:201-208. *)
Fixpoint lsw_ejs (pk : lsw_pk) (secret : F C) (sx : list (F C)) (i : nat) (attributes : list string)
  : outcome (list lsw_ej) :=
  match attributes with
  | [] => Ok []
  | attr :: r =>
      obind (unwrap_res (sha3_hash_g1 (lpk_g1 pk) attr)) (fun h =>
      obind (unwrap (nth_error sx i)) (fun s =>
      obind (unwrap_res (sha3_hash_fr attr)) (fun hf =>
      obind (lsw_ejs pk secret sx (S i) r) (fun l =>
      Ok (LswEj attr (g1mul C h secret) (g1mul C (lpk_g1b pk) s)
            (g1add C (g1mul C (lpk_g1b2 pk) (fmul C s hf)) (g1mul C (lpk_hb pk) s)) :: l)))))
  end.

(** [encrypt]; lsw/mod.rs:180-219. *)
Definition lsw_encrypt (nonce : string) (pk : lsw_pk) (attributes : list string)
  (plaintext : string) : rand (F C) lsw_ct :=
  match attributes, plaintext with
  | [], _ => rerr
  | _, EmptyString => rerr
  | _, _ =>
    secret <- draw ;;
    sx <- lsw_sx 0 attributes [secret] ;;
    ej <- rlift (lsw_ejs pk secret sx 0 attributes) ;;
    msg <- draw_gt ;;
    let e1 := gtmul C (gtpow C (lpk_egg pk) secret) msg in
    let e2 := g2mul C (lpk_g2 pk) secret in
    ct <- rlift (encrypt_symmetric nonce msg plaintext) ;;
    rret (LswCt e1 e2 ej ct)
  end.

(** One round of the loop at lsw/mod.rs:247-279; the state is [(z_y, prod_t)].
    For a negated leaf [z_y] keeps its value of the previous round. *)
Definition lsw_step (sk : lsw_sk) (ct : lsw_ct) (coeff_list : list (string * F C))
  (st : GT C * GT C) (cur : string * string) : outcome (GT C * GT C) :=
  obind (unwrap (find (fun a => seqb (ld_name a) (fst cur)) (lsk_dj sk))) (fun d =>
  obind (unwrap (find (fun a => seqb (le_name a) (fst cur)) (lct_ej ct))) (fun e =>
  obind (unwrap (find (fun a => seqb (fst a) (snd cur)) coeff_list)) (fun co =>
  obind (is_negative (fst cur)) (fun neg : bool =>
  let z_y := if neg then fst st
             else gtmul C (pairing C (ld_1 d) (lct_e2 ct)) (gtinv C (pairing C (le_1 e) (ld_2 d))) in
  Ok (z_y, gtmul C (snd st) (gtpow C z_y (snd co))))))).

(** [decrypt]; lsw/mod.rs:228-290. *)
Definition lsw_decrypt (sk : lsw_sk) (ct : lsw_ct) : outcome string :=
  let attr := map le_name (lct_ej ct) in
  obind (parse (fst (lsk_policy sk)) (snd (lsk_policy sk))) (fun v =>
  obind (calc_pruned attr v None) (fun pruned =>
  if fst pruned then
    obind (calc_coefficients v (f1 C) [] None) (fun o =>
    obind (unwrap o) (fun z =>
    obind (ofold (lsw_step sk ct z) (snd pruned) (gtone C, gtone C)) (fun st =>
    let msg := gtmul C (lct_e1 ct) (gtinv C (snd st)) in
    decrypt_symmetric msg (lct_ct ct))))
  else Err)).

End Lsw.
Arguments lsw_pk C : clear implicits.
Arguments lsw_msk C : clear implicits.
Arguments lsw_sk C : clear implicits.
Arguments lsw_ct C : clear implicits.
Arguments lsw_dj C : clear implicits.
Arguments lsw_ej C : clear implicits.
