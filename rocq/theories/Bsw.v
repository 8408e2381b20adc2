(** * Bsw: /repo/src/schemes/bsw/mod.rs *)
From Coq Require Import String List Bool Arith.
From Verif Require Import Base Crypto Policy Tools Sharing Parse Symmetric.
Import ListNotations.

Section Bsw.
Context {C : crypto}.
Local Open Scope rand_scope.

(** [CpAbeAttribute]; bsw/mod.rs:85-89. *)
Record battr := BAttr { b_string : string; b_g1 : G1 C; b_g2 : G2 C }.

(** [CpAbePublicKey]; bsw/mod.rs:43-49. *)
Record bsw_pk := BswPk {
  bpk_g1 : G1 C; bpk_g2 : G2 C; bpk_h : G1 C; bpk_f : G2 C; bpk_egg : GT C }.

(** [CpAbeMasterKey]; bsw/mod.rs:55-58. *)
Record bsw_msk := BswMsk { bmsk_beta : F C; bmsk_g2a : G2 C }.

(** [CpAbeCiphertext]; bsw/mod.rs:64-70. *)
Record bsw_ct := BswCt {
  bct_policy : string * language; bct_c : G1 C; bct_cp : GT C;
  bct_cy : list battr; bct_data : string }.

(** [CpAbeSecretKey]; bsw/mod.rs:76-79. *)
Record bsw_sk := BswSk { bsk_d : G2 C; bsk_dj : list battr }.

(** [setup]; bsw/mod.rs:92-115. *)
Definition bsw_setup : rand (F C) (bsw_pk * bsw_msk) :=
  g1 <- draw_g1 ;;
  g2 <- draw_g2 ;;
  beta <- draw ;;
  alpha <- draw ;;
  let h := g1mul C g1 beta in
  binv <- rlift (unwrap (finv_opt beta)) ;;
  let f := g2mul C g2 binv in
  let g2_alpha := g2mul C g2 alpha in
  let e_gg_alpha := pairing C g1 g2_alpha in
  rret (BswPk g1 g2 h f e_gg_alpha, BswMsk beta g2_alpha).

(** [keygen]; bsw/mod.rs:125-152.  [None] for an empty attribute list. *)
Definition bsw_keygen (pk : bsw_pk) (msk : bsw_msk) (attributes : list string)
  : rand (F C) (option bsw_sk) :=
  match attributes with
  | [] => rret None
  | _ =>
    r <- draw ;;
    let g2_r := g2mul C (bpk_g2 pk) r in
    binv <- rlift (unwrap (finv_opt (bmsk_beta msk))) ;;
    let d := g2mul C (g2add C (bmsk_g2a msk) g2_r) binv in
    d_j <- rmap (fun j =>
      r_j <- draw ;;
      h <- rlift (unwrap_res (sha3_hash_g2 (bpk_g2 pk) j)) ;;
      rret (BAttr j (g1mul C (bpk_g1 pk) r_j) (g2add C g2_r (g2mul C h r_j)))) attributes ;;
    rret (Some (BswSk d d_j))
  end.

(** [delegate]; bsw/mod.rs:162-206. *)
Definition bsw_delegate (pk : bsw_pk) (sk : bsw_sk) (subset : list string)
  : rand (F C) (option bsw_sk) :=
  if negb (is_subset subset (map b_string (bsk_dj sk))) then rret None
  else
  match subset with
  | [] => rret None
  | _ =>
    r <- draw ;;
    d_j <- rmap (fun attr =>
      r_j <- draw ;;
      v <- rlift (unwrap (find (fun x => seqb (b_string x) attr) (bsk_dj sk))) ;;
      h <- rlift (unwrap_res (sha3_hash_g2 (bpk_g2 pk) attr)) ;;
      rret (BAttr attr
              (g1add C (b_g1 v) (g1mul C (bpk_g1 pk) r_j))
              (g2add C (g2add C (b_g2 v) (g2mul C h r_j)) (g2mul C (bpk_g2 pk) r)))) subset ;;
    rret (Some (BswSk (g2add C (bsk_d sk) (g2mul C (bpk_f pk) r)) d_j))
  end.

(** [encrypt]; bsw/mod.rs:217-251.  The check on lines 223-225 builds an error
    and drops it, so it has no effect.  [nonce] is the random nonce of
    [encrypt_symmetric]. *)
Definition bsw_encrypt (nonce : string) (pk : bsw_pk) (policy : string) (lang : language)
  (plaintext : string) : rand (F C) bsw_ct :=
  secret <- draw ;;
  msg <- draw_gt ;;
  v <- rlift (parse policy lang) ;;
  shares <- gen_shares_policy secret v None ;;
  let c := g1mul C (bpk_h pk) secret in
  let c_p := gtmul C (gtpow C (bpk_egg pk) secret) msg in
  c_y <- rlift (omap (fun x =>
    obind (unwrap_res (sha3_hash_g2 (bpk_g2 pk) (remove_index (fst x)))) (fun h =>
    Ok (BAttr (fst x) (g1mul C (bpk_g1 pk) (snd x)) (g2mul C h (snd x))))) shares) ;;
  data <- rlift (encrypt_symmetric nonce msg plaintext) ;;
  rret (BswCt (policy, lang) c c_p c_y data).

(** One round of the loop at bsw/mod.rs:282-307, for one pruned leaf [kj]. *)
Definition bsw_step (sk : bsw_sk) (ct : bsw_ct) (z : list (string * F C))
  (a : GT C) (kj : string * string) : GT C :=
  match find (fun x => seqb (b_string x) (snd kj)) (bct_cy ct) with
  | Some c_y =>
      match find (fun x => seqb (b_string x) (fst kj)) (bsk_dj sk) with
      | Some d_j =>
          fold_left (fun a zt =>
            if seqb (fst zt) (snd kj)
            then gtmul C a (gtpow C (gtmul C (pairing C (b_g1 c_y) (b_g2 d_j))
                                      (gtinv C (pairing C (b_g1 d_j) (b_g2 c_y)))) (snd zt))
            else a) z a
      | None => a
      end
  | None => a
  end.

(** [decrypt]; bsw/mod.rs:260-318. *)
Definition bsw_decrypt (sk : bsw_sk) (ct : bsw_ct) : outcome string :=
  let attr := map b_string (bsk_dj sk) in
  obind (parse (fst (bct_policy ct)) (snd (bct_policy ct))) (fun v =>
  if traverse_policy attr v Leaf then
    obind (calc_pruned attr v None) (fun pruned =>
    if fst pruned then
      obind (calc_coefficients v (f1 C) [] None) (fun o =>
      obind (unwrap o) (fun z =>
      let a := fold_left (bsw_step sk ct z) (snd pruned) (gtone C) in
      let msg := gtmul C (bct_cp ct)
                   (gtinv C (gtmul C (pairing C (bct_c ct) (bsk_d sk)) (gtinv C a))) in
      decrypt_symmetric msg (bct_data ct)))
    else Err)
  else Err).

End Bsw.
Arguments battr C : clear implicits.
Arguments bsw_pk C : clear implicits.
Arguments bsw_msk C : clear implicits.
Arguments bsw_ct C : clear implicits.
Arguments bsw_sk C : clear implicits.
