(** * Ghw11: /repo/src/schemes/ghw11/mod.rs *)
From Coq Require Import String List Bool Arith.
From Verif Require Import Base Crypto Policy Tools Sharing Parse Symmetric.
Import ListNotations.

Section Ghw11.
Context {C : crypto}.
Local Open Scope rand_scope.

(** [Ghw11PublicKey]; ghw11/mod.rs:22-28. *)
Record ghw_pk := GhwPk {
  gpk_g1 : G1 C; gpk_g2 : G2 C; gpk_g1a : G1 C; gpk_g2a : G2 C; gpk_egg : GT C }.

(** [Ghw11MasterKey]; ghw11/mod.rs:33-36. *)
Record ghw_msk := GhwMsk { gmsk_g2al : G2 C; gmsk_pk : ghw_pk }.

(** [Ghw11SecretKey], [Ghw11Attribute]; ghw11/mod.rs:41-56.  An attribute is a
    pair of name and [k_x]. *)
Record ghw_sk := GhwSk { gsk_k : G2 C; gsk_l : G2 C; gsk_attr : list (string * G2 C) }.

(** [Ghw11TransformKey]; ghw11/mod.rs:61-65. *)
Record ghw_tk := GhwTk { gtk_k : G2 C; gtk_l : G2 C; gtk_attr : list (string * G2 C) }.

(** [Ghw11Ciphertext]; ghw11/mod.rs:77-83. *)
Record ghw_ct := GhwCt {
  gct_policy : string * language; gct_c : GT C; gct_c1 : G1 C;
  gct_cidi : list (string * (G1 C * G1 C)); gct_data : string }.

(** [Ghw11TransformCiphertext]; ghw11/mod.rs:88-91. *)
Record ghw_tct := GhwTct { gtct_c : GT C; gtct_t : GT C }.

(** [setup]; ghw11/mod.rs:94-113. *)
Definition ghw_setup : rand (F C) (ghw_pk * ghw_msk) :=
  g1 <- draw_g1 ;;
  g2 <- draw_g2 ;;
  a <- draw ;;
  let g1_a := g1mul C g1 a in
  let g2_a := g2mul C g2 a in
  alpha <- draw ;;
  let e_gg_alpha := gtpow C (pairing C g1 g2) alpha in
  let g2_alpha := g2mul C g2 alpha in
  let pk := GhwPk g1 g2 g1_a g2_a e_gg_alpha in
  rret (pk, GhwMsk g2_alpha pk).

(** [keygen]; ghw11/mod.rs:123-152. *)
Definition ghw_keygen (pk : ghw_pk) (msk : ghw_msk) (attributes : list string)
  : rand (F C) (option ghw_sk) :=
  match attributes with
  | [] => rret None
  | _ =>
    r <- draw ;;
    let g2_r := g2mul C (gpk_g2 pk) r in
    let k := g2add C (gmsk_g2al msk) (g2mul C (gpk_g2a pk) r) in
    k_x <- rlift (omap (fun j =>
      obind (unwrap_res (sha3_hash_g2 (gpk_g2 pk) j)) (fun h =>
      Ok (j, g2mul C h r))) attributes) ;;
    rret (Some (GhwSk k g2_r k_x))
  end.

(** [tkgen]; ghw11/mod.rs:156-178.  Always [Some]; the retrieve key is the
    scalar [z]. *)
Definition ghw_tkgen (sk : ghw_sk) : rand (F C) (ghw_tk * F C) :=
  z <- draw ;;
  z_inverse <- rlift (unwrap (finv_opt z)) ;;
  rret (GhwTk (g2mul C (gsk_k sk) z_inverse) (g2mul C (gsk_l sk) z_inverse)
          (map (fun k_i => (fst k_i, g2mul C (snd k_i) z_inverse)) (gsk_attr sk)), z).

(** [encrypt]; ghw11/mod.rs:189-224.  As in bsw, the emptiness check has no effect. *)
Definition ghw_encrypt (nonce : string) (pk : ghw_pk) (policy : string) (lang : language)
  (plaintext : string) : rand (F C) ghw_ct :=
  secret <- draw ;;
  msg <- draw_gt ;;
  v <- rlift (parse policy lang) ;;
  shares <- gen_shares_policy secret v None ;;
  let c := gtmul C (gtpow C (gpk_egg pk) secret) msg in
  let c1 := g1mul C (gpk_g1 pk) secret in
  ci_di <- rmap (fun x =>
    t_i <- draw ;;
    h <- rlift (unwrap_res (sha3_hash_g1 (gpk_g1 pk) (remove_index (fst x)))) ;;
    rret (fst x, (g1add C (g1mul C (gpk_g1a pk) (snd x)) (g1mul C h (fopp C t_i)),
                  g1mul C (gpk_g1 pk) t_i))) shares ;;
  data <- rlift (encrypt_symmetric nonce msg plaintext) ;;
  rret (GhwCt (policy, lang) c c1 ci_di data).

(** One round of the loop at ghw11/mod.rs:254-280; the state is [(ci_wi, t)]. *)
Definition ghw_step (tk : ghw_tk) (ct : ghw_ct) (coeff_list : list (string * F C))
  (st : G1 C * GT C) (cur : string * string) : outcome (G1 C * GT C) :=
  obind (unwrap (find (fun c => seqb (fst c) (snd cur)) coeff_list)) (fun co =>
  obind (unwrap (find (fun a => seqb (fst a) (fst cur)) (gtk_attr tk))) (fun ka =>
  obind (unwrap (find (fun a => seqb (fst a) (snd cur)) (gct_cidi ct))) (fun cd =>
  Ok (g1add C (fst st) (g1mul C (fst (snd cd)) (snd co)),
      gtmul C (snd st) (pairing C (g1mul C (snd (snd cd)) (snd co)) (snd ka)))))).

(** [transform]; ghw11/mod.rs:227-294. *)
Definition ghw_transform (ct : ghw_ct) (tk : ghw_tk) : outcome ghw_tct :=
  let attr := map fst (gtk_attr tk) in
  obind (parse (fst (gct_policy ct)) (snd (gct_policy ct))) (fun v =>
  if traverse_policy attr v Leaf then
    obind (calc_pruned attr v None) (fun pruned =>
    obind (calc_coefficients v (f1 C) [] None) (fun o =>
    obind (unwrap o) (fun z =>
    if fst pruned then
      obind (ofold (ghw_step tk ct z) (snd pruned) (g1zero C, gtone C)) (fun st =>
      let t := gtmul C (snd st) (pairing C (fst st) (gtk_l tk)) in
      let t := gtmul C (pairing C (gct_c1 ct) (gtk_k tk)) (gtinv C t) in
      Ok (GhwTct (gct_c ct) t))
    else Err)))
  else Err).

(** [decrypt_out]; ghw11/mod.rs:297-304. *)
Definition ghw_decrypt_out (pct : ghw_tct) (z : F C) (data : string) : outcome string :=
  let msg := gtmul C (gtct_c pct) (gtinv C (gtpow C (gtct_t pct) z)) in
  decrypt_symmetric msg data.

End Ghw11.
Arguments ghw_pk C : clear implicits.
Arguments ghw_msk C : clear implicits.
Arguments ghw_sk C : clear implicits.
Arguments ghw_tk C : clear implicits.
Arguments ghw_ct C : clear implicits.
Arguments ghw_tct C : clear implicits.
