(** * Aw11: /repo/src/schemes/aw11/mod.rs *)
From Coq Require Import String Ascii List Bool Arith.
From Verif Require Import Base Crypto Policy Tools Sharing Parse Symmetric Msp.
Import ListNotations.

Section Aw11.
Context {C : crypto}.
Local Open Scope rand_scope.

(** [Aw11GlobalKey]; aw11/mod.rs:48-51. *)
Record aw_gk := AwGk { agk_g1 : G1 C; agk_g2 : G2 C }.

(** [Aw11PublicKey]; aw11/mod.rs:57-61. *)
Record aw_pk := AwPk { apk_attr : list (string * GT C * G2 C) }.

(** [Aw11MasterKey]; aw11/mod.rs:64-69. *)
Record aw_msk := AwMsk { amsk_attr : list (string * F C * F C) }.

(** [Aw11Ciphertext]; aw11/mod.rs:72-80. *)
Record aw_ct := AwCt {
  awct_policy : string * language; awct_c0 : GT C;
  awct_c : list (string * GT C * G2 C * G2 C); awct_data : string }.

(** [Aw11SecretKey]; aw11/mod.rs:83-89. *)
Record aw_sk := AwSk { awsk_gid : string; awsk_attr : list (string * G1 C) }.

(** First component of the three- and four-tuples;
    as in the searches by name at aw11/mod.rs:219, 331-344 and 383; not in /repo by itself. *)
Definition n3 {A B} (x : string * A * B) : string := fst (fst x).
Definition n4 {A B D} (x : string * A * B * D) : string := fst (fst (fst x)).

(** [setup]; aw11/mod.rs:100-108. *)
Definition aw_setup : rand (F C) aw_gk :=
  g1 <- draw_g1 ;;
  g2 <- draw_g2 ;;
  rret (AwGk g1 g2).

(** [authgen]; aw11/mod.rs:121-150. *)
Definition aw_authgen (gk : aw_gk) (attributes : list string)
  : rand (F C) (option (aw_pk * aw_msk)) :=
  match attributes with
  | [] => rret None
  | _ =>
    l <- rmap (fun attr =>
      let name := upper C attr in
      alpha_i <- draw ;;
      y_i <- draw ;;
      rret ((name, alpha_i, y_i),
            (name, gtpow C (pairing C (agk_g1 gk) (agk_g2 gk)) alpha_i, g2mul C (agk_g2 gk) y_i)))
      attributes ;;
    rret (Some (AwPk (map snd l), AwMsk (map fst l)))
  end.

(** [add_to_attribute]; aw11/mod.rs:200-231.  Returns the extended key. *)
Definition aw_add (gk : aw_gk) (msk : aw_msk) (attribute : string) (sk : aw_sk) : outcome aw_sk :=
  if seqb attribute "" then Err
  else if seqb (awsk_gid sk) "" then Err
  else
    obind (sha3_hash_g1 (agk_g1 gk) (awsk_gid sk)) (fun hash =>
    obind (unwrap (find (fun a => seqb (n3 a) attribute) (amsk_attr msk))) (fun a =>
    Ok (AwSk (awsk_gid sk)
          (awsk_attr sk ++ [(upper C (n3 a),
             g1add C (g1mul C (agk_g1 gk) (snd (fst a))) (g1mul C hash (snd a)))])))).

(** [keygen]; aw11/mod.rs:165-190.  It draws nothing. *)
Definition aw_keygen (gk : aw_gk) (msk : aw_msk) (name : string) (attributes : list string)
  : outcome aw_sk :=
  match attributes with
  | [] => Err
  | _ =>
    if seqb name "" then Err
    else ofold (fun sk a => aw_add gk msk a sk) attributes (AwSk name [])
  end.

(** [find_pk_attr]; aw11/mod.rs:374-390. *)
Fixpoint find_pk_attr (pks : list aw_pk) (attr : string) : option (string * GT C * G2 C) :=
  match pks with
  | [] => None
  | pk :: r =>
    match find (fun x => seqb (n3 x) attr) (apk_attr pk) with
    | Some x => Some x
    | None => find_pk_attr r attr
    end
  end.

(** One round of the loop at aw11/mod.rs:266-281.  [_r_x] is drawn before the
    lookup, and a missing public key only skips the entry. *)
Definition aw_entry (gk : aw_gk) (pks : list aw_pk) (w_shares : list (string * F C))
  (i : nat) (share : string * F C) : rand (F C) (list (string * GT C * G2 C * G2 C)) :=
  r_x <- draw ;;
  match find_pk_attr pks (remove_index (upper C (fst share))) with
  | None => rret []
  | Some a =>
    w <- rlift (unwrap (nth_error w_shares i)) ;;
    rret [(upper C (fst share),
           gtmul C (gtpow C (pairing C (agk_g1 gk) (agk_g2 gk)) (snd share)) (gtpow C (snd (fst a)) r_x),
           g2mul C (agk_g2 gk) r_x,
           g2add C (g2mul C (snd a) r_x) (g2mul C (agk_g2 gk) (snd w)))]
  end.

(** [encrypt]; aw11/mod.rs:241-289. The span program is computed (and may
    panic) but is not used. *)
Definition aw_encrypt (nonce : string) (gk : aw_gk) (pks : list aw_pk) (policy : string)
  (lang : language) (data : string) : rand (F C) aw_ct :=
  pol <- rlift (parse policy lang) ;;
  msp <- rlift (unwrap_res (calculate_msp pol)) ;;
  _ <- rlift (unwrap (nth_error (msp_m msp) 0)) ;;
  s <- draw ;;
  s_shares <- gen_shares_policy s pol None ;;
  w_shares <- gen_shares_policy (f0 C) pol None ;;
  msg <- draw_gt ;;
  let c_0 := gtmul C msg (gtpow C (pairing C (agk_g1 gk) (agk_g2 gk)) s) in
  c <- rmap (fun ix => aw_entry gk pks w_shares (fst ix) (snd ix))
         (combine (seq 0 (length s_shares)) s_shares) ;;
  ct <- rlift (encrypt_symmetric nonce msg data) ;;
  rret (AwCt (policy, lang) c_0 (concat c) ct).

(** One round of the loop at aw11/mod.rs:328-351. *)
Definition aw_step (sk : aw_sk) (ct : aw_ct) (coeff : list (string * F C)) (hash : G1 C)
  (egg_s : GT C) (current : string * string) : outcome (GT C) :=
  obind (unwrap (find (fun a => seqb (fst a) (fst current)) (awsk_attr sk))) (fun sk_attr =>
  obind (unwrap (find (fun a => seqb (n4 a) (snd current)) (awct_c ct))) (fun ct_attr =>
  let num := gtmul C (snd (fst (fst ct_attr))) (pairing C hash (snd ct_attr)) in
  let dem := pairing C (snd sk_attr) (snd (fst ct_attr)) in
  obind (unwrap (find (fun c => seqb (fst c) (snd current)) coeff)) (fun c =>
  Ok (gtmul C egg_s (gtpow C (gtmul C num (gtinv C dem)) (snd c)))))).

(** [decrypt]; aw11/mod.rs:298-366. *)
Definition aw_decrypt (gk : aw_gk) (sk : aw_sk) (ct : aw_ct) : outcome string :=
  let str_attr := map fst (awsk_attr sk) in
  obind (parse (fst (awct_policy ct)) (snd (awct_policy ct))) (fun pol =>
  if traverse_policy str_attr pol Leaf then
    obind (calc_pruned str_attr pol None) (fun p =>
    obind (calc_coefficients pol (f1 C) [] None) (fun o =>
    obind (unwrap o) (fun coeff =>
    if fst p then
      obind (sha3_hash_g1 (agk_g1 gk) (awsk_gid sk)) (fun hash =>
      obind (ofold (aw_step sk ct coeff hash) (snd p) (gtone C)) (fun egg_s =>
      decrypt_symmetric (gtmul C (awct_c0 ct) (gtinv C egg_s)) (awct_data ct)))
    else Err)))
  else Err).

End Aw11.
Arguments aw_gk C : clear implicits.
Arguments aw_pk C : clear implicits.
Arguments aw_msk C : clear implicits.
Arguments aw_ct C : clear implicits.
Arguments aw_sk C : clear implicits.
