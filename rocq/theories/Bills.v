(** * Bills: the same programs run on elements that carry a bill

    Nothing here is in /repo.  [tally C] has the operations of [C], but every
    group element remembers how many pairings and how many multiplications by a
    scalar (powers, in [Gt]) it was made with.  Its cipher does not hide
    anything: what it seals and opens is the bill of the key.  A decryption of
    the model, run in [tally C] on keys and ciphertexts with empty bills,
    answers with the bill of the payload key it computes.  A value that is used
    twice is billed twice. *)
From Coq Require Import String List Arith.
From Verif Require Import Base Crypto Symmetric Bdabe Mke08 Bsw Ghw11 Lsw Yct14 Ac17 Aw11.
Import ListNotations.

(** What an element costs; not in /repo. *)
Definition bill (pairings powers : nat) : string :=
  (dec pairings ++ " pairings, " ++ dec powers ++ " powers")%string.

(** The counting operations; not in /repo. *)
Definition tally (C : crypto) : crypto := {|
  F := F C; f0 := f0 C; f1 := f1 C; fadd := fadd C; fmul := fmul C; fsub := fsub C;
  fopp := fopp C; finv := finv C; feqb := feqb C;
  G1 := G1 C * nat; g1one := (g1one C, 0); g1zero := (g1zero C, 0);
  g1add := fun a b => (g1add C (fst a) (fst b), snd a + snd b);
  g1neg := fun a => (g1neg C (fst a), snd a);
  g1mul := fun a x => (g1mul C (fst a) x, S (snd a));
  G2 := G2 C * nat; g2one := (g2one C, 0); g2zero := (g2zero C, 0);
  g2add := fun a b => (g2add C (fst a) (fst b), snd a + snd b);
  g2neg := fun a => (g2neg C (fst a), snd a);
  g2mul := fun a x => (g2mul C (fst a) x, S (snd a));
  GT := GT C * (nat * nat); gtone := (gtone C, (0, 0));
  gtmul := fun a b => (gtmul C (fst a) (fst b),
                       (fst (snd a) + fst (snd b), snd (snd a) + snd (snd b)));
  gtinv := fun a => (gtinv C (fst a), snd a);
  gtpow := fun a x => (gtpow C (fst a) x, (fst (snd a), S (snd (snd a))));
  pairing := fun a b => (pairing C (fst a) (fst b), (1, snd a + snd b));
  hash := hash C;
  kdf := fun k => bill (fst (snd k)) (snd (snd k));
  aead_enc := fun k _ _ => k;
  aead_dec := fun k _ _ => Some k;
  upper := upper C |}.

Section Given.
Context {C : crypto}.
Notation T := (tally C).

(** An element that was there before, with an empty bill; not in /repo. *)
Definition e1 (a : G1 C) : G1 T := (a, 0).
(** The same; not in /repo. *)
Definition e2 (a : G2 C) : G2 T := (a, 0).
(** The same; not in /repo. *)
Definition eT (a : GT C) : GT T := (a, (0, 0)).

(** ** The keys and ciphertexts of the schemes with empty bills
    The functions are not in /repo; cited are the types. *)
(** [CpAbeAttribute]; /repo/src/schemes/bsw/mod.rs:85-89. *)
Definition t_battr (x : battr C) : battr T := BAttr (b_string x) (e1 (b_g1 x)) (e2 (b_g2 x)).
(** [CpAbeSecretKey]; /repo/src/schemes/bsw/mod.rs:76-79. *)
Definition t_bsw_sk (k : bsw_sk C) : bsw_sk T := BswSk (e2 (bsk_d k)) (map t_battr (bsk_dj k)).
(** [CpAbeCiphertext]; /repo/src/schemes/bsw/mod.rs:64-70. *)
Definition t_bsw_ct (c : bsw_ct C) : bsw_ct T :=
  BswCt (bct_policy c) (e1 (bct_c c)) (eT (bct_cp c)) (map t_battr (bct_cy c)) (bct_data c).

(** [Ghw11TransformKey]; /repo/src/schemes/ghw11/mod.rs:61-65. *)
Definition t_ghw_tk (k : ghw_tk C) : ghw_tk T :=
  GhwTk (e2 (gtk_k k)) (e2 (gtk_l k)) (map (fun a => (fst a, e2 (snd a))) (gtk_attr k)).
(** [Ghw11Ciphertext]; /repo/src/schemes/ghw11/mod.rs:77-83. *)
Definition t_ghw_ct (c : ghw_ct C) : ghw_ct T :=
  GhwCt (gct_policy c) (eT (gct_c c)) (e1 (gct_c1 c))
        (map (fun a => (fst a, (e1 (fst (snd a)), e1 (snd (snd a))))) (gct_cidi c)) (gct_data c).
(** [Ghw11TransformCiphertext]; /repo/src/schemes/ghw11/mod.rs:88-91. *)
Definition t_ghw_tct (c : ghw_tct C) : ghw_tct T := GhwTct (eT (gtct_c c)) (eT (gtct_t c)).

(** An entry of [KpAbeSecretKey::dj]; /repo/src/schemes/lsw/mod.rs:71. *)
Definition t_lsw_dj (d : lsw_dj C) : lsw_dj T :=
  LswDj (ld_name d) (e1 (ld_1 d)) (e2 (ld_2 d)) (e1 (ld_3 d)) (e1 (ld_4 d)) (e1 (ld_5 d)).
(** [KpAbeSecretKey]; /repo/src/schemes/lsw/mod.rs:69-72. *)
Definition t_lsw_sk (k : lsw_sk C) : lsw_sk T := LswSk (lsk_policy k) (map t_lsw_dj (lsk_dj k)).
(** An entry of [KpAbeCiphertext::ej]; /repo/src/schemes/lsw/mod.rs:81. *)
Definition t_lsw_ej (e : lsw_ej C) : lsw_ej T := LswEj (le_name e) (e1 (le_1 e)) (e1 (le_2 e)) (e1 (le_3 e)).
(** [KpAbeCiphertext]; /repo/src/schemes/lsw/mod.rs:78-83. *)
Definition t_lsw_ct (c : lsw_ct C) : lsw_ct T :=
  LswCt (eT (lct_e1 c)) (e2 (lct_e2 c)) (map t_lsw_ej (lct_ej c)) (lct_ct c).

(** [Yct14Type]; /repo/src/schemes/yct14/mod.rs:61-64. *)
Definition t_yct_type (x : yct_type C) : yct_type T :=
  match x with YPub g => YPub (eT g) | YPriv s => @YPriv T s end.
(** [Yct14Attribute]; /repo/src/schemes/yct14/mod.rs:51-56. *)
Definition t_yct_attr (a : yct_attr C) : yct_attr T := YAttr (y_name a) (option_map t_yct_type (y_node a)).
(** [Yct14AbePublicKey]; /repo/src/schemes/yct14/mod.rs:142-145. *)
Definition t_yct_pk (k : yct_pk C) : yct_pk T := YctPk (eT (ypk_g k)) (map t_yct_attr (ypk_attrs k)).
(** [Yct14AbeSecretKey]; /repo/src/schemes/yct14/mod.rs:175-178. *)
Definition t_yct_sk (k : yct_sk C) : yct_sk T := YctSk (ysk_policy k) (map t_yct_attr (ysk_du k)).
(** [Yct14AbeCiphertext]; /repo/src/schemes/yct14/mod.rs:199-202. *)
Definition t_yct_ct (c : yct_ct C) : yct_ct T := YctCt (map t_yct_attr (yct_attrs c)) (yct_data c).

(** [Ac17Ciphertext]; /repo/src/schemes/ac17/mod.rs:84-89. *)
Definition t_ac_ct (c : ac_ct C) : ac_ct T :=
  AcCt (map e2 (act_c0 c)) (map (fun a => (fst a, map e1 (snd a))) (act_c c)) (eT (act_cp c)) (act_ct c).
(** [Ac17SecretKey]; /repo/src/schemes/ac17/mod.rs:113-117. *)
Definition t_ac_sk (k : ac_sk C) : ac_sk T :=
  AcSk (map e2 (ask_k0 k)) (map (fun a => (fst a, map e1 (snd a))) (ask_k k)) (map e1 (ask_kp k)).
(** [Ac17CpSecretKey]; /repo/src/schemes/ac17/mod.rs:132-135. *)
Definition t_cp_sk (k : ac_cpsk C) : ac_cpsk T := AcCpSk (acps_attr k) (t_ac_sk (acps_sk k)).
(** [Ac17CpCiphertext]; /repo/src/schemes/ac17/mod.rs:95-98. *)
Definition t_cp_ct (c : ac_cpct C) : ac_cpct T := AcCpCt (acp_policy c) (t_ac_ct (acp_ct c)).
(** [Ac17KpSecretKey]; /repo/src/schemes/ac17/mod.rs:123-126. *)
Definition t_kp_sk (k : ac_kpsk C) : ac_kpsk T := AcKpSk (akps_policy k) (t_ac_sk (akps_sk k)).
(** [Ac17KpCiphertext]; /repo/src/schemes/ac17/mod.rs:104-107. *)
Definition t_kp_ct (c : ac_kpct C) : ac_kpct T := AcKpCt (akp_attr c) (t_ac_ct (akp_ct c)).

(** [Aw11GlobalKey]; /repo/src/schemes/aw11/mod.rs:48-51. *)
Definition t_aw_gk (k : aw_gk C) : aw_gk T := AwGk (e1 (agk_g1 k)) (e2 (agk_g2 k)).
(** [Aw11SecretKey]; /repo/src/schemes/aw11/mod.rs:83-89. *)
Definition t_aw_sk (k : aw_sk C) : aw_sk T :=
  AwSk (awsk_gid k) (map (fun a => (fst a, e1 (snd a))) (awsk_attr k)).
(** [Aw11Ciphertext]; /repo/src/schemes/aw11/mod.rs:72-80. *)
Definition t_aw_ct (c : aw_ct C) : aw_ct T :=
  AwCt (awct_policy c) (eT (awct_c0 c))
       (map (fun a => (fst (fst (fst a)), eT (snd (fst (fst a))), e2 (snd (fst a)), e2 (snd a))) (awct_c c))
       (awct_data c).

(** [BdabePublicUserKey]; /repo/src/schemes/bdabe/mod.rs:79-83. *)
Definition t_bd_upk (k : bd_upk C) : bd_upk T := BdUpk (bupk_u k) (e1 (bupk_u1 k)) (e2 (bupk_u2 k)).
(** [BdabeUserKey]; /repo/src/schemes/bdabe/mod.rs:69-73. *)
Definition t_bd_uk (k : bd_uk C) : bd_uk T :=
  BdUk (BdUsk (e1 (busk_u1 (buk_sk k))) (e2 (busk_u2 (buk_sk k)))) (t_bd_upk (buk_pk k))
       (map (fun a => BdAsk (bask_attr a) (e1 (bask_au1 a)) (e2 (bask_au2 a))) (buk_ska k)).
(** [BdabeCiphertextTuple]; /repo/src/schemes/bdabe/mod.rs:130-137. *)
Definition t_bd_tuple (t : bd_tuple C) : bd_tuple T :=
  BdTuple (bt_attr t) (eT (bt_e1 t)) (e1 (bt_e2 t)) (e2 (bt_e3 t)) (e1 (bt_e4 t)) (e2 (bt_e5 t)).
(** [BdabeCiphertext]; /repo/src/schemes/bdabe/mod.rs:143-147. *)
Definition t_bd_ct (c : bd_ct C) : bd_ct T :=
  BdCt (Bdabe.bct_policy c) (map t_bd_tuple (Bdabe.bct_j c)) (Bdabe.bct_data c).

(** [Mke08PublicUserKey]; /repo/src/schemes/mke08/mod.rs:86-90. *)
Definition t_mk_upk (k : mk_upk C) : mk_upk T := MkUpk (mupk_name k) (e1 (mupk_g1 k)) (e2 (mupk_g2 k)).
(** [Mke08UserKey]; /repo/src/schemes/mke08/mod.rs:76-80. *)
Definition t_mk_uk (k : mk_uk C) : mk_uk T :=
  MkUk (MkUsk (e1 (musk_g1 (muk_sk k))) (e2 (musk_g2 (muk_sk k)))) (t_mk_upk (muk_pk k))
       (map (fun a => MkAsk (mask_attr a) (e1 (mask_g1 a)) (e2 (mask_g2 a))) (muk_ska k)).
(** [Mke08CTConjunction]; /repo/src/schemes/mke08/mod.rs:146-154. *)
Definition t_mk_conj (t : mk_conj C) : mk_conj T :=
  MkConj (mj_str t) (eT (mj_1 t)) (eT (mj_2 t)) (e1 (mj_3 t)) (e2 (mj_4 t)) (e1 (mj_5 t)) (e2 (mj_6 t)).
(** [Mke08Ciphertext]; /repo/src/schemes/mke08/mod.rs:136-140. *)
Definition t_mk_ct (c : mk_ct C) : mk_ct T := MkCt (mct_policy c) (map t_mk_conj (mct_e c)) (mct_data c).

End Given.
