(** * SerdeLayout: what every key and ciphertext looks like in serde's data model

    The statements were written down from the struct definitions in /repo, field by field. *)
From Coq Require Import String Ascii List Bool Arith NArith.
From Verif Require Import Base Crypto Policy Borsh Serde SerdeProofs SerdeTypes.
From Verif Require Bsw Ghw11 Lsw Yct14 Ac17 Aw11 Bdabe Mke08.
Import ListNotations.
Local Open Scope string_scope.

(** ** Specification *)

(** A struct: its values under its field names, or under the numbers of the fields from 0 on. *)
Fixpoint under_numbers (i : N) (l : list (string * val)) : list (val * val) :=
  match l with [] => [] | e :: l => (VU i, snd e) :: under_numbers (i + 1) l end.
Definition written (M : mode) (l : list (string * val)) : val :=
  VMap (if packed M then under_numbers 0 l else map (fun e => (VText (fst e), snd e)) l).
(** A variant without value, and one with a value. *)
Definition unit_variant (M : mode) (i : nat) (name : string) : val :=
  if packed M then VU (N.of_nat i) else VText name.
Definition one_variant (M : mode) (i : N) (name : string) (v : val) : val :=
  VMap [(if var_number M then VU i else VText name, v)].

Section Layout.
Context {C : crypto} (W : swire C) (M : mode).

Ltac lay := unfold written, unit_variant, one_variant; destruct M as [[] [] []]; intros k; first [reflexivity | destruct k; reflexivity].

Lemma lay_cidi l : map (ser (s_cidi W)) l =
  map (fun y => VArr [VText (fst y); ser (sw_1 W) (fst (snd y)); ser (sw_1 W) (snd (snd y))]) l.
Proof. apply map_ext. intros [n [c d]]. reflexivity. Qed.

(** [CpAbePublicKey] *)
Lemma lay_s_bsw_pk : forall k : Bsw.bsw_pk C, ser (s_bsw_pk W M) k = written M
      [("g1", ser (sw_1 W) (Bsw.bpk_g1 k));
       ("g2", ser (sw_2 W) (Bsw.bpk_g2 k));
       ("h", ser (sw_1 W) (Bsw.bpk_h k));
       ("f", ser (sw_2 W) (Bsw.bpk_f k));
       ("e_gg_alpha", ser (sw_t W) (Bsw.bpk_egg k))].
Proof. lay. Qed.
(** [CpAbeMasterKey] *)
Lemma lay_s_bsw_msk : forall k : Bsw.bsw_msk C, ser (s_bsw_msk W M) k = written M
      [("beta", ser (sw_f W) (Bsw.bmsk_beta k));
       ("g2_alpha", ser (sw_2 W) (Bsw.bmsk_g2a k))].
Proof. lay. Qed.
(** [CpAbeCiphertext] *)
Lemma lay_s_bsw_ct : forall k : Bsw.bsw_ct C, ser (s_bsw_ct W M) k = written M
      [("policy", VArr [VText (fst (Bsw.bct_policy k)); match snd (Bsw.bct_policy k) with JsonPolicy => unit_variant M 0 "JsonPolicy" | HumanPolicy => unit_variant M 1 "HumanPolicy" end]);
       ("c", ser (sw_1 W) (Bsw.bct_c k));
       ("c_p", ser (sw_t W) (Bsw.bct_cp k));
       ("c_y", VArr (map (fun x1 => ser (s_battr W M) (x1)) (Bsw.bct_cy k)));
       ("data", VArr (map (fun b => VU (N_of_ascii b)) (list_ascii_of_string (Bsw.bct_data k))))].
Proof. lay. Qed.
(** [CpAbeSecretKey] *)
Lemma lay_s_bsw_sk : forall k : Bsw.bsw_sk C, ser (s_bsw_sk W M) k = written M
      [("d", ser (sw_2 W) (Bsw.bsk_d k));
       ("d_j", VArr (map (fun x2 => ser (s_battr W M) (x2)) (Bsw.bsk_dj k)))].
Proof. lay. Qed.
(** [CpAbeAttribute] *)
Lemma lay_s_battr : forall k : Bsw.battr C, ser (s_battr W M) k = written M
      [("string", VText (Bsw.b_string k));
       ("g1", ser (sw_1 W) (Bsw.b_g1 k));
       ("g2", ser (sw_2 W) (Bsw.b_g2 k))].
Proof. lay. Qed.

(** [Ghw11PublicKey] *)
Lemma lay_s_ghw_pk : forall k : Ghw11.ghw_pk C, ser (s_ghw_pk W M) k = written M
      [("g1", ser (sw_1 W) (Ghw11.gpk_g1 k));
       ("g2", ser (sw_2 W) (Ghw11.gpk_g2 k));
       ("g1_a", ser (sw_1 W) (Ghw11.gpk_g1a k));
       ("g2_a", ser (sw_2 W) (Ghw11.gpk_g2a k));
       ("e_gg_alpha", ser (sw_t W) (Ghw11.gpk_egg k))].
Proof. lay. Qed.
(** [Ghw11MasterKey] *)
Lemma lay_s_ghw_msk : forall k : Ghw11.ghw_msk C, ser (s_ghw_msk W M) k = written M
      [("g2_alpha", ser (sw_2 W) (Ghw11.gmsk_g2al k));
       ("pk", ser (s_ghw_pk W M) (Ghw11.gmsk_pk k))].
Proof. lay. Qed.
(** [Ghw11SecretKey] *)
Lemma lay_s_ghw_sk : forall k : Ghw11.ghw_sk C, ser (s_ghw_sk W M) k = written M
      [("k", ser (sw_2 W) (Ghw11.gsk_k k));
       ("l", ser (sw_2 W) (Ghw11.gsk_l k));
       ("attr_key", VArr (map (fun x3 => ser (s_ghw_attr W M) (x3)) (Ghw11.gsk_attr k)))].
Proof. lay. Qed.
(** [Ghw11Attribute] *)
Lemma lay_s_ghw_attr : forall k : string * G2 C, ser (s_ghw_attr W M) k = written M
      [("string", VText (fst k));
       ("k_x", ser (sw_2 W) (snd k))].
Proof. lay. Qed.
(** [Ghw11TransformKey] *)
Lemma lay_s_ghw_tk : forall k : Ghw11.ghw_tk C, ser (s_ghw_tk W M) k = written M
      [("k_z", ser (sw_2 W) (Ghw11.gtk_k k));
       ("l_z", ser (sw_2 W) (Ghw11.gtk_l k));
       ("attr_key_z", VArr (map (fun x4 => ser (s_ghw_attr W M) (x4)) (Ghw11.gtk_attr k)))].
Proof. lay. Qed.
(** [Ghw11RetrieveKey] *)
Lemma lay_s_ghw_rk : forall k : F C, ser (s_ghw_rk W M) k = written M
      [("z", ser (sw_f W) (k))].
Proof. lay. Qed.
(** [Ghw11Ciphertext] *)
Lemma lay_s_ghw_ct : forall k : Ghw11.ghw_ct C, ser (s_ghw_ct W M) k = written M
      [("policy", VArr [VText (fst (Ghw11.gct_policy k)); match snd (Ghw11.gct_policy k) with JsonPolicy => unit_variant M 0 "JsonPolicy" | HumanPolicy => unit_variant M 1 "HumanPolicy" end]);
       ("c", ser (sw_t W) (Ghw11.gct_c k));
       ("c1", ser (sw_1 W) (Ghw11.gct_c1 k));
       ("ci_di", VArr (map (fun y => VArr [VText (fst y); ser (sw_1 W) (fst (snd y)); ser (sw_1 W) (snd (snd y))]) (Ghw11.gct_cidi k)));
       ("data", VArr (map (fun b => VU (N_of_ascii b)) (list_ascii_of_string (Ghw11.gct_data k))))].
Proof. intros k. rewrite <- lay_cidi. revert k. lay. Qed.
(** [Ghw11TransformCiphertext] *)
Lemma lay_s_ghw_tct : forall k : Ghw11.ghw_tct C, ser (s_ghw_tct W M) k = written M
      [("c", ser (sw_t W) (Ghw11.gtct_c k));
       ("t", ser (sw_t W) (Ghw11.gtct_t k))].
Proof. lay. Qed.

(** [KpAbePublicKey] *)
Lemma lay_s_lsw_pk : forall k : Lsw.lsw_pk C, ser (s_lsw_pk W M) k = written M
      [("g1", ser (sw_1 W) (Lsw.lpk_g1 k));
       ("g2", ser (sw_2 W) (Lsw.lpk_g2 k));
       ("g1_b", ser (sw_1 W) (Lsw.lpk_g1b k));
       ("g1_b2", ser (sw_1 W) (Lsw.lpk_g1b2 k));
       ("h_b", ser (sw_1 W) (Lsw.lpk_hb k));
       ("e_gg_alpha", ser (sw_t W) (Lsw.lpk_egg k))].
Proof. lay. Qed.
(** [KpAbeMasterKey] *)
Lemma lay_s_lsw_msk : forall k : Lsw.lsw_msk C, ser (s_lsw_msk W M) k = written M
      [("alpha1", ser (sw_f W) (Lsw.lmsk_alpha1 k));
       ("alpha2", ser (sw_f W) (Lsw.lmsk_alpha2 k));
       ("b", ser (sw_f W) (Lsw.lmsk_b k));
       ("h_g1", ser (sw_1 W) (Lsw.lmsk_hg1 k));
       ("h_g2", ser (sw_2 W) (Lsw.lmsk_hg2 k))].
Proof. lay. Qed.
(** [KpAbeSecretKey] *)
Lemma lay_s_lsw_sk : forall k : Lsw.lsw_sk C, ser (s_lsw_sk W M) k = written M
      [("policy", VArr [VText (fst (Lsw.lsk_policy k)); match snd (Lsw.lsk_policy k) with JsonPolicy => unit_variant M 0 "JsonPolicy" | HumanPolicy => unit_variant M 1 "HumanPolicy" end]);
       ("dj", VArr (map (fun y => VArr [VText (Lsw.ld_name y); ser (sw_1 W) (Lsw.ld_1 y); ser (sw_2 W) (Lsw.ld_2 y); ser (sw_1 W) (Lsw.ld_3 y); ser (sw_1 W) (Lsw.ld_4 y); ser (sw_1 W) (Lsw.ld_5 y)]) (Lsw.lsk_dj k)))].
Proof. lay. Qed.
(** [KpAbeCiphertext] *)
Lemma lay_s_lsw_ct : forall k : Lsw.lsw_ct C, ser (s_lsw_ct W M) k = written M
      [("e1", ser (sw_t W) (Lsw.lct_e1 k));
       ("e2", ser (sw_2 W) (Lsw.lct_e2 k));
       ("ej", VArr (map (fun y => VArr [VText (Lsw.le_name y); ser (sw_1 W) (Lsw.le_1 y); ser (sw_1 W) (Lsw.le_2 y); ser (sw_1 W) (Lsw.le_3 y)]) (Lsw.lct_ej k)));
       ("ct", VArr (map (fun b => VU (N_of_ascii b)) (list_ascii_of_string (Lsw.lct_ct k))))].
Proof. lay. Qed.

(** [Yct14Type] *)
Lemma lay_s_ytype : forall k : Yct14.yct_type C, ser (s_ytype W M) k = match k with
      | Yct14.YPub x => one_variant M 0 "Public" (ser (sw_t W) x)
      | Yct14.YPriv x => one_variant M 1 "Private" (ser (sw_f W) x) end.
Proof. lay. Qed.
(** [Yct14Attribute] *)
Lemma lay_s_yattr : forall k : Yct14.yct_attr C, ser (s_yattr W M) k = match Yct14.y_node k with
      | Some x => written M [("name", VText (Yct14.y_name k)); ("node", ser (s_ytype W M) x)]
      | None => written M (("name", VText (Yct14.y_name k)) :: if skip_none M then [] else [("node", VNull)]) end.
Proof. unfold written; destruct M as [[] [] []]; intros [n [x|]]; reflexivity. Qed.
(** [Yct14AbePublicKey] *)
Lemma lay_s_yct_pk : forall k : Yct14.yct_pk C, ser (s_yct_pk W M) k = written M
      [("g", ser (sw_t W) (Yct14.ypk_g k));
       ("attributes", VArr (map (fun x5 => ser (s_yattr W M) (x5)) (Yct14.ypk_attrs k)))].
Proof. lay. Qed.
(** [Yct14AbeMasterKey] *)
Lemma lay_s_yct_msk : forall k : Yct14.yct_msk C, ser (s_yct_msk W M) k = written M
      [("s", ser (sw_f W) (Yct14.ymsk_s k));
       ("attributes", VArr (map (fun x6 => ser (s_yattr W M) (x6)) (Yct14.ymsk_attrs k)))].
Proof. lay. Qed.
(** [Yct14AbeSecretKey] *)
Lemma lay_s_yct_sk : forall k : Yct14.yct_sk C, ser (s_yct_sk W M) k = written M
      [("policy", VArr [VText (fst (Yct14.ysk_policy k)); match snd (Yct14.ysk_policy k) with JsonPolicy => unit_variant M 0 "JsonPolicy" | HumanPolicy => unit_variant M 1 "HumanPolicy" end]);
       ("du", VArr (map (fun x7 => ser (s_yattr W M) (x7)) (Yct14.ysk_du k)))].
Proof. lay. Qed.
(** [Yct14AbeCiphertext] *)
Lemma lay_s_yct_ct : forall k : Yct14.yct_ct C, ser (s_yct_ct W M) k = written M
      [("attributes", VArr (map (fun x8 => ser (s_yattr W M) (x8)) (Yct14.yct_attrs k)));
       ("ct", VArr (map (fun b => VU (N_of_ascii b)) (list_ascii_of_string (Yct14.yct_data k))))].
Proof. lay. Qed.

(** [Ac17PublicKey] *)
Lemma lay_s_ac_pk : forall k : Ac17.ac_pk C, ser (s_ac_pk W M) k = written M
      [("g", ser (sw_1 W) (Ac17.apk_g k));
       ("h_a", VArr (map (fun x9 => ser (sw_2 W) (x9)) (Ac17.apk_ha k)));
       ("e_gh_ka", VArr (map (fun x10 => ser (sw_t W) (x10)) (Ac17.apk_egh k)))].
Proof. lay. Qed.
(** [Ac17MasterKey] *)
Lemma lay_s_ac_msk : forall k : Ac17.ac_msk C, ser (s_ac_msk W M) k = written M
      [("g", ser (sw_1 W) (Ac17.amsk_g k));
       ("h", ser (sw_2 W) (Ac17.amsk_h k));
       ("g_k", VArr (map (fun x11 => ser (sw_1 W) (x11)) (Ac17.amsk_gk k)));
       ("a", VArr (map (fun x12 => ser (sw_f W) (x12)) (Ac17.amsk_a k)));
       ("b", VArr (map (fun x13 => ser (sw_f W) (x13)) (Ac17.amsk_b k)))].
Proof. lay. Qed.
(** [Ac17Ciphertext] *)
Lemma lay_s_ac_ct : forall k : Ac17.ac_ct C, ser (s_ac_ct W M) k = written M
      [("c_0", VArr (map (fun x14 => ser (sw_2 W) (x14)) (Ac17.act_c0 k)));
       ("c", VArr (map (fun x15 => VArr [VText (fst (x15)); VArr (map (fun x16 => ser (sw_1 W) (x16)) (snd (x15)))]) (Ac17.act_c k)));
       ("c_p", ser (sw_t W) (Ac17.act_cp k));
       ("ct", VArr (map (fun b => VU (N_of_ascii b)) (list_ascii_of_string (Ac17.act_ct k))))].
Proof. lay. Qed.
(** [Ac17CpCiphertext] *)
Lemma lay_s_ac_cpct : forall k : Ac17.ac_cpct C, ser (s_ac_cpct W M) k = written M
      [("policy", VArr [VText (fst (Ac17.acp_policy k)); match snd (Ac17.acp_policy k) with JsonPolicy => unit_variant M 0 "JsonPolicy" | HumanPolicy => unit_variant M 1 "HumanPolicy" end]);
       ("ct", ser (s_ac_ct W M) (Ac17.acp_ct k))].
Proof. lay. Qed.
(** [Ac17KpCiphertext] *)
Lemma lay_s_ac_kpct : forall k : Ac17.ac_kpct C, ser (s_ac_kpct W M) k = written M
      [("attr", VArr (map (fun x17 => VText (x17)) (Ac17.akp_attr k)));
       ("ct", ser (s_ac_ct W M) (Ac17.akp_ct k))].
Proof. lay. Qed.
(** [Ac17SecretKey] *)
Lemma lay_s_ac_sk : forall k : Ac17.ac_sk C, ser (s_ac_sk W M) k = written M
      [("k_0", VArr (map (fun x18 => ser (sw_2 W) (x18)) (Ac17.ask_k0 k)));
       ("k", VArr (map (fun x19 => VArr [VText (fst (x19)); VArr (map (fun x20 => ser (sw_1 W) (x20)) (snd (x19)))]) (Ac17.ask_k k)));
       ("k_p", VArr (map (fun x21 => ser (sw_1 W) (x21)) (Ac17.ask_kp k)))].
Proof. lay. Qed.
(** [Ac17KpSecretKey] *)
Lemma lay_s_ac_kpsk : forall k : Ac17.ac_kpsk C, ser (s_ac_kpsk W M) k = written M
      [("policy", VArr [VText (fst (Ac17.akps_policy k)); match snd (Ac17.akps_policy k) with JsonPolicy => unit_variant M 0 "JsonPolicy" | HumanPolicy => unit_variant M 1 "HumanPolicy" end]);
       ("sk", ser (s_ac_sk W M) (Ac17.akps_sk k))].
Proof. lay. Qed.
(** [Ac17CpSecretKey] *)
Lemma lay_s_ac_cpsk : forall k : Ac17.ac_cpsk C, ser (s_ac_cpsk W M) k = written M
      [("attr", VArr (map (fun x22 => VText (x22)) (Ac17.acps_attr k)));
       ("sk", ser (s_ac_sk W M) (Ac17.acps_sk k))].
Proof. lay. Qed.

(** [Aw11GlobalKey] *)
Lemma lay_s_aw_gk : forall k : Aw11.aw_gk C, ser (s_aw_gk W M) k = written M
      [("g1", ser (sw_1 W) (Aw11.agk_g1 k));
       ("g2", ser (sw_2 W) (Aw11.agk_g2 k))].
Proof. lay. Qed.
(** [Aw11PublicKey] *)
Lemma lay_s_aw_pk : forall k : Aw11.aw_pk C, ser (s_aw_pk W M) k = written M
      [("attr", VArr (map (fun x23 => VArr [VText (fst (fst (x23))); ser (sw_t W) (snd (fst (x23))); ser (sw_2 W) (snd (x23))]) (Aw11.apk_attr k)))].
Proof. lay. Qed.
(** [Aw11MasterKey] *)
Lemma lay_s_aw_msk : forall k : Aw11.aw_msk C, ser (s_aw_msk W M) k = written M
      [("attr", VArr (map (fun x24 => VArr [VText (fst (fst (x24))); ser (sw_f W) (snd (fst (x24))); ser (sw_f W) (snd (x24))]) (Aw11.amsk_attr k)))].
Proof. lay. Qed.
(** [Aw11Ciphertext] *)
Lemma lay_s_aw_ct : forall k : Aw11.aw_ct C, ser (s_aw_ct W M) k = written M
      [("policy", VArr [VText (fst (Aw11.awct_policy k)); match snd (Aw11.awct_policy k) with JsonPolicy => unit_variant M 0 "JsonPolicy" | HumanPolicy => unit_variant M 1 "HumanPolicy" end]);
       ("c_0", ser (sw_t W) (Aw11.awct_c0 k));
       ("c", VArr (map (fun x25 => VArr [VText (fst (fst (fst (x25)))); ser (sw_t W) (snd (fst (fst (x25)))); ser (sw_2 W) (snd (fst (x25))); ser (sw_2 W) (snd (x25))]) (Aw11.awct_c k)));
       ("ct", VArr (map (fun b => VU (N_of_ascii b)) (list_ascii_of_string (Aw11.awct_data k))))].
Proof. lay. Qed.
(** [Aw11SecretKey] *)
Lemma lay_s_aw_sk : forall k : Aw11.aw_sk C, ser (s_aw_sk W M) k = written M
      [("gid", VText (Aw11.awsk_gid k));
       ("attr", VArr (map (fun x26 => VArr [VText (fst (x26)); ser (sw_1 W) (snd (x26))]) (Aw11.awsk_attr k)))].
Proof. lay. Qed.

(** [BdabePublicKey] *)
Lemma lay_s_bd_pk : forall k : Bdabe.bd_pk C, ser (s_bd_pk W M) k = written M
      [("g1", ser (sw_1 W) (Bdabe.bpk_g1 k));
       ("g2", ser (sw_2 W) (Bdabe.bpk_g2 k));
       ("p1", ser (sw_1 W) (Bdabe.bpk_p1 k));
       ("p2", ser (sw_2 W) (Bdabe.bpk_p2 k));
       ("e_gg_y", ser (sw_t W) (Bdabe.bpk_egg k))].
Proof. lay. Qed.
(** [BdabeMasterKey] *)
Lemma lay_s_bd_msk : forall k : Bdabe.bd_msk C, ser (s_bd_msk W M) k = written M
      [("y", ser (sw_f W) (Bdabe.bmsk_y k))].
Proof. lay. Qed.
(** [BdabeUserKey] *)
Lemma lay_s_bd_uk : forall k : Bdabe.bd_uk C, ser (s_bd_uk W M) k = written M
      [("sk", ser (s_bd_usk W M) (Bdabe.buk_sk k));
       ("pk", ser (s_bd_upk W M) (Bdabe.buk_pk k));
       ("sk_a", VArr (map (fun x27 => ser (s_bd_ask W M) (x27)) (Bdabe.buk_ska k)))].
Proof. lay. Qed.
(** [BdabePublicUserKey] *)
Lemma lay_s_bd_upk : forall k : Bdabe.bd_upk C, ser (s_bd_upk W M) k = written M
      [("u", VText (Bdabe.bupk_u k));
       ("u1", ser (sw_1 W) (Bdabe.bupk_u1 k));
       ("u2", ser (sw_2 W) (Bdabe.bupk_u2 k))].
Proof. lay. Qed.
(** [BdabeSecretUserKey] *)
Lemma lay_s_bd_usk : forall k : Bdabe.bd_usk C, ser (s_bd_usk W M) k = written M
      [("u1", ser (sw_1 W) (Bdabe.busk_u1 k));
       ("u2", ser (sw_2 W) (Bdabe.busk_u2 k))].
Proof. lay. Qed.
(** [BdabeSecretAttributeKey] *)
Lemma lay_s_bd_ask : forall k : Bdabe.bd_ask C, ser (s_bd_ask W M) k = written M
      [("attr", VText (Bdabe.bask_attr k));
       ("au1", ser (sw_1 W) (Bdabe.bask_au1 k));
       ("au2", ser (sw_2 W) (Bdabe.bask_au2 k))].
Proof. lay. Qed.
(** [BdabePublicAttributeKey] *)
Lemma lay_s_bd_apk : forall k : Bdabe.bd_apk C, ser (s_bd_apk W M) k = written M
      [("attr", VText (Bdabe.bapk_attr k));
       ("a1", ser (sw_1 W) (Bdabe.bapk_a1 k));
       ("a2", ser (sw_2 W) (Bdabe.bapk_a2 k));
       ("a3", ser (sw_t W) (Bdabe.bapk_a3 k))].
Proof. lay. Qed.
(** [BdabeSecretAuthorityKey] *)
Lemma lay_s_bd_auth : forall k : Bdabe.bd_auth C, ser (s_bd_auth W M) k = written M
      [("name", VText (Bdabe.bau_name k));
       ("a1", ser (sw_1 W) (Bdabe.bau_a1 k));
       ("a2", ser (sw_2 W) (Bdabe.bau_a2 k));
       ("a3", ser (sw_f W) (Bdabe.bau_a3 k))].
Proof. lay. Qed.
(** [BdabeCiphertextTuple] *)
Lemma lay_s_bd_tuple : forall k : Bdabe.bd_tuple C, ser (s_bd_tuple W M) k = written M
      [("attr", VArr (map (fun x28 => VText (x28)) (Bdabe.bt_attr k)));
       ("e1", ser (sw_t W) (Bdabe.bt_e1 k));
       ("e2", ser (sw_1 W) (Bdabe.bt_e2 k));
       ("e3", ser (sw_2 W) (Bdabe.bt_e3 k));
       ("e4", ser (sw_1 W) (Bdabe.bt_e4 k));
       ("e5", ser (sw_2 W) (Bdabe.bt_e5 k))].
Proof. lay. Qed.
(** [BdabeCiphertext] *)
Lemma lay_s_bd_ct : forall k : Bdabe.bd_ct C, ser (s_bd_ct W M) k = written M
      [("policy", VArr [VText (fst (Bdabe.bct_policy k)); match snd (Bdabe.bct_policy k) with JsonPolicy => unit_variant M 0 "JsonPolicy" | HumanPolicy => unit_variant M 1 "HumanPolicy" end]);
       ("j", VArr (map (fun x29 => ser (s_bd_tuple W M) (x29)) (Bdabe.bct_j k)));
       ("ct", VArr (map (fun b => VU (N_of_ascii b)) (list_ascii_of_string (Bdabe.bct_data k))))].
Proof. lay. Qed.

(** [Mke08PublicKey] *)
Lemma lay_s_mk_pk : forall k : Mke08.mk_pk C, ser (s_mk_pk W M) k = written M
      [("g1", ser (sw_1 W) (Mke08.mpk_g1 k));
       ("g2", ser (sw_2 W) (Mke08.mpk_g2 k));
       ("p1", ser (sw_1 W) (Mke08.mpk_p1 k));
       ("p2", ser (sw_2 W) (Mke08.mpk_p2 k));
       ("e_gg_y1", ser (sw_t W) (Mke08.mpk_egg1 k));
       ("e_gg_y2", ser (sw_t W) (Mke08.mpk_egg2 k))].
Proof. lay. Qed.
(** [Mke08MasterKey] *)
Lemma lay_s_mk_msk : forall k : Mke08.mk_msk C, ser (s_mk_msk W M) k = written M
      [("g1", ser (sw_1 W) (Mke08.mmsk_g1 k));
       ("g2", ser (sw_2 W) (Mke08.mmsk_g2 k))].
Proof. lay. Qed.
(** [Mke08UserKey] *)
Lemma lay_s_mk_uk : forall k : Mke08.mk_uk C, ser (s_mk_uk W M) k = written M
      [("sk", ser (s_mk_usk W M) (Mke08.muk_sk k));
       ("pk", ser (s_mk_upk W M) (Mke08.muk_pk k));
       ("sk_a", VArr (map (fun x30 => ser (s_mk_ask W M) (x30)) (Mke08.muk_ska k)))].
Proof. lay. Qed.
(** [Mke08PublicUserKey] *)
Lemma lay_s_mk_upk : forall k : Mke08.mk_upk C, ser (s_mk_upk W M) k = written M
      [("name", VText (Mke08.mupk_name k));
       ("g1", ser (sw_1 W) (Mke08.mupk_g1 k));
       ("g2", ser (sw_2 W) (Mke08.mupk_g2 k))].
Proof. lay. Qed.
(** [Mke08SecretUserKey] *)
Lemma lay_s_mk_usk : forall k : Mke08.mk_usk C, ser (s_mk_usk W M) k = written M
      [("g1", ser (sw_1 W) (Mke08.musk_g1 k));
       ("g2", ser (sw_2 W) (Mke08.musk_g2 k))].
Proof. lay. Qed.
(** [Mke08SecretAuthorityKey] *)
Lemma lay_s_mk_auth : forall k : Mke08.mk_auth C, ser (s_mk_auth W M) k = written M
      [("name", VText (Mke08.mau_name k));
       ("r", ser (sw_f W) (Mke08.mau_r k))].
Proof. lay. Qed.
(** [Mke08PublicAttributeKey] *)
Lemma lay_s_mk_apk : forall k : Mke08.mk_apk C, ser (s_mk_apk W M) k = written M
      [("attr", VText (Mke08.mapk_attr k));
       ("g1", ser (sw_1 W) (Mke08.mapk_g1 k));
       ("g2", ser (sw_2 W) (Mke08.mapk_g2 k));
       ("gt1", ser (sw_t W) (Mke08.mapk_gt1 k));
       ("gt2", ser (sw_t W) (Mke08.mapk_gt2 k))].
Proof. lay. Qed.
(** [Mke08SecretAttributeKey] *)
Lemma lay_s_mk_ask : forall k : Mke08.mk_ask C, ser (s_mk_ask W M) k = written M
      [("attr", VText (Mke08.mask_attr k));
       ("g1", ser (sw_1 W) (Mke08.mask_g1 k));
       ("g2", ser (sw_2 W) (Mke08.mask_g2 k))].
Proof. lay. Qed.
(** [Mke08Ciphertext] *)
Lemma lay_s_mk_ct : forall k : Mke08.mk_ct C, ser (s_mk_ct W M) k = written M
      [("policy", VArr [VText (fst (Mke08.mct_policy k)); match snd (Mke08.mct_policy k) with JsonPolicy => unit_variant M 0 "JsonPolicy" | HumanPolicy => unit_variant M 1 "HumanPolicy" end]);
       ("e", VArr (map (fun x31 => ser (s_mk_conj W M) (x31)) (Mke08.mct_e k)));
       ("ct", VArr (map (fun b => VU (N_of_ascii b)) (list_ascii_of_string (Mke08.mct_data k))))].
Proof. lay. Qed.
(** [Mke08CTConjunction] *)
Lemma lay_s_mk_conj : forall k : Mke08.mk_conj C, ser (s_mk_conj W M) k = written M
      [("str", VArr (map (fun x32 => VText (x32)) (Mke08.mj_str k)));
       ("j1", ser (sw_t W) (Mke08.mj_1 k));
       ("j2", ser (sw_t W) (Mke08.mj_2 k));
       ("j3", ser (sw_1 W) (Mke08.mj_3 k));
       ("j4", ser (sw_2 W) (Mke08.mj_4 k));
       ("j5", ser (sw_1 W) (Mke08.mj_5 k));
       ("j6", ser (sw_2 W) (Mke08.mj_6 k))].
Proof. lay. Qed.

End Layout.

Theorem layout_bsw :
  forall (C : crypto) (W : swire C) (M : mode),
    (forall k : Bsw.bsw_pk C, ser (s_bsw_pk W M) k = written M
      [("g1", ser (sw_1 W) (Bsw.bpk_g1 k));
       ("g2", ser (sw_2 W) (Bsw.bpk_g2 k));
       ("h", ser (sw_1 W) (Bsw.bpk_h k));
       ("f", ser (sw_2 W) (Bsw.bpk_f k));
       ("e_gg_alpha", ser (sw_t W) (Bsw.bpk_egg k))]) /\
    (forall k : Bsw.bsw_msk C, ser (s_bsw_msk W M) k = written M
      [("beta", ser (sw_f W) (Bsw.bmsk_beta k));
       ("g2_alpha", ser (sw_2 W) (Bsw.bmsk_g2a k))]) /\
    (forall k : Bsw.bsw_ct C, ser (s_bsw_ct W M) k = written M
      [("policy", VArr [VText (fst (Bsw.bct_policy k)); match snd (Bsw.bct_policy k) with JsonPolicy => unit_variant M 0 "JsonPolicy" | HumanPolicy => unit_variant M 1 "HumanPolicy" end]);
       ("c", ser (sw_1 W) (Bsw.bct_c k));
       ("c_p", ser (sw_t W) (Bsw.bct_cp k));
       ("c_y", VArr (map (fun x1 => ser (s_battr W M) (x1)) (Bsw.bct_cy k)));
       ("data", VArr (map (fun b => VU (N_of_ascii b)) (list_ascii_of_string (Bsw.bct_data k))))]) /\
    (forall k : Bsw.bsw_sk C, ser (s_bsw_sk W M) k = written M
      [("d", ser (sw_2 W) (Bsw.bsk_d k));
       ("d_j", VArr (map (fun x2 => ser (s_battr W M) (x2)) (Bsw.bsk_dj k)))]) /\
    (forall k : Bsw.battr C, ser (s_battr W M) k = written M
      [("string", VText (Bsw.b_string k));
       ("g1", ser (sw_1 W) (Bsw.b_g1 k));
       ("g2", ser (sw_2 W) (Bsw.b_g2 k))]).
Proof.
  intros C W M. repeat apply conj; first [exact (lay_s_bsw_pk W M) | exact (lay_s_bsw_msk W M) | exact (lay_s_bsw_ct W M) | exact (lay_s_bsw_sk W M) | exact (lay_s_battr W M)].
Qed.

Theorem layout_ghw :
  forall (C : crypto) (W : swire C) (M : mode),
    (forall k : Ghw11.ghw_pk C, ser (s_ghw_pk W M) k = written M
      [("g1", ser (sw_1 W) (Ghw11.gpk_g1 k));
       ("g2", ser (sw_2 W) (Ghw11.gpk_g2 k));
       ("g1_a", ser (sw_1 W) (Ghw11.gpk_g1a k));
       ("g2_a", ser (sw_2 W) (Ghw11.gpk_g2a k));
       ("e_gg_alpha", ser (sw_t W) (Ghw11.gpk_egg k))]) /\
    (forall k : Ghw11.ghw_msk C, ser (s_ghw_msk W M) k = written M
      [("g2_alpha", ser (sw_2 W) (Ghw11.gmsk_g2al k));
       ("pk", ser (s_ghw_pk W M) (Ghw11.gmsk_pk k))]) /\
    (forall k : Ghw11.ghw_sk C, ser (s_ghw_sk W M) k = written M
      [("k", ser (sw_2 W) (Ghw11.gsk_k k));
       ("l", ser (sw_2 W) (Ghw11.gsk_l k));
       ("attr_key", VArr (map (fun x3 => ser (s_ghw_attr W M) (x3)) (Ghw11.gsk_attr k)))]) /\
    (forall k : string * G2 C, ser (s_ghw_attr W M) k = written M
      [("string", VText (fst k));
       ("k_x", ser (sw_2 W) (snd k))]) /\
    (forall k : Ghw11.ghw_tk C, ser (s_ghw_tk W M) k = written M
      [("k_z", ser (sw_2 W) (Ghw11.gtk_k k));
       ("l_z", ser (sw_2 W) (Ghw11.gtk_l k));
       ("attr_key_z", VArr (map (fun x4 => ser (s_ghw_attr W M) (x4)) (Ghw11.gtk_attr k)))]) /\
    (forall k : F C, ser (s_ghw_rk W M) k = written M
      [("z", ser (sw_f W) (k))]) /\
    (forall k : Ghw11.ghw_ct C, ser (s_ghw_ct W M) k = written M
      [("policy", VArr [VText (fst (Ghw11.gct_policy k)); match snd (Ghw11.gct_policy k) with JsonPolicy => unit_variant M 0 "JsonPolicy" | HumanPolicy => unit_variant M 1 "HumanPolicy" end]);
       ("c", ser (sw_t W) (Ghw11.gct_c k));
       ("c1", ser (sw_1 W) (Ghw11.gct_c1 k));
       ("ci_di", VArr (map (fun y => VArr [VText (fst y); ser (sw_1 W) (fst (snd y)); ser (sw_1 W) (snd (snd y))]) (Ghw11.gct_cidi k)));
       ("data", VArr (map (fun b => VU (N_of_ascii b)) (list_ascii_of_string (Ghw11.gct_data k))))]) /\
    (forall k : Ghw11.ghw_tct C, ser (s_ghw_tct W M) k = written M
      [("c", ser (sw_t W) (Ghw11.gtct_c k));
       ("t", ser (sw_t W) (Ghw11.gtct_t k))]).
Proof.
  intros C W M. repeat apply conj; first [exact (lay_s_ghw_pk W M) | exact (lay_s_ghw_msk W M) | exact (lay_s_ghw_sk W M) | exact (lay_s_ghw_attr W M) | exact (lay_s_ghw_tk W M) | exact (lay_s_ghw_rk W M) | exact (lay_s_ghw_ct W M) | exact (lay_s_ghw_tct W M)].
Qed.

Theorem layout_lsw :
  forall (C : crypto) (W : swire C) (M : mode),
    (forall k : Lsw.lsw_pk C, ser (s_lsw_pk W M) k = written M
      [("g1", ser (sw_1 W) (Lsw.lpk_g1 k));
       ("g2", ser (sw_2 W) (Lsw.lpk_g2 k));
       ("g1_b", ser (sw_1 W) (Lsw.lpk_g1b k));
       ("g1_b2", ser (sw_1 W) (Lsw.lpk_g1b2 k));
       ("h_b", ser (sw_1 W) (Lsw.lpk_hb k));
       ("e_gg_alpha", ser (sw_t W) (Lsw.lpk_egg k))]) /\
    (forall k : Lsw.lsw_msk C, ser (s_lsw_msk W M) k = written M
      [("alpha1", ser (sw_f W) (Lsw.lmsk_alpha1 k));
       ("alpha2", ser (sw_f W) (Lsw.lmsk_alpha2 k));
       ("b", ser (sw_f W) (Lsw.lmsk_b k));
       ("h_g1", ser (sw_1 W) (Lsw.lmsk_hg1 k));
       ("h_g2", ser (sw_2 W) (Lsw.lmsk_hg2 k))]) /\
    (forall k : Lsw.lsw_sk C, ser (s_lsw_sk W M) k = written M
      [("policy", VArr [VText (fst (Lsw.lsk_policy k)); match snd (Lsw.lsk_policy k) with JsonPolicy => unit_variant M 0 "JsonPolicy" | HumanPolicy => unit_variant M 1 "HumanPolicy" end]);
       ("dj", VArr (map (fun y => VArr [VText (Lsw.ld_name y); ser (sw_1 W) (Lsw.ld_1 y); ser (sw_2 W) (Lsw.ld_2 y); ser (sw_1 W) (Lsw.ld_3 y); ser (sw_1 W) (Lsw.ld_4 y); ser (sw_1 W) (Lsw.ld_5 y)]) (Lsw.lsk_dj k)))]) /\
    (forall k : Lsw.lsw_ct C, ser (s_lsw_ct W M) k = written M
      [("e1", ser (sw_t W) (Lsw.lct_e1 k));
       ("e2", ser (sw_2 W) (Lsw.lct_e2 k));
       ("ej", VArr (map (fun y => VArr [VText (Lsw.le_name y); ser (sw_1 W) (Lsw.le_1 y); ser (sw_1 W) (Lsw.le_2 y); ser (sw_1 W) (Lsw.le_3 y)]) (Lsw.lct_ej k)));
       ("ct", VArr (map (fun b => VU (N_of_ascii b)) (list_ascii_of_string (Lsw.lct_ct k))))]).
Proof.
  intros C W M. repeat apply conj; first [exact (lay_s_lsw_pk W M) | exact (lay_s_lsw_msk W M) | exact (lay_s_lsw_sk W M) | exact (lay_s_lsw_ct W M)].
Qed.

Theorem layout_yct :
  forall (C : crypto) (W : swire C) (M : mode),
    (forall k : Yct14.yct_type C, ser (s_ytype W M) k = match k with
      | Yct14.YPub x => one_variant M 0 "Public" (ser (sw_t W) x)
      | Yct14.YPriv x => one_variant M 1 "Private" (ser (sw_f W) x) end) /\
    (forall k : Yct14.yct_attr C, ser (s_yattr W M) k = match Yct14.y_node k with
      | Some x => written M [("name", VText (Yct14.y_name k)); ("node", ser (s_ytype W M) x)]
      | None => written M (("name", VText (Yct14.y_name k)) :: if skip_none M then [] else [("node", VNull)]) end) /\
    (forall k : Yct14.yct_pk C, ser (s_yct_pk W M) k = written M
      [("g", ser (sw_t W) (Yct14.ypk_g k));
       ("attributes", VArr (map (fun x5 => ser (s_yattr W M) (x5)) (Yct14.ypk_attrs k)))]) /\
    (forall k : Yct14.yct_msk C, ser (s_yct_msk W M) k = written M
      [("s", ser (sw_f W) (Yct14.ymsk_s k));
       ("attributes", VArr (map (fun x6 => ser (s_yattr W M) (x6)) (Yct14.ymsk_attrs k)))]) /\
    (forall k : Yct14.yct_sk C, ser (s_yct_sk W M) k = written M
      [("policy", VArr [VText (fst (Yct14.ysk_policy k)); match snd (Yct14.ysk_policy k) with JsonPolicy => unit_variant M 0 "JsonPolicy" | HumanPolicy => unit_variant M 1 "HumanPolicy" end]);
       ("du", VArr (map (fun x7 => ser (s_yattr W M) (x7)) (Yct14.ysk_du k)))]) /\
    (forall k : Yct14.yct_ct C, ser (s_yct_ct W M) k = written M
      [("attributes", VArr (map (fun x8 => ser (s_yattr W M) (x8)) (Yct14.yct_attrs k)));
       ("ct", VArr (map (fun b => VU (N_of_ascii b)) (list_ascii_of_string (Yct14.yct_data k))))]).
Proof.
  intros C W M. repeat apply conj; first [exact (lay_s_ytype W M) | exact (lay_s_yattr W M) | exact (lay_s_yct_pk W M) | exact (lay_s_yct_msk W M) | exact (lay_s_yct_sk W M) | exact (lay_s_yct_ct W M)].
Qed.

Theorem layout_ac17 :
  forall (C : crypto) (W : swire C) (M : mode),
    (forall k : Ac17.ac_pk C, ser (s_ac_pk W M) k = written M
      [("g", ser (sw_1 W) (Ac17.apk_g k));
       ("h_a", VArr (map (fun x9 => ser (sw_2 W) (x9)) (Ac17.apk_ha k)));
       ("e_gh_ka", VArr (map (fun x10 => ser (sw_t W) (x10)) (Ac17.apk_egh k)))]) /\
    (forall k : Ac17.ac_msk C, ser (s_ac_msk W M) k = written M
      [("g", ser (sw_1 W) (Ac17.amsk_g k));
       ("h", ser (sw_2 W) (Ac17.amsk_h k));
       ("g_k", VArr (map (fun x11 => ser (sw_1 W) (x11)) (Ac17.amsk_gk k)));
       ("a", VArr (map (fun x12 => ser (sw_f W) (x12)) (Ac17.amsk_a k)));
       ("b", VArr (map (fun x13 => ser (sw_f W) (x13)) (Ac17.amsk_b k)))]) /\
    (forall k : Ac17.ac_ct C, ser (s_ac_ct W M) k = written M
      [("c_0", VArr (map (fun x14 => ser (sw_2 W) (x14)) (Ac17.act_c0 k)));
       ("c", VArr (map (fun x15 => VArr [VText (fst (x15)); VArr (map (fun x16 => ser (sw_1 W) (x16)) (snd (x15)))]) (Ac17.act_c k)));
       ("c_p", ser (sw_t W) (Ac17.act_cp k));
       ("ct", VArr (map (fun b => VU (N_of_ascii b)) (list_ascii_of_string (Ac17.act_ct k))))]) /\
    (forall k : Ac17.ac_cpct C, ser (s_ac_cpct W M) k = written M
      [("policy", VArr [VText (fst (Ac17.acp_policy k)); match snd (Ac17.acp_policy k) with JsonPolicy => unit_variant M 0 "JsonPolicy" | HumanPolicy => unit_variant M 1 "HumanPolicy" end]);
       ("ct", ser (s_ac_ct W M) (Ac17.acp_ct k))]) /\
    (forall k : Ac17.ac_kpct C, ser (s_ac_kpct W M) k = written M
      [("attr", VArr (map (fun x17 => VText (x17)) (Ac17.akp_attr k)));
       ("ct", ser (s_ac_ct W M) (Ac17.akp_ct k))]) /\
    (forall k : Ac17.ac_sk C, ser (s_ac_sk W M) k = written M
      [("k_0", VArr (map (fun x18 => ser (sw_2 W) (x18)) (Ac17.ask_k0 k)));
       ("k", VArr (map (fun x19 => VArr [VText (fst (x19)); VArr (map (fun x20 => ser (sw_1 W) (x20)) (snd (x19)))]) (Ac17.ask_k k)));
       ("k_p", VArr (map (fun x21 => ser (sw_1 W) (x21)) (Ac17.ask_kp k)))]) /\
    (forall k : Ac17.ac_kpsk C, ser (s_ac_kpsk W M) k = written M
      [("policy", VArr [VText (fst (Ac17.akps_policy k)); match snd (Ac17.akps_policy k) with JsonPolicy => unit_variant M 0 "JsonPolicy" | HumanPolicy => unit_variant M 1 "HumanPolicy" end]);
       ("sk", ser (s_ac_sk W M) (Ac17.akps_sk k))]) /\
    (forall k : Ac17.ac_cpsk C, ser (s_ac_cpsk W M) k = written M
      [("attr", VArr (map (fun x22 => VText (x22)) (Ac17.acps_attr k)));
       ("sk", ser (s_ac_sk W M) (Ac17.acps_sk k))]).
Proof.
  intros C W M. repeat apply conj; first [exact (lay_s_ac_pk W M) | exact (lay_s_ac_msk W M) | exact (lay_s_ac_ct W M) | exact (lay_s_ac_cpct W M) | exact (lay_s_ac_kpct W M) | exact (lay_s_ac_sk W M) | exact (lay_s_ac_kpsk W M) | exact (lay_s_ac_cpsk W M)].
Qed.

Theorem layout_aw11 :
  forall (C : crypto) (W : swire C) (M : mode),
    (forall k : Aw11.aw_gk C, ser (s_aw_gk W M) k = written M
      [("g1", ser (sw_1 W) (Aw11.agk_g1 k));
       ("g2", ser (sw_2 W) (Aw11.agk_g2 k))]) /\
    (forall k : Aw11.aw_pk C, ser (s_aw_pk W M) k = written M
      [("attr", VArr (map (fun x23 => VArr [VText (fst (fst (x23))); ser (sw_t W) (snd (fst (x23))); ser (sw_2 W) (snd (x23))]) (Aw11.apk_attr k)))]) /\
    (forall k : Aw11.aw_msk C, ser (s_aw_msk W M) k = written M
      [("attr", VArr (map (fun x24 => VArr [VText (fst (fst (x24))); ser (sw_f W) (snd (fst (x24))); ser (sw_f W) (snd (x24))]) (Aw11.amsk_attr k)))]) /\
    (forall k : Aw11.aw_ct C, ser (s_aw_ct W M) k = written M
      [("policy", VArr [VText (fst (Aw11.awct_policy k)); match snd (Aw11.awct_policy k) with JsonPolicy => unit_variant M 0 "JsonPolicy" | HumanPolicy => unit_variant M 1 "HumanPolicy" end]);
       ("c_0", ser (sw_t W) (Aw11.awct_c0 k));
       ("c", VArr (map (fun x25 => VArr [VText (fst (fst (fst (x25)))); ser (sw_t W) (snd (fst (fst (x25)))); ser (sw_2 W) (snd (fst (x25))); ser (sw_2 W) (snd (x25))]) (Aw11.awct_c k)));
       ("ct", VArr (map (fun b => VU (N_of_ascii b)) (list_ascii_of_string (Aw11.awct_data k))))]) /\
    (forall k : Aw11.aw_sk C, ser (s_aw_sk W M) k = written M
      [("gid", VText (Aw11.awsk_gid k));
       ("attr", VArr (map (fun x26 => VArr [VText (fst (x26)); ser (sw_1 W) (snd (x26))]) (Aw11.awsk_attr k)))]).
Proof.
  intros C W M. repeat apply conj; first [exact (lay_s_aw_gk W M) | exact (lay_s_aw_pk W M) | exact (lay_s_aw_msk W M) | exact (lay_s_aw_ct W M) | exact (lay_s_aw_sk W M)].
Qed.

Theorem layout_bdabe :
  forall (C : crypto) (W : swire C) (M : mode),
    (forall k : Bdabe.bd_pk C, ser (s_bd_pk W M) k = written M
      [("g1", ser (sw_1 W) (Bdabe.bpk_g1 k));
       ("g2", ser (sw_2 W) (Bdabe.bpk_g2 k));
       ("p1", ser (sw_1 W) (Bdabe.bpk_p1 k));
       ("p2", ser (sw_2 W) (Bdabe.bpk_p2 k));
       ("e_gg_y", ser (sw_t W) (Bdabe.bpk_egg k))]) /\
    (forall k : Bdabe.bd_msk C, ser (s_bd_msk W M) k = written M
      [("y", ser (sw_f W) (Bdabe.bmsk_y k))]) /\
    (forall k : Bdabe.bd_uk C, ser (s_bd_uk W M) k = written M
      [("sk", ser (s_bd_usk W M) (Bdabe.buk_sk k));
       ("pk", ser (s_bd_upk W M) (Bdabe.buk_pk k));
       ("sk_a", VArr (map (fun x27 => ser (s_bd_ask W M) (x27)) (Bdabe.buk_ska k)))]) /\
    (forall k : Bdabe.bd_upk C, ser (s_bd_upk W M) k = written M
      [("u", VText (Bdabe.bupk_u k));
       ("u1", ser (sw_1 W) (Bdabe.bupk_u1 k));
       ("u2", ser (sw_2 W) (Bdabe.bupk_u2 k))]) /\
    (forall k : Bdabe.bd_usk C, ser (s_bd_usk W M) k = written M
      [("u1", ser (sw_1 W) (Bdabe.busk_u1 k));
       ("u2", ser (sw_2 W) (Bdabe.busk_u2 k))]) /\
    (forall k : Bdabe.bd_ask C, ser (s_bd_ask W M) k = written M
      [("attr", VText (Bdabe.bask_attr k));
       ("au1", ser (sw_1 W) (Bdabe.bask_au1 k));
       ("au2", ser (sw_2 W) (Bdabe.bask_au2 k))]) /\
    (forall k : Bdabe.bd_apk C, ser (s_bd_apk W M) k = written M
      [("attr", VText (Bdabe.bapk_attr k));
       ("a1", ser (sw_1 W) (Bdabe.bapk_a1 k));
       ("a2", ser (sw_2 W) (Bdabe.bapk_a2 k));
       ("a3", ser (sw_t W) (Bdabe.bapk_a3 k))]) /\
    (forall k : Bdabe.bd_auth C, ser (s_bd_auth W M) k = written M
      [("name", VText (Bdabe.bau_name k));
       ("a1", ser (sw_1 W) (Bdabe.bau_a1 k));
       ("a2", ser (sw_2 W) (Bdabe.bau_a2 k));
       ("a3", ser (sw_f W) (Bdabe.bau_a3 k))]) /\
    (forall k : Bdabe.bd_tuple C, ser (s_bd_tuple W M) k = written M
      [("attr", VArr (map (fun x28 => VText (x28)) (Bdabe.bt_attr k)));
       ("e1", ser (sw_t W) (Bdabe.bt_e1 k));
       ("e2", ser (sw_1 W) (Bdabe.bt_e2 k));
       ("e3", ser (sw_2 W) (Bdabe.bt_e3 k));
       ("e4", ser (sw_1 W) (Bdabe.bt_e4 k));
       ("e5", ser (sw_2 W) (Bdabe.bt_e5 k))]) /\
    (forall k : Bdabe.bd_ct C, ser (s_bd_ct W M) k = written M
      [("policy", VArr [VText (fst (Bdabe.bct_policy k)); match snd (Bdabe.bct_policy k) with JsonPolicy => unit_variant M 0 "JsonPolicy" | HumanPolicy => unit_variant M 1 "HumanPolicy" end]);
       ("j", VArr (map (fun x29 => ser (s_bd_tuple W M) (x29)) (Bdabe.bct_j k)));
       ("ct", VArr (map (fun b => VU (N_of_ascii b)) (list_ascii_of_string (Bdabe.bct_data k))))]).
Proof.
  intros C W M. repeat apply conj; first [exact (lay_s_bd_pk W M) | exact (lay_s_bd_msk W M) | exact (lay_s_bd_uk W M) | exact (lay_s_bd_upk W M) | exact (lay_s_bd_usk W M) | exact (lay_s_bd_ask W M) | exact (lay_s_bd_apk W M) | exact (lay_s_bd_auth W M) | exact (lay_s_bd_tuple W M) | exact (lay_s_bd_ct W M)].
Qed.

Theorem layout_mke08 :
  forall (C : crypto) (W : swire C) (M : mode),
    (forall k : Mke08.mk_pk C, ser (s_mk_pk W M) k = written M
      [("g1", ser (sw_1 W) (Mke08.mpk_g1 k));
       ("g2", ser (sw_2 W) (Mke08.mpk_g2 k));
       ("p1", ser (sw_1 W) (Mke08.mpk_p1 k));
       ("p2", ser (sw_2 W) (Mke08.mpk_p2 k));
       ("e_gg_y1", ser (sw_t W) (Mke08.mpk_egg1 k));
       ("e_gg_y2", ser (sw_t W) (Mke08.mpk_egg2 k))]) /\
    (forall k : Mke08.mk_msk C, ser (s_mk_msk W M) k = written M
      [("g1", ser (sw_1 W) (Mke08.mmsk_g1 k));
       ("g2", ser (sw_2 W) (Mke08.mmsk_g2 k))]) /\
    (forall k : Mke08.mk_uk C, ser (s_mk_uk W M) k = written M
      [("sk", ser (s_mk_usk W M) (Mke08.muk_sk k));
       ("pk", ser (s_mk_upk W M) (Mke08.muk_pk k));
       ("sk_a", VArr (map (fun x30 => ser (s_mk_ask W M) (x30)) (Mke08.muk_ska k)))]) /\
    (forall k : Mke08.mk_upk C, ser (s_mk_upk W M) k = written M
      [("name", VText (Mke08.mupk_name k));
       ("g1", ser (sw_1 W) (Mke08.mupk_g1 k));
       ("g2", ser (sw_2 W) (Mke08.mupk_g2 k))]) /\
    (forall k : Mke08.mk_usk C, ser (s_mk_usk W M) k = written M
      [("g1", ser (sw_1 W) (Mke08.musk_g1 k));
       ("g2", ser (sw_2 W) (Mke08.musk_g2 k))]) /\
    (forall k : Mke08.mk_auth C, ser (s_mk_auth W M) k = written M
      [("name", VText (Mke08.mau_name k));
       ("r", ser (sw_f W) (Mke08.mau_r k))]) /\
    (forall k : Mke08.mk_apk C, ser (s_mk_apk W M) k = written M
      [("attr", VText (Mke08.mapk_attr k));
       ("g1", ser (sw_1 W) (Mke08.mapk_g1 k));
       ("g2", ser (sw_2 W) (Mke08.mapk_g2 k));
       ("gt1", ser (sw_t W) (Mke08.mapk_gt1 k));
       ("gt2", ser (sw_t W) (Mke08.mapk_gt2 k))]) /\
    (forall k : Mke08.mk_ask C, ser (s_mk_ask W M) k = written M
      [("attr", VText (Mke08.mask_attr k));
       ("g1", ser (sw_1 W) (Mke08.mask_g1 k));
       ("g2", ser (sw_2 W) (Mke08.mask_g2 k))]) /\
    (forall k : Mke08.mk_ct C, ser (s_mk_ct W M) k = written M
      [("policy", VArr [VText (fst (Mke08.mct_policy k)); match snd (Mke08.mct_policy k) with JsonPolicy => unit_variant M 0 "JsonPolicy" | HumanPolicy => unit_variant M 1 "HumanPolicy" end]);
       ("e", VArr (map (fun x31 => ser (s_mk_conj W M) (x31)) (Mke08.mct_e k)));
       ("ct", VArr (map (fun b => VU (N_of_ascii b)) (list_ascii_of_string (Mke08.mct_data k))))]) /\
    (forall k : Mke08.mk_conj C, ser (s_mk_conj W M) k = written M
      [("str", VArr (map (fun x32 => VText (x32)) (Mke08.mj_str k)));
       ("j1", ser (sw_t W) (Mke08.mj_1 k));
       ("j2", ser (sw_t W) (Mke08.mj_2 k));
       ("j3", ser (sw_1 W) (Mke08.mj_3 k));
       ("j4", ser (sw_2 W) (Mke08.mj_4 k));
       ("j5", ser (sw_1 W) (Mke08.mj_5 k));
       ("j6", ser (sw_2 W) (Mke08.mj_6 k))]).
Proof.
  intros C W M. repeat apply conj; first [exact (lay_s_mk_pk W M) | exact (lay_s_mk_msk W M) | exact (lay_s_mk_uk W M) | exact (lay_s_mk_upk W M) | exact (lay_s_mk_usk W M) | exact (lay_s_mk_auth W M) | exact (lay_s_mk_apk W M) | exact (lay_s_mk_ask W M) | exact (lay_s_mk_ct W M) | exact (lay_s_mk_conj W M)].
Qed.

