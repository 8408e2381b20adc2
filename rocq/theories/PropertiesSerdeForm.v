(** * PropertiesSerdeForm: what is written and read under the feature "serde" (C120, C121)

    The proofs are in SerdeLayout.v and SerdeCbor.v. *)
From Coq Require Import String Ascii List Bool Arith NArith Lia.
From Verif Require Import Base Crypto Policy Files Borsh Console Serde SerdeProofs SerdeTypes SerdeExact SerdeLayout SerdeResult SerdeCbor.
From Verif Require Bsw Ghw11 Lsw Yct14 Ac17 Aw11 Bdabe Mke08.
Import ListNotations.
Local Open Scope string_scope.

(** C120. What is written for every type, field by field, from the struct definitions. *)
Theorem C120_layout_bsw :
  forall (C : crypto) (W : swire C) (M : mode),
    (forall k : Bsw.bsw_pk C, ser (s_bsw_pk W M) k = written M
      [("g1", ser (sw_1 W) (Bsw.bpk_g1 k));
       ("g2", ser (sw_2 W) (Bsw.bpk_g2 k));
       ("h", ser (sw_1 W) (Bsw.bpk_h k));
       ("f", ser (sw_2 W) (Bsw.bpk_f k));
       ("e_gg_alpha", ser (sw_t W) (Bsw.bpk_egg k))]) /\
    (forall k : Bsw.bsw_msk C, ser (s_bsw_msk W M) k = written M
      [("beta", ser (sw_f W) (Bsw.bmsk_beta k));
       ("g2_alpha", ser (sw_2 W) (Bsw.bmsk_g2a k))]) /\
    (forall k : Bsw.bsw_ct C, ser (s_bsw_ct W M) k = written M
      [("policy", VArr [VText (fst (Bsw.bct_policy k)); match snd (Bsw.bct_policy k) with JsonPolicy => unit_variant M 0 "JsonPolicy" | HumanPolicy => unit_variant M 1 "HumanPolicy" end]);
       ("c", ser (sw_1 W) (Bsw.bct_c k));
       ("c_p", ser (sw_t W) (Bsw.bct_cp k));
       ("c_y", VArr (map (fun x1 => ser (s_battr W M) (x1)) (Bsw.bct_cy k)));
       ("data", VArr (map (fun b => VU (N_of_ascii b)) (list_ascii_of_string (Bsw.bct_data k))))]) /\
    (forall k : Bsw.bsw_sk C, ser (s_bsw_sk W M) k = written M
      [("d", ser (sw_2 W) (Bsw.bsk_d k));
       ("d_j", VArr (map (fun x2 => ser (s_battr W M) (x2)) (Bsw.bsk_dj k)))]) /\
    (forall k : Bsw.battr C, ser (s_battr W M) k = written M
      [("string", VText (Bsw.b_string k));
       ("g1", ser (sw_1 W) (Bsw.b_g1 k));
       ("g2", ser (sw_2 W) (Bsw.b_g2 k))]).
Proof. exact @layout_bsw. Qed.
Print Assumptions C120_layout_bsw.

Theorem C120_layout_ghw :
  forall (C : crypto) (W : swire C) (M : mode),
    (forall k : Ghw11.ghw_pk C, ser (s_ghw_pk W M) k = written M
      [("g1", ser (sw_1 W) (Ghw11.gpk_g1 k));
       ("g2", ser (sw_2 W) (Ghw11.gpk_g2 k));
       ("g1_a", ser (sw_1 W) (Ghw11.gpk_g1a k));
       ("g2_a", ser (sw_2 W) (Ghw11.gpk_g2a k));
       ("e_gg_alpha", ser (sw_t W) (Ghw11.gpk_egg k))]) /\
    (forall k : Ghw11.ghw_msk C, ser (s_ghw_msk W M) k = written M
      [("g2_alpha", ser (sw_2 W) (Ghw11.gmsk_g2al k));
       ("pk", ser (s_ghw_pk W M) (Ghw11.gmsk_pk k))]) /\
    (forall k : Ghw11.ghw_sk C, ser (s_ghw_sk W M) k = written M
      [("k", ser (sw_2 W) (Ghw11.gsk_k k));
       ("l", ser (sw_2 W) (Ghw11.gsk_l k));
       ("attr_key", VArr (map (fun x3 => ser (s_ghw_attr W M) (x3)) (Ghw11.gsk_attr k)))]) /\
    (forall k : string * G2 C, ser (s_ghw_attr W M) k = written M
      [("string", VText (fst k));
       ("k_x", ser (sw_2 W) (snd k))]) /\
    (forall k : Ghw11.ghw_tk C, ser (s_ghw_tk W M) k = written M
      [("k_z", ser (sw_2 W) (Ghw11.gtk_k k));
       ("l_z", ser (sw_2 W) (Ghw11.gtk_l k));
       ("attr_key_z", VArr (map (fun x4 => ser (s_ghw_attr W M) (x4)) (Ghw11.gtk_attr k)))]) /\
    (forall k : F C, ser (s_ghw_rk W M) k = written M
      [("z", ser (sw_f W) (k))]) /\
    (forall k : Ghw11.ghw_ct C, ser (s_ghw_ct W M) k = written M
      [("policy", VArr [VText (fst (Ghw11.gct_policy k)); match snd (Ghw11.gct_policy k) with JsonPolicy => unit_variant M 0 "JsonPolicy" | HumanPolicy => unit_variant M 1 "HumanPolicy" end]);
       ("c", ser (sw_t W) (Ghw11.gct_c k));
       ("c1", ser (sw_1 W) (Ghw11.gct_c1 k));
       ("ci_di", VArr (map (fun y => VArr [VText (fst y); ser (sw_1 W) (fst (snd y)); ser (sw_1 W) (snd (snd y))]) (Ghw11.gct_cidi k)));
       ("data", VArr (map (fun b => VU (N_of_ascii b)) (list_ascii_of_string (Ghw11.gct_data k))))]) /\
    (forall k : Ghw11.ghw_tct C, ser (s_ghw_tct W M) k = written M
      [("c", ser (sw_t W) (Ghw11.gtct_c k));
       ("t", ser (sw_t W) (Ghw11.gtct_t k))]).
Proof. exact @layout_ghw. Qed.
Print Assumptions C120_layout_ghw.

Theorem C120_layout_lsw :
  forall (C : crypto) (W : swire C) (M : mode),
    (forall k : Lsw.lsw_pk C, ser (s_lsw_pk W M) k = written M
      [("g1", ser (sw_1 W) (Lsw.lpk_g1 k));
       ("g2", ser (sw_2 W) (Lsw.lpk_g2 k));
       ("g1_b", ser (sw_1 W) (Lsw.lpk_g1b k));
       ("g1_b2", ser (sw_1 W) (Lsw.lpk_g1b2 k));
       ("h_b", ser (sw_1 W) (Lsw.lpk_hb k));
       ("e_gg_alpha", ser (sw_t W) (Lsw.lpk_egg k))]) /\
    (forall k : Lsw.lsw_msk C, ser (s_lsw_msk W M) k = written M
      [("alpha1", ser (sw_f W) (Lsw.lmsk_alpha1 k));
       ("alpha2", ser (sw_f W) (Lsw.lmsk_alpha2 k));
       ("b", ser (sw_f W) (Lsw.lmsk_b k));
       ("h_g1", ser (sw_1 W) (Lsw.lmsk_hg1 k));
       ("h_g2", ser (sw_2 W) (Lsw.lmsk_hg2 k))]) /\
    (forall k : Lsw.lsw_sk C, ser (s_lsw_sk W M) k = written M
      [("policy", VArr [VText (fst (Lsw.lsk_policy k)); match snd (Lsw.lsk_policy k) with JsonPolicy => unit_variant M 0 "JsonPolicy" | HumanPolicy => unit_variant M 1 "HumanPolicy" end]);
       ("dj", VArr (map (fun y => VArr [VText (Lsw.ld_name y); ser (sw_1 W) (Lsw.ld_1 y); ser (sw_2 W) (Lsw.ld_2 y); ser (sw_1 W) (Lsw.ld_3 y); ser (sw_1 W) (Lsw.ld_4 y); ser (sw_1 W) (Lsw.ld_5 y)]) (Lsw.lsk_dj k)))]) /\
    (forall k : Lsw.lsw_ct C, ser (s_lsw_ct W M) k = written M
      [("e1", ser (sw_t W) (Lsw.lct_e1 k));
       ("e2", ser (sw_2 W) (Lsw.lct_e2 k));
       ("ej", VArr (map (fun y => VArr [VText (Lsw.le_name y); ser (sw_1 W) (Lsw.le_1 y); ser (sw_1 W) (Lsw.le_2 y); ser (sw_1 W) (Lsw.le_3 y)]) (Lsw.lct_ej k)));
       ("ct", VArr (map (fun b => VU (N_of_ascii b)) (list_ascii_of_string (Lsw.lct_ct k))))]).
Proof. exact @layout_lsw. Qed.
Print Assumptions C120_layout_lsw.

Theorem C120_layout_yct :
  forall (C : crypto) (W : swire C) (M : mode),
    (forall k : Yct14.yct_type C, ser (s_ytype W M) k = match k with
      | Yct14.YPub x => one_variant M 0 "Public" (ser (sw_t W) x)
      | Yct14.YPriv x => one_variant M 1 "Private" (ser (sw_f W) x) end) /\
    (forall k : Yct14.yct_attr C, ser (s_yattr W M) k = match Yct14.y_node k with
      | Some x => written M [("name", VText (Yct14.y_name k)); ("node", ser (s_ytype W M) x)]
      | None => written M (("name", VText (Yct14.y_name k)) :: if skip_none M then [] else [("node", VNull)]) end) /\
    (forall k : Yct14.yct_pk C, ser (s_yct_pk W M) k = written M
      [("g", ser (sw_t W) (Yct14.ypk_g k));
       ("attributes", VArr (map (fun x5 => ser (s_yattr W M) (x5)) (Yct14.ypk_attrs k)))]) /\
    (forall k : Yct14.yct_msk C, ser (s_yct_msk W M) k = written M
      [("s", ser (sw_f W) (Yct14.ymsk_s k));
       ("attributes", VArr (map (fun x6 => ser (s_yattr W M) (x6)) (Yct14.ymsk_attrs k)))]) /\
    (forall k : Yct14.yct_sk C, ser (s_yct_sk W M) k = written M
      [("policy", VArr [VText (fst (Yct14.ysk_policy k)); match snd (Yct14.ysk_policy k) with JsonPolicy => unit_variant M 0 "JsonPolicy" | HumanPolicy => unit_variant M 1 "HumanPolicy" end]);
       ("du", VArr (map (fun x7 => ser (s_yattr W M) (x7)) (Yct14.ysk_du k)))]) /\
    (forall k : Yct14.yct_ct C, ser (s_yct_ct W M) k = written M
      [("attributes", VArr (map (fun x8 => ser (s_yattr W M) (x8)) (Yct14.yct_attrs k)));
       ("ct", VArr (map (fun b => VU (N_of_ascii b)) (list_ascii_of_string (Yct14.yct_data k))))]).
Proof. exact @layout_yct. Qed.
Print Assumptions C120_layout_yct.

Theorem C120_layout_ac17 :
  forall (C : crypto) (W : swire C) (M : mode),
    (forall k : Ac17.ac_pk C, ser (s_ac_pk W M) k = written M
      [("g", ser (sw_1 W) (Ac17.apk_g k));
       ("h_a", VArr (map (fun x9 => ser (sw_2 W) (x9)) (Ac17.apk_ha k)));
       ("e_gh_ka", VArr (map (fun x10 => ser (sw_t W) (x10)) (Ac17.apk_egh k)))]) /\
    (forall k : Ac17.ac_msk C, ser (s_ac_msk W M) k = written M
      [("g", ser (sw_1 W) (Ac17.amsk_g k));
       ("h", ser (sw_2 W) (Ac17.amsk_h k));
       ("g_k", VArr (map (fun x11 => ser (sw_1 W) (x11)) (Ac17.amsk_gk k)));
       ("a", VArr (map (fun x12 => ser (sw_f W) (x12)) (Ac17.amsk_a k)));
       ("b", VArr (map (fun x13 => ser (sw_f W) (x13)) (Ac17.amsk_b k)))]) /\
    (forall k : Ac17.ac_ct C, ser (s_ac_ct W M) k = written M
      [("c_0", VArr (map (fun x14 => ser (sw_2 W) (x14)) (Ac17.act_c0 k)));
       ("c", VArr (map (fun x15 => VArr [VText (fst (x15)); VArr (map (fun x16 => ser (sw_1 W) (x16)) (snd (x15)))]) (Ac17.act_c k)));
       ("c_p", ser (sw_t W) (Ac17.act_cp k));
       ("ct", VArr (map (fun b => VU (N_of_ascii b)) (list_ascii_of_string (Ac17.act_ct k))))]) /\
    (forall k : Ac17.ac_cpct C, ser (s_ac_cpct W M) k = written M
      [("policy", VArr [VText (fst (Ac17.acp_policy k)); match snd (Ac17.acp_policy k) with JsonPolicy => unit_variant M 0 "JsonPolicy" | HumanPolicy => unit_variant M 1 "HumanPolicy" end]);
       ("ct", ser (s_ac_ct W M) (Ac17.acp_ct k))]) /\
    (forall k : Ac17.ac_kpct C, ser (s_ac_kpct W M) k = written M
      [("attr", VArr (map (fun x17 => VText (x17)) (Ac17.akp_attr k)));
       ("ct", ser (s_ac_ct W M) (Ac17.akp_ct k))]) /\
    (forall k : Ac17.ac_sk C, ser (s_ac_sk W M) k = written M
      [("k_0", VArr (map (fun x18 => ser (sw_2 W) (x18)) (Ac17.ask_k0 k)));
       ("k", VArr (map (fun x19 => VArr [VText (fst (x19)); VArr (map (fun x20 => ser (sw_1 W) (x20)) (snd (x19)))]) (Ac17.ask_k k)));
       ("k_p", VArr (map (fun x21 => ser (sw_1 W) (x21)) (Ac17.ask_kp k)))]) /\
    (forall k : Ac17.ac_kpsk C, ser (s_ac_kpsk W M) k = written M
      [("policy", VArr [VText (fst (Ac17.akps_policy k)); match snd (Ac17.akps_policy k) with JsonPolicy => unit_variant M 0 "JsonPolicy" | HumanPolicy => unit_variant M 1 "HumanPolicy" end]);
       ("sk", ser (s_ac_sk W M) (Ac17.akps_sk k))]) /\
    (forall k : Ac17.ac_cpsk C, ser (s_ac_cpsk W M) k = written M
      [("attr", VArr (map (fun x22 => VText (x22)) (Ac17.acps_attr k)));
       ("sk", ser (s_ac_sk W M) (Ac17.acps_sk k))]).
Proof. exact @layout_ac17. Qed.
Print Assumptions C120_layout_ac17.

Theorem C120_layout_aw11 :
  forall (C : crypto) (W : swire C) (M : mode),
    (forall k : Aw11.aw_gk C, ser (s_aw_gk W M) k = written M
      [("g1", ser (sw_1 W) (Aw11.agk_g1 k));
       ("g2", ser (sw_2 W) (Aw11.agk_g2 k))]) /\
    (forall k : Aw11.aw_pk C, ser (s_aw_pk W M) k = written M
      [("attr", VArr (map (fun x23 => VArr [VText (fst (fst (x23))); ser (sw_t W) (snd (fst (x23))); ser (sw_2 W) (snd (x23))]) (Aw11.apk_attr k)))]) /\
    (forall k : Aw11.aw_msk C, ser (s_aw_msk W M) k = written M
      [("attr", VArr (map (fun x24 => VArr [VText (fst (fst (x24))); ser (sw_f W) (snd (fst (x24))); ser (sw_f W) (snd (x24))]) (Aw11.amsk_attr k)))]) /\
    (forall k : Aw11.aw_ct C, ser (s_aw_ct W M) k = written M
      [("policy", VArr [VText (fst (Aw11.awct_policy k)); match snd (Aw11.awct_policy k) with JsonPolicy => unit_variant M 0 "JsonPolicy" | HumanPolicy => unit_variant M 1 "HumanPolicy" end]);
       ("c_0", ser (sw_t W) (Aw11.awct_c0 k));
       ("c", VArr (map (fun x25 => VArr [VText (fst (fst (fst (x25)))); ser (sw_t W) (snd (fst (fst (x25)))); ser (sw_2 W) (snd (fst (x25))); ser (sw_2 W) (snd (x25))]) (Aw11.awct_c k)));
       ("ct", VArr (map (fun b => VU (N_of_ascii b)) (list_ascii_of_string (Aw11.awct_data k))))]) /\
    (forall k : Aw11.aw_sk C, ser (s_aw_sk W M) k = written M
      [("gid", VText (Aw11.awsk_gid k));
       ("attr", VArr (map (fun x26 => VArr [VText (fst (x26)); ser (sw_1 W) (snd (x26))]) (Aw11.awsk_attr k)))]).
Proof. exact @layout_aw11. Qed.
Print Assumptions C120_layout_aw11.

Theorem C120_layout_bdabe :
  forall (C : crypto) (W : swire C) (M : mode),
    (forall k : Bdabe.bd_pk C, ser (s_bd_pk W M) k = written M
      [("g1", ser (sw_1 W) (Bdabe.bpk_g1 k));
       ("g2", ser (sw_2 W) (Bdabe.bpk_g2 k));
       ("p1", ser (sw_1 W) (Bdabe.bpk_p1 k));
       ("p2", ser (sw_2 W) (Bdabe.bpk_p2 k));
       ("e_gg_y", ser (sw_t W) (Bdabe.bpk_egg k))]) /\
    (forall k : Bdabe.bd_msk C, ser (s_bd_msk W M) k = written M
      [("y", ser (sw_f W) (Bdabe.bmsk_y k))]) /\
    (forall k : Bdabe.bd_uk C, ser (s_bd_uk W M) k = written M
      [("sk", ser (s_bd_usk W M) (Bdabe.buk_sk k));
       ("pk", ser (s_bd_upk W M) (Bdabe.buk_pk k));
       ("sk_a", VArr (map (fun x27 => ser (s_bd_ask W M) (x27)) (Bdabe.buk_ska k)))]) /\
    (forall k : Bdabe.bd_upk C, ser (s_bd_upk W M) k = written M
      [("u", VText (Bdabe.bupk_u k));
       ("u1", ser (sw_1 W) (Bdabe.bupk_u1 k));
       ("u2", ser (sw_2 W) (Bdabe.bupk_u2 k))]) /\
    (forall k : Bdabe.bd_usk C, ser (s_bd_usk W M) k = written M
      [("u1", ser (sw_1 W) (Bdabe.busk_u1 k));
       ("u2", ser (sw_2 W) (Bdabe.busk_u2 k))]) /\
    (forall k : Bdabe.bd_ask C, ser (s_bd_ask W M) k = written M
      [("attr", VText (Bdabe.bask_attr k));
       ("au1", ser (sw_1 W) (Bdabe.bask_au1 k));
       ("au2", ser (sw_2 W) (Bdabe.bask_au2 k))]) /\
    (forall k : Bdabe.bd_apk C, ser (s_bd_apk W M) k = written M
      [("attr", VText (Bdabe.bapk_attr k));
       ("a1", ser (sw_1 W) (Bdabe.bapk_a1 k));
       ("a2", ser (sw_2 W) (Bdabe.bapk_a2 k));
       ("a3", ser (sw_t W) (Bdabe.bapk_a3 k))]) /\
    (forall k : Bdabe.bd_auth C, ser (s_bd_auth W M) k = written M
      [("name", VText (Bdabe.bau_name k));
       ("a1", ser (sw_1 W) (Bdabe.bau_a1 k));
       ("a2", ser (sw_2 W) (Bdabe.bau_a2 k));
       ("a3", ser (sw_f W) (Bdabe.bau_a3 k))]) /\
    (forall k : Bdabe.bd_tuple C, ser (s_bd_tuple W M) k = written M
      [("attr", VArr (map (fun x28 => VText (x28)) (Bdabe.bt_attr k)));
       ("e1", ser (sw_t W) (Bdabe.bt_e1 k));
       ("e2", ser (sw_1 W) (Bdabe.bt_e2 k));
       ("e3", ser (sw_2 W) (Bdabe.bt_e3 k));
       ("e4", ser (sw_1 W) (Bdabe.bt_e4 k));
       ("e5", ser (sw_2 W) (Bdabe.bt_e5 k))]) /\
    (forall k : Bdabe.bd_ct C, ser (s_bd_ct W M) k = written M
      [("policy", VArr [VText (fst (Bdabe.bct_policy k)); match snd (Bdabe.bct_policy k) with JsonPolicy => unit_variant M 0 "JsonPolicy" | HumanPolicy => unit_variant M 1 "HumanPolicy" end]);
       ("j", VArr (map (fun x29 => ser (s_bd_tuple W M) (x29)) (Bdabe.bct_j k)));
       ("ct", VArr (map (fun b => VU (N_of_ascii b)) (list_ascii_of_string (Bdabe.bct_data k))))]).
Proof. exact @layout_bdabe. Qed.
Print Assumptions C120_layout_bdabe.

Theorem C120_layout_mke08 :
  forall (C : crypto) (W : swire C) (M : mode),
    (forall k : Mke08.mk_pk C, ser (s_mk_pk W M) k = written M
      [("g1", ser (sw_1 W) (Mke08.mpk_g1 k));
       ("g2", ser (sw_2 W) (Mke08.mpk_g2 k));
       ("p1", ser (sw_1 W) (Mke08.mpk_p1 k));
       ("p2", ser (sw_2 W) (Mke08.mpk_p2 k));
       ("e_gg_y1", ser (sw_t W) (Mke08.mpk_egg1 k));
       ("e_gg_y2", ser (sw_t W) (Mke08.mpk_egg2 k))]) /\
    (forall k : Mke08.mk_msk C, ser (s_mk_msk W M) k = written M
      [("g1", ser (sw_1 W) (Mke08.mmsk_g1 k));
       ("g2", ser (sw_2 W) (Mke08.mmsk_g2 k))]) /\
    (forall k : Mke08.mk_uk C, ser (s_mk_uk W M) k = written M
      [("sk", ser (s_mk_usk W M) (Mke08.muk_sk k));
       ("pk", ser (s_mk_upk W M) (Mke08.muk_pk k));
       ("sk_a", VArr (map (fun x30 => ser (s_mk_ask W M) (x30)) (Mke08.muk_ska k)))]) /\
    (forall k : Mke08.mk_upk C, ser (s_mk_upk W M) k = written M
      [("name", VText (Mke08.mupk_name k));
       ("g1", ser (sw_1 W) (Mke08.mupk_g1 k));
       ("g2", ser (sw_2 W) (Mke08.mupk_g2 k))]) /\
    (forall k : Mke08.mk_usk C, ser (s_mk_usk W M) k = written M
      [("g1", ser (sw_1 W) (Mke08.musk_g1 k));
       ("g2", ser (sw_2 W) (Mke08.musk_g2 k))]) /\
    (forall k : Mke08.mk_auth C, ser (s_mk_auth W M) k = written M
      [("name", VText (Mke08.mau_name k));
       ("r", ser (sw_f W) (Mke08.mau_r k))]) /\
    (forall k : Mke08.mk_apk C, ser (s_mk_apk W M) k = written M
      [("attr", VText (Mke08.mapk_attr k));
       ("g1", ser (sw_1 W) (Mke08.mapk_g1 k));
       ("g2", ser (sw_2 W) (Mke08.mapk_g2 k));
       ("gt1", ser (sw_t W) (Mke08.mapk_gt1 k));
       ("gt2", ser (sw_t W) (Mke08.mapk_gt2 k))]) /\
    (forall k : Mke08.mk_ask C, ser (s_mk_ask W M) k = written M
      [("attr", VText (Mke08.mask_attr k));
       ("g1", ser (sw_1 W) (Mke08.mask_g1 k));
       ("g2", ser (sw_2 W) (Mke08.mask_g2 k))]) /\
    (forall k : Mke08.mk_ct C, ser (s_mk_ct W M) k = written M
      [("policy", VArr [VText (fst (Mke08.mct_policy k)); match snd (Mke08.mct_policy k) with JsonPolicy => unit_variant M 0 "JsonPolicy" | HumanPolicy => unit_variant M 1 "HumanPolicy" end]);
       ("e", VArr (map (fun x31 => ser (s_mk_conj W M) (x31)) (Mke08.mct_e k)));
       ("ct", VArr (map (fun b => VU (N_of_ascii b)) (list_ascii_of_string (Mke08.mct_data k))))]) /\
    (forall k : Mke08.mk_conj C, ser (s_mk_conj W M) k = written M
      [("str", VArr (map (fun x32 => VText (x32)) (Mke08.mj_str k)));
       ("j1", ser (sw_t W) (Mke08.mj_1 k));
       ("j2", ser (sw_t W) (Mke08.mj_2 k));
       ("j3", ser (sw_1 W) (Mke08.mj_3 k));
       ("j4", ser (sw_2 W) (Mke08.mj_4 k));
       ("j5", ser (sw_1 W) (Mke08.mj_5 k));
       ("j6", ser (sw_2 W) (Mke08.mj_6 k))]).
Proof. exact @layout_mke08. Qed.
Print Assumptions C120_layout_mke08.


(** C120. A head is never longer than one that could be read in its place. *)
Theorem C120_head_shortest :
  forall (s : string) (m n : N) (r : string), get_head s = Some (m, n, r) ->
  String.length (head m n) + String.length r <= String.length s.
Proof. exact head_shortest. Qed.
Print Assumptions C120_head_shortest.

(** C120. Examples of RFC 8949, appendix A; a longer head is read as well. *)
Example C120_example_rfc :
  to_hex (put (VU 0)) = "00" /\ to_hex (put (VU 10)) = "0a" /\ to_hex (put (VU 23)) = "17" /\
  to_hex (put (VU 24)) = "1818" /\ to_hex (put (VU 25)) = "1819" /\ to_hex (put (VU 100)) = "1864" /\
  to_hex (put (VU 1000)) = "1903e8" /\ to_hex (put (VU 1000000)) = "1a000f4240" /\
  to_hex (put (VU 1000000000000)) = "1b000000e8d4a51000" /\
  to_hex (put (VU 18446744073709551615)) = "1bffffffffffffffff" /\
  to_hex (put VNull) = "f6" /\ to_hex (put (VBytes "")) = "40" /\ to_hex (put (VText "")) = "60" /\
  to_hex (put (VText "IETF")) = "6449455446" /\ to_hex (put (VArr [])) = "80" /\
  to_hex (put (VArr [VU 1; VU 2; VU 3])) = "83010203" /\
  to_hex (put (VArr [VU 1; VArr [VU 2; VU 3]; VArr [VU 4; VU 5]])) = "8301820203820405" /\
  to_hex (put (VMap [])) = "a0" /\
  to_hex (put (VMap [(VText "a", VU 1); (VText "b", VArr [VU 2; VU 3])])) = "a26161016162820203" /\
  (forall d, get d (String (ascii_of_N 24) (String (ascii_of_N 7) "")) = Some (VU 7, "")).
Proof. repeat apply conj; try reflexivity. intros []; reflexivity. Qed.

(** C121. Arrays in arrays are read up to a depth of 127. *)
Theorem C121_nesting :
  forall (k : nat) (r : string),
  get 127 (put (nest k) ++ r) = if (k <=? 127)%nat then Some (nest k, r) else None.
Proof. exact (fun k r => nest_read k 127 r). Qed.
Print Assumptions C121_nesting.
Theorem C121_too_deep :
  forall (k : nat) (A : Type) (s : sd A), 127 < k -> from_cbor s (put (nest k)) = Err.
Proof. exact @nest_limit. Qed.
Print Assumptions C121_too_deep.

(** C121. A text may be a byte string, a [Vec<u8>] may not; numbers above 255 are no bytes. *)
Theorem C121_text_as_bytes :
  forall s : string, fits64 (String.length s) -> from_cbor s_text (put (VBytes s)) = if utf8 s then Ok s else Err.
Proof. exact text_as_bytes. Qed.
Print Assumptions C121_text_as_bytes.
Theorem C121_bytes_as_bytes :
  forall s : string, fits64 (String.length s) -> from_cbor s_bytes (put (VBytes s)) = Err.
Proof. exact bytes_as_bytes. Qed.
Print Assumptions C121_bytes_as_bytes.
Theorem C121_byte_range :
  forall n : N, (n < 18446744073709551616)%N ->
  from_cbor s_u8 (put (VU n)) = if (n <? 256)%N then Ok (ascii_of_N n) else Err.
Proof. exact byte_range. Qed.
Print Assumptions C121_byte_range.

(** C121. The values of a struct may come without keys, if none is missing and none is left over. *)
Theorem C121_array_form :
  forall (A B : Type) (P : A -> Prop) (d : nat) (M : mode) (fl : fields A) (f : B -> A) (g : A -> B) (v : B),
  fgood P d fl -> S d <= max_depth -> (forall v : B, g (f v) = v) -> P (f v) -> fits64 (List.length (f_names fl)) ->
  from_cbor (s_struct M fl f g) (put (VArr (f_sers fl (f v)))) = Ok v.
Proof. exact @array_form. Qed.
Print Assumptions C121_array_form.
Theorem C121_array_length :
  forall (A B : Type) (M : mode) (fl : fields A) (f : B -> A) (g : A -> B) (l : list val),
  holds max_depth (VArr l) -> List.length l <> List.length (f_names fl) ->
  from_cbor (s_struct M fl f g) (put (VArr l)) = Err.
Proof. exact @array_length. Qed.
Print Assumptions C121_array_length.
Example C121_example_array :
  let fl := f_and (f_one "a" s_text) (f_one "b" s_text) in
  fgood (fun v => wtext (fst v) /\ wtext (snd v)) 64 fl /\ wtext "x" /\
  from_cbor (s_struct (Mode true false false) fl (fun v => v) (fun v => v)) (put (VArr [VText "x"; VText "y"])) = Ok ("x", "y") /\
  from_cbor (s_struct (Mode true false false) fl (fun v => v) (fun v => v)) (put (VArr [VText "x"])) = Err.
Proof.
  cbv zeta. split.
  - apply and_fgood; apply one_fgood; (eapply sgood_mono; [exact text_sgood|apply Nat.leb_le; reflexivity|intros ? ?; assumption]).
  - split; [split; reflexivity|]. split; reflexivity.
Qed.

(** C121. A YCT14 attribute whose value is missing is one without value, in every mode. *)
Theorem C121_node_missing :
  forall (C : crypto) (W : swire C) (M : mode) (n : string), wtext n ->
  from_cbor (s_yattr W M) (put (VMap [(VText "name", VText n)])) = Ok (Yct14.YAttr n None) /\
  from_cbor (s_yattr W M) (put (VMap [(VU 0, VText n)])) = Ok (Yct14.YAttr n None).
Proof. exact @node_missing. Qed.
Print Assumptions C121_node_missing.

(** C121. A value of YCT14 comes as a map of one entry or an array of two, its
    kind by number, text or bytes; any other kind is an error. *)
Theorem C121_enum_public :
  forall (C : crypto) (W : swire C) (M : mode) (k w : val) (x : GT C),
  keyed 0 "Public" k -> holds max_depth (VArr [k; w]) -> de (sw_t W) w = Some x ->
  from_cbor (s_ytype W M) (put (VArr [k; w])) = Ok (Yct14.YPub x) /\
  from_cbor (s_ytype W M) (put (VMap [(k, w)])) = Ok (Yct14.YPub x).
Proof. exact @enum_public. Qed.
Print Assumptions C121_enum_public.
Theorem C121_enum_private :
  forall (C : crypto) (W : swire C) (M : mode) (k w : val) (x : F C),
  keyed 1 "Private" k -> holds max_depth (VArr [k; w]) -> de (sw_f W) w = Some x ->
  from_cbor (s_ytype W M) (put (VArr [k; w])) = Ok (Yct14.YPriv x) /\
  from_cbor (s_ytype W M) (put (VMap [(k, w)])) = Ok (Yct14.YPriv x).
Proof. exact @enum_private. Qed.
Print Assumptions C121_enum_private.
Theorem C121_enum_other :
  forall (C : crypto) (W : swire C) (M : mode) (k w : val),
  ~ keyed 0 "Public" k -> ~ keyed 1 "Private" k -> holds max_depth (VArr [k; w]) ->
  from_cbor (s_ytype W M) (put (VArr [k; w])) = Err /\ from_cbor (s_ytype W M) (put (VMap [(k, w)])) = Err.
Proof. exact @enum_other. Qed.
Print Assumptions C121_enum_other.
Example C121_example_enum :
  keyed 1 "Private" (VU 1) /\ ~ keyed 0 "Public" (VU 2) /\ ~ keyed 1 "Private" (VU 2) /\
  holds max_depth (VArr [VU 1; VText "x"]).
Proof.
  split; [now left|]. split; [intros [H|[H|H]]; discriminate|]. split; [intros [H|[H|H]]; discriminate|].
  apply (holds_mono 1); [apply Nat.leb_le; reflexivity|]. split; [reflexivity|]. repeat constructor.
Qed.

(** C121. The language of a policy comes by number, text or bytes, and nothing else is one. *)
Theorem C121_lang_exact :
  forall (M : mode) (v : val) (l : language),
  de (s_lang M) v = Some l <->
  keyed 0 "JsonPolicy" v /\ l = JsonPolicy \/ keyed 1 "HumanPolicy" v /\ l = HumanPolicy.
Proof. exact lang_exact. Qed.
Print Assumptions C121_lang_exact.
Example C121_example_lang : keyed 1 "HumanPolicy" (VText "HumanPolicy") /\ ~ keyed 1 "HumanPolicy" (VU 2).
Proof. split; [right; now left|intros [H|[H|H]]; discriminate]. Qed.

(** C120. An error is written as a struct of one field, a result as a variant of
    one value; both are read back. *)
Theorem C120_layout_result :
  forall (M : mode),
  (forall e : string, ser (s_error M) e = written M [("details", VText e)]) /\
  (forall (A : Type) (s : sd A) (r : A + string), ser (s_result M s) r = match r with
     | inl v => one_variant M 0 "Ok" (ser s v)
     | inr e => one_variant M 1 "Err" (written M [("details", VText e)]) end).
Proof. exact layout_result. Qed.
Print Assumptions C120_layout_result.
Theorem C120_result_back :
  forall (A : Type) (M : mode) (P : A -> Prop) (d : nat) (s : sd A),
  (forall v : A, P v -> holds d (ser s v) /\ de s (ser s v) = Some v) -> (d < max_depth)%nat ->
  (forall v : A, P v -> from_cbor (s_result M s) (to_cbor (s_result M s) (inl v)) = Ok (inl v)) /\
  (forall e : string, wtext e -> from_cbor (s_result M s) (to_cbor (s_result M s) (inr e)) = Ok (inr e)) /\
  (forall e : string, wtext e -> from_cbor (s_error M) (to_cbor (s_error M) e) = Ok e).
Proof. exact @result_back. Qed.
Print Assumptions C120_result_back.
Example C120_example_result :
  let M := Mode false false false in
  wtext "no match" /\ holds 1 (ser s_text "x") /\ de s_text (ser s_text "x") = Some "x" /\
  from_cbor (s_result M s_text) (to_cbor (s_result M s_text) (inr "no match")) = Ok (inr "no match").
Proof. cbv zeta. repeat apply conj; try reflexivity; vm_compute; auto. Qed.
