(** * PropertiesBorshLayout: the bytes of every key and ciphertext under the feature "borsh" (C139)

    The specification ([row], [vec], [vec_u8], [variant_byte]) and the proofs are in BorshLayout.v. *)
From Coq Require Import String Ascii List Bool Arith NArith ZArith Lia.
From Verif Require Import Base Crypto Policy Files Borsh BorshLayout Instance ConsoleWitnesses.
From Verif Require Bsw Lsw Yct14 Ac17 Aw11 Bdabe Mke08.
Import ListNotations.
Local Open Scope string_scope.

(** C139. What is written for every type, field by field, from the struct definitions. *)
Theorem C139_bsw :
  forall (C : crypto) (W : wire C),
    (forall k : Bsw.battr C, enc (c_battr W) k = row
      [vec_u8 (Bsw.b_string k);
       enc (w_1 W) (Bsw.b_g1 k);
       enc (w_2 W) (Bsw.b_g2 k)]) /\
    (forall k : Bsw.bsw_pk C, enc (c_bsw_pk W) k = row
      [enc (w_1 W) (Bsw.bpk_g1 k);
       enc (w_2 W) (Bsw.bpk_g2 k);
       enc (w_1 W) (Bsw.bpk_h k);
       enc (w_2 W) (Bsw.bpk_f k);
       enc (w_t W) (Bsw.bpk_egg k)]) /\
    (forall k : Bsw.bsw_msk C, enc (c_bsw_msk W) k = row
      [enc (w_f W) (Bsw.bmsk_beta k);
       enc (w_2 W) (Bsw.bmsk_g2a k)]) /\
    (forall k : Bsw.bsw_ct C, enc (c_bsw_ct W) k = row
      [vec_u8 (fst (Bsw.bct_policy k)); variant_byte (snd (Bsw.bct_policy k));
       enc (w_1 W) (Bsw.bct_c k);
       enc (w_t W) (Bsw.bct_cp k);
       vec (map (enc (c_battr W)) (Bsw.bct_cy k));
       vec_u8 (Bsw.bct_data k)]) /\
    (forall k : Bsw.bsw_sk C, enc (c_bsw_sk W) k = row
      [enc (w_2 W) (Bsw.bsk_d k);
       vec (map (enc (c_battr W)) (Bsw.bsk_dj k))]).
Proof. exact @borsh_bsw. Qed.
Print Assumptions C139_bsw.

Theorem C139_lsw :
  forall (C : crypto) (W : wire C),
    (forall k : Lsw.lsw_pk C, enc (c_lsw_pk W) k = row
      [enc (w_1 W) (Lsw.lpk_g1 k);
       enc (w_2 W) (Lsw.lpk_g2 k);
       enc (w_1 W) (Lsw.lpk_g1b k);
       enc (w_1 W) (Lsw.lpk_g1b2 k);
       enc (w_1 W) (Lsw.lpk_hb k);
       enc (w_t W) (Lsw.lpk_egg k)]) /\
    (forall k : Lsw.lsw_msk C, enc (c_lsw_msk W) k = row
      [enc (w_f W) (Lsw.lmsk_alpha1 k);
       enc (w_f W) (Lsw.lmsk_alpha2 k);
       enc (w_f W) (Lsw.lmsk_b k);
       enc (w_1 W) (Lsw.lmsk_hg1 k);
       enc (w_2 W) (Lsw.lmsk_hg2 k)]) /\
    (forall k : Lsw.lsw_sk C, enc (c_lsw_sk W) k = row
      [vec_u8 (fst (Lsw.lsk_policy k)); variant_byte (snd (Lsw.lsk_policy k));
       vec (map (fun x => row [vec_u8 (Lsw.ld_name x); enc (w_1 W) (Lsw.ld_1 x); enc (w_2 W) (Lsw.ld_2 x); enc (w_1 W) (Lsw.ld_3 x); enc (w_1 W) (Lsw.ld_4 x); enc (w_1 W) (Lsw.ld_5 x)]) (Lsw.lsk_dj k))]) /\
    (forall k : Lsw.lsw_ct C, enc (c_lsw_ct W) k = row
      [enc (w_t W) (Lsw.lct_e1 k);
       enc (w_2 W) (Lsw.lct_e2 k);
       vec (map (fun x => row [vec_u8 (Lsw.le_name x); enc (w_1 W) (Lsw.le_1 x); enc (w_1 W) (Lsw.le_2 x); enc (w_1 W) (Lsw.le_3 x)]) (Lsw.lct_ej k));
       vec_u8 (Lsw.lct_ct k)]).
Proof. exact @borsh_lsw. Qed.
Print Assumptions C139_lsw.

Theorem C139_yct :
  forall (C : crypto) (W : wire C),
    (forall k : Yct14.yct_pk C, enc (c_yct_pk W) k = row
      [enc (w_t W) (Yct14.ypk_g k);
       vec (map (fun x => row [vec_u8 (Yct14.y_name x)]) (Yct14.ypk_attrs k))]) /\
    (forall k : Yct14.yct_msk C, enc (c_yct_msk W) k = row
      [enc (w_f W) (Yct14.ymsk_s k);
       vec (map (fun x => row [vec_u8 (Yct14.y_name x)]) (Yct14.ymsk_attrs k))]) /\
    (forall k : Yct14.yct_sk C, enc (@c_yct_sk C) k = row
      [vec_u8 (fst (Yct14.ysk_policy k)); variant_byte (snd (Yct14.ysk_policy k));
       vec (map (fun x => row [vec_u8 (Yct14.y_name x)]) (Yct14.ysk_du k))]) /\
    (forall k : Yct14.yct_ct C, enc (@c_yct_ct C) k = row
      [vec (map (fun x => row [vec_u8 (Yct14.y_name x)]) (Yct14.yct_attrs k));
       vec_u8 (Yct14.yct_data k)]).
Proof. exact @borsh_yct. Qed.
Print Assumptions C139_yct.

Theorem C139_ac17 :
  forall (C : crypto) (W : wire C),
    (forall k : Ac17.ac_pk C, enc (c_ac_pk W) k = row
      [enc (w_1 W) (Ac17.apk_g k);
       vec (map (enc (w_2 W)) (Ac17.apk_ha k));
       vec (map (enc (w_t W)) (Ac17.apk_egh k))]) /\
    (forall k : Ac17.ac_msk C, enc (c_ac_msk W) k = row
      [enc (w_1 W) (Ac17.amsk_g k);
       enc (w_2 W) (Ac17.amsk_h k);
       vec (map (enc (w_1 W)) (Ac17.amsk_gk k));
       vec (map (enc (w_f W)) (Ac17.amsk_a k));
       vec (map (enc (w_f W)) (Ac17.amsk_b k))]) /\
    (forall k : Ac17.ac_ct C, enc (c_ac_ct W) k = row
      [vec (map (enc (w_2 W)) (Ac17.act_c0 k));
       vec (map (fun x => row [vec_u8 (fst x); vec (map (enc (w_1 W)) (snd x))]) (Ac17.act_c k));
       enc (w_t W) (Ac17.act_cp k);
       vec_u8 (Ac17.act_ct k)]) /\
    (forall k : Ac17.ac_cpct C, enc (c_ac_cpct W) k = row
      [vec_u8 (fst (Ac17.acp_policy k)); variant_byte (snd (Ac17.acp_policy k));
       enc (c_ac_ct W) (Ac17.acp_ct k)]) /\
    (forall k : Ac17.ac_kpct C, enc (c_ac_kpct W) k = row
      [vec (map vec_u8 (Ac17.akp_attr k));
       enc (c_ac_ct W) (Ac17.akp_ct k)]) /\
    (forall k : Ac17.ac_sk C, enc (c_ac_sk W) k = row
      [vec (map (enc (w_2 W)) (Ac17.ask_k0 k));
       vec (map (fun x => row [vec_u8 (fst x); vec (map (enc (w_1 W)) (snd x))]) (Ac17.ask_k k));
       vec (map (enc (w_1 W)) (Ac17.ask_kp k))]) /\
    (forall k : Ac17.ac_kpsk C, enc (c_ac_kpsk W) k = row
      [vec_u8 (fst (Ac17.akps_policy k)); variant_byte (snd (Ac17.akps_policy k));
       enc (c_ac_sk W) (Ac17.akps_sk k)]) /\
    (forall k : Ac17.ac_cpsk C, enc (c_ac_cpsk W) k = row
      [vec (map vec_u8 (Ac17.acps_attr k));
       enc (c_ac_sk W) (Ac17.acps_sk k)]).
Proof. exact @borsh_ac17. Qed.
Print Assumptions C139_ac17.

Theorem C139_aw :
  forall (C : crypto) (W : wire C),
    (forall k : Aw11.aw_gk C, enc (c_aw_gk W) k = row
      [enc (w_1 W) (Aw11.agk_g1 k);
       enc (w_2 W) (Aw11.agk_g2 k)]) /\
    (forall k : Aw11.aw_pk C, enc (c_aw_pk W) k = row
      [vec (map (fun x => row [vec_u8 (fst (fst x)); enc (w_t W) (snd (fst x)); enc (w_2 W) (snd x)]) (Aw11.apk_attr k))]) /\
    (forall k : Aw11.aw_msk C, enc (c_aw_msk W) k = row
      [vec (map (fun x => row [vec_u8 (fst (fst x)); enc (w_f W) (snd (fst x)); enc (w_f W) (snd x)]) (Aw11.amsk_attr k))]) /\
    (forall k : Aw11.aw_ct C, enc (c_aw_ct W) k = row
      [vec_u8 (fst (Aw11.awct_policy k)); variant_byte (snd (Aw11.awct_policy k));
       enc (w_t W) (Aw11.awct_c0 k);
       vec (map (fun x => row [vec_u8 (fst (fst (fst x))); enc (w_t W) (snd (fst (fst x))); enc (w_2 W) (snd (fst x)); enc (w_2 W) (snd x)]) (Aw11.awct_c k));
       vec_u8 (Aw11.awct_data k)]) /\
    (forall k : Aw11.aw_sk C, enc (c_aw_sk W) k = row
      [vec_u8 (Aw11.awsk_gid k);
       vec (map (fun x => row [vec_u8 (fst x); enc (w_1 W) (snd x)]) (Aw11.awsk_attr k))]).
Proof. exact @borsh_aw. Qed.
Print Assumptions C139_aw.

Theorem C139_bdabe :
  forall (C : crypto) (W : wire C),
    (forall k : Bdabe.bd_pk C, enc (c_bd_pk W) k = row
      [enc (w_1 W) (Bdabe.bpk_g1 k);
       enc (w_2 W) (Bdabe.bpk_g2 k);
       enc (w_1 W) (Bdabe.bpk_p1 k);
       enc (w_2 W) (Bdabe.bpk_p2 k);
       enc (w_t W) (Bdabe.bpk_egg k)]) /\
    (forall k : Bdabe.bd_msk C, enc (c_bd_msk W) k = row
      [enc (w_f W) (Bdabe.bmsk_y k)]) /\
    (forall k : Bdabe.bd_upk C, enc (c_bd_upk W) k = row
      [vec_u8 (Bdabe.bupk_u k);
       enc (w_1 W) (Bdabe.bupk_u1 k);
       enc (w_2 W) (Bdabe.bupk_u2 k)]) /\
    (forall k : Bdabe.bd_usk C, enc (c_bd_usk W) k = row
      [enc (w_1 W) (Bdabe.busk_u1 k);
       enc (w_2 W) (Bdabe.busk_u2 k)]) /\
    (forall k : Bdabe.bd_ask C, enc (c_bd_ask W) k = row
      [vec_u8 (Bdabe.bask_attr k);
       enc (w_1 W) (Bdabe.bask_au1 k);
       enc (w_2 W) (Bdabe.bask_au2 k)]) /\
    (forall k : Bdabe.bd_uk C, enc (c_bd_uk W) k = row
      [enc (c_bd_usk W) (Bdabe.buk_sk k);
       enc (c_bd_upk W) (Bdabe.buk_pk k);
       vec (map (enc (c_bd_ask W)) (Bdabe.buk_ska k))]) /\
    (forall k : Bdabe.bd_apk C, enc (c_bd_apk W) k = row
      [vec_u8 (Bdabe.bapk_attr k);
       enc (w_1 W) (Bdabe.bapk_a1 k);
       enc (w_2 W) (Bdabe.bapk_a2 k);
       enc (w_t W) (Bdabe.bapk_a3 k)]) /\
    (forall k : Bdabe.bd_auth C, enc (c_bd_auth W) k = row
      [vec_u8 (Bdabe.bau_name k);
       enc (w_1 W) (Bdabe.bau_a1 k);
       enc (w_2 W) (Bdabe.bau_a2 k);
       enc (w_f W) (Bdabe.bau_a3 k)]) /\
    (forall k : Bdabe.bd_tuple C, enc (c_bd_tuple W) k = row
      [vec (map vec_u8 (Bdabe.bt_attr k));
       enc (w_t W) (Bdabe.bt_e1 k);
       enc (w_1 W) (Bdabe.bt_e2 k);
       enc (w_2 W) (Bdabe.bt_e3 k);
       enc (w_1 W) (Bdabe.bt_e4 k);
       enc (w_2 W) (Bdabe.bt_e5 k)]) /\
    (forall k : Bdabe.bd_ct C, enc (c_bd_ct W) k = row
      [vec_u8 (fst (Bdabe.bct_policy k)); variant_byte (snd (Bdabe.bct_policy k));
       vec (map (enc (c_bd_tuple W)) (Bdabe.bct_j k));
       vec_u8 (Bdabe.bct_data k)]).
Proof. exact @borsh_bdabe. Qed.
Print Assumptions C139_bdabe.

Theorem C139_mke :
  forall (C : crypto) (W : wire C),
    (forall k : Mke08.mk_pk C, enc (c_mk_pk W) k = row
      [enc (w_1 W) (Mke08.mpk_g1 k);
       enc (w_2 W) (Mke08.mpk_g2 k);
       enc (w_1 W) (Mke08.mpk_p1 k);
       enc (w_2 W) (Mke08.mpk_p2 k);
       enc (w_t W) (Mke08.mpk_egg1 k);
       enc (w_t W) (Mke08.mpk_egg2 k)]) /\
    (forall k : Mke08.mk_msk C, enc (c_mk_msk W) k = row
      [enc (w_1 W) (Mke08.mmsk_g1 k);
       enc (w_2 W) (Mke08.mmsk_g2 k)]) /\
    (forall k : Mke08.mk_upk C, enc (c_mk_upk W) k = row
      [vec_u8 (Mke08.mupk_name k);
       enc (w_1 W) (Mke08.mupk_g1 k);
       enc (w_2 W) (Mke08.mupk_g2 k)]) /\
    (forall k : Mke08.mk_usk C, enc (c_mk_usk W) k = row
      [enc (w_1 W) (Mke08.musk_g1 k);
       enc (w_2 W) (Mke08.musk_g2 k)]) /\
    (forall k : Mke08.mk_auth C, enc (c_mk_auth W) k = row
      [vec_u8 (Mke08.mau_name k);
       enc (w_f W) (Mke08.mau_r k)]) /\
    (forall k : Mke08.mk_apk C, enc (c_mk_apk W) k = row
      [vec_u8 (Mke08.mapk_attr k);
       enc (w_1 W) (Mke08.mapk_g1 k);
       enc (w_2 W) (Mke08.mapk_g2 k);
       enc (w_t W) (Mke08.mapk_gt1 k);
       enc (w_t W) (Mke08.mapk_gt2 k)]) /\
    (forall k : Mke08.mk_ask C, enc (c_mk_ask W) k = row
      [vec_u8 (Mke08.mask_attr k);
       enc (w_1 W) (Mke08.mask_g1 k);
       enc (w_2 W) (Mke08.mask_g2 k)]) /\
    (forall k : Mke08.mk_uk C, enc (c_mk_uk W) k = row
      [enc (c_mk_usk W) (Mke08.muk_sk k);
       enc (c_mk_upk W) (Mke08.muk_pk k);
       vec (map (enc (c_mk_ask W)) (Mke08.muk_ska k))]) /\
    (forall k : Mke08.mk_conj C, enc (c_mk_conj W) k = row
      [vec (map vec_u8 (Mke08.mj_str k));
       enc (w_t W) (Mke08.mj_1 k);
       enc (w_t W) (Mke08.mj_2 k);
       enc (w_1 W) (Mke08.mj_3 k);
       enc (w_2 W) (Mke08.mj_4 k);
       enc (w_1 W) (Mke08.mj_5 k);
       enc (w_2 W) (Mke08.mj_6 k)]) /\
    (forall k : Mke08.mk_ct C, enc (c_mk_ct W) k = row
      [vec_u8 (fst (Mke08.mct_policy k)); variant_byte (snd (Mke08.mct_policy k));
       vec (map (enc (c_mk_conj W)) (Mke08.mct_e k));
       vec_u8 (Mke08.mct_data k)]).
Proof. exact @borsh_mke. Qed.
Print Assumptions C139_mke.

(** C139: a [Result], as the tool stores some ciphertexts: 1 and the value, or 0 and the text of the error. *)
Theorem C139_result :
  forall (A : Type) (c : codec A) (text : string) (o : option A),
  enc_result c text o =
  match o with
  | Some v => row [Some (String "001" ""); enc c v]
  | None => row [Some (String "000" ""); vec_u8 text]
  end.
Proof. exact @borsh_result. Qed.
Print Assumptions C139_result.

(** ** A case: elements of two bytes *)
Example C139_example_lsw :
  enc (c_lsw_msk zwire) (Lsw.LswMsk (zmk 1 : F ZC) (zmk 2 : F ZC) (zmk 3 : F ZC) (zmk 4 : G1 ZC) (zmk 5 : G2 ZC)) =
  row (map (fun z => enc c_zp (zmk z)) [1; 2; 3; 4; 5]%Z).
Proof. vm_compute. reflexivity. Qed.
Example C139_example_bytes :
  vec_u8 "ab" = Some (String "002" (String "000" (String "000" (String "000" "ab")))) /\
  variant_byte HumanPolicy = Some (String "001" "") /\ little_endian 4 258 = String "002" (String "001" (String "000" (String "000" ""))).
Proof. repeat split. Qed.
