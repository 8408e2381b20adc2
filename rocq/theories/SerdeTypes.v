(** * SerdeTypes: every key and ciphertext type survives the feature "serde" *)
From Coq Require Import String Ascii List Bool Arith NArith Lia.
From Verif Require Import Base Crypto Policy Files Borsh Serde SerdeProofs.
From Verif Require Bsw Ghw11 Lsw Yct14 Ac17 Aw11 Bdabe Mke08.
Import ListNotations.
Local Open Scope string_scope.

(** ** All types *)

Section Types.
Context {C : crypto} (W : swire C) (M : mode) (OK : swire_ok W).
Local Notation f := (sw_f W). Local Notation g1 := (sw_1 W).
Local Notation g2 := (sw_2 W). Local Notation gt := (sw_t W).

Lemma wlen_wall {A} (l : list A) : wlen l -> wall (fun _ => True) l.
Proof. intros H. split; [exact H|]. apply Forall_forall. auto. Qed.

Create HintDb sds.
Create HintDb wfs.
Ltac piece :=
  lazymatch goal with
  | |- sgood _ _ s_text => exact text_sgood
  | |- sgood _ _ s_bytes => exact bytes_sgood
  | |- sgood _ _ (s_policy _) => apply policy_sgood
  | K : sgood (fun _ => True) 64 ?s |- sgood _ _ ?s => exact K
  | |- sgood _ _ (s_list _) => eapply list_sgood; piece
  | |- _ => solve [eauto 1 with sds]
  end.
Ltac raise := eapply sgood_mono; [piece | lia | intros ? ?; eassumption].
Ltac closes := intros; repeat match goal with x : _ * _ |- _ => destruct x end; reflexivity.
Ltac structs :=
  pose proof OK as (Kf & K1 & K2 & Kt);
  eapply sgood_mono; [|apply le_n|];
  [ eapply struct_sgood; [repeat apply and_fgood; apply one_fgood; raise | reflexivity | intros v; try destruct v; reflexivity]
  | intros v H; try destruct v; autounfold with wfs in H |- *; cbn in H |- *;
    intuition (auto using wlen_wall) ].
Ltac tuples :=
  pose proof OK as (Kf & K1 & K2 & Kt);
  eapply sgood_mono; [|apply le_n|];
  [ eapply tuple_sgood; [repeat apply and_pgood; apply one_pgood; raise | reflexivity
    | intros v; try destruct v; repeat match goal with x : _ * _ |- _ => destruct x end; reflexivity]
  | intros v H; repeat match goal with x : _ * _ |- _ => destruct x end; try destruct v; autounfold with wfs in H |- *; cbn in H |- *;
    intuition (auto using wlen_wall) ].

(** *** BSW *)
Import Bsw.
Definition wf_battr (k : battr C) : Prop :=
  wtext (b_string k).
Hint Unfold wf_battr : wfs.
Lemma battr_sgood : sgood wf_battr 65 (s_battr W M).
Proof. structs. Qed.
Hint Resolve battr_sgood : sds.
Lemma bsw_pk_sgood : sgood (fun _ => True) 65 (s_bsw_pk W M).
Proof. structs. Qed.
Hint Resolve bsw_pk_sgood : sds.
Lemma bsw_msk_sgood : sgood (fun _ => True) 65 (s_bsw_msk W M).
Proof. structs. Qed.
Hint Resolve bsw_msk_sgood : sds.
Definition wf_bsw_ct (k : bsw_ct C) : Prop :=
  wtext (fst (bct_policy k)) /\ wall wf_battr (bct_cy k) /\ wbytes (bct_data k).
Hint Unfold wf_bsw_ct : wfs.
Lemma bsw_ct_sgood : sgood wf_bsw_ct 67 (s_bsw_ct W M).
Proof. structs. Qed.
Hint Resolve bsw_ct_sgood : sds.
Definition wf_bsw_sk (k : bsw_sk C) : Prop :=
  wall wf_battr (bsk_dj k).
Hint Unfold wf_bsw_sk : wfs.
Lemma bsw_sk_sgood : sgood wf_bsw_sk 67 (s_bsw_sk W M).
Proof. structs. Qed.
Hint Resolve bsw_sk_sgood : sds.

(** *** GHW11 *)
Import Ghw11.
Definition wf_cidi (e : string * (G1 C * G1 C)) : Prop := wtext (fst e).
Hint Unfold wf_cidi : wfs.
Lemma cidi_sgood : sgood wf_cidi 65 (s_cidi W).
Proof. tuples. Qed.
Hint Resolve cidi_sgood : sds.
Lemma ghw_pk_sgood : sgood (fun _ => True) 65 (s_ghw_pk W M).
Proof. structs. Qed.
Hint Resolve ghw_pk_sgood : sds.
Lemma ghw_msk_sgood : sgood (fun _ => True) 66 (s_ghw_msk W M).
Proof. structs. Qed.
Hint Resolve ghw_msk_sgood : sds.
Definition wf_ghw_attr (k : string * G2 C) : Prop := wtext (fst k).
Hint Unfold wf_ghw_attr : wfs.
Lemma ghw_attr_sgood : sgood wf_ghw_attr 65 (s_ghw_attr W M).
Proof. structs. Qed.
Hint Resolve ghw_attr_sgood : sds.
Definition wf_ghw_sk (k : ghw_sk C) : Prop :=
  wall wf_ghw_attr (gsk_attr k).
Hint Unfold wf_ghw_sk : wfs.
Lemma ghw_sk_sgood : sgood wf_ghw_sk 67 (s_ghw_sk W M).
Proof. structs. Qed.
Hint Resolve ghw_sk_sgood : sds.
Definition wf_ghw_tk (k : ghw_tk C) : Prop :=
  wall wf_ghw_attr (gtk_attr k).
Hint Unfold wf_ghw_tk : wfs.
Lemma ghw_tk_sgood : sgood wf_ghw_tk 67 (s_ghw_tk W M).
Proof. structs. Qed.
Hint Resolve ghw_tk_sgood : sds.
Lemma ghw_rk_sgood : sgood (fun _ => True) 65 (s_ghw_rk W M).
Proof. structs. Qed.
Definition wf_ghw_ct (k : ghw_ct C) : Prop :=
  wtext (fst (gct_policy k)) /\ wall wf_cidi (gct_cidi k) /\ wbytes (gct_data k).
Hint Unfold wf_ghw_ct : wfs.
Lemma ghw_ct_sgood : sgood wf_ghw_ct 67 (s_ghw_ct W M).
Proof. structs. Qed.
Hint Resolve ghw_ct_sgood : sds.
Lemma ghw_tct_sgood : sgood (fun _ => True) 65 (s_ghw_tct W M).
Proof. structs. Qed.
Hint Resolve ghw_tct_sgood : sds.

(** *** LSW *)
Import Lsw.
Lemma lsw_pk_sgood : sgood (fun _ => True) 65 (s_lsw_pk W M).
Proof. structs. Qed.
Hint Resolve lsw_pk_sgood : sds.
Lemma lsw_msk_sgood : sgood (fun _ => True) 65 (s_lsw_msk W M).
Proof. structs. Qed.
Hint Resolve lsw_msk_sgood : sds.
Definition wf_lsw_dj (k : lsw_dj C) : Prop := wtext (ld_name k).
Hint Unfold wf_lsw_dj : wfs.
Lemma lsw_dj_sgood : sgood wf_lsw_dj 65 (s_lsw_dj W).
Proof. tuples. Qed.
Hint Resolve lsw_dj_sgood : sds.
Definition wf_lsw_sk (k : lsw_sk C) : Prop :=
  wtext (fst (lsk_policy k)) /\ wall wf_lsw_dj (lsk_dj k).
Hint Unfold wf_lsw_sk : wfs.
Lemma lsw_sk_sgood : sgood wf_lsw_sk 67 (s_lsw_sk W M).
Proof. structs. Qed.
Hint Resolve lsw_sk_sgood : sds.
Definition wf_lsw_ej (k : lsw_ej C) : Prop := wtext (le_name k).
Hint Unfold wf_lsw_ej : wfs.
Lemma lsw_ej_sgood : sgood wf_lsw_ej 65 (s_lsw_ej W).
Proof. tuples. Qed.
Hint Resolve lsw_ej_sgood : sds.
Definition wf_lsw_ct (k : lsw_ct C) : Prop :=
  wall wf_lsw_ej (lct_ej k) /\ wbytes (lct_ct k).
Hint Unfold wf_lsw_ct : wfs.
Lemma lsw_ct_sgood : sgood wf_lsw_ct 67 (s_lsw_ct W M).
Proof. structs. Qed.
Hint Resolve lsw_ct_sgood : sds.

(** *** YCT14 *)
Import Yct14.
Lemma ytype_sgood : sgood (fun _ => True) 65 (s_ytype W M).
Proof.
  destruct OK as (Kf & K1 & K2 & Kt). intros [x|x] _; cbn [s_ytype ser de]; unfold newtype_variant.
  - destruct (Kt x I) as [H E]. split.
    + apply (holds_map1 64); [|exact H].
      destruct (var_number M); [reflexivity|split; reflexivity].
    + destruct (var_number M); cbn; rewrite E; reflexivity.
  - destruct (Kf x I) as [H E]. split.
    + apply (holds_map1 64); [|exact H].
      destruct (var_number M); [reflexivity|split; reflexivity].
    + destruct (var_number M); cbn; rewrite E; reflexivity.
Qed.
Definition wf_yattr (a : yct_attr C) : Prop := wtext (y_name a).
Lemma yattr_sgood : sgood wf_yattr 66 (s_yattr W M).
Proof.
  pose (whole := s_struct M (f_and (f_one "name" s_text) (f_one "node" (s_option (s_ytype W M))))
                        (fun a => (y_name a, y_node a)) (fun '(a, b) => YAttr a b)).
  assert (G : sgood wf_yattr 66 whole).
  { eapply sgood_mono; [|apply le_n|].
    - apply struct_sgood; [apply and_fgood; apply one_fgood | reflexivity | intros []; reflexivity].
      + eapply sgood_mono; [exact text_sgood | lia | intros ? ?; eassumption].
      + apply option_sgood; [exact ytype_sgood|]. intros [x|x]; discriminate.
    - intros [n [y|]] H; cbn; split; auto. }
  intros a H. destruct (G a H) as [H1 H2].
  unfold s_yattr. cbv zeta. fold whole. cbn [ser de]. destruct a as [n [y|]]; cbn [y_node]; [split; assumption|].
  destruct (skip_none M); [|split; assumption]. split.
  - apply (holds_map1 65); [|exact H].
    unfold field_key. destruct (packed M); [reflexivity|split; reflexivity].
  - unfold field_key. destruct (packed M); reflexivity.
Qed.
Hint Resolve yattr_sgood : sds.
Definition wf_yct_pk (k : yct_pk C) : Prop :=
  wall wf_yattr (ypk_attrs k).
Hint Unfold wf_yct_pk : wfs.
Lemma yct_pk_sgood : sgood wf_yct_pk 68 (s_yct_pk W M).
Proof. structs. Qed.
Hint Resolve yct_pk_sgood : sds.
Definition wf_yct_msk (k : yct_msk C) : Prop :=
  wall wf_yattr (ymsk_attrs k).
Hint Unfold wf_yct_msk : wfs.
Lemma yct_msk_sgood : sgood wf_yct_msk 68 (s_yct_msk W M).
Proof. structs. Qed.
Hint Resolve yct_msk_sgood : sds.
Definition wf_yct_sk (k : yct_sk C) : Prop :=
  wtext (fst (ysk_policy k)) /\ wall wf_yattr (ysk_du k).
Hint Unfold wf_yct_sk : wfs.
Lemma yct_sk_sgood : sgood wf_yct_sk 68 (s_yct_sk W M).
Proof. structs. Qed.
Hint Resolve yct_sk_sgood : sds.
Definition wf_yct_ct (k : yct_ct C) : Prop :=
  wall wf_yattr (yct_attrs k) /\ wbytes (yct_data k).
Hint Unfold wf_yct_ct : wfs.
Lemma yct_ct_sgood : sgood wf_yct_ct 68 (s_yct_ct W M).
Proof. structs. Qed.
Hint Resolve yct_ct_sgood : sds.

(** *** AC17 *)
Import Ac17.
Definition wf_row (e : string * list (G1 C)) : Prop := wtext (fst e) /\ wlen (snd e).
Hint Unfold wf_row : wfs.
Lemma row_sgood : sgood wf_row 66 (s_row W).
Proof. tuples. Qed.
Hint Resolve row_sgood : sds.
Definition wf_ac_pk (k : ac_pk C) : Prop :=
  wlen (apk_ha k) /\ wlen (apk_egh k).
Hint Unfold wf_ac_pk : wfs.
Lemma ac_pk_sgood : sgood wf_ac_pk 66 (s_ac_pk W M).
Proof. structs. Qed.
Hint Resolve ac_pk_sgood : sds.
Definition wf_ac_msk (k : ac_msk C) : Prop :=
  wlen (amsk_gk k) /\ wlen (amsk_a k) /\ wlen (amsk_b k).
Hint Unfold wf_ac_msk : wfs.
Lemma ac_msk_sgood : sgood wf_ac_msk 66 (s_ac_msk W M).
Proof. structs. Qed.
Hint Resolve ac_msk_sgood : sds.
Definition wf_ac_ct (k : ac_ct C) : Prop :=
  wlen (act_c0 k) /\ wall wf_row (act_c k) /\ wbytes (act_ct k).
Hint Unfold wf_ac_ct : wfs.
Lemma ac_ct_sgood : sgood wf_ac_ct 68 (s_ac_ct W M).
Proof. structs. Qed.
Hint Resolve ac_ct_sgood : sds.
Definition wf_ac_cpct (k : ac_cpct C) : Prop :=
  wtext (fst (acp_policy k)) /\ wf_ac_ct (acp_ct k).
Hint Unfold wf_ac_cpct : wfs.
Lemma ac_cpct_sgood : sgood wf_ac_cpct 69 (s_ac_cpct W M).
Proof. structs. Qed.
Hint Resolve ac_cpct_sgood : sds.
Definition wf_ac_kpct (k : ac_kpct C) : Prop :=
  wall wtext (akp_attr k) /\ wf_ac_ct (akp_ct k).
Hint Unfold wf_ac_kpct : wfs.
Lemma ac_kpct_sgood : sgood wf_ac_kpct 69 (s_ac_kpct W M).
Proof. structs. Qed.
Hint Resolve ac_kpct_sgood : sds.
Definition wf_ac_sk (k : ac_sk C) : Prop :=
  wlen (ask_k0 k) /\ wall wf_row (ask_k k) /\ wlen (ask_kp k).
Hint Unfold wf_ac_sk : wfs.
Lemma ac_sk_sgood : sgood wf_ac_sk 68 (s_ac_sk W M).
Proof. structs. Qed.
Hint Resolve ac_sk_sgood : sds.
Definition wf_ac_kpsk (k : ac_kpsk C) : Prop :=
  wtext (fst (akps_policy k)) /\ wf_ac_sk (akps_sk k).
Hint Unfold wf_ac_kpsk : wfs.
Lemma ac_kpsk_sgood : sgood wf_ac_kpsk 69 (s_ac_kpsk W M).
Proof. structs. Qed.
Hint Resolve ac_kpsk_sgood : sds.
Definition wf_ac_cpsk (k : ac_cpsk C) : Prop :=
  wall wtext (acps_attr k) /\ wf_ac_sk (acps_sk k).
Hint Unfold wf_ac_cpsk : wfs.
Lemma ac_cpsk_sgood : sgood wf_ac_cpsk 69 (s_ac_cpsk W M).
Proof. structs. Qed.
Hint Resolve ac_cpsk_sgood : sds.

(** *** AW11 *)
Import Aw11.
Definition wf_awpk (e : string * GT C * G2 C) : Prop := wtext (fst (fst e)).
Hint Unfold wf_awpk : wfs.
Lemma awpk_sgood : sgood wf_awpk 65 (tri s_text gt g2).
Proof. tuples. Qed.
Definition wf_awmsk (e : string * F C * F C) : Prop := wtext (fst (fst e)).
Hint Unfold wf_awmsk : wfs.
Lemma awmsk_sgood : sgood wf_awmsk 65 (tri s_text f f).
Proof. tuples. Qed.
Definition wf_awct (e : string * GT C * G2 C * G2 C) : Prop := wtext (fst (fst (fst e))).
Hint Unfold wf_awct : wfs.
Lemma awct_sgood : sgood wf_awct 65 (quad s_text gt g2 g2).
Proof. tuples. Qed.
Definition wf_awsk (e : string * G1 C) : Prop := wtext (fst e).
Hint Unfold wf_awsk : wfs.
Lemma awsk_sgood : sgood wf_awsk 65 (duo s_text g1).
Proof. tuples. Qed.
Hint Resolve awpk_sgood awmsk_sgood awct_sgood awsk_sgood : sds.
Lemma aw_gk_sgood : sgood (fun _ => True) 65 (s_aw_gk W M).
Proof. structs. Qed.
Hint Resolve aw_gk_sgood : sds.
Definition wf_aw_pk (k : aw_pk C) : Prop :=
  wall wf_awpk (apk_attr k).
Hint Unfold wf_aw_pk : wfs.
Lemma aw_pk_sgood : sgood wf_aw_pk 67 (s_aw_pk W M).
Proof. structs. Qed.
Hint Resolve aw_pk_sgood : sds.
Definition wf_aw_msk (k : aw_msk C) : Prop :=
  wall wf_awmsk (amsk_attr k).
Hint Unfold wf_aw_msk : wfs.
Lemma aw_msk_sgood : sgood wf_aw_msk 67 (s_aw_msk W M).
Proof. structs. Qed.
Hint Resolve aw_msk_sgood : sds.
Definition wf_aw_ct (k : aw_ct C) : Prop :=
  wtext (fst (awct_policy k)) /\ wall wf_awct (awct_c k) /\ wbytes (awct_data k).
Hint Unfold wf_aw_ct : wfs.
Lemma aw_ct_sgood : sgood wf_aw_ct 67 (s_aw_ct W M).
Proof. structs. Qed.
Hint Resolve aw_ct_sgood : sds.
Definition wf_aw_sk (k : aw_sk C) : Prop :=
  wtext (awsk_gid k) /\ wall wf_awsk (awsk_attr k).
Hint Unfold wf_aw_sk : wfs.
Lemma aw_sk_sgood : sgood wf_aw_sk 67 (s_aw_sk W M).
Proof. structs. Qed.
Hint Resolve aw_sk_sgood : sds.

(** *** BDABE *)
Import Bdabe.
Lemma bd_pk_sgood : sgood (fun _ => True) 65 (s_bd_pk W M).
Proof. structs. Qed.
Hint Resolve bd_pk_sgood : sds.
Lemma bd_msk_sgood : sgood (fun _ => True) 65 (s_bd_msk W M).
Proof. structs. Qed.
Hint Resolve bd_msk_sgood : sds.
Definition wf_bd_upk (k : bd_upk C) : Prop :=
  wtext (bupk_u k).
Hint Unfold wf_bd_upk : wfs.
Lemma bd_upk_sgood : sgood wf_bd_upk 65 (s_bd_upk W M).
Proof. structs. Qed.
Hint Resolve bd_upk_sgood : sds.
Lemma bd_usk_sgood : sgood (fun _ => True) 65 (s_bd_usk W M).
Proof. structs. Qed.
Hint Resolve bd_usk_sgood : sds.
Definition wf_bd_ask (k : bd_ask C) : Prop :=
  wtext (bask_attr k).
Hint Unfold wf_bd_ask : wfs.
Lemma bd_ask_sgood : sgood wf_bd_ask 65 (s_bd_ask W M).
Proof. structs. Qed.
Hint Resolve bd_ask_sgood : sds.
Definition wf_bd_uk (k : bd_uk C) : Prop :=
  wf_bd_upk (buk_pk k) /\ wall wf_bd_ask (buk_ska k).
Hint Unfold wf_bd_uk : wfs.
Lemma bd_uk_sgood : sgood wf_bd_uk 67 (s_bd_uk W M).
Proof. structs. Qed.
Hint Resolve bd_uk_sgood : sds.
Definition wf_bd_apk (k : bd_apk C) : Prop :=
  wtext (bapk_attr k).
Hint Unfold wf_bd_apk : wfs.
Lemma bd_apk_sgood : sgood wf_bd_apk 65 (s_bd_apk W M).
Proof. structs. Qed.
Hint Resolve bd_apk_sgood : sds.
Definition wf_bd_auth (k : bd_auth C) : Prop :=
  wtext (bau_name k).
Hint Unfold wf_bd_auth : wfs.
Lemma bd_auth_sgood : sgood wf_bd_auth 65 (s_bd_auth W M).
Proof. structs. Qed.
Hint Resolve bd_auth_sgood : sds.
Definition wf_bd_tuple (k : bd_tuple C) : Prop :=
  wall wtext (bt_attr k).
Hint Unfold wf_bd_tuple : wfs.
Lemma bd_tuple_sgood : sgood wf_bd_tuple 65 (s_bd_tuple W M).
Proof. structs. Qed.
Hint Resolve bd_tuple_sgood : sds.
Definition wf_bd_ct (k : bd_ct C) : Prop :=
  wtext (fst (Bdabe.bct_policy k)) /\ wall wf_bd_tuple (bct_j k) /\ wbytes (Bdabe.bct_data k).
Hint Unfold wf_bd_ct : wfs.
Lemma bd_ct_sgood : sgood wf_bd_ct 67 (s_bd_ct W M).
Proof. structs. Qed.
Hint Resolve bd_ct_sgood : sds.

(** *** MKE08 *)
Import Mke08.
Lemma mk_pk_sgood : sgood (fun _ => True) 65 (s_mk_pk W M).
Proof. structs. Qed.
Hint Resolve mk_pk_sgood : sds.
Lemma mk_msk_sgood : sgood (fun _ => True) 65 (s_mk_msk W M).
Proof. structs. Qed.
Hint Resolve mk_msk_sgood : sds.
Definition wf_mk_upk (k : mk_upk C) : Prop :=
  wtext (mupk_name k).
Hint Unfold wf_mk_upk : wfs.
Lemma mk_upk_sgood : sgood wf_mk_upk 65 (s_mk_upk W M).
Proof. structs. Qed.
Hint Resolve mk_upk_sgood : sds.
Lemma mk_usk_sgood : sgood (fun _ => True) 65 (s_mk_usk W M).
Proof. structs. Qed.
Hint Resolve mk_usk_sgood : sds.
Definition wf_mk_auth (k : mk_auth C) : Prop :=
  wtext (mau_name k).
Hint Unfold wf_mk_auth : wfs.
Lemma mk_auth_sgood : sgood wf_mk_auth 65 (s_mk_auth W M).
Proof. structs. Qed.
Hint Resolve mk_auth_sgood : sds.
Definition wf_mk_apk (k : mk_apk C) : Prop :=
  wtext (mapk_attr k).
Hint Unfold wf_mk_apk : wfs.
Lemma mk_apk_sgood : sgood wf_mk_apk 65 (s_mk_apk W M).
Proof. structs. Qed.
Hint Resolve mk_apk_sgood : sds.
Definition wf_mk_ask (k : mk_ask C) : Prop :=
  wtext (mask_attr k).
Hint Unfold wf_mk_ask : wfs.
Lemma mk_ask_sgood : sgood wf_mk_ask 65 (s_mk_ask W M).
Proof. structs. Qed.
Hint Resolve mk_ask_sgood : sds.
Definition wf_mk_uk (k : mk_uk C) : Prop :=
  wf_mk_upk (muk_pk k) /\ wall wf_mk_ask (muk_ska k).
Hint Unfold wf_mk_uk : wfs.
Lemma mk_uk_sgood : sgood wf_mk_uk 67 (s_mk_uk W M).
Proof. structs. Qed.
Hint Resolve mk_uk_sgood : sds.
Definition wf_mk_conj (k : mk_conj C) : Prop :=
  wall wtext (mj_str k).
Hint Unfold wf_mk_conj : wfs.
Lemma mk_conj_sgood : sgood wf_mk_conj 65 (s_mk_conj W M).
Proof. structs. Qed.
Hint Resolve mk_conj_sgood : sds.
Definition wf_mk_ct (k : mk_ct C) : Prop :=
  wtext (fst (mct_policy k)) /\ wall wf_mk_conj (mct_e k) /\ wbytes (mct_data k).
Hint Unfold wf_mk_ct : wfs.
Lemma mk_ct_sgood : sgood wf_mk_ct 67 (s_mk_ct W M).
Proof. structs. Qed.
Hint Resolve mk_ct_sgood : sds.

End Types.
