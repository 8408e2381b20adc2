(** * BorshLayout: the bytes of every key and ciphertext under the feature "borsh"

    The statements were written down from the struct definitions in /repo, field by field, and from the
    specification of borsh: the fields of a struct one after the other, a vector as its length in four bytes,
    least significant first, followed by its elements, a string as the vector of its bytes. *)
From Coq Require Import String Ascii List Bool Arith NArith Lia.
From Verif Require Import Base Crypto Policy Files Borsh.
From Verif Require Bsw Lsw Yct14 Ac17 Aw11 Bdabe Mke08.
Import ListNotations.
Local Open Scope string_scope.

(** ** Specification *)

(** Parts one after the other; one that cannot be written makes the whole unwritable. *)
Fixpoint row (l : list (option string)) : option string :=
  match l with
  | [] => Some ""
  | p :: l => match p, row l with Some a, Some b => Some (a ++ b) | _, _ => None end
  end.
(** The [k] lowest bytes of a number, least significant first. *)
Fixpoint little_endian (k : nat) (n : N) : string :=
  match k with
  | O => ""
  | S k => String (ascii_of_N (n mod 256)) (little_endian k (n / 256))
  end.
(** A vector; more than 2^32 - 1 elements cannot be written. *)
Definition vec (l : list (option string)) : option string :=
  if (N.of_nat (List.length l) <? 2 ^ 32)%N
  then row (Some (little_endian 4 (N.of_nat (List.length l))) :: l) else None.
(** The bytes of a [String] or [Vec<u8>]. *)
Definition vec_u8 (s : string) : option string :=
  vec (map (fun b => Some (String b "")) (list_ascii_of_string s)).
(** The number of the variant of [PolicyLanguage]. *)
Definition variant_byte (l : language) : option string :=
  Some (String (match l with JsonPolicy => "000" | HumanPolicy => "001" end)%char "").

(** ** Proofs *)

Lemma str_app_assoc (a b c : string) : (a ++ b) ++ c = a ++ (b ++ c).
Proof. induction a as [| x a IH]; cbn; [reflexivity | now rewrite IH]. Qed.
Lemma str_app_nil (a : string) : a ++ "" = a.
Proof. induction a as [| x a IH]; cbn; [reflexivity | now rewrite IH]. Qed.

Lemma le4 n : little_endian 4 n = u32_bytes n.
Proof.
  unfold u32_bytes. cbn [little_endian].
  rewrite !N.div_div by discriminate. reflexivity.
Qed.

Lemma row_bytes l : row (map (fun b => Some (String b "")) l) = Some (string_of_list_ascii l).
Proof. induction l as [| b l IH]; cbn; [reflexivity | now rewrite IH]. Qed.

Lemma length_ascii s : List.length (list_ascii_of_string s) = String.length s.
Proof. induction s as [| b s IH]; cbn; [reflexivity | now rewrite IH]. Qed.

Lemma enc_bytes s : enc c_bytes s = vec_u8 s.
Proof.
  unfold vec_u8, vec. rewrite map_length, length_ascii. cbn [enc c_bytes c_len].
  change two32 with (2 ^ 32)%N. destruct (N.of_nat (String.length s) <? 2 ^ 32)%N; [| reflexivity].
  cbn [bind row]. rewrite row_bytes, string_of_list_ascii_of_string, le4. reflexivity.
Qed.

Lemma enc_string s : enc c_string s = vec_u8 s.
Proof. exact (enc_bytes s). Qed.

Lemma enc_lang l : enc c_lang l = variant_byte l.
Proof. destruct l; reflexivity. Qed.

Lemma enc_all_row {A} (c : codec A) f l : (forall x, enc c x = f x) -> enc_all c l = row (map f l).
Proof.
  intros H. induction l as [| x l IH]; cbn; [reflexivity |].
  rewrite H, IH. unfold bind. destruct (f x), (row (map f l)); reflexivity.
Qed.

Lemma enc_list {A} (c : codec A) f l : (forall x, enc c x = f x) -> enc (c_list c) l = vec (map f l).
Proof.
  intros H. unfold vec. rewrite map_length. cbn [enc c_list c_len].
  change two32 with (2 ^ 32)%N. destruct (N.of_nat (List.length l) <? 2 ^ 32)%N; [| reflexivity].
  cbn [bind row]. rewrite (enc_all_row _ f _ H), le4. unfold bind. destruct (row (map f l)); reflexivity.
Qed.

(** Pairs nest to the left, rows to the right. *)
Lemma row_one p : row [p] = p.
Proof. destruct p as [a |]; cbn; [now rewrite str_app_nil | reflexivity]. Qed.

Lemma row_snoc l p : row (l ++ [p])%list = bind (row l) (fun s => bind p (fun t => Some (s ++ t))).
Proof.
  induction l as [| q l IH].
  - cbn [List.app]. rewrite row_one. cbn. destruct p; reflexivity.
  - cbn [List.app row]. rewrite IH. destruct q as [a |]; [| reflexivity].
    destruct (row l) as [b |]; [| reflexivity]. cbn. destruct p; cbn; [now rewrite str_app_assoc | reflexivity].
Qed.

Lemma enc_pair_row {A B} (a : codec A) (b : codec B) l p v :
  enc a (fst v) = row l -> enc b (snd v) = p -> enc (c_pair a b) v = row (l ++ [p])%list.
Proof. intros Ha Hb. rewrite row_snoc, <- Ha, <- Hb. reflexivity. Qed.

(** A policy is two parts of the row. *)
Lemma row_split a b l : row (row [a; b] :: l) = row (a :: b :: l).
Proof.
  cbn. destruct a, b; cbn; try reflexivity.
  - destruct (row l); cbn; [now rewrite !str_app_assoc | reflexivity].
Qed.

Lemma enc_policy p : enc c_policy p = row [vec_u8 (fst p); variant_byte (snd p)].
Proof.
  unfold c_policy. apply (enc_pair_row c_string c_lang [vec_u8 (fst p)]); [| apply enc_lang].
  rewrite row_one. apply enc_string.
Qed.

Lemma borsh_result {A} (c : codec A) text o :
  enc_result c text o =
  match o with
  | Some v => row [Some (String "001" ""); enc c v]
  | None => row [Some (String "000" ""); vec_u8 text]
  end.
Proof.
  destruct o as [v |]; cbn [enc_result row].
  - destruct (enc c v); cbn; [now rewrite str_app_nil | reflexivity].
  - rewrite enc_string. destruct (vec_u8 text); cbn; [now rewrite str_app_nil | reflexivity].
Qed.

Section Layout.
Context {C : crypto} (W : wire C).

Ltac open_codec :=
  cbv beta delta [c_battr c_bsw_pk c_bsw_msk c_bsw_ct c_bsw_sk c_lsw_pk c_lsw_msk c_lsw_dj c_lsw_sk c_lsw_ej c_lsw_ct
    c_yattr c_yct_pk c_yct_msk c_yct_sk c_yct_ct c_ac_pk c_ac_msk c_ac_ct c_ac_cpct c_ac_kpct c_ac_sk c_ac_kpsk
    c_ac_cpsk c_aw_gk c_aw_pk c_aw_msk c_aw_ct c_aw_sk c_bd_pk c_bd_msk c_bd_upk c_bd_usk c_bd_ask c_bd_uk c_bd_apk
    c_bd_auth c_bd_tuple c_bd_ct c_mk_pk c_mk_msk c_mk_upk c_mk_usk c_mk_auth c_mk_apk c_mk_ask c_mk_uk c_mk_conj
    c_mk_ct].
Ltac parts :=
  cbn [enc c_as c_pair fst snd];
  rewrite ?enc_string, ?enc_bytes, ?enc_policy, ?enc_lang;
  repeat match goal with
  | |- context [enc (c_list ?c) ?l] =>
      match goal with |- context [vec (map ?f l)] =>
        rewrite (enc_list c f l) by (intros ?; first [reflexivity | apply enc_string | open_codec; parts])
      end
  end;
  repeat match goal with |- context [vec_u8 ?s] => generalize (vec_u8 s); intros ? end;
  repeat match goal with |- context [variant_byte ?s] => generalize (variant_byte s); intros ? end;
  repeat match goal with |- context [vec ?s] => generalize (vec s); intros ? end;
  repeat match goal with |- context [enc ?c ?s] => generalize (enc c s); intros ? end;
  repeat match goal with o : option string |- _ => destruct o end;
  cbn; rewrite ?str_app_assoc, ?str_app_nil; reflexivity.
(** [open_codec] only opens the codec at hand, since nested ones occur folded in the statements. *)
Ltac lay := intros k; match goal with |- enc ?c _ = _ => let c' := eval hnf in c in change (enc c) with (enc c') end; parts.

(** [CpAbeAttribute] *)
Lemma lay_c_battr : forall k : Bsw.battr C, enc (c_battr W) k = row
      [vec_u8 (Bsw.b_string k);
       enc (w_1 W) (Bsw.b_g1 k);
       enc (w_2 W) (Bsw.b_g2 k)].
Proof. lay. Qed.
(** [CpAbePublicKey] *)
Lemma lay_c_bsw_pk : forall k : Bsw.bsw_pk C, enc (c_bsw_pk W) k = row
      [enc (w_1 W) (Bsw.bpk_g1 k);
       enc (w_2 W) (Bsw.bpk_g2 k);
       enc (w_1 W) (Bsw.bpk_h k);
       enc (w_2 W) (Bsw.bpk_f k);
       enc (w_t W) (Bsw.bpk_egg k)].
Proof. lay. Qed.
(** [CpAbeMasterKey] *)
Lemma lay_c_bsw_msk : forall k : Bsw.bsw_msk C, enc (c_bsw_msk W) k = row
      [enc (w_f W) (Bsw.bmsk_beta k);
       enc (w_2 W) (Bsw.bmsk_g2a k)].
Proof. lay. Qed.
(** [CpAbeCiphertext] *)
Lemma lay_c_bsw_ct : forall k : Bsw.bsw_ct C, enc (c_bsw_ct W) k = row
      [vec_u8 (fst (Bsw.bct_policy k)); variant_byte (snd (Bsw.bct_policy k));
       enc (w_1 W) (Bsw.bct_c k);
       enc (w_t W) (Bsw.bct_cp k);
       vec (map (enc (c_battr W)) (Bsw.bct_cy k));
       vec_u8 (Bsw.bct_data k)].
Proof. lay. Qed.
(** [CpAbeSecretKey] *)
Lemma lay_c_bsw_sk : forall k : Bsw.bsw_sk C, enc (c_bsw_sk W) k = row
      [enc (w_2 W) (Bsw.bsk_d k);
       vec (map (enc (c_battr W)) (Bsw.bsk_dj k))].
Proof. lay. Qed.
(** [KpAbePublicKey] *)
Lemma lay_c_lsw_pk : forall k : Lsw.lsw_pk C, enc (c_lsw_pk W) k = row
      [enc (w_1 W) (Lsw.lpk_g1 k);
       enc (w_2 W) (Lsw.lpk_g2 k);
       enc (w_1 W) (Lsw.lpk_g1b k);
       enc (w_1 W) (Lsw.lpk_g1b2 k);
       enc (w_1 W) (Lsw.lpk_hb k);
       enc (w_t W) (Lsw.lpk_egg k)].
Proof. lay. Qed.
(** [KpAbeMasterKey] *)
Lemma lay_c_lsw_msk : forall k : Lsw.lsw_msk C, enc (c_lsw_msk W) k = row
      [enc (w_f W) (Lsw.lmsk_alpha1 k);
       enc (w_f W) (Lsw.lmsk_alpha2 k);
       enc (w_f W) (Lsw.lmsk_b k);
       enc (w_1 W) (Lsw.lmsk_hg1 k);
       enc (w_2 W) (Lsw.lmsk_hg2 k)].
Proof. lay. Qed.
(** [KpAbeSecretKey] *)
Lemma lay_c_lsw_sk : forall k : Lsw.lsw_sk C, enc (c_lsw_sk W) k = row
      [vec_u8 (fst (Lsw.lsk_policy k)); variant_byte (snd (Lsw.lsk_policy k));
       vec (map (fun x => row [vec_u8 (Lsw.ld_name x); enc (w_1 W) (Lsw.ld_1 x); enc (w_2 W) (Lsw.ld_2 x); enc (w_1 W) (Lsw.ld_3 x); enc (w_1 W) (Lsw.ld_4 x); enc (w_1 W) (Lsw.ld_5 x)]) (Lsw.lsk_dj k))].
Proof. lay. Qed.
(** [KpAbeCiphertext] *)
Lemma lay_c_lsw_ct : forall k : Lsw.lsw_ct C, enc (c_lsw_ct W) k = row
      [enc (w_t W) (Lsw.lct_e1 k);
       enc (w_2 W) (Lsw.lct_e2 k);
       vec (map (fun x => row [vec_u8 (Lsw.le_name x); enc (w_1 W) (Lsw.le_1 x); enc (w_1 W) (Lsw.le_2 x); enc (w_1 W) (Lsw.le_3 x)]) (Lsw.lct_ej k));
       vec_u8 (Lsw.lct_ct k)].
Proof. lay. Qed.
(** [Yct14AbePublicKey] *)
Lemma lay_c_yct_pk : forall k : Yct14.yct_pk C, enc (c_yct_pk W) k = row
      [enc (w_t W) (Yct14.ypk_g k);
       vec (map (fun x => row [vec_u8 (Yct14.y_name x)]) (Yct14.ypk_attrs k))].
Proof. lay. Qed.
(** [Yct14AbeMasterKey] *)
Lemma lay_c_yct_msk : forall k : Yct14.yct_msk C, enc (c_yct_msk W) k = row
      [enc (w_f W) (Yct14.ymsk_s k);
       vec (map (fun x => row [vec_u8 (Yct14.y_name x)]) (Yct14.ymsk_attrs k))].
Proof. lay. Qed.
(** [Yct14AbeSecretKey] *)
Lemma lay_c_yct_sk : forall k : Yct14.yct_sk C, enc (@c_yct_sk C) k = row
      [vec_u8 (fst (Yct14.ysk_policy k)); variant_byte (snd (Yct14.ysk_policy k));
       vec (map (fun x => row [vec_u8 (Yct14.y_name x)]) (Yct14.ysk_du k))].
Proof. lay. Qed.
(** [Yct14AbeCiphertext] *)
Lemma lay_c_yct_ct : forall k : Yct14.yct_ct C, enc (@c_yct_ct C) k = row
      [vec (map (fun x => row [vec_u8 (Yct14.y_name x)]) (Yct14.yct_attrs k));
       vec_u8 (Yct14.yct_data k)].
Proof. lay. Qed.
(** [Ac17PublicKey] *)
Lemma lay_c_ac_pk : forall k : Ac17.ac_pk C, enc (c_ac_pk W) k = row
      [enc (w_1 W) (Ac17.apk_g k);
       vec (map (enc (w_2 W)) (Ac17.apk_ha k));
       vec (map (enc (w_t W)) (Ac17.apk_egh k))].
Proof. lay. Qed.
(** [Ac17MasterKey] *)
Lemma lay_c_ac_msk : forall k : Ac17.ac_msk C, enc (c_ac_msk W) k = row
      [enc (w_1 W) (Ac17.amsk_g k);
       enc (w_2 W) (Ac17.amsk_h k);
       vec (map (enc (w_1 W)) (Ac17.amsk_gk k));
       vec (map (enc (w_f W)) (Ac17.amsk_a k));
       vec (map (enc (w_f W)) (Ac17.amsk_b k))].
Proof. lay. Qed.
(** [Ac17Ciphertext] *)
Lemma lay_c_ac_ct : forall k : Ac17.ac_ct C, enc (c_ac_ct W) k = row
      [vec (map (enc (w_2 W)) (Ac17.act_c0 k));
       vec (map (fun x => row [vec_u8 (fst x); vec (map (enc (w_1 W)) (snd x))]) (Ac17.act_c k));
       enc (w_t W) (Ac17.act_cp k);
       vec_u8 (Ac17.act_ct k)].
Proof. lay. Qed.
(** [Ac17CpCiphertext] *)
Lemma lay_c_ac_cpct : forall k : Ac17.ac_cpct C, enc (c_ac_cpct W) k = row
      [vec_u8 (fst (Ac17.acp_policy k)); variant_byte (snd (Ac17.acp_policy k));
       enc (c_ac_ct W) (Ac17.acp_ct k)].
Proof. lay. Qed.
(** [Ac17KpCiphertext] *)
Lemma lay_c_ac_kpct : forall k : Ac17.ac_kpct C, enc (c_ac_kpct W) k = row
      [vec (map vec_u8 (Ac17.akp_attr k));
       enc (c_ac_ct W) (Ac17.akp_ct k)].
Proof. lay. Qed.
(** [Ac17SecretKey] *)
Lemma lay_c_ac_sk : forall k : Ac17.ac_sk C, enc (c_ac_sk W) k = row
      [vec (map (enc (w_2 W)) (Ac17.ask_k0 k));
       vec (map (fun x => row [vec_u8 (fst x); vec (map (enc (w_1 W)) (snd x))]) (Ac17.ask_k k));
       vec (map (enc (w_1 W)) (Ac17.ask_kp k))].
Proof. lay. Qed.
(** [Ac17KpSecretKey] *)
Lemma lay_c_ac_kpsk : forall k : Ac17.ac_kpsk C, enc (c_ac_kpsk W) k = row
      [vec_u8 (fst (Ac17.akps_policy k)); variant_byte (snd (Ac17.akps_policy k));
       enc (c_ac_sk W) (Ac17.akps_sk k)].
Proof. lay. Qed.
(** [Ac17CpSecretKey] *)
Lemma lay_c_ac_cpsk : forall k : Ac17.ac_cpsk C, enc (c_ac_cpsk W) k = row
      [vec (map vec_u8 (Ac17.acps_attr k));
       enc (c_ac_sk W) (Ac17.acps_sk k)].
Proof. lay. Qed.
(** [Aw11GlobalKey] *)
Lemma lay_c_aw_gk : forall k : Aw11.aw_gk C, enc (c_aw_gk W) k = row
      [enc (w_1 W) (Aw11.agk_g1 k);
       enc (w_2 W) (Aw11.agk_g2 k)].
Proof. lay. Qed.
(** [Aw11PublicKey] *)
Lemma lay_c_aw_pk : forall k : Aw11.aw_pk C, enc (c_aw_pk W) k = row
      [vec (map (fun x => row [vec_u8 (fst (fst x)); enc (w_t W) (snd (fst x)); enc (w_2 W) (snd x)]) (Aw11.apk_attr k))].
Proof. lay. Qed.
(** [Aw11MasterKey] *)
Lemma lay_c_aw_msk : forall k : Aw11.aw_msk C, enc (c_aw_msk W) k = row
      [vec (map (fun x => row [vec_u8 (fst (fst x)); enc (w_f W) (snd (fst x)); enc (w_f W) (snd x)]) (Aw11.amsk_attr k))].
Proof. lay. Qed.
(** [Aw11Ciphertext] *)
Lemma lay_c_aw_ct : forall k : Aw11.aw_ct C, enc (c_aw_ct W) k = row
      [vec_u8 (fst (Aw11.awct_policy k)); variant_byte (snd (Aw11.awct_policy k));
       enc (w_t W) (Aw11.awct_c0 k);
       vec (map (fun x => row [vec_u8 (fst (fst (fst x))); enc (w_t W) (snd (fst (fst x))); enc (w_2 W) (snd (fst x)); enc (w_2 W) (snd x)]) (Aw11.awct_c k));
       vec_u8 (Aw11.awct_data k)].
Proof. lay. Qed.
(** [Aw11SecretKey] *)
Lemma lay_c_aw_sk : forall k : Aw11.aw_sk C, enc (c_aw_sk W) k = row
      [vec_u8 (Aw11.awsk_gid k);
       vec (map (fun x => row [vec_u8 (fst x); enc (w_1 W) (snd x)]) (Aw11.awsk_attr k))].
Proof. lay. Qed.
(** [BdabePublicKey] *)
Lemma lay_c_bd_pk : forall k : Bdabe.bd_pk C, enc (c_bd_pk W) k = row
      [enc (w_1 W) (Bdabe.bpk_g1 k);
       enc (w_2 W) (Bdabe.bpk_g2 k);
       enc (w_1 W) (Bdabe.bpk_p1 k);
       enc (w_2 W) (Bdabe.bpk_p2 k);
       enc (w_t W) (Bdabe.bpk_egg k)].
Proof. lay. Qed.
(** [BdabeMasterKey] *)
Lemma lay_c_bd_msk : forall k : Bdabe.bd_msk C, enc (c_bd_msk W) k = row
      [enc (w_f W) (Bdabe.bmsk_y k)].
Proof. lay. Qed.
(** [BdabePublicUserKey] *)
Lemma lay_c_bd_upk : forall k : Bdabe.bd_upk C, enc (c_bd_upk W) k = row
      [vec_u8 (Bdabe.bupk_u k);
       enc (w_1 W) (Bdabe.bupk_u1 k);
       enc (w_2 W) (Bdabe.bupk_u2 k)].
Proof. lay. Qed.
(** [BdabeSecretUserKey] *)
Lemma lay_c_bd_usk : forall k : Bdabe.bd_usk C, enc (c_bd_usk W) k = row
      [enc (w_1 W) (Bdabe.busk_u1 k);
       enc (w_2 W) (Bdabe.busk_u2 k)].
Proof. lay. Qed.
(** [BdabeSecretAttributeKey] *)
Lemma lay_c_bd_ask : forall k : Bdabe.bd_ask C, enc (c_bd_ask W) k = row
      [vec_u8 (Bdabe.bask_attr k);
       enc (w_1 W) (Bdabe.bask_au1 k);
       enc (w_2 W) (Bdabe.bask_au2 k)].
Proof. lay. Qed.
(** [BdabeUserKey] *)
Lemma lay_c_bd_uk : forall k : Bdabe.bd_uk C, enc (c_bd_uk W) k = row
      [enc (c_bd_usk W) (Bdabe.buk_sk k);
       enc (c_bd_upk W) (Bdabe.buk_pk k);
       vec (map (enc (c_bd_ask W)) (Bdabe.buk_ska k))].
Proof. lay. Qed.
(** [BdabePublicAttributeKey] *)
Lemma lay_c_bd_apk : forall k : Bdabe.bd_apk C, enc (c_bd_apk W) k = row
      [vec_u8 (Bdabe.bapk_attr k);
       enc (w_1 W) (Bdabe.bapk_a1 k);
       enc (w_2 W) (Bdabe.bapk_a2 k);
       enc (w_t W) (Bdabe.bapk_a3 k)].
Proof. lay. Qed.
(** [BdabeSecretAuthorityKey] *)
Lemma lay_c_bd_auth : forall k : Bdabe.bd_auth C, enc (c_bd_auth W) k = row
      [vec_u8 (Bdabe.bau_name k);
       enc (w_1 W) (Bdabe.bau_a1 k);
       enc (w_2 W) (Bdabe.bau_a2 k);
       enc (w_f W) (Bdabe.bau_a3 k)].
Proof. lay. Qed.
(** [BdabeCiphertextTuple] *)
Lemma lay_c_bd_tuple : forall k : Bdabe.bd_tuple C, enc (c_bd_tuple W) k = row
      [vec (map vec_u8 (Bdabe.bt_attr k));
       enc (w_t W) (Bdabe.bt_e1 k);
       enc (w_1 W) (Bdabe.bt_e2 k);
       enc (w_2 W) (Bdabe.bt_e3 k);
       enc (w_1 W) (Bdabe.bt_e4 k);
       enc (w_2 W) (Bdabe.bt_e5 k)].
Proof. lay. Qed.
(** [BdabeCiphertext] *)
Lemma lay_c_bd_ct : forall k : Bdabe.bd_ct C, enc (c_bd_ct W) k = row
      [vec_u8 (fst (Bdabe.bct_policy k)); variant_byte (snd (Bdabe.bct_policy k));
       vec (map (enc (c_bd_tuple W)) (Bdabe.bct_j k));
       vec_u8 (Bdabe.bct_data k)].
Proof. lay. Qed.
(** [Mke08PublicKey] *)
Lemma lay_c_mk_pk : forall k : Mke08.mk_pk C, enc (c_mk_pk W) k = row
      [enc (w_1 W) (Mke08.mpk_g1 k);
       enc (w_2 W) (Mke08.mpk_g2 k);
       enc (w_1 W) (Mke08.mpk_p1 k);
       enc (w_2 W) (Mke08.mpk_p2 k);
       enc (w_t W) (Mke08.mpk_egg1 k);
       enc (w_t W) (Mke08.mpk_egg2 k)].
Proof. lay. Qed.
(** [Mke08MasterKey] *)
Lemma lay_c_mk_msk : forall k : Mke08.mk_msk C, enc (c_mk_msk W) k = row
      [enc (w_1 W) (Mke08.mmsk_g1 k);
       enc (w_2 W) (Mke08.mmsk_g2 k)].
Proof. lay. Qed.
(** [Mke08PublicUserKey] *)
Lemma lay_c_mk_upk : forall k : Mke08.mk_upk C, enc (c_mk_upk W) k = row
      [vec_u8 (Mke08.mupk_name k);
       enc (w_1 W) (Mke08.mupk_g1 k);
       enc (w_2 W) (Mke08.mupk_g2 k)].
Proof. lay. Qed.
(** [Mke08SecretUserKey] *)
Lemma lay_c_mk_usk : forall k : Mke08.mk_usk C, enc (c_mk_usk W) k = row
      [enc (w_1 W) (Mke08.musk_g1 k);
       enc (w_2 W) (Mke08.musk_g2 k)].
Proof. lay. Qed.
(** [Mke08SecretAuthorityKey] *)
Lemma lay_c_mk_auth : forall k : Mke08.mk_auth C, enc (c_mk_auth W) k = row
      [vec_u8 (Mke08.mau_name k);
       enc (w_f W) (Mke08.mau_r k)].
Proof. lay. Qed.
(** [Mke08PublicAttributeKey] *)
Lemma lay_c_mk_apk : forall k : Mke08.mk_apk C, enc (c_mk_apk W) k = row
      [vec_u8 (Mke08.mapk_attr k);
       enc (w_1 W) (Mke08.mapk_g1 k);
       enc (w_2 W) (Mke08.mapk_g2 k);
       enc (w_t W) (Mke08.mapk_gt1 k);
       enc (w_t W) (Mke08.mapk_gt2 k)].
Proof. lay. Qed.
(** [Mke08SecretAttributeKey] *)
Lemma lay_c_mk_ask : forall k : Mke08.mk_ask C, enc (c_mk_ask W) k = row
      [vec_u8 (Mke08.mask_attr k);
       enc (w_1 W) (Mke08.mask_g1 k);
       enc (w_2 W) (Mke08.mask_g2 k)].
Proof. lay. Qed.
(** [Mke08UserKey] *)
Lemma lay_c_mk_uk : forall k : Mke08.mk_uk C, enc (c_mk_uk W) k = row
      [enc (c_mk_usk W) (Mke08.muk_sk k);
       enc (c_mk_upk W) (Mke08.muk_pk k);
       vec (map (enc (c_mk_ask W)) (Mke08.muk_ska k))].
Proof. lay. Qed.
(** [Mke08CTConjunction] *)
Lemma lay_c_mk_conj : forall k : Mke08.mk_conj C, enc (c_mk_conj W) k = row
      [vec (map vec_u8 (Mke08.mj_str k));
       enc (w_t W) (Mke08.mj_1 k);
       enc (w_t W) (Mke08.mj_2 k);
       enc (w_1 W) (Mke08.mj_3 k);
       enc (w_2 W) (Mke08.mj_4 k);
       enc (w_1 W) (Mke08.mj_5 k);
       enc (w_2 W) (Mke08.mj_6 k)].
Proof. lay. Qed.
(** [Mke08Ciphertext] *)
Lemma lay_c_mk_ct : forall k : Mke08.mk_ct C, enc (c_mk_ct W) k = row
      [vec_u8 (fst (Mke08.mct_policy k)); variant_byte (snd (Mke08.mct_policy k));
       vec (map (enc (c_mk_conj W)) (Mke08.mct_e k));
       vec_u8 (Mke08.mct_data k)].
Proof. lay. Qed.

Lemma borsh_bsw :
  (forall k : Bsw.battr C, enc (c_battr W) k = row
      [vec_u8 (Bsw.b_string k);
       enc (w_1 W) (Bsw.b_g1 k);
       enc (w_2 W) (Bsw.b_g2 k)]) /\
  (forall k : Bsw.bsw_pk C, enc (c_bsw_pk W) k = row
      [enc (w_1 W) (Bsw.bpk_g1 k);
       enc (w_2 W) (Bsw.bpk_g2 k);
       enc (w_1 W) (Bsw.bpk_h k);
       enc (w_2 W) (Bsw.bpk_f k);
       enc (w_t W) (Bsw.bpk_egg k)]) /\
  (forall k : Bsw.bsw_msk C, enc (c_bsw_msk W) k = row
      [enc (w_f W) (Bsw.bmsk_beta k);
       enc (w_2 W) (Bsw.bmsk_g2a k)]) /\
  (forall k : Bsw.bsw_ct C, enc (c_bsw_ct W) k = row
      [vec_u8 (fst (Bsw.bct_policy k)); variant_byte (snd (Bsw.bct_policy k));
       enc (w_1 W) (Bsw.bct_c k);
       enc (w_t W) (Bsw.bct_cp k);
       vec (map (enc (c_battr W)) (Bsw.bct_cy k));
       vec_u8 (Bsw.bct_data k)]) /\
  (forall k : Bsw.bsw_sk C, enc (c_bsw_sk W) k = row
      [enc (w_2 W) (Bsw.bsk_d k);
       vec (map (enc (c_battr W)) (Bsw.bsk_dj k))]).
Proof. repeat apply conj; [exact lay_c_battr | exact lay_c_bsw_pk | exact lay_c_bsw_msk | exact lay_c_bsw_ct | exact lay_c_bsw_sk] || (repeat apply conj; first [exact lay_c_battr | exact lay_c_bsw_pk | exact lay_c_bsw_msk | exact lay_c_bsw_ct | exact lay_c_bsw_sk]). Qed.

Lemma borsh_lsw :
  (forall k : Lsw.lsw_pk C, enc (c_lsw_pk W) k = row
      [enc (w_1 W) (Lsw.lpk_g1 k);
       enc (w_2 W) (Lsw.lpk_g2 k);
       enc (w_1 W) (Lsw.lpk_g1b k);
       enc (w_1 W) (Lsw.lpk_g1b2 k);
       enc (w_1 W) (Lsw.lpk_hb k);
       enc (w_t W) (Lsw.lpk_egg k)]) /\
  (forall k : Lsw.lsw_msk C, enc (c_lsw_msk W) k = row
      [enc (w_f W) (Lsw.lmsk_alpha1 k);
       enc (w_f W) (Lsw.lmsk_alpha2 k);
       enc (w_f W) (Lsw.lmsk_b k);
       enc (w_1 W) (Lsw.lmsk_hg1 k);
       enc (w_2 W) (Lsw.lmsk_hg2 k)]) /\
  (forall k : Lsw.lsw_sk C, enc (c_lsw_sk W) k = row
      [vec_u8 (fst (Lsw.lsk_policy k)); variant_byte (snd (Lsw.lsk_policy k));
       vec (map (fun x => row [vec_u8 (Lsw.ld_name x); enc (w_1 W) (Lsw.ld_1 x); enc (w_2 W) (Lsw.ld_2 x); enc (w_1 W) (Lsw.ld_3 x); enc (w_1 W) (Lsw.ld_4 x); enc (w_1 W) (Lsw.ld_5 x)]) (Lsw.lsk_dj k))]) /\
  (forall k : Lsw.lsw_ct C, enc (c_lsw_ct W) k = row
      [enc (w_t W) (Lsw.lct_e1 k);
       enc (w_2 W) (Lsw.lct_e2 k);
       vec (map (fun x => row [vec_u8 (Lsw.le_name x); enc (w_1 W) (Lsw.le_1 x); enc (w_1 W) (Lsw.le_2 x); enc (w_1 W) (Lsw.le_3 x)]) (Lsw.lct_ej k));
       vec_u8 (Lsw.lct_ct k)]).
Proof. repeat apply conj; [exact lay_c_lsw_pk | exact lay_c_lsw_msk | exact lay_c_lsw_sk | exact lay_c_lsw_ct] || (repeat apply conj; first [exact lay_c_lsw_pk | exact lay_c_lsw_msk | exact lay_c_lsw_sk | exact lay_c_lsw_ct]). Qed.

Lemma borsh_yct :
  (forall k : Yct14.yct_pk C, enc (c_yct_pk W) k = row
      [enc (w_t W) (Yct14.ypk_g k);
       vec (map (fun x => row [vec_u8 (Yct14.y_name x)]) (Yct14.ypk_attrs k))]) /\
  (forall k : Yct14.yct_msk C, enc (c_yct_msk W) k = row
      [enc (w_f W) (Yct14.ymsk_s k);
       vec (map (fun x => row [vec_u8 (Yct14.y_name x)]) (Yct14.ymsk_attrs k))]) /\
  (forall k : Yct14.yct_sk C, enc (@c_yct_sk C) k = row
      [vec_u8 (fst (Yct14.ysk_policy k)); variant_byte (snd (Yct14.ysk_policy k));
       vec (map (fun x => row [vec_u8 (Yct14.y_name x)]) (Yct14.ysk_du k))]) /\
  (forall k : Yct14.yct_ct C, enc (@c_yct_ct C) k = row
      [vec (map (fun x => row [vec_u8 (Yct14.y_name x)]) (Yct14.yct_attrs k));
       vec_u8 (Yct14.yct_data k)]).
Proof. repeat apply conj; [exact lay_c_yct_pk | exact lay_c_yct_msk | exact lay_c_yct_sk | exact lay_c_yct_ct] || (repeat apply conj; first [exact lay_c_yct_pk | exact lay_c_yct_msk | exact lay_c_yct_sk | exact lay_c_yct_ct]). Qed.

Lemma borsh_ac17 :
  (forall k : Ac17.ac_pk C, enc (c_ac_pk W) k = row
      [enc (w_1 W) (Ac17.apk_g k);
       vec (map (enc (w_2 W)) (Ac17.apk_ha k));
       vec (map (enc (w_t W)) (Ac17.apk_egh k))]) /\
  (forall k : Ac17.ac_msk C, enc (c_ac_msk W) k = row
      [enc (w_1 W) (Ac17.amsk_g k);
       enc (w_2 W) (Ac17.amsk_h k);
       vec (map (enc (w_1 W)) (Ac17.amsk_gk k));
       vec (map (enc (w_f W)) (Ac17.amsk_a k));
       vec (map (enc (w_f W)) (Ac17.amsk_b k))]) /\
  (forall k : Ac17.ac_ct C, enc (c_ac_ct W) k = row
      [vec (map (enc (w_2 W)) (Ac17.act_c0 k));
       vec (map (fun x => row [vec_u8 (fst x); vec (map (enc (w_1 W)) (snd x))]) (Ac17.act_c k));
       enc (w_t W) (Ac17.act_cp k);
       vec_u8 (Ac17.act_ct k)]) /\
  (forall k : Ac17.ac_cpct C, enc (c_ac_cpct W) k = row
      [vec_u8 (fst (Ac17.acp_policy k)); variant_byte (snd (Ac17.acp_policy k));
       enc (c_ac_ct W) (Ac17.acp_ct k)]) /\
  (forall k : Ac17.ac_kpct C, enc (c_ac_kpct W) k = row
      [vec (map vec_u8 (Ac17.akp_attr k));
       enc (c_ac_ct W) (Ac17.akp_ct k)]) /\
  (forall k : Ac17.ac_sk C, enc (c_ac_sk W) k = row
      [vec (map (enc (w_2 W)) (Ac17.ask_k0 k));
       vec (map (fun x => row [vec_u8 (fst x); vec (map (enc (w_1 W)) (snd x))]) (Ac17.ask_k k));
       vec (map (enc (w_1 W)) (Ac17.ask_kp k))]) /\
  (forall k : Ac17.ac_kpsk C, enc (c_ac_kpsk W) k = row
      [vec_u8 (fst (Ac17.akps_policy k)); variant_byte (snd (Ac17.akps_policy k));
       enc (c_ac_sk W) (Ac17.akps_sk k)]) /\
  (forall k : Ac17.ac_cpsk C, enc (c_ac_cpsk W) k = row
      [vec (map vec_u8 (Ac17.acps_attr k));
       enc (c_ac_sk W) (Ac17.acps_sk k)]).
Proof. repeat apply conj; [exact lay_c_ac_pk | exact lay_c_ac_msk | exact lay_c_ac_ct | exact lay_c_ac_cpct | exact lay_c_ac_kpct | exact lay_c_ac_sk | exact lay_c_ac_kpsk | exact lay_c_ac_cpsk] || (repeat apply conj; first [exact lay_c_ac_pk | exact lay_c_ac_msk | exact lay_c_ac_ct | exact lay_c_ac_cpct | exact lay_c_ac_kpct | exact lay_c_ac_sk | exact lay_c_ac_kpsk | exact lay_c_ac_cpsk]). Qed.

Lemma borsh_aw :
  (forall k : Aw11.aw_gk C, enc (c_aw_gk W) k = row
      [enc (w_1 W) (Aw11.agk_g1 k);
       enc (w_2 W) (Aw11.agk_g2 k)]) /\
  (forall k : Aw11.aw_pk C, enc (c_aw_pk W) k = row
      [vec (map (fun x => row [vec_u8 (fst (fst x)); enc (w_t W) (snd (fst x)); enc (w_2 W) (snd x)]) (Aw11.apk_attr k))]) /\
  (forall k : Aw11.aw_msk C, enc (c_aw_msk W) k = row
      [vec (map (fun x => row [vec_u8 (fst (fst x)); enc (w_f W) (snd (fst x)); enc (w_f W) (snd x)]) (Aw11.amsk_attr k))]) /\
  (forall k : Aw11.aw_ct C, enc (c_aw_ct W) k = row
      [vec_u8 (fst (Aw11.awct_policy k)); variant_byte (snd (Aw11.awct_policy k));
       enc (w_t W) (Aw11.awct_c0 k);
       vec (map (fun x => row [vec_u8 (fst (fst (fst x))); enc (w_t W) (snd (fst (fst x))); enc (w_2 W) (snd (fst x)); enc (w_2 W) (snd x)]) (Aw11.awct_c k));
       vec_u8 (Aw11.awct_data k)]) /\
  (forall k : Aw11.aw_sk C, enc (c_aw_sk W) k = row
      [vec_u8 (Aw11.awsk_gid k);
       vec (map (fun x => row [vec_u8 (fst x); enc (w_1 W) (snd x)]) (Aw11.awsk_attr k))]).
Proof. repeat apply conj; [exact lay_c_aw_gk | exact lay_c_aw_pk | exact lay_c_aw_msk | exact lay_c_aw_ct | exact lay_c_aw_sk] || (repeat apply conj; first [exact lay_c_aw_gk | exact lay_c_aw_pk | exact lay_c_aw_msk | exact lay_c_aw_ct | exact lay_c_aw_sk]). Qed.

Lemma borsh_bdabe :
  (forall k : Bdabe.bd_pk C, enc (c_bd_pk W) k = row
      [enc (w_1 W) (Bdabe.bpk_g1 k);
       enc (w_2 W) (Bdabe.bpk_g2 k);
       enc (w_1 W) (Bdabe.bpk_p1 k);
       enc (w_2 W) (Bdabe.bpk_p2 k);
       enc (w_t W) (Bdabe.bpk_egg k)]) /\
  (forall k : Bdabe.bd_msk C, enc (c_bd_msk W) k = row
      [enc (w_f W) (Bdabe.bmsk_y k)]) /\
  (forall k : Bdabe.bd_upk C, enc (c_bd_upk W) k = row
      [vec_u8 (Bdabe.bupk_u k);
       enc (w_1 W) (Bdabe.bupk_u1 k);
       enc (w_2 W) (Bdabe.bupk_u2 k)]) /\
  (forall k : Bdabe.bd_usk C, enc (c_bd_usk W) k = row
      [enc (w_1 W) (Bdabe.busk_u1 k);
       enc (w_2 W) (Bdabe.busk_u2 k)]) /\
  (forall k : Bdabe.bd_ask C, enc (c_bd_ask W) k = row
      [vec_u8 (Bdabe.bask_attr k);
       enc (w_1 W) (Bdabe.bask_au1 k);
       enc (w_2 W) (Bdabe.bask_au2 k)]) /\
  (forall k : Bdabe.bd_uk C, enc (c_bd_uk W) k = row
      [enc (c_bd_usk W) (Bdabe.buk_sk k);
       enc (c_bd_upk W) (Bdabe.buk_pk k);
       vec (map (enc (c_bd_ask W)) (Bdabe.buk_ska k))]) /\
  (forall k : Bdabe.bd_apk C, enc (c_bd_apk W) k = row
      [vec_u8 (Bdabe.bapk_attr k);
       enc (w_1 W) (Bdabe.bapk_a1 k);
       enc (w_2 W) (Bdabe.bapk_a2 k);
       enc (w_t W) (Bdabe.bapk_a3 k)]) /\
  (forall k : Bdabe.bd_auth C, enc (c_bd_auth W) k = row
      [vec_u8 (Bdabe.bau_name k);
       enc (w_1 W) (Bdabe.bau_a1 k);
       enc (w_2 W) (Bdabe.bau_a2 k);
       enc (w_f W) (Bdabe.bau_a3 k)]) /\
  (forall k : Bdabe.bd_tuple C, enc (c_bd_tuple W) k = row
      [vec (map vec_u8 (Bdabe.bt_attr k));
       enc (w_t W) (Bdabe.bt_e1 k);
       enc (w_1 W) (Bdabe.bt_e2 k);
       enc (w_2 W) (Bdabe.bt_e3 k);
       enc (w_1 W) (Bdabe.bt_e4 k);
       enc (w_2 W) (Bdabe.bt_e5 k)]) /\
  (forall k : Bdabe.bd_ct C, enc (c_bd_ct W) k = row
      [vec_u8 (fst (Bdabe.bct_policy k)); variant_byte (snd (Bdabe.bct_policy k));
       vec (map (enc (c_bd_tuple W)) (Bdabe.bct_j k));
       vec_u8 (Bdabe.bct_data k)]).
Proof. repeat apply conj; [exact lay_c_bd_pk | exact lay_c_bd_msk | exact lay_c_bd_upk | exact lay_c_bd_usk | exact lay_c_bd_ask | exact lay_c_bd_uk | exact lay_c_bd_apk | exact lay_c_bd_auth | exact lay_c_bd_tuple | exact lay_c_bd_ct] || (repeat apply conj; first [exact lay_c_bd_pk | exact lay_c_bd_msk | exact lay_c_bd_upk | exact lay_c_bd_usk | exact lay_c_bd_ask | exact lay_c_bd_uk | exact lay_c_bd_apk | exact lay_c_bd_auth | exact lay_c_bd_tuple | exact lay_c_bd_ct]). Qed.

Lemma borsh_mke :
  (forall k : Mke08.mk_pk C, enc (c_mk_pk W) k = row
      [enc (w_1 W) (Mke08.mpk_g1 k);
       enc (w_2 W) (Mke08.mpk_g2 k);
       enc (w_1 W) (Mke08.mpk_p1 k);
       enc (w_2 W) (Mke08.mpk_p2 k);
       enc (w_t W) (Mke08.mpk_egg1 k);
       enc (w_t W) (Mke08.mpk_egg2 k)]) /\
  (forall k : Mke08.mk_msk C, enc (c_mk_msk W) k = row
      [enc (w_1 W) (Mke08.mmsk_g1 k);
       enc (w_2 W) (Mke08.mmsk_g2 k)]) /\
  (forall k : Mke08.mk_upk C, enc (c_mk_upk W) k = row
      [vec_u8 (Mke08.mupk_name k);
       enc (w_1 W) (Mke08.mupk_g1 k);
       enc (w_2 W) (Mke08.mupk_g2 k)]) /\
  (forall k : Mke08.mk_usk C, enc (c_mk_usk W) k = row
      [enc (w_1 W) (Mke08.musk_g1 k);
       enc (w_2 W) (Mke08.musk_g2 k)]) /\
  (forall k : Mke08.mk_auth C, enc (c_mk_auth W) k = row
      [vec_u8 (Mke08.mau_name k);
       enc (w_f W) (Mke08.mau_r k)]) /\
  (forall k : Mke08.mk_apk C, enc (c_mk_apk W) k = row
      [vec_u8 (Mke08.mapk_attr k);
       enc (w_1 W) (Mke08.mapk_g1 k);
       enc (w_2 W) (Mke08.mapk_g2 k);
       enc (w_t W) (Mke08.mapk_gt1 k);
       enc (w_t W) (Mke08.mapk_gt2 k)]) /\
  (forall k : Mke08.mk_ask C, enc (c_mk_ask W) k = row
      [vec_u8 (Mke08.mask_attr k);
       enc (w_1 W) (Mke08.mask_g1 k);
       enc (w_2 W) (Mke08.mask_g2 k)]) /\
  (forall k : Mke08.mk_uk C, enc (c_mk_uk W) k = row
      [enc (c_mk_usk W) (Mke08.muk_sk k);
       enc (c_mk_upk W) (Mke08.muk_pk k);
       vec (map (enc (c_mk_ask W)) (Mke08.muk_ska k))]) /\
  (forall k : Mke08.mk_conj C, enc (c_mk_conj W) k = row
      [vec (map vec_u8 (Mke08.mj_str k));
       enc (w_t W) (Mke08.mj_1 k);
       enc (w_t W) (Mke08.mj_2 k);
       enc (w_1 W) (Mke08.mj_3 k);
       enc (w_2 W) (Mke08.mj_4 k);
       enc (w_1 W) (Mke08.mj_5 k);
       enc (w_2 W) (Mke08.mj_6 k)]) /\
  (forall k : Mke08.mk_ct C, enc (c_mk_ct W) k = row
      [vec_u8 (fst (Mke08.mct_policy k)); variant_byte (snd (Mke08.mct_policy k));
       vec (map (enc (c_mk_conj W)) (Mke08.mct_e k));
       vec_u8 (Mke08.mct_data k)]).
Proof. repeat apply conj; [exact lay_c_mk_pk | exact lay_c_mk_msk | exact lay_c_mk_upk | exact lay_c_mk_usk | exact lay_c_mk_auth | exact lay_c_mk_apk | exact lay_c_mk_ask | exact lay_c_mk_uk | exact lay_c_mk_conj | exact lay_c_mk_ct] || (repeat apply conj; first [exact lay_c_mk_pk | exact lay_c_mk_msk | exact lay_c_mk_upk | exact lay_c_mk_usk | exact lay_c_mk_auth | exact lay_c_mk_apk | exact lay_c_mk_ask | exact lay_c_mk_uk | exact lay_c_mk_conj | exact lay_c_mk_ct]). Qed.

End Layout.
