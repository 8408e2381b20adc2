(** * LengthsProofs: how many bytes keys and ciphertexts take (C131) *)
From Coq Require Import String Ascii List Bool Arith NArith Lia Permutation.
From Verif Require Import Base Crypto Policy Spec Files Symmetric Parse Borsh Lengths.
From Verif Require Import Msp SharingProofs MspProofs Dnf.
From Verif Require Import Gcm PrimitiveProofs.
From Verif Require Import Bdabe Mke08 Bsw Lsw Yct14 Ac17 Aw11 Ac17Proofs EquationProofs AcEquationProofs.
Import ListNotations.
Local Open Scope nat_scope.

Lemma append_len a b : String.length (a ++ b)%string = String.length a + String.length b.
Proof. induction a; cbn; auto. Qed.

(** ** The combinators *)
Lemma bind_Some {A B} (o : option A) (k : A -> option B) b : bind o k = Some b -> exists a, o = Some a /\ k a = Some b.
Proof. destruct o; cbn; [eauto|discriminate]. Qed.
Lemma long_pair {A B} (a : codec A) (b : codec B) v n m :
  long a (fst v) n -> long b (snd v) m -> long (c_pair a b) v (n + m).
Proof.
  intros H1 H2 s E. cbn [c_pair enc] in E. apply bind_Some in E as (x & E1 & E).
  apply bind_Some in E as (y & E2 & E). injection E as <-. rewrite append_len. now rewrite (H1 _ E1), (H2 _ E2).
Qed.
Lemma long_as {A B} (f : B -> A) g (c : codec A) v n : long c (f v) n -> long (c_as f g c) v n.
Proof. intros H s E. exact (H s E). Qed.
Lemma long_len n : long c_len n 4.
Proof. intros s E. cbn [c_len enc] in E. destruct (n <? two32)%N; [|discriminate]. injection E as <-. reflexivity. Qed.
Lemma long_bytes v : long c_bytes v (4 + String.length v).
Proof.
  intros s E. cbn [c_bytes enc] in E. apply bind_Some in E as (x & E1 & E). injection E as <-.
  rewrite append_len. f_equal. exact (long_len _ _ E1).
Qed.
Lemma long_string v : long c_string v (text v).
Proof. exact (long_bytes v). Qed.
Lemma long_lang v : long c_lang v 1.
Proof. intros s E. injection E as <-. reflexivity. Qed.
Lemma long_policy p : long c_policy p (text (fst p) + 1).
Proof. apply long_pair; [apply long_string|apply long_lang]. Qed.
Lemma long_all {A} (c : codec A) (size : A -> nat) : (forall x, long c x (size x)) ->
  forall l s, enc_all c l = Some s -> String.length s = list_sum (map size l).
Proof.
  intros H. induction l as [|x l IH]; cbn [enc_all map list_sum fold_right]; intros s E.
  - injection E as <-. reflexivity.
  - apply bind_Some in E as (y & E1 & E). apply bind_Some in E as (z & E2 & E). injection E as <-.
    rewrite append_len, (H _ _ E1), (IH _ E2). reflexivity.
Qed.
Lemma long_list {A} (c : codec A) (size : A -> nat) l : (forall x, long c x (size x)) ->
  long (c_list c) l (listing (map size l)).
Proof.
  intros H s E. cbn [c_list enc] in E. apply bind_Some in E as (y & E1 & E). apply bind_Some in E as (z & E2 & E).
  injection E as <-. rewrite append_len. unfold listing. rewrite (long_len _ _ E1), (long_all _ _ H _ _ E2). reflexivity.
Qed.
Lemma long_eq {A} (c : codec A) v n m : long c v n -> n = m -> long c v m.
Proof. intros H <-. exact H. Qed.

Lemma long_alike {A} (c : codec A) v v' n b b' : long c v n -> long c v' n ->
  enc c v = Some b -> enc c v' = Some b' -> String.length b = String.length b'.
Proof. intros H H' E E'. now rewrite (H _ E), (H' _ E'). Qed.

Lemma sum_const {A} n (l : list A) : list_sum (map (fun _ => n) l) = List.length l * n.
Proof. unfold list_sum. induction l as [|x l IH]; cbn; [reflexivity|]. rewrite IH. reflexivity. Qed.
Lemma sum_app_map {A} (f g : A -> nat) l : list_sum (map (fun x => f x + g x) l) = list_sum (map f l) + list_sum (map g l).
Proof. induction l as [|x l IH]; cbn [map list_sum fold_right]; [reflexivity|]. unfold list_sum in IH. rewrite IH. lia. Qed.
Lemma sum_perm l l' : Permutation l l' -> list_sum l = list_sum l'.
Proof. unfold list_sum. induction 1; cbn; lia. Qed.

Lemma entries {A B} (size : A -> nat) (size' : B -> nat) : forall l l', List.length l = List.length l' ->
  (forall k x, nth_error l' k = Some x -> exists y, nth_error l k = Some y /\ size y = size' x) ->
  map size l = map size' l'.
Proof.
  induction l as [|y l IH]; intros [|x l'] L H; try discriminate; [reflexivity|]. cbn. f_equal.
  - destruct (H 0 x eq_refl) as (z & E & Z). injection E as <-. exact Z.
  - apply IH; [now injection L|]. intros k z E. exact (H (S k) z E).
Qed.

Lemma seal_long (C : crypto) nonce (m : GT C) data d : seals C nonce -> encrypt_symmetric nonce m data = Ok d ->
  4 + String.length d = sealed data.
Proof. intros [N A] E. injection E as <-. unfold sealed. rewrite append_len, A, N. lia. Qed.

Section Types.
Context {C : crypto} {W : wire C} {wf wa wb wt : nat} (WW : widths W wf wa wb wt).

Lemma long_f x : long (w_f W) x wf. Proof. apply WW. Qed.
Lemma long_1 x : long (w_1 W) x wa. Proof. apply WW. Qed.
Lemma long_2 x : long (w_2 W) x wb. Proof. apply WW. Qed.
Lemma long_t x : long (w_t W) x wt. Proof. apply WW. Qed.

Ltac longs := repeat first
  [ apply long_as | apply long_pair | apply long_string | apply long_bytes | apply long_policy | apply long_lang
  | apply long_f | apply long_1 | apply long_2 | apply long_t
  | eapply long_list; intros ? ].
Ltac sized := eapply long_eq; [longs|]; cbn [fst snd]; try reflexivity.

Lemma long_battr (k : battr C) : long (c_battr W) k
  (text (b_string k) + wa + wb).
Proof. unfold c_battr. sized. Qed.
Lemma long_bsw_pk (k : Bsw.bsw_pk C) : long (c_bsw_pk W) k
  (wa + wb + wa + wb + wt).
Proof. unfold c_bsw_pk. sized. Qed.
Lemma long_bsw_msk (k : Bsw.bsw_msk C) : long (c_bsw_msk W) k
  (wf + wb).
Proof. unfold c_bsw_msk. sized. Qed.
Lemma long_bsw_sk (k : Bsw.bsw_sk C) : long (c_bsw_sk W) k
  (wb + listing (map (fun x => text (b_string x) + wa + wb) (bsk_dj k))).
Proof. unfold c_bsw_sk. sized. Qed.
Lemma long_bsw_ct (k : Bsw.bsw_ct C) : long (c_bsw_ct W) k
  (text (fst (Bsw.bct_policy k)) + 1 + wa + wt + listing (map (fun x => text (b_string x) + wa + wb) (bct_cy k)) + (4 + String.length (Bsw.bct_data k))).
Proof. unfold c_bsw_ct. sized. Qed.
Lemma long_lsw_pk (k : lsw_pk C) : long (c_lsw_pk W) k
  (wa + wb + wa + wa + wa + wt).
Proof. unfold c_lsw_pk. sized. Qed.
Lemma long_lsw_msk (k : lsw_msk C) : long (c_lsw_msk W) k
  (wf + wf + wf + wa + wb).
Proof. unfold c_lsw_msk. sized. Qed.
Lemma long_lsw_sk (k : lsw_sk C) : long (c_lsw_sk W) k
  (text (fst (lsk_policy k)) + 1 + listing (map (fun x => text (ld_name x) + wa + wb + wa + wa + wa) (lsk_dj k))).
Proof. unfold c_lsw_sk. sized. Qed.
Lemma long_lsw_ct (k : lsw_ct C) : long (c_lsw_ct W) k
  (wt + wb + listing (map (fun x => text (le_name x) + wa + wa + wa) (lct_ej k)) + (4 + String.length (lct_ct k))).
Proof. unfold c_lsw_ct. sized. Qed.
Lemma long_yct_pk (k : yct_pk C) : long (c_yct_pk W) k
  (wt + listing (map (fun x => text (y_name x)) (ypk_attrs k))).
Proof. unfold c_yct_pk. sized. Qed.
Lemma long_yct_msk (k : yct_msk C) : long (c_yct_msk W) k
  (wf + listing (map (fun x => text (y_name x)) (ymsk_attrs k))).
Proof. unfold c_yct_msk. sized. Qed.
Lemma long_yct_sk (k : yct_sk C) : long c_yct_sk k
  (text (fst (ysk_policy k)) + 1 + listing (map (fun x => text (y_name x)) (ysk_du k))).
Proof. unfold c_yct_sk. sized. Qed.
Lemma long_yct_ct (k : yct_ct C) : long c_yct_ct k
  (listing (map (fun x => text (y_name x)) (yct_attrs k)) + (4 + String.length (yct_data k))).
Proof. unfold c_yct_ct. sized. Qed.
Lemma long_ac_pk (k : ac_pk C) : long (c_ac_pk W) k
  (wa + listing (map (fun _ => wb) (apk_ha k)) + listing (map (fun _ => wt) (apk_egh k))).
Proof. unfold c_ac_pk. sized. Qed.
Lemma long_ac_msk (k : ac_msk C) : long (c_ac_msk W) k
  (wa + wb + listing (map (fun _ => wa) (amsk_gk k)) + listing (map (fun _ => wf) (amsk_a k)) + listing (map (fun _ => wf) (amsk_b k))).
Proof. unfold c_ac_msk. sized. Qed.
Lemma long_ac_cpct (k : ac_cpct C) : long (c_ac_cpct W) k
  (text (fst (acp_policy k)) + 1 + (listing (map (fun _ => wb) (act_c0 (acp_ct k))) + listing (map (fun x => text (fst x) + listing (map (fun _ => wa) (snd x))) (act_c (acp_ct k))) + wt + (4 + String.length (act_ct (acp_ct k))))).
Proof. unfold c_ac_cpct. sized. Qed.
Lemma long_ac_kpct (k : ac_kpct C) : long (c_ac_kpct W) k
  (listing (map text (akp_attr k)) + (listing (map (fun _ => wb) (act_c0 (akp_ct k))) + listing (map (fun x => text (fst x) + listing (map (fun _ => wa) (snd x))) (act_c (akp_ct k))) + wt + (4 + String.length (act_ct (akp_ct k))))).
Proof. unfold c_ac_kpct. sized. Qed.
Lemma long_ac_kpsk (k : ac_kpsk C) : long (c_ac_kpsk W) k
  (text (fst (akps_policy k)) + 1 + (listing (map (fun _ => wb) (ask_k0 (akps_sk k))) + listing (map (fun x => text (fst x) + listing (map (fun _ => wa) (snd x))) (ask_k (akps_sk k))) + listing (map (fun _ => wa) (ask_kp (akps_sk k))))).
Proof. unfold c_ac_kpsk. sized. Qed.
Lemma long_ac_cpsk (k : ac_cpsk C) : long (c_ac_cpsk W) k
  (listing (map text (acps_attr k)) + (listing (map (fun _ => wb) (ask_k0 (acps_sk k))) + listing (map (fun x => text (fst x) + listing (map (fun _ => wa) (snd x))) (ask_k (acps_sk k))) + listing (map (fun _ => wa) (ask_kp (acps_sk k))))).
Proof. unfold c_ac_cpsk. sized. Qed.
Lemma long_aw_gk (k : aw_gk C) : long (c_aw_gk W) k
  (wa + wb).
Proof. unfold c_aw_gk. sized. Qed.
Lemma long_aw_pk (k : aw_pk C) : long (c_aw_pk W) k
  (listing (map (fun x => text (fst (fst x)) + wt + wb) (apk_attr k))).
Proof. unfold c_aw_pk. sized. Qed.
Lemma long_aw_msk (k : aw_msk C) : long (c_aw_msk W) k
  (listing (map (fun x => text (fst (fst x)) + wf + wf) (amsk_attr k))).
Proof. unfold c_aw_msk. sized. Qed.
Lemma long_aw_sk (k : aw_sk C) : long (c_aw_sk W) k
  (text (awsk_gid k) + listing (map (fun x => text (fst x) + wa) (awsk_attr k))).
Proof. unfold c_aw_sk. sized. Qed.
Lemma long_aw_ct (k : aw_ct C) : long (c_aw_ct W) k
  (text (fst (awct_policy k)) + 1 + wt + listing (map (fun x => text (fst (fst (fst x))) + wt + wb + wb) (awct_c k)) + (4 + String.length (awct_data k))).
Proof. unfold c_aw_ct. sized. Qed.
Lemma long_bd_pk (k : bd_pk C) : long (c_bd_pk W) k
  (wa + wb + wa + wb + wt).
Proof. unfold c_bd_pk. sized. Qed.
Lemma long_bd_msk (k : bd_msk C) : long (c_bd_msk W) k
  (wf).
Proof. unfold c_bd_msk. sized. Qed.
Lemma long_bd_auth (k : bd_auth C) : long (c_bd_auth W) k
  (text (bau_name k) + wa + wb + wf).
Proof. unfold c_bd_auth. sized. Qed.
Lemma long_bd_uk (k : bd_uk C) : long (c_bd_uk W) k
  ((wa + wb) + (text (bupk_u (buk_pk k)) + wa + wb) + listing (map (fun x => text (bask_attr x) + wa + wb) (buk_ska k))).
Proof. unfold c_bd_uk. sized. Qed.
Lemma long_bd_ask (k : bd_ask C) : long (c_bd_ask W) k
  (text (bask_attr k) + wa + wb).
Proof. unfold c_bd_ask. sized. Qed.
Lemma long_bd_apk (k : bd_apk C) : long (c_bd_apk W) k
  (text (bapk_attr k) + wa + wb + wt).
Proof. unfold c_bd_apk. sized. Qed.
Lemma long_bd_ct (k : bd_ct C) : long (c_bd_ct W) k
  (text (fst (Bdabe.bct_policy k)) + 1 + listing (map (fun x => listing (map text (bt_attr x)) + wt + wa + wb + wa + wb) (bct_j k)) + (4 + String.length (Bdabe.bct_data k))).
Proof. unfold c_bd_ct. sized. Qed.
Lemma long_mk_pk (k : mk_pk C) : long (c_mk_pk W) k
  (wa + wb + wa + wb + wt + wt).
Proof. unfold c_mk_pk. sized. Qed.
Lemma long_mk_msk (k : mk_msk C) : long (c_mk_msk W) k
  (wa + wb).
Proof. unfold c_mk_msk. sized. Qed.
Lemma long_mk_auth (k : mk_auth C) : long (c_mk_auth W) k
  (text (mau_name k) + wf).
Proof. unfold c_mk_auth. sized. Qed.
Lemma long_mk_uk (k : mk_uk C) : long (c_mk_uk W) k
  ((wa + wb) + (text (mupk_name (muk_pk k)) + wa + wb) + listing (map (fun x => text (mask_attr x) + wa + wb) (muk_ska k))).
Proof. unfold c_mk_uk. sized. Qed.
Lemma long_mk_ask (k : mk_ask C) : long (c_mk_ask W) k
  (text (mask_attr k) + wa + wb).
Proof. unfold c_mk_ask. sized. Qed.
Lemma long_mk_apk (k : mk_apk C) : long (c_mk_apk W) k
  (text (mapk_attr k) + wa + wb + wt + wt).
Proof. unfold c_mk_apk. sized. Qed.
Lemma long_mk_ct (k : mk_ct C) : long (c_mk_ct W) k
  (text (fst (mct_policy k)) + 1 + listing (map (fun x => listing (map text (mj_str x)) + wt + wt + wa + wb + wa + wb) (mct_e k)) + (4 + String.length (mct_data k))).
Proof. unfold c_mk_ct. sized. Qed.

End Types.

(** ** The operations *)
Section Operations.
Context {C : crypto} (L : laws C) {W : wire C} {wf wa wb wt : nat} (WW : widths W wf wa wb wt).
Implicit Types (t : nat -> F C).

Lemma dealt_leaves {t f s i sh j} (size : string -> nat) : dealt (C := C) t f s i sh j ->
  map (fun x => size (fst x)) sh = map (fun l => size (node_index (fst l) (snd l))) (leaves f).
Proof.
  intros D. apply dealt_unique in D as [-> _]. rewrite <- (map_map fst size), gsh_idents. unfold idents.
  now rewrite map_map.
Qed.
Lemma ofdata {D d a b : nat} : 4 + d = D -> a = b -> a + (4 + d) = b + D.
Proof. lia. Qed.

Theorem bsw_keygen_long (pk : Bsw.bsw_pk C) msk attrs t i sk j : bsw_keygen pk msk attrs t i = Ok (Some sk, j) ->
  long (c_bsw_sk W) sk (wb + listing (map (fun a => text a + wa + wb) attrs)).
Proof.
  intros H. apply (bsw_keygen_eq L) in H as (_ & _ & _ & Le & H). eapply long_eq; [apply (long_bsw_sk WW)|].
  do 2 f_equal. apply entries; [exact Le|]. intros k a E. destruct (H k a E) as (h & _ & E'). rewrite E'. eauto.
Qed.
Theorem bsw_delegate_long (pk : Bsw.bsw_pk C) sk0 attrs t i sk j : bsw_delegate pk sk0 attrs t i = Ok (Some sk, j) ->
  long (c_bsw_sk W) sk (wb + listing (map (fun a => text a + wa + wb) attrs)).
Proof.
  intros H. apply bsw_delegate_eq in H as (_ & _ & Le & H). eapply long_eq; [apply (long_bsw_sk WW)|].
  do 2 f_equal. apply entries; [exact Le|]. intros k a E. destruct (H k a E) as (h & d & _ & _ & _ & E'). rewrite E'. eauto.
Qed.
Theorem bsw_encrypt_long nonce (pk : Bsw.bsw_pk C) pol lang data t i ct j f : seals C nonce -> parse pol lang = Ok (tree f) ->
  bsw_encrypt nonce pk pol lang data t i = Ok (ct, j) ->
  long (c_bsw_ct W) ct (text pol + 1 + wa + wt +
    listing (map (fun l => text (node_index (fst l) (snd l)) + wa + wb) (leaves f)) + sealed data).
Proof.
  intros S P H. apply (bsw_encrypt_eq L _ _ _ _ _ _ _ _ _ _ P) in H as (sh & m & _ & D & Ep & _ & _ & Es & Le & H).
  eapply long_eq; [apply (long_bsw_ct WW)|]. rewrite Ep. apply ofdata; [exact (seal_long C nonce m data _ S Es)|].
  do 2 f_equal. rewrite <- (dealt_leaves (fun n => text n + wa + wb) D).
  apply entries; [exact Le|]. intros k [n x] E. destruct (H k n x E) as (h & _ & E'). rewrite E'. eauto.
Qed.

Theorem lsw_keygen_long (pk : lsw_pk C) msk pol lang t i sk j f : parse pol lang = Ok (tree f) ->
  lsw_keygen pk msk pol lang t i = Ok (sk, j) ->
  long (c_lsw_sk W) sk (text pol + 1 +
    listing (map (fun l => text (remove_index (node_index (fst l) (snd l))) + wa + wb + wa + wa + wa) (leaves f))).
Proof.
  intros P H. apply (lsw_keygen_eq L _ _ _ _ _ _ _ _ _ P) in H as (sh & i' & D & _ & Ep & Le & H).
  eapply long_eq; [apply (long_lsw_sk WW)|]. rewrite Ep. do 2 f_equal.
  rewrite <- (dealt_leaves (fun n => text (remove_index n) + wa + wb + wa + wa + wa) D).
  apply entries; [exact Le|]. intros k [n x] E. destruct (H k n x E) as (h & _ & E'). rewrite E'.
  eexists. split; [reflexivity|]. destruct (String.prefix "!" (remove_index n)); reflexivity.
Qed.
Theorem lsw_encrypt_long nonce (pk : lsw_pk C) attrs data t i ct j : seals C nonce ->
  lsw_encrypt nonce pk attrs data t i = Ok (ct, j) ->
  long (c_lsw_ct W) ct (wt + wb + listing (map (fun a => text a + wa + wa + wa) attrs) + sealed data).
Proof.
  intros S H. apply (lsw_encrypt_eq L) in H as (m & _ & _ & _ & _ & Es & Le & H).
  eapply long_eq; [apply (long_lsw_ct WW)|]. apply ofdata; [exact (seal_long C nonce m data _ S Es)|].
  do 2 f_equal. apply entries; [exact Le|]. intros k a E. destruct (H k a E) as (h & _ & E'). rewrite E'. eauto.
Qed.

Theorem yct_setup_long attrs t i (pk : yct_pk C) msk j : yct_setup attrs t i = Ok ((pk, msk), j) ->
  long (c_yct_pk W) pk (wt + listing (map text attrs)) /\ long (c_yct_msk W) msk (wf + listing (map text attrs)).
Proof.
  intros H. apply (yct_setup_eq) in H as (_ & _ & _ & L1 & L2 & H). split.
  - eapply long_eq; [apply (long_yct_pk WW)|]. do 2 f_equal. apply entries; [exact L1|].
    intros k a E. destruct (H k a E) as [-> _]. eauto.
  - eapply long_eq; [apply (long_yct_msk WW)|]. do 2 f_equal. apply entries; [exact L2|].
    intros k a E. destruct (H k a E) as [_ ->]. eauto.
Qed.
(** The names that the master key can serve. *)
Definition served (msk : yct_msk C) (n : string) : bool :=
  match msk_get_private msk n with Ok _ => true | _ => false end.
Theorem yct_keygen_long (msk : yct_msk C) pol lang t i sk j f : parse pol lang = Ok (tree f) ->
  yct_keygen msk pol lang t i = Ok (sk, j) ->
  long c_yct_sk sk (text pol + 1 +
    listing (map text (filter (served msk) (map (fun l => remove_index (node_index (fst l) (snd l))) (leaves f))))).
Proof.
  intros P H. apply (yct_keygen_eq L _ _ _ _ _ _ _ _ P) in H as (sh & D & Ep & Y).
  eapply long_eq; [apply long_yct_sk|]. rewrite Ep. do 2 f_equal.
  assert (E : map (fun l => remove_index (node_index (fst l) (snd l))) (leaves f) = map (fun x => remove_index (fst x)) sh).
  { apply dealt_unique in D as [-> _]. rewrite <- (map_map fst remove_index (gsh _ _ _ _)), gsh_idents. unfold idents.
    now rewrite map_map. }
  rewrite E. clear E D. unfold served. induction Y; cbn [map filter fst]; [reflexivity| |].
  - rewrite H. cbn [map y_name]. now f_equal.
  - rewrite H. exact IHY.
Qed.
Theorem yct_encrypt_long nonce (pk : yct_pk C) attrs data t i ct j : seals C nonce ->
  yct_encrypt nonce pk attrs data t i = Ok (ct, j) ->
  long c_yct_ct ct (listing (map text attrs) + sealed data).
Proof.
  intros S H. apply (yct_encrypt_eq) in H as (_ & Es & Le & H).
  eapply long_eq; [apply long_yct_ct|]. apply ofdata; [exact (seal_long C nonce _ data _ S Es)|].
  f_equal. apply entries; [exact Le|]. intros k a E. destruct (H k a E) as (g & _ & ->). eauto.
Qed.

Theorem ac_setup_long t i (pk : ac_pk C) msk j : ac_setup t i = Ok ((pk, msk), j) ->
  long (c_ac_pk W) pk (wa + (4 + 3 * wb) + (4 + 2 * wt)) /\
  long (c_ac_msk W) msk (wa + wb + (4 + 3 * wa) + (4 + 2 * wf) + (4 + 2 * wf)).
Proof.
  intros H. apply ac_setup_eq in H as (_ & E1 & E2). split.
  - eapply long_eq; [apply (long_ac_pk WW)|]. rewrite E1. cbn. lia.
  - eapply long_eq; [apply (long_ac_msk WW)|]. rewrite E2. cbn. lia.
Qed.
Theorem cp_keygen_long t0 i0 (pk : ac_pk C) msk j0 attrs t i sk j : ac_setup t0 i0 = Ok ((pk, msk), j0) ->
  cp_keygen msk attrs t i = Ok (sk, j) ->
  long (c_ac_cpsk W) sk (listing (map text attrs) +
    ((4 + 3 * wb) + listing (map (fun a => text a + (4 + 3 * wa)) attrs) + (4 + 3 * wa))).
Proof.
  intros K H. apply ac_setup_keys in K as (a0 & a1 & b0 & b1 & k0 & k1 & k2 & K).
  apply (cp_keygen_eq L _ _ _ _ _ _ _ _ _ _ _ _ _ _ K) in H as (_ & _ & _ & Ea & E0 & Ep & Le & H).
  eapply long_eq; [apply (long_ac_cpsk WW)|]. rewrite Ea, E0, Ep.
  rewrite (entries _ (fun a => text a + (4 + 3 * wa)) _ attrs Le).
  - unfold listing. cbn [map list_sum fold_right]. lia.
  - intros k a E. rewrite (H k a E). eexists. split; [reflexivity|]. unfold listing. cbn [fst snd map list_sum fold_right]. lia.
Qed.
Lemma names_rows f (g : string -> nat) : binary_and f = true ->
  list_sum (map (fun r => g (fst r)) (sort_rows (rev (msp_rows f)))) = list_sum (map g (names f)).
Proof.
  intros B. rewrite <- (msp_rows_names f B), map_map. apply sum_perm, Permutation_map, Permutation_sym.
  now apply msp_rows_perm.
Qed.
Theorem cp_encrypt_long nonce t0 i0 (pk : ac_pk C) msk j0 pol lang data t i ct j f : ac_setup t0 i0 = Ok ((pk, msk), j0) ->
  seals C nonce -> parse pol lang = Ok (tree f) -> binary_and f = true ->
  cp_encrypt nonce pk pol data lang t i = Ok (ct, j) ->
  long (c_ac_cpct W) ct (text pol + 1 +
    ((4 + 3 * wb) + listing (map (fun n => text n + (4 + 3 * wa)) (names f)) + wt + sealed data)).
Proof.
  intros K S P B H. apply ac_setup_keys in K as (a0 & a1 & b0 & b1 & k0 & k1 & k2 & K).
  apply (cp_encrypt_eq L _ _ _ _ _ _ _ _ _ _ _ _ _ _ _ _ _ _ K P B) in H as (m & _ & _ & Ea & E0 & _ & Es & Ec).
  eapply long_eq; [apply (long_ac_cpct WW)|]. rewrite Ea, E0, Ec. cbn [fst]. apply (f_equal (fun x => text pol + 1 + x)).
  apply ofdata; [exact (seal_long C nonce m data _ S Es)|]. f_equal.
  unfold listing at 2 3. rewrite map_map. cbn [fst snd map list_sum fold_right].
  rewrite (map_ext _ (fun r => text (fst r) + (4 + 3 * wa))); [|intros r; unfold listing; cbn [map list_sum fold_right]; lia].
  pose proof (names_rows f (fun n => text n + (4 + 3 * wa)) B) as E. cbn beta in E. unfold listing, list_sum in *. cbn [map fold_right]. rewrite E. lia.
Qed.
Theorem kp_keygen_long t0 i0 (pk : ac_pk C) msk j0 pol lang t i sk j f : ac_setup t0 i0 = Ok ((pk, msk), j0) ->
  parse pol lang = Ok (tree f) -> binary_and f = true ->
  kp_keygen msk pol lang t i = Ok (sk, j) ->
  long (c_ac_kpsk W) sk (text pol + 1 +
    ((4 + 3 * wb) + listing (map (fun n => text n + (4 + 3 * wa)) (names f)) + 4)).
Proof.
  intros K P B H. apply ac_setup_keys in K as (a0 & a1 & b0 & b1 & k0 & k1 & k2 & K).
  apply (kp_keygen_eq L _ _ _ _ _ _ _ _ _ _ _ _ _ _ _ _ K P B) in H as (_ & _ & _ & Ea & E0 & Ep & Le & H).
  eapply long_eq; [apply (long_ac_kpsk WW)|]. rewrite Ea, E0, Ep. cbn [fst].
  rewrite (entries _ (fun r => text (fst r) + (4 + 3 * wa)) _ _ Le).
  - pose proof (names_rows f (fun n => text n + (4 + 3 * wa)) B) as E. cbn beta in E.
    unfold listing. rewrite E. cbn [map list_sum fold_right]. lia.
  - intros k [n r] E. rewrite (H k n r E). eexists. split; [reflexivity|]. unfold listing. cbn [fst snd map list_sum fold_right]. lia.
Qed.
Theorem kp_encrypt_long nonce t0 i0 (pk : ac_pk C) msk j0 attrs data t i ct j : ac_setup t0 i0 = Ok ((pk, msk), j0) ->
  seals C nonce -> kp_encrypt nonce pk attrs data t i = Ok (ct, j) ->
  long (c_ac_kpct W) ct (listing (map text attrs) +
    ((4 + 3 * wb) + listing (map (fun n => text n + (4 + 3 * wa)) attrs) + wt + sealed data)).
Proof.
  intros K S H. apply ac_setup_keys in K as (a0 & a1 & b0 & b1 & k0 & k1 & k2 & K).
  apply (kp_encrypt_eq L _ _ _ _ _ _ _ _ _ _ _ _ _ _ _ _ K) in H as (m & _ & _ & Ea & E0 & _ & Es & Ec).
  eapply long_eq; [apply (long_ac_kpct WW)|]. rewrite Ea, E0, Ec. f_equal.
  apply ofdata; [exact (seal_long C nonce m data _ S Es)|].
  rewrite map_map, (map_ext _ (fun n => text n + (4 + 3 * wa)));
    [|intros a; unfold listing; cbn [fst snd map list_sum fold_right]; lia].
  unfold listing at 1. cbn [map list_sum fold_right]. lia.
Qed.

Theorem aw_authgen_long (gk : aw_gk C) attrs t i pk msk j : aw_authgen gk attrs t i = Ok (Some (pk, msk), j) ->
  long (c_aw_pk W) pk (listing (map (fun a => text (upper C a) + wt + wb) attrs)) /\
  long (c_aw_msk W) msk (listing (map (fun a => text (upper C a) + wf + wf) attrs)).
Proof.
  intros H. apply aw_authgen_eq in H as (_ & L1 & L2 & H). split.
  - eapply long_eq; [apply (long_aw_pk WW)|]. f_equal. apply entries; [exact L1|].
    intros k a E. destruct (H k a E) as [_ ->]. eexists. split; [reflexivity|]. reflexivity.
  - eapply long_eq; [apply (long_aw_msk WW)|]. f_equal. apply entries; [exact L2|].
    intros k a E. destruct (H k a E) as [-> _]. eexists. split; [reflexivity|]. reflexivity.
Qed.
Theorem aw_keygen_long (gk : aw_gk C) msk gid attrs sk : aw_keygen gk msk gid attrs = Ok sk ->
  long (c_aw_sk W) sk (text gid + listing (map (fun a => text (upper C a) + wa) attrs)).
Proof.
  intros H. apply aw_keygen_eq in H as (_ & _ & Eg & h & _ & H). eapply long_eq; [apply (long_aw_sk WW)|].
  rewrite Eg. do 2 f_equal. clear Eg. induction H as [|a e attrs es (al & y & _ & _ & ->) H IH]; [reflexivity|].
  cbn [map fst]. now f_equal.
Qed.
(** The leaves for which a public key is given. *)
Definition published (pks : list (aw_pk C)) (n : string) : bool :=
  match find_pk_attr pks (remove_index (upper C n)) with Some _ => true | None => false end.
Theorem aw_encrypt_long nonce (gk : aw_gk C) pks pol lang data t i ct j f : seals C nonce -> parse pol lang = Ok (tree f) ->
  aw_encrypt nonce gk pks pol lang data t i = Ok (ct, j) ->
  long (c_aw_ct W) ct (text pol + 1 + wt +
    listing (map (fun n => text (upper C n) + wt + wb + wb)
               (filter (published pks) (map (fun l => node_index (fst l) (snd l)) (leaves f)))) + sealed data).
Proof.
  intros S P H. apply (aw_encrypt_eq L _ _ _ _ _ _ _ _ _ _ _ P) in H
    as (sh & i' & wsh & i'' & m & es & _ & D & _ & _ & Ep & _ & Es & Ec & Le & H).
  eapply long_eq; [apply (long_aw_ct WW)|]. rewrite Ep, Ec. apply ofdata; [exact (seal_long C nonce m data _ S Es)|].
  do 2 f_equal.
  assert (E : map (fun l => node_index (fst l) (snd l)) (leaves f) = map fst sh).
  { apply dealt_unique in D as [-> _]. now rewrite gsh_idents. }
  rewrite E. clear E D Ec. 
  assert (H' : forall k n x, nth_error sh k = Some (n, x) ->
    (published pks n = false /\ nth_error es k = Some []) \/
    (published pks n = true /\ exists u v w, nth_error es k = Some [(upper C n, u, v, w)])).
  { intros k n x E. unfold published. destruct (H k n x E) as [[-> N]|(a & e & y & w & -> & _ & N)]; [left|right]; eauto 6. }
  clear H. revert es Le H'. induction sh as [|[n x] sh IH]; intros [|e es] Le H; try discriminate; [reflexivity|].
  cbn [concat map fst filter]. rewrite map_app. rewrite (IH es); [|now injection Le|intros k n' x'; exact (H (Datatypes.S k) n' x')].
  destruct (H 0 n x eq_refl) as [[-> N]|[-> (u & v & w & N)]]; injection N as ->; reflexivity.
Qed.

Theorem bd_authgen_long (pk : bd_pk C) msk name t i au j : bd_authgen pk msk name t i = Ok (au, j) ->
  long (c_bd_auth W) au (text name + wa + wb + wf).
Proof. intros H. injection H as <- _. exact (long_bd_auth WW _). Qed.
Theorem bd_keygen_long (pk : bd_pk C) au name t i uk j : bd_keygen pk au name t i = Ok (uk, j) ->
  long (c_bd_uk W) uk ((wa + wb) + (text name + wa + wb) + 4).
Proof. intros H. injection H as <- _. exact (long_bd_uk WW _). Qed.
Theorem bd_request_pk_long (pk : bd_pk C) au a k : bd_request_pk pk au a = Ok k ->
  long (c_bd_apk W) k (text a + wa + wb + wt).
Proof.
  intros H. unfold bd_request_pk in H. destruct (from_authority _ _); [|discriminate].
  apply obind_Ok in H as (h1 & _ & H). apply obind_Ok in H as (h2 & _ & H). injection H as <-. exact (long_bd_apk WW _).
Qed.
Theorem bd_request_sk_long (pk : bd_upk C) au a k : bd_request_sk pk au a = Ok k ->
  long (c_bd_ask W) k (text a + wa + wb).
Proof.
  intros H. unfold bd_request_sk in H. destruct (_ && _); [|discriminate].
  apply obind_Ok in H as (h1 & _ & H). apply obind_Ok in H as (h2 & _ & H). injection H as <-. exact (long_bd_ask WW _).
Qed.
Theorem bd_encrypt_long nonce (pk : bd_pk C) apks pol lang data t i ct j v T : seals C nonce ->
  parse pol lang = Ok v -> json_to_dnf v (map bd_pak apks) = Ok T ->
  bd_encrypt nonce pk apks pol lang data t i = Ok (ct, j) ->
  long (c_bd_ct W) ct (text pol + 1 +
    listing (map (fun c => listing (map text (tm_attrs c)) + wt + wa + wb + wa + wb) T) + sealed data).
Proof.
  intros S P ET H. apply bd_encrypt_eq in H as (v' & T' & m & P' & _ & ET' & _ & _ & Ep & Es & Le & H).
  rewrite P in P'. injection P' as <-. rewrite ET in ET'. injection ET' as <-.
  eapply long_eq; [apply (long_bd_ct WW)|]. rewrite Ep. apply ofdata; [exact (seal_long C nonce m data _ S Es)|].
  do 2 f_equal. apply entries; [exact Le|]. intros k c E. rewrite (H k c E). eauto.
Qed.

Theorem mk_authgen_long name t i au j : mk_authgen (C := C) name t i = Ok (au, j) ->
  long (c_mk_auth W) au (text name + wf).
Proof. intros H. injection H as <- _. exact (long_mk_auth WW _). Qed.
Theorem mk_keygen_long (pk : mk_pk C) msk name t i uk j : mk_keygen pk msk name t i = Ok (uk, j) ->
  long (c_mk_uk W) uk ((wa + wb) + (text name + wa + wb) + 4).
Proof. intros H. injection H as <- _. exact (long_mk_uk WW _). Qed.
Theorem mk_request_pk_long (pk : mk_pk C) a au k : mk_request_pk pk a au = Ok k ->
  long (c_mk_apk W) k (text a + wa + wb + wt + wt).
Proof.
  intros H. unfold mk_request_pk in H. destruct (from_authority _ _); [|discriminate].
  apply obind_Ok in H as (h1 & _ & H). apply obind_Ok in H as (h2 & _ & H). injection H as <-. exact (long_mk_apk WW _).
Qed.
Theorem mk_request_sk_long (pk : mk_upk C) a au k : mk_request_sk pk a au = Ok k ->
  long (c_mk_ask W) k (text a + wa + wb).
Proof.
  intros H. unfold mk_request_sk in H. destruct (_ && _); [|discriminate].
  apply obind_Ok in H as (h1 & _ & H). apply obind_Ok in H as (h2 & _ & H). injection H as <-. exact (long_mk_ask WW _).
Qed.
Theorem mk_encrypt_long nonce (pk : mk_pk C) apks pol lang data t i ct j v T : seals C nonce ->
  parse pol lang = Ok v -> json_to_dnf v (map mk_pak apks) = Ok T ->
  mk_encrypt nonce pk apks pol lang data t i = Ok (ct, j) ->
  long (c_mk_ct W) ct (text pol + 1 +
    listing (map (fun c => listing (map text (tm_attrs c)) + wt + wt + wa + wb + wa + wb) T) + sealed data).
Proof.
  intros S P ET H. apply mk_encrypt_eq in H as (v' & T' & m1 & m2 & P' & _ & ET' & _ & _ & _ & Ep & Es & Le & H).
  rewrite P in P'. injection P' as <-. rewrite ET in ET'. injection ET' as <-.
  eapply long_eq; [apply (long_mk_ct WW)|]. rewrite Ep. apply ofdata; [exact (seal_long C nonce _ data _ S Es)|].
  do 2 f_equal. apply entries; [exact Le|]. intros k c E. rewrite (H k c E). eauto.
Qed.

(** The values of fixed length. *)
Theorem fixed_long :
  (forall k : Bsw.bsw_pk C, long (c_bsw_pk W) k (2 * wa + 2 * wb + wt)) /\
  (forall k : Bsw.bsw_msk C, long (c_bsw_msk W) k (wf + wb)) /\
  (forall k : lsw_pk C, long (c_lsw_pk W) k (4 * wa + wb + wt)) /\
  (forall k : lsw_msk C, long (c_lsw_msk W) k (3 * wf + wa + wb)) /\
  (forall k : aw_gk C, long (c_aw_gk W) k (wa + wb)) /\
  (forall k : bd_pk C, long (c_bd_pk W) k (2 * wa + 2 * wb + wt)) /\
  (forall k : bd_msk C, long (c_bd_msk W) k wf) /\
  (forall k : mk_pk C, long (c_mk_pk W) k (2 * wa + 2 * wb + 2 * wt)) /\
  (forall k : mk_msk C, long (c_mk_msk W) k (wa + wb)).
Proof.
  repeat apply conj; intros k.
  - eapply long_eq; [exact (long_bsw_pk WW k)|lia].
  - eapply long_eq; [exact (long_bsw_msk WW k)|lia].
  - eapply long_eq; [exact (long_lsw_pk WW k)|lia].
  - eapply long_eq; [exact (long_lsw_msk WW k)|lia].
  - eapply long_eq; [exact (long_aw_gk WW k)|lia].
  - eapply long_eq; [exact (long_bd_pk WW k)|lia].
  - eapply long_eq; [exact (long_bd_msk WW k)|lia].
  - eapply long_eq; [exact (long_mk_pk WW k)|lia].
  - eapply long_eq; [exact (long_mk_msk WW k)|lia].
Qed.
End Operations.

Theorem gcm_seals (C : crypto) nonce : aead_enc C = gcm_enc -> String.length nonce = 12 -> seals C nonce.
Proof. intros E N. split; [exact N|]. intros k n p. rewrite E. apply gcm_enc_length. Qed.
