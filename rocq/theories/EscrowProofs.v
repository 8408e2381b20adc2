(** * EscrowProofs: the holder of a master key opens every ciphertext *)
From Coq Require Import String Ascii List Bool Arith Lia Field.
From Verif Require Import Base Crypto Policy Tools Spec PolicyProofs Poly Symmetric Parse SchemeLib Dnf DnfProofs
  Bdabe BdabeProofs Mke08 Mke08Proofs Bsw Ghw11 Lsw Yct14 Yct14Proofs Ac17 Ac17Proofs EquationProofs AcEquationProofs RobustProofs Escrow.
Import ListNotations.

Section EscrowProofs.
Context {C : crypto} (L : laws C).
Local Open Scope F_scope.
Add Field escrow_field : (f_theory L).
Notation F := (F C).
Ltac logs := log_simpl L.

Lemma strip_opens nonce (a b m : GT C) data ct : logT L a = logT L b + logT L m ->
  encrypt_symmetric nonce m data = Ok ct -> String.length nonce = 12%nat -> strip a b ct = Ok data.
Proof.
  intros E H N. unfold strip. replace (gtmul C a (gtinv C b)) with m.
  - eapply (symmetric_roundtrip L); eassumption.
  - apply (logT_inj L). logs. rewrite E. ring.
Qed.

Ltac step H x := let i := fresh "i" in let E := fresh "E" in apply rbind_Ok in H as (x & i & E & H).

Theorem bsw_escrow_opens nonce ts is (pk : bsw_pk C) msk js pol lang data te ie ct je :
  bsw_setup ts is = Ok (pk, msk, js) -> bsw_encrypt nonce pk pol lang data te ie = Ok (ct, je) ->
  String.length nonce = 12%nat -> bsw_escrow msk ct = Ok data.
Proof.
  intros Hs He N. unfold bsw_setup, draw_g1, draw_g2 in Hs. unfold rbind, draw, rret in Hs. cbn in Hs.
  destruct (finv_opt (ts (S (S is)))) as [b|] eqn:Eb; [|discriminate]. cbn in Hs.
  apply (finv_opt_Some L) in Eb as (Nb & ->). injection Hs as <- <- _.
  unfold bsw_encrypt in He. step He s. step He m. step He v. step He sh. cbv zeta in He. step He cy. step He d.
  apply rlift_Ok in E4 as (E4 & _). apply rret_Ok in He as (<- & _).
  unfold bsw_escrow. cbn [Bsw.bct_cp bct_c Bsw.bct_data bmsk_g2a bmsk_beta bpk_h Bsw.bpk_egg].
  eapply strip_opens; [|eassumption|exact N]. logs. field. exact Nb.
Qed.

Theorem ghw_escrow_opens nonce ts is (pk : ghw_pk C) msk js pol lang data te ie ct je :
  ghw_setup ts is = Ok (pk, msk, js) -> ghw_encrypt nonce pk pol lang data te ie = Ok (ct, je) ->
  String.length nonce = 12%nat -> ghw_escrow msk ct = Ok data.
Proof.
  intros Hs He N. apply ghw_setup_eq in Hs as (_ & _ & G1 & G2 & _ & _ & Al & Eg).
  unfold ghw_encrypt in He. step He s. step He m. step He v. step He sh. cbv zeta in He. step He cy. step He d.
  apply rlift_Ok in E4 as (E4 & _). apply rret_Ok in He as (<- & _).
  unfold ghw_escrow. cbn [gct_c gct_c1 gct_data].
  eapply strip_opens; [|eassumption|exact N]. rewrite Eg, Al. logs. ring.
Qed.

Theorem lsw_escrow_opens nonce ts is (pk : lsw_pk C) msk js attrs data te ie ct je :
  lsw_setup ts is = Ok (pk, msk, js) -> lsw_encrypt nonce pk attrs data te ie = Ok (ct, je) ->
  String.length nonce = 12%nat -> lsw_escrow pk msk ct = Ok data.
Proof.
  intros Hs He N. apply (lsw_setup_eq L) in Hs as (_ & _ & _ & _ & _ & _ & _ & _ & _ & _ & _ & Eg).
  apply (lsw_encrypt_eq L) in He as (m & _ & _ & E2 & E1 & Ed & _).
  unfold lsw_escrow. eapply strip_opens; [|exact Ed|exact N]. rewrite E1, E2, Eg. logs. ring.
Qed.

Lemma ac_escrow_parts nonce (pk : ac_pk C) msk a0 a1 b0 b1 k0 k1 k2 t i s c0 j cp m c data d :
  ac_keys pk msk a0 a1 b0 b1 k0 k1 k2 -> draw_s pk t i = Ok (s, c0, j) -> ac_cp pk s = Ok cp ->
  encrypt_symmetric nonce m data = Ok d -> String.length nonce = 12%nat ->
  ac_escrow msk (AcCt c0 c (gtmul C cp m) d) = Ok data.
Proof.
  intros K Hs Hc Hd N. rewrite (draw_s_eq L _ _ _ _ _ _ _ _ _ _ _ K) in Hs. injection Hs as <- <- _.
  apply (ac_cp_inv L _ _ _ _ _ _ _ _ _ _ _ _ K) in Hc. destruct K as (g & h & -> & ->). unfold ac_escrow.
  cbn [amsk_gk act_c0 act_cp act_ct amsk_h apk_g] in *. eapply strip_opens; [|exact Hd|exact N].
  rewrite (logT_mul L), Hc. logs. ring.
Qed.

Theorem cp_escrow_opens nonce ts is (pk : ac_pk C) msk js pol lang data te ie ct je :
  ac_setup ts is = Ok (pk, msk, js) -> cp_encrypt nonce pk pol data lang te ie = Ok (ct, je) ->
  String.length nonce = 12%nat -> ac_escrow msk (acp_ct ct) = Ok data.
Proof.
  intros Hs He N. apply ac_setup_keys in Hs as (a0 & a1 & b0 & b1 & k0 & k1 & k2 & K).
  unfold cp_encrypt in He. step He v. step He msp. step He row. cbv zeta in He. step He sc. destruct sc as [s c0].
  step He tab. step He c. step He cp. step He m. step He d. apply rret_Ok in He as (<- & _).
  apply rlift_Ok in E5 as (E5 & _). apply rlift_Ok in E7 as (E7 & _). cbn [acp_ct].
  eapply ac_escrow_parts; eassumption.
Qed.

Theorem kp_escrow_opens nonce ts is (pk : ac_pk C) msk js attrs data te ie ct je :
  ac_setup ts is = Ok (pk, msk, js) -> kp_encrypt nonce pk attrs data te ie = Ok (ct, je) ->
  String.length nonce = 12%nat -> ac_escrow msk (akp_ct ct) = Ok data.
Proof.
  intros Hs He N. apply ac_setup_keys in Hs as (a0 & a1 & b0 & b1 & k0 & k1 & k2 & K).
  unfold kp_encrypt in He. step He sc. destruct sc as [s c0].
  step He c. step He cp. step He m. step He d. apply rret_Ok in He as (<- & _).
  apply rlift_Ok in E1 as (E1 & _). apply rlift_Ok in E3 as (E3 & _). cbn [akp_ct].
  eapply ac_escrow_parts; eassumption.
Qed.

Theorem yct_escrow_opens nonce U ts is (pk : yct_pk C) msk js attrs data te ie ct je n :
  yct_setup U ts is = Ok (pk, msk, js) -> yct_encrypt nonce pk attrs data te ie = Ok (ct, je) ->
  String.length nonce = 12%nat -> In n attrs -> msk_get_private msk n <> Ok 0 -> yct_escrow msk n ct = Ok data.
Proof.
  intros Hs He N I Nz. apply (yct_setup_keys L) in Hs as (G & K). pose proof K as (Lg & _).
  destruct (yct_encrypt_inv L _ _ _ _ _ _ _ _ _ _ _ K He) as (_ & _ & _ & Ed & _ & P).
  destruct (P n I) as (g & si & Eg & Es & El). unfold yct_escrow. rewrite Eg, Es. cbn [obind].
  assert (si <> 0) by (intros ->; congruence).
  replace (gtpow C g (fmul C (ymsk_s msk) (finv C si))) with (gtpow C (ypk_g pk) (te ie)).
  - eapply (symmetric_roundtrip L); eassumption.
  - apply (logT_inj L). logs. rewrite Lg, El. field. assumption.
Qed.

(** ** The schemes whose policies are in disjunctive normal form *)

Section Terms.
Variables (Q : pak C -> Prop) (R : term C -> Prop).
Hypothesis new : forall p, Q p -> R (new_term p).
Hypothesis merge : forall t p, R t -> Q p -> R (merge_term t p).

Lemma update_all p : Q p -> forall T, Forall R T -> forall i, Forall R (update_nth i (fun t => merge_term t p) T).
Proof. intros q T H. induction H as [|t T r H IH]; intros [|i]; cbn [update_nth]; constructor; auto. Qed.

Lemma leaf_all n i pks : Forall Q pks -> forall T, Forall R T -> Forall R (dnf_leaf pks n i T).
Proof.
  unfold dnf_leaf. induction 1 as [|p pks q _ IH]; intros T H; [exact H|]. cbn [fold_left]. apply IH.
  destruct (seqb _ _); [|exact H]. destruct (_ <? _); [now apply update_all|]. apply Forall_app. auto.
Qed.

Lemma dnf_all pks : Forall Q pks -> forall v i t T, Forall R T -> Forall R (snd (dnf pks v i t T)).
Proof.
  intros q. induction v as [n p|ty w IH|l IH] using pvalue_ind'; intros i t T H; cbn [dnf].
  - now apply leaf_all.
  - destruct t as [[| |]|]; try (apply IH; exact H); destruct ty; try (apply IH; exact H); exact H.
  - destruct t as [[| |]|]; try exact H.
    + revert T H. generalize true. induction IH as [|x l E _ IHl]; intros r T H; [exact H|].
      cbv zeta. destruct r; apply IHl; auto.
    + revert T H. generalize true. generalize 0%nat. induction IH as [|x l E _ IHl]; intros k r T H; [exact H|].
      cbv zeta. destruct r; apply IHl; auto.
Qed.

Lemma sort_all T : Forall R T -> Forall R (sort_terms T).
Proof.
  unfold sort_terms. induction 1 as [|t T r _ IH]; [constructor|]. cbn [fold_right]. revert IH. generalize (fold_right insert_term [] T).
  intros l. induction 1 as [|y l ry H IH]; cbn [insert_term]; [auto|]. destruct (_ <=? _); auto.
Qed.

Lemma json_all v pks T : Forall Q pks -> json_to_dnf v pks = Ok T -> Forall R T.
Proof.
  intros q. unfold json_to_dnf. pose proof (dnf_all pks q v 0%nat None [] (Forall_nil _)) as H.
  destruct (fst _); [|discriminate]. intros E. injection E as <-. now apply sort_all.
Qed.
End Terms.

(** All four elements carry one exponent. *)
Definition aligned (g1 : G1 C) (g2 : G2 C) (u1 u2 : GT C) (a : G1 C) (b : G2 C) (x y : GT C) : Prop :=
  exists e, log1 L a = log1 L g1 * e /\ log2 L b = log2 L g2 * e /\ logT L x = logT L u1 * e /\ logT L y = logT L u2 * e.

Lemma aligned_terms g1 g2 u1 u2 v pks T :
  Forall (fun p => aligned g1 g2 u1 u2 (pak_g1 p) (pak_g2 p) (pak_gt1 p) (pak_gt2 p)) pks -> json_to_dnf v pks = Ok T ->
  Forall (fun t => aligned g1 g2 u1 u2 (tm_g1 t) (tm_g2 t) (tm_gt1 t) (tm_gt2 t)) T.
Proof.
  apply json_all.
  - intros p H. exact H.
  - intros t p (e & A1 & A2 & A3 & A4) (e' & B1 & B2 & B3 & B4). exists (e + e'). unfold merge_term.
    cbn [tm_g1 tm_g2 tm_gt1 tm_gt2]. logs. rewrite A1, A2, A3, A4, B1, B2, B3, B4. repeat apply conj; ring.
Qed.

Lemma bd_terms (pk : bd_pk C) As v apks T : Forall (bd_pk_issued pk As) apks -> json_to_dnf v (map bd_pak apks) = Ok T ->
  Forall (fun t => exists e, log1 L (tm_g1 t) = log1 L (Bdabe.bpk_g1 pk) * e /\ log2 L (tm_g2 t) = log2 L (Bdabe.bpk_g2 pk) * e /\
    logT L (tm_gt1 t) = logT L (Bdabe.bpk_egg pk) * e) T.
Proof.
  intros H E.
  assert (Forall (fun t => aligned (Bdabe.bpk_g1 pk) (Bdabe.bpk_g2 pk) (Bdabe.bpk_egg pk) (gtone C) (tm_g1 t) (tm_g2 t) (tm_gt1 t) (tm_gt2 t)) T) as X.
  { eapply aligned_terms; [|exact E]. apply Forall_map. revert H. apply Forall_impl. intros k (A & n & _ & Hk).
    unfold bd_request_pk in Hk. destruct (from_authority _ _); [|discriminate].
    apply obind_Ok in Hk as (h1 & _ & Hk). apply obind_Ok in Hk as (h2 & _ & Hk). cbv zeta in Hk. injection Hk as <-.
    exists (h1 * h2 * bau_a3 A). cbn. logs. repeat apply conj; ring. }
  revert X. apply Forall_impl. intros t (e & A1 & A2 & A3 & _). eauto.
Qed.

Lemma mk_terms (pk : mk_pk C) As v apks T : Forall (mk_pk_issued pk As) apks -> json_to_dnf v (map mk_pak apks) = Ok T ->
  Forall (fun t => aligned (mpk_g1 pk) (mpk_g2 pk) (mpk_egg1 pk) (mpk_egg2 pk) (tm_g1 t) (tm_g2 t) (tm_gt1 t) (tm_gt2 t)) T.
Proof.
  intros H E. eapply aligned_terms; [|exact E]. apply Forall_map. revert H. apply Forall_impl. intros k (A & n & _ & Hk).
  unfold mk_request_pk in Hk. destruct (from_authority _ _); [|discriminate].
  apply obind_Ok in Hk as (h1 & _ & Hk). apply obind_Ok in Hk as (h2 & _ & Hk). cbv zeta in Hk. injection Hk as <-.
  exists (h1 * h2 * mau_r A). cbn. logs. repeat apply conj; ring.
Qed.

(** What every conjunction of a BDABE ciphertext is. *)
Lemma bd_tuples nonce ts is (pk : bd_pk C) msk js As apks pol lang data te ie ct je t :
  bd_setup ts is = Ok (pk, msk, js) -> Forall (bd_pk_issued pk As) apks ->
  bd_encrypt nonce pk apks pol lang data te ie = Ok (ct, je) -> In t (bct_j ct) ->
  exists e m, encrypt_symmetric nonce m data = Ok (Bdabe.bct_data ct) /\
    log1 L (bt_e4 t) = log1 L (Bdabe.bpk_g1 pk) * e /\ log2 L (bt_e5 t) = log2 L (Bdabe.bpk_g2 pk) * e /\
    logT L (bt_e1 t) = log1 L (Bdabe.bpk_g1 pk) * log2 L (Bdabe.bpk_g2 pk) * bmsk_y msk * e + logT L m.
Proof.
  intros Hs Hp He I. apply bd_setup_eq in Hs as (_ & _ & _ & _ & _ & _ & Eg).
  apply bd_encrypt_eq in He as (v & T & m & _ & _ & HT & _ & _ & _ & Hd & Len & Ht).
  pose proof (bd_terms pk As v apks T Hp HT) as HA. apply In_nth_error in I as (k & Ek).
  destruct (nth_error T k) as [tm|] eqn:Em.
  2:{ apply nth_error_None in Em. assert (nth_error (bct_j ct) k = None) by (apply nth_error_None; lia). congruence. }
  specialize (Ht k tm Em). rewrite Ek in Ht. injection Ht as ->. apply nth_error_In in Em. rewrite Forall_forall in HA.
  destruct (HA tm Em) as (e & A1 & A2 & A3). exists (e * te (ie + 2 + k)%nat), m. cbn [bt_e1 bt_e4 bt_e5].
  split; [exact Hd|]. logs. rewrite A1, A2, A3, Eg. logs. repeat apply conj; ring.
Qed.

Theorem bd_escrow_opens nonce ts is (pk : bd_pk C) msk js As apks pol lang data te ie ct je t :
  bd_setup ts is = Ok (pk, msk, js) -> Forall (bd_pk_issued pk As) apks ->
  bd_encrypt nonce pk apks pol lang data te ie = Ok (ct, je) -> String.length nonce = 12%nat -> In t (bct_j ct) ->
  bd_escrow pk msk t (Bdabe.bct_data ct) = Ok data.
Proof.
  intros Hs Hp He N I. destruct (bd_tuples _ _ _ _ _ _ _ _ _ _ _ _ _ _ _ _ Hs Hp He I) as (e & m & Hd & E4 & E5 & E1).
  unfold bd_escrow. eapply strip_opens; [|exact Hd|exact N]. rewrite E1. logs. rewrite E4. ring.
Qed.

Theorem bd_authority_opens_all nonce ts is (pk : bd_pk C) msk js As apks pol lang data te ie ct je t name ta ia au ja :
  bd_setup ts is = Ok (pk, msk, js) -> Forall (bd_pk_issued pk As) apks ->
  bd_encrypt nonce pk apks pol lang data te ie = Ok (ct, je) -> String.length nonce = 12%nat -> In t (bct_j ct) ->
  bd_authgen pk msk name ta ia = Ok (au, ja) ->
  bd_authority_opens au t (Bdabe.bct_data ct) = Ok data.
Proof.
  intros Hs Hp He N I Ha. destruct (bd_tuples _ _ _ _ _ _ _ _ _ _ _ _ _ _ _ _ Hs Hp He I) as (e & m & Hd & E4 & E5 & E1).
  apply bd_authgen_eq in Ha as (_ & _ & A1 & A2 & _).
  unfold bd_authority_opens. eapply strip_opens; [|exact Hd|exact N]. rewrite E1. logs. rewrite E4, E5, A1, A2. logs. ring.
Qed.

Theorem mk_escrow_opens nonce ts is (pk : mk_pk C) msk js As apks pol lang data te ie ct je t :
  mk_setup ts is = Ok (pk, msk, js) -> Forall (mk_pk_issued pk As) apks ->
  mk_encrypt nonce pk apks pol lang data te ie = Ok (ct, je) -> String.length nonce = 12%nat -> In t (mct_e ct) ->
  mk_escrow msk t (mct_data ct) = Ok data.
Proof.
  intros Hs Hp He N I. apply mk_setup_eq in Hs as (_ & _ & _ & _ & _ & Eg1 & Eg2 & M1 & M2).
  apply mk_encrypt_eq in He as (v & T & m1 & m2 & _ & _ & HT & _ & _ & _ & _ & Hd & Len & Ht).
  pose proof (mk_terms pk As v apks T Hp HT) as HA. apply In_nth_error in I as (k & Ek).
  destruct (nth_error T k) as [tm|] eqn:Em.
  2:{ apply nth_error_None in Em. assert (nth_error (mct_e ct) k = None) by (apply nth_error_None; lia). congruence. }
  specialize (Ht k tm Em). rewrite Ek in Ht. injection Ht as ->. apply nth_error_In in Em. rewrite Forall_forall in HA.
  destruct (HA tm Em) as (e & A1 & A2 & A3 & A4). unfold mk_escrow. cbn [mj_1 mj_2 mj_5 mj_6].
  eapply strip_opens; [|exact Hd|exact N]. logs. rewrite A1, A2, A3, A4, Eg1, Eg2, M1, M2. logs. ring.
Qed.
End EscrowProofs.
