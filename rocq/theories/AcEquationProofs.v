(** * AcEquationProofs: the equations of AC17, with the randomness spelled out *)
From Coq Require Import String List Bool Arith ZArith Lia Field.
From Verif Require Import Base Crypto Policy Tools Sharing Spec PolicyProofs Poly SharingProofs
  Symmetric Parse Msp MspProofs SchemeLib Ac17 Ac17Proofs EquationProofs.
Import ListNotations.

Lemma list3 {A} (a a' b b' c c' : A) : a = a' -> b = b' -> c = c' -> [a; b; c] = [a'; b'; c'].
Proof. now intros -> -> ->. Qed.

Section AcEquationProofs.
Context {C : crypto} (L : laws C).
Local Open Scope F_scope.
Add Field ac_equation_field : (f_theory L).
Notation F := (F C).
Ltac logs := log_simpl L.

Theorem ac_setup_eq t i (pk : ac_pk C) msk j :
  ac_setup t i = Ok ((pk, msk), j) <->
  j = (i + 9)%nat /\
  let g := g1mul C (g1one C) (t i) in
  let h := g2mul C (g2one C) (t (i + 1)%nat) in
  let a0 := t (i + 2)%nat in let b0 := t (i + 3)%nat in
  let a1 := t (i + 4)%nat in let b1 := t (i + 5)%nat in
  let k0 := t (i + 6)%nat in let k1 := t (i + 7)%nat in let k2 := t (i + 8)%nat in
  pk = AcPk g [g2mul C h a0; g2mul C h a1; h]
         [gtpow C (pairing C g h) (k0 * a0 + k2); gtpow C (pairing C g h) (k1 * a1 + k2)] /\
  msk = AcMsk g h [g1mul C g k0; g1mul C g k1; g1mul C g k2] [a0; a1] [b0; b1].
Proof.
  replace (i + 1)%nat with (S i) by lia. replace (i + 2)%nat with (S (S i)) by lia.
  replace (i + 3)%nat with (S (S (S i))) by lia. replace (i + 4)%nat with (S (S (S (S i)))) by lia.
  replace (i + 5)%nat with (S (S (S (S (S i))))) by lia.
  replace (i + 6)%nat with (S (S (S (S (S (S i)))))) by lia.
  replace (i + 7)%nat with (S (S (S (S (S (S (S i))))))) by lia.
  replace (i + 8)%nat with (S (S (S (S (S (S (S (S i)))))))) by lia.
  replace (i + 9)%nat with (S (S (S (S (S (S (S (S (S i))))))))) by lia.
  unfold ac_setup, draw_g1, draw_g2, rbind, rret, rlift, draw. cbn. split.
  - intros H. injection H as <- <- <-. auto.
  - intros (-> & -> & ->). reflexivity.
Qed.

Lemma draw_br_eq (pk : ac_pk C) msk a0 a1 b0 b1 k0 k1 k2 t i :
  ac_keys pk msk a0 a1 b0 b1 k0 k1 k2 ->
  draw_br msk t i = Ok ([b0 * t i; b1 * t (i + 1)%nat; t i + t (i + 1)%nat], (i + 2)%nat).
Proof.
  intros (g & h & -> & ->). replace (i + 1)%nat with (S i) by lia.
  replace (i + 2)%nat with (S (S i)) by lia.
  unfold draw_br, rbind, rret, rlift, draw. cbn. do 3 f_equal.
  replace (0 + t i + t (S i)) with (t i + t (S i)) by ring. reflexivity.
Qed.

Lemma draw_s_eq (pk : ac_pk C) msk a0 a1 b0 b1 k0 k1 k2 t i :
  ac_keys pk msk a0 a1 b0 b1 k0 k1 k2 ->
  draw_s pk t i = Ok (([t i; t (i + 1)%nat],
    [g2mul C (amsk_h msk) (a0 * t i); g2mul C (amsk_h msk) (a1 * t (i + 1)%nat);
     g2mul C (amsk_h msk) (t i + t (i + 1)%nat)]), (i + 2)%nat).
Proof.
  intros (g & h & -> & ->). replace (i + 1)%nat with (S i) by lia.
  replace (i + 2)%nat with (S (S i)) by lia.
  assert (X : forall x y, g2mul C (g2mul C h x) y = g2mul C h (x * y))
    by (intros; apply (log2_inj L); logs; ring).
  unfold draw_s, rbind, rret, rlift, draw. cbn. rewrite !X. do 3 f_equal.
  replace (0 + t i + t (S i)) with (t i + t (S i)) by ring. reflexivity.
Qed.

(** Ciphertext-policy keys.  [W x x0 x1 x2 t] is the sum of [x_l] times the hash of the text
    made of [x], [l] and [t]. *)
Theorem cp_keygen_eq (pk : ac_pk C) msk a0 a1 b0 b1 k0 k1 k2 attrs t i sk j :
  ac_keys pk msk a0 a1 b0 b1 k0 k1 k2 ->
  cp_keygen msk attrs t i = Ok (sk, j) ->
  let g := amsk_g msk in let h := amsk_h msk in
  let x0 := b0 * t i in let x1 := b1 * t (i + 1)%nat in let x2 := t i + t (i + 1)%nat in
  let s := t (i + 2 + length attrs)%nat in
  a0 <> 0 /\ a1 <> 0 /\ j = (i + 3 + length attrs)%nat /\
  acps_attr sk = attrs /\
  ask_k0 (acps_sk sk) = [g2mul C h x0; g2mul C h x1; g2mul C h x2] /\
  ask_kp (acps_sk sk) =
    [g1mul C g (k0 + (W "01" x0 x1 x2 0 + s) * finv C a0);
     g1mul C g (k1 + (W "01" x0 x1 x2 1 + s) * finv C a1);
     g1mul C g (k2 - s)] /\
  length (ask_k (acps_sk sk)) = length attrs /\
  forall k a, nth_error attrs k = Some a ->
    nth_error (ask_k (acps_sk sk)) k = Some (a,
      [g1mul C g ((W a x0 x1 x2 0 + t (i + 2 + k)%nat) * finv C a0);
       g1mul C g ((W a x0 x1 x2 1 + t (i + 2 + k)%nat) * finv C a1);
       g1mul C g (- t (i + 2 + k)%nat)]).
Proof.
  intros K H. cbv zeta. unfold cp_keygen in H. destruct attrs as [|n0 at0]; [discriminate|].
  set (attrs := n0 :: at0) in *. clearbody attrs.
  apply rbind_Ok in H as (br & i1 & Hbr & H).
  rewrite (draw_br_eq _ _ _ _ _ _ _ _ _ _ _ K) in Hbr. injection Hbr as <- <-.
  set (x0 := b0 * t i) in *. set (x1 := b1 * t (i + 1)%nat) in *. set (x2 := t i + t (i + 1)%nat) in *.
  apply rbind_Ok in H as (kk & i2 & Hk & H). apply rlift_Ok in Hk as [Hk <-].
  apply (ac_k0_inv _ _ _ _ _ _ _ _ _ _ _ _ _ K) in Hk. subst kk.
  apply rbind_Ok in H as (k & i3 & Hkk & H).
  apply rbind_Ok in H as (sg & i4 & Hsg & H). injection Hsg as <- <-.
  apply rbind_Ok in H as (kp & i5 & Hkp & H). apply rlift_Ok in Hkp as [Hkp <-].
  apply rbind_Ok in H as (g2 & i6 & Hg2 & H). apply rlift_Ok in Hg2 as [Hg2 <-].
  apply rret_Ok in H as [<- <-]. destruct K as (g & h & -> & ->). cbn [amsk_a amsk_g amsk_gk amsk_h] in *.
  unfold ts, asz in Hkp. cbn [seq omap] in Hkp.
  cbn [idx nth_error unwrap obind] in Hkp.
  destruct (finv_opt a0) as [y0|] eqn:E0; [|discriminate]. cbn [unwrap obind] in Hkp.
  apply obind_Ok in Hkp as (w0 & Hw0 & Hkp). apply obind_Ok in Hw0 as (v0 & Hv0 & Hw0).
  injection Hw0 as <-. apply obind_Ok in Hkp as (rest & Hr & Hkp). injection Hkp as <-.
  destruct (finv_opt a1) as [y1|] eqn:E1; [|discriminate]. cbn [unwrap obind] in Hr.
  apply obind_Ok in Hr as (w1 & Hw1 & Hr). apply obind_Ok in Hw1 as (v1 & Hv1 & Hw1).
  injection Hw1 as <-. injection Hr as <-. cbn in Hg2. injection Hg2 as <-.
  pose proof (finv_opt_Some L _ _ E0) as (N0 & ->). pose proof (finv_opt_Some L _ _ E1) as (N1 & ->).
  apply (hash_prod_log L) in Hv0, Hv1.
  split; [exact N0|]. split; [exact N1|].
  apply (rmap_at _ 1) in Hkk as (-> & Lk & Nk).
  - rewrite Nat.mul_1_l. split; [lia|]. cbn [acps_attr acps_sk ask_k0 ask_k ask_kp app].
    split; [reflexivity|]. split; [reflexivity|]. split.
    { apply list3; apply (log1_inj L); logs; [rewrite Hv0|rewrite Hv1|]; logs; ring. }
    split; [exact Lk|]. intros q a Ha. destruct (Nk q a Ha) as (y & Hy & E).
    rewrite Nat.mul_1_l in E. rewrite Hy. f_equal.
    apply rbind_Ok in E as (sa & j1 & Hsa & E). injection Hsa as <- <-.
    apply rbind_Ok in E as (key & j2 & Hkey & E). apply rlift_Ok in Hkey as [Hkey <-].
    apply rret_Ok in E as [<- _].
    unfold ts, asz in Hkey. cbn [seq omap idx nth_error unwrap obind] in Hkey.
    rewrite E0, E1 in Hkey. cbn [unwrap obind] in Hkey.
    apply obind_Ok in Hkey as (w0 & Hw0 & Hkey). apply obind_Ok in Hw0 as (z0 & Hz0 & Hw0).
    injection Hw0 as <-. apply obind_Ok in Hkey as (rest & Hr & Hkey). injection Hkey as <-.
    apply obind_Ok in Hr as (w1 & Hw1 & Hr). apply obind_Ok in Hw1 as (z1 & Hz1 & Hw1).
    injection Hw1 as <-. injection Hr as <-.
    apply (hash_prod_log L) in Hz0, Hz1. cbn [app]. f_equal.
    apply list3; apply (log1_inj L); logs; [rewrite Hz0|rewrite Hz1|]; logs; ring.
  - intros x q y m _ E.
    apply rbind_Ok in E as (sa & j1 & Hsa & E). injection Hsa as <- <-.
    apply rbind_Ok in E as (key & j2 & Hkey & E). apply rlift_Ok in Hkey as [Hkey <-].
    apply rret_Ok in E as [_ <-]. lia.
Qed.

(** Ciphertexts of the ciphertext-policy variant. *)
Definition cp_cell (name : string) (row : list Z) (s0 s1 : F) (l : nat) : F :=
  (hv (lab name l 0) + dot row (fun c => hv (lab (col (c + 1)) l 0))) * s0 +
  (hv (lab name l 1) + dot row (fun c => hv (lab (col (c + 1)) l 1))) * s1.

Theorem cp_encrypt_eq nonce (pk : ac_pk C) msk a0 a1 b0 b1 k0 k1 k2 pol lang data t i ct j f :
  ac_keys pk msk a0 a1 b0 b1 k0 k1 k2 -> parse pol lang = Ok (tree f) -> binary_and f = true ->
  cp_encrypt nonce pk pol data lang t i = Ok (ct, j) ->
  exists m, m = gtpow C (pairing C (g1one C) (g2one C)) (t (i + 2)%nat) /\
  let g := amsk_g msk in let h := amsk_h msk in
  let s0 := t i in let s1 := t (i + 1)%nat in
  j = (i + 3)%nat /\ acp_policy ct = (pol, lang) /\
  act_c0 (acp_ct ct) = [g2mul C h (a0 * s0); g2mul C h (a1 * s1); g2mul C h (s0 + s1)] /\
  act_cp (acp_ct ct) = gtmul C (gtpow C (pairing C g h) ((k0 * a0 + k2) * s0 + (k1 * a1 + k2) * s1)) m /\
  encrypt_symmetric nonce m data = Ok (act_ct (acp_ct ct)) /\
  act_c (acp_ct ct) =
    map (fun r => (fst r, map (fun l => g1mul C g (cp_cell (fst r) (snd r) s0 s1 l)) [0; 1; 2]%nat))
        (sort_rows (rev (msp_rows f))).
Proof.
  intros K P B H. pose proof H as H0. unfold cp_encrypt in H. rewrite P in H.
  apply rbind_Ok in H as (v & i1 & Hv & H). apply rlift_Ok in Hv as [Hv <-]. injection Hv as <-.
  rewrite (calculate_msp_eq f B) in H.
  apply rbind_Ok in H as (msp & i2 & Hm & H). apply rlift_Ok in Hm as [Hm <-]. injection Hm as <-.
  cbn [msp_m msp_pi] in H. set (R := sort_rows (rev (msp_rows f))) in *.
  apply rbind_Ok in H as (row0 & i3 & Hr & H). apply rlift_Ok in Hr as [Hr <-].
  assert (Hn : length row0 = msp_width f).
  { apply idx_Ok, nth_error_In in Hr. apply in_map_iff in Hr as (r & <- & Ir).
    apply (proj1 (sorted_In f r)) in Ir. now apply msp_rows_length. }
  rewrite Hn in H.
  apply rbind_Ok in H as ([s c0] & i4 & Hs & H).
  rewrite (draw_s_eq _ _ _ _ _ _ _ _ _ _ _ K) in Hs. injection Hs as <- <- <-.
  apply rbind_Ok in H as (table & i5 & Ht & H). apply rlift_Ok in Ht as [Ht <-].
  apply rbind_Ok in H as (c & i6 & Hc & H). apply rlift_Ok in Hc as [Hc <-].
  apply rbind_Ok in H as (cp & i7 & Hcp & H). apply rlift_Ok in Hcp as [Hcp <-].
  apply rbind_Ok in H as (msg & i8 & Hmsg & H).
  unfold draw_gt, rbind, draw, rret in Hmsg. injection Hmsg as <- <-.
  apply rbind_Ok in H as (d & i9 & Hd & H). apply rlift_Ok in Hd as [Hd <-].
  apply rret_Ok in H as [<- <-]. cbn [acp_policy acp_ct act_c0 act_c act_cp act_ct].
  apply (ac_cp_inv L _ _ _ _ _ _ _ _ _ _ _ _ K) in Hcp.
  assert (Eg : apk_g pk = amsk_g msk) by (destruct K as (g & h & -> & ->); reflexivity).
  rewrite Eg in Hcp.
  eexists. split; [reflexivity|]. cbv zeta. split; [lia|]. split; [reflexivity|]. split; [reflexivity|]. split; [|split; [exact Hd|]].
  - f_equal. apply (logT_inj L). rewrite Hcp. logs. try ring.
  - rewrite map_length in Hc. rewrite (omap_rows R) in Hc.
    apply omap_Forall2 in Hc.
    assert (Sub : forall r, In r R -> In r (msp_rows f)) by (intros r; apply sorted_In).
    clearbody R. clear - L Hc Sub Ht B K Eg.
    induction Hc as [|r e R c E _ IH]; [reflexivity|].
    cbn [map]. f_equal; [|apply IH; intros; apply Sub; now right].
    apply obind_Ok in E as (q & Eq & E). injection E as <-.
    assert (Ir : In r (msp_rows f)) by (apply Sub; now left).
    pose proof (msp_rows_length f r Ir) as Len. pose proof (msp_rows_small f r B Ir) as Sm.
    unfold ls, asz in Eq. cbn [seq Nat.add omap] in Eq.
    apply obind_Ok in Eq as (q0 & Q0 & Eq). apply obind_Ok in Eq as (r1 & Q1' & Eq).
    apply obind_Ok in Q1' as (q1 & Q1 & Q1'). apply obind_Ok in Q1' as (r2 & Q2' & Q1').
    apply obind_Ok in Q2' as (q2 & Q2 & Q2'). injection Q2' as <-. injection Q1' as <-. injection Eq as <-.
    apply (cp_entry_log L _ _ _ _ _ _ _ _ _ Ht Len Sm) in Q0; [|cbn; auto].
    apply (cp_entry_log L _ _ _ _ _ _ _ _ _ Ht Len Sm) in Q1; [|cbn; auto].
    apply (cp_entry_log L _ _ _ _ _ _ _ _ _ Ht Len Sm) in Q2; [|cbn; auto].
    rewrite Eg in *. f_equal. cbn [map]. unfold cp_cell, colv in *.
    apply list3; apply (log1_inj L); rewrite (log1_mul L);
      [rewrite Q0|rewrite Q1|rewrite Q2]; ring.
Qed.

Theorem kp_encrypt_eq nonce (pk : ac_pk C) msk a0 a1 b0 b1 k0 k1 k2 attrs data t i ct j :
  ac_keys pk msk a0 a1 b0 b1 k0 k1 k2 ->
  kp_encrypt nonce pk attrs data t i = Ok (ct, j) ->
  exists m, m = gtpow C (pairing C (g1one C) (g2one C)) (t (i + 2)%nat) /\
  let g := amsk_g msk in let h := amsk_h msk in
  let s0 := t i in let s1 := t (i + 1)%nat in
  j = (i + 3)%nat /\ akp_attr ct = attrs /\
  act_c0 (akp_ct ct) = [g2mul C h (a0 * s0); g2mul C h (a1 * s1); g2mul C h (s0 + s1)] /\
  act_cp (akp_ct ct) = gtmul C (gtpow C (pairing C g h) ((k0 * a0 + k2) * s0 + (k1 * a1 + k2) * s1)) m /\
  encrypt_symmetric nonce m data = Ok (act_ct (akp_ct ct)) /\
  act_c (akp_ct ct) =
    map (fun a => (a, map (fun l => g1mul C g (hv (lab a l 0) * s0 + hv (lab a l 1) * s1)) [0; 1; 2]%nat))
        attrs.
Proof.
  intros K H. unfold kp_encrypt in H.
  apply rbind_Ok in H as ([s c0] & i4 & Hs & H).
  rewrite (draw_s_eq _ _ _ _ _ _ _ _ _ _ _ K) in Hs. injection Hs as <- <- <-.
  apply rbind_Ok in H as (c & i6 & Hc & H). apply rlift_Ok in Hc as [Hc <-].
  apply rbind_Ok in H as (cp & i7 & Hcp & H). apply rlift_Ok in Hcp as [Hcp <-].
  apply rbind_Ok in H as (msg & i8 & Hmsg & H).
  unfold draw_gt, rbind, draw, rret in Hmsg. injection Hmsg as <- <-.
  apply rbind_Ok in H as (d & i9 & Hd & H). apply rlift_Ok in Hd as [Hd <-].
  apply rret_Ok in H as [<- <-]. cbn [akp_attr akp_ct act_c0 act_c act_cp act_ct].
  apply (ac_cp_inv L _ _ _ _ _ _ _ _ _ _ _ _ K) in Hcp.
  assert (Eg : apk_g pk = amsk_g msk) by (destruct K as (g & h & -> & ->); reflexivity).
  rewrite Eg in Hcp.
  eexists. split; [reflexivity|]. cbv zeta. split; [lia|]. split; [reflexivity|]. split; [reflexivity|]. split; [|split; [exact Hd|]].
  - f_equal. apply (logT_inj L). rewrite Hcp. logs. try ring.
  - apply omap_Forall2 in Hc. induction Hc as [|n e attrs c E _ IH]; [reflexivity|].
    cbn [map]. f_equal; [|exact IH].
    apply obind_Ok in E as (q & Eq & E). injection E as <-.
    unfold ls, asz in Eq. cbn [seq Nat.add omap] in Eq.
    apply obind_Ok in Eq as (q0 & Q0 & Eq). apply obind_Ok in Eq as (r1 & Q1' & Eq).
    apply obind_Ok in Q1' as (q1 & Q1 & Q1'). apply obind_Ok in Q1' as (r2 & Q2' & Q1').
    apply obind_Ok in Q2' as (q2 & Q2 & Q2'). injection Q2' as <-. injection Q1' as <-. injection Eq as <-.
    apply (kp_ct_entry_log L) in Q0, Q1, Q2. rewrite Eg in *. f_equal. cbn [map].
    apply list3; apply (log1_inj L); rewrite (log1_mul L);
      [rewrite Q0|rewrite Q1|rewrite Q2]; ring.
Qed.

(** ** Key-policy keys *)

(** The value of column [c] in component [t].  The first column carries the master key, the
    others blind it.  [sp] are the blinding values, one for each column but the first. *)
Definition kp_column (sp : nat -> F) (x0 x1 x2 y k : F) (t c : nat) : F :=
  match c with
  | O => k
  | S _ => fsum (map (fun q => W (col q) x0 x1 x2 t * y - sp q) (seq 1 c))
  end.
Definition kp_column_last (sp : nat -> F) (k : F) (c : nat) : F :=
  match c with O => k | S _ => - sp c end.

Lemma tmp_column (G : F) sp x0 x1 x2 y t c :
  tmp G sp x0 x1 x2 y t c =
  G * fsum (map (fun q : nat => W (col q) x0 x1 x2 t * y - nth (q - 1) sp 0) (seq 1 c)).
Proof.
  induction c as [|c IH]; [cbn; ring|]. rewrite seq_S, map_app, (fsum_app L). cbn [tmp].
  rewrite IH. cbn [map fsum Nat.add Nat.sub]. rewrite Nat.sub_0_r. ring.
Qed.

Lemma dot_scale row (w : nat -> F) G : dot row (fun c => G * w c) = G * dot row w.
Proof.
  unfold dot. generalize 0%nat. induction row as [|z row IH]; intros k; cbn; [ring|].
  rewrite IH. ring.
Qed.

Lemma dot_ext row (w w' : nat -> F) : (forall c, (c < length row)%nat -> w c = w' c) -> dot row w = dot row w'.
Proof.
  unfold dot. intros H. assert (X : forall k, (forall c, (c < length row)%nat -> w (k + c)%nat = w' (k + c)%nat) ->
    dot_from k row w = dot_from k row w').
  { clear H. induction row as [|z row IH]; intros k H; cbn; [reflexivity|].
    rewrite IH.
    - specialize (H 0%nat). rewrite Nat.add_0_r in H. rewrite H by (cbn; lia). reflexivity.
    - intros c Hc. specialize (H (S c)). replace (S k + c)%nat with (k + S c)%nat by lia. apply H. cbn. lia. }
  apply X. exact H.
Qed.

Theorem kp_keygen_eq (pk : ac_pk C) msk a0 a1 b0 b1 k0 k1 k2 pol lang t i sk j f :
  ac_keys pk msk a0 a1 b0 b1 k0 k1 k2 -> parse pol lang = Ok (tree f) -> binary_and f = true ->
  kp_keygen msk pol lang t i = Ok (sk, j) ->
  let g := amsk_g msk in let h := amsk_h msk in
  let x0 := b0 * t i in let x1 := b1 * t (i + 1)%nat in let x2 := t i + t (i + 1)%nat in
  let sp := fun c => t (i + 1 + c)%nat in
  let rows := sort_rows (rev (msp_rows f)) in
  a0 <> 0 /\ a1 <> 0 /\ j = (i + 1 + msp_width f + length rows)%nat /\
  akps_policy sk = (pol, lang) /\
  ask_k0 (akps_sk sk) = [g2mul C h x0; g2mul C h x1; g2mul C h x2] /\
  ask_kp (akps_sk sk) = [] /\
  length (ask_k (akps_sk sk)) = length rows /\
  forall q name row, nth_error rows q = Some (name, row) ->
    let s := t (i + 1 + msp_width f + q)%nat in
    nth_error (ask_k (akps_sk sk)) q = Some (name,
      [g1mul C g ((W name x0 x1 x2 0 + s) * finv C a0 + dot row (kp_column sp x0 x1 x2 (finv C a0) k0 0));
       g1mul C g ((W name x0 x1 x2 1 + s) * finv C a1 + dot row (kp_column sp x0 x1 x2 (finv C a1) k1 1));
       g1mul C g (- s + dot row (kp_column_last sp k2))]).
Proof.
  intros K P B H. cbv zeta. unfold kp_keygen in H. rewrite P in H.
  apply rbind_Ok in H as (v & i1 & Hv & H). apply rlift_Ok in Hv as [Hv <-]. injection Hv as <-.
  rewrite (calculate_msp_eq f B) in H.
  apply rbind_Ok in H as (msp & i2 & Hm & H). apply rlift_Ok in Hm as [Hm <-]. injection Hm as <-.
  cbn [msp_m msp_pi] in H. set (R := sort_rows (rev (msp_rows f))) in *.
  apply rbind_Ok in H as (row0 & i3 & Hr & H). apply rlift_Ok in Hr as [Hr <-].
  assert (NE : R <> []) by (intros E; rewrite E in Hr; discriminate).
  assert (Hn : length row0 = msp_width f).
  { apply idx_Ok, nth_error_In in Hr. apply in_map_iff in Hr as (r & <- & Ir).
    apply (proj1 (sorted_In f r)) in Ir. now apply msp_rows_length. }
  rewrite Hn in H.
  apply rbind_Ok in H as (br & i4 & Hbr & H).
  rewrite (draw_br_eq _ _ _ _ _ _ _ _ _ _ _ K) in Hbr. injection Hbr as <- <-.
  set (x0 := b0 * t i) in *. set (x1 := b1 * t (i + 1)%nat) in *. set (x2 := t i + t (i + 1)%nat) in *.
  apply rbind_Ok in H as (kk & i5 & Hk & H). apply rlift_Ok in Hk as [Hk <-].
  apply (ac_k0_inv _ _ _ _ _ _ _ _ _ _ _ _ _ K) in Hk. subst kk.
  pose proof (msp_width_pos f B) as Wp.
  apply rbind_Ok in H as (sp & i6 & Hsp & H). rewrite draws_eq in Hsp. injection Hsp as <- <-.
  apply rbind_Ok in H as (k & i7 & Hk & H). apply rret_Ok in H as [<- <-].
  cbn [akps_policy akps_sk ask_k0 ask_k ask_kp].
  rewrite map_length, (rmap_rows R) in Hk.
  set (sp := map t (seq (i + 2) (msp_width f - 1))) in *.
  assert (Hsp : forall c, (c < msp_width f - 1)%nat -> nth c sp 0 = t (i + 1 + S c)%nat).
  { intros c Hc. unfold sp. rewrite nth_map_seq by exact Hc. f_equal. lia. }
  apply (rmap_at _ 1) in Hk as (-> & Lk & Nk).
  - rewrite Nat.mul_1_l.
    assert (X : forall q name row, nth_error R q = Some (name, row) ->
      a0 <> 0 /\ a1 <> 0 /\
      nth_error k q = Some (name,
      [g1mul C (amsk_g msk) ((W name x0 x1 x2 0 + t (i + 1 + msp_width f + q)%nat) * finv C a0 +
          dot row (kp_column (fun c => t (i + 1 + c)%nat) x0 x1 x2 (finv C a0) k0 0));
       g1mul C (amsk_g msk) ((W name x0 x1 x2 1 + t (i + 1 + msp_width f + q)%nat) * finv C a1 +
          dot row (kp_column (fun c => t (i + 1 + c)%nat) x0 x1 x2 (finv C a1) k1 1));
       g1mul C (amsk_g msk) (- t (i + 1 + msp_width f + q)%nat +
          dot row (kp_column_last (fun c => t (i + 1 + c)%nat) k2))])).
    { intros q name row Hq. destruct (Nk q _ Hq) as (y & Hy & E). cbn [fst snd] in E.
      replace (i + 2 + (msp_width f - 1) + 1 * q)%nat with (i + 1 + msp_width f + q)%nat in E by lia.
      apply rbind_Ok in E as (sg & j1 & Hsg & E). injection Hsg as <- <-.
      set (s := t (i + 1 + msp_width f + q)%nat) in *.
      apply rbind_Ok in E as (key & j2 & Hkey & E). apply rlift_Ok in Hkey as [Hkey <-].
      apply rbind_Ok in E as (la & j3 & Hla & E). apply rlift_Ok in Hla as [Hla <-].
      apply rret_Ok in E as [<- _].
      assert (Ir : In (name, row) (msp_rows f)) by (apply sorted_In; eapply nth_error_In; exact Hq).
      pose proof (msp_rows_length f _ Ir) as Len. pose proof (msp_rows_small f _ B Ir) as Sm.
      cbn [snd] in Len, Sm.
      unfold ts, asz in Hkey. cbn [seq omap] in Hkey.
      apply obind_Ok in Hkey as (p0 & P0 & Hkey). apply obind_Ok in Hkey as (rest & P1' & Hkey).
      apply obind_Ok in P1' as (p1 & P1 & P1'). injection P1' as <-. injection Hkey as <-.
      apply (kp_entry_log L _ _ _ _ _ _ _ _ _ _ _ _ _ _ _ _ _ _ _ a0 k0 K Len Wp Sm) in P0 as (N0 & P0); [|auto].
      apply (kp_entry_log L _ _ _ _ _ _ _ _ _ _ _ _ _ _ _ _ _ _ _ a1 k1 K Len Wp Sm) in P1 as (N1 & P1); [|auto].
      apply (kp_last_log L _ _ _ _ _ _ _ _ _ _ _ _ _ _ K Len Wp Sm) in Hla.
      split; [exact N0|]. split; [exact N1|]. rewrite Hy. f_equal. f_equal. cbn [app].
      assert (Y : forall y' kq tq, dot row (kz (log1 L (amsk_g msk)) sp x0 x1 x2 y' kq tq) =
         log1 L (amsk_g msk) * dot row (kp_column (fun c => t (i + 1 + c)%nat) x0 x1 x2 y' kq tq)).
      { intros y' kq tq. rewrite <- dot_scale. apply dot_ext. intros [|c] Hc; [reflexivity|].
        cbn [kz kp_column]. rewrite tmp_column. f_equal. apply fsum_map_ext. intros u Iu. apply in_seq in Iu.
        rewrite Hsp by lia. do 3 f_equal. lia. }
      assert (Z : dot row (kz2 (log1 L (amsk_g msk)) sp k2) =
         log1 L (amsk_g msk) * dot row (kp_column_last (fun c => t (i + 1 + c)%nat) k2)).
      { rewrite <- dot_scale. apply dot_ext. intros [|c] Hc; [reflexivity|].
        cbn [kz2 kp_column_last]. rewrite Hsp by lia. ring. }
      apply list3; apply (log1_inj L); rewrite (log1_mul L);
        [rewrite P0, Y|rewrite P1, Y|rewrite Hla, Z]; ring. }
    destruct R as [|[n0 r0] R']; [congruence|].
    destruct (X 0%nat n0 r0 eq_refl) as (N0 & N1 & _).
    repeat apply conj; auto; [lia|]. intros q name row Hq. apply (X q name row Hq).
  - intros x q y m _ E.
    apply rbind_Ok in E as (sg & j1 & Hsg & E). injection Hsg as <- <-.
    apply rbind_Ok in E as (key & j2 & Hkey & E). apply rlift_Ok in Hkey as [Hkey <-].
    apply rbind_Ok in E as (la & j3 & Hla & E). apply rlift_Ok in Hla as [Hla <-].
    apply rret_Ok in E as [_ <-]. lia.
Qed.

End AcEquationProofs.
