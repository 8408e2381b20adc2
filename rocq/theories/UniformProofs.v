(** * UniformProofs: which draw decides the payload key, and what else it decides *)
From Coq Require Import String List Bool Arith Lia Field.
From Verif Require Import Base Crypto Policy Parse Spec PolicyProofs Poly Tools Sharing SchemeLib Symmetric Msp Dnf Bdabe Mke08
  Bsw Ghw11 Lsw Yct14 Ac17 Aw11 Generic Views Payloads GenericProofs RobustProofs.
Import ListNotations.
Local Open Scope rand_scope.

(** ** A successful step depends on the draws it makes *)
Section Windows.
Context {F : Type}.

Definition window {A} (m : rand F A) : Prop := forall t i x j, m t i = Ok (x, j) ->
  i <= j /\ forall t', (forall k, i <= k < j -> t' k = t k) -> m t' i = Ok (x, j).

Lemma window_ret {A} (a : A) : window (rret a).
Proof. intros t i x j H. apply rret_Ok in H as [<- <-]. split; [lia|]. reflexivity. Qed.

Lemma window_lift {A} (o : outcome A) : window (rlift o).
Proof. intros t i x j H. apply rlift_Ok in H as [-> <-]. split; [lia|]. reflexivity. Qed.

Lemma window_err {A} : window (@rerr F A).
Proof. intros t i x j H. discriminate H. Qed.
Lemma window_panic {A} : window (@rpanic F A).
Proof. intros t i x j H. discriminate H. Qed.

Lemma window_draw : window (@draw F).
Proof. intros t i x j H. injection H as <- <-. split; [lia|]. intros t' E. unfold draw. rewrite E by lia. reflexivity. Qed.

Lemma window_bind {A B} (m : rand F A) (k : A -> rand F B) : window m -> (forall a, window (k a)) -> window (rbind m k).
Proof.
  intros M K t i x j H. apply rbind_Ok in H as (a & i1 & H1 & H2).
  destruct (M _ _ _ _ H1) as (L1 & E1). destruct (K _ _ _ _ _ H2) as (L2 & E2). split; [lia|].
  intros t' E. apply rbind_Ok. exists a, i1. split; [apply E1|apply E2]; intros n Hn; apply E; lia.
Qed.

Lemma window_map {A B} (f : A -> rand F B) l : (forall a, window (f a)) -> window (rmap f l).
Proof.
  intros W. induction l as [|a l IH]; cbn [rmap]; [apply window_ret|].
  apply window_bind; [apply W|]. intros b. apply window_bind; [exact IH|]. intros bs. apply window_ret.
Qed.

Lemma window_draws n : window (@draws F n).
Proof.
  induction n as [|n IH]; cbn [draws]; [apply window_ret|].
  apply window_bind; [apply window_draw|]. intros b. apply window_bind; [exact IH|]. intros bs. apply window_ret.
Qed.
End Windows.

Section UniformProofs.
Context {C : crypto} (L : laws C).
Notation F := (F C).
Ltac logs := log_simpl L.
Add Field uniform_field : (f_theory L).

Lemma window_shares v : forall (s : F) o, window (gen_shares_policy s v o).
Proof.
  induction v as [n p|ty w IH|l IH] using pvalue_ind'; intros s o; cbn [gen_shares_policy].
  - apply window_ret.
  - apply IH.
  - assert (W : window (rbind (gen_shares (C := C) s (match o with Some And => length l | _ => 1 end) (length l)) (fun shares =>
      (fix loop (l : list pvalue) (sh : list F) (acc : list (string * F)) :=
             match l with
             | [] => rret acc
             | c :: r =>
                 match sh with
                 | [] => rpanic
                 | s :: sr =>
                     rbind (gen_shares_policy s c None) (fun items =>
                     loop r sr (acc ++ items))
                 end
             end) l (tl shares) []))).
    { apply window_bind.
      - unfold gen_shares. destruct (_ <=? _); [|apply window_ret].
        apply window_bind; [apply window_draws|]. intros a. apply window_ret.
      - intros sh. generalize (tl sh), (@nil (string * F)). induction IH as [|c r Hc Hr IHr]; intros m acc; [apply window_ret|].
        destruct m as [|x m]; [apply window_panic|]. apply window_bind; [apply Hc|]. intros items. apply IHr. }
    destruct o as [[| |]|]; try exact W; apply window_panic.
Qed.

(** A draw outside the window does not matter. *)
Lemma window_put {A} (m : rand F A) t i x j q y : window m -> m t i = Ok (x, j) -> q < i \/ j <= q ->
  m (put t q y) i = Ok (x, j).
Proof.
  intros W H N. apply (W _ _ _ _ H). intros k Hk. apply put_other. lia.
Qed.

Lemma draw_gt_put t q y : draw_gt (C := C) (put t q y) q = Ok (payload y, S q).
Proof. unfold draw_gt, rbind, draw, rret. now rewrite put_same. Qed.

Lemma draw_gt_inv t i x j : draw_gt (C := C) t i = Ok (x, j) -> x = payload (t i) /\ j = S i.
Proof. unfold draw_gt, rbind, draw, rret. intros H. injection H as <- <-. auto. Qed.

Lemma payload_onto (key : GT C) : exists m, forall m', payload m' = key <-> m' = m.
Proof.
  exists (logT L key). intros m'. split.
  - intros <-. symmetry. apply (log_payload L).
  - intros ->. apply (logT_inj L). apply (log_payload L).
Qed.

(** ** The schemes that draw the payload key *)

Theorem bsw_uniform nonce (pk : bsw_pk C) pol lang data t i ct j :
  bsw_encrypt nonce pk pol lang data t i = Ok (ct, j) ->
  encrypt_symmetric nonce (payload (t (i + 1))) data = Ok (bct_data ct) /\
  forall m, exists ct', bsw_encrypt nonce pk pol lang data (put t (i + 1) m) i = Ok (ct', j) /\
  bct_policy ct' = bct_policy ct /\ bct_c ct' = bct_c ct /\ bct_cy ct' = bct_cy ct /\
  encrypt_symmetric nonce (payload m) data = Ok (bct_data ct').
Proof.
  unfold bsw_encrypt. intros H. apply rbind_Ok in H as (s & i1 & H1 & H). injection H1 as <- <-.
  apply rbind_Ok in H as (m0 & i2 & H2 & H). apply draw_gt_inv in H2 as [-> ->].
  apply rbind_Ok in H as (v & i3 & H3 & H). apply rlift_Ok in H3 as [H3 <-].
  apply rbind_Ok in H as (sh & i4 & H4 & H).
  apply rbind_Ok in H as (cy & i5 & H5 & H). apply rlift_Ok in H5 as [H5 <-].
  apply rbind_Ok in H as (d & i6 & H6 & H). apply rlift_Ok in H6 as [H6 <-].
  apply rret_Ok in H as [<- <-]. rewrite Nat.add_1_r.
  split; [exact H6|]. intros m.
  eexists. split.
  - apply rbind_Ok. exists (t i), (S i). split; [unfold draw; rewrite put_other by lia; reflexivity|].
    apply rbind_Ok. exists (payload m), (S (S i)). split; [apply draw_gt_put|].
    apply rbind_Ok. exists v, (S (S i)). split; [apply rlift_Ok; auto|].
    apply rbind_Ok. exists sh, i4. split; [apply window_put; [apply window_shares|exact H4|lia]|].
    apply rbind_Ok. exists cy, i4. split; [apply rlift_Ok; auto|].
    unfold encrypt_symmetric. cbn. reflexivity.
  - cbn. auto.
Qed.

Theorem ghw_uniform nonce (pk : ghw_pk C) pol lang data t i ct j :
  ghw_encrypt nonce pk pol lang data t i = Ok (ct, j) ->
  encrypt_symmetric nonce (payload (t (i + 1))) data = Ok (gct_data ct) /\
  forall m, exists ct', ghw_encrypt nonce pk pol lang data (put t (i + 1) m) i = Ok (ct', j) /\
  gct_policy ct' = gct_policy ct /\ gct_c1 ct' = gct_c1 ct /\ gct_cidi ct' = gct_cidi ct /\
  encrypt_symmetric nonce (payload m) data = Ok (gct_data ct').
Proof.
  unfold ghw_encrypt. intros H. apply rbind_Ok in H as (s & i1 & H1 & H). injection H1 as <- <-.
  apply rbind_Ok in H as (m0 & i2 & H2 & H). apply draw_gt_inv in H2 as [-> ->].
  apply rbind_Ok in H as (v & i3 & H3 & H). apply rlift_Ok in H3 as [H3 <-].
  apply rbind_Ok in H as (sh & i4 & H4 & H).
  apply rbind_Ok in H as (cy & i5 & H5 & H).
  apply rbind_Ok in H as (d & i6 & H6 & H). apply rlift_Ok in H6 as [H6 <-].
  apply rret_Ok in H as [<- <-]. rewrite Nat.add_1_r.
  split; [exact H6|]. intros m. destruct (window_shares _ _ _ _ _ _ _ H4) as (Le & _).
  eexists. split.
  - apply rbind_Ok. exists (t i), (S i). split; [unfold draw; rewrite put_other by lia; reflexivity|].
    apply rbind_Ok. exists (payload m), (S (S i)). split; [apply draw_gt_put|].
    apply rbind_Ok. exists v, (S (S i)). split; [apply rlift_Ok; auto|].
    apply rbind_Ok. exists sh, i4. split; [apply window_put; [apply window_shares|exact H4|lia]|].
    apply rbind_Ok. exists cy, i5. split.
    { apply window_put; [|exact H5|lia]. apply window_map. intros a.
      apply window_bind; [apply window_draw|]. intros x. apply window_bind; [apply window_lift|]. intros h. apply window_ret. }
    unfold encrypt_symmetric. cbn. reflexivity.
  - cbn. auto.
Qed.

Lemma window_sx attrs : forall n (l : list F), window (lsw_sx n attrs l).
Proof.
  induction attrs as [|a r IH]; intros n l; cbn [lsw_sx]; [apply window_ret|].
  apply window_bind; [apply window_draw|]. intros x. apply IH.
Qed.

Lemma lsw_sx_next attrs : forall n (l : list F) t i x j, lsw_sx n attrs l t i = Ok (x, j) -> j = i + length attrs.
Proof.
  induction attrs as [|a r IH]; intros n l t i x j H; cbn [lsw_sx length] in *.
  - apply rret_Ok in H as [_ <-]. lia.
  - apply rbind_Ok in H as (y & i1 & H1 & H). injection H1 as <- <-. apply IH in H. lia.
Qed.

Theorem lsw_uniform nonce (pk : lsw_pk C) attrs data t i ct j :
  lsw_encrypt nonce pk attrs data t i = Ok (ct, j) ->
  encrypt_symmetric nonce (payload (t (i + 1 + length attrs))) data = Ok (lct_ct ct) /\
  forall m, exists ct', lsw_encrypt nonce pk attrs data (put t (i + 1 + length attrs) m) i = Ok (ct', j) /\
  lct_e2 ct' = lct_e2 ct /\ lct_ej ct' = lct_ej ct /\
  encrypt_symmetric nonce (payload m) data = Ok (lct_ct ct').
Proof.
  unfold lsw_encrypt. destruct attrs as [|a r] eqn:Ea; [discriminate|]. rewrite <- Ea.
  destruct data as [|b d0]; [discriminate|].
  intros H. apply rbind_Ok in H as (s & i1 & H1 & H). injection H1 as <- <-.
  apply rbind_Ok in H as (sx & i2 & H2 & H). pose proof (lsw_sx_next _ _ _ _ _ _ _ H2) as E.
  apply rbind_Ok in H as (ej & i3 & H3 & H). apply rlift_Ok in H3 as [H3 <-].
  apply rbind_Ok in H as (m0 & i4 & H4 & H). apply draw_gt_inv in H4 as [-> ->].
  apply rbind_Ok in H as (d & i6 & H6 & H). apply rlift_Ok in H6 as [H6 <-].
  apply rret_Ok in H as [<- <-]. replace (i + 1 + length attrs) with i2 by (cbn [length] in *; lia).
  split; [exact H6|]. intros m.
  eexists. split.
  - apply rbind_Ok. exists (t i), (S i). split; [unfold draw; rewrite put_other by lia; reflexivity|].
    apply rbind_Ok. exists sx, i2. split; [apply window_put; [apply window_sx|exact H2|lia]|].
    apply rbind_Ok. exists ej, i2. split; [apply rlift_Ok; auto|].
    apply rbind_Ok. exists (payload m), (S i2). split; [apply draw_gt_put|].
    unfold encrypt_symmetric. cbn. reflexivity.
  - cbn. auto.
Qed.

Lemma window_draw_s (pk : ac_pk C) : window (draw_s pk).
Proof.
  unfold draw_s. apply window_bind; [apply window_map; intros _; apply window_draw|]. intros s.
  apply window_bind; [apply window_lift|]. intros c. apply window_bind; [apply window_lift|]. intros h. apply window_ret.
Qed.

Lemma draw_s_next (pk : ac_pk C) t i x j : draw_s pk t i = Ok (x, j) -> j = i + 2.
Proof.
  unfold draw_s. intros H. apply rbind_Ok in H as (s & i1 & H1 & H).
  apply rbind_Ok in H as (c & i2 & H2 & H). apply rlift_Ok in H2 as [_ <-].
  apply rbind_Ok in H as (h & i3 & H3 & H). apply rlift_Ok in H3 as [_ <-]. apply rret_Ok in H as [_ <-].
  cbn in H1. injection H1 as _ <-. lia.
Qed.

Theorem cp_uniform nonce (pk : ac_pk C) pol lang data t i ct j :
  cp_encrypt nonce pk pol data lang t i = Ok (ct, j) ->
  encrypt_symmetric nonce (payload (t (i + 2))) data = Ok (act_ct (acp_ct ct)) /\
  forall m, exists ct', cp_encrypt nonce pk pol data lang (put t (i + 2) m) i = Ok (ct', j) /\
  acp_policy ct' = acp_policy ct /\ act_c0 (acp_ct ct') = act_c0 (acp_ct ct) /\ act_c (acp_ct ct') = act_c (acp_ct ct) /\
  encrypt_symmetric nonce (payload m) data = Ok (act_ct (acp_ct ct')).
Proof.
  unfold cp_encrypt. intros H.
  apply rbind_Ok in H as (v & i3 & H3 & H). apply rlift_Ok in H3 as [H3 <-].
  apply rbind_Ok in H as (msp & i4 & H4 & H). apply rlift_Ok in H4 as [H4 <-].
  apply rbind_Ok in H as (row & i5 & H5 & H). apply rlift_Ok in H5 as [H5 <-].
  apply rbind_Ok in H as ([s c0] & i6 & H6 & H). pose proof (draw_s_next _ _ _ _ _ H6) as ->.
  apply rbind_Ok in H as (tb & i7 & H7 & H). apply rlift_Ok in H7 as [H7 <-].
  apply rbind_Ok in H as (c & i8 & H8 & H). apply rlift_Ok in H8 as [H8 <-].
  apply rbind_Ok in H as (cp & i9 & H9 & H). apply rlift_Ok in H9 as [H9 <-].
  apply rbind_Ok in H as (m0 & i2 & H2 & H). apply draw_gt_inv in H2 as [-> ->].
  apply rbind_Ok in H as (d & i1 & H1 & H). apply rlift_Ok in H1 as [H1 <-].
  apply rret_Ok in H as [<- <-].
  split; [exact H1|]. intros m.
  eexists. split.
  - apply rbind_Ok. exists v, i. split; [apply rlift_Ok; auto|].
    apply rbind_Ok. exists msp, i. split; [apply rlift_Ok; auto|].
    apply rbind_Ok. exists row, i. split; [apply rlift_Ok; auto|].
    apply rbind_Ok. exists (s, c0), (i + 2). split; [apply window_put; [apply window_draw_s|exact H6|lia]|].
    apply rbind_Ok. exists tb, (i + 2). split; [apply rlift_Ok; auto|].
    apply rbind_Ok. exists c, (i + 2). split; [apply rlift_Ok; auto|].
    apply rbind_Ok. exists cp, (i + 2). split; [apply rlift_Ok; auto|].
    apply rbind_Ok. exists (payload m), (S (i + 2)). split; [apply draw_gt_put|].
    unfold encrypt_symmetric. cbn. reflexivity.
  - cbn. auto.
Qed.

Theorem kp_uniform nonce (pk : ac_pk C) attrs data t i ct j :
  kp_encrypt nonce pk attrs data t i = Ok (ct, j) ->
  encrypt_symmetric nonce (payload (t (i + 2))) data = Ok (act_ct (akp_ct ct)) /\
  forall m, exists ct', kp_encrypt nonce pk attrs data (put t (i + 2) m) i = Ok (ct', j) /\
  akp_attr ct' = akp_attr ct /\ act_c0 (akp_ct ct') = act_c0 (akp_ct ct) /\ act_c (akp_ct ct') = act_c (akp_ct ct) /\
  encrypt_symmetric nonce (payload m) data = Ok (act_ct (akp_ct ct')).
Proof.
  unfold kp_encrypt. intros H.
  apply rbind_Ok in H as ([s c0] & i6 & H6 & H). pose proof (draw_s_next _ _ _ _ _ H6) as ->.
  apply rbind_Ok in H as (c & i8 & H8 & H). apply rlift_Ok in H8 as [H8 <-].
  apply rbind_Ok in H as (cp & i9 & H9 & H). apply rlift_Ok in H9 as [H9 <-].
  apply rbind_Ok in H as (m0 & i2 & H2 & H). apply draw_gt_inv in H2 as [-> ->].
  apply rbind_Ok in H as (d & i1 & H1 & H). apply rlift_Ok in H1 as [H1 <-].
  apply rret_Ok in H as [<- <-].
  split; [exact H1|]. intros m.
  eexists. split.
  - apply rbind_Ok. exists (s, c0), (i + 2). split; [apply window_put; [apply window_draw_s|exact H6|lia]|].
    apply rbind_Ok. exists c, (i + 2). split; [apply rlift_Ok; auto|].
    apply rbind_Ok. exists cp, (i + 2). split; [apply rlift_Ok; auto|].
    apply rbind_Ok. exists (payload m), (S (i + 2)). split; [apply draw_gt_put|].
    unfold encrypt_symmetric. cbn. reflexivity.
  - cbn. auto.
Qed.

Theorem aw_uniform nonce (gk : aw_gk C) pks pol lang data t i ct j :
  aw_encrypt nonce gk pks pol lang data t i = Ok (ct, j) ->
  exists q, i <= q < j /\ encrypt_symmetric nonce (payload (t q)) data = Ok (awct_data ct) /\
  forall m, exists ct', aw_encrypt nonce gk pks pol lang data (put t q m) i = Ok (ct', j) /\
  awct_policy ct' = awct_policy ct /\ awct_c ct' = awct_c ct /\
  encrypt_symmetric nonce (payload m) data = Ok (awct_data ct').
Proof.
  unfold aw_encrypt. intros H.
  apply rbind_Ok in H as (v & i3 & H3 & H). apply rlift_Ok in H3 as [H3 <-].
  apply rbind_Ok in H as (msp & i4 & H4 & H). apply rlift_Ok in H4 as [H4 <-].
  apply rbind_Ok in H as (row & i5 & H5 & H). apply rlift_Ok in H5 as [H5 <-].
  apply rbind_Ok in H as (s & i1 & H1 & H). injection H1 as <- <-.
  apply rbind_Ok in H as (sh & i6 & H6 & H). apply rbind_Ok in H as (wsh & i7 & H7 & H).
  apply rbind_Ok in H as (m0 & i2 & H2 & H). apply draw_gt_inv in H2 as [-> ->].
  apply rbind_Ok in H as (c & i8 & H8 & H).
  apply rbind_Ok in H as (d & i1 & H1 & H). apply rlift_Ok in H1 as [H1 <-].
  apply rret_Ok in H as [<- <-].
  assert (W : forall ix, window (aw_entry gk pks wsh (fst ix) (snd ix))).
  { intros [n x]. unfold aw_entry. apply window_bind; [apply window_draw|]. intros r.
    destruct (find_pk_attr _ _); [|apply window_ret]. apply window_bind; [apply window_lift|]. intros w. apply window_ret. }
  destruct (window_shares _ _ _ _ _ _ _ H6) as (L6 & _). destruct (window_shares _ _ _ _ _ _ _ H7) as (L7 & _).
  destruct (window_map _ _ W _ _ _ _ H8) as (L8 & _).
  exists i7. split; [lia|]. split; [exact H1|]. intros m.
  eexists. split.
  - apply rbind_Ok. exists v, i. split; [apply rlift_Ok; auto|].
    apply rbind_Ok. exists msp, i. split; [apply rlift_Ok; auto|].
    apply rbind_Ok. exists row, i. split; [apply rlift_Ok; auto|].
    apply rbind_Ok. exists (t i), (S i). split; [unfold draw; rewrite put_other by lia; reflexivity|].
    apply rbind_Ok. exists sh, i6. split; [apply window_put; [apply window_shares|exact H6|lia]|].
    apply rbind_Ok. exists wsh, i7. split; [apply window_put; [apply window_shares|exact H7|lia]|].
    apply rbind_Ok. exists (payload m), (S i7). split; [apply draw_gt_put|].
    apply rbind_Ok. exists c, i8. split; [apply window_put; [apply window_map; exact W|exact H8|lia]|].
    unfold encrypt_symmetric. cbn. reflexivity.
  - cbn. auto.
Qed.

(** ** The schemes that compute it *)

Lemma log_gen1 x : log1 L (g1mul C (g1one C) x) = x.
Proof. logs. ring. Qed.
Lemma log_gen2 x : log2 L (g2mul C (g2one C) x) = x.
Proof. logs. ring. Qed.

Theorem yct_key nonce (pk : yct_pk C) attrs data t i ct j :
  yct_encrypt nonce pk attrs data t i = Ok (ct, j) ->
  encrypt_symmetric nonce (gtpow C (ypk_g pk) (t i)) data = Ok (yct_data ct) /\
  (ypk_g pk <> gtone C -> forall key, exists m, forall m', gtpow C (ypk_g pk) m' = key <-> m' = m).
Proof.
  intros H. split.
  - unfold yct_encrypt in H. destruct attrs as [|a r] eqn:Ea; [discriminate|]. rewrite <- Ea in H.
    destruct data as [|b d0]; [discriminate|]. apply rbind_Ok in H as (s & i1 & H1 & H). injection H1 as <- <-.
    apply rbind_Ok in H as (at_ & i3 & H3 & H). apply rlift_Ok in H3 as [H3 <-].
    apply rbind_Ok in H as (d & i6 & H6 & H). apply rlift_Ok in H6 as [H6 <-].
    apply rret_Ok in H as [<- <-]. exact H6.
  - intros N key.
    assert (Nz : logT L (ypk_g pk) <> f0 C).
    { intros Z. apply N. apply (logT_inj L). rewrite Z. symmetry. apply (logT_one L). }
    exists (fmul C (logT L key) (finv C (logT L (ypk_g pk)))). intros m'. split.
    + intros <-. logs. field. exact Nz.
    + intros ->. apply (logT_inj L). logs. field. exact Nz.
Qed.

Theorem bd_key nonce (pk : bd_pk C) apks pol lang data t i ct j :
  bd_encrypt nonce pk apks pol lang data t i = Ok (ct, j) ->
  encrypt_symmetric nonce (payload (fmul C (t i) (t (i + 1)))) data = Ok (Bdabe.bct_data ct).
Proof.
  unfold bd_encrypt. intros H. apply rbind_Ok in H as (v & i3 & H3 & H). apply rlift_Ok in H3 as [H3 <-].
  destruct (policy_in_dnf v false None); [|discriminate].
  apply rbind_Ok in H as (tm & i4 & H4 & H). apply rlift_Ok in H4 as [H4 <-].
  apply rbind_Ok in H as (m1 & i1 & H1 & H). unfold draw_g1, rbind, draw, rret in H1. injection H1 as <- <-.
  apply rbind_Ok in H as (m2 & i2 & H2 & H). unfold draw_g2, rbind, draw, rret in H2. injection H2 as <- <-.
  apply rbind_Ok in H as (c & i8 & H8 & H).
  apply rbind_Ok in H as (d & i6 & H6 & H). apply rlift_Ok in H6 as [H6 <-].
  apply rret_Ok in H as [<- <-]. cbn [Bdabe.bct_data]. rewrite <- H6. f_equal. rewrite Nat.add_1_r.
  apply (logT_inj L). rewrite (log_payload L), (logT_pairing L), log_gen1, log_gen2. reflexivity.
Qed.

Theorem mk_key nonce (pk : mk_pk C) apks pol lang data t i ct j :
  mk_encrypt nonce pk apks pol lang data t i = Ok (ct, j) ->
  encrypt_symmetric nonce (payload (fmul C (fmul C (t i) (t (i + 1))) (fadd C (f1 C) (t (i + 2))))) data = Ok (mct_data ct).
Proof.
  unfold mk_encrypt. intros H. apply rbind_Ok in H as (v & i3 & H3 & H). apply rlift_Ok in H3 as [H3 <-].
  destruct (policy_in_dnf v false None); [|discriminate].
  apply rbind_Ok in H as (tm & i4 & H4 & H). apply rlift_Ok in H4 as [H4 <-].
  apply rbind_Ok in H as (m1 & i1 & H1 & H). unfold draw_g1, rbind, draw, rret in H1. injection H1 as <- <-.
  apply rbind_Ok in H as (m2 & i2 & H2 & H). unfold draw_g2, rbind, draw, rret in H2. injection H2 as <- <-.
  apply rbind_Ok in H as (x & i5 & H5 & H). injection H5 as <- <-.
  apply rbind_Ok in H as (c & i8 & H8 & H).
  apply rbind_Ok in H as (d & i6 & H6 & H). apply rlift_Ok in H6 as [H6 <-].
  apply rret_Ok in H as [<- <-]. cbn [mct_data]. rewrite <- H6. f_equal. replace (i + 1) with (S i) by lia. replace (i + 2) with (S (S i)) by lia.
  apply (logT_inj L). rewrite (log_payload L). logs. ring.
Qed.

(** A product of two draws: one value of the second draw for each key, unless the first draw is zero. *)
Theorem product_key (x : F) : x <> f0 C -> forall key, exists m, forall m', payload (fmul C x m') = key <-> m' = m.
Proof.
  intros N key. exists (fmul C (logT L key) (finv C x)). intros m'. split.
  - intros <-. rewrite (log_payload L). field. exact N.
  - intros ->. apply (logT_inj L). rewrite (log_payload L). field. exact N.
Qed.

Theorem product_zero (m : F) : payload (fmul C (f0 C) m) = gtone C.
Proof. apply (logT_inj L). rewrite (log_payload L), (logT_one L). ring. Qed.

Theorem product_exact (x : F) :
  x <> f0 C <-> forall key : GT C, exists m, forall m', payload (fmul C x m') = key <-> m' = m.
Proof.
  split; [intros N key; apply product_key; exact N|]. intros H ->. destruct (H (gtone C)) as (m & Hm).
  pose proof (proj1 (Hm (f0 C)) (product_zero _)) as E0. pose proof (proj1 (Hm (f1 C)) (product_zero _)) as E1.
  apply (one_neq_zero L). congruence.
Qed.

End UniformProofs.
