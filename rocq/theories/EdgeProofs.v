(** * Edge cases: short nodes, underscores, empty inputs, empty attribute lists *)
From Coq Require Import String List Bool Arith Lia Field.
From Verif Require Import Base Crypto Policy Tools Sharing Spec PolicyProofs Poly
  SharingProofs Parse Symmetric SchemeLib CoreProofs Msp Dnf Bdabe Mke08 Bsw Ghw11 Lsw LswProofs Yct14 Ac17 Aw11 Aw11Proofs.
Import ListNotations.

(** An AND or OR node with fewer than two children. *)
Definition short_node (f : formula) : Prop :=
  exists l, (length l < 2)%nat /\ (f = FAnd l \/ f = FOr l).

Lemma short_prune attrs f t : short_node f -> calc_pruned attrs (tree f) t = Panic.
Proof. intros (l & H & [-> | ->]); now apply prune_short. Qed.

Section Edge.
Context {C : crypto} (L : laws C).
Local Open Scope F_scope.
Notation F := (F C).

(** ** Short nodes abort decryption for everyone whose attributes satisfy the policy *)

Lemma bsw_short_panics (sk : bsw_sk C) ct f :
  parse (fst (bct_policy ct)) (snd (bct_policy ct)) = Ok (tree f) -> short_node f ->
  bsk_dj sk <> [] -> sat (owns (map b_string (bsk_dj sk))) f = true ->
  bsw_decrypt sk ct = Panic.
Proof.
  intros P N A S. unfold bsw_decrypt. rewrite P. cbn [obind].
  destruct (traverse_policy _ (tree f) Leaf) eqn:T.
  - now rewrite short_prune.
  - exfalso. enough (X : true = false) by discriminate X. rewrite <- T. symmetry. apply access_exact.
    split; [destruct (bsk_dj sk); [congruence|discriminate]|exact S].
Qed.

Lemma ghw_short_panics (tk : ghw_tk C) ct f :
  parse (fst (gct_policy ct)) (snd (gct_policy ct)) = Ok (tree f) -> short_node f ->
  gtk_attr tk <> [] -> sat (owns (map fst (gtk_attr tk))) f = true ->
  ghw_transform ct tk = Panic.
Proof.
  intros P N A S. unfold ghw_transform. rewrite P. cbn [obind].
  destruct (traverse_policy _ (tree f) Leaf) eqn:T.
  - now rewrite short_prune.
  - exfalso. enough (X : true = false) by discriminate X. rewrite <- T. symmetry. apply access_exact.
    split; [destruct (gtk_attr tk); [congruence|discriminate]|exact S].
Qed.

(** In LSW and YCT14 even for those whose attributes do not. *)
Lemma lsw_short_panics (sk : lsw_sk C) ct f :
  parse (fst (lsk_policy sk)) (snd (lsk_policy sk)) = Ok (tree f) -> short_node f ->
  lsw_decrypt sk ct = Panic.
Proof. intros P N. unfold lsw_decrypt. rewrite P. cbn [obind]. now rewrite short_prune. Qed.

Lemma yct_short_panics (sk : yct_sk C) ct f :
  parse (fst (ysk_policy sk)) (snd (ysk_policy sk)) = Ok (tree f) -> short_node f ->
  yct_decrypt sk ct = Panic.
Proof. intros P N. unfold yct_decrypt. rewrite P. cbn [obind]. now rewrite short_prune. Qed.

(** Conversely BSW decryption of any ciphertext with any key does not abort when
    all nodes have two children and the payload has its nonce. *)
Lemma bsw_decrypt_no_panic (sk : bsw_sk C) ct f :
  parse (fst (bct_policy ct)) (snd (bct_policy ct)) = Ok (tree f) -> arity2 f = true ->
  (12 <= String.length (bct_data ct))%nat ->
  bsw_decrypt sk ct <> Panic.
Proof.
  intros P A D. unfold bsw_decrypt. rewrite P. cbn [obind].
  destruct (traverse_policy _ _ _); [|discriminate].
  rewrite calc_pruned_tree by exact A. cbn [obind fst snd].
  destruct (sat _ f); [|discriminate].
  rewrite (calc_coefficients_eq L). cbn [obind unwrap].
  unfold decrypt_symmetric. apply Nat.ltb_ge in D. rewrite D.
  destruct (aead_dec C _ _ _); discriminate.
Qed.

(** ** Names with an underscore *)

Lemma yct_du_stripped (msk : yct_msk C) sh : forall du, yct_du msk sh = Ok du ->
  forall d, In d du -> exists m, y_name d = remove_index m.
Proof.
  induction sh as [|[n s] sh IH]; intros du H d I; cbn [yct_du fst snd] in H.
  - injection H as <-. contradiction.
  - destruct (private_from _ msk) as [a| |] eqn:Pf; [|eauto|discriminate].
    apply obind_Ok in H as (l & Hl & H). injection H as <-.
    destruct I as [<-|I]; [|eauto].
    unfold private_from in Pf. cbn [fst snd] in Pf.
    apply obind_Ok in Pf as (si & _ & Pf). apply obind_Ok in Pf as (iv & _ & Pf).
    injection Pf as <-. exists n. reflexivity.
Qed.

Theorem yct_underscore_panics (msk : yct_msk C) pol lang sk ct f t i j :
  parse pol lang = Ok (tree f) -> arity2 f = true ->
  yct_keygen msk pol lang t i = Ok (sk, j) ->
  sat (owns (map y_name (yct_attrs ct))) f = true ->
  forallb (fun n => negb (no_us n)) (names f) = true ->
  yct_decrypt sk ct = Panic.
Proof.
  intros P A K S N.
  unfold yct_keygen in K. apply rbind_Ok in K as (v & i1 & Hv & K). apply rlift_Ok in Hv as [Hv <-].
  rewrite P in Hv. injection Hv as <-.
  apply rbind_Ok in K as (sh & i2 & Hs & K).
  apply rbind_Ok in K as (du & i3 & Hd & K). apply rlift_Ok in Hd as [Hd <-].
  apply rret_Ok in K as [<- _].
  unfold yct_decrypt. cbn [ysk_policy fst snd]. rewrite P. cbn [obind].
  rewrite calc_pruned_tree by exact A. rewrite S. cbn [obind fst snd].
  rewrite (calc_coefficients_eq L). cbn [obind unwrap app].
  set (own := owns (map y_name (yct_attrs ct))) in *.
  destruct (sel (pmask own f) (leaves f)) as [|[n p] r] eqn:E.
  { exfalso. pose proof (pmask_sat own f S) as Q. rewrite E in Q. cbn [map] in Q.
    exact (owns_nonempty [] f Q A eq_refl). }
  cbn [map ofold]. unfold yct_step at 1. cbn [fst snd leaf_pair].
  unfold ct_get_public. destruct (find _ (yct_attrs ct)) as [a|]; [|reflexivity].
  unfold node_public. destruct (y_node a) as [[g|x]|]; cbn [unwrap_res obind]; try reflexivity.
  unfold sk_get_private. cbn [ysk_du].
  rewrite find_none_nm; [reflexivity|].
  intros e Ie En. destruct (yct_du_stripped _ _ _ Hd e Ie) as (m & Em).
  assert (Hn : no_us n = false).
  { rewrite forallb_forall in N. apply negb_true_iff. apply N. unfold names. apply in_map_iff.
    exists (n, p). split; [reflexivity|]. apply (sel_incl (pmask own f)). rewrite E. now left. }
  pose proof (remove_index_no_us_out m) as W. rewrite <- Em, En in W. congruence.
Qed.

(** AW11 has a ciphertext entry only for leaves whose cut name has a public key. *)
Lemma aw_no_entries nonce (gk : aw_gk C) pks pol lang data ct f t i j :
  parse pol lang = Ok (tree f) ->
  aw_encrypt nonce gk pks pol lang data t i = Ok (ct, j) ->
  (forall n p, In (n, p) (leaves f) -> find_pk_attr pks (remove_index (upper C (node_index n p))) = None) ->
  awct_policy ct = (pol, lang) /\ awct_c ct = [].
Proof.
  intros P H N. unfold aw_encrypt in H.
  apply rbind_Ok in H as (v & i1 & Hv & H). apply rlift_Ok in Hv as [Hv <-].
  rewrite P in Hv. injection Hv as <-.
  apply rbind_Ok in H as (m & i2 & _ & H). apply rbind_Ok in H as (r0 & i3 & _ & H).
  apply rbind_Ok in H as (s & i4 & _ & H). apply rbind_Ok in H as (sh & i5 & Hs & H).
  rewrite (gen_shares_policy_eq L) in Hs. injection Hs as <- <-.
  apply rbind_Ok in H as (w & i6 & _ & H). apply rbind_Ok in H as (msg & i7 & _ & H).
  apply rbind_Ok in H as (c & i8 & Hc & H). apply rbind_Ok in H as (d & i9 & _ & H).
  apply rret_Ok in H as [<- _]. cbn [awct_policy awct_c]. split; [reflexivity|].
  apply rmap_Forall2 in Hc.
  assert (X : forall x, In x (combine (seq 0 (length (gsh f s t i4))) (gsh f s t i4)) ->
            find_pk_attr pks (remove_index (upper C (fst (snd x)))) = None).
  { intros [k x] I. apply in_combine_r in I. apply (in_map fst) in I. rewrite gsh_idents in I.
    unfold idents in I. apply in_map_iff in I as ([n p] & E & I). cbn [snd].
    change (node_index n p = fst x) in E. rewrite <- E. exact (N n p I). }
  revert X. induction Hc as [|x y l r (a & b & Hx) Hc IH]; intros X; [reflexivity|].
  cbn [concat]. rewrite IH by (intros; apply X; now right). rewrite app_nil_r.
  unfold aw_entry in Hx. apply rbind_Ok in Hx as (rx & k & _ & Hx).
  rewrite (X x) in Hx by now left. apply rret_Ok in Hx as [<- _]. reflexivity.
Qed.

Theorem aw_unknown_panics nonce (gk : aw_gk C) pks pol lang data sk ct f t i j :
  parse pol lang = Ok (tree f) ->
  aw_encrypt nonce gk pks pol lang data t i = Ok (ct, j) ->
  (forall n p, In (n, p) (leaves f) -> find_pk_attr pks (remove_index (upper C (node_index n p))) = None) ->
  arity2 f = true ->
  sat (owns (map fst (awsk_attr sk))) f = true -> hash C (awsk_gid sk) <> None ->
  aw_decrypt gk sk ct = Panic.
Proof.
  intros P H N A S G. destruct (aw_no_entries _ _ _ _ _ _ _ _ _ _ _ P H N) as [E1 E2].
  set (own := owns (map fst (awsk_attr sk))) in *.
  destruct (sel (pmask own f) (leaves f)) as [|[n p] r] eqn:E.
  { exfalso. pose proof (pmask_sat own f S) as Q. rewrite E in Q. cbn [map] in Q.
    exact (owns_nonempty [] f Q A eq_refl). }
  apply (aw_missing_panics L gk sk ct f n p); auto.
  - now rewrite E1.
  - fold own. rewrite E. now left.
  - now rewrite E2.
Qed.

(** ** Empty plaintext and empty policy *)

(** Whether these encryptions succeed does not depend on the plaintext; in
    particular the empty one is accepted. *)
Lemma bsw_any_plaintext nonce (pk : bsw_pk C) pol lang data data' t i ct j :
  bsw_encrypt nonce pk pol lang data t i = Ok (ct, j) ->
  exists ct', bsw_encrypt nonce pk pol lang data' t i = Ok (ct', j).
Proof.
  unfold bsw_encrypt. intros H.
  apply rbind_Ok in H as (s & i1 & Hs & H). rewrite (rbind_run _ _ _ _ _ _ Hs).
  apply rbind_Ok in H as (m & i2 & Hm & H). rewrite (rbind_run _ _ _ _ _ _ Hm).
  apply rbind_Ok in H as (v & i3 & Hv & H). rewrite (rbind_run _ _ _ _ _ _ Hv).
  apply rbind_Ok in H as (sh & i4 & Hsh & H). rewrite (rbind_run _ _ _ _ _ _ Hsh).
  apply rbind_Ok in H as (cy & i5 & Hcy & H). rewrite (rbind_run _ _ _ _ _ _ Hcy).
  apply rbind_Ok in H as (d & i6 & Hd & H). apply rlift_Ok in Hd as [_ <-].
  apply rret_Ok in H as [_ <-]. eexists. reflexivity.
Qed.

Lemma ghw_any_plaintext nonce (pk : ghw_pk C) pol lang data data' t i ct j :
  ghw_encrypt nonce pk pol lang data t i = Ok (ct, j) ->
  exists ct', ghw_encrypt nonce pk pol lang data' t i = Ok (ct', j).
Proof.
  unfold ghw_encrypt. intros H.
  apply rbind_Ok in H as (s & i1 & Hs & H). rewrite (rbind_run _ _ _ _ _ _ Hs).
  apply rbind_Ok in H as (m & i2 & Hm & H). rewrite (rbind_run _ _ _ _ _ _ Hm).
  apply rbind_Ok in H as (v & i3 & Hv & H). rewrite (rbind_run _ _ _ _ _ _ Hv).
  apply rbind_Ok in H as (sh & i4 & Hsh & H). rewrite (rbind_run _ _ _ _ _ _ Hsh).
  apply rbind_Ok in H as (cy & i5 & Hcy & H). rewrite (rbind_run _ _ _ _ _ _ Hcy).
  apply rbind_Ok in H as (d & i6 & Hd & H). apply rlift_Ok in Hd as [_ <-].
  apply rret_Ok in H as [_ <-]. eexists. reflexivity.
Qed.

Lemma cp_any_plaintext nonce (pk : ac_pk C) pol lang data data' t i ct j :
  cp_encrypt nonce pk pol data lang t i = Ok (ct, j) ->
  exists ct', cp_encrypt nonce pk pol data' lang t i = Ok (ct', j).
Proof.
  unfold cp_encrypt. intros H.
  apply rbind_Ok in H as (v & i1 & Hs & H). rewrite (rbind_run _ _ _ _ _ _ Hs).
  apply rbind_Ok in H as (msp & i2 & Hm & H). rewrite (rbind_run _ _ _ _ _ _ Hm).
  apply rbind_Ok in H as (r0 & i3 & Hv & H). rewrite (rbind_run _ _ _ _ _ _ Hv).
  apply rbind_Ok in H as ([s c0] & i4 & Hsh & H). rewrite (rbind_run _ _ _ _ _ _ Hsh).
  apply rbind_Ok in H as (tb & i5 & Hcy & H). rewrite (rbind_run _ _ _ _ _ _ Hcy).
  apply rbind_Ok in H as (c & i6 & Hc & H). rewrite (rbind_run _ _ _ _ _ _ Hc).
  apply rbind_Ok in H as (cp & i7 & Hcp & H). rewrite (rbind_run _ _ _ _ _ _ Hcp).
  apply rbind_Ok in H as (m & i8 & Hmsg & H). rewrite (rbind_run _ _ _ _ _ _ Hmsg).
  apply rbind_Ok in H as (d & i9 & Hd & H). apply rlift_Ok in Hd as [_ <-].
  apply rret_Ok in H as [_ <-]. eexists. reflexivity.
Qed.

Lemma kp_any_plaintext nonce (pk : ac_pk C) attrs data data' t i ct j :
  kp_encrypt nonce pk attrs data t i = Ok (ct, j) ->
  exists ct', kp_encrypt nonce pk attrs data' t i = Ok (ct', j).
Proof.
  unfold kp_encrypt. intros H.
  apply rbind_Ok in H as ([s c0] & i4 & Hsh & H). rewrite (rbind_run _ _ _ _ _ _ Hsh).
  apply rbind_Ok in H as (c & i6 & Hc & H). rewrite (rbind_run _ _ _ _ _ _ Hc).
  apply rbind_Ok in H as (cp & i7 & Hcp & H). rewrite (rbind_run _ _ _ _ _ _ Hcp).
  apply rbind_Ok in H as (m & i8 & Hmsg & H). rewrite (rbind_run _ _ _ _ _ _ Hmsg).
  apply rbind_Ok in H as (d & i9 & Hd & H). apply rlift_Ok in Hd as [_ <-].
  apply rret_Ok in H as [_ <-]. eexists. reflexivity.
Qed.

Lemma aw_any_plaintext nonce (gk : aw_gk C) pks pol lang data data' t i ct j :
  aw_encrypt nonce gk pks pol lang data t i = Ok (ct, j) ->
  exists ct', aw_encrypt nonce gk pks pol lang data' t i = Ok (ct', j).
Proof.
  unfold aw_encrypt. intros H.
  apply rbind_Ok in H as (v & i1 & Hs & H). rewrite (rbind_run _ _ _ _ _ _ Hs).
  apply rbind_Ok in H as (msp & i2 & Hm & H). rewrite (rbind_run _ _ _ _ _ _ Hm).
  apply rbind_Ok in H as (r0 & i3 & Hv & H). rewrite (rbind_run _ _ _ _ _ _ Hv).
  apply rbind_Ok in H as (s & i4 & Hsh & H). rewrite (rbind_run _ _ _ _ _ _ Hsh).
  apply rbind_Ok in H as (ss & i5 & Hcy & H). rewrite (rbind_run _ _ _ _ _ _ Hcy).
  apply rbind_Ok in H as (ws & i6 & Hc & H). rewrite (rbind_run _ _ _ _ _ _ Hc).
  apply rbind_Ok in H as (m & i7 & Hcp & H). rewrite (rbind_run _ _ _ _ _ _ Hcp).
  apply rbind_Ok in H as (c & i8 & Hmsg & H). rewrite (rbind_run _ _ _ _ _ _ Hmsg).
  apply rbind_Ok in H as (d & i9 & Hd & H). apply rlift_Ok in Hd as [_ <-].
  apply rret_Ok in H as [_ <-]. eexists. reflexivity.
Qed.

Lemma bd_any_plaintext nonce (pk : bd_pk C) apks pol lang data data' t i ct j :
  bd_encrypt nonce pk apks pol lang data t i = Ok (ct, j) ->
  exists ct', bd_encrypt nonce pk apks pol lang data' t i = Ok (ct', j).
Proof.
  unfold bd_encrypt. intros H.
  apply rbind_Ok in H as (v & i1 & Hs & H). rewrite (rbind_run _ _ _ _ _ _ Hs).
  destruct (policy_in_dnf v false None); [|discriminate].
  apply rbind_Ok in H as (tm & i2 & Hm & H). rewrite (rbind_run _ _ _ _ _ _ Hm).
  apply rbind_Ok in H as (m1 & i3 & Hv & H). rewrite (rbind_run _ _ _ _ _ _ Hv).
  apply rbind_Ok in H as (m2 & i4 & Hsh & H). rewrite (rbind_run _ _ _ _ _ _ Hsh).
  apply rbind_Ok in H as (c & i5 & Hcy & H). rewrite (rbind_run _ _ _ _ _ _ Hcy).
  apply rbind_Ok in H as (d & i9 & Hd & H). apply rlift_Ok in Hd as [_ <-].
  apply rret_Ok in H as [_ <-]. eexists. reflexivity.
Qed.

Lemma mk_any_plaintext nonce (pk : mk_pk C) apks pol lang data data' t i ct j :
  mk_encrypt nonce pk apks pol lang data t i = Ok (ct, j) ->
  exists ct', mk_encrypt nonce pk apks pol lang data' t i = Ok (ct', j).
Proof.
  unfold mk_encrypt. intros H.
  apply rbind_Ok in H as (v & i1 & Hs & H). rewrite (rbind_run _ _ _ _ _ _ Hs).
  destruct (policy_in_dnf v false None); [|discriminate].
  apply rbind_Ok in H as (tm & i2 & Hm & H). rewrite (rbind_run _ _ _ _ _ _ Hm).
  apply rbind_Ok in H as (m1 & i3 & Hv & H). rewrite (rbind_run _ _ _ _ _ _ Hv).
  apply rbind_Ok in H as (m2 & i4 & Hsh & H). rewrite (rbind_run _ _ _ _ _ _ Hsh).
  apply rbind_Ok in H as (x & i5 & Hx & H). rewrite (rbind_run _ _ _ _ _ _ Hx).
  apply rbind_Ok in H as (c & i6 & Hcy & H). rewrite (rbind_run _ _ _ _ _ _ Hcy).
  apply rbind_Ok in H as (d & i9 & Hd & H). apply rlift_Ok in Hd as [_ <-].
  apply rret_Ok in H as [_ <-]. eexists. reflexivity.
Qed.

(** LSW and YCT14 refuse it, and refuse an empty attribute list. *)
Lemma lsw_empty_refused nonce (pk : lsw_pk C) attrs data t i :
  lsw_encrypt nonce pk attrs "" t i = Err /\ lsw_encrypt nonce pk [] data t i = Err.
Proof. split; [now destruct attrs|reflexivity]. Qed.

Lemma yct_empty_refused nonce (pk : yct_pk C) attrs data t i :
  yct_encrypt nonce pk attrs "" t i = Err /\ yct_encrypt nonce pk [] data t i = Err.
Proof. split; [now destruct attrs|reflexivity]. Qed.

(** A policy text the parser refuses is refused by every scheme. *)
Lemma bad_policy_refused nonce pol lang data : parse pol lang = Err ->
  (forall (pk : bsw_pk C) t i, bsw_encrypt nonce pk pol lang data t i = Err) /\
  (forall (pk : ghw_pk C) t i, ghw_encrypt nonce pk pol lang data t i = Err) /\
  (forall (pk : lsw_pk C) msk t i, lsw_keygen pk msk pol lang t i = Err) /\
  (forall (msk : yct_msk C) t i, yct_keygen msk pol lang t i = Err) /\
  (forall (pk : ac_pk C) t i, cp_encrypt nonce pk pol data lang t i = Err) /\
  (forall (msk : ac_msk C) t i, kp_keygen msk pol lang t i = Err) /\
  (forall (gk : aw_gk C) pks t i, aw_encrypt nonce gk pks pol lang data t i = Err) /\
  (forall (pk : bd_pk C) apks t i, bd_encrypt nonce pk apks pol lang data t i = Err) /\
  (forall (pk : mk_pk C) apks t i, mk_encrypt nonce pk apks pol lang data t i = Err).
Proof.
  intros P. assert (R : forall t i, rlift (F := F) (parse pol lang) t i = Err)
    by (intros; now rewrite P).
  unfold bsw_encrypt, ghw_encrypt, lsw_keygen, yct_keygen, cp_encrypt, kp_keygen, aw_encrypt,
    bd_encrypt, mk_encrypt.
  repeat split; intros; unfold draw_gt, draw_g1, draw_g2, draw, rbind; cbn beta iota; rewrite ?P;
    try reflexivity.
Qed.

(** ** Keys without attributes *)

Lemma bsw_no_attrs (pk : bsw_pk C) msk sk t i :
  bsw_keygen pk msk [] t i = Ok (None, i) /\ bsw_delegate pk sk [] t i = Ok (None, i).
Proof. split; reflexivity. Qed.

Lemma ghw_no_attrs (pk : ghw_pk C) msk t i : ghw_keygen pk msk [] t i = Ok (None, i).
Proof. reflexivity. Qed.

Lemma cp_no_attrs (msk : ac_msk C) t i : cp_keygen msk [] t i = Err.
Proof. reflexivity. Qed.

(** YCT14 setup accepts an empty attribute universe, and AC17 key-policy
    encryption an empty attribute list. *)
Lemma yct_setup_no_attrs t i : exists (pk : yct_pk C) msk j,
  yct_setup [] t i = Ok ((pk, msk), j) /\ ypk_attrs pk = [].
Proof. eexists _, _, _. split; reflexivity. Qed.

End Edge.

(** The empty text is refused in both languages. *)
Lemma parse_empty lang : parse "" lang = Err.
Proof. destruct lang; vm_compute; reflexivity. Qed.
