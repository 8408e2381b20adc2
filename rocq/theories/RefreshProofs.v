(** * RefreshProofs: every ciphertext is a refreshed one (C154) *)
From Coq Require Import String List Bool Arith Lia Field.
From Verif Require Import Base Crypto Policy Parse Spec PolicyProofs Poly SchemeLib ParseProofs Draws DrawsProofs Symmetric RobustProofs TotalProofs HashFail
  Dnf DnfProofs Bdabe BdabeProofs Mke08 Mke08Proofs Bsw Ghw11 Lsw Ac17 Aw11 Generic Views Payloads Mixing MixingProofs Refresh.
Import ListNotations.

Lemma settled_both {A B} (o : outcome A) (o' : outcome B) bad a : settled o bad -> o = Ok a -> settled o' bad -> exists b, o' = Ok b.
Proof. intros [[_ E]|[N _]] H; [congruence|]. intros [[K _]|[_ K]]; [contradiction|exact K]. Qed.

Lemma declined_both {A B} (o : outcome A) (o' : outcome B) bad a : declined o bad -> o = Ok a -> declined o' bad -> exists b, o' = Ok b.
Proof. intros [[_ E]|[N _]] H; [congruence|]. intros [[K _]|[_ K]]; [contradiction|exact K]. Qed.

Section RefreshProofs.
Context {C : crypto} (L : laws C).
Local Open Scope F_scope.
Add Field refresh_field : (f_theory L).

Lemma tape_to_back (t t' : nat -> F C) k : tadd t (tape_to t t') k = t' k.
Proof. unfold tadd, tape_to. ring. Qed.

Lemma tape_to_zero (t t' : nat -> F C) k : t' k = t k -> tape_to t t' k = 0.
Proof. intros H. unfold tape_to. rewrite H. ring. Qed.

Lemma sum_same (a b : F C) : a + b = a -> b = 0.
Proof. intros H. transitivity (a + b - a); [ring|]. rewrite H. ring. Qed.

(** An operation at the sum of tapes is one at the second tape. *)
Lemma takes_back {A} (m : rand (F C) A) n t t' i x j : takes m n -> m (tadd t (tape_to t t')) i = Ok (x, j) -> m t' i = Ok (x, j).
Proof.
  intros T H. specialize (T (tadd t (tape_to t t')) i t' i). rewrite H in T. destruct T as [-> T]; [|exact T].
  intros k _. symmetry. apply tape_to_back.
Qed.

Lemma bsw_refresh nonce nonce' (pk : bsw_pk C) pol lang data data' t t' i ct j :
  bsw_encrypt nonce pk pol lang data t i = Ok (ct, j) -> t' (i + 1)%nat = t (i + 1)%nat ->
  exists z k, bsw_encrypt nonce' pk pol lang data' (tape_to t t') i = Ok (z, k) /\
    bsw_encrypt nonce pk pol lang data t' i = Ok (bsw_mix ct z, j).
Proof.
  intros H E. pose proof (bsw_encrypt_outcome L nonce pk pol lang data t i) as (O1 & O2 & O3).
  destruct (parse pol lang) as [v| |] eqn:P; [|rewrite O1 in H by reflexivity; discriminate|rewrite O2 in H by reflexivity; discriminate].
  destruct (parse_shape _ _ _ P) as (f & -> & _). specialize (O3 f eq_refl).
  pose proof (proj2 (proj2 (bsw_encrypt_outcome L nonce' pk pol lang data' (tape_to t t') i)) f P) as O'.
  destruct (settled_both _ _ _ _ O3 H O') as ([z k] & Z). exists z, k. split; [exact Z|].
  destruct (bsw_product L nonce nonce' pk pol lang data data' t (tape_to t t') i ct j z k H Z) as (d & X & _ & D).
  rewrite (D (tape_to_zero _ _ _ E)) in X. apply (takes_back _ _ t t' i _ _ (bsw_encrypt_takes L nonce pk pol lang data f P)).
  rewrite X. destruct ct; reflexivity.
Qed.

Lemma ghw_refresh nonce nonce' (pk : ghw_pk C) pol lang data data' t t' i ct j :
  ghw_encrypt nonce pk pol lang data t i = Ok (ct, j) -> t' (i + 1)%nat = t (i + 1)%nat ->
  exists z k, ghw_encrypt nonce' pk pol lang data' (tape_to t t') i = Ok (z, k) /\
    ghw_encrypt nonce pk pol lang data t' i = Ok (ghw_mix ct z, j).
Proof.
  intros H E. pose proof (ghw_encrypt_outcome L nonce pk pol lang data t i) as (O1 & O2 & O3).
  destruct (parse pol lang) as [v| |] eqn:P; [|rewrite O1 in H by reflexivity; discriminate|rewrite O2 in H by reflexivity; discriminate].
  destruct (parse_shape _ _ _ P) as (f & -> & _). specialize (O3 f eq_refl).
  pose proof (proj2 (proj2 (ghw_encrypt_outcome L nonce' pk pol lang data' (tape_to t t') i)) f P) as O'.
  destruct (settled_both _ _ _ _ O3 H O') as ([z k] & Z). exists z, k. split; [exact Z|].
  destruct (ghw_product L nonce nonce' pk pol lang data data' t (tape_to t t') i ct j z k H Z) as (d & X & _ & D).
  rewrite (D (tape_to_zero _ _ _ E)) in X. apply (takes_back _ _ t t' i _ _ (ghw_encrypt_takes L nonce pk pol lang data f P)).
  rewrite X. destruct ct; reflexivity.
Qed.

Lemma lsw_refresh nonce nonce' (pk : lsw_pk C) attrs data data' t t' i ct j :
  lsw_encrypt nonce pk attrs data t i = Ok (ct, j) -> t' (i + 1 + length attrs)%nat = t (i + 1 + length attrs)%nat -> data' <> ""%string ->
  exists z k, lsw_encrypt nonce' pk attrs data' (tape_to t t') i = Ok (z, k) /\
    lsw_encrypt nonce pk attrs data t' i = Ok (lsw_mix ct z, j).
Proof.
  intros H E D'. pose proof (lsw_encrypt_outcome nonce pk attrs data t i) as (O1 & O2).
  assert (Na : attrs <> []) by (intros X; rewrite O1 in H by (left; exact X); discriminate).
  assert (Nd : data <> ""%string) by (intros X; rewrite O1 in H by (right; exact X); discriminate).
  pose proof (proj2 (lsw_encrypt_outcome nonce' pk attrs data' (tape_to t t') i) Na D') as O'.
  destruct (settled_both _ _ _ _ (O2 Na Nd) H O') as ([z k] & Z). exists z, k. split; [exact Z|].
  destruct (lsw_product L nonce nonce' pk attrs data data' t (tape_to t t') i ct j z k H Z) as (d & X & _ & D).
  rewrite (D (tape_to_zero _ _ _ E)) in X. destruct attrs as [|a l]; [congruence|].
  apply (takes_back _ _ t t' i _ _ (lsw_encrypt_takes nonce pk a l data Nd)). rewrite X. destruct ct; reflexivity.
Qed.

Lemma aw_refresh pol lang f : parse pol lang = Ok (tree f) ->
  exists q, forall nonce nonce' (gk : aw_gk C) pks data data' t t' i ct j,
  aw_encrypt nonce gk pks pol lang data t i = Ok (ct, j) ->
  encrypt_symmetric nonce (payload (t (i + q)%nat)) data = Ok (awct_data ct) /\
  (t' (i + q)%nat = t (i + q)%nat ->
   exists z k, aw_encrypt nonce' gk pks pol lang data' (tape_to t t') i = Ok (z, k) /\
    aw_encrypt nonce gk pks pol lang data t' i = Ok (aw_mix ct z, j)).
Proof.
  intros P. destruct (aw_product L pol lang f P) as (q & Q). exists q. intros nonce nonce' gk pks data data' t t' i ct j H.
  pose proof (proj2 (proj2 (aw_encrypt_outcome L nonce gk pks pol lang data t i)) f P) as O.
  pose proof (proj2 (proj2 (aw_encrypt_outcome L nonce' gk pks pol lang data' (tape_to t t') i)) f P) as O'.
  destruct (settled_both _ _ _ _ O H O') as ([z k] & Z).
  destruct (Q nonce nonce' gk pks data data' t (tape_to t t') i ct j z k H Z) as (Y & d & X & _ & D).
  split; [exact Y|]. intros E. exists z, k. split; [exact Z|].
  rewrite (D (tape_to_zero _ _ _ E)) in X. apply (takes_back _ _ t t' i _ _ (aw_encrypt_takes L nonce gk pks pol lang data f P)).
  rewrite X. destruct ct; reflexivity.
Qed.

Lemma cp_refresh nonce nonce' (pk : ac_pk C) msk t0 i0 j0 pol lang data data' t t' i ct j :
  ac_setup t0 i0 = Ok (pk, msk, j0) ->
  cp_encrypt nonce pk pol data lang t i = Ok (ct, j) -> t' (i + 2)%nat = t (i + 2)%nat ->
  exists z k, cp_encrypt nonce' pk pol data' lang (tape_to t t') i = Ok (z, k) /\
    cp_encrypt nonce pk pol data lang t' i = Ok (cp_mix ct z, j).
Proof.
  intros S0 H E.
  assert (Pf : exists f, parse pol lang = Ok (tree f) /\ binary_and f = true).
  { unfold cp_encrypt in H. apply rbind_Ok in H as (v & j1 & Hv & H). apply rlift_Ok in Hv as [Hv <-].
    destruct (parse_shape _ _ _ Hv) as (f & -> & _). exists f. split; [exact Hv|].
    destruct (binary_and f) eqn:B; [reflexivity|]. unfold rbind at 1, rlift at 1 in H.
    rewrite (MspProofs.calculate_msp_bad f B) in H. discriminate H. }
  destruct Pf as (f & P & B).
  pose proof (cp_encrypt_hash L pk msk t0 i0 j0 S0 nonce pol lang data f t i P B) as O.
  pose proof (cp_encrypt_hash L pk msk t0 i0 j0 S0 nonce' pol lang data' f (tape_to t t') i P B) as O'.
  destruct (declined_both _ _ _ _ O H O') as ([z k] & Z). exists z, k. split; [exact Z|].
  destruct (cp_product L nonce nonce' pk pol lang data data' t (tape_to t t') i ct j z k H Z) as (d & X & _ & D).
  rewrite (D (tape_to_zero _ _ _ E)) in X. apply (takes_back _ _ t t' i _ _ (cp_encrypt_takes nonce pk pol lang data)).
  rewrite X. destruct ct as [p []]; reflexivity.
Qed.

Lemma kp_refresh nonce nonce' (pk : ac_pk C) msk t0 i0 j0 attrs data data' t t' i ct j :
  ac_setup t0 i0 = Ok (pk, msk, j0) ->
  kp_encrypt nonce pk attrs data t i = Ok (ct, j) -> t' (i + 2)%nat = t (i + 2)%nat ->
  exists z k, kp_encrypt nonce' pk attrs data' (tape_to t t') i = Ok (z, k) /\
    kp_encrypt nonce pk attrs data t' i = Ok (kp_mix ct z, j).
Proof.
  intros S0 H E.
  pose proof (kp_encrypt_hash pk msk t0 i0 j0 S0 nonce attrs data t i) as O.
  pose proof (kp_encrypt_hash pk msk t0 i0 j0 S0 nonce' attrs data' (tape_to t t') i) as O'.
  destruct (declined_both _ _ _ _ O H O') as ([z k] & Z). exists z, k. split; [exact Z|].
  destruct (kp_product L nonce nonce' pk attrs data data' t (tape_to t t') i ct j z k H Z) as (d & X & _ & D).
  rewrite (D (tape_to_zero _ _ _ E)) in X. apply (takes_back _ _ t t' i _ _ (kp_encrypt_takes nonce pk attrs data)).
  rewrite X. destruct ct as [p []]; reflexivity.
Qed.
Lemma bd_refresh nonce nonce' (pk : bd_pk C) apks pol lang data data' t t' i ct j :
  bd_encrypt nonce pk apks pol lang data t i = Ok (ct, j) -> t' i = t i -> t' (i + 1)%nat = t (i + 1)%nat ->
  exists z k, bd_encrypt nonce' pk apks pol lang data' (tape_to t t') i = Ok (z, k) /\
    bd_encrypt nonce pk apks pol lang data t' i = Ok (bd_mix ct z, j).
Proof.
  intros H E0 E1.
  assert (Pv : exists v T f, parse pol lang = Ok v /\ json_to_dnf v (map bd_pak apks) = Ok T /\ v = tree f /\ policy_in_dnf v false None = true).
  { unfold bd_encrypt in H. apply rbind_Ok in H as (v & j1 & Hv & H). apply rlift_Ok in Hv as [Hv <-].
    destruct (policy_in_dnf v false None) eqn:D; [|discriminate H].
    apply rbind_Ok in H as (T & j2 & HT & _). apply rlift_Ok in HT as [HT <-]. rewrite Hv in HT. cbn [obind] in HT.
    destruct (json_to_dnf v (map bd_pak apks)) as [T'| |] eqn:J; try discriminate HT.
    destruct (parse_shape _ _ _ Hv) as (f & Ef & _). exists v, T', f. auto. }
  destruct Pv as (v & T & f & P & J & -> & D).
  assert (N : no_or_below_and f) by (apply policy_in_dnf_iff; exact D).
  pose proof (proj2 (proj2 (proj2 (bd_encrypt_outcome nonce pk apks pol lang data t i)) f P) N) as O.
  pose proof (proj2 (proj2 (proj2 (bd_encrypt_outcome nonce' pk apks pol lang data' (tape_to t t') i)) f P) N) as O'.
  destruct (settled_both _ _ _ _ O H O') as ([z k] & Z). exists z, k. split; [exact Z|].
  apply (takes_back _ _ t t' i _ _ (bd_encrypt_takes nonce pk apks pol lang data _ _ P J)).
  apply (bd_sum L nonce nonce' pk apks pol lang data data' t (tape_to t t') i ct j z k H Z); apply tape_to_zero; assumption.
Qed.

Lemma mk_refresh nonce nonce' (pk : mk_pk C) apks pol lang data data' t t' i ct j :
  mk_encrypt nonce pk apks pol lang data t i = Ok (ct, j) -> t' i = t i -> t' (i + 1)%nat = t (i + 1)%nat -> t' (i + 2)%nat = t (i + 2)%nat ->
  exists z k, mk_encrypt nonce' pk apks pol lang data' (tape_to t t') i = Ok (z, k) /\
    mk_encrypt nonce pk apks pol lang data t' i = Ok (mk_mix ct z, j).
Proof.
  intros H E0 E1 E2.
  assert (Pv : exists v T f, parse pol lang = Ok v /\ json_to_dnf v (map mk_pak apks) = Ok T /\ v = tree f /\ policy_in_dnf v false None = true).
  { unfold mk_encrypt in H. apply rbind_Ok in H as (v & j1 & Hv & H). apply rlift_Ok in Hv as [Hv <-].
    destruct (policy_in_dnf v false None) eqn:D; [|discriminate H].
    apply rbind_Ok in H as (T & j2 & HT & _). apply rlift_Ok in HT as [HT <-]. rewrite Hv in HT. cbn [obind] in HT.
    destruct (json_to_dnf v (map mk_pak apks)) as [T'| |] eqn:J; try discriminate HT.
    destruct (parse_shape _ _ _ Hv) as (f & Ef & _). exists v, T', f. auto. }
  destruct Pv as (v & T & f & P & J & -> & D).
  assert (N : no_or_below_and f) by (apply policy_in_dnf_iff; exact D).
  pose proof (proj2 (proj2 (proj2 (mk_encrypt_outcome nonce pk apks pol lang data t i)) f P) N) as O.
  pose proof (proj2 (proj2 (proj2 (mk_encrypt_outcome nonce' pk apks pol lang data' (tape_to t t') i)) f P) N) as O'.
  destruct (settled_both _ _ _ _ O H O') as ([z k] & Z). exists z, k. split; [exact Z|].
  apply (takes_back _ _ t t' i _ _ (mk_encrypt_takes nonce pk apks pol lang data _ _ P J)).
  apply (mk_sum L nonce nonce' pk apks pol lang data data' t (tape_to t t') i ct j z k H Z); apply tape_to_zero; assumption.
Qed.
End RefreshProofs.
