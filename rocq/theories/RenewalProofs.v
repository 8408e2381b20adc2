(** * RenewalProofs: renewed keys are issued keys (C152) *)
From Coq Require Import String Ascii List Bool Arith Lia Field.
From Verif Require Import Base Crypto Policy Tools Sharing Spec PolicyProofs Poly SharingProofs Draws DrawsProofs
  Symmetric Parse SchemeLib Ghw11 Lsw EquationProofs RerandProofs Renewal.
Import ListNotations.

Section RenewalProofs.
Context {C : crypto} (L : laws C).
Local Open Scope F_scope.
Add Field renewal_field : (f_theory L).
Notation F := (F C).
Ltac logs := log_simpl L.

Lemma ghw_renewed (pk : ghw_pk C) msk attrs t i sk j t' i' :
  ghw_keygen pk msk attrs t i = Ok (Some sk, j) ->
  exists sk', ghw_renew pk sk (t' i' - t i) = Ok sk' /\ ghw_keygen pk msk attrs t' i' = Ok (Some sk', S i').
Proof.
  intros H. destruct attrs as [|a0 r0]; [discriminate|]. cbn [ghw_keygen] in *.
  remember (a0 :: r0) as attrs eqn:Ea. clear Ea a0 r0.
  apply rbind_Ok in H as (r & i1 & D & H). unfold draw in D. injection D as <- <-.
  apply rbind_Ok in H as (kx & i2 & D & H). apply rlift_Ok in D as [Ek <-].
  apply rret_Ok in H as [H _]. injection H as <-. unfold ghw_renew. cbn [gsk_k gsk_l gsk_attr].
  assert (X : exists kx', omap (fun x => obind (unwrap_res (sha3_hash_g2 (gpk_g2 pk) (fst x))) (fun h =>
       Ok (fst x, g2add C (snd x) (g2mul C h (t' i' - t i))))) kx = Ok kx' /\
     omap (fun j => obind (unwrap_res (sha3_hash_g2 (gpk_g2 pk) j)) (fun h => Ok (j, g2mul C h (t' i')))) attrs = Ok kx').
  { revert kx Ek. induction attrs as [|a l IH]; intros kx Ek; cbn [omap] in *.
    - injection Ek as <-. exists []. split; reflexivity.
    - apply obind_Ok in Ek as (y & Ey & Ek). apply obind_Ok in Ek as (ys & Eys & Ek). injection Ek as <-.
      apply obind_Ok in Ey as (h & Eh & Ey). injection Ey as <-.
      destruct (IH _ Eys) as (kx' & E1 & E2). cbn [omap fst snd]. rewrite Eh. cbn [obind]. rewrite E1, E2. cbn [obind].
      eexists. split; [reflexivity|]. do 3 f_equal. apply (log2_inj L). logs. ring. }
  destruct X as (kx' & E1 & E2). rewrite E1. cbn [obind]. eexists. split; [reflexivity|].
  unfold rbind, draw, rlift, rret. rewrite E2. do 4 f_equal; apply (log2_inj L); logs; ring.
Qed.

Lemma lsw_loop (pk : lsw_pk C) msk (a2 : F) (t tr T : nat -> F) : a2 = lmsk_alpha2 msk -> a2 <> 0 ->
  forall sh zs sh' k dj j,
  map fst zs = map fst sh -> map fst sh' = map fst sh -> map snd sh' = ladd2 (finv C a2) (map snd sh) (map snd zs) ->
  (forall m, (k <= m)%nat -> T m = t m + tr m) ->
  (rmap (fun x : string * F =>
    let striped := remove_index (fst x) in
    rbind draw (fun random =>
    rbind (rlift (is_negative striped)) (fun neg : bool =>
    if neg then
      rbind (rlift (unwrap_res (sha3_hash_fr striped))) (fun share_hash =>
      rret (LswDj striped (g1zero C) (g2zero C)
              (g1add C (g1mul C (lpk_g1 pk) (snd x)) (g1mul C (lpk_g1b2 pk) random))
              (g1add C (g1mul C (lpk_g1b pk) (fmul C share_hash random)) (g1mul C (lmsk_hg1 msk) random))
              (g1mul C (lpk_g1 pk) (fopp C random))))
    else
      rbind (rlift (unwrap_res (sha3_hash_g1 (lpk_g1 pk) striped))) (fun share_hash =>
      rret (LswDj striped
              (g1add C (g1mul C (lpk_g1 pk) (fmul C (lmsk_alpha2 msk) (snd x))) (g1mul C share_hash random))
              (g2mul C (lpk_g2 pk) random)
              (g1zero C) (g1zero C) (g1zero C)))))) sh t k = Ok (dj, j)) ->
  Forall (fun d => String.prefix "!" (ld_name d) = false) dj ->
  exists dj',
   rmap (fun x : lsw_dj C * (string * F) =>
    rbind draw (fun random =>
    rbind (rlift (unwrap_res (sha3_hash_g1 (lpk_g1 pk) (ld_name (fst x))))) (fun h =>
    rret (LswDj (ld_name (fst x))
      (g1add C (g1add C (ld_1 (fst x)) (g1mul C (lpk_g1 pk) (snd (snd x)))) (g1mul C h random))
      (g2add C (ld_2 (fst x)) (g2mul C (lpk_g2 pk) random)) (g1zero C) (g1zero C) (g1zero C)))))
    (combine dj zs) tr k = Ok (dj', j) /\
   rmap (fun x : string * F =>
    let striped := remove_index (fst x) in
    rbind draw (fun random =>
    rbind (rlift (is_negative striped)) (fun neg : bool =>
    if neg then
      rbind (rlift (unwrap_res (sha3_hash_fr striped))) (fun share_hash =>
      rret (LswDj striped (g1zero C) (g2zero C)
              (g1add C (g1mul C (lpk_g1 pk) (snd x)) (g1mul C (lpk_g1b2 pk) random))
              (g1add C (g1mul C (lpk_g1b pk) (fmul C share_hash random)) (g1mul C (lmsk_hg1 msk) random))
              (g1mul C (lpk_g1 pk) (fopp C random))))
    else
      rbind (rlift (unwrap_res (sha3_hash_g1 (lpk_g1 pk) striped))) (fun share_hash =>
      rret (LswDj striped
              (g1add C (g1mul C (lpk_g1 pk) (fmul C (lmsk_alpha2 msk) (snd x))) (g1mul C share_hash random))
              (g2mul C (lpk_g2 pk) random)
              (g1zero C) (g1zero C) (g1zero C)))))) sh' T k = Ok (dj', j).
Proof.
  intros Ea Na. induction sh as [|[n x] sh IH]; intros [|[n2 z] zs] [|[n3 y] sh'] k dj j M1 M2 Ms HT H Np; try discriminate.
  - cbn in H. apply rret_Ok in H as [<- <-]. exists []. split; reflexivity.
  - cbn [map fst snd] in M1, M2, Ms. unfold ladd2 in Ms. cbn [combine map fst snd] in Ms.
    injection M1 as -> M1. injection M2 as -> M2. injection Ms as -> Ms.
    cbn [rmap] in H. apply rbind_Ok in H as (d & k1 & Hd & H). apply rbind_Ok in H as (ds & k2 & Hds & H).
    apply rret_Ok in H as [<- <-]. inversion Np as [|? ? Nd Nds]; subst.
    cbv zeta in Hd. cbn [fst snd] in Hd.
    apply rbind_Ok in Hd as (r & k3 & Hr & Hd). unfold draw in Hr. injection Hr as <- <-.
    apply rbind_Ok in Hd as (neg & k4 & Hn & Hd). apply rlift_Ok in Hn as [Hn <-].
    assert (neg = false) as ->.
    { destruct neg; [|reflexivity]. exfalso.
      apply rbind_Ok in Hd as (h & k5 & _ & Hd). apply rret_Ok in Hd as [<- _]. cbn [ld_name] in Nd.
      unfold is_negative in Hn. destruct (remove_index n) as [|c q]; [discriminate|].
      destruct (nat_of_ascii c <? 128)%nat; [|discriminate]. injection Hn as Hn. rewrite prefix_bang, Hn in Nd. discriminate. }
    apply rbind_Ok in Hd as (h & k5 & Hh & Hd). apply rlift_Ok in Hh as [Hh <-]. apply rret_Ok in Hd as [<- <-].
    destruct (IH zs sh' (S k) ds k2) as (ds' & E1 & E2); try assumption.
    { intros m Hm. apply HT. lia. }
    eexists. split.
    + cbn [combine rmap]. unfold rbind at 1. unfold rbind at 1, draw at 1. unfold rbind at 1, rlift at 1. cbn [fst snd ld_name ld_1 ld_2].
      rewrite Hh. unfold rret at 1. unfold rbind at 1. rewrite E1. reflexivity.
    + cbn [rmap]. unfold rbind at 1. cbv zeta in E2 |- *. cbn [fst snd]. unfold rbind at 1, draw at 1. unfold rbind at 1, rlift at 1. rewrite Hn.
      unfold rbind at 1, rlift at 1. rewrite Hh. unfold rret at 1. unfold rbind at 1. rewrite E2. unfold rret.
      rewrite (HT k (le_n k)). do 4 f_equal; [apply (log1_inj L)|apply (log2_inj L)]; logs; [field; exact Na|ring].
Qed.

Lemma lsw_renewed (pk : lsw_pk C) msk pol lang f t i sk j tr :
  parse pol lang = Ok (tree f) -> lmsk_alpha2 msk <> 0 ->
  lsw_keygen pk msk pol lang t i = Ok (sk, j) ->
  Forall (fun d => String.prefix "!" (ld_name d) = false) (lsk_dj sk) ->
  exists sk', lsw_renew pk sk tr i = Ok (sk', j) /\
    lsw_keygen pk msk pol lang (both (lmsk_alpha2 msk) i (coins f) t tr) i = Ok (sk', j).
Proof.
  intros P Na H Np. unfold lsw_keygen in H.
  apply rbind_Ok in H as (v & i1 & D & H). apply rlift_Ok in D as [Ev <-]. rewrite P in Ev.
  assert (Ev' : v = tree f) by congruence. subst v. clear Ev.
  apply rbind_Ok in H as (sh & i2 & D & H). rewrite (gen_shares_policy_eq L) in D.
  assert (sh = gsh f (lmsk_alpha1 msk) t i /\ i2 = (i + nd f)%nat) as [-> ->] by (split; congruence). clear D.
  apply rbind_Ok in H as (dj & i3 & D & H). apply rret_Ok in H as [<- <-]. cbn [lsk_dj] in Np.
  set (T := both (lmsk_alpha2 msk) i (coins f) t tr).
  assert (EG : gsh f (lmsk_alpha1 msk) T i = gsh f (lmsk_alpha1 msk + finv C (lmsk_alpha2 msk) * 0) (fun k => t k + finv C (lmsk_alpha2 msk) * tr k) i).
  { replace (lmsk_alpha1 msk + finv C (lmsk_alpha2 msk) * 0) with (lmsk_alpha1 msk) by ring. apply gsh_ext.
    intros k Hk. unfold T, both. change (coins f) with (nd f). destruct (Nat.ltb_spec k (i + nd f)); [reflexivity|lia]. }
  destruct (lsw_loop pk msk (lmsk_alpha2 msk) t tr T eq_refl Na (gsh f (lmsk_alpha1 msk) t i) (gsh f 0 tr i)
    (gsh f (lmsk_alpha1 msk) T i) (i + nd f)%nat dj i3) as (dj' & E1 & E2).
  - now rewrite !gsh_idents.
  - now rewrite !gsh_idents.
  - rewrite EG. apply (gsh_linear L).
  - intros m Hm. unfold T, both. change (coins f) with (nd f). destruct (Nat.ltb_spec m (i + nd f)); [lia|reflexivity].
  - exact D.
  - exact Np.
  - exists (LswSk (pol, lang) dj'). split.
    + unfold lsw_renew. cbn [lsk_policy lsk_dj fst snd]. unfold rbind at 1, rlift at 1. rewrite P. unfold rbind at 1.
      rewrite (gen_shares_policy_eq L). unfold rbind at 1. rewrite E1. reflexivity.
    + unfold lsw_keygen. unfold rbind at 1, rlift at 1. rewrite P. unfold rbind at 1.
      rewrite (gen_shares_policy_eq L). fold T. unfold rbind at 1.
      match goal with |- context [rmap ?g ?l ?u ?k] => replace (rmap g l u k) with (@Ok (list (lsw_dj C) * nat) (dj', i3)) by (symmetry; exact E2) end.
      reflexivity.
Qed.

Lemma ghw_renew_differs (pk : ghw_pk C) sk r sk' :
  ghw_renew pk sk r = Ok sk' -> gpk_g2 pk <> g2zero C -> r <> 0 -> sk' <> sk.
Proof.
  intros H N Nr E. unfold ghw_renew in H. apply obind_Ok in H as (l & _ & H). injection H as <-.
  apply (f_equal (fun k => log2 L (gsk_l k))) in E. cbn [gsk_l] in E. revert E. logs. intros E.
  assert (Z : log2 L (gpk_g2 pk) * r = 0).
  { match type of E with ?l = ?r => transitivity (l - r); [ring|rewrite E; ring] end. }
  apply Nr. replace r with (finv C (log2 L (gpk_g2 pk)) * (log2 L (gpk_g2 pk) * r)).
  - rewrite Z. ring.
  - field. intros Z'. apply N. apply (log2_inj L). rewrite Z'. now logs.
Qed.

Lemma both_all (a : F) i n t t' : a <> 0 -> forall k,
  both a i n t (fun k => if (k <? i + n)%nat then a * (t' k - t k) else t' k - t k) k = t' k.
Proof. intros Na k. unfold both. destruct (k <? i + n)%nat; [field; exact Na|ring]. Qed.
End RenewalProofs.
