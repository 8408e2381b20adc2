(** * Proofs about the BSW scheme *)
From Coq Require Import String List Bool Arith Lia Field.
From Verif Require Import Base Crypto Policy Tools Sharing Spec PolicyProofs Poly
  SharingProofs Symmetric Parse SchemeLib Bsw.
Import ListNotations.

Section BswProofs.
Context {C : crypto} (L : laws C).
Local Open Scope F_scope.
Add Field bsw_field : (f_theory L).
Notation F := (F C).

Ltac logs := log_simpl L.

(** Relations between the published and the secret parts of the master keys. *)
Definition bsw_keys (pk : bsw_pk C) (msk : bsw_msk C) (al : F) : Prop :=
  bmsk_beta msk <> 0 /\
  log1 L (bpk_h pk) = log1 L (bpk_g1 pk) * bmsk_beta msk /\
  log2 L (bpk_f pk) = log2 L (bpk_g2 pk) * finv C (bmsk_beta msk) /\
  log2 L (bmsk_g2a msk) = log2 L (bpk_g2 pk) * al /\
  logT L (bpk_egg pk) = log1 L (bpk_g1 pk) * (log2 L (bpk_g2 pk) * al).

Lemma bsw_setup_keys t i pk msk j : bsw_setup t i = Ok ((pk, msk), j) ->
  exists al, bsw_keys pk msk al.
Proof.
  unfold bsw_setup, draw_g1, draw_g2, rbind, rret, rlift, draw.
  destruct (finv_opt (t (S (S i)))) as [b|] eqn:E; cbn; [|discriminate].
  intros H. injection H as <- <- _. apply (finv_opt_Some L) in E as [N ->].
  exists (t (S (S (S i)))). unfold bsw_keys. cbn. repeat split; auto; logs; ring.
Qed.

Definition bsw_key_ok (pk : bsw_pk C) (msk : bsw_msk C) (attrs : list string)
  (r : F) (sk : bsw_sk C) : Prop :=
  log2 L (bsk_d sk) = (log2 L (bmsk_g2a msk) + log2 L (bpk_g2 pk) * r) * finv C (bmsk_beta msk) /\
  Forall2 (fun a d => b_string d = a /\
     exists h rj, hash C a = Some h /\ log1 L (b_g1 d) = log1 L (bpk_g1 pk) * rj /\
       log2 L (b_g2 d) = log2 L (bpk_g2 pk) * r + log2 L (bpk_g2 pk) * h * rj)
    attrs (bsk_dj sk).

Lemma bsw_keygen_ok pk msk attrs t i sk j :
  bsw_keygen pk msk attrs t i = Ok (Some sk, j) ->
  bmsk_beta msk <> 0 /\ bsw_key_ok pk msk attrs (t i) sk.
Proof.
  unfold bsw_keygen. destruct attrs as [|a0 at0]; [discriminate|].
  set (attrs := a0 :: at0). clearbody attrs. intros H.
  apply rbind_Ok in H as (r & i1 & Hr & H). injection Hr as <- <-.
  apply rbind_Ok in H as (b & i2 & Hb & H). apply rlift_Ok in Hb as [Hb <-].
  apply rbind_Ok in H as (dj & i3 & Hd & H). apply rret_Ok in H as [H _]. injection H as <-.
  destruct (finv_opt (bmsk_beta msk)) as [b'|] eqn:E; [|discriminate].
  injection Hb as ->. apply (finv_opt_Some L) in E as [N ->].
  split; [exact N|]. split; cbn.
  - logs. ring.
  - apply rmap_Forall2 in Hd. eapply Forall2_impl; [|exact Hd].
    intros a d (x & y & Hx).
    apply rbind_Ok in Hx as (rj & i4 & Hrj & Hx). injection Hrj as <- <-.
    apply rbind_Ok in Hx as (h & i5 & Hh & Hx). apply rlift_Ok in Hh as [Hh <-].
    apply rret_Ok in Hx as [<- _]. unfold sha3_hash_g2 in Hh.
    destruct (hash C a) as [h'|] eqn:Ea; [|discriminate]. injection Hh as <-.
    cbn. split; [reflexivity|]. exists h', (t x). repeat split; logs; ring.
Qed.

(** What encryption returns. *)
Lemma bsw_encrypt_inv nonce pk pol lang data t i ct j f :
  parse pol lang = Ok (tree f) ->
  bsw_encrypt nonce pk pol lang data t i = Ok (ct, j) ->
  exists s msg i',
    bct_policy ct = (pol, lang) /\
    log1 L (bct_c ct) = log1 L (bpk_h pk) * s /\
    logT L (bct_cp ct) = logT L (bpk_egg pk) * s + logT L msg /\
    encrypt_symmetric nonce msg data = Ok (bct_data ct) /\
    Forall2 (fun x y => b_string y = fst x /\
       exists h, hash C (remove_index (fst x)) = Some h /\
         log1 L (b_g1 y) = log1 L (bpk_g1 pk) * snd x /\
         log2 L (b_g2 y) = log2 L (bpk_g2 pk) * h * snd x)
      (gsh f s t i') (bct_cy ct).
Proof.
  intros P H. unfold bsw_encrypt in H.
  apply rbind_Ok in H as (s & i1 & Hs & H). injection Hs as <- <-.
  apply rbind_Ok in H as (msg & i2 & Hm & H).
  apply rbind_Ok in H as (v & i3 & Hv & H). apply rlift_Ok in Hv as [Hv <-].
  rewrite P in Hv. injection Hv as <-.
  apply rbind_Ok in H as (sh & i4 & Hsh & H). rewrite (gen_shares_policy_eq L) in Hsh.
  injection Hsh as <- <-.
  apply rbind_Ok in H as (cy & i5 & Hcy & H). apply rlift_Ok in Hcy as [Hcy <-].
  apply rbind_Ok in H as (d & i6 & Hd & H). apply rlift_Ok in Hd as [Hd <-].
  apply rret_Ok in H as [<- _]. cbn.
  exists (t i), msg, i2. repeat split; logs; auto.
  apply omap_Forall2 in Hcy. eapply Forall2_impl; [|exact Hcy].
  intros [n x] y Hy. cbn in *. unfold sha3_hash_g2 in Hy.
  destruct (hash C (remove_index n)) as [h|]; [|discriminate].
  cbn in Hy. injection Hy as <-. cbn. split; [reflexivity|].
  exists h. repeat split; logs; ring.
Qed.

Lemma Forall2_names (P : string -> battr C -> Prop) attrs dj :
  Forall2 (fun a d => b_string d = a /\ P a d) attrs dj -> map b_string dj = attrs.
Proof. induction 1 as [|a d attrs dj [E _] _ IH]; cbn; congruence. Qed.

Theorem bsw_decrypt_ok nonce pk msk al attrs r sk pol lang data t i ct j f :
  bsw_keys pk msk al ->
  bsw_key_ok pk msk attrs r sk ->
  parse pol lang = Ok (tree f) ->
  bsw_encrypt nonce pk pol lang data t i = Ok (ct, j) ->
  String.length nonce = 12%nat ->
  arity2 f = true -> NoDup (leaves f) -> plain_names f = true -> small_ok C (and_width f) ->
  sat (owns attrs) f = true ->
  bsw_decrypt sk ct = Ok data.
Proof.
  intros (Nb & Kh & Kf & Ka & Ke) (Kd & Kj) P En Ln A ND PN SO S.
  destruct (bsw_encrypt_inv _ _ _ _ _ _ _ _ _ _ P En) as (s & msg & i' & E1 & E2 & E3 & E4 & E5).
  unfold bsw_decrypt. rewrite E1. cbn [fst snd]. rewrite P. cbn [obind].
  rewrite (Forall2_names _ _ _ Kj). rewrite traverse_tree, S.
  pose proof (owns_nonempty _ _ S A) as NE.
  assert (E : (0 <? length attrs)%nat = true) by (destruct attrs; [congruence|reflexivity]).
  rewrite E. cbn [andb]. rewrite calc_pruned_tree by exact A. rewrite S. cbn [obind fst snd].
  rewrite (calc_coefficients_eq L). cbn [obind unwrap app].
  set (pr := map leaf_pair (sel (pmask (owns attrs) f) (leaves f))).
  set (a := fold_left (bsw_step sk ct (gco f 1)) pr (gtone C)).
  assert (Ha : logT L a = log1 L (bpk_g1 pk) * (log2 L (bpk_g2 pk) * (r * s))).
  { unfold a. rewrite (fold_log L _ (fun x => log1 L (bpk_g1 pk) * log2 L (bpk_g2 pk) * r *
       (oval (assoc (snd x) (gco f 1)) * oval (assoc (snd x) (gsh f s t i'))))).
    - rewrite (fsum_scale L). unfold pr. rewrite (reconstruct_lookup L) by assumption.
      logs. ring.
    - intros x a' Ix. destruct (pruned_leaf _ _ _ Ix) as (n & p & -> & Il & Io).
      unfold bsw_step. cbn [fst snd].
      destruct (share_of_leaf f n p s t i' Il) as (sh & Esh).
      destruct (find_assoc _ _ _ _ _ E5 _ Esh) as (cy & Fc & h & Hh & C1 & C2).
      cbn [fst snd] in *. rewrite Fc.
      unfold owns in Io. apply smem_In in Io.
      destruct (find_key _ _ _ _ _ Kj Io) as (dj & Fd & _ & h' & rj & Hh' & D1 & D2).
      rewrite Fd. rewrite remove_index_leaf in Hh by (eapply plain_leaf; eauto).
      rewrite Hh in Hh'. injection Hh' as <-.
      rewrite (fold_match L (fun z => log1 L (bpk_g1 pk) * log2 L (bpk_g2 pk) * r * (z * sh))
        (node_index n p) (gco f 1) (fun a z => gtmul C a (gtpow C
           (gtmul C (pairing C (b_g1 cy) (b_g2 dj)) (gtinv C (pairing C (b_g1 dj) (b_g2 cy)))) z))).
      + rewrite Esh. cbn [oval]. reflexivity.
      + rewrite gco_idents. now apply NoDup_idents.
      + intros a0 c. logs. rewrite C1, C2, D1, D2. ring.
      + ring. }
  apply (symmetric_roundtrip L nonce); [exact Ln|].
  rewrite <- E4. f_equal. apply (logT_inj L). logs.
  rewrite Ha, E3, E2, Kd, Kh, Ka, Ke. field. exact Nb.
Qed.

Theorem bsw_correct nonce (pk : bsw_pk C) msk attrs sk pol lang data ct f ts is js tk ik jk te ie je :
  bsw_setup ts is = Ok ((pk, msk), js) ->
  bsw_keygen pk msk attrs tk ik = Ok (Some sk, jk) ->
  bsw_encrypt nonce pk pol lang data te ie = Ok (ct, je) ->
  parse pol lang = Ok (tree f) ->
  String.length nonce = 12%nat ->
  arity2 f = true -> NoDup (leaves f) -> plain_names f = true -> small_ok C (and_width f) ->
  sat (owns attrs) f = true ->
  bsw_decrypt sk ct = Ok data.
Proof.
  intros Hs Hk He. intros. apply bsw_setup_keys in Hs as (al & Hs).
  apply bsw_keygen_ok in Hk as [_ Hk].
  eapply bsw_decrypt_ok; eauto.
Qed.

(** ** Progress: the functions return a result *)

Lemma bsw_setup_runs t i : t (S (S i)) <> 0 ->
  exists (pk : bsw_pk C) (msk : bsw_msk C), bsw_setup t i = Ok ((pk, msk), (i + 4)%nat).
Proof.
  intros N. unfold bsw_setup, draw_g1, draw_g2, rbind, rret, rlift, draw.
  rewrite (finv_opt_neq L) by exact N. cbn. do 2 eexists.
  replace (i + 4)%nat with (S (S (S (S i)))) by lia. reflexivity.
Qed.

Lemma bsw_keygen_runs (pk : bsw_pk C) msk attrs t i : attrs <> [] -> bmsk_beta msk <> 0 ->
  (forall a, In a attrs -> hash C a <> None) ->
  exists sk j, bsw_keygen pk msk attrs t i = Ok (Some sk, j).
Proof.
  intros NE N H. unfold bsw_keygen. destruct attrs as [|a0 at0]; [congruence|].
  set (attrs := a0 :: at0) in *. clearbody attrs.
  unfold rbind at 1. unfold draw at 1. unfold rbind at 1, rlift at 1.
  rewrite (finv_opt_neq L) by exact N. cbn [unwrap].
  match goal with |- context [rmap ?f attrs] => set (step := f) end.
  destruct (rmap_runs step attrs) with (t := t) (i := S i) as (r & j & E).
  - intros x t' i' Ix. unfold step, rbind, draw, rlift, rret, sha3_hash_g2.
    specialize (H x Ix). destruct (hash C x); [|congruence]. cbn. eauto.
  - unfold rbind. rewrite E. unfold rret. eauto.
Qed.

Lemma bsw_encrypt_runs nonce (pk : bsw_pk C) pol lang data f t i :
  parse pol lang = Ok (tree f) -> (forall a, hash C a <> None) ->
  exists ct j, bsw_encrypt nonce pk pol lang data t i = Ok (ct, j).
Proof.
  intros P H. unfold bsw_encrypt, rbind, draw, draw_gt, rret, rlift, draw.
  unfold rbind, draw, rret. rewrite P, (gen_shares_policy_eq L).
  match goal with |- context [omap ?f ?l] => destruct (omap_runs f l) as (r & ->) end.
  - intros x _. unfold sha3_hash_g2. destruct (hash C (remove_index (fst x))) eqn:E.
    + cbn. eauto. + now apply H in E.
  - cbn. eauto.
Qed.

(** ** Every key of the right form is an output of key generation *)

Lemma bsw_key_range pk msk ks r sk : ks <> [] -> bmsk_beta msk <> 0 ->
  bsw_key_ok pk msk ks r sk ->
  exists t j, bsw_keygen pk msk ks t 0%nat = Ok (Some sk, j).
Proof.
  intros NE N (Kd & Kj). destruct sk as [d dj]. cbn in *.
  assert (X : exists rs, forall t i,
    (forall k, k < length rs -> t (i + k)%nat = nth k rs 0) ->
    exists j, rmap (fun j => rbind draw (fun r_j =>
      rbind (rlift (unwrap_res (sha3_hash_g2 (bpk_g2 pk) j))) (fun h =>
      rret (BAttr j (g1mul C (bpk_g1 pk) r_j)
              (g2add C (g2mul C (bpk_g2 pk) r) (g2mul C h r_j)))))) ks t i = Ok (dj, j)).
  { clear NE Kd. induction Kj as [|a x ks dj (E & h & rj & Hh & D1 & D2) _ IH].
    - exists []. intros t i _. cbn. unfold rret. eauto.
    - destruct IH as (rs & IH). exists (rj :: rs). intros t i Ht.
      assert (E0 : t i = rj).
      { specialize (Ht 0%nat). rewrite Nat.add_0_r in Ht. apply Ht. cbn. lia. }
      destruct (IH t (S i)) as (j & Ej).
      { intros k Hk. replace (S i + k)%nat with (i + S k)%nat by lia. apply Ht. cbn. lia. }
      exists j. eapply rmap_cons_Ok; [|exact Ej].
      unfold rbind, draw, rlift, rret, sha3_hash_g2. rewrite Hh, E0. cbn. do 2 f_equal.
      destruct x as [n u v]. cbn in *. subst n. f_equal.
      + apply (log1_inj L). logs. now rewrite D1.
      + apply (log2_inj L). logs. rewrite D2. ring. }
  destruct X as (rs & X).
  exists (fun k => nth k (r :: rs) 0). unfold bsw_keygen.
  destruct ks as [|k0 ks0]; [congruence|]. set (ks := k0 :: ks0) in *.
  destruct (X (fun k => nth k (r :: rs) 0) 1%nat) as (j & Ej).
  { intros k _. reflexivity. }
  rewrite (finv_opt_neq L) by exact N. cbn [unwrap].
  erewrite rbind_run by reflexivity. cbn [nth]. erewrite rbind_run by reflexivity.
  erewrite rbind_run by exact Ej. unfold rret. exists j. do 4 f_equal.
  apply (log2_inj L). logs. rewrite Kd. ring.
Qed.

(** ** Delegation *)

Lemma is_subset_iff a b : is_subset a b = true <-> (forall x, In x a -> In x b).
Proof.
  unfold is_subset. rewrite forallb_forall. split; intros H x Hx.
  - apply smem_In. auto. - apply smem_In. auto.
Qed.

Lemma bsw_delegate_iff (pk : bsw_pk C) sk subset t i :
  (forall a, In a subset -> hash C a <> None) ->
  (exists sk' j, bsw_delegate pk sk subset t i = Ok (Some sk', j)) <->
  subset <> [] /\ (forall a, In a subset -> In a (map b_string (bsk_dj sk))).
Proof.
  intros H. unfold bsw_delegate. split.
  - intros (sk' & j & E).
    destruct (is_subset subset (map b_string (bsk_dj sk))) eqn:Sb; cbn in E; [|discriminate].
    destruct subset; [discriminate|].
    split; [discriminate|]. now apply is_subset_iff.
  - intros (NE & I). destruct (is_subset subset (map b_string (bsk_dj sk))) eqn:Sb.
    2:{ apply is_subset_iff in I. congruence. }
    cbn. destruct subset as [|s0 st]; [congruence|]. set (subset := s0 :: st) in *. clearbody subset.
    unfold rbind at 1, draw at 1.
    match goal with |- context [rmap ?f subset] => set (step := f) end.
    destruct (rmap_runs step subset) with (t := t) (i := S i) as (r & j & E).
    + intros x t' i' Ix. unfold step, rbind, draw, rlift, rret, sha3_hash_g2.
      specialize (H x Ix). destruct (hash C x) as [h|]; [|congruence].
      specialize (I x Ix). apply in_map_iff in I as (y & Ey & Iy).
      destruct (find (fun x0 => seqb (b_string x0) x) (bsk_dj sk)) eqn:F'.
      * cbn. eauto.
      * exfalso. eapply find_none in F'; [|exact Iy]. cbn in F'. rewrite Ey, seqb_refl in F'. discriminate.
    + unfold rbind. rewrite E. unfold rret. eauto.
Qed.

Lemma bsw_delegate_attrs (pk : bsw_pk C) sk subset t i sk' j :
  bsw_delegate pk sk subset t i = Ok (Some sk', j) ->
  map b_string (bsk_dj sk') = subset.
Proof.
  unfold bsw_delegate.
  destruct (is_subset subset (map b_string (bsk_dj sk))); cbn; [|discriminate].
  destruct subset as [|s0 st]; [discriminate|]. set (subset := s0 :: st). clearbody subset.
  intros H. apply rbind_Ok in H as (r & i1 & _ & H).
  apply rbind_Ok in H as (dj & i2 & Hd & H). apply rret_Ok in H as [H _]. injection H as <-.
  cbn. apply rmap_Forall2 in Hd.
  apply (Forall2_names (fun _ _ => True)). eapply Forall2_impl; [|exact Hd].
  intros a d (x & y & Hx).
  apply rbind_Ok in Hx as (rj & i4 & _ & Hx).
  apply rbind_Ok in Hx as (v & i5 & _ & Hx).
  apply rbind_Ok in Hx as (h & i6 & _ & Hx).
  apply rret_Ok in Hx as [<- _]. auto.
Qed.

(** Delegation is key generation for the subset with a shifted tape: the shift
    depends on the given key only. *)
Lemma bsw_delegate_shift pk msk al attrs r sk subset :
  bsw_keys pk msk al -> bsw_key_ok pk msk attrs r sk ->
  subset <> [] -> (forall a, In a subset -> In a attrs) ->
  exists sh, forall t i,
    bsw_delegate pk sk subset t i = bsw_keygen pk msk subset (fun k => t k + sh (k - i)%nat) i.
Proof.
  intros (Nb & Kh & Kf & Ka & Ke) (Kd & Kj) NE I.
  pose proof (Forall2_names _ _ _ Kj) as Nm.
  assert (X : exists sh0 : nat -> F, forall t t' i i' r',
    (forall k, t' (i' + k)%nat = t (i + k)%nat + sh0 k) -> 
    match rmap (fun attr => rbind draw (fun r_j =>
      rbind (rlift (unwrap (find (fun x => seqb (b_string x) attr) (bsk_dj sk)))) (fun v =>
      rbind (rlift (unwrap_res (sha3_hash_g2 (bpk_g2 pk) attr))) (fun h =>
      rret (BAttr attr
              (g1add C (b_g1 v) (g1mul C (bpk_g1 pk) r_j))
              (g2add C (g2add C (b_g2 v) (g2mul C h r_j)) (g2mul C (bpk_g2 pk) r'))))))) subset t i with
    | Ok (dj, j) => rmap (fun j => rbind draw (fun r_j =>
      rbind (rlift (unwrap_res (sha3_hash_g2 (bpk_g2 pk) j))) (fun h =>
      rret (BAttr j (g1mul C (bpk_g1 pk) r_j)
              (g2add C (g2mul C (bpk_g2 pk) (r' + r)) (g2mul C h r_j)))))) subset t' i'
              = Ok (dj, i' + (j - i))%nat /\ i <= j
    | _ => False
    end).
  { clear NE. induction subset as [|a subset IH].
    - exists (fun _ => 0). intros t t' i i' r' _. cbn. rewrite Nat.sub_diag, Nat.add_0_r. auto.
    - destruct IH as (sh0 & IH); [intros; apply I; now right|].
      destruct (find_key _ _ _ _ a Kj) as (x & Fx & Nx & h & rj & Hh & D1 & D2); [apply I; now left|].
      exists (fun k => match k with O => rj | S k' => sh0 k' end).
      intros t t' i i' r' Ht. cbn [rmap]. unfold rbind at 1 2. unfold draw at 1.
      rewrite Fx. unfold sha3_hash_g2 at 1. rewrite Hh. cbn [unwrap unwrap_res].
      unfold rlift at 1 2. unfold rbind at 1 2. unfold rret at 1.
      specialize (IH t t' (S i) (S i') r').
      unfold rbind at 1.
      destruct (rmap _ subset t (S i)) as [[dj j]| |] eqn:E.
      + destruct IH as [E' Lij].
        { intros k. specialize (Ht (S k)). cbn in Ht.
          replace (S i' + k)%nat with (i' + S k)%nat by lia.
          replace (S i + k)%nat with (i + S k)%nat by lia. exact Ht. }
        unfold rret at 1. split; [|lia].
        unfold rbind at 1 2. unfold draw at 1. unfold sha3_hash_g2 at 1. rewrite Hh. cbn [unwrap_res].
        unfold rlift at 1. unfold rbind at 1. unfold rret at 1. unfold rbind at 1.
        rewrite E'. unfold rret. f_equal. f_equal; [|lia]. f_equal. f_equal.
        * apply (log1_inj L). logs. rewrite D1. specialize (Ht 0%nat). cbn in Ht.
          rewrite !Nat.add_0_r in Ht. rewrite Ht. ring.
        * apply (log2_inj L). logs. rewrite D2. specialize (Ht 0%nat). cbn in Ht.
          rewrite !Nat.add_0_r in Ht. rewrite Ht. ring.
      + exfalso. apply IH. intros k. specialize (Ht (S k)). cbn in Ht.
        replace (S i' + k)%nat with (i' + S k)%nat by lia.
        replace (S i + k)%nat with (i + S k)%nat by lia. exact Ht.
      + exfalso. apply IH. intros k. specialize (Ht (S k)). cbn in Ht.
        replace (S i' + k)%nat with (i' + S k)%nat by lia.
        replace (S i + k)%nat with (i + S k)%nat by lia. exact Ht. }
  destruct X as (sh0 & X).
  exists (fun k => match k with O => r | S k' => sh0 k' end). intros t i.
  unfold bsw_delegate, bsw_keygen. rewrite Nm.
  assert (Sb : is_subset subset attrs = true) by now apply is_subset_iff.
  rewrite Sb. cbn [negb]. destruct subset as [|s0 st]; [congruence|].
  set (subset := s0 :: st) in *. clearbody subset.
  unfold rbind at 1. unfold draw at 1.
  set (t' := fun k => t k + match (k - i)%nat with O => r | S k' => sh0 k' end).
  specialize (X t t' (S i) (S i) (t i)).
  unfold rbind at 1.
  destruct (rmap _ subset t (S i)) as [[dj j]| |].
  - destruct X as [E Lij].
    { intros k. unfold t'. replace (S i + k - i)%nat with (S k) by lia. reflexivity. }
    unfold rbind at 1. unfold draw at 1.
    assert (Ti : t' i = t i + r) by (unfold t'; now rewrite Nat.sub_diag).
    rewrite Ti. unfold rbind at 1. unfold rlift at 1.
    rewrite (finv_opt_neq L) by exact Nb. cbn [unwrap]. unfold rbind at 1.
    rewrite E. unfold rret. f_equal. f_equal; [|lia]. f_equal. f_equal.
    apply (log2_inj L). logs. rewrite Kd, Kf. ring.
  - exfalso. apply X. intros k. unfold t'. replace (S i + k - i)%nat with (S k) by lia. reflexivity.
  - exfalso. apply X. intros k. unfold t'. replace (S i + k - i)%nat with (S k) by lia. reflexivity.
Qed.

Theorem bsw_delegate_fresh (pk : bsw_pk C) msk attrs sk subset ts is js tk ik jk :
  bsw_setup ts is = Ok ((pk, msk), js) ->
  bsw_keygen pk msk attrs tk ik = Ok (Some sk, jk) ->
  subset <> [] -> (forall a, In a subset -> In a attrs) ->
  exists sh, forall t i,
    bsw_delegate pk sk subset t i = bsw_keygen pk msk subset (fun k => t k + sh (k - i)%nat) i.
Proof.
  intros Hs Hk. intros. apply bsw_setup_keys in Hs as (al & Hs).
  apply bsw_keygen_ok in Hk as [_ Hk]. eapply bsw_delegate_shift; eauto.
Qed.

Theorem bsw_delegate_correct nonce (pk : bsw_pk C) msk attrs sk subset sk' pol lang data ct f
    ts is js tk ik jk td id jd te ie je :
  bsw_setup ts is = Ok ((pk, msk), js) ->
  bsw_keygen pk msk attrs tk ik = Ok (Some sk, jk) ->
  bsw_delegate pk sk subset td id = Ok (Some sk', jd) ->
  bsw_encrypt nonce pk pol lang data te ie = Ok (ct, je) ->
  parse pol lang = Ok (tree f) ->
  String.length nonce = 12%nat ->
  arity2 f = true -> NoDup (leaves f) -> plain_names f = true -> small_ok C (and_width f) ->
  sat (owns subset) f = true ->
  bsw_decrypt sk' ct = Ok data.
Proof.
  intros Hs Hk Hd He. intros.
  destruct (bsw_keygen_ok _ _ _ _ _ _ _ Hk) as [_ (_ & Kj)].
  assert (X : subset <> [] /\ (forall a, In a subset -> In a attrs)).
  { rewrite <- (Forall2_names _ _ _ Kj). revert Hd. unfold bsw_delegate.
    destruct (is_subset subset (map b_string (bsk_dj sk))) eqn:E; cbn; [|discriminate].
    destruct subset; [discriminate|]. intros _. split; [discriminate|]. now apply is_subset_iff. }
  destruct (bsw_delegate_fresh _ _ _ _ _ _ _ _ _ _ _ Hs Hk (proj1 X) (proj2 X)) as (sh & E).
  rewrite E in Hd. eapply bsw_correct; eauto.
Qed.

(** ** Rejection *)

Theorem bsw_reject (sk : bsw_sk C) ct f :
  parse (fst (bct_policy ct)) (snd (bct_policy ct)) = Ok (tree f) ->
  sat (owns (map b_string (bsk_dj sk))) f = false ->
  bsw_decrypt sk ct = Err.
Proof.
  intros P S. unfold bsw_decrypt. rewrite P. cbn [obind].
  rewrite traverse_tree, S, andb_false_r. reflexivity.
Qed.

(** ** The attribute hash has a known discrete logarithm *)

(** Published values only: a key, attribute names, the hash. *)
Definition bsw_forge (sk : bsw_sk C) (ks : list string) : option (bsw_sk C) :=
  match bsk_dj sk with
  | [] => None
  | x :: _ =>
      match hash C (b_string x) with
      | None => None
      | Some hj =>
          option_map (fun dj => BswSk (bsk_d sk) dj)
            ((fix go (ks : list string) : option (list (battr C)) :=
               match ks with
               | [] => Some []
               | k :: r =>
                   match hash C k, go r with
                   | Some hk, Some l =>
                       Some (BAttr k (g1mul C (b_g1 x) (hj * finv C hk)) (b_g2 x) :: l)
                   | _, _ => None
                   end
               end) ks)
      end
  end.

Theorem bsw_forge_works (pk : bsw_pk C) msk attrs sk t i j ks :
  bsw_keygen pk msk attrs t i = Ok (Some sk, j) ->
  ks <> [] -> (forall k, In k ks -> exists h, hash C k = Some h /\ h <> 0) ->
  exists sk', bsw_forge sk ks = Some sk' /\
    exists t' j', bsw_keygen pk msk ks t' 0%nat = Ok (Some sk', j').
Proof.
  intros Hk NE Hh. pose proof Hk as Hk0.
  apply bsw_keygen_ok in Hk as [N (Kd & Kj)].
  unfold bsw_forge. inversion Kj as [|a x attrs' dj' (Ex & h & rj & Ha & D1 & D2) _ E1 E2]; subst.
  - discriminate.
  - rewrite Ha.
    set (go := fix go (ks : list string) : option (list (battr C)) :=
               match ks with
               | [] => Some []
               | k :: r =>
                   match hash C k, go r with
                   | Some hk, Some l =>
                       Some (BAttr k (g1mul C (b_g1 x) (h * finv C hk)) (b_g2 x) :: l)
                   | _, _ => None
                   end
               end).
    assert (X : exists l, go ks = Some l /\ Forall2 (fun a d => b_string d = a /\
     exists h rj, hash C a = Some h /\ log1 L (b_g1 d) = log1 L (bpk_g1 pk) * rj /\
       log2 L (b_g2 d) = log2 L (bpk_g2 pk) * t i + log2 L (bpk_g2 pk) * h * rj) ks l).
    { clear NE. induction ks as [|k ks IH]; [exists []; auto|].
      destruct IH as (l & El & Fl); [intros; apply Hh; now right|].
      destruct (Hh k) as (hk & Ehk & Nk); [now left|].
      cbn [go]. fold go. rewrite Ehk, El. eexists. split; [reflexivity|].
      constructor; [|exact Fl]. cbn. split; [reflexivity|].
      exists hk, (rj * (h * finv C hk)). split; [exact Ehk|]. split.
      - logs. rewrite D1. ring.
      - rewrite D2. field. exact Nk. }
    destruct X as (l & El & Fl). rewrite El. cbn. eexists. split; [reflexivity|].
    apply (bsw_key_range pk msk ks (t i)); auto. split; cbn; assumption.
Qed.

End BswProofs.
