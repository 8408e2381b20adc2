(** * Proofs about the GHW11 scheme *)
From Coq Require Import String List Bool Arith Lia Field.
From Verif Require Import Base Crypto Policy Tools Sharing Spec PolicyProofs Poly
  SharingProofs Symmetric Parse SchemeLib Ghw11.
Import ListNotations.

Section Ghw11Proofs.
Context {C : crypto} (L : laws C).
Local Open Scope F_scope.
Add Field ghw_field : (f_theory L).
Notation F := (F C).
Ltac logs := log_simpl L.

Definition ghw_keys (pk : ghw_pk C) (msk : ghw_msk C) (a al : F) : Prop :=
  log1 L (gpk_g1a pk) = log1 L (gpk_g1 pk) * a /\
  log2 L (gpk_g2a pk) = log2 L (gpk_g2 pk) * a /\
  log2 L (gmsk_g2al msk) = log2 L (gpk_g2 pk) * al /\
  logT L (gpk_egg pk) = log1 L (gpk_g1 pk) * log2 L (gpk_g2 pk) * al.

Lemma ghw_setup_keys t i pk msk j : ghw_setup t i = Ok ((pk, msk), j) ->
  exists a al, ghw_keys pk msk a al.
Proof.
  unfold ghw_setup, draw_g1, draw_g2, rbind, rret, draw.
  intros H. injection H as <- <- _.
  exists (t (S (S i))), (t (S (S (S i)))). unfold ghw_keys. cbn. repeat split; logs; ring.
Qed.

Definition ghw_key_ok (pk : ghw_pk C) (msk : ghw_msk C) (attrs : list string)
  (r : F) (sk : ghw_sk C) : Prop :=
  log2 L (gsk_k sk) = log2 L (gmsk_g2al msk) + log2 L (gpk_g2a pk) * r /\
  log2 L (gsk_l sk) = log2 L (gpk_g2 pk) * r /\
  Forall2 (fun a d => fst d = a /\
     exists h, hash C a = Some h /\ log2 L (snd d) = log2 L (gpk_g2 pk) * h * r)
    attrs (gsk_attr sk).

Lemma ghw_keygen_ok pk msk attrs t i sk j :
  ghw_keygen pk msk attrs t i = Ok (Some sk, j) -> ghw_key_ok pk msk attrs (t i) sk.
Proof.
  unfold ghw_keygen. destruct attrs as [|a0 at0]; [discriminate|].
  set (attrs := a0 :: at0). clearbody attrs. intros H.
  apply rbind_Ok in H as (r & i1 & Hr & H). injection Hr as <- <-.
  apply rbind_Ok in H as (kx & i3 & Hd & H). apply rlift_Ok in Hd as [Hd <-].
  apply rret_Ok in H as [H _]. injection H as <-.
  unfold ghw_key_ok. cbn. split; [logs; ring|]. split; [logs; ring|].
  apply omap_Forall2 in Hd. eapply Forall2_impl; [|exact Hd].
  intros a d Hx. unfold sha3_hash_g2 in Hx.
  destruct (hash C a) as [h|] eqn:Ea; [|discriminate]. injection Hx as <-.
  cbn. split; [reflexivity|]. exists h. split; [reflexivity|]. logs. ring.
Qed.

Definition ghw_tk_ok (sk : ghw_sk C) (z : F) (tk : ghw_tk C) : Prop :=
  z <> 0 /\ log2 L (gtk_k tk) = log2 L (gsk_k sk) * finv C z /\
  log2 L (gtk_l tk) = log2 L (gsk_l sk) * finv C z /\
  gtk_attr tk = map (fun k => (fst k, g2mul C (snd k) (finv C z))) (gsk_attr sk).

Lemma ghw_tkgen_ok sk t i tk z j : ghw_tkgen sk t i = Ok ((tk, z), j) -> ghw_tk_ok sk z tk.
Proof.
  unfold ghw_tkgen, rbind, draw, rlift, rret.
  destruct (finv_opt (t i)) as [b|] eqn:E; cbn; [|discriminate].
  intros H. injection H as <- <- _. apply (finv_opt_Some L) in E as [N ->].
  unfold ghw_tk_ok. cbn. repeat split; logs; auto.
Qed.

Lemma ghw_encrypt_inv nonce pk pol lang data t i ct j f :
  parse pol lang = Ok (tree f) ->
  ghw_encrypt nonce pk pol lang data t i = Ok (ct, j) ->
  exists s msg i',
    gct_policy ct = (pol, lang) /\
    log1 L (gct_c1 ct) = log1 L (gpk_g1 pk) * s /\
    logT L (gct_c ct) = logT L (gpk_egg pk) * s + logT L msg /\
    encrypt_symmetric nonce msg data = Ok (gct_data ct) /\
    Forall2 (fun x y => fst y = fst x /\
       exists h ti, hash C (remove_index (fst x)) = Some h /\
         log1 L (fst (snd y)) = log1 L (gpk_g1a pk) * snd x - log1 L (gpk_g1 pk) * h * ti /\
         log1 L (snd (snd y)) = log1 L (gpk_g1 pk) * ti)
      (gsh f s t i') (gct_cidi ct).
Proof.
  intros P H. unfold ghw_encrypt in H.
  apply rbind_Ok in H as (s & i1 & Hs & H). injection Hs as <- <-.
  apply rbind_Ok in H as (msg & i2 & Hm & H).
  apply rbind_Ok in H as (v & i3 & Hv & H). apply rlift_Ok in Hv as [Hv <-].
  rewrite P in Hv. injection Hv as <-.
  apply rbind_Ok in H as (sh & i4 & Hsh & H). rewrite (gen_shares_policy_eq L) in Hsh.
  injection Hsh as <- <-.
  apply rbind_Ok in H as (cy & i5 & Hcy & H).
  apply rbind_Ok in H as (d & i6 & Hd & H). apply rlift_Ok in Hd as [Hd <-].
  apply rret_Ok in H as [<- _]. cbn.
  exists (t i), msg, i2. repeat split; logs; auto.
  apply rmap_Forall2 in Hcy. eapply Forall2_impl; [|exact Hcy].
  intros [n x] y (a & b & Hy). cbn [fst snd] in *.
  apply rbind_Ok in Hy as (ti & i7 & Ht & Hy). injection Ht as <- <-.
  apply rbind_Ok in Hy as (hh & i8 & Hh & Hy). apply rlift_Ok in Hh as [Hh <-].
  apply rret_Ok in Hy as [<- _]. unfold sha3_hash_g1 in Hh.
  destruct (hash C (remove_index n)) as [h|]; [|discriminate].
  cbn in Hh. injection Hh as <-. cbn. split; [reflexivity|].
  exists h, (t a). repeat split; logs; ring.
Qed.

Theorem ghw_decrypt_ok nonce pk msk a al attrs r sk z tk pol lang data t i ct j f :
  ghw_keys pk msk a al -> ghw_key_ok pk msk attrs r sk -> ghw_tk_ok sk z tk ->
  parse pol lang = Ok (tree f) ->
  ghw_encrypt nonce pk pol lang data t i = Ok (ct, j) ->
  String.length nonce = 12%nat ->
  arity2 f = true -> NoDup (leaves f) -> plain_names f = true -> small_ok C (and_width f) ->
  sat (owns attrs) f = true ->
  exists tct, ghw_transform ct tk = Ok tct /\ ghw_decrypt_out tct z (gct_data ct) = Ok data.
Proof.
  intros (Ka1 & Ka2 & Kal & Ke) (Kk & Kl & Kx) (Nz & Tk & Tl & Tx) P En Ln A ND PN SO S.
  destruct (ghw_encrypt_inv _ _ _ _ _ _ _ _ _ _ P En) as (s & msg & i' & E1 & E2 & E3 & E4 & E5).
  assert (Tx' : Forall2 (fun a d => fst d = a /\
     exists h, hash C a = Some h /\ log2 L (snd d) = log2 L (gpk_g2 pk) * h * r * finv C z)
     attrs (gtk_attr tk)).
  { rewrite Tx. clear - Kx. induction Kx as [|a d attrs ds (E & h & Hh & D) _ IH]; cbn; constructor; auto.
    cbn. split; [exact E|]. exists h. split; [exact Hh|]. logs. now rewrite D. }
  assert (Nm : map fst (gtk_attr tk) = attrs).
  { clear - Tx'. induction Tx' as [|a d attrs ds (E & _) _ IH]; cbn; congruence. }
  unfold ghw_transform. rewrite E1. cbn [fst snd]. rewrite P. cbn [obind].
  rewrite Nm, traverse_tree, S.
  pose proof (owns_nonempty _ _ S A) as NE.
  assert (E : (0 <? length attrs)%nat = true) by (destruct attrs; [congruence|reflexivity]).
  rewrite E. cbn [andb]. rewrite calc_pruned_tree by exact A. rewrite S. cbn [obind fst snd].
  rewrite (calc_coefficients_eq L). cbn [obind unwrap app].
  set (pr := map leaf_pair (sel (pmask (owns attrs) f) (leaves f))).
  assert (X : forall l, incl l pr -> forall st, exists st',
    ofold (ghw_step tk ct (gco f 1)) l st = Ok st' /\
    logT L (snd st') + log1 L (fst st') * log2 L (gtk_l tk) =
    logT L (snd st) + log1 L (fst st) * log2 L (gtk_l tk) +
    log1 L (gpk_g1 pk) * log2 L (gpk_g2 pk) * a * r * finv C z *
      fsum (map (fun x => oval (assoc (snd x) (gco f 1)) * oval (assoc (snd x) (gsh f s t i'))) l)).
  { induction l as [|x l IH]; intros Hi st.
    - exists st. cbn. split; [reflexivity|]. ring.
    - assert (Ix : In x pr) by (apply Hi; now left).
      destruct (pruned_leaf _ _ _ Ix) as (n & p & -> & Il & Io).
      destruct (share_of_leaf f n p s t i' Il) as (sh & Esh).
      destruct (coeff_of_leaf (C := C) f n p 1 Il) as (co & Eco).
      destruct (find_assoc _ _ _ _ _ E5 _ Esh) as (cd & Fc & h & ti & Hh & C1 & C2).
      unfold owns in Io. apply smem_In in Io.
      destruct (find_key _ _ _ _ _ Tx' Io) as (ka & Fk & _ & h' & Hh' & D1).
      cbn [fst snd] in *. rewrite remove_index_leaf in Hh by (eapply plain_leaf; eauto).
      rewrite Hh in Hh'. injection Hh' as <-.
      cbn [ofold]. unfold ghw_step at 1. cbn [fst snd].
      rewrite (find_assoc_id _ _ _ Eco), Fk, Fc. cbn [unwrap obind fst snd].
      destruct (IH (fun y Hy => Hi y (or_intror Hy))
        (g1add C (fst st) (g1mul C (fst (snd cd)) co),
         gtmul C (snd st) (pairing C (g1mul C (snd (snd cd)) co) (snd ka)))) as (st' & Es & V).
      exists st'. split; [exact Es|]. rewrite V. cbn [fst snd map fsum]. logs.
      rewrite Eco, Esh. cbn [oval]. rewrite C1, C2, D1, Tl, Kl, Ka1. ring. }
  destruct (X pr (incl_refl _) (g1zero C, gtone C)) as (st' & Es & V).
  unfold pr in V. rewrite (reconstruct_lookup L) in V by assumption. fold pr in V.
  rewrite Es. cbn [obind]. eexists. split; [reflexivity|].
  unfold ghw_decrypt_out. cbn [gtct_c gtct_t].
  apply (symmetric_roundtrip L nonce); [exact Ln|].
  rewrite <- E4. f_equal. apply (logT_inj L). logs. rewrite V. cbn [fst snd]. logs.
  rewrite E3, E2, Tk, Kk, Ka2, Kal, Ke. field. exact Nz.
Qed.

Theorem ghw_correct nonce (pk : ghw_pk C) msk attrs sk tk z pol lang data ct f
    ts is js tk' ik jk tt it jt te ie je :
  ghw_setup ts is = Ok ((pk, msk), js) ->
  ghw_keygen pk msk attrs tk' ik = Ok (Some sk, jk) ->
  ghw_tkgen sk tt it = Ok ((tk, z), jt) ->
  ghw_encrypt nonce pk pol lang data te ie = Ok (ct, je) ->
  parse pol lang = Ok (tree f) ->
  String.length nonce = 12%nat ->
  arity2 f = true -> NoDup (leaves f) -> plain_names f = true -> small_ok C (and_width f) ->
  sat (owns attrs) f = true ->
  exists tct, ghw_transform ct tk = Ok tct /\ ghw_decrypt_out tct z (gct_data ct) = Ok data.
Proof.
  intros Hs Hk Ht He. intros. apply ghw_setup_keys in Hs as (a & al & Hs).
  apply ghw_keygen_ok in Hk. apply ghw_tkgen_ok in Ht.
  eapply ghw_decrypt_ok; eauto.
Qed.

(** ** Progress *)

Lemma ghw_setup_runs t i : exists (pk : ghw_pk C) (msk : ghw_msk C) j, ghw_setup t i = Ok ((pk, msk), j).
Proof.
  unfold ghw_setup, draw_g1, draw_g2, rbind, rret, draw. eexists _, _, _. reflexivity.
Qed.

Lemma ghw_keygen_runs (pk : ghw_pk C) msk attrs t i : attrs <> [] ->
  (forall a, In a attrs -> hash C a <> None) ->
  exists sk j, ghw_keygen pk msk attrs t i = Ok (Some sk, j).
Proof.
  intros NE H. unfold ghw_keygen. destruct attrs as [|a0 at0]; [congruence|].
  set (attrs := a0 :: at0) in *. clearbody attrs.
  erewrite rbind_run by reflexivity.
  match goal with |- context [omap ?f ?l] => destruct (omap_runs f l) as (r & E) end.
  - intros x Ix. specialize (H x Ix). unfold sha3_hash_g2. destruct (hash C x); [|congruence].
    cbn. eauto.
  - rewrite E. eexists _, _. reflexivity.
Qed.

Lemma ghw_tkgen_runs (sk : ghw_sk C) t i : t i <> 0 ->
  exists tk z j, ghw_tkgen sk t i = Ok ((tk, z), j).
Proof.
  intros N. unfold ghw_tkgen, rbind, draw, rlift. rewrite (finv_opt_neq L) by exact N.
  eexists _, _, _. reflexivity.
Qed.

Lemma ghw_encrypt_runs nonce (pk : ghw_pk C) pol lang data f t i :
  parse pol lang = Ok (tree f) -> (forall a, hash C a <> None) ->
  exists ct j, ghw_encrypt nonce pk pol lang data t i = Ok (ct, j).
Proof.
  intros P H. unfold ghw_encrypt. do 2 (erewrite rbind_run by reflexivity).
  rewrite P. erewrite rbind_run by reflexivity.
  erewrite rbind_run by apply (gen_shares_policy_eq L).
  match goal with |- context [rmap ?f ?l] => set (step := f); set (sh := l) end.
  destruct (rmap_runs step sh) with (t := t) (i := (S (S i) + nd f)%nat) as (r & j & E).
  - intros x t' i' _. unfold step, rbind, draw, rlift, rret, sha3_hash_g1.
    destruct (hash C (remove_index (fst x))) eqn:E; [cbn; eauto|now apply H in E].
  - erewrite rbind_run by exact E. eexists _, _. reflexivity.
Qed.

(** ** Rejection *)

Theorem ghw_reject (tk : ghw_tk C) ct f :
  parse (fst (gct_policy ct)) (snd (gct_policy ct)) = Ok (tree f) ->
  sat (owns (map fst (gtk_attr tk))) f = false ->
  ghw_transform ct tk = Err.
Proof.
  intros P S. unfold ghw_transform. rewrite P. cbn [obind].
  rewrite traverse_tree, S, andb_false_r. reflexivity.
Qed.

(** ** The attribute hash has a known discrete logarithm *)

Definition ghw_forge (sk : ghw_sk C) (ks : list string) : outcome (ghw_sk C) :=
  obind (omap (fun k => obind (unwrap (hash C k)) (fun h => Ok (k, g2mul C (gsk_l sk) h))) ks)
    (fun l => Ok (GhwSk (gsk_k sk) (gsk_l sk) l)).

Theorem ghw_forge_works (pk : ghw_pk C) msk attrs sk t i j ks :
  ghw_keygen pk msk attrs t i = Ok (Some sk, j) ->
  ks <> [] -> (forall k, In k ks -> hash C k <> None) ->
  exists sk', ghw_forge sk ks = Ok sk' /\ ghw_keygen pk msk ks t i = Ok (Some sk', j).
Proof.
  intros Hk NE Hh. unfold ghw_keygen in Hk |- *.
  destruct attrs as [|a0 at0]; [discriminate|].
  destruct ks as [|k0 ks0]; [congruence|]. set (ks := k0 :: ks0) in *. clearbody ks.
  apply rbind_Ok in Hk as (r & i1 & Hr & H). injection Hr as <- <-.
  apply rbind_Ok in H as (kx & i3 & Hd & H). apply rlift_Ok in Hd as [Hd <-].
  apply rret_Ok in H as [H <-]. injection H as <-.
  unfold ghw_forge. cbn [gsk_l gsk_k].
  assert (X : exists l,
    omap (fun k => obind (unwrap (hash C k)) (fun h => Ok (k, g2mul C (g2mul C (gpk_g2 pk) (t i)) h))) ks = Ok l /\
    omap (fun j => obind (unwrap_res (sha3_hash_g2 (gpk_g2 pk) j)) (fun h => Ok (j, g2mul C h (t i)))) ks = Ok l).
  { clear NE. induction ks as [|k ks IH]; [exists []; auto|].
    destruct IH as (l & E1 & E2); [intros; apply Hh; now right|].
    specialize (Hh k (or_introl eq_refl)). cbn [omap]. unfold sha3_hash_g2 at 1.
    destruct (hash C k) as [h|]; [|congruence]. cbn [unwrap unwrap_res obind].
    rewrite E1, E2. cbn [obind]. eexists. split; [reflexivity|]. do 3 f_equal.
    apply (log2_inj L). logs. ring. }
  destruct X as (l & E1 & E2). rewrite E1. cbn [obind]. eexists. split; [reflexivity|].
  erewrite rbind_run by reflexivity. rewrite E2. reflexivity.
Qed.

(** ** The transform key hides the payload key *)

Theorem ghw_outsource_hides (tk : ghw_tk C) (tct : ghw_tct C) (m : GT C) :
  gtct_t tct <> gtone C -> gtct_c tct <> m ->
  exists (z : F) (sk : ghw_sk C),
    ghw_tkgen sk (fun _ => z) 0%nat = Ok ((tk, z), 1%nat) /\
    forall data, ghw_decrypt_out tct z data = decrypt_symmetric m data.
Proof.
  intros Nt Nm.
  set (lt := logT L (gtct_t tct)). set (lc := logT L (gtct_c tct)). set (lm := logT L m).
  assert (Nlt : lt <> 0).
  { intros E. apply Nt. apply (logT_inj L). rewrite (logT_one L). exact E. }
  assert (Nz : (lc - lm) * finv C lt <> 0).
  { intros E. apply (f_mul_eq_0 L) in E as [E|E].
    - apply Nm. apply (logT_inj L). now apply (f_sub_eq_0 L).
    - apply (f_one_neq_zero L). transitivity (lt * finv C lt); [field; exact Nlt|]. rewrite E. ring. }
  set (z := (lc - lm) * finv C lt) in *.
  exists z, (GhwSk (g2mul C (gtk_k tk) z) (g2mul C (gtk_l tk) z)
               (map (fun k => (fst k, g2mul C (snd k) z)) (gtk_attr tk))).
  split.
  - unfold ghw_tkgen, rbind, draw, rlift. rewrite (finv_opt_neq L) by exact Nz.
    cbn. unfold rret. do 3 f_equal. destruct tk as [k l at']. cbn. f_equal.
    + apply (log2_inj L). logs. field. exact Nz.
    + apply (log2_inj L). logs. field. exact Nz.
    + rewrite map_map. cbn. induction at' as [|[n x] at' IH]; cbn; [reflexivity|].
      rewrite IH. do 2 f_equal. apply (log2_inj L). logs. field. exact Nz.
  - intros data. unfold ghw_decrypt_out. f_equal. apply (logT_inj L). logs.
    fold lt lc lm. unfold z. field. exact Nlt.
Qed.

End Ghw11Proofs.
