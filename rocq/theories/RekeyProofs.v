(** * RekeyProofs: an LSW key made into one for another policy (C157) *)
From Coq Require Import String List Bool Arith Lia Field.
From Verif Require Import Base Crypto Policy Tools Sharing Parse Spec PolicyProofs Poly SharingProofs SchemeLib ParseProofs Symmetric Draws DrawsProofs
  Lsw LswProofs Alternative AlternativeProofs Retarget RetargetProofs Rekey.
Import ListNotations.

Section RekeyProofs.
Context {C : crypto} (L : laws C).
Local Open Scope F_scope.
Add Field rekey_field : (f_theory L).
Ltac logs := log_simpl L.

(** The entry of a leaf and a draw. *)
Definition lsw_entry (pk : lsw_pk C) msk (x : string * F C) (random : F C) : outcome (lsw_dj C) :=
  let striped := remove_index (fst x) in
  obind (is_negative striped) (fun neg =>
  if neg : bool then
    obind (unwrap_res (sha3_hash_fr striped)) (fun share_hash =>
    Ok (LswDj striped (g1zero C) (g2zero C)
            (g1add C (g1mul C (lpk_g1 pk) (snd x)) (g1mul C (lpk_g1b2 pk) random))
            (g1add C (g1mul C (lpk_g1b pk) (fmul C share_hash random)) (g1mul C (lmsk_hg1 msk) random))
            (g1mul C (lpk_g1 pk) (fopp C random))))
  else
    obind (unwrap_res (sha3_hash_g1 (lpk_g1 pk) striped)) (fun share_hash =>
    Ok (LswDj striped
            (g1add C (g1mul C (lpk_g1 pk) (fmul C (lmsk_alpha2 msk) (snd x))) (g1mul C share_hash random))
            (g2mul C (lpk_g2 pk) random)
            (g1zero C) (g1zero C) (g1zero C)))).

Lemma lsw_keygen_run (pk : lsw_pk C) msk pol lang f t i : parse pol lang = Ok (tree f) ->
  lsw_keygen pk msk pol lang t i =
    match omap (fun ax => lsw_entry pk msk (fst ax) (snd ax))
      (combine (gsh f (lmsk_alpha1 msk) t i) (map t (seq (i + nd f) (length (leaves f))))) with
    | Ok dj => Ok (LswSk (pol, lang) dj, (i + nd f + length (leaves f))%nat) | Err => Err | Panic => Panic end.
Proof.
  intros P. unfold lsw_keygen. unfold rbind at 1, rlift at 1. rewrite P. unfold rbind at 1. rewrite (gen_shares_policy_eq L).
  unfold rbind at 1. rewrite (rmap_omap _ (lsw_entry pk msk)).
  - rewrite (gsh_len f). destruct (omap _ _); reflexivity.
  - intros a u k. unfold lsw_entry. cbv zeta. unfold rbind at 1, draw at 1. unfold rbind at 1, rlift at 1.
    destruct (is_negative _) as [[|]| |]; cbn [obind]; [| |reflexivity|reflexivity]; unfold rbind, rlift, rret; destruct (unwrap_res _); reflexivity.
Qed.

Lemma lsw_dots (pk : lsw_pk C) msk : forall (sh : list (string * F C)) ts dj,
  omap (fun ax => lsw_entry pk msk (fst ax) (snd ax)) (combine sh ts) = Ok dj -> length ts = length sh ->
  Forall (fun n => is_negative n = Ok false) (map (fun x => remove_index (fst x)) sh) ->
  forall w, length w = length sh -> exists R,
  log1 L (total1 (map ld_1 dj) w) = log1 L (lpk_g1 pk) * (lmsk_alpha2 msk * dot (map snd sh) w + R) /\
  log2 L (total2 (map ld_2 dj) (map (fun p => fst p * match hash C (snd p) with Some h => h | None => 0 end)
      (combine w (map (fun x => remove_index (fst x)) sh)))) = log2 L (lpk_g2 pk) * R.
Proof.
  intros sh ts dj H Lt N w Lw. rewrite total1_log, total2_log. revert ts dj H Lt N w Lw.
  induction sh as [|x sh IH]; intros [|u ts] dj H Lt N [|y w] Lw; try discriminate; cbn [combine omap] in H.
  - injection H as <-. exists 0. unfold dot. cbn. split; ring.
  - apply obind_Ok in H as (b & Hb & H). apply obind_Ok in H as (bs & Hbs & H). injection H as <-.
    cbn [length] in Lw, Lt. cbn [map] in N. apply Forall_cons_iff in N as [N1 N2].
    destruct (IH _ _ Hbs ltac:(lia) N2 w ltac:(lia)) as (R & I1 & I2).
    unfold lsw_entry in Hb. cbv zeta in Hb. cbn [fst snd] in Hb. rewrite N1 in Hb. cbn [obind] in Hb.
    unfold sha3_hash_g1 in Hb. destruct (hash C (remove_index (fst x))) as [h|] eqn:Eh; [|discriminate Hb]. cbn in Hb. injection Hb as <-.
    exists (h * u * y + R). cbn [map combine fst snd ld_1 ld_2]. rewrite !dot_cons, I1, I2, Eh. logs. split; ring.
Qed.

Lemma lsw_rekeys pol lang f :
  parse pol lang = Ok (tree f) -> arity2 f = true -> small_ok C (and_width f) ->
  Forall (fun n => is_negative (remove_index n) = Ok false) (names f) ->
  exists w1 w2 : list (F C), forall (pk : lsw_pk C) msk t i sk j, lsw_keygen pk msk pol lang t i = Ok (sk, j) ->
  forall pol' lang' n p h, parse pol' lang' = Ok (tree (FLeaf n p)) ->
    is_negative (remove_index n) = Ok false -> hash C (remove_index n) = Some h -> h <> 0 ->
  exists R, forall d k,
    lsw_keygen pk msk pol' lang' (fun m => R + d m) k = lsw_rekey w1 w2 pk sk (remove_index n) pol' lang' d k.
Proof.
  intros P A K N. destruct (weighted L f A K) as (w & Lw & W).
  exists w, (map (fun p => fst p * match hash C (snd p) with Some h => h | None => 0 end) (combine w (map remove_index (names f)))).
  intros pk msk t i sk j H pol' lang' n p h P' Ng Hh H0.
  rewrite (lsw_keygen_run _ _ _ _ _ _ _ P) in H. destruct (omap _ _) as [dj| |] eqn:E; try discriminate H. apply ok_pair in H as [<- _].
  destruct (lsw_dots pk msk _ _ _ E) with (w := w) as (R & U & V).
  - now rewrite map_length, seq_length, (gsh_len f).
  - rewrite gsh_removed. apply Forall_map. exact N.
  - now rewrite (gsh_len f).
  - rewrite W in U. rewrite gsh_removed in V.
    exists (fdiv C R h). intros d k. rewrite (lsw_keygen_run _ _ _ _ _ _ _ P').
    unfold lsw_rekey. cbn [lsk_dj].
    set (u := total1 _ w) in *. set (v := total2 _ _) in *.
    unfold rbind, draw, rlift, rret. unfold sha3_hash_fr. rewrite Hh. cbn [unwrap_res].
    pose proof (gsh_removed (C := C) (FLeaf n p) (lmsk_alpha1 msk) (fun m => fdiv C R h + d m) k) as Q.
    pose proof (gsh_len (FLeaf n p) (lmsk_alpha1 msk) (fun m => fdiv C R h + d m) k) as Q2.
    cbn in Q, Q2 |- *.
    unfold lsw_entry. cbn [fst snd]. injection Q as Q. rewrite ?Q. rewrite Ng. cbn [obind]. unfold sha3_hash_g1. rewrite Hh. cbn [unwrap_res obind].
    do 2 f_equal; [|lia]. f_equal. f_equal. f_equal.
    + apply (log1_inj L). logs. rewrite U, ?Nat.add_0_r. field. exact H0.
    + apply (log2_inj L). logs. rewrite V, ?Nat.add_0_r. field. exact H0.
Qed.

(** ** Any policy *)
(** The sharing is linear in the secret and the draws. *)
Lemma ev_scale (c x : F C) l : ev (map (fmul C c) l) x = c * ev l x.
Proof. induction l as [|a l IH]; cbn [map ev]; [ring|]. rewrite IH. ring. Qed.

Lemma gsh_scale (c : F C) f : forall s t i, map snd (gsh f (c * s) (fun m => c * t m) i) = map (fmul C c) (map snd (gsh f s t i)).
Proof.
  induction f as [n p|l IH|l IH] using formula_ind'; intros s t i.
  - reflexivity.
  - rewrite !gsh_FAnd.
    replace (c * s :: map (fun m => c * t m) (seq i (length l - 1))) with (map (fmul C c) (s :: map t (seq i (length l - 1))))
      by (cbn [map]; now rewrite map_map).
    generalize (s :: map t (seq i (length l - 1))). intros r. generalize (i + (length l - 1))%nat. generalize 1%nat. clear i.
    induction IH as [|g l H _ IHl]; intros x i; [reflexivity|]. cbn [gsh_and]. rewrite !map_app, <- IHl, <- H. f_equal. now rewrite ev_scale.
  - rewrite !gsh_FOr. revert i. induction IH as [|g l H _ IHl]; intros i; [reflexivity|]. cbn [gsh_or]. rewrite !map_app. f_equal; [apply H|apply IHl].
Qed.

(** The hash of a name, and the draws for the leaves. *)
Definition hv (n : string) : F C := match hash C n with Some h => h | None => 0 end.
Definition fit (n : string) : Prop := is_negative (remove_index n) = Ok false /\ exists h, hash C (remove_index n) = Some h /\ h <> 0.

Lemma rekey_entries (pk : lsw_pk C) msk u v R a :
  log1 L u = log1 L (lpk_g1 pk) * (a + R) -> log2 L v = log2 L (lpk_g2 pk) * R ->
  forall (sh' sh : list (string * F C)) ts' ts,
  map fst sh' = map fst sh -> map (fmul C (lmsk_alpha2 msk)) (map snd sh') = map (fun x => a + x) (map snd sh) ->
  ts' = map (fun p => fdiv C R (hv (remove_index (fst (fst p)))) + snd p) (combine sh ts) -> length ts = length sh ->
  Forall (fun n => is_negative n = Ok false /\ exists h, hash C n = Some h /\ h <> 0) (map (fun x => remove_index (fst x)) sh) ->
  omap (fun ax => lsw_entry pk msk (fst ax) (snd ax)) (combine sh' ts') =
  omap (fun ax : (string * F C) * F C => obind (unwrap_res (sha3_hash_fr (remove_index (fst (fst ax))))) (fun h =>
    Ok (LswDj (remove_index (fst (fst ax))) (g1add C (g1add C u (g1mul C (lpk_g1 pk) (snd (fst ax)))) (g1mul C (lpk_g1 pk) (fmul C h (snd ax))))
            (g2add C (g2mul C v (finv C h)) (g2mul C (lpk_g2 pk) (snd ax))) (g1zero C) (g1zero C) (g1zero C)))) (combine sh ts).
Proof.
  intros U V. induction sh' as [|[n' x'] sh' IH]; intros [|[n x] sh] ts' [|r ts] E1 E2 -> Lt N; try discriminate; [reflexivity|].
  cbn [map fst snd] in E1, E2, N. injection E1 as -> E1. injection E2 as Ex E2. apply Forall_cons_iff in N as [(Ng & h & Hh & H0) N].
  cbn [map combine omap fst snd]. rewrite (IH sh _ ts E1 E2 eq_refl ltac:(cbn in Lt; lia) N).
  unfold lsw_entry at 1. cbv zeta. cbn [fst snd]. rewrite Ng. cbn [obind]. unfold sha3_hash_g1, sha3_hash_fr, hv. rewrite Hh. cbn [unwrap_res obind].
  destruct (omap _ (combine sh ts)) as [rr| |]; cbn [obind]; [|reflexivity|reflexivity]. do 2 f_equal. f_equal.
  - apply (log1_inj L). logs. rewrite U, Ex. field. exact H0.
  - apply (log2_inj L). logs. rewrite V. field. exact H0.
Qed.

Lemma lsw_rekeys_tapes pol lang f :
  parse pol lang = Ok (tree f) -> arity2 f = true -> small_ok C (and_width f) ->
  Forall (fun n => is_negative (remove_index n) = Ok false) (names f) ->
  exists w1 w2 : list (F C), forall (pk : lsw_pk C) msk t i sk j, lsw_keygen pk msk pol lang t i = Ok (sk, j) ->
  exists R, forall pol' lang' f' d t' k, parse pol' lang' = Ok (tree f') -> Forall fit (names f') ->
    (forall m, (m < nd f')%nat -> d (k + m)%nat = lmsk_alpha2 msk * t' (k + m)%nat) ->
    (forall m n, nth_error (names f') m = Some n -> t' (k + nd f' + m)%nat = fdiv C R (hv (remove_index n)) + d (k + nd f' + m)%nat) ->
    lsw_keygen pk msk pol' lang' t' k = lsw_rekey_any w1 w2 pk sk pol' lang' d k.
Proof.
  intros P A K N. destruct (weighted L f A K) as (w & Lw & W).
  exists w, (map (fun p => fst p * match hash C (snd p) with Some h => h | None => 0 end) (combine w (map remove_index (names f)))).
  intros pk msk t i sk j H.
  rewrite (lsw_keygen_run _ _ _ _ _ _ _ P) in H. destruct (omap _ _) as [dj| |] eqn:E; try discriminate H. apply ok_pair in H as [<- _].
  destruct (lsw_dots pk msk _ _ _ E) with (w := w) as (R & U & V).
  - now rewrite map_length, seq_length, (gsh_len f).
  - rewrite gsh_removed. apply Forall_map. exact N.
  - now rewrite (gsh_len f).
  - rewrite W in U. rewrite gsh_removed in V. clear E.
    exists R. intros pol' lang' f' d t' k P' Fi D1 D2. rewrite (lsw_keygen_run _ _ _ _ _ _ _ P').
    unfold lsw_rekey_any. cbn [lsk_dj].
    set (u := total1 _ w) in *. set (v := total2 _ _) in *.
    unfold rbind at 1, rlift at 1. rewrite P'. unfold rbind at 1. rewrite (gen_shares_policy_eq L). unfold rbind at 1.
    rewrite (rmap_omap _ (fun (x : string * F C) r => obind (unwrap_res (sha3_hash_fr (remove_index (fst x)))) (fun h =>
      Ok (LswDj (remove_index (fst x)) (g1add C (g1add C u (g1mul C (lpk_g1 pk) (snd x))) (g1mul C (lpk_g1 pk) (fmul C h r)))
            (g2add C (g2mul C v (finv C h)) (g2mul C (lpk_g2 pk) r)) (g1zero C) (g1zero C) (g1zero C)))))
      by (intros a b m; unfold rbind, draw, rlift, rret; destruct (unwrap_res _); reflexivity).
    rewrite (gsh_len f').
    rewrite (rekey_entries pk msk u v R (lmsk_alpha2 msk * lmsk_alpha1 msk) U V _ (gsh f' 0 d k) _ (map d (seq (k + nd f') (length (leaves f'))))).
    + destruct (omap _ _); reflexivity.
    + now rewrite !gsh_idents.
    + rewrite <- gsh_scale, <- (gsh_shift L). replace (lmsk_alpha2 msk * lmsk_alpha1 msk + 0) with (lmsk_alpha2 msk * lmsk_alpha1 msk) by ring.
      apply (f_equal (map snd)). apply gsh_at. intros m Hm. symmetry. now apply D1.
    + pose proof (gsh_removed f' 0 d k) as Q. revert Q D2. rewrite <- (gsh_len f' 0 d k). generalize (gsh f' 0 d k) as l. generalize (k + nd f')%nat.
      unfold names. generalize (map fst (leaves f')) as ns. clear. intros ns q l. revert ns q.
      induction l as [|x l IH]; intros [|n ns] q Q D2; try discriminate; [reflexivity|]. cbn [map] in Q. injection Q as Q1 Q2.
      cbn [length seq map combine fst snd]. f_equal.
      * specialize (D2 0%nat n eq_refl). rewrite Nat.add_0_r in D2. now rewrite D2, Q1.
      * apply (IH ns (S q) Q2). intros m n' Hm. specialize (D2 (S m) n' Hm). now rewrite Nat.add_succ_r in D2.
    + now rewrite map_length, seq_length, (gsh_len f').
    + rewrite gsh_removed. apply Forall_map. exact Fi.
Qed.

(** Every choice of draws gives a key that key generation gives, and every such key arises. *)
Lemma lsw_rekeys_any pol lang f :
  parse pol lang = Ok (tree f) -> arity2 f = true -> small_ok C (and_width f) ->
  Forall (fun n => is_negative (remove_index n) = Ok false) (names f) ->
  exists w1 w2 : list (F C), forall (pk : lsw_pk C) msk t i sk j, lsw_keygen pk msk pol lang t i = Ok (sk, j) ->
  forall pol' lang' f', parse pol' lang' = Ok (tree f') -> Forall fit (names f') -> forall k,
    (lmsk_alpha2 msk <> 0 -> forall d, exists t', lsw_keygen pk msk pol' lang' t' k = lsw_rekey_any w1 w2 pk sk pol' lang' d k) /\
    (forall t', exists d, lsw_keygen pk msk pol' lang' t' k = lsw_rekey_any w1 w2 pk sk pol' lang' d k).
Proof.
  intros P A K N. destruct (lsw_rekeys_tapes pol lang f P A K N) as (w1 & w2 & W). exists w1, w2.
  intros pk msk t i sk j H pol' lang' f' P' Fi k. destruct (W _ _ _ _ _ _ H) as (R & T).
  set (sh := fun m => fdiv C R (hv (remove_index (nth (m - (k + nd f')) (names f') EmptyString)))).
  split.
  - intros A2 d. exists (fun m => if (m <? k + nd f')%nat then fdiv C (d m) (lmsk_alpha2 msk) else sh m + d m).
    apply (T _ _ f' _ _ _ P' Fi).
    + intros m Hm. replace (k + m <? k + nd f')%nat with true by (symmetry; apply Nat.ltb_lt; lia). field. exact A2.
    + intros m n Hm. replace (k + nd f' + m <? k + nd f')%nat with false by (symmetry; apply Nat.ltb_ge; lia).
      unfold sh. replace (k + nd f' + m - (k + nd f'))%nat with m by lia. now rewrite (nth_error_nth _ _ _ Hm).
  - intros t'. exists (fun m => if (m <? k + nd f')%nat then lmsk_alpha2 msk * t' m else t' m - sh m).
    apply (T _ _ f' _ _ _ P' Fi).
    + intros m Hm. now replace (k + m <? k + nd f')%nat with true by (symmetry; apply Nat.ltb_lt; lia).
    + intros m n Hm. replace (k + nd f' + m <? k + nd f')%nat with false by (symmetry; apply Nat.ltb_ge; lia).
      unfold sh. replace (k + nd f' + m - (k + nd f'))%nat with m by lia. rewrite (nth_error_nth _ _ _ Hm). ring.
Qed.

Lemma is_negative_ok n : is_negative n = Ok false -> negated n = false.
Proof. intros H. symmetry. now apply is_negative_Ok. Qed.

Lemma lsw_rekey_opens pol lang f :
  parse pol lang = Ok (tree f) -> arity2 f = true -> small_ok C (and_width f) ->
  Forall (fun n => is_negative (remove_index n) = Ok false) (names f) ->
  exists w1 w2 : list (F C), forall nonce (pk : lsw_pk C) msk attrs sk pt ct ts is js tk ik jk te ie je pol' lang' n p h d,
    lsw_setup ts is = Ok (pk, msk, js) -> lsw_keygen pk msk pol lang tk ik = Ok (sk, jk) ->
    lsw_encrypt nonce pk attrs pt te ie = Ok (ct, je) ->
    parse pol' lang' = Ok (tree (FLeaf n p)) -> String.length nonce = 12%nat -> In n attrs ->
    no_us n = true -> is_negative n = Ok false -> hash C n = Some h -> h <> 0 ->
    exists sk' k, lsw_rekey w1 w2 pk sk n pol' lang' d 0%nat = Ok (sk', k) /\ lsw_decrypt sk' ct = Ok pt.
Proof.
  intros P A K N. destruct (lsw_rekeys pol lang f P A K N) as (w1 & w2 & W). exists w1, w2.
  intros nonce pk msk attrs sk pt ct ts is js tk ik jk te ie je pol' lang' n p h d Hs Hk He P' Ln I Us Ng Hh H0.
  pose proof (remove_index_no_us _ Us) as Pl.
  destruct (W _ _ _ _ _ _ Hk pol' lang' n p h P') as (R & E); rewrite ?Pl; auto. rewrite Pl in E. specialize (E d 0%nat).
  destruct (lsw_rekey w1 w2 pk sk n pol' lang' d 0%nat) as [[sk' k]| |] eqn:Q.
  - exists sk', k. split; [reflexivity|].
    refine (lsw_correct L nonce pk msk attrs sk' pol' lang' pt ct (FLeaf n p) _ _ _ _ _ _ _ _ _ Hs E He P' Ln eq_refl _ _ _ _ _).
    + cbn. constructor; [intros []|constructor].
    + unfold plain_names. cbn. now rewrite Us.
    + cbn. now rewrite (is_negative_ok _ Ng).
    + cbn. intros m Hm. lia.
    + cbn. unfold owns. apply smem_In. exact I.
  - unfold lsw_rekey, rbind, draw, rlift, rret in Q. unfold sha3_hash_fr in Q. rewrite Hh in Q. discriminate Q.
  - unfold lsw_rekey, rbind, draw, rlift, rret in Q. unfold sha3_hash_fr in Q. rewrite Hh in Q. discriminate Q.
Qed.
End RekeyProofs.
