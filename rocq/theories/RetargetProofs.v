(** * RetargetProofs: a ciphertext made into one for another policy (C156) *)
From Coq Require Import String List Bool Arith Lia Field.
From Verif Require Import Base Crypto Policy Tools Sharing Parse Spec PolicyProofs Poly SharingProofs SchemeLib ParseProofs Symmetric Draws DrawsProofs
  ExactProofs Bsw BswProofs Ghw11 Ghw11Proofs Alternative AlternativeProofs Retarget.
Import ListNotations.

Section RetargetProofs.
Context {C : crypto} (L : laws C).
Local Open Scope F_scope.
Add Field retarget_field : (f_theory L).
Ltac logs := log_simpl L.

(** A weighted sum of scalars. *)
Definition dot (a w : list (F C)) : F C := fsum (map (fun p => fst p * snd p) (combine a w)).

Lemma dot_cons a l b m : dot (a :: l) (b :: m) = a * b + dot l m.
Proof. reflexivity. Qed.

Lemma total1_log l w : log1 L (total1 l w) = dot (map (log1 L) l) w.
Proof.
  unfold total1. revert w. induction l as [|x l IH]; intros [|y w]; cbn [map combine fold_right]; try (apply (log1_zero L)).
  rewrite dot_cons, <- IH. cbn [fst snd]. now rewrite (log1_add L), (log1_mul L).
Qed.

Lemma total2_log l w : log2 L (total2 l w) = dot (map (log2 L) l) w.
Proof.
  unfold total2. revert w. induction l as [|x l IH]; intros [|y w]; cbn [map combine fold_right]; try (apply (log2_zero L)).
  rewrite dot_cons, <- IH. cbn [fst snd]. now rewrite (log2_add L), (log2_mul L).
Qed.

(** Every policy has weights that give the secret. *)
Definition wts (m : list bool) (co : list (string * F C)) : list (F C) :=
  map (fun p : bool * (string * F C) => if fst p then snd (snd p) else 0) (combine m co).

Lemma wts_wsum m : forall co sh, length m = length co -> length co = length sh -> wsum m co sh = dot (map snd sh) (wts m co).
Proof.
  induction m as [|b m IH]; intros [|c co] [|s sh] H1 H2; try discriminate; [reflexivity|].
  cbn [length] in *. unfold wts. cbn [combine map]. rewrite dot_cons. fold (wts m co). rewrite <- IH by lia.
  unfold wsum. cbn [combine sel]. destruct b; cbn [map fsum fst snd]; ring.
Qed.

Lemma weighted f : arity2 f = true -> small_ok C (and_width f) ->
  exists w, length w = length (leaves f) /\ forall s t i, dot (map snd (gsh f s t i)) w = s.
Proof.
  intros A K. exists (wts (pmask (fun _ => true) f) (gco f 1)). split.
  - unfold wts. rewrite map_length, combine_length, pmask_length, (gco_length f). lia.
  - intros s t i. rewrite <- wts_wsum.
    + rewrite (reconstruct L f (fun _ => true) 1 s t i (and_width f) A (le_n _) K); [ring|]. apply sat_all_owned; auto.
    + now rewrite pmask_length, (gco_length f).
    + now rewrite (gco_length f), (gsh_len f).
Qed.

(** The shares of a secret are those of zero and the secret. *)
Lemma gsh_shift f : forall (s z : F C) t i, map snd (gsh f (s + z) t i) = map (fun x => s + x) (map snd (gsh f z t i)).
Proof.
  induction f as [n p|l IH|l IH] using formula_ind'; intros s z t i.
  - reflexivity.
  - rewrite !gsh_FAnd. generalize (map t (seq i (length l - 1))). intros r. generalize (i + (length l - 1))%nat. generalize 1%nat. clear i.
    induction IH as [|g l H _ IHl]; intros x i; [reflexivity|]. cbn [gsh_and]. rewrite !map_app. f_equal; [|apply IHl].
    rewrite <- H. f_equal. f_equal. cbn [ev]. ring.
  - rewrite !gsh_FOr. revert i. induction IH as [|g l H _ IHl]; intros i; [reflexivity|]. cbn [gsh_or]. rewrite !map_app. f_equal; [apply H|apply IHl].
Qed.

Lemma gsh_zero f s (a b : F C) d n : map (fun x : string * F C => (fst x, s + snd x)) (gsh f 0 d n) = gsh f s (after a b d) (2 + n).
Proof.
  assert (E : gsh f s (after a b d) (2 + n) = gsh f s d n) by (apply gsh_at; reflexivity).
  rewrite E. clear E. pose proof (gsh_shift f s 0 d n) as E. replace (s + 0) with s in E by ring.
  assert (M : map fst (gsh f s d n) = map fst (gsh f 0 d n)) by now rewrite !gsh_idents.
  revert E M. generalize (gsh f s d n) as l. generalize (gsh f 0 d n) as m. induction m as [|y m IH]; intros [|x l] E M; try discriminate; [reflexivity|].
  cbn in *. injection E as E1 E2. injection M as M1 M2. rewrite (IH _ E2 M2). f_equal. rewrite <- M1, <- E1. now destruct x.
Qed.

Lemma omap_map {A B D} (f : B -> outcome D) (g : A -> B) l : omap f (map g l) = omap (fun x => f (g x)) l.
Proof. induction l as [|x l IH]; [reflexivity|]. cbn. now rewrite IH. Qed.

Lemma omap_same {A B} (f g : A -> outcome B) l : (forall x, f x = g x) -> omap f l = omap g l.
Proof. intros H. induction l as [|x l IH]; [reflexivity|]. cbn. now rewrite H, IH. Qed.

Local Open Scope rand_scope.

(** ** BSW *)
Lemma bsw_dots (pk : bsw_pk C) : forall sh cy,
  omap (fun x => obind (unwrap_res (sha3_hash_g2 (bpk_g2 pk) (remove_index (fst x)))) (fun h =>
    Ok (BAttr (fst x) (g1mul C (bpk_g1 pk) (snd x)) (g2mul C h (snd x))))) sh = Ok cy ->
  forall w hs, map (fun x : string * F C => hash C (remove_index (fst x))) sh = map Some hs -> ~ In 0 hs -> length w = length sh ->
  log1 L (total1 (map b_g1 cy) w) = log1 L (bpk_g1 pk) * dot (map snd sh) w /\
  log2 L (total2 (map b_g2 cy) (map (fun p => fdiv C (fst p) (snd p)) (combine w hs))) = log2 L (bpk_g2 pk) * dot (map snd sh) w.
Proof.
  intros sh cy H w hs. rewrite total1_log, total2_log. revert cy H w hs.
  induction sh as [|x sh IH]; intros cy H [|y w] [|h hs] E N Lw; try discriminate; cbn in H.
  - injection H as <-. cbn. unfold dot. cbn. split; ring.
  - apply obind_Ok in H as (b & Hb & H). apply obind_Ok in H as (bs & Hbs & H). injection H as <-.
    cbn [map] in E. injection E as Eh E. cbn [length] in Lw.
    unfold sha3_hash_g2 in Hb. rewrite Eh in Hb. cbn in Hb. injection Hb as <-.
    assert (N' : ~ In 0 hs) by (intros K; apply N; now right).
    destruct (IH _ Hbs w hs E N' ltac:(lia)) as [I1 I2].
    cbn [map combine b_g1 b_g2 fst snd]. rewrite !dot_cons, I1, I2. logs. split; [ring|]. field. intros K. apply N. left. exact K.
Qed.

Lemma bsw_retargets pol lang f :
  parse pol lang = Ok (tree f) -> arity2 f = true -> small_ok C (and_width f) ->
  Forall (fun n => hash C (remove_index n) <> Some 0) (map fst (leaves f)) ->
  exists w1 w2 : list (F C), forall nonce pk pt t i ct j, bsw_encrypt nonce pk pol lang pt t i = Ok (ct, j) -> forall pol' lang' d,
    bsw_encrypt nonce pk pol' lang' pt (after (t i) (t (S i)) d) 0%nat =
      match bsw_retarget w1 w2 pk ct pol' lang' d 0%nat with Ok (c, k) => Ok (c, 2 + k)%nat | Err => Err | Panic => Panic end.
Proof.
  intros P A K N.
  destruct (weighted f A K) as (w & Lw & W).
  set (hs := map (fun n => match hash C (remove_index n) with Some h => h | None => 0 end) (map fst (leaves f))).
  exists w, (map (fun p => fdiv C (fst p) (snd p)) (combine w hs)).
  intros nonce pk pt t i ct j H pol' lang' d. unfold bsw_encrypt in H.
  apply rbind_Ok in H as (sec & i1 & D & H). unfold draw in D. injection D as <- <-.
  apply rbind_Ok in H as (msg & i2 & Dm & H). unfold draw_gt in Dm. apply rbind_Ok in Dm as (x & i3 & D & Dm).
  unfold draw in D. injection D as <- <-. apply rret_Ok in Dm as [<- <-].
  apply rbind_Ok in H as (v & i2 & D & H). apply rlift_Ok in D as [Ev <-]. rewrite P in Ev.
  assert (Ev' : v = tree f) by congruence. subst v. clear Ev.
  apply rbind_Ok in H as (sh & i2 & D & H). rewrite (gen_shares_policy_eq L) in D. apply ok_pair in D as [<- <-].
  apply rbind_Ok in H as (cy & i2 & D & H). apply rlift_Ok in D as [Ecy <-].
  apply rbind_Ok in H as (dat & i2 & D & H). apply rlift_Ok in D as [Ed <-]. apply rret_Ok in H as [<- <-].
  assert (Hh : map (fun x : string * F C => hash C (remove_index (fst x))) (gsh f (t i) t (S (S i))) = map Some hs).
  { rewrite <- (map_map (fun x : string * F C => remove_index (fst x)) (hash C)), gsh_removed. unfold hs.
    assert (T : forall n, In n (map fst (leaves f)) -> hash C (remove_index n) <> None).
    { intros n In' Q. assert (I2 : In (remove_index n) (map (fun x : string * F C => remove_index (fst x)) (gsh f (t i) t (S (S i)))))
        by (rewrite gsh_removed; now apply in_map).
      apply in_map_iff in I2 as (x & Ex & Ix). revert Ecy Ix. generalize (gsh f (t i) t (S (S i))). clear - Q Ex. intros l. revert cy.
      induction l as [|y l IH]; intros cy E I; [destruct I|]. cbn in E. apply obind_Ok in E as (b & Hb & E). apply obind_Ok in E as (bs & Hbs & E).
      destruct I as [->|I]; [|exact (IH _ Hbs I)]. unfold sha3_hash_g2 in Hb. rewrite Ex, Q in Hb. discriminate Hb. }
    revert T. generalize (map fst (leaves f)). clear. intros l T. induction l as [|n l IH]; [reflexivity|]. cbn [map].
    rewrite IH by (intros m I; apply T; now right). f_equal. specialize (T n (or_introl eq_refl)). destruct (hash C (remove_index n)); [reflexivity|congruence]. }
  assert (N0 : ~ In 0 hs).
  { intros I. apply (in_map Some) in I. rewrite <- Hh in I.
    rewrite <- (map_map (fun x : string * F C => remove_index (fst x)) (hash C)), gsh_removed, map_map in I.
    apply in_map_iff in I as (n & E & I). rewrite Forall_forall in N. exact (N _ I E). }
  destruct (bsw_dots pk _ _ Ecy w hs Hh N0) as [U V]. { rewrite (gsh_len f). exact Lw. }
  rewrite W in U, V.
  unfold bsw_retarget, bsw_encrypt. cbn [bct_cy bct_c bct_cp bct_data].
  unfold rbind at 1, draw at 1. unfold rbind at 1, draw_gt at 1. unfold rbind at 1, draw at 1. unfold rret at 1.
  unfold rbind at 1, rlift at 1. unfold rbind at 4, rlift at 3.
  destruct (parse pol' lang') as [v| |] eqn:P'; [|reflexivity|reflexivity].
  destruct (parse_shape _ _ _ P') as (f' & -> & _).
  unfold rbind at 1. unfold rbind at 3. rewrite !(gen_shares_policy_eq L).
  change (after (t i) (t (S i)) d 0%nat) with (t i). change (after (t i) (t (S i)) d 1%nat) with (t (S i)).
  unfold rbind at 1, rlift at 1. unfold rbind at 2, rlift at 2.
  pose proof (gsh_zero f' (t i) (t i) (t (S i)) d 0%nat) as Z. change (2 + 0)%nat with 2%nat in Z. rewrite <- Z, omap_map. cbn [fst snd].
  set (u := total1 _ w) in *. set (z := total2 _ _) in *.
  rewrite (omap_same _ (fun x : string * F C =>
    obind (unwrap_res (sha3_hash_fr (remove_index (fst x)))) (fun h =>
    Ok (BAttr (fst x) (g1add C u (g1mul C (bpk_g1 pk) (snd x))) (g2mul C (g2add C z (g2mul C (bpk_g2 pk) (snd x))) h))))).
  - destruct (omap _ (gsh f' 0 d 0%nat)) as [r| |]; [|reflexivity|reflexivity]. unfold rbind, rlift. rewrite Ed. reflexivity.
  - intros y. unfold sha3_hash_g2, sha3_hash_fr. destruct (hash C (remove_index (fst y))) as [h|]; [|reflexivity]. cbn. f_equal. f_equal.
    + apply (log1_inj L). logs. rewrite U. ring.
    + apply (log2_inj L). logs. rewrite V. ring.
Qed.

(** ** GHW11 *)
Lemma ghw_dots (pk : ghw_pk C) : forall (sh : list (string * F C)) ts cd,
  omap (fun ax : (string * F C) * F C => obind (unwrap_res (sha3_hash_g1 (gpk_g1 pk) (remove_index (fst (fst ax))))) (fun h =>
    Ok (fst (fst ax), (g1add C (g1mul C (gpk_g1a pk) (snd (fst ax))) (g1mul C h (fopp C (snd ax))), g1mul C (gpk_g1 pk) (snd ax))))) (combine sh ts) = Ok cd ->
  forall w hs, map (fun x : string * F C => hash C (remove_index (fst x))) sh = map Some hs -> length w = length sh -> length ts = length sh ->
  log1 L (g1add C (total1 (map (fun x => fst (snd x)) cd) w) (total1 (map (fun x => snd (snd x)) cd) (map (fun p => fst p * snd p) (combine w hs)))) =
    log1 L (gpk_g1a pk) * dot (map snd sh) w.
Proof.
  intros sh ts cd H w hs. rewrite (log1_add L), !total1_log. revert ts cd H w hs.
  induction sh as [|x sh IH]; intros [|u ts] cd H [|y w] [|h hs] E Lw Lt; try discriminate; cbn in H.
  - injection H as <-. unfold dot. cbn. ring.
  - apply obind_Ok in H as (b & Hb & H). apply obind_Ok in H as (bs & Hbs & H). injection H as <-.
    cbn [map] in E. injection E as Eh E. cbn [length] in Lw, Lt.
    unfold sha3_hash_g1 in Hb. rewrite Eh in Hb. cbn in Hb. injection Hb as <-.
    pose proof (IH _ _ Hbs w hs E ltac:(lia) ltac:(lia)) as I.
    cbn [map combine fst snd]. rewrite !dot_cons. logs.
    match goal with |- ?a * y + ?p + (?b * (y * h) + ?q) = _ => transitivity (a * y + b * (y * h) + (p + q)); [ring|] end.
    rewrite I. ring.
Qed.

Lemma ghw_retargets pol lang f :
  parse pol lang = Ok (tree f) -> arity2 f = true -> small_ok C (and_width f) ->
  exists w1 w2 : list (F C), forall nonce pk pt t i ct j, ghw_encrypt nonce pk pol lang pt t i = Ok (ct, j) -> forall pol' lang' d,
    ghw_encrypt nonce pk pol' lang' pt (after (t i) (t (S i)) d) 0%nat =
      match ghw_retarget w1 w2 pk ct pol' lang' d 0%nat with Ok (c, k) => Ok (c, 2 + k)%nat | Err => Err | Panic => Panic end.
Proof.
  intros P A K.
  destruct (weighted f A K) as (w & Lw & W).
  set (hs := map (fun n => match hash C (remove_index n) with Some h => h | None => 0 end) (map fst (leaves f))).
  exists w, (map (fun p => fst p * snd p) (combine w hs)).
  intros nonce pk pt t i ct j H pol' lang' d. unfold ghw_encrypt in H.
  apply rbind_Ok in H as (sec & i1 & D & H). unfold draw in D. injection D as <- <-.
  apply rbind_Ok in H as (msg & i2 & Dm & H). unfold draw_gt in Dm. apply rbind_Ok in Dm as (x & i3 & D & Dm).
  unfold draw in D. injection D as <- <-. apply rret_Ok in Dm as [<- <-].
  apply rbind_Ok in H as (v & i2 & D & H). apply rlift_Ok in D as [Ev <-]. rewrite P in Ev.
  assert (Ev' : v = tree f) by congruence. subst v. clear Ev.
  apply rbind_Ok in H as (sh & i2 & D & H). rewrite (gen_shares_policy_eq L) in D. apply ok_pair in D as [<- <-].
  apply rbind_Ok in H as (cd & i2 & Ecd & H).
  apply rbind_Ok in H as (dat & i4 & Dd & H). apply rlift_Ok in Dd as [Ed <-]. apply rret_Ok in H as [<- <-].
  rewrite (rmap_omap _ (fun (x : string * F C) t_i =>
      obind (unwrap_res (sha3_hash_g1 (gpk_g1 pk) (remove_index (fst x)))) (fun h =>
      Ok (fst x, (g1add C (g1mul C (gpk_g1a pk) (snd x)) (g1mul C h (fopp C t_i)), g1mul C (gpk_g1 pk) t_i))))) in Ecd
    by (intros a u k; unfold rbind, draw, rlift, rret; destruct (unwrap_res _); reflexivity).
  destruct (omap _ _) as [r| |] eqn:E; try discriminate. injection Ecd as -> _.
  assert (Hh : map (fun x : string * F C => hash C (remove_index (fst x))) (gsh f (t i) t (S (S i))) = map Some hs).
  { rewrite <- (map_map (fun x : string * F C => remove_index (fst x)) (hash C)), gsh_removed. unfold hs.
    assert (T : forall n, In n (map fst (leaves f)) -> hash C (remove_index n) <> None).
    { intros n In' Q. assert (I2 : In (remove_index n) (map (fun x : string * F C => remove_index (fst x)) (gsh f (t i) t (S (S i)))))
        by (rewrite gsh_removed; now apply in_map).
      apply in_map_iff in I2 as (x & Ex & Ix). revert E Ix.
      generalize (S (S i) + nd f)%nat. generalize (gsh f (t i) t (S (S i))). clear - Q Ex. intros l. revert cd.
      induction l as [|y l IH]; intros cd k E I; [destruct I|]. cbn in E. apply obind_Ok in E as (b & Hb & E). apply obind_Ok in E as (bs & Hbs & E).
      destruct I as [->|I]; [|exact (IH _ _ Hbs I)]. unfold sha3_hash_g1 in Hb. rewrite Ex, Q in Hb. discriminate Hb. }
    revert T. generalize (map fst (leaves f)). clear. intros l T. induction l as [|n l IH]; [reflexivity|]. cbn [map].
    rewrite IH by (intros m I; apply T; now right). f_equal. specialize (T n (or_introl eq_refl)). destruct (hash C (remove_index n)); [reflexivity|congruence]. }
  pose proof (ghw_dots pk _ _ _ E w hs Hh) as U. rewrite W in U. rewrite map_length, seq_length, (gsh_len f) in U. specialize (U Lw eq_refl).
  unfold ghw_retarget. cbn [gct_cidi gct_c gct_c1 gct_data].
  set (u := g1add C _ (total1 _ _)) in *.
  unfold rbind at 1, rlift at 1.
  destruct (parse pol' lang') as [v| |] eqn:P';
    [|unfold ghw_encrypt, draw_gt, rbind, draw, rlift, rret; rewrite P'; reflexivity|unfold ghw_encrypt, draw_gt, rbind, draw, rlift, rret; rewrite P'; reflexivity].
  destruct (parse_shape _ _ _ P') as (f' & -> & _).
  unfold rbind at 1. rewrite (gen_shares_policy_eq L). unfold rbind at 1.
  rewrite (rmap_omap _ (fun (x : string * F C) t_i =>
      obind (unwrap_res (sha3_hash_fr (remove_index (fst x)))) (fun h =>
      Ok (fst x, (g1add C (g1add C u (g1mul C (gpk_g1a pk) (snd x))) (g1mul C (gpk_g1 pk) (fopp C (h * t_i))), g1mul C (gpk_g1 pk) t_i)))))
    by (intros a b k; unfold rbind, draw, rlift, rret; destruct (unwrap_res _); reflexivity).
  unfold ghw_encrypt.
  unfold rbind at 1, draw at 1. unfold rbind at 1, draw_gt at 1. unfold rbind at 1, draw at 1. unfold rret at 1.
  unfold rbind at 1, rlift at 1. rewrite P'. unfold rbind at 1. rewrite (gen_shares_policy_eq L).
  change (after (t i) (t (S i)) d 0%nat) with (t i). change (after (t i) (t (S i)) d 1%nat) with (t (S i)).
  unfold rbind at 1.
  rewrite (rmap_omap _ (fun (x : string * F C) t_i =>
      obind (unwrap_res (sha3_hash_g1 (gpk_g1 pk) (remove_index (fst x)))) (fun h =>
      Ok (fst x, (g1add C (g1mul C (gpk_g1a pk) (snd x)) (g1mul C h (fopp C t_i)), g1mul C (gpk_g1 pk) t_i)))))
    by (intros a b k; unfold rbind, draw, rlift, rret; destruct (unwrap_res _); reflexivity).
  rewrite !(gsh_len f').
  assert (M : map (after (t i) (t (S i)) d) (seq (2 + nd f') (length (leaves f'))) = map d (seq (0 + nd f') (length (leaves f'))))
    by (apply map_at; reflexivity).
  pose proof (gsh_zero f' (t i) (t i) (t (S i)) d 0%nat) as Z. change (2 + 0)%nat with 2%nat in Z. rewrite M, <- Z.
  assert (Cm : forall (g : string * F C -> string * F C) l (m : list (F C)), combine (map g l) m = map (fun p => (g (fst p), snd p)) (combine l m)).
  { intros g l. induction l as [|a l IHl]; intros [|b m]; cbn; [reflexivity..|]. now rewrite IHl. }
  rewrite Cm, omap_map. cbn [fst snd].
  rewrite (omap_same _ (fun ax : (string * F C) * F C =>
      obind (unwrap_res (sha3_hash_fr (remove_index (fst (fst ax))))) (fun h =>
      Ok (fst (fst ax), (g1add C (g1add C u (g1mul C (gpk_g1a pk) (snd (fst ax)))) (g1mul C (gpk_g1 pk) (fopp C (h * snd ax))), g1mul C (gpk_g1 pk) (snd ax)))))).
  - clear E. destruct (omap _ _) as [rr| |]; [|reflexivity|reflexivity]. unfold rbind, rlift. rewrite Ed. reflexivity.
  - intros y. unfold sha3_hash_g1, sha3_hash_fr. destruct (hash C (remove_index (fst (fst y)))) as [h|]; [|reflexivity]. cbn. f_equal. f_equal. f_equal.
    apply (log1_inj L). rewrite !(log1_add L), U, !(log1_mul L). ring.
Qed.

(** ** Whoever has a key for the other policy opens the ciphertext *)
Lemma bsw_retarget_opens pol lang f :
  parse pol lang = Ok (tree f) -> arity2 f = true -> small_ok C (and_width f) ->
  Forall (fun n => hash C (remove_index n) <> Some 0) (map fst (leaves f)) ->
  exists w1 w2 : list (F C), forall nonce (pk : bsw_pk C) msk attrs sk pt ct ts is js tk ik jk te ie je pol' lang' f' d,
    bsw_setup ts is = Ok (pk, msk, js) -> bsw_keygen pk msk attrs tk ik = Ok (Some sk, jk) ->
    bsw_encrypt nonce pk pol lang pt te ie = Ok (ct, je) ->
    parse pol' lang' = Ok (tree f') -> String.length nonce = 12%nat -> (forall s, hash C s <> None) ->
    arity2 f' = true -> NoDup (leaves f') -> plain_names f' = true -> small_ok C (and_width f') -> sat (owns attrs) f' = true ->
    exists ct' k, bsw_retarget w1 w2 pk ct pol' lang' d 0%nat = Ok (ct', k) /\ bsw_decrypt sk ct' = Ok pt.
Proof.
  intros P A K N. destruct (bsw_retargets pol lang f P A K N) as (w1 & w2 & W). exists w1, w2.
  intros nonce pk msk attrs sk pt ct ts is js tk ik jk te ie je pol' lang' f' d Hs Hk He P' Ln Ht A' Nd Pl K' S'.
  specialize (W _ _ _ _ _ _ _ He pol' lang' d).
  destruct (bsw_encrypt_runs L nonce pk pol' lang' pt f' (after (te ie) (te (S ie)) d) 0%nat P' Ht) as (ct' & k & He').
  rewrite He' in W. destruct (bsw_retarget w1 w2 pk ct pol' lang' d 0%nat) as [[c k']| |] eqn:R; [|discriminate|discriminate].
  injection W as -> _. exists c, k'. split; [reflexivity|].
  exact (bsw_correct L nonce pk msk attrs sk pol' lang' pt c f' _ _ _ _ _ _ _ _ _ Hs Hk He' P' Ln A' Nd Pl K' S').
Qed.

Lemma ghw_retarget_opens pol lang f :
  parse pol lang = Ok (tree f) -> arity2 f = true -> small_ok C (and_width f) ->
  exists w1 w2 : list (F C), forall nonce (pk : ghw_pk C) msk attrs sk tk z pt ct ts is js tg ik jk tt it jt te ie je pol' lang' f' d,
    ghw_setup ts is = Ok (pk, msk, js) -> ghw_keygen pk msk attrs tg ik = Ok (Some sk, jk) -> ghw_tkgen sk tt it = Ok ((tk, z), jt) ->
    ghw_encrypt nonce pk pol lang pt te ie = Ok (ct, je) ->
    parse pol' lang' = Ok (tree f') -> String.length nonce = 12%nat -> (forall s, hash C s <> None) ->
    arity2 f' = true -> NoDup (leaves f') -> plain_names f' = true -> small_ok C (and_width f') -> sat (owns attrs) f' = true ->
    exists ct' k tct, ghw_retarget w1 w2 pk ct pol' lang' d 0%nat = Ok (ct', k) /\
      ghw_transform ct' tk = Ok tct /\ ghw_decrypt_out tct z (gct_data ct') = Ok pt.
Proof.
  intros P A K. destruct (ghw_retargets pol lang f P A K) as (w1 & w2 & W). exists w1, w2.
  intros nonce pk msk attrs sk tk z pt ct ts is js tg ik jk tt it jt te ie je pol' lang' f' d Hs Hk Hz He P' Ln Ht A' Nd Pl K' S'.
  specialize (W _ _ _ _ _ _ _ He pol' lang' d).
  destruct (ghw_encrypt_runs L nonce pk pol' lang' pt f' (after (te ie) (te (S ie)) d) 0%nat P' Ht) as (ct' & k & He').
  rewrite He' in W. destruct (ghw_retarget w1 w2 pk ct pol' lang' d 0%nat) as [[c k']| |] eqn:R; [|discriminate|discriminate].
  injection W as -> _.
  destruct (ghw_correct L nonce pk msk attrs sk tk z pol' lang' pt c f' _ _ _ _ _ _ _ _ _ _ _ _ Hs Hk Hz He' P' Ln A' Nd Pl K' S') as (tct & T1 & T2).
  exists c, k', tct. auto.
Qed.
End RetargetProofs.
