(** * InsiderProofs: the holder of a fitting key opens with a combination *)
From Coq Require Import String Ascii List Bool Arith Lia Field.
From Verif Require Import Base Crypto Policy Tools Sharing Spec PolicyProofs Poly SharingProofs
  Symmetric Parse SchemeLib Dnf Bdabe Mke08 Bsw BswProofs Ghw11 Ghw11Proofs Lsw LswProofs Yct14 Yct14Proofs Msp MspProofs Ac17 Ac17Proofs Aw11
  EquationProofs AcEquationProofs RobustProofs Aw11Proofs ExactProofs Generic Views Insiders GenericProofs.
Import ListNotations.

Section InsiderProofs.
Context {C : crypto} (L : laws C).
Local Open Scope F_scope.
Add Field insider_field : (f_theory L).
Notation F := (F C).
Ltac logs := log_simpl L.

(** ** Weights of the shares *)

Lemma wsum_places (m : list bool) : forall (co sh : list (string * F)) (v : nat -> F),
  length co = length m -> length sh = length m ->
  (forall k x y, nth_error sh k = Some (x, y) -> v k = y) ->
  fsum (map (fun k => (if nth k m false then snd (nth k co (EmptyString, 0)) else 0) * v k) (seq 0 (length m))) =
  wsum m co sh.
Proof.
  unfold wsum. induction m as [|b m IH]; intros [|[n c] co] [|[q s] sh] v H1 H2 H; try discriminate; [reflexivity|].
  cbn [length seq map fsum nth sel combine]. rewrite <- seq_shift, map_map. cbn [nth].
  injection H1 as H1. injection H2 as H2.
  rewrite (IH co sh (fun k => v (S k)) H1 H2) by (intros k x y Hk; exact (H (S k) x y Hk)).
  rewrite (H 0%nat q s eq_refl). destruct b; cbn [map fsum fst snd]; ring.
Qed.

Lemma pmask_place own f k a : nth_error (map fst (leaves f)) k = Some a -> nth k (pmask own f) false = true -> own a = true.
Proof.
  intros H B. rewrite nth_error_map in H. destruct (nth_error (leaves f) k) as [[n p]|] eqn:E; [|discriminate].
  injection H as <-. apply (pmask_owned own f n p).
  assert (X : forall (m : list bool) (l : list (string * nat)) k x, nth_error l k = Some x -> nth k m false = true -> In x (sel m l)).
  { clear. induction m as [|b m IH]; intros [|y l] [|k] x Hx Hb; try discriminate; cbn in *.
    - injection Hx as <-. rewrite Hb. now left.
    - destruct b; [right|]; eauto. }
  eauto.
Qed.

Lemma weights own f : arity2 f = true -> small_ok C (and_width f) -> sat own f = true ->
  exists w : nat -> F,
  (forall k a, nth_error (map fst (leaves f)) k = Some a -> w k = 0 \/ own a = true) /\
  forall s t i (v : nat -> F), (forall k x y, nth_error (gsh f s t i) k = Some (x, y) -> v k = y) ->
    fsum (map (fun k => w k * v k) (seq 0 (length (leaves f)))) = s.
Proof.
  intros A W S. exists (fun k => if nth k (pmask own f) false then snd (nth k (gco f 1) (EmptyString, 0)) else 0). split.
  - intros k a Ha. destruct (nth k (pmask own f) false) eqn:E; [|now left]. right. now apply (pmask_place own f k).
  - intros s t i v H. rewrite <- (pmask_length own f).
    rewrite (wsum_places _ _ (gsh f s t i)); [|rewrite (gco_length f), (pmask_length own f); reflexivity|
      rewrite (gsh_length f), (pmask_length own f); reflexivity|exact H].
    rewrite (reconstruct L f own 1 s t i _ A (le_n _) W S). ring.
Qed.

(** The share at a place belongs to the leaf at that place. *)
Lemma share_place f s (t : nat -> F) i k : (k < length (leaves f))%nat ->
  exists a p y, nth_error (leaves f) k = Some (a, p) /\ nth_error (gsh f s t i) k = Some (node_index a p, y).
Proof.
  intros H. destruct (nth_error (leaves f) k) as [[a p]|] eqn:E; [|apply nth_error_None in E; lia].
  destruct (nth_error (gsh f s t i) k) as [[x y]|] eqn:E'; [|apply nth_error_None in E'; rewrite (gsh_length f) in E'; lia].
  exists a, p, y. split; [reflexivity|]. pose proof (gsh_idents f s t i) as I.
  apply (f_equal (fun l => nth_error l k)) in I. unfold idents in I. rewrite !nth_error_map, E, E' in I. cbn in I. injection I as ->. reflexivity.
Qed.

(** ** Products *)

Definition oneT : combT C := PowT (Pair One1 One2) 0.
Fixpoint prodT (g : nat -> combT C) (w : nat -> F) (ks : list nat) : combT C :=
  match ks with [] => oneT | k :: r => MulT (PowT (g k) (w k)) (prodT g w r) end.

Lemma prodT_log v g w ks : logT L (evalT v (prodT g w ks)) = fsum (map (fun k => w k * logT L (evalT v (g k))) ks).
Proof.
  induction ks as [|k ks IH]; cbn [prodT evalT map fsum eval1 eval2 oneT].
  - unfold oneT. cbn [evalT eval1 eval2]. logs. ring.
  - logs. rewrite IH. ring.
Qed.

Lemma nth_seen {A} (l : list A) k x d : nth_error l k = Some x -> nth k l d = x.
Proof. intros H. now apply nth_error_nth. Qed.

Lemma nth_tail {A} (l r : list A) n k x d : length l = n -> nth_error r k = Some x -> nth (n + k) (l ++ r) d = x.
Proof. intros <- H. rewrite app_nth2_plus. now apply nth_error_nth. Qed.

Lemma nth_front {A} (l r : list A) k x d : nth_error l k = Some x -> nth k (l ++ r) d = x.
Proof. intros H. rewrite app_nth1; [now apply nth_error_nth|]. apply nth_error_Some. congruence. Qed.

(** ** BSW *)

Theorem bsw_insider nonce pol lang data f attrs :
  parse pol lang = Ok (tree f) -> arity2 f = true -> plain_names f = true -> small_ok C (and_width f) ->
  sat (owns attrs) f = true ->
  exists e : combT C, forall (ts tk te : nat -> F) (pk : bsw_pk C) msk i sk j ct k,
  bsw_setup ts 0%nat = Ok (pk, msk, i) -> bsw_keygen pk msk attrs tk 0%nat = Ok (Some sk, j) ->
  bsw_encrypt nonce pk pol lang data te 0%nat = Ok (ct, k) ->
  evalT (both (bsw_view pk ct) (bsw_held sk)) e = payload (te 1%nat).
Proof.
  intros P A PN W S. destruct (weights _ f A W S) as (w & Ow & Sum).
  set (m := length (leaves f)) in *.
  set (q := fun k => place (nth k (map fst (leaves f)) EmptyString) attrs).
  exists (MulT (MulT (SeenT 1) (prodT (fun k => MulT (Pair (Seen1 (3 + k)) (Seen2 (3 + m + q k)))
      (InvT (Pair (Seen1 (3 + m + q k)) (Seen2 (2 + k))))) w (seq 0 m)))
    (InvT (Pair (Seen1 2) (Seen2 (2 + m))))).
  intros ts tk te pk msk i sk j ct k0 Hs Hk He.
  apply (bsw_setup_eq L) in Hs as (_ & _ & S1 & S2 & _ & S4 & _ & S6 & S7).
  apply (bsw_keygen_eq L) in Hk as (Nb & _ & K1 & K2 & K3).
  destruct (bsw_encrypt_eq L _ _ _ _ _ _ _ _ _ f P He) as (sh & mm & Em & D & _ & E1 & E2 & _ & E4 & E5).
  apply (dealt_unique (C := C)) in D as [-> _]. rewrite (gsh_length f) in E4. fold m in E4.
  apply (logT_inj L). rewrite (log_payload L). cbn [evalT eval1 eval2]. logs. rewrite prodT_log.
  unfold both, bsw_view, bsw_held. cbn [seen1 seen2 seenT app nth Nat.add].
  replace (nth m (map b_g2 (bct_cy ct) ++ bsk_d sk :: map b_g2 (bsk_dj sk)) (g2zero C)) with (bsk_d sk).
  2:{ rewrite app_nth2 by (rewrite map_length; lia). rewrite map_length, E4, Nat.sub_diag. reflexivity. }
  change (0 + 1)%nat with 1%nat in *. change (0 + 3)%nat with 3%nat in *.
  set (X := log1 L (bpk_g1 pk) * log2 L (bpk_g2 pk) * tk 0%nat).
  match goal with |- context [fsum (map ?h (seq 0 m))] => replace (fsum (map h (seq 0 m))) with (X * te 0%nat) end.
  - apply (f_equal (log2 L)) in K1. rewrite (log2_mul L) in K1. rewrite E1, E2, Em, S7, S4. logs.
    transitivity (te 1%nat + log1 L (bpk_g1 pk) * log2 L (bpk_g2 pk) * ts 3%nat * te 0%nat + X * te 0%nat
      - log1 L (bpk_g1 pk) * te 0%nat * (log2 L (bsk_d sk) * bmsk_beta msk)); [ring|].
    rewrite K1, S6. logs. unfold X. ring.
  - rewrite <- (Sum (te 0%nat) te 2%nat (fun k => snd (nth k (gsh f (te 0%nat) te 2%nat) (EmptyString, 0)))) at 1.
    2:{ intros k x y H. rewrite (nth_seen _ _ _ _ H). reflexivity. }
    rewrite <- (fsum_scale L). apply fsum_map_ext. intros k Hk. apply in_seq in Hk.
    destruct (share_place f (te 0%nat) te 2%nat k) as (a & p & y & Ha & Hy); [fold m; lia|].
    assert (Hn : nth_error (map fst (leaves f)) k = Some a) by (rewrite nth_error_map, Ha; reflexivity).
    destruct (Ow k a Hn) as [-> | Oa]; [ring|]. unfold owns in Oa. apply smem_In in Oa.
    rewrite (nth_seen _ _ _ _ Hy). cbn [snd].
    destruct (E5 k _ _ Hy) as (h & Hh & Ek). rewrite remove_index_leaf in Hh by (eapply plain_leaf; eauto using nth_error_In).
    assert (Qa : nth_error attrs (q k) = Some a).
    { unfold q. rewrite (nth_seen _ _ _ _ Hn). apply (find_place (fun x => x) a attrs attrs (map_id _) Oa). }
    destruct (K3 _ _ Qa) as (h' & Hh' & Kk). rewrite Hh in Hh'. injection Hh' as <-.
    apply (map_nth_error (@b_g1 C)) in Ek as Ek1. apply (map_nth_error (@b_g2 C)) in Ek as Ek2.
    apply (map_nth_error (@b_g1 C)) in Kk as Kk1. apply (map_nth_error (@b_g2 C)) in Kk as Kk2.
    cbn [evalT eval1 eval2 seen1 seen2 seenT app nth Nat.add]. rewrite <- ?(Nat.add_succ_r m (q k)).
    rewrite (nth_front _ _ _ _ _ Ek1), (nth_front _ _ _ _ _ Ek2).
    rewrite (nth_tail _ _ m _ _ _ (eq_trans (map_length _ _) E4) Kk1).
    rewrite (nth_tail _ (_ :: _) m (Datatypes.S (q k)) _ _ (eq_trans (map_length _ _) E4) Kk2).
    cbn [b_g1 b_g2]. logs. unfold X. ring.
Qed.

Lemma nth_chunk {A B} (h : A -> list B) c l : (forall x, In x l -> length (h x) = c) ->
  forall k x i y, nth_error l k = Some x -> nth_error (h x) i = Some y -> nth_error (flat_map h l) (k * c + i) = Some y.
Proof.
  intros H. induction l as [|a l IH]; intros [|k] x i y Hx Hy; try discriminate; cbn [flat_map Nat.mul].
  - injection Hx as ->. cbn [Nat.add]. rewrite nth_error_app1; [exact Hy|]. apply nth_error_Some. congruence.
  - rewrite nth_error_app2 by (rewrite (H a (or_introl eq_refl)); lia).
    rewrite (H a (or_introl eq_refl)). replace (c + k * c + i - c)%nat with (k * c + i)%nat by lia.
    apply (IH (fun z Hz => H z (or_intror Hz)) k x i y Hx Hy).
Qed.

Lemma chunk_length {A B} (h : A -> list B) c l : (forall x, In x l -> length (h x) = c) -> length (flat_map h l) = (length l * c)%nat.
Proof.
  induction l as [|a l IH]; intros H; [reflexivity|]. cbn [flat_map length Nat.mul].
  rewrite app_length, (H a (or_introl eq_refl)), IH; [reflexivity|]. intros x Hx. apply H. now right.
Qed.

(** The share that the weights are for. *)
Definition share_at f s (t : nat -> F) i k : F := snd (nth k (gsh f s t i) (EmptyString, 0)).

Lemma weighed (w : nat -> F) f s t i m (X : F) (g : nat -> F) :
  (forall s t i (v : nat -> F), (forall k x y, nth_error (gsh f s t i) k = Some (x, y) -> v k = y) ->
    fsum (map (fun k => w k * v k) (seq 0 m)) = s) ->
  (forall k, (k < m)%nat -> w k * g k = X * (w k * share_at f s t i k)) ->
  fsum (map (fun k => w k * g k) (seq 0 m)) = X * s.
Proof.
  intros Sum H. rewrite <- (Sum s t i (share_at f s t i)) at 1.
  - rewrite <- (fsum_scale L). apply fsum_map_ext. intros k Hk. apply in_seq in Hk. apply H. lia.
  - intros k x y Hk. unfold share_at. now rewrite (nth_seen _ _ _ _ Hk).
Qed.

(** ** GHW11 *)

Theorem ghw_insider nonce pol lang data f attrs :
  parse pol lang = Ok (tree f) -> arity2 f = true -> plain_names f = true -> small_ok C (and_width f) ->
  sat (owns attrs) f = true ->
  exists e : combT C, forall (ts tk te : nat -> F) (pk : ghw_pk C) msk i sk j ct k,
  ghw_setup ts 0%nat = Ok (pk, msk, i) -> ghw_keygen pk msk attrs tk 0%nat = Ok (Some sk, j) ->
  ghw_encrypt nonce pk pol lang data te 0%nat = Ok (ct, k) ->
  evalT (both (ghw_view pk ct []) (ghw_held sk)) e = payload (te 1%nat).
Proof.
  intros P A PN W S. destruct (weights _ f A W S) as (w & Ow & Sum).
  set (m := length (leaves f)) in *.
  set (q := fun k => place (nth k (map fst (leaves f)) EmptyString) attrs).
  exists (MulT (MulT (SeenT 1) (prodT (fun k => MulT (Pair (Seen1 (3 + (k * 2 + 0))) (Seen2 3))
      (Pair (Seen1 (3 + (k * 2 + 1))) (Seen2 (4 + q k)))) w (seq 0 m)))
    (InvT (Pair (Seen1 2) (Seen2 2)))).
  intros ts tk te pk msk i sk j ct k0 Hs Hk He.
  apply ghw_setup_eq in Hs as (_ & _ & S1 & S2 & S3 & S4 & S5 & S6).
  apply ghw_keygen_eq in Hk as (_ & K1 & K2 & K3 & K4).
  destruct (ghw_encrypt_eq L _ _ _ _ _ _ _ _ _ f P He) as (sh & i' & mm & Em & D & _ & _ & E1 & E2 & _ & E4 & E5).
  apply (dealt_unique (C := C)) in D as [-> _]. rewrite (gsh_length f) in E4. fold m in E4.
  change (0 + 1)%nat with 1%nat in *. change (0 + 2)%nat with 2%nat in *. change (0 + 3)%nat with 3%nat in *.
  apply (logT_inj L). rewrite (log_payload L). cbn [evalT eval1 eval2]. logs. rewrite prodT_log.
  unfold both, ghw_view, ghw_held. cbn [seen1 seen2 seenT app nth Nat.add flat_map].
  set (X := log1 L (gpk_g1 pk) * log2 L (gpk_g2 pk) * ts 2%nat * tk 0%nat).
  rewrite (weighed w f (te 0%nat) te 2%nat m X _ Sum).
  - rewrite E1, E2, Em, S6, K1, S5, S4. logs. unfold X. ring.
  - intros k Hk. destruct (share_place f (te 0%nat) te 2%nat k Hk) as (a & p & y & Ha & Hy).
    assert (Hn : nth_error (map fst (leaves f)) k = Some a) by (rewrite nth_error_map, Ha; reflexivity).
    destruct (Ow k a Hn) as [-> | Oa]; [ring|]. unfold owns in Oa. apply smem_In in Oa.
    unfold share_at. rewrite (nth_seen _ _ _ _ Hy). cbn [snd].
    destruct (E5 k _ _ Hy) as (h & Hh & Ek). rewrite remove_index_leaf in Hh by (eapply plain_leaf; eauto using nth_error_In).
    assert (Qa : nth_error attrs (q k) = Some a).
    { unfold q. rewrite (nth_seen _ _ _ _ Hn). apply (find_place (fun x => x) a attrs attrs (map_id _) Oa). }
    destruct (K4 _ _ Qa) as (h' & Hh' & Kk). rewrite Hh in Hh'. injection Hh' as <-.
    apply (map_nth_error snd) in Kk. cbn [snd] in Kk.
    pose proof (nth_chunk (fun x : string * (G1 C * G1 C) => [fst (snd x); snd (snd x)]) 2 (gct_cidi ct) (fun _ _ => eq_refl) k _ 0 _ Ek eq_refl) as Ek1.
    pose proof (nth_chunk (fun x : string * (G1 C * G1 C) => [fst (snd x); snd (snd x)]) 2 (gct_cidi ct) (fun _ _ => eq_refl) k _ 1 _ Ek eq_refl) as Ek2.
    cbn [evalT eval1 eval2 seen1 seen2 seenT app nth Nat.add].
    rewrite (nth_front _ _ _ _ _ Ek1), (nth_front _ _ _ _ _ Ek2), (nth_seen _ _ _ _ Kk), K2.
    cbn [fst snd]. rewrite S3. logs. unfold X. ring.
Qed.

(** ** LSW *)

Theorem lsw_insider nonce pol lang data f attrs :
  parse pol lang = Ok (tree f) -> arity2 f = true -> plain_names f = true -> small_ok C (and_width f) ->
  sat (fun n => owns attrs n && negb (String.prefix "!" n)) f = true ->
  exists e : combT C, forall (ts tk te : nat -> F) (pk : lsw_pk C) msk i sk j ct k,
  lsw_setup ts 0%nat = Ok (pk, msk, i) -> lsw_keygen pk msk pol lang tk 0%nat = Ok (sk, j) ->
  lsw_encrypt nonce pk attrs data te 0%nat = Ok (ct, k) ->
  evalT (both (lsw_view pk ct) (lsw_held sk)) e = payload (te (S (length attrs))).
Proof.
  intros P A PN W S. destruct (weights _ f A W S) as (w & Ow & Sum).
  set (m := length (leaves f)) in *.
  set (q := fun k => place (nth k (map fst (leaves f)) EmptyString) attrs).
  exists (MulT (SeenT 1) (InvT (prodT (fun k => MulT (Pair (Seen1 (4 + (length attrs * 3 + k))) (Seen2 1))
      (InvT (Pair (Seen1 (4 + (q k * 3 + 0))) (Seen2 (2 + k))))) w (seq 0 m)))).
  intros ts tk te pk msk i sk j ct k0 Hs Hk He.
  apply (lsw_setup_eq L) in Hs as (_ & S1 & S2 & S3 & _ & _ & _ & _ & _ & _ & _ & S8).
  destruct (lsw_keygen_eq L _ _ _ _ _ _ _ _ f P Hk) as (sh & i' & D & _ & _ & K3 & K4).
  apply (dealt_unique (C := C)) in D as [-> _]. rewrite (gsh_length f) in K3. fold m in K3.
  destruct (lsw_encrypt_eq L _ _ _ _ _ _ _ _ He) as (mm & Em & _ & E1 & E2 & _ & E4 & E5).
  change (0 + 1 + length attrs)%nat with (Datatypes.S (length attrs)) in *. change (0 + 1)%nat with 1%nat in *.
  apply (logT_inj L). rewrite (log_payload L). cbn [evalT eval1 eval2]. logs. rewrite prodT_log.
  unfold both, lsw_view, lsw_held. cbn [seen1 seen2 seenT app nth Nat.add].
  set (X := log1 L (lpk_g1 pk) * log2 L (lpk_g2 pk) * lmsk_alpha2 msk * te 0%nat).
  rewrite (weighed w f (lmsk_alpha1 msk) tk 0%nat m X _ Sum).
  - rewrite E2, Em, S8, S1, S2. logs. unfold X. rewrite S2. ring.
  - intros k Hk'. destruct (share_place f (lmsk_alpha1 msk) tk 0%nat k Hk') as (a & p & y & Ha & Hy).
    assert (Hn : nth_error (map fst (leaves f)) k = Some a) by (rewrite nth_error_map, Ha; reflexivity).
    destruct (Ow k a Hn) as [-> | Oa]; [ring|]. apply andb_prop in Oa as [Oa Ng].
    unfold owns in Oa. apply smem_In in Oa. apply negb_true_iff in Ng.
    unfold share_at. rewrite (nth_seen _ _ _ _ Hy). cbn [snd].
    destruct (K4 k _ _ Hy) as (h & Hh & Kk). rewrite remove_index_leaf in Hh, Kk by (eapply plain_leaf; eauto using nth_error_In).
    rewrite Ng in Kk.
    assert (Qa : nth_error attrs (q k) = Some a).
    { unfold q. rewrite (nth_seen _ _ _ _ Hn). apply (find_place (fun x => x) a attrs attrs (map_id _) Oa). }
    destruct (E5 _ _ Qa) as (h' & Hh' & Ek). rewrite Hh in Hh'. injection Hh' as <-.
    apply (map_nth_error (@ld_1 C)) in Kk as Kk1. apply (map_nth_error (@ld_2 C)) in Kk as Kk2.
    cbn [ld_1 ld_2] in Kk1, Kk2.
    pose proof (nth_chunk (fun x : lsw_ej C => [le_1 x; le_2 x; le_3 x]) 3 (lct_ej ct) (fun _ _ => eq_refl) (q k) _ 0 _ Ek eq_refl) as Ek1.
    cbn [evalT eval1 eval2 seen1 seen2 seenT app nth Nat.add].
    rewrite (nth_front _ _ _ _ _ Ek1), (nth_seen _ _ _ _ Kk2), E1.
    rewrite (nth_tail _ _ (length attrs * 3) k (g1add C (g1mul C (lpk_g1 pk) (lmsk_alpha2 msk * y)) (g1mul C (g1mul C (lpk_g1 pk) h) (tk (i' + k)%nat)))).
    + cbn [le_1]. logs. unfold X. ring.
    + rewrite (chunk_length (fun x : lsw_ej C => [le_1 x; le_2 x; le_3 x]) 3 _ (fun _ _ => eq_refl)), E4. reflexivity.
    + rewrite nth_error_app1; [exact Kk1|]. apply nth_error_Some. congruence.
Qed.

(** ** YCT14 *)

Theorem yct_insider nonce U pol lang data f attrs :
  parse pol lang = Ok (tree f) -> arity2 f = true -> plain_names f = true -> small_ok C (and_width f) ->
  NoDup (names f) -> sat (owns attrs) f = true ->
  exists e : yct_sk C -> combT C, forall (ts tk te : nat -> F) (pk : yct_pk C) msk i sk j ct k,
  yct_setup U ts 0%nat = Ok (pk, msk, i) -> yct_keygen msk pol lang tk 0%nat = Ok (sk, j) ->
  yct_encrypt nonce pk attrs data te 0%nat = Ok (ct, k) ->
  evalT (yct_view pk ct) (e sk) = gtpow C (ypk_g pk) (te 0%nat).
Proof.
  intros P A PN W ND S. destruct (weights _ f A W S) as (w & Ow & Sum).
  set (m := length (leaves f)) in *.
  set (n := fun k => nth k (map fst (leaves f)) EmptyString).
  set (q := fun k => place (n k) attrs).
  exists (fun sk => prodT (fun k => PowT (SeenT (1 + (length U + q k)))
     (match sk_get_private sk (n k) with Ok x => x | _ => 0 end)) w (seq 0 m)).
  intros ts tk te pk msk i sk j ct k0 Hs Hk He.
  assert (LU : length (ypk_attrs pk) = length U) by (now apply yct_setup_eq in Hs).
  apply (yct_setup_keys L) in Hs as (G & Hs).
  destruct (yct_encrypt_inv L _ _ _ _ _ _ _ _ _ _ _ Hs He) as (NE & _ & _ & E1 & Nm & E2).
  destruct Hs as (Hg & _).
  apply (logT_inj L). rewrite prodT_log. logs. rewrite Hg.
  rewrite (weighed w f (ymsk_s msk) tk 0%nat m (G * te 0%nat) _ Sum); [ring|].
  intros k Hk'. destruct (share_place f (ymsk_s msk) tk 0%nat k Hk') as (a & p & y & Ha & Hy).
  assert (Hn : nth_error (map fst (leaves f)) k = Some a) by (rewrite nth_error_map, Ha; reflexivity).
  destruct (Ow k a Hn) as [-> | Oa]; [ring|]. unfold owns in Oa. apply smem_In in Oa.
  assert (En : n k = a) by (unfold n; now apply nth_seen).
  unfold share_at. rewrite (nth_seen _ _ _ _ Hy). cbn [snd].
  destruct (E2 a Oa) as (g & si & Fg & Fm & V1).
  destruct (yct_sk_get L f _ _ _ _ _ _ _ _ _ _ P Hk ND PN (nth_error_In _ _ Ha) Fm) as (Ns & Fs).
  rewrite En, Fs. cbn [evalT]. logs.
  destruct (find_place (@y_name C) a (yct_attrs ct) attrs Nm Oa) as (_ & z & Hz & Fz).
  unfold ct_get_public in Fg. rewrite Fz in Fg.
  apply (map_nth_error y_gt) in Hz. unfold q. rewrite En.
  unfold yct_view. cbn [seenT nth Nat.add].
  rewrite (nth_tail _ _ (length U) _ _ _ (eq_trans (map_length _ _) LU) Hz).
  assert (Hzg : y_gt z = g).
  { unfold y_gt. unfold node_public in Fg. destruct (y_node z) as [[v|v]|]; try discriminate. injection Fg as ->. reflexivity. }
  rewrite Hzg, V1.
  assert (Ey : assoc (node_index a p) (gsh f (ymsk_s msk) tk 0%nat) = Some y).
  { apply (nth_assoc _ k); [|exact Hy]. rewrite gsh_idents. apply NoDup_idents. eapply NoDup_map_inv. exact ND. }
  rewrite Ey. cbn [oval]. field. exact Ns.
Qed.

(** ** AC17 *)

Definition zero1 : comb1 C := Mul1 One1 0.

(** Component [l] of the rows called [n], if the rows have names [ns] and start at [off]. *)
Fixpoint row1 (off : nat) (ns : list string) (l : nat) (n : string) : comb1 C :=
  match ns with
  | [] => zero1
  | a :: r => Add1 (if seqb a n then Seen1 (off + l) else zero1) (row1 (off + 3) r l n)
  end.

Fixpoint pick1 (off : nat) (ns : list string) (l : nat) (sl : list (string * string)) : comb1 C :=
  match sl with [] => zero1 | x :: r => Add1 (row1 off ns l (fst x)) (pick1 off ns l r) end.

Lemma zero1_log v : log1 L (eval1 v zero1) = 0.
Proof. cbn. logs. ring. Qed.

Lemma row1_log v l n : (l < 3)%nat -> forall (es : list (string * list (G1 C))) pre post,
  Forall (fun e => length (snd e) = 3%nat) es -> seen1 v = (pre ++ concat (map snd es) ++ post)%list ->
  log1 L (eval1 v (row1 (length pre) (map fst es) l n)) = evl L es l n.
Proof.
  intros Hl. induction es as [|e es IH]; intros pre post H Hv; cbn [map row1 evl]; [apply zero1_log|].
  inversion H as [|? ? H1 H2]; subst. cbn [eval1]. logs. f_equal.
  - destruct (seqb (fst e) n); [|apply zero1_log]. cbn [eval1]. rewrite Hv. cbn [map concat].
    rewrite app_nth2_plus, <- app_assoc, app_nth1 by lia. reflexivity.
  - specialize (IH (pre ++ snd e)%list post H2). rewrite app_length, H1 in IH. apply IH.
    rewrite Hv. cbn [map concat]. now rewrite !app_assoc.
Qed.

Lemma pick1_log v l (es : list (string * list (G1 C))) pre post sl u : (l < 3)%nat ->
  Forall (fun e => length (snd e) = 3%nat) es -> seen1 v = (pre ++ concat (map snd es) ++ post)%list ->
  select_sum es l sl = Ok u -> eval1 v (pick1 (length pre) (map fst es) l sl) = u.
Proof.
  intros Hl H Hv E. apply (log1_inj L).
  destruct (select_sum_log L es l sl) as (u' & E' & V).
  { eapply Forall_impl; [|exact H]. intros e He. cbn in He. rewrite He. exact Hl. }
  rewrite E' in E. injection E as <-. rewrite V. clear - L H Hv Hl.
  induction sl as [|x sl IH]; cbn [pick1 map fsum]; [apply zero1_log|].
  cbn [eval1]. logs. rewrite IH, (row1_log v l _ Hl es pre post H Hv). reflexivity.
Qed.

Fixpoint prods (ts : list (combT C)) : combT C :=
  match ts with [] => oneT | t :: r => MulT t (prods r) end.

(** [prod1] and [prod2] of the decryption for [R] rows of the ciphertext. *)
Definition ac_comb (kp : bool) (cn kn : list string) (sl : list (string * string)) : combT C :=
  let R := (length cn * 3)%nat in
  MulT (SeenT 2) (MulT
    (prods (map (fun l => Pair (pick1 1 cn l sl) (Seen2 (6 + l))) [0; 1; 2]%nat))
    (InvT (prods (map (fun l => Pair
       (if kp then pick1 (1 + R) kn l sl else Add1 (Seen1 (1 + R + l)) (pick1 (1 + R + 3) kn l sl))
       (Seen2 (3 + l))) [0; 1; 2]%nat)))).

Lemma ac_comb_eval (pk : ac_pk C) (sk : ac_sk C) (ct : ac_ct C) (kp : bool) sl ps :
  length (apk_ha pk) = 3%nat -> length (apk_egh pk) = 2%nat ->
  length (act_c0 ct) = 3%nat -> length (ask_k0 sk) = 3%nat -> length (ask_kp sk) = (if kp then 0 else 3)%nat ->
  Forall (fun e : string * list (G1 C) => length (snd e) = 3%nat) (act_c ct) -> Forall (fun e : string * list (G1 C) => length (snd e) = 3%nat) (ask_k sk) ->
  ac_products sk ct kp sl = Ok ps ->
  evalT (both (ac_view pk ct) (ac_held sk)) (ac_comb kp (map fst (act_c ct)) (map fst (ask_k sk)) sl) =
  gtmul C (act_cp ct) (gtmul C (snd ps) (gtinv C (fst ps))).
Proof.
  intros Ha He Hc Hk Hp Fc Fk E.
  assert (Lc : length (concat (map snd (act_c ct))) = (length (map fst (act_c ct)) * 3)%nat).
  { rewrite map_length. clear - Fc. induction Fc as [|e l He _ IH]; [reflexivity|]. cbn [map concat length].
    rewrite app_length, He, IH. lia. }
  destruct (apk_ha pk) as [|h0 [|h1 [|h2 [|]]]] eqn:E1; try discriminate.
  destruct (apk_egh pk) as [|e0 [|e1 [|]]] eqn:E2; try discriminate.
  destruct (act_c0 ct) as [|c0 [|c1 [|c2 [|]]]] eqn:E3; try discriminate.
  destruct (ask_k0 sk) as [|k0 [|k1 [|k2 [|]]]] eqn:E4; try discriminate.
  set (v := both (ac_view pk ct) (ac_held sk)).
  assert (V2 : seen2 v = [h0; h1; h2; c0; c1; c2; k0; k1; k2]).
  { unfold v, both, ac_view, ac_held. cbn [seen2]. rewrite E1, E3, E4. reflexivity. }
  assert (VT : seenT v = [e0; e1; act_cp ct]).
  { unfold v, both, ac_view, ac_held. cbn [seenT]. rewrite E2. reflexivity. }
  assert (V1 : seen1 v = ([apk_g pk] ++ concat (map snd (act_c ct)) ++ ask_kp sk ++ concat (map snd (ask_k sk)))%list) by reflexivity.
  assert (V1' : seen1 v = ((apk_g pk :: concat (map snd (act_c ct)) ++ ask_kp sk) ++ concat (map snd (ask_k sk)) ++ [])%list).
  { rewrite V1. cbn [app]. now rewrite app_nil_r, app_assoc. }
  unfold ac_products, ls, asz in E. cbn [seq Nat.add ofold] in E. rewrite E3, E4 in E.
  assert (Y : forall l u, (l < 3)%nat -> select_sum (act_c ct) l sl = Ok u -> eval1 v (pick1 1 (map fst (act_c ct)) l sl) = u).
  { intros l u Hl Eu. exact (pick1_log v l _ [apk_g pk] _ sl u Hl Fc V1 Eu). }
  assert (Z : forall l u p, (l < 3)%nat -> select_sum (ask_k sk) l sl = Ok u ->
    (if kp then Ok u else obind (idx (ask_kp sk) l) (fun x => Ok (g1add C x u))) = Ok p ->
    eval1 v (if kp then pick1 (1 + length (map fst (act_c ct)) * 3) (map fst (ask_k sk)) l sl
      else Add1 (Seen1 (1 + length (map fst (act_c ct)) * 3 + l)) (pick1 (1 + length (map fst (act_c ct)) * 3 + 3) (map fst (ask_k sk)) l sl)) = p).
  { intros l u p Hl Eu Ep.
    pose proof (pick1_log v l _ _ _ sl u Hl Fk V1' Eu) as X. cbn [length] in X. rewrite app_length, Lc, Hp in X.
    destruct kp.
    - injection Ep as <-. rewrite Nat.add_0_r in X. exact X.
    - apply obind_Ok in Ep as (x & Ex & Ep). injection Ep as <-. cbn [eval1].
      replace (1 + length (map fst (act_c ct)) * 3 + 3)%nat with (S (length (map fst (act_c ct)) * 3 + 3)) by lia.
      rewrite X. f_equal. rewrite V1, <- Lc. apply idx_Ok in Ex. cbn [app].
      replace (1 + length (concat (map snd (act_c ct))) + l)%nat with (S (length (concat (map snd (act_c ct))) + l)) by lia.
      cbn [nth]. rewrite app_nth2_plus. now apply nth_front. }
  apply obind_Ok in E as (st0 & S0 & E). apply obind_Ok in E as (st1 & S1 & E). apply obind_Ok in E as (st2 & S2 & E).
  injection E as <-.
  apply obind_Ok in S0 as (g0 & G0 & S0). apply obind_Ok in S0 as (q0 & Q0 & S0). apply obind_Ok in S0 as (u0 & U0 & S0).
  apply obind_Ok in S1 as (g1 & G1 & S1). apply obind_Ok in S1 as (q1 & Q1 & S1). apply obind_Ok in S1 as (u1 & U1 & S1).
  apply obind_Ok in S2 as (g2 & G2 & S2). apply obind_Ok in S2 as (q2 & Q2 & S2). apply obind_Ok in S2 as (u2 & U2 & S2).
  cbn [idx nth_error unwrap obind] in S0, S1, S2. injection S0 as <-. injection S1 as <-. injection S2 as <-. cbn [fst snd].
  unfold ac_comb. cbn [map prods evalT eval2]. rewrite V2, VT. cbn [nth Nat.add].
  change (S (length (map fst (act_c ct)) * 3)) with (1 + length (map fst (act_c ct)) * 3)%nat.
  rewrite (Y 0%nat g0), (Y 1%nat g1), (Y 2%nat g2) by (auto; lia).
  pose proof (Z 0%nat q0 u0 ltac:(lia) Q0 U0) as Z0. pose proof (Z 1%nat q1 u1 ltac:(lia) Q1 U1) as Z1.
  pose proof (Z 2%nat q2 u2 ltac:(lia) Q2 U2) as Z2. cbn [Nat.add] in Z0, Z1, Z2 |- *.
  rewrite Z0, Z1, Z2. apply (logT_inj L). unfold oneT. cbn [evalT eval1 eval2]. logs. ring.
Qed.

Theorem cp_insider nonce pol lang data f attrs :
  parse pol lang = Ok (tree f) -> binary_and f = true -> NoDup (names f) -> NoDup attrs -> sat (owns attrs) f = true ->
  exists e : combT C, forall (ts tk te : nat -> F) (pk : ac_pk C) msk i sk j ct k,
  ac_setup ts 0%nat = Ok (pk, msk, i) -> cp_keygen msk attrs tk 0%nat = Ok (sk, j) ->
  cp_encrypt nonce pk pol data lang te 0%nat = Ok (ct, k) ->
  evalT (both (ac_view pk (acp_ct ct)) (ac_held (acps_sk sk))) e = payload (te 2%nat).
Proof.
  intros P B ND NA S.
  exists (ac_comb false (map fst (sort_rows (rev (msp_rows f)))) attrs (map leaf_pair (sel (pmask (owns attrs) f) (leaves f)))).
  intros ts tk te pk msk i sk j ct k Hs Hk He.
  destruct (cp_opens L _ _ _ _ _ _ _ _ _ _ _ _ _ _ _ _ _ _ _ Hs Hk He P B ND NA S) as (ps & Ep & Em & _).
  pose proof (proj1 (ac_setup_eq _ _ _ _ _) Hs) as (_ & Ek & _).
  apply ac_setup_keys in Hs as (a0 & a1 & b0 & b1 & k0 & k1 & k2 & K).
  destruct (cp_keygen_inv L _ _ _ _ _ _ _ _ _ _ _ _ _ _ K Hk)
    as (NE & N0 & N1 & x0 & x1 & x2 & sg & q0 & q1 & q2 & A1 & A2 & A3 & A4 & _).
  destruct (cp_encrypt_inv L _ _ _ _ _ _ _ _ _ _ _ _ _ _ _ _ _ _ K P B He)
    as (s0 & s1 & u0 & u1 & u2 & msg & E1 & E2 & U0 & U1 & U2 & E3 & _).
  replace (map fst (sort_rows (rev (msp_rows f)))) with (map fst (act_c (acp_ct ct))).
  2:{ clear - E3. induction E3 as [|r e R c (En & _) _ IH]; cbn; congruence. }
  replace attrs with (map fst (ask_k (acps_sk sk))) at 1.
  2:{ clear - A3. induction A3 as [|r e R c (En & _) _ IH]; cbn; congruence. }
  rewrite (ac_comb_eval pk (acps_sk sk) (acp_ct ct) false _ ps); auto.
  - rewrite Ek. reflexivity.
  - rewrite Ek. reflexivity.
  - rewrite E2. reflexivity.
  - rewrite A2. reflexivity.
  - rewrite A4. reflexivity.
  - clear - E3. induction E3 as [|r e R c (_ & Le & _) _ IH]; constructor; auto.
  - clear - A3. induction A3 as [|r e R c (_ & p0 & p1 & p2 & Le & _) _ IH]; constructor; auto. now rewrite Le.
Qed.

Theorem kp_insider nonce pol lang data f attrs :
  parse pol lang = Ok (tree f) -> binary_and f = true -> NoDup (names f) -> NoDup attrs -> sat (owns attrs) f = true ->
  exists e : combT C, forall (ts tk te : nat -> F) (pk : ac_pk C) msk i sk j ct k,
  ac_setup ts 0%nat = Ok (pk, msk, i) -> kp_keygen msk pol lang tk 0%nat = Ok (sk, j) ->
  kp_encrypt nonce pk attrs data te 0%nat = Ok (ct, k) ->
  evalT (both (ac_view pk (akp_ct ct)) (ac_held (akps_sk sk))) e = payload (te 2%nat).
Proof.
  intros P B ND NA S.
  exists (ac_comb true attrs (map fst (sort_rows (rev (msp_rows f)))) (map leaf_pair (sel (pmask (owns attrs) f) (leaves f)))).
  intros ts tk te pk msk i sk j ct k Hs Hk He.
  destruct (kp_opens L _ _ _ _ _ _ _ _ _ _ _ _ _ _ _ _ _ _ _ Hs Hk He P B ND NA S) as (ps & Ep & Em & _).
  pose proof (proj1 (ac_setup_eq _ _ _ _ _) Hs) as (_ & Ek & _).
  apply ac_setup_keys in Hs as (a0 & a1 & b0 & b1 & k0 & k1 & k2 & K).
  destruct (kp_keygen_eq L _ _ _ _ _ _ _ _ _ _ _ _ _ _ _ _ K P B Hk) as (_ & _ & _ & _ & _ & A4 & _).
  destruct (kp_keygen_inv L _ _ _ _ _ _ _ _ _ _ _ _ _ _ _ _ K P B Hk) as (x0 & x1 & x2 & sp & A1 & A2 & A3).
  destruct (kp_encrypt_inv L _ _ _ _ _ _ _ _ _ _ _ _ _ _ _ _ K He)
    as (s0 & s1 & u0 & u1 & u2 & msg & E1 & E2 & U0 & U1 & U2 & E3 & _).
  replace (map fst (sort_rows (rev (msp_rows f)))) with (map fst (ask_k (akps_sk sk))).
  2:{ clear - A3. induction A3 as [|r e R c (_ & _ & En & _) _ IH]; cbn; congruence. }
  replace attrs with (map fst (act_c (akp_ct ct))) at 1.
  2:{ clear - E3. induction E3 as [|r e R c (En & _) _ IH]; cbn; congruence. }
  rewrite (ac_comb_eval pk (akps_sk sk) (akp_ct ct) true _ ps); auto.
  - rewrite Ek. reflexivity.
  - rewrite Ek. reflexivity.
  - rewrite E2. reflexivity.
  - rewrite A2. reflexivity.
  - rewrite A4. reflexivity.
  - clear - E3. induction E3 as [|r e R c (_ & Le & _) _ IH]; constructor; auto.
  - clear - A3. induction A3 as [|r e R c (_ & _ & _ & p0 & p1 & p2 & sg & Le & _) _ IH]; constructor; auto. now rewrite Le.
Qed.

(** ** AW11 *)

Lemma concat_single {A} (es : list (list A)) (n : nat) : length es = n ->
  (forall k, (k < n)%nat -> exists x, nth_error es k = Some [x]) ->
  length (concat es) = n /\ forall k x, nth_error es k = Some [x] -> nth_error (concat es) k = Some x.
Proof.
  intros <-. induction es as [|l es IH]; intros H; [split; [reflexivity|intros [|]; discriminate]|].
  destruct (H 0%nat) as (x & Hx); [cbn; lia|]. injection Hx as ->.
  destruct IH as (I1 & I2). { intros k Hk. apply (H (S k)). cbn. lia. }
  cbn [concat app length]. split; [now rewrite I1|]. intros [|k] y Hy; cbn in *; [congruence|auto].
Qed.

Lemma aw_found (gk : aw_gk C) (As : list (list string * (aw_pk C * aw_msk C))) n :
  Forall (fun A => exists t i j, aw_authgen gk (fst A) t i = Ok (Some (snd A), j)) As ->
  In n (map (upper C) (flat_map fst As)) ->
  find_pk_attr (map (fun A => fst (snd A)) As) n <> None.
Proof.
  induction 1 as [|A As (t & i & j & HA) _ IH]; cbn [flat_map map find_pk_attr]; [contradiction|].
  destruct A as [aa [pA mA]]. cbn [fst snd] in *. intros I.
  destruct (aw_authgen_inv L _ _ _ _ _ _ _ HA) as (_ & Nm & Pr). pose proof (aw_find_pair L gk _ _ n Pr) as Q.
  destruct (find _ (apk_attr pA)) as [x|] eqn:E; [discriminate|]. apply IH.
  rewrite map_app in I. apply in_app_or in I as [I|I]; [exfalso|exact I].
  destruct (find _ (amsk_attr mA)) eqn:E'; [contradiction|]. rewrite <- Nm in I. apply in_map_iff in I as (m & <- & Im).
  apply (find_none _ _ E') in Im. rewrite seqb_refl in Im. discriminate.
Qed.

Lemma aw_offered (gk : aw_gk C) (As : list (list string * (aw_pk C * aw_msk C))) :
  Forall (fun A => exists t i j, aw_authgen gk (fst A) t i = Ok (Some (snd A), j)) As ->
  length (flat_map (@apk_attr C) (map (fun A => fst (snd A)) As)) = length (flat_map fst As).
Proof.
  induction 1 as [|A As (t & i & j & HA) _ IH]; [reflexivity|]. cbn [flat_map map]. rewrite !app_length, IH. f_equal.
  destruct A as [aa [pA mA]]. cbn [fst snd] in *.
  destruct (aw_authgen_inv L _ _ _ _ _ _ _ HA) as (_ & Nm & Pr). apply (f_equal (@length string)) in Nm.
  rewrite !map_length in Nm. rewrite <- Nm. symmetry. clear - Pr. induction Pr; cbn; congruence.
Qed.

Theorem aw_insider nonce pol lang data f (al : list (list string)) gid h attrs :
  parse pol lang = Ok (tree f) -> arity2 f = true -> plain_names f = true -> upper_names C f -> small_ok C (and_width f) ->
  hash C gid = Some h -> sat (owns attrs) f = true -> incl (names f) (map (upper C) (concat al)) ->
  exists (q : nat) (e : combT C), forall (te : nat -> F) (gk : aw_gk C) As issued sk ct k,
  map fst As = al -> Forall (fun A => exists t i j, aw_authgen gk (fst A) t i = Ok (Some (snd A), j)) As -> separate As ->
  (forall m a, In (m, a) issued -> exists A, In A As /\ m = snd (snd A)) -> map snd issued = attrs ->
  aw_issue gk gid issued = Ok sk ->
  aw_encrypt nonce gk (map (fun A => fst (snd A)) As) pol lang data te 0%nat = Ok (ct, k) ->
  evalT (both (aw_view gk (map (fun A => fst (snd A)) As) ct) (aw_held sk)) e = payload (te q) /\
  encrypt_symmetric nonce (payload (te q)) data = Ok (awct_data ct).
Proof.
  intros P A PN UN W Hh Sa Inc. destruct (weights _ f A W Sa) as (w & Ow & Sum).
  set (m := length (leaves f)) in *. set (N := length (concat al)).
  set (q := fun k => place (nth k (map fst (leaves f)) EmptyString) attrs).
  exists (1 + nd f + nd f)%nat, (MulT (SeenT (N + 0)) (InvT (prodT (fun k => MulT (MulT (SeenT (N + S k)) (Pair (Mul1 (Seen1 0) h) (Seen2 (1 + (N + (k * 2 + 1))))))
      (InvT (Pair (Seen1 (1 + q k)) (Seen2 (1 + (N + (k * 2 + 0))))))) w (seq 0 m)))).
  intros te gk As issued sk ct k0 EA FA Sep Own Ea Hk He.
  destruct (aw_encrypt_eq L _ _ _ _ _ _ _ _ _ _ f P He) as (sh & j1 & wsh & j2 & mm & es & Em & D1 & D2 & _ & _ & E0 & Es & Ec & Le & E5).
  apply (dealt_unique (C := C)) in D1 as [-> ->]. apply (dealt_unique (C := C)) in D2 as [-> ->].
  rewrite (gsh_length f) in Le. fold m in Le.
  change (0 + 1)%nat with 1%nat in *.
  split; [|rewrite <- Es, Em; reflexivity].
  set (pks := map (fun A => fst (snd A)) As) in *.
  assert (LN : length (flat_map (@apk_attr C) pks) = N).
  { unfold pks. rewrite (aw_offered gk As FA). unfold N. rewrite <- EA, <- flat_map_concat_map. reflexivity. }
  assert (Fd : forall a, In a (names f) -> find_pk_attr pks a <> None).
  { intros a Ia. apply (aw_found gk As a FA). rewrite flat_map_concat_map, EA. now apply Inc. }
  assert (One : forall k, (k < m)%nat -> exists a e0 a' e y w0 x, nth_error (map fst (leaves f)) k = Some a /\
     nth_error (gsh f (te 0%nat) te 1) k = Some (a', x) /\ nth_error (gsh f 0 te (1 + nd f)) k = Some (a', w0) /\
     find_pk_attr pks a = Some (e0, e, y) /\
     nth_error es k = Some [(upper C a', gtmul C (gtpow C (pairing C (agk_g1 gk) (agk_g2 gk)) x) (gtpow C e (te (1 + nd f + nd f + 1 + k)%nat)),
         g2mul C (agk_g2 gk) (te (1 + nd f + nd f + 1 + k)%nat),
         g2add C (g2mul C y (te (1 + nd f + nd f + 1 + k)%nat)) (g2mul C (agk_g2 gk) w0))]).
  { intros k Hl. destruct (share_place f (te 0%nat) te 1 k Hl) as (a & p & x & Ha & Hx).
    assert (Ia : In a (names f)) by (apply (in_map fst) in Ha || (apply nth_error_In in Ha; apply (in_map fst) in Ha); exact Ha).
    assert (Ra : remove_index (upper C (node_index a p)) = a).
    { rewrite (upper_node L), (UN a Ia). apply remove_index_leaf. eapply plain_leaf; eauto using nth_error_In. }
    destruct (E5 k _ _ Hx) as [(No & _)|(e0 & e & y & w0 & Fe & Hw & Hes)]; rewrite Ra in *.
    - exfalso. exact (Fd a Ia No).
    - exists a, e0, (node_index a p), e, y, w0, x. split; [rewrite nth_error_map, Ha; reflexivity|]. auto. }
  destruct (concat_single es m Le) as (Lc & Nc).
  { intros k Hl. destruct (One k Hl) as (a & e0 & a' & e & y & w0 & x & _ & _ & _ & _ & He'). eauto. }
  rewrite <- Ec in Lc, Nc.
  destruct (aw_issue_inv L _ _ _ _ Hk) as (G & _ & K). specialize (K h Hh).
  apply (logT_inj L). rewrite (log_payload L). cbn [evalT eval1 eval2]. logs. rewrite prodT_log.
  unfold both, aw_view, aw_held. cbn [seen1 seen2 seenT].
  set (X := log1 L (agk_g1 gk) * log2 L (agk_g2 gk)).
  match goal with |- context [fsum (map ?g (seq 0 m))] =>
    replace (fsum (map g (seq 0 m))) with
     (fsum (map (fun k => X * (w k * share_at f (te 0%nat) te 1 k) + X * h * (w k * share_at f 0 te (1 + nd f) k)) (seq 0 m))) end.
  - rewrite (fsum_add L (fun k => X * (w k * share_at f (te 0%nat) te 1 k)) (fun k => X * h * (w k * share_at f 0 te (1 + nd f) k))).
    rewrite !(fsum_scale L).
    rewrite (Sum (te 0%nat) te 1%nat (share_at f (te 0%nat) te 1)), (Sum 0 te (1 + nd f)%nat (share_at f 0 te (1 + nd f))).
    2,3: intros k x y Hx; unfold share_at; now rewrite (nth_seen _ _ _ _ Hx).
    rewrite app_nil_r. rewrite (nth_tail _ _ N 0 (awct_c0 ct)); [|rewrite map_length; exact LN|reflexivity].
    rewrite E0, Em. logs. unfold X. ring.
  - apply fsum_map_ext. intros k Hl. apply in_seq in Hl.
    destruct (One k) as (a & e0 & a' & e & y & w0 & x & Ha & Hx & Hw & Fp & Hes); [lia|].
    destruct (Ow k a Ha) as [-> | Oa]; [ring|].
    unfold share_at. rewrite (nth_seen _ _ _ _ Hx), (nth_seen _ _ _ _ Hw). cbn [snd].
    apply Nc in Hes.
    unfold owns in Oa. apply smem_In in Oa.
    assert (Qa : nth_error attrs (q k) = Some a).
    { unfold q. rewrite (nth_seen _ _ _ _ Ha). apply (find_place (fun x => x) a attrs attrs (map_id _) Oa). }
    assert (Ka : exists ke mk m0, nth_error (awsk_attr sk) (q k) = Some ke /\ In (mk, a) issued /\
       find (fun e => seqb (n3 e) a) (amsk_attr mk) = Some m0 /\
       log1 L (snd ke) = log1 L (agk_g1 gk) * (snd (fst m0) + h * snd m0)).
    { rewrite <- Ea, nth_error_map in Qa. destruct (nth_error issued (q k)) as [[mk a0]|] eqn:Ei; [|discriminate].
      injection Qa as ->. clear - K Ei. revert Ei. generalize (q k). induction K as [|x ke l es (m0 & Fm & _ & V) _ IH]; intros [|n] Ei; try discriminate.
      - injection Ei as ->. exists ke, mk, m0. cbn. auto.
      - destruct (IH n Ei) as (ke' & mk' & m' & H1 & H2 & H3). exists ke', mk', m'. cbn. auto. }
    destruct Ka as (ke & mk & m0 & Hke & Imk & Fm & Vk).
    destruct (Own mk a Imk) as (Au & IA & ->).
    destruct (find_pk_separate L gk As Au a m0 Sep IA FA Fm) as (p & Fp' & (_ & V1 & V2)).
    fold pks in Fp'. rewrite Fp in Fp'. injection Fp' as <-. cbn [fst snd] in V1, V2.
    pose proof (nth_chunk (fun x : string * GT C * G2 C * G2 C => [snd (fst x); snd x]) 2 (awct_c ct) (fun _ _ => eq_refl) k _ 0 _ Hes eq_refl) as H0.
    pose proof (nth_chunk (fun x : string * GT C * G2 C * G2 C => [snd (fst x); snd x]) 2 (awct_c ct) (fun _ _ => eq_refl) k _ 1 _ Hes eq_refl) as H1.
    pose proof (map_nth_error (fun x : string * GT C * G2 C * G2 C => snd (fst (fst x))) _ _ Hes) as HT.
    pose proof (map_nth_error snd _ _ Hke) as Hk'.
    cbn [evalT eval1 eval2 seen1 seen2 seenT app nth Nat.add]. rewrite !app_nil_r.
    rewrite (nth_tail _ (_ :: _) N (S k) _ _ (eq_trans (map_length _ _) LN) HT).
    rewrite (nth_tail _ _ N _ _ _ (eq_trans (map_length _ _) LN) H0), (nth_tail _ _ N _ _ _ (eq_trans (map_length _ _) LN) H1).
    rewrite (nth_seen _ _ _ _ Hk'). cbn [fst snd]. logs. rewrite Vk, V1, V2. unfold X. ring.
Qed.

End InsiderProofs.
