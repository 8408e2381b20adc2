(** * ChancesDnfProofs: the share of runs in which a combination opens, BDABE and MKE08 *)
From Coq Require Import String Ascii List Bool Arith Lia Field.
From Verif Require Import Base Crypto Policy Tools Spec PolicyProofs Poly Symmetric Parse SchemeLib Dnf DnfProofs
  Bdabe BdabeProofs Mke08 Mke08Proofs EquationProofs RobustProofs Generic Views GenericProofs GenericDnfProofs
  Draws DrawsProofs Chances ChancesProofs.
Import ListNotations.

Section ChancesDnf.
Context {C : crypto} (L : laws C).
Notation F := (F C).
Ltac logs := log_simpl L.
Add Field chances_dnf_field : (f_theory L).
Local Open Scope F_scope.

(** ** Terms of two lists of keys *)

Section Related.
Variables (Q : pak C -> pak C -> Prop) (R : term C -> term C -> Prop).
Hypothesis attr : forall p' p, Q p' p -> pak_attr p' = pak_attr p.
Hypothesis attrs : forall t' t, R t' t -> tm_attrs t' = tm_attrs t.
Hypothesis new : forall p' p, Q p' p -> R (new_term p') (new_term p).
Hypothesis merge : forall t' t p' p, R t' t -> Q p' p -> R (merge_term t' p') (merge_term t p).

Lemma update_rel p' p : Q p' p -> forall T' T, Forall2 R T' T -> forall i,
  Forall2 R (update_nth i (fun t => merge_term t p') T') (update_nth i (fun t => merge_term t p) T).
Proof.
  intros Hp T' T H. induction H as [|t' t T' T Ht H IH]; intros i; [destruct i; constructor|].
  destruct i as [|i]; cbn [update_nth]; constructor; auto.
Qed.

Lemma leaf_rel n i pks' pks : Forall2 Q pks' pks -> forall T' T, Forall2 R T' T ->
  Forall2 R (dnf_leaf pks' n i T') (dnf_leaf pks n i T).
Proof.
  unfold dnf_leaf. induction 1 as [|p' p pks' pks Hp _ IH]; intros T' T H; [exact H|]. cbn [fold_left]. apply IH.
  rewrite (attr _ _ Hp). destruct (seqb (pak_attr p) n); [|exact H].
  rewrite (Forall2_long _ _ _ H). destruct (i <? length T)%nat; [now apply update_rel|].
  apply Forall2_app; [exact H|]. constructor; [auto|constructor].
Qed.

Lemma dnf_rel pks' pks : Forall2 Q pks' pks -> forall v i t T' T, Forall2 R T' T ->
  fst (dnf pks' v i t T') = fst (dnf pks v i t T) /\ Forall2 R (snd (dnf pks' v i t T')) (snd (dnf pks v i t T)).
Proof.
  intros P. induction v as [n p|ty w IH|l IH] using pvalue_ind'; intros i t T' T H; cbn [dnf].
  - split; [reflexivity|]. cbn [snd]. now apply leaf_rel.
  - destruct t as [[| |]|]; try (apply IH; exact H); destruct ty; try (apply IH; exact H); split; auto.
  - destruct t as [[| |]|]; try (split; [reflexivity|exact H]).
    + revert T' T H. generalize true. induction IH as [|x l E _ IHl]; intros r T' T H; [split; [reflexivity|exact H]|].
      cbv zeta. destruct (E i (Some And) T' T H) as (E1 & E2). destruct r; [rewrite E1|]; apply IHl; assumption.
    + revert T' T H. generalize true. generalize 0%nat. induction IH as [|x l E _ IHl]; intros k r T' T H; [split; [reflexivity|exact H]|].
      cbv zeta. destruct (E (k + k)%nat (Some Or) T' T H) as (E1 & E2). destruct r; [rewrite E1|]; apply IHl; assumption.
Qed.

Lemma insert_rel x' x : R x' x -> forall T' T, Forall2 R T' T -> Forall2 R (insert_term x' T') (insert_term x T).
Proof.
  intros Hx T' T H. induction H as [|t' t T' T Ht H IH]; cbn [insert_term]; [constructor; [exact Hx|constructor]|].
  rewrite (attrs _ _ Hx), (attrs _ _ Ht). destruct (_ <=? _)%nat; auto.
Qed.

Lemma sort_rel T' T : Forall2 R T' T -> Forall2 R (sort_terms T') (sort_terms T).
Proof. unfold sort_terms. induction 1 as [|t' t T' T Ht _ IH]; [constructor|]. cbn [fold_right]. now apply insert_rel. Qed.

Lemma json_rel v pks' pks T : Forall2 Q pks' pks -> json_to_dnf v pks = Ok T ->
  exists T', json_to_dnf v pks' = Ok T' /\ Forall2 R T' T.
Proof.
  intros P. unfold json_to_dnf. destruct (dnf_rel pks' pks P v 0%nat None [] [] (Forall2_nil _)) as (E1 & E2).
  rewrite E1. destruct (fst (dnf pks v 0%nat None [])); [|discriminate]. intros X. injection X as <-.
  eexists. split; [reflexivity|]. now apply sort_rel.
Qed.
End Related.

(** The same keys with the exponents of their authorities only. *)
Definition bare (at_ : nat) (r : string * (nat -> F) * string) : pak C :=
  Pak (snd r) (g1mul C (g1one C) (exponent at_ r)) (g2one C) (gtone C) (gtone C).

Definition weights (at_ : nat) (v : pvalue) (reqs : list (string * (nat -> F) * string)) : list F :=
  match json_to_dnf v (map (bare at_) reqs) with Ok T => map (fun t => log1 L (tm_g1 t)) T | _ => [] end.

Lemma terms_weights at_ v reqs (pks : list (pak C)) T a b y1 y2 :
  Forall2 (fun r p => pak_attr p = snd r /\ log1 L (pak_g1 p) = a * exponent at_ r /\ log2 L (pak_g2 p) = b * exponent at_ r /\
    logT L (pak_gt1 p) = y1 * exponent at_ r /\ logT L (pak_gt2 p) = y2 * exponent at_ r) reqs pks ->
  json_to_dnf v pks = Ok T ->
  Forall2 (fun w t => log1 L (tm_g1 t) = a * w /\ log2 L (tm_g2 t) = b * w /\ logT L (tm_gt1 t) = y1 * w /\
    logT L (tm_gt2 t) = y2 * w) (weights at_ v reqs) T.
Proof.
  intros H J. unfold weights.
  destruct (json_rel (fun p' p => pak_attr p' = pak_attr p /\ log1 L (pak_g1 p) = a * log1 L (pak_g1 p') /\
      log2 L (pak_g2 p) = b * log1 L (pak_g1 p') /\ logT L (pak_gt1 p) = y1 * log1 L (pak_g1 p') /\ logT L (pak_gt2 p) = y2 * log1 L (pak_g1 p'))
    (fun p' p => tm_attrs p' = tm_attrs p /\ log1 L (tm_g1 p) = a * log1 L (tm_g1 p') /\
      log2 L (tm_g2 p) = b * log1 L (tm_g1 p') /\ logT L (tm_gt1 p) = y1 * log1 L (tm_g1 p') /\ logT L (tm_gt2 p) = y2 * log1 L (tm_g1 p')))
    with (v := v) (pks' := map (bare at_) reqs) (pks := pks) (T := T) as (T' & E & HT).
  - intros p' p X. apply X.
  - intros p' p X. apply X.
  - intros p' p (X1 & X). unfold new_term. cbn [tm_attrs tm_g1 tm_g2 tm_gt1 tm_gt2]. rewrite X1. auto.
  - intros t' t p' p (X1 & X2 & X3 & X4 & X5) (Y1 & Y2 & Y3 & Y4 & Y5). unfold merge_term. cbn [tm_attrs tm_g1 tm_g2 tm_gt1 tm_gt2].
    logs. rewrite X1, X2, X3, X4, X5, Y1, Y2, Y3, Y4, Y5. repeat apply conj; try reflexivity; ring.
  - clear J. induction H as [|r p reqs pks (H1 & H2 & H3 & H4 & H5) _ IH]; [constructor|]. cbn [map]. constructor; [|exact IH].
    unfold bare. cbn [pak_attr pak_g1]. logs. rewrite H1, H2, H3, H4, H5. repeat apply conj; try reflexivity; ring.
  - exact J.
  - rewrite E. clear - HT. induction HT as [|t' t T' T H _ IH]; [constructor|]. cbn [map]. constructor; [|exact IH]. tauto.
Qed.

(** ** Counting *)

Variable p : nat.
Hypothesis size : field_size C p.

Lemma one_position n q (S : list (list F)) : (q < n)%nat -> NoDup S -> (forall r, In r S -> length r = n) ->
  (forall r r', In r S -> In r' S -> (forall k, (k < n)%nat -> k <> q -> from r' k = from r k) -> from r' q <> from r q -> False) ->
  at_most 1 p n S.
Proof.
  intros Hq NS LS H. apply (spread_all p size n S (fun D t k => if (k =? q)%nat then t q + D else t k)); auto.
  intros r r' D D' I I' E.
  assert (EQ : forall k, (k < n)%nat -> k <> q -> from r' k = from r k).
  { intros k Hk N. specialize (E k Hk). cbn beta in E. apply Nat.eqb_neq in N. now rewrite N in E. }
  assert (Eq : from r q + D = from r' q + D') by (specialize (E q Hq); now rewrite Nat.eqb_refl in E).
  destruct (feqb C (from r' q) (from r q)) eqn:B.
  - apply (feqb_eq L) in B. split.
    + transitivity (from r q + D - from r q); [ring|]. rewrite Eq, B. ring.
    + intros k Hk. destruct (Nat.eq_dec k q) as [->|N]; [now symmetry|]. symmetry. now apply EQ.
  - exfalso. apply (feqb_neq L) in B. exact (H r r' I I' EQ B).
Qed.

Lemma fsum_some (w : nat -> F) l : fsum (map w l) <> 0 -> exists k, In k l /\ w k <> 0.
Proof.
  induction l as [|k l IH]; intros H; [now destruct H|]. destruct (feqb C (w k) 0) eqn:B.
  - apply (feqb_eq L) in B. destruct IH as (j & I & N); [|exists j; split; [now right|exact N]].
    intros Z. apply H. cbn [map fsum]. rewrite B, Z. ring.
  - apply (feqb_neq L) in B. exists k. split; [now left|exact B].
Qed.

(** A message in several tuples: [x] moves the message alone, [y] the secret alone. *)
Lemma tuples_chance n (S : list (list F)) (w : nat -> F) K (c : (nat -> F) -> F) (zs : list nat) z x y r0 :
  NoDup S -> (forall r, In r S -> length r = n) -> (x < n)%nat -> (y < n)%nat -> (z < n)%nat -> (r0 + K <= n)%nat ->
  (forall q, In q zs -> (q < n)%nat) -> (length zs <= 2)%nat ->
  (fsum (map w (seq 0 K)) <> 1 -> forall r r', In r S -> In r' S -> (forall q, In q zs -> from r q <> 0) ->
    (forall k, (k < n)%nat -> k <> x -> from r' k = from r k) -> from r' x <> from r x -> False) ->
  ((0 < K)%nat -> fsum (map w (seq 0 K)) = 1 -> forall r r', In r S -> In r' S -> from r z <> 0 -> c (from r) <> 0 ->
    (forall k, (k < n)%nat -> k <> y -> from r' k = from r k) -> from r' y <> from r y -> False) ->
  (forall k r r', (k < K)%nat -> w k <> 0 -> In r S -> In r' S ->
    (forall q, (q < n)%nat -> q <> (r0 + k)%nat -> from r' q = from r q) -> from r' (r0 + k)%nat <> from r (r0 + k)%nat ->
    c (from r') <> c (from r)) ->
  at_most 3 p n S.
Proof.
  intros NS LS Hx Hy Hz Hr Hzs Lzs HA HB HC. destruct (feqb C (fsum (map w (seq 0 K))) 1) eqn:W.
  - apply (feqb_eq L) in W. destruct (fsum_some w (seq 0 K)) as (k & Ik & Nk).
    { rewrite W. apply (F_1_neq_0 (f_theory L)). }
    apply in_seq in Ik. apply (outside L p size n 2 [(z, 0)] S); [intros q v [E|[]]; injection E as <- _; exact Hz|exact NS|exact LS|].
    intros S' NS' IS'.
    assert (LS' : forall r, In r S' -> length r = n) by (intros r I; apply LS, IS', I).
    apply (peel p n 1 (fun r => feqb C (c (from r)) 0)).
    + apply (one_position n (r0 + k)); [lia|now apply NoDup_filter|intros r I; apply filter_In in I as [I _]; auto|].
      intros r r' I I' E B. apply filter_In in I as [I Z], I' as [I' Z']. apply (feqb_eq L) in Z, Z'.
      apply (HC k r r'); [lia|exact Nk|apply IS', I|apply IS', I'|exact E|exact B|congruence].
    + apply (one_position n y); [exact Hy|now apply NoDup_filter|intros r I; apply filter_In in I as [I _]; auto|].
      intros r r' I I' E B. apply filter_In in I as [I Z], I' as [I' _]. apply negb_true_iff, (feqb_neq L) in Z.
      destruct (IS' r I) as [J V]. destruct (IS' r' I') as [J' _].
      apply (HB ltac:(lia) W r r' J J'); [apply (V z 0); now left|exact Z|exact E|exact B].
  - apply (feqb_neq L) in W. apply (at_most_le p (length (map (fun q => (q, f0 C)) zs) + 1) 3); [rewrite map_length; lia|].
    apply (outside L p size n 1 (map (fun q => (q, f0 C)) zs) S); [|exact NS|exact LS|].
    { intros q v I. apply in_map_iff in I as (q' & E & I). injection E as <- _. auto. }
    intros S' NS' IS'. apply (one_position n x); [exact Hx|exact NS'|intros r I; apply LS, IS', I|].
    intros r r' I I' E B. destruct (IS' r I) as [J V]. destruct (IS' r' I') as [J' _].
    apply (HA W r r' J J'); [|exact E|exact B]. intros q Iq. apply (V q 0). now apply in_map with (f := fun q => (q, f0 C)).
Qed.

(** ** Lists *)

Lemma Forall2_of_nth {A B} (R : A -> B -> Prop) : forall l l', length l = length l' ->
  (forall k x y, nth_error l k = Some x -> nth_error l' k = Some y -> R x y) -> Forall2 R l l'.
Proof.
  induction l as [|a l IH]; intros [|b l'] E H; try discriminate; constructor; [exact (H 0%nat a b eq_refl eq_refl)|].
  apply IH; [now injection E|]. intros k. exact (H (Datatypes.S k)).
Qed.

Definition numbered (ws : list F) : list (nat * F) := combine (seq 0 (length ws)) ws.

Lemma numbered_nth ws k : nth_error (numbered ws) k = option_map (fun w => (k, w)) (nth_error ws k).
Proof.
  assert (X : forall ws k i, nth_error (combine (seq i (length ws)) ws) k = option_map (fun w : F => ((i + k)%nat, w)) (nth_error ws k)).
  { clear. induction ws as [|w ws IH]; intros k i; [destruct k; reflexivity|]. cbn [length seq combine].
    destruct k as [|k]; cbn [nth_error]; [cbn; now rewrite Nat.add_0_r|]. rewrite IH. now rewrite Nat.add_succ_comm. }
  apply (X ws k 0%nat).
Qed.

Lemma numbered_length ws : length (numbered ws) = length ws.
Proof. unfold numbered. rewrite combine_length, seq_length. lia. Qed.

Lemma numbered_In ws k w : In (k, w) (numbered ws) -> (k < length ws)%nat.
Proof. intros I. apply in_combine_l in I. apply in_seq in I. lia. Qed.

Lemma Forall2_map_eq {A B D} (f : A -> D) (g : B -> D) l l' : Forall2 (fun a b => g b = f a) l l' -> map g l' = map f l.
Proof. induction 1 as [|a b l l' H _ IH]; [reflexivity|]. cbn [map]. now rewrite H, IH. Qed.

Lemma map_inj {A B} (g : A -> B) : (forall x y, g x = g y -> x = y) -> forall l l', map g l = map g l' -> l = l'.
Proof. intros H. induction l as [|a l IH]; intros [|b l'] E; try discriminate; [reflexivity|]. injection E as E1 E2. f_equal; auto. Qed.

(** ** BDABE *)

Definition bd_tuples (ws : list F) (t : nat -> F) : list F :=
  map (fun x => snd x * t (7 + fst x)%nat) (numbered ws).

Lemma bd_logs nonce (t : nat -> F) reqs (pk : bd_pk C) msk i apks pol lang v data ct j :
  bd_setup t 0%nat = Ok (pk, msk, i) -> bd_published pk msk reqs apks -> parse pol lang = Ok v ->
  bd_encrypt nonce pk apks pol lang data t i = Ok (ct, j) ->
  let ws := weights 1%nat v reqs in
  length (bct_j ct) = length ws /\
  map (log1 L) (seen1 (bd_view pk apks ct)) = (t 0%nat :: t 2%nat :: map (fun r => t 0%nat * exponent 1%nat r) reqs ++
    flat_map (fun x => [t 2%nat * t (7 + fst x)%nat; t 0%nat * (snd x * t (7 + fst x)%nat)]) (numbered ws))%list /\
  map (log2 L) (seen2 (bd_view pk apks ct)) = (t 1%nat :: t 3%nat :: map (fun r => t 1%nat * exponent 1%nat r) reqs ++
    flat_map (fun x => [t 3%nat * t (7 + fst x)%nat; t 1%nat * (snd x * t (7 + fst x)%nat)]) (numbered ws))%list /\
  map (logT L) (seenT (bd_view pk apks ct)) = (t 0%nat * t 1%nat * t 4%nat ::
    map (fun r => t 0%nat * t 1%nat * t 4%nat * exponent 1%nat r) reqs ++
    map (fun z => t 0%nat * t 1%nat * t 4%nat * z + t 5%nat * t 6%nat) (bd_tuples ws t))%list /\
  map (fun u => log1 L (bt_e4 u)) (bct_j ct) = map (fun z => t 0%nat * z) (bd_tuples ws t).
Proof.
  intros Hs Hp Pv He ws. pose proof Hs as Hs'.
  apply bd_setup_eq in Hs' as (-> & Ey & G1 & G2 & P1 & P2 & Eg). cbn [Nat.add] in *.
  destruct (bd_encrypt_eq _ _ _ _ _ _ _ _ _ _ He) as (v' & T & m & Pv' & _ & HT & -> & _ & _ & _ & Ll & N).
  rewrite Pv in Pv'. injection Pv' as <-. apply bd_published_at in Hp.
  assert (Lg : logT L (Bdabe.bpk_egg pk) = t 0%nat * t 1%nat * t 4%nat) by (rewrite Eg, Ey, G1, G2; logs; ring).
  assert (L1 : log1 L (Bdabe.bpk_g1 pk) = t 0%nat) by (rewrite G1; logs; ring).
  assert (L2 : log2 L (Bdabe.bpk_g2 pk) = t 1%nat) by (rewrite G2; logs; ring).
  assert (L3 : log1 L (Bdabe.bpk_p1 pk) = t 2%nat) by (rewrite P1; logs; ring).
  assert (L4 : log2 L (Bdabe.bpk_p2 pk) = t 3%nat) by (rewrite P2; logs; ring).
  assert (TW : Forall2 (fun w u => log1 L (tm_g1 u) = t 0%nat * w /\ log2 L (tm_g2 u) = t 1%nat * w /\
    logT L (tm_gt1 u) = t 0%nat * t 1%nat * t 4%nat * w /\ logT L (tm_gt2 u) = 0 * w) ws T).
  { apply (terms_weights 1%nat v reqs (map bd_pak apks)); [|exact HT]. clear - Hp L1 L2 Lg.
    induction Hp as [|r k reqs apks -> _ IH]; [constructor|]. cbn [map]. constructor; [|exact IH].
    unfold bd_pak. cbn [pak_attr pak_g1 pak_g2 pak_gt1 pak_gt2 bapk_attr bapk_a1 bapk_a2 bapk_a3]. logs. rewrite L1, L2, Lg.
    repeat apply conj; try reflexivity; ring. }
  assert (LT : length T = length ws) by (symmetry; exact (Forall2_long _ _ _ TW)).
  assert (CT : Forall2 (fun x u => log1 L (bt_e2 u) = t 2%nat * t (7 + fst x)%nat /\ log2 L (bt_e3 u) = t 3%nat * t (7 + fst x)%nat /\
    log1 L (bt_e4 u) = t 0%nat * (snd x * t (7 + fst x)%nat) /\ log2 L (bt_e5 u) = t 1%nat * (snd x * t (7 + fst x)%nat) /\
    logT L (bt_e1 u) = t 0%nat * t 1%nat * t 4%nat * (snd x * t (7 + fst x)%nat) + t 5%nat * t 6%nat) (numbered ws) (bct_j ct)).
  { apply Forall2_of_nth; [rewrite numbered_length; congruence|]. intros k x u Hx Hu. rewrite numbered_nth in Hx.
    destruct (nth_error ws k) as [w|] eqn:Hw; [|discriminate]. injection Hx as <-. cbn [fst snd].
    destruct (nth_error_len (bct_j ct) T k u Ll Hu) as (tm & Htm).
    destruct (Forall2_nth_error _ _ _ TW k w tm Hw Htm) as (M1 & M2 & M3 & _).
    rewrite (N k tm Htm) in Hu. injection Hu as <-. cbn [bt_e1 bt_e2 bt_e3 bt_e4 bt_e5]. logs. rewrite M1, M2, M3, L3, L4. cbn [Nat.add].
    repeat apply conj; ring. }
  clear N TW He HT. repeat apply conj.
  - congruence.
  - unfold bd_view. cbn [seen1 map]. rewrite L1, L3. do 2 f_equal. rewrite map_app. f_equal.
    + clear - Hp L1. induction Hp as [|r k reqs apks -> _ IH]; [reflexivity|]. cbn [map]. rewrite IH. cbn [bapk_a1]. logs. now rewrite L1.
    + clear - CT. induction CT as [|x u l l' (E1 & E2 & E3 & E4 & E5) _ IH]; [reflexivity|]. cbn [flat_map map List.app]. now rewrite E1, E3, IH.
  - unfold bd_view. cbn [seen2 map]. rewrite L2, L4. do 2 f_equal. rewrite map_app. f_equal.
    + clear - Hp L2. induction Hp as [|r k reqs apks -> _ IH]; [reflexivity|]. cbn [map]. rewrite IH. cbn [bapk_a2]. logs. now rewrite L2.
    + clear - CT. induction CT as [|x u l l' (E1 & E2 & E3 & E4 & E5) _ IH]; [reflexivity|]. cbn [flat_map map List.app]. now rewrite E2, E4, IH.
  - unfold bd_view. cbn [seenT map]. rewrite Lg. f_equal. rewrite map_app. f_equal.
    + clear - Hp Lg. induction Hp as [|r k reqs apks -> _ IH]; [reflexivity|]. cbn [map]. rewrite IH. cbn [bapk_a3]. logs. now rewrite Lg.
    + unfold bd_tuples. rewrite !map_map. apply Forall2_map_eq. eapply Forall2_impl; [|exact CT]. intros x u X. apply X.
  - unfold bd_tuples. rewrite map_map. apply Forall2_map_eq. eapply Forall2_impl; [|exact CT]. intros x u X. apply X.
Qed.

(** ** Differences of lists *)

Definition dif (D : F) (a' a b : list F) : Prop :=
  length a' = length a /\ length a = length b /\ forall n, nth n a' 0 - nth n a 0 = D * nth n b 0.

Lemma dif_nil D : dif D [] [] [].
Proof. repeat split. intros [|n]; cbn; ring. Qed.
Lemma dif_cons D x' x y a' a b : x' - x = D * y -> dif D a' a b -> dif D (x' :: a') (x :: a) (y :: b).
Proof. intros H (H1 & H2 & H3). repeat split; cbn; try congruence. intros [|n]; auto. Qed.
Lemma dif_app D a' a b c' c d : dif D a' a b -> dif D c' c d -> dif D (a' ++ c') (a ++ c) (b ++ d).
Proof.
  intros (H1 & H2 & H3) (K1 & K2 & K3). repeat split; rewrite ?app_length; try congruence. intros n.
  destruct (Nat.lt_ge_cases n (length a)) as [N|N].
  - rewrite !app_nth1 by congruence. apply H3.
  - rewrite !app_nth2 by (rewrite ?H1, <- ?H2; exact N). rewrite H1, <- H2. apply K3.
Qed.
Lemma dif_map {A} D (f' f h : A -> F) l : (forall x, In x l -> f' x - f x = D * h x) -> dif D (map f' l) (map f l) (map h l).
Proof.
  induction l as [|x l IH]; intros H; [apply dif_nil|]. apply dif_cons; [apply H; now left|]. apply IH. intros y I. apply H. now right.
Qed.

Lemma drift_dif (e : combT C) D a' a b : dif D a' a b ->
  drift e (fun n => nth n a' 0 - nth n a 0) = D * drift e (fun n => nth n b 0).
Proof. intros (_ & _ & H). rewrite <- (drift_scale L). apply drift_ext. exact H. Qed.

Lemma drift_minus (e : combT C) f g : drift e f - drift e g = drift e (fun n => f n - g n).
Proof. induction e; cbn [drift]; rewrite <- ?IHe, <- ?IHe1, <- ?IHe2; ring. Qed.

Definition only (q n : nat) : F := if (n =? q)%nat then 1 else 0.

Lemma fsum_only B K n : fsum (map (fun k => 1 * only (B + k) n) (seq 0 K)) = if (B <=? n)%nat && (n <? B + K)%nat then 1 else 0.
Proof.
  induction K as [|K IH].
  - cbn [seq map fsum]. destruct (Nat.leb_spec B n), (Nat.ltb_spec n (B + 0)); try lia; reflexivity.
  - rewrite seq_S, map_app, (fsum_app L), IH. cbn [map fsum Nat.add]. unfold only.
    destruct (Nat.leb_spec B n), (Nat.ltb_spec n (B + K)), (Nat.ltb_spec n (B + Datatypes.S K)), (Nat.eqb_spec n (B + K)); try lia; cbn [andb]; ring.
Qed.

(** The parts of a combination add up. *)
Lemma drift_part (e : combT C) B K (b c : list F) : length b = B -> (forall x, In x b -> x = 0) -> length c = K -> (forall x, In x c -> x = 1) ->
  forall d, (forall x, In x d -> x = 0) ->
  drift e (fun n => nth n (b ++ c ++ d) 0) = fsum (map (fun k => drift e (only (B + k))) (seq 0 K)).
Proof.
  intros Hb Zb Hc Oc d Zd. transitivity (fsum (map (fun k => 1 * drift e (only (B + k))) (seq 0 K))).
  - rewrite <- (drift_sum L). apply drift_ext. intros n. rewrite fsum_only.
    destruct (Nat.leb_spec B n) as [H|H]; cbn [andb].
    + rewrite app_nth2 by lia. rewrite Hb. destruct (Nat.ltb_spec n (B + K)) as [H'|H'].
      * rewrite app_nth1 by lia. apply Oc, nth_In. lia.
      * rewrite app_nth2 by lia. destruct (Nat.lt_ge_cases (n - B - length c) (length d)) as [H''|H''].
        -- apply Zd, nth_In. exact H''.
        -- now apply nth_overflow.
    + rewrite app_nth1 by lia. apply Zb, nth_In. lia.
  - rewrite (fsum_scale L). ring.
Qed.

(** Two views with the same elements of [G1] and [G2]. *)
Lemma two_views (e : combT C) (V V' : view C) a a' x x' :
  map (log1 L) (seen1 V') = map (log1 L) (seen1 V) -> map (log2 L) (seen2 V') = map (log2 L) (seen2 V) ->
  map (logT L) (seenT V) = a -> map (logT L) (seenT V') = a' -> evalT V e = payload x -> evalT V' e = payload x' ->
  x' = x + drift e (fun n => nth n a' 0 - nth n a 0).
Proof.
  intros E1 E2 <- <- H H'. apply map_inj in E1; [|exact (log1_inj L)]. apply map_inj in E2; [|exact (log2_inj L)].
  pose proof (eval_drift L V V' e E1 E2) as X. rewrite H, H', !(log_payload L) in X. rewrite X. f_equal. apply drift_ext. intros n.
  assert (Z : forall l, nth n (map (logT L) l) 0 = logT L (nth n l (gtone C))).
  { intros l. rewrite <- (map_nth (logT L)). f_equal. logs. reflexivity. }
  now rewrite !Z.
Qed.

Theorem bd_chance nonce pol lang data reqs (e : combT C) K :
  forall S, runs (7 + K) (fun t => exists pk msk i apks ct j,
    bd_setup t 0%nat = Ok (pk, msk, i) /\ bd_published pk msk reqs apks /\
    bd_encrypt nonce pk apks pol lang data t i = Ok (ct, j) /\ length (bct_j ct) = K /\
    (forall u, In u (bct_j ct) -> bt_e4 u <> g1zero C) /\
    evalT (bd_view pk apks ct) e = payload (t 5%nat * t 6%nat)) S ->
  at_most 3 p (7 + K) S.
Proof.
  intros S [NS HS]. destruct S as [|r0 S0] eqn:ES; [unfold at_most; cbn; lia|]. rewrite <- ES in *.
  assert (PV : exists v, parse pol lang = Ok v).
  { destruct (HS r0) as [_ (pk & msk & i & apks & ct & j & _ & _ & He & _)]; [rewrite ES; now left|].
    apply bd_encrypt_eq in He as (v & _ & _ & P & _). eauto. }
  destruct PV as (v & Pv). clear r0 S0 ES. set (ws := weights 1%nat v reqs).
  set (B := (1 + length reqs)%nat).
  set (seenlist := fun t : nat -> F => (1 :: map (exponent 1%nat) reqs ++ bd_tuples ws t)%list).
  assert (LS : forall r, In r S -> length r = (7 + K)%nat) by (intros r I; apply (HS r I)).
  assert (HK : forall r, In r S -> length ws = K).
  { intros r I. destruct (HS r I) as [_ (pk & msk & i & apks & ct & j & Hs & Hp & He & <- & _)].
    destruct (bd_logs _ _ _ _ _ _ _ _ _ _ _ _ _ Hs Hp Pv He) as (X & _). now symmetry. }
  assert (NZ : forall r k w, In r S -> nth_error ws k = Some w -> from r 0%nat * (w * from r (7 + k)%nat) <> 0).
  { intros r k w I Hw Z. destruct (HS r I) as [_ (pk & msk & i & apks & ct & j & Hs & Hp & He & _ & Hn & _)].
    destruct (bd_logs _ _ _ _ _ _ _ _ _ _ _ _ _ Hs Hp Pv He) as (X & _ & _ & _ & Y). fold ws in X, Y.
    destruct (nth_error_len ws (bct_j ct) k w (eq_sym X) Hw) as (u & Hu).
    apply (Hn u (nth_error_In _ _ Hu)). apply (log1_inj L). logs. rewrite <- Z.
    apply (f_equal (fun l => nth_error l k)) in Y. unfold bd_tuples in Y. rewrite map_map, !nth_error_map, Hu, numbered_nth, Hw in Y.
    cbn in Y. now injection Y. }
  assert (TWO : forall r r', In r S -> In r' S -> (forall k, (k < 7 + K)%nat -> k <> 4%nat -> k <> 6%nat -> from r' k = from r k) ->
    from r' 5%nat * from r' 6%nat = from r 5%nat * from r 6%nat + drift e (fun n =>
      nth n (from r 0%nat * from r 1%nat * from r' 4%nat :: map (fun x => from r 0%nat * from r 1%nat * from r' 4%nat * exponent 1%nat x) reqs ++
        map (fun z => from r 0%nat * from r 1%nat * from r' 4%nat * z + from r 5%nat * from r' 6%nat) (bd_tuples ws (from r)))%list 0 -
      nth n (from r 0%nat * from r 1%nat * from r 4%nat :: map (fun x => from r 0%nat * from r 1%nat * from r 4%nat * exponent 1%nat x) reqs ++
        map (fun z => from r 0%nat * from r 1%nat * from r 4%nat * z + from r 5%nat * from r 6%nat) (bd_tuples ws (from r)))%list 0)).
  { intros r r' I I' E.
    destruct (HS r I) as [_ (pk & msk & i & apks & ct & j & Hs & Hp & He & _ & _ & Ho)].
    destruct (HS r' I') as [_ (pk' & msk' & i' & apks' & ct' & j' & Hs' & Hp' & He' & _ & _ & Ho')].
    destruct (bd_logs _ _ _ _ _ _ _ _ _ _ _ _ _ Hs Hp Pv He) as (_ & X1 & X2 & X3 & _).
    destruct (bd_logs _ _ _ _ _ _ _ _ _ _ _ _ _ Hs' Hp' Pv He') as (_ & Y1 & Y2 & Y3 & _). fold ws in X1, X2, X3, Y1, Y2, Y3.
    assert (FM : forall a b : nat, (a < 4)%nat -> (b < 4)%nat ->
      flat_map (fun x => [from r' a * from r' (7 + fst x)%nat; from r' b * (snd x * from r' (7 + fst x)%nat)]) (numbered ws) =
      flat_map (fun x => [from r a * from r (7 + fst x)%nat; from r b * (snd x * from r (7 + fst x)%nat)]) (numbered ws)).
    { intros a b Ha Hb. rewrite !flat_map_concat_map. f_equal. apply map_ext_in. intros [k w] In_. apply numbered_In in In_. cbn [fst snd]. rewrite (HK r I) in In_.
      rewrite !E by lia. reflexivity. }
    assert (BT : bd_tuples ws (from r') = bd_tuples ws (from r)).
    { unfold bd_tuples. apply map_ext_in. intros [k w] In_. apply numbered_In in In_. cbn [fst snd]. rewrite (HK r I) in In_. rewrite E by lia. reflexivity. }
    rewrite FM in Y1, Y2 by lia. rewrite BT in Y3. rewrite (E 0%nat), (E 2%nat) in Y1 by lia.
    rewrite (E 1%nat), (E 3%nat) in Y2 by lia. rewrite (E 0%nat), (E 1%nat), (E 5%nat) in Y3 by lia.
    rewrite (E 5%nat) in Ho' by lia. rewrite (E 5%nat) by lia. refine (two_views e _ _ _ _ _ _ _ _ X3 Y3 Ho Ho'); congruence. }
  apply (tuples_chance (7 + K) S (fun k => drift e (only (B + k))) K (fun t => drift e (fun n => nth n (seenlist t) 0)) [5%nat] 1%nat 6%nat 4%nat 7%nat);
    try lia; try assumption.
  - intros q [<-|[]]. lia.
  - cbn. lia.
  - intros W r r' I I' Z E B6. specialize (TWO r r' I I'). rewrite (E 4%nat) in TWO by lia. rewrite (E 5%nat) in TWO by lia.
    assert (Z5 : from r 5%nat <> 0) by (apply Z; now left). apply W.
    rewrite (drift_dif e (from r 5%nat * (from r' 6%nat - from r 6%nat)) _ _ (0 :: map (fun _ => 0) reqs ++ map (fun _ => 1) (bd_tuples ws (from r)))%list) in TWO.
    + rewrite <- (drift_part e B K (0 :: map (fun _ => 0) reqs) (map (fun _ => 1) (bd_tuples ws (from r)))) with (d := []).
      * rewrite app_nil_r. cbn [List.app]. set (X := drift e _) in *. specialize (TWO ltac:(intros; apply E; lia)).
        assert (Y : from r 5%nat * (from r' 6%nat - from r 6%nat) * (X - 1) = 0).
        { transitivity (from r 5%nat * from r 6%nat + from r 5%nat * (from r' 6%nat - from r 6%nat) * X - from r 5%nat * from r' 6%nat); [ring|]. rewrite <- TWO. ring. }
        apply (mul_zero L) in Y; [transitivity (X - 1 + 1); [ring|rewrite Y; ring]|]. apply (mul_neq L); [exact Z5|]. now apply (minus_neq L).
      * cbn. now rewrite map_length.
      * intros x [<-|In_]; [reflexivity|]. apply in_map_iff in In_ as (? & <- & _). reflexivity.
      * unfold bd_tuples. rewrite !map_length, numbered_length. exact (HK r I).
      * intros x In_. apply in_map_iff in In_ as (? & <- & _). reflexivity.
      * intros x [].
    + apply dif_cons; [ring|]. apply dif_app; apply dif_map; intros; ring.
  - intros K0 W r r' I I' Z1 Zc E B4. specialize (TWO r r' I I' ltac:(intros; apply E; lia)).
    rewrite (E 5%nat), (E 6%nat) in TWO by lia.
    assert (Z0 : from r 0%nat <> 0).
    { destruct (nth_error ws 0) as [w|] eqn:Hw; [|apply nth_error_None in Hw; rewrite (HK r I) in Hw; lia].
      intros Z. apply (NZ r 0%nat w I Hw). rewrite Z. ring. }
    rewrite (drift_dif e (from r 0%nat * from r 1%nat * (from r' 4%nat - from r 4%nat)) _ _ (seenlist (from r))) in TWO.
    + apply Zc. set (X := drift e _) in *.
      assert (Y : from r 0%nat * from r 1%nat * (from r' 4%nat - from r 4%nat) * X = 0).
      { transitivity (from r 5%nat * from r 6%nat + from r 0%nat * from r 1%nat * (from r' 4%nat - from r 4%nat) * X - from r 5%nat * from r 6%nat); [ring|].
        rewrite <- TWO. ring. }
      apply (mul_zero L) in Y; [exact Y|]. apply (mul_neq L); [now apply (mul_neq L)|now apply (minus_neq L)].
    + unfold seenlist. apply dif_cons; [ring|]. apply dif_app; [apply dif_map; intros; ring|]. rewrite <- (map_id (bd_tuples ws (from r))) at 3.
      apply dif_map. intros. ring.
  - intros k r r' Hk Nw I I' E Bk X.
    destruct (nth_error ws k) as [w|] eqn:Hw; [|apply nth_error_None in Hw; rewrite (HK r I) in Hw; lia].
    assert (Zw : w <> 0) by (intros Z; apply (NZ r k w I Hw); rewrite Z; ring).
    assert (Y : w * (from r' (7 + k)%nat - from r (7 + k)%nat) * drift e (only (B + k)) = 0).
    { rewrite <- (drift_scale L). transitivity (drift e (fun n => nth n (seenlist (from r')) 0) - drift e (fun n => nth n (seenlist (from r)) 0)); [|rewrite X; ring].
      rewrite drift_minus. apply drift_ext. intros n. unfold seenlist, only, B.
      destruct n as [|n]; [cbn; ring|]. cbn [nth Nat.add]. cbn [Nat.eqb].
      destruct (Nat.lt_ge_cases n (length reqs)) as [H|H].
      - rewrite !app_nth1 by (rewrite map_length; exact H). destruct (Nat.eqb_spec n (length reqs + k)); [lia|ring].
      - rewrite !app_nth2 by (rewrite map_length; exact H). rewrite map_length. set (q := (n - length reqs)%nat).
        assert (NQ : forall t : nat -> F, nth q (bd_tuples ws t) 0 = match nth_error ws q with Some u => u * t (7 + q)%nat | None => 0 end).
        { intros t. unfold bd_tuples. destruct (nth_error ws q) as [u|] eqn:Hu.
          - apply nth_error_nth. now rewrite nth_error_map, numbered_nth, Hu.
          - apply nth_overflow. rewrite map_length, numbered_length. now apply nth_error_None. }
        rewrite !NQ. destruct (Nat.eqb_spec n (length reqs + k)) as [Eq|Nq].
        + replace q with k by (unfold q; lia). rewrite Hw. cbn [Nat.add]. ring.
        + destruct (nth_error ws q) as [u|] eqn:Hu; [|ring]. assert (q < K)%nat by (rewrite <- (HK r I); apply nth_error_Some; congruence).
          rewrite (E (7 + q)%nat) by (unfold q in *; lia). ring. }
    apply (mul_zero L) in Y; [exact (Nw Y)|]. apply (mul_neq L); [exact Zw|now apply (minus_neq L)].
Qed.
(** ** MKE08 *)

Lemma map_const_len {A B} (l : list A) (l' : list B) : length l = length l' -> map (fun _ => 0 : F) l = map (fun _ => 0 : F) l'.
Proof. revert l'. induction l as [|x l IH]; intros [|y l'] E; try discriminate; [reflexivity|]. cbn. f_equal. apply IH. now injection E. Qed.

Definition mk_conjs (ws : list F) (t : nat -> F) : list F :=
  map (fun x => snd x * t (9 + fst x)%nat) (numbered ws).

Lemma mk_logs nonce (t : nat -> F) reqs (pk : mk_pk C) msk i apks pol lang v data ct j :
  mk_setup t 0%nat = Ok (pk, msk, i) -> mk_published pk reqs apks -> parse pol lang = Ok v ->
  mk_encrypt nonce pk apks pol lang data t i = Ok (ct, j) ->
  let ws := weights 0%nat v reqs in
  length (mct_e ct) = length ws /\
  map (log1 L) (seen1 (mk_view pk apks ct)) = (t 0%nat :: t 2%nat :: map (fun r => t 0%nat * exponent 0%nat r) reqs ++
    flat_map (fun x => [t 2%nat * t (9 + fst x)%nat; t 0%nat * (snd x * t (9 + fst x)%nat)]) (numbered ws))%list /\
  map (log2 L) (seen2 (mk_view pk apks ct)) = (t 1%nat :: t 3%nat :: map (fun r => t 1%nat * exponent 0%nat r) reqs ++
    flat_map (fun x => [t 3%nat * t (9 + fst x)%nat; t 1%nat * (snd x * t (9 + fst x)%nat)]) (numbered ws))%list /\
  map (logT L) (seenT (mk_view pk apks ct)) = (t 0%nat * t 1%nat * t 5%nat ::
    map (fun r => t 0%nat * t 1%nat * t 5%nat * exponent 0%nat r) reqs ++
    t 0%nat * t 1%nat * t 4%nat :: map (fun r => t 0%nat * t 1%nat * t 4%nat * exponent 0%nat r) reqs ++
    map (fun z => t 0%nat * t 1%nat * t 4%nat * z + t 6%nat * t 7%nat) (mk_conjs ws t) ++
    map (fun z => t 0%nat * t 1%nat * t 5%nat * z + t 6%nat * t 7%nat * t 8%nat) (mk_conjs ws t))%list /\
  map (fun u => log1 L (mj_5 u)) (mct_e ct) = map (fun z => t 0%nat * z) (mk_conjs ws t).
Proof.
  intros Hs Hp Pv He ws. pose proof Hs as Hs'.
  apply mk_setup_eq in Hs' as (-> & G1 & G2 & P1 & P2 & Ef & Eg & _). cbn [Nat.add] in *.
  destruct (mk_encrypt_eq _ _ _ _ _ _ _ _ _ _ He) as (v' & T & m & m2 & Pv' & _ & HT & -> & -> & _ & _ & _ & Ll & N).
  rewrite Pv in Pv'. injection Pv' as <-. apply mk_published_at in Hp.
  assert (Lf : logT L (mpk_egg1 pk) = t 0%nat * t 1%nat * t 4%nat) by (rewrite Ef, G1, G2; logs; ring).
  assert (Lg : logT L (mpk_egg2 pk) = t 0%nat * t 1%nat * t 5%nat) by (rewrite Eg, G1, G2; logs; ring).
  assert (L1 : log1 L (mpk_g1 pk) = t 0%nat) by (rewrite G1; logs; ring).
  assert (L2 : log2 L (mpk_g2 pk) = t 1%nat) by (rewrite G2; logs; ring).
  assert (L3 : log1 L (mpk_p1 pk) = t 2%nat) by (rewrite P1; logs; ring).
  assert (L4 : log2 L (mpk_p2 pk) = t 3%nat) by (rewrite P2; logs; ring).
  assert (TW : Forall2 (fun w u => log1 L (tm_g1 u) = t 0%nat * w /\ log2 L (tm_g2 u) = t 1%nat * w /\
    logT L (tm_gt1 u) = t 0%nat * t 1%nat * t 4%nat * w /\ logT L (tm_gt2 u) = t 0%nat * t 1%nat * t 5%nat * w) ws T).
  { apply (terms_weights 0%nat v reqs (map mk_pak apks)); [|exact HT]. clear - Hp L1 L2 Lg Lf.
    induction Hp as [|r k reqs apks -> _ IH]; [constructor|]. cbn [map]. constructor; [|exact IH].
    unfold mk_pak. cbn [pak_attr pak_g1 pak_g2 pak_gt1 pak_gt2 mapk_attr mapk_g1 mapk_g2 mapk_gt1 mapk_gt2]. logs. rewrite L1, L2, Lg, Lf.
    repeat apply conj; try reflexivity; ring. }
  assert (LT : length T = length ws) by (symmetry; exact (Forall2_long _ _ _ TW)).
  assert (CT : Forall2 (fun x u => (log1 L (mj_3 u) = t 2%nat * t (9 + fst x)%nat /\ log2 L (mj_4 u) = t 3%nat * t (9 + fst x)%nat /\
    log1 L (mj_5 u) = t 0%nat * (snd x * t (9 + fst x)%nat) /\ log2 L (mj_6 u) = t 1%nat * (snd x * t (9 + fst x)%nat)) /\
    logT L (mj_1 u) = t 0%nat * t 1%nat * t 4%nat * (snd x * t (9 + fst x)%nat) + t 6%nat * t 7%nat /\
    logT L (mj_2 u) = t 0%nat * t 1%nat * t 5%nat * (snd x * t (9 + fst x)%nat) + t 6%nat * t 7%nat * t 8%nat) (numbered ws) (mct_e ct)).
  { apply Forall2_of_nth; [rewrite numbered_length; congruence|]. intros k x u Hx Hu. rewrite numbered_nth in Hx.
    destruct (nth_error ws k) as [w|] eqn:Hw; [|discriminate]. injection Hx as <-. cbn [fst snd].
    destruct (nth_error_len (mct_e ct) T k u Ll Hu) as (tm & Htm).
    destruct (Forall2_nth_error _ _ _ TW k w tm Hw Htm) as (M1 & M2 & M3 & M4).
    rewrite (N k tm Htm) in Hu. injection Hu as <-. cbn [mj_1 mj_2 mj_3 mj_4 mj_5 mj_6]. logs. rewrite M1, M2, M3, M4, L3, L4. cbn [Nat.add].
    repeat apply conj; ring. }
  clear N TW He HT. repeat apply conj.
  - congruence.
  - unfold mk_view. cbn [seen1 map]. rewrite L1, L3. do 2 f_equal. rewrite map_app. f_equal.
    + clear - Hp L1. induction Hp as [|r k reqs apks -> _ IH]; [reflexivity|]. cbn [map]. rewrite IH. cbn [mapk_g1]. logs. now rewrite L1.
    + clear - CT. induction CT as [|x u l l' ((E1 & E2 & E3 & E4) & E5) _ IH]; [reflexivity|]. cbn [flat_map map List.app]. now rewrite E1, E3, IH.
  - unfold mk_view. cbn [seen2 map]. rewrite L2, L4. do 2 f_equal. rewrite map_app. f_equal.
    + clear - Hp L2. induction Hp as [|r k reqs apks -> _ IH]; [reflexivity|]. cbn [map]. rewrite IH. cbn [mapk_g2]. logs. now rewrite L2.
    + clear - CT. induction CT as [|x u l l' ((E1 & E2 & E3 & E4) & E5) _ IH]; [reflexivity|]. cbn [flat_map map List.app]. now rewrite E2, E4, IH.
  - unfold mk_view. cbn [seenT map]. rewrite Lg. f_equal. rewrite map_app. f_equal.
    + clear - Hp Lg. induction Hp as [|r k reqs apks -> _ IH]; [reflexivity|]. cbn [map]. rewrite IH. cbn [mapk_gt2]. logs. now rewrite Lg.
    + cbn [map]. rewrite Lf. f_equal. rewrite !map_app. f_equal; [|f_equal].
      * clear - Hp Lf. induction Hp as [|r k reqs apks -> _ IH]; [reflexivity|]. cbn [map]. rewrite IH. cbn [mapk_gt1]. logs. now rewrite Lf.
      * unfold mk_conjs. rewrite !map_map. apply Forall2_map_eq. eapply Forall2_impl; [|exact CT]. intros x u X. apply X.
      * unfold mk_conjs. rewrite !map_map. apply Forall2_map_eq. eapply Forall2_impl; [|exact CT]. intros x u X. apply X.
  - unfold mk_conjs. rewrite map_map. apply Forall2_map_eq. eapply Forall2_impl; [|exact CT]. intros x u X. apply X.
Qed.

Theorem mk_chance nonce pol lang data reqs (e : combT C) K :
  forall S, runs (9 + K) (fun t => exists pk msk i apks ct j,
    mk_setup t 0%nat = Ok (pk, msk, i) /\ mk_published pk reqs apks /\
    mk_encrypt nonce pk apks pol lang data t i = Ok (ct, j) /\ length (mct_e ct) = K /\
    (forall u, In u (mct_e ct) -> mj_5 u <> g1zero C) /\
    evalT (mk_view pk apks ct) e = payload (t 6%nat * t 7%nat * (1 + t 8%nat))) S ->
  at_most 3 p (9 + K) S.
Proof.
  intros S [NS HS]. destruct S as [|r0 S0] eqn:ES; [unfold at_most; cbn; lia|]. rewrite <- ES in *.
  assert (PV : exists v, parse pol lang = Ok v).
  { destruct (HS r0) as [_ (pk & msk & i & apks & ct & j & _ & _ & He & _)]; [rewrite ES; now left|].
    apply mk_encrypt_eq in He as (v & _ & _ & _ & P & _). eauto. }
  destruct PV as (v & Pv). clear r0 S0 ES. set (ws := weights 0%nat v reqs).
  set (B := (2 + 2 * length reqs + K)%nat).
  set (seenlist := fun t : nat -> F => (1 :: map (exponent 0%nat) reqs ++ 0 :: map (fun _ => 0) reqs ++
    map (fun _ => 0) (mk_conjs ws t) ++ mk_conjs ws t)%list).
  assert (LS : forall r, In r S -> length r = (9 + K)%nat) by (intros r I; apply (HS r I)).
  assert (HK : forall r, In r S -> length ws = K).
  { intros r I. destruct (HS r I) as [_ (pk & msk & i & apks & ct & j & Hs & Hp & He & <- & _)].
    destruct (mk_logs _ _ _ _ _ _ _ _ _ _ _ _ _ Hs Hp Pv He) as (X & _). now symmetry. }
  assert (LC : forall t, length (mk_conjs ws t) = length ws) by (intros t; unfold mk_conjs; now rewrite map_length, numbered_length).
  assert (NZ : forall r k w, In r S -> nth_error ws k = Some w -> from r 0%nat * (w * from r (9 + k)%nat) <> 0).
  { intros r k w I Hw Z. destruct (HS r I) as [_ (pk & msk & i & apks & ct & j & Hs & Hp & He & _ & Hn & _)].
    destruct (mk_logs _ _ _ _ _ _ _ _ _ _ _ _ _ Hs Hp Pv He) as (X & _ & _ & _ & Y). fold ws in X, Y.
    destruct (nth_error_len ws (mct_e ct) k w (eq_sym X) Hw) as (u & Hu).
    apply (Hn u (nth_error_In _ _ Hu)). apply (log1_inj L). logs. rewrite <- Z.
    apply (f_equal (fun l => nth_error l k)) in Y. unfold mk_conjs in Y. rewrite map_map, !nth_error_map, Hu, numbered_nth, Hw in Y.
    cbn in Y. now injection Y. }
  set (lT := fun (t t' : nat -> F) => (t 0%nat * t 1%nat * t' 5%nat :: map (fun x => t 0%nat * t 1%nat * t' 5%nat * exponent 0%nat x) reqs ++
    t 0%nat * t 1%nat * t 4%nat :: map (fun x => t 0%nat * t 1%nat * t 4%nat * exponent 0%nat x) reqs ++
    map (fun z => t 0%nat * t 1%nat * t 4%nat * z + t 6%nat * t 7%nat) (mk_conjs ws t) ++
    map (fun z => t 0%nat * t 1%nat * t' 5%nat * z + t 6%nat * t 7%nat * t' 8%nat) (mk_conjs ws t))%list).
  assert (TWO : forall r r', In r S -> In r' S -> (forall k, (k < 9 + K)%nat -> k <> 5%nat -> k <> 8%nat -> from r' k = from r k) ->
    from r 6%nat * from r 7%nat * (1 + from r' 8%nat) = from r 6%nat * from r 7%nat * (1 + from r 8%nat) + drift e (fun n =>
      nth n (lT (from r) (from r')) 0 - nth n (lT (from r) (from r)) 0)).
  { intros r r' I I' E.
    destruct (HS r I) as [_ (pk & msk & i & apks & ct & j & Hs & Hp & He & _ & _ & Ho)].
    destruct (HS r' I') as [_ (pk' & msk' & i' & apks' & ct' & j' & Hs' & Hp' & He' & _ & _ & Ho')].
    destruct (mk_logs _ _ _ _ _ _ _ _ _ _ _ _ _ Hs Hp Pv He) as (_ & X1 & X2 & X3 & _).
    destruct (mk_logs _ _ _ _ _ _ _ _ _ _ _ _ _ Hs' Hp' Pv He') as (_ & Y1 & Y2 & Y3 & _). fold ws in X1, X2, X3, Y1, Y2, Y3.
    assert (FM : forall a b : nat, (a < 4)%nat -> (b < 4)%nat ->
      flat_map (fun x => [from r' a * from r' (9 + fst x)%nat; from r' b * (snd x * from r' (9 + fst x)%nat)]) (numbered ws) =
      flat_map (fun x => [from r a * from r (9 + fst x)%nat; from r b * (snd x * from r (9 + fst x)%nat)]) (numbered ws)).
    { intros a b Ha Hb. rewrite !flat_map_concat_map. f_equal. apply map_ext_in. intros [k w] In_. apply numbered_In in In_. cbn [fst snd].
      rewrite (HK r I) in In_. rewrite !E by lia. reflexivity. }
    assert (BT : mk_conjs ws (from r') = mk_conjs ws (from r)).
    { unfold mk_conjs. apply map_ext_in. intros [k w] In_. apply numbered_In in In_. cbn [fst snd]. rewrite (HK r I) in In_. rewrite E by lia. reflexivity. }
    rewrite FM in Y1, Y2 by lia. rewrite BT in Y3. rewrite (E 0%nat), (E 2%nat) in Y1 by lia.
    rewrite (E 1%nat), (E 3%nat) in Y2 by lia. rewrite (E 0%nat), (E 1%nat), (E 4%nat), (E 6%nat), (E 7%nat) in Y3 by lia.
    rewrite (E 6%nat), (E 7%nat) in Ho' by lia. refine (two_views e _ _ _ _ _ _ _ _ X3 Y3 Ho Ho'); congruence. }
  apply (tuples_chance (9 + K) S (fun k => drift e (only (B + k))) K (fun t => drift e (fun n => nth n (seenlist t) 0)) [6%nat; 7%nat] 1%nat 8%nat 5%nat 9%nat);
    try lia; try assumption.
  - intros q [<-|[<-|[]]]; lia.
  - cbn. lia.
  - intros W r r' I I' Z E B8. specialize (TWO r r' I I' ltac:(intros; apply E; lia)). unfold lT in TWO. rewrite (E 5%nat) in TWO by lia.
    assert (Z6 : from r 6%nat <> 0) by (apply Z; now left). assert (Z7 : from r 7%nat <> 0) by (apply Z; right; now left). apply W.
    rewrite (drift_dif e (from r 6%nat * from r 7%nat * (from r' 8%nat - from r 8%nat)) _ _
      (0 :: map (fun _ => 0) reqs ++ 0 :: map (fun _ => 0) reqs ++ map (fun _ => 0) (mk_conjs ws (from r)) ++ map (fun _ => 1) (mk_conjs ws (from r)))%list) in TWO.
    + rewrite <- (drift_part e B K (0 :: map (fun _ => 0) reqs ++ 0 :: map (fun _ => 0) reqs ++ map (fun _ => 0) (mk_conjs ws (from r)))%list
        (map (fun _ => 1) (mk_conjs ws (from r)))) with (d := []).
      * rewrite app_nil_r. cbn [List.app]. rewrite <- !app_assoc. cbn [List.app]. rewrite <- !app_assoc. set (X := drift e _) in *.
        assert (Y : from r 6%nat * from r 7%nat * (from r' 8%nat - from r 8%nat) * (X - 1) = 0).
        { transitivity (from r 6%nat * from r 7%nat * (1 + from r 8%nat) + from r 6%nat * from r 7%nat * (from r' 8%nat - from r 8%nat) * X - from r 6%nat * from r 7%nat * (1 + from r' 8%nat)); [ring|]. rewrite <- TWO. ring. }
        apply (mul_zero L) in Y; [transitivity (X - 1 + 1); [ring|rewrite Y; ring]|]. apply (mul_neq L); [now apply (mul_neq L)|]. now apply (minus_neq L).
      * cbn [length]. rewrite app_length. cbn [length]. rewrite app_length, !map_length, LC, (HK r I). unfold B. lia.
      * intros x In_. cbn [In] in In_. rewrite in_app_iff in In_. cbn [In] in In_. rewrite in_app_iff, !in_map_iff in In_.
        destruct In_ as [<-|[(? & <- & _)|[<-|[(? & <- & _)|(? & <- & _)]]]]; reflexivity.
      * rewrite map_length, LC. exact (HK r I).
      * intros x In_. apply in_map_iff in In_ as (? & <- & _). reflexivity.
      * intros x [].
    + apply dif_cons; [ring|]. apply dif_app; [apply dif_map; intros; ring|]. apply dif_cons; [ring|].
      apply dif_app; [apply dif_map; intros; ring|]. apply dif_app; apply dif_map; intros; ring.
  - intros K0 W r r' I I' Z1 Zc E B5. specialize (TWO r r' I I' ltac:(intros; apply E; lia)). unfold lT in TWO.
    rewrite (E 8%nat) in TWO by lia.
    assert (Z0 : from r 0%nat <> 0).
    { destruct (nth_error ws 0) as [w|] eqn:Hw; [|apply nth_error_None in Hw; rewrite (HK r I) in Hw; lia].
      intros Z. apply (NZ r 0%nat w I Hw). rewrite Z. ring. }
    rewrite (drift_dif e (from r 0%nat * from r 1%nat * (from r' 5%nat - from r 5%nat)) _ _ (seenlist (from r))) in TWO.
    + apply Zc. set (X := drift e _) in *. set (M := from r 6%nat * from r 7%nat * (1 + from r 8%nat)) in *.
      assert (Y : from r 0%nat * from r 1%nat * (from r' 5%nat - from r 5%nat) * X = 0).
      { transitivity (M + from r 0%nat * from r 1%nat * (from r' 5%nat - from r 5%nat) * X - M); [ring|].
        rewrite <- TWO. ring. }
      apply (mul_zero L) in Y; [exact Y|]. apply (mul_neq L); [now apply (mul_neq L)|now apply (minus_neq L)].
    + unfold seenlist. apply dif_cons; [ring|]. apply dif_app; [apply dif_map; intros; ring|]. apply dif_cons; [ring|].
      apply dif_app; [apply dif_map; intros; ring|]. apply dif_app; [apply dif_map; intros; ring|]. rewrite <- (map_id (mk_conjs ws (from r))) at 3.
      apply dif_map. intros. ring.
  - intros k r r' Hk Nw I I' E Bk X.
    destruct (nth_error ws k) as [w|] eqn:Hw; [|apply nth_error_None in Hw; rewrite (HK r I) in Hw; lia].
    assert (Zw : w <> 0) by (intros Z; apply (NZ r k w I Hw); rewrite Z; ring).
    assert (Y : w * (from r' (9 + k)%nat - from r (9 + k)%nat) * drift e (only (B + k)) = 0).
    { rewrite <- (drift_scale L). transitivity (drift e (fun n => nth n (seenlist (from r')) 0) - drift e (fun n => nth n (seenlist (from r)) 0)); [|rewrite X; ring].
      rewrite drift_minus. apply drift_ext. intros n.
      set (front := (1 :: map (exponent 0%nat) reqs ++ 0 :: map (fun _ => 0) reqs ++ map (fun _ => 0) ws)%list).
      assert (SL : forall t, seenlist t = (front ++ mk_conjs ws t)%list).
      { intros t. unfold seenlist, front. cbn [List.app]. rewrite <- !app_assoc. cbn [List.app]. rewrite <- !app_assoc. do 5 f_equal.
        rewrite (map_const_len (mk_conjs ws t) ws) by apply LC. reflexivity. }
      assert (LF : length front = B).
      { unfold front. cbn [length]. rewrite app_length. cbn [length]. rewrite app_length, !map_length, (HK r I). unfold B. lia. }
      rewrite !SL. unfold only. destruct (Nat.lt_ge_cases n B) as [H|H].
      - rewrite !app_nth1 by lia. destruct (Nat.eqb_spec n (B + k)); [lia|ring].
      - rewrite !app_nth2 by lia. rewrite LF. set (q := (n - B)%nat).
        assert (NQ : forall t : nat -> F, nth q (mk_conjs ws t) 0 = match nth_error ws q with Some u => u * t (9 + q)%nat | None => 0 end).
        { intros t. unfold mk_conjs. destruct (nth_error ws q) as [u|] eqn:Hu.
          - apply nth_error_nth. now rewrite nth_error_map, numbered_nth, Hu.
          - apply nth_overflow. rewrite map_length, numbered_length. now apply nth_error_None. }
        rewrite !NQ. destruct (Nat.eqb_spec n (B + k)) as [Eq|Nq].
        + replace q with k by (unfold q; lia). rewrite Hw. ring.
        + destruct (nth_error ws q) as [u|] eqn:Hu; [|ring]. assert (q < K)%nat by (rewrite <- (HK r I); apply nth_error_Some; congruence).
          rewrite (E (9 + q)%nat) by (unfold q in *; lia). ring. }
    apply (mul_zero L) in Y; [exact (Nw Y)|]. apply (mul_neq L); [exact Zw|now apply (minus_neq L)].
Qed.
End ChancesDnf.
