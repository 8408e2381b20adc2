(** * IsolateProofs: YCT14 keys for a conjunction of any length give one for each of its names (C60) *)
From Coq Require Import String List Bool Arith Lia Field.
From Verif Require Import Base Crypto Policy Tools Sharing Parse Spec PolicyProofs Poly SharingProofs SchemeLib ParseProofs Symmetric
  Draws DrawsProofs Yct14 Yct14Proofs Alternative AlternativeProofs Isolate.
Import ListNotations.

Section IsolateProofs.
Context {C : crypto} (L : laws C).
Local Open Scope F_scope.
Add Field isolate_field : (f_theory L).

(** ** Sums of products *)

Lemma scalar_zeros (a : list (F C)) n : scalar a (repeat 0 n) = 0.
Proof. revert n. induction a as [|x a IH]; intros [|n]; cbn; try reflexivity. rewrite IH. ring. Qed.

Lemma scalar_all_zero (a w : list (F C)) : Forall (eq 0) w -> scalar a w = 0.
Proof. intros H. revert a. induction H as [|y w E _ IH]; intros [|x a]; cbn; try reflexivity. rewrite IH, <- E. ring. Qed.

Lemma scalar_none (pts bs : list (F C)) : scalar (map (ev []) pts) bs = 0.
Proof. revert bs. induction pts as [|x pts IH]; intros [|b bs]; cbn; try reflexivity. rewrite IH. ring. Qed.

(** The sums of the weights times the powers of the points. *)
Fixpoint moments (n : nat) (pts bs : list (F C)) : list (F C) :=
  match n with
  | O => []
  | S m => fsum bs :: moments m pts (map (fun p => fst p * snd p) (combine pts bs))
  end.

Lemma moments_length n : forall pts bs, length (moments n pts bs) = n.
Proof. induction n; intros; cbn; [reflexivity|now rewrite IHn]. Qed.

Lemma scalar_step c (a pts : list (F C)) : forall bs, length pts = length bs ->
  scalar (map (ev (c :: a)) pts) bs = c * fsum bs + scalar (map (ev a) pts) (map (fun p => fst p * snd p) (combine pts bs)).
Proof.
  induction pts as [|x pts IH]; intros [|b bs] H; try discriminate; cbn [map scalar combine fsum fst snd].
  - ring.
  - rewrite IH by (cbn in H; lia). cbn [ev]. ring.
Qed.

Lemma scalar_moments (a : list (F C)) pts : forall bs, length pts = length bs ->
  scalar (map (ev a) pts) bs = scalar a (moments (length a) pts bs).
Proof.
  induction a as [|c a IH]; intros bs H; [apply scalar_none|].
  rewrite scalar_step by exact H. cbn [length moments scalar]. f_equal. apply IH.
  rewrite map_length, combine_length. lia.
Qed.

(** ** Weights that suit all keys *)

Lemma generic_secret n (s : F C) ps : 0 < n -> generic n ps -> Forall (fun p => exists d, p = s :: d) ps -> s <> 0.
Proof.
  intros Hn G H ->. assert (X : Forall (eq 0) (1 :: repeat (0 : F C) (n - 1))).
  { apply G; [cbn; rewrite repeat_length; lia|]. eapply Forall_impl; [|exact H]. cbn. intros p (d & ->). cbn.
    rewrite scalar_zeros. ring. }
  inversion X as [|? ? E _]; subst. apply (f_one_neq_zero L). now rewrite <- E.
Qed.

Lemma pinned n (s : F C) ps pts bs : 0 < n -> length pts = n -> length bs = n -> generic n ps ->
  Forall (fun p => exists d, p = s :: d) ps -> Forall (fun p => length p = n) ps ->
  Forall (fun p => scalar (map (ev p) pts) bs = 1) ps ->
  forall p, length p = n -> scalar (map (ev p) pts) bs = hd 0 p * finv C s.
Proof.
  intros Hn Lp Lb G Hs Hl H1 p Hp. pose proof (generic_secret n s ps Hn G Hs) as NS.
  destruct n as [|n]; [lia|]. rewrite scalar_moments by congruence. rewrite Hp.
  destruct (moments (S n) pts bs) as [|m0 r] eqn:Em; [discriminate|].
  assert (Lr : length r = n). { pose proof (moments_length (S n) pts bs) as X. rewrite Em in X. cbn in X. lia. }
  assert (X : Forall (eq 0) ((m0 - finv C s) :: r)).
  { apply G; [cbn; lia|]. apply Forall_forall. intros q Iq.
    rewrite Forall_forall in Hs, Hl, H1. destruct (Hs q Iq) as (d & ->). specialize (Hl _ Iq). specialize (H1 _ Iq).
    rewrite scalar_moments in H1 by congruence. rewrite Hl, Em in H1. cbn [scalar] in H1 |- *.
    transitivity ((s * m0 + scalar d r) - s * finv C s); [ring|]. rewrite H1. field. exact NS. }
  inversion X as [|? ? E0 Er]; subst. destruct p as [|c p]; [discriminate|]. cbn [scalar hd].
  rewrite (scalar_all_zero p r Er). replace m0 with (finv C s); [ring|].
  symmetry. apply (f_sub_eq_0 L). now rewrite <- E0.
Qed.

Lemma scalar_picks x (f : F C -> F C) pts : forall bs k, NoDup pts -> nth_error pts k = Some x ->
  f x = 1 -> (forall y, In y pts -> y <> x -> f y = 0) -> length bs = length pts ->
  nth_error bs k = Some (scalar (map f pts) bs).
Proof.
  induction pts as [|y pts IH]; intros [|b bs] [|k] ND Hk F1 F0 Hl; try discriminate.
  - cbn in Hk. injection Hk as ->. cbn. f_equal. rewrite F1.
    inversion ND as [|? ? Nin ND']; subst.
    assert (Z : forall m c, incl m pts -> scalar (map f m) c = 0).
    { induction m as [|v m IHm]; intros [|w c] Hi; cbn; try reflexivity. rewrite IHm by (intros q Hq; apply Hi; now right).
      rewrite (F0 v); [ring|right; apply Hi; now left|]. intros ->. apply Nin, Hi. now left. }
    rewrite Z by apply incl_refl. ring.
  - cbn in Hk |- *. inversion ND as [|? ? Nin ND']; subst.
    rewrite (IH bs k ND' Hk F1) by (intros; auto using in_cons || (cbn in Hl; lia)). 
    f_equal. rewrite (F0 y); [ring|now left|]. intros ->. apply Nin. eapply nth_error_In. exact Hk.
Qed.

Lemma points_NoDup n : small_ok C n -> NoDup (map (fun j => usize_to_fr j : F C) (seq 1 n)).
Proof.
  intros S. assert (H : forall l, NoDup l -> (forall j, In j l -> j <= n) -> NoDup (map (fun j => usize_to_fr j : F C) l)).
  { induction l as [|j l IH]; intros ND Hi; [constructor|]. inversion ND as [|? ? Nin ND']; subst. cbn. constructor.
    - intros I. apply in_map_iff in I as (j' & E & I). apply (usize_to_fr_inj L n) in E; [subst; contradiction|exact S| |].
      + apply Hi. now right. + apply Hi. now left.
    - apply IH; [exact ND'|]. intros; apply Hi; now right. }
  apply H; [apply seq_NoDup|]. intros j I. apply in_seq in I. lia.
Qed.

(** The weights of the points are the coefficients of Lagrange over the secret. *)
Lemma weights_known n (s : F C) ps bs k x : 0 < n -> small_ok C n -> length bs = n -> generic n ps ->
  let pts := map (fun j => usize_to_fr j : F C) (seq 1 n) in
  Forall (fun p => exists d, p = s :: d) ps -> Forall (fun p => length p = n) ps ->
  Forall (fun p => scalar (map (ev p) pts) bs = 1) ps ->
  nth_error pts k = Some x -> nth_error bs k = Some (lprod x pts 0 * finv C s).
Proof.
  intros Hn Sm Lb G pts Hs Hl H1 Hk.
  assert (ND : NoDup pts) by (apply points_NoDup, Sm).
  assert (Lp : length pts = n) by (unfold pts; now rewrite map_length, seq_length).
  destruct (lprod_polyn L x pts) as (l & Ll & El).
  rewrite (filter_neq_length L x pts ND) in Ll by (eapply nth_error_In; exact Hk).
  rewrite (scalar_picks x (ev l) pts bs k ND Hk).
  - f_equal. rewrite (pinned n s ps pts bs Hn Lp Lb G Hs Hl H1) by congruence. f_equal. rewrite El.
    destruct l as [|c l]; [cbn in *; lia|]. cbn. ring.
  - rewrite <- El. apply (lprod_self L).
  - intros y Iy Ny. rewrite <- El. now apply (lprod_other L).
  - congruence.
Qed.

Lemma lprod_nonzero x pts : (forall y, In y pts -> y <> 0) -> lprod x pts 0 <> (0 : F C).
Proof.
  induction pts as [|y pts IH]; intros H; cbn; [apply (f_one_neq_zero L)|].
  destruct (feqb C x y) eqn:E; [apply IH; intros; apply H; now right|].
  apply (feqb_neq L) in E. intros X. apply (f_mul_eq_0 L) in X as [X|X]; [|revert X; apply IH; intros; apply H; now right].
  apply (f_mul_eq_0 L) in X as [X|X].
  - apply (H y); [now left|]. transitivity (- (0 - y)); [ring|]. rewrite X. ring.
  - apply (f_one_neq_zero L). transitivity ((x - y) * finv C (x - y)); [field; now apply (f_sub_neq_0 L)|]. rewrite X. ring.
Qed.

(** ** Keys *)

Lemma du_values (msk : yct_msk C) a t ns : forall secs x i d,
  Forall2 (fun n c => msk_get_private msk n = Ok c) ns secs -> Forall (fun n => no_us n = true) ns ->
  yct_du msk (gsh_and a t (map (fun n => FLeaf n 0) ns) x i) = Ok d ->
  map yct_value d = map (fun p => ev a (usize_to_fr (fst p)) * finv C (snd p)) (combine (seq x (length ns)) secs) /\
  Forall (fun c => c <> 0) secs.
Proof.
  induction ns as [|n ns IH]; intros secs x i d H U K; inversion H as [|? c ? cs Hc Hcs]; subst.
  - cbn in K. injection K as <-. cbn. auto.
  - inversion U as [|? ? Un Us]; subst. cbn [map gsh_and gsh List.app] in K. cbn [yct_du fst snd] in K.
    rewrite remove_index_leaf in K by exact Un. unfold private_from in K at 1. cbn [fst snd] in K. rewrite Hc in K. cbn [obind] in K.
    destruct (finv_opt c) as [v|] eqn:Ev; [|discriminate K]. apply (finv_opt_Some L) in Ev as (Nc & ->). cbn [unwrap obind] in K.
    apply obind_Ok in K as (r & Hr & K). injection K as <-. destruct (IH _ _ _ _ Hcs Us Hr) as (E & F0).
    cbn [map length seq combine fst snd yct_value y_node]. split; [f_equal; exact E|]. constructor; assumption.
Qed.

Lemma scalar_moved a (xs : list nat) : forall (secs z : list (F C)), length secs = length xs -> length z = length xs ->
  scalar (map (fun p => ev a (usize_to_fr (fst p)) * finv C (snd p)) (combine xs secs)) z =
  scalar (map (ev a) (map (fun j => usize_to_fr j) xs)) (map (fun p => fst p * finv C (snd p)) (combine z secs)).
Proof.
  induction xs as [|x xs IH]; intros [|c secs] [|w z] H1 H2; try discriminate; [reflexivity|].
  cbn [combine map scalar fst snd]. rewrite IH by (cbn in *; lia). ring.
Qed.

Lemma key_values (msk : yct_msk C) ns secs k : ns <> [] ->
  Forall2 (fun n c => msk_get_private msk n = Ok c) ns secs -> Forall (fun n => no_us n = true) ns ->
  yct_key_of msk ns k ->
  map yct_value (ysk_du (fst k)) =
    map (fun p => ev (ymsk_s msk :: snd k) (usize_to_fr (fst p)) * finv C (snd p)) (combine (seq 1 (length ns)) secs) /\
  Forall (fun c => c <> 0) secs /\ length (ymsk_s msk :: snd k) = length ns.
Proof.
  intros Nn Hm U (pol & lang & f & t & i & j & P & Bl & K & E).
  destruct (yct_keygen_inv L _ _ _ _ _ _ _ _ P K) as (_ & D).
  rewrite (yct_du_bare _ _ (gsh (all_of ns) (ymsk_s msk) t i)) in D.
  - unfold all_of in D. rewrite gsh_FAnd, map_length in D. rewrite <- E in D.
    destruct (du_values _ _ _ _ _ _ _ _ Hm U D) as (V & N). split; [exact V|]. split; [exact N|].
    cbn [length]. rewrite E, map_length, seq_length. destruct ns; [contradiction|cbn; lia].
  - apply gsh_alike. rewrite Bl. unfold all_of. cbn [blank]. rewrite map_map. reflexivity.
Qed.

Lemma secrets_of U ts is js (pk : yct_pk C) msk ns : yct_setup U ts is = Ok ((pk, msk), js) -> incl ns U ->
  exists secs, Forall2 (fun n c => msk_get_private msk n = Ok c) ns secs.
Proof.
  intros Hs. apply (yct_setup_keys L) in Hs as (G & _ & K).
  induction ns as [|n ns IH]; intros I; [exists []; constructor|].
  destruct IH as (secs & H); [intros x Hx; apply I; now right|].
  destruct (K n) as [(_ & gA & sA & _ & MA & _)|(X & _)]; [|exfalso; apply X, I; now left].
  exists (sA :: secs). constructor; assumption.
Qed.

Lemma generic_some n (ps : list (list (F C))) : 0 < n -> generic n ps -> ps <> [].
Proof.
  intros Hn G ->. assert (X : Forall (eq 0) (repeat (1 : F C) n)) by (apply G; [apply repeat_length|constructor]).
  destruct n; [lia|]. inversion X as [|? ? E _]; subst. apply (f_one_neq_zero L). now rewrite <- E.
Qed.

Theorem yct_isolates U (pk : yct_pk C) msk ns keys ts is js :
  yct_setup U ts is = Ok ((pk, msk), js) -> incl ns U -> ns <> [] -> Forall (fun n => no_us n = true) ns ->
  small_ok C (length ns) -> Forall (yct_key_of msk ns) keys ->
  generic (length ns) (map (fun k => ymsk_s msk :: snd k) keys) ->
  (exists z, length z = length ns /\ Forall (fun k => scalar (map yct_value (ysk_du (fst k))) z = 1) keys) /\
  forall z, length z = length ns -> Forall (fun k => scalar (map yct_value (ysk_du (fst k))) z = 1) keys ->
  forall k name p pol lang, nth_error ns k = Some name -> parse pol lang = Ok (tree (FLeaf name p)) ->
  exists sk, yct_isolate (length ns) k z name pol lang = Ok sk /\ forall t i, yct_keygen msk pol lang t i = Ok (sk, i).
Proof.
  intros Hs I Nn Us Sm Hk G. destruct (secrets_of _ _ _ _ _ _ _ Hs I) as (secs & Hm). clear Hs.
  assert (Hn : 0 < length ns) by (destruct ns; [contradiction|cbn; lia]).
  assert (Ls : length secs = length ns) by (clear - Hm; induction Hm; cbn; congruence).
  set (n := length ns) in *. set (s := ymsk_s msk) in *. set (ps := map (fun k => s :: snd k) keys) in *.
  set (pts := map (fun j => usize_to_fr j : F C) (seq 1 n)).
  assert (Lp : length pts = n) by (unfold pts; now rewrite map_length, seq_length).
  assert (V : forall k, In k keys -> map yct_value (ysk_du (fst k)) =
    map (fun p => ev (s :: snd k) (usize_to_fr (fst p)) * finv C (snd p)) (combine (seq 1 n) secs) /\
    Forall (fun c => c <> 0) secs /\ length (s :: snd k) = n).
  { intros k Ik. rewrite Forall_forall in Hk. exact (key_values msk ns secs k Nn Hm Us (Hk k Ik)). }
  assert (Hd : Forall (fun p => exists d, p = s :: d) ps).
  { apply Forall_forall. intros p Ip. apply in_map_iff in Ip as (k & <- & _). eauto. }
  assert (Hl : Forall (fun p => length p = n) ps).
  { apply Forall_forall. intros p Ip. apply in_map_iff in Ip as (k & <- & Ik). apply (V k Ik). }
  pose proof (generic_secret n s ps Hn G Hd) as NS.
  assert (Nz : Forall (fun c => c <> 0) secs).
  { destruct keys as [|k keys]; [exfalso; apply (generic_some n ps Hn G); reflexivity|]. apply (V k). now left. }
  assert (Conv : forall z, length z = n -> forall k, In k keys ->
    scalar (map yct_value (ysk_du (fst k))) z = scalar (map (ev (s :: snd k)) pts) (map (fun p => fst p * finv C (snd p)) (combine z secs))).
  { intros z Lz k Ik. rewrite (proj1 (V k Ik)). apply scalar_moved; rewrite seq_length; congruence. }
  split.
  - exists (map (fun p => lprod (fst p) pts 0 * finv C s * snd p) (combine pts secs)).
    assert (Lz : length (map (fun p => lprod (fst p) pts 0 * finv C s * snd p) (combine pts secs)) = n)
      by (rewrite map_length, combine_length; lia).
    split; [exact Lz|]. apply Forall_forall. intros k Ik. rewrite (Conv _ Lz k Ik).
    assert (Eb : forall q sc, length sc = length q -> Forall (fun c => c <> 0) sc ->
      map (fun p => fst p * finv C (snd p)) (combine (map (fun p => lprod (fst p) pts 0 * finv C s * snd p) (combine q sc)) sc)
      = map (fun x => lprod x pts 0 * finv C s) q).
    { clear - L NS. induction q as [|x q IH]; intros [|c sc] H N; try discriminate; [reflexivity|].
      inversion N as [|? ? Nc Ns]; subst. cbn [combine map fst snd]. rewrite IH by (cbn in H; auto with arith).
      f_equal. field. auto. }
    rewrite Eb by congruence.
    assert (Es : forall q p, scalar (map (ev p) q) (map (fun x => lprod x pts 0 * finv C s) q)
      = fsum (map (fun x => ev p x * lprod x pts 0) q) * finv C s).
    { clear - L NS. induction q as [|x q IH]; intros p; cbn [map scalar fsum]; [ring|]. rewrite IH. ring. }
    rewrite Es, (lagrange_interp L pts (ev (s :: snd k)) 0).
    + cbn. field. exact NS.
    + apply points_NoDup, Sm.
    + exists (s :: snd k). split; [rewrite (proj2 (proj2 (V k Ik))); congruence|reflexivity].
  - intros z Lz Hz k name p pol lang Hname P.
    assert (Hkn : k < n) by (apply nth_error_Some; congruence).
    assert (H1 : Forall (fun p => scalar (map (ev p) pts) (map (fun p => fst p * finv C (snd p)) (combine z secs)) = 1) ps).
    { apply Forall_forall. intros q Iq. apply in_map_iff in Iq as (k' & <- & Ik'). rewrite <- (Conv z Lz k' Ik').
      rewrite Forall_forall in Hz. now apply Hz. }
    assert (Lb : length (map (fun p => fst p * finv C (snd p)) (combine z secs)) = n) by (rewrite map_length, combine_length; lia).
    destruct (nth_error pts k) as [x|] eqn:Ex; [|apply nth_error_None in Ex; lia].
    pose proof (weights_known n s ps _ k x Hn Sm Lb G Hd Hl H1 Ex) as W. fold pts in W.
    destruct (nth_error z k) as [w|] eqn:Ew; [|apply nth_error_None in Ew; lia].
    destruct (nth_error secs k) as [c|] eqn:Ec; [|apply nth_error_None in Ec; lia].
    assert (Nc : c <> 0) by (rewrite Forall_forall in Nz; apply Nz; eapply nth_error_In; exact Ec).
    assert (W' : w * finv C c = lprod x pts 0 * finv C s).
    { assert (Q : nth_error (combine z secs) k = Some (w, c)).
      { clear - Ew Ec. revert secs k Ew Ec. induction z as [|a z IH]; intros [|b secs] [|k] Ew Ec; try discriminate; cbn in *; [congruence|auto]. }
      rewrite (map_nth_error _ _ _ Q) in W. cbn in W. congruence. }
    assert (Nl : lprod x pts 0 <> 0).
    { apply lprod_nonzero. intros y Iy. apply in_map_iff in Iy as (jj & <- & Ij). apply in_seq in Ij. apply Sm. lia. }
    assert (MA : msk_get_private msk name = Ok c).
    { clear - Hm Hname Ec. revert k Hname Ec. induction Hm as [|a b ns secs H _ IH]; intros [|k] Hname Ec; try discriminate; cbn in *; [congruence|eauto]. }
    assert (UA : no_us name = true) by (rewrite Forall_forall in Us; apply Us; eapply nth_error_In; exact Hname).
    unfold yct_isolate. rewrite (recover_coefficients_eq L), (and_points_eq L) by exact Hn. cbn [obind].
    fold pts. rewrite (map_nth_error (fun i => lprod i pts 0) _ _ Ex). rewrite Ew. eexists. split; [reflexivity|]. intros t i.
    unfold yct_keygen. rewrite P. cbn [tree]. erewrite rbind_run by reflexivity.
    cbn [gen_shares_policy]. erewrite rbind_run by reflexivity.
    cbn [yct_du fst snd]. rewrite remove_index_leaf by exact UA.
    unfold private_from. cbn [fst snd]. rewrite MA. cbn [obind].
    rewrite (finv_opt_neq L) by exact Nc. cbn [unwrap obind].
    erewrite rbind_run by reflexivity. unfold rret. do 6 f_equal. f_equal. fold s.
    assert (Ew' : w = lprod x pts 0 * finv C s * c).
    { rewrite <- W'. field. exact Nc. }
    rewrite Ew'. field. repeat split; assumption.
Qed.

(** Three lists that determine every list of three. *)
Lemma three_generic (s : F C) : s <> 0 -> generic 3 [[s; 0; 0]; [s; 1; 0]; [s; 0; 1]].
Proof.
  intros NS [|a [|b [|c [|]]]] H Z; try discriminate. inversion Z as [|? ? Z1 Z']; subst. inversion Z' as [|? ? Z2 Z'']; subst.
  inversion Z'' as [|? ? Z3 _]; subst. cbn in Z1, Z2, Z3.
  assert (A : a = 0). { transitivity (finv C s * (s * a + (0 * b + (0 * c + 0)))); [field; exact NS|]. rewrite Z1. ring. }
  subst a.
  assert (B : b = 0). { rewrite <- Z2. ring. } assert (D : c = 0). { rewrite <- Z3. ring. }
  subst. repeat constructor.
Qed.
End IsolateProofs.
