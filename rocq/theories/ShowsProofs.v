(** * ShowsProofs: which of the values drawn by an operation can be told from its result *)
From Coq Require Import String Ascii List Bool Arith Lia ZArith Field.
From Verif Require Import Base Crypto Policy Tools Sharing Spec PolicyProofs Poly SharingProofs CoreProofs Symmetric Parse
  SchemeLib Dnf Bdabe Mke08 Bsw BswProofs Ghw11 Lsw LswProofs Yct14 Ac17 Ac17Proofs Aw11 EquationProofs AcEquationProofs
  Msp MspProofs DrawsProofs Draws.
Import ListNotations.
Local Open Scope F_scope.

Section Shows.
Context {C : crypto} (L : laws C).
Notation F := (F C).
Add Field Ffield : (f_theory L).

(** ** Polynomials and sharings *)

Lemma zero_roots n : forall (l : list F) pts, length l = n -> NoDup pts -> length pts = n ->
  (forall a, In a pts -> ev l a = 0) -> l = repeat 0 n.
Proof.
  assert (Top : forall (l : list F) a q, length q = pred (length l) ->
    (forall k, nth k q 0 = ev (skipn (S k) l) a) -> q = repeat 0 (pred (length l)) -> tl l = repeat 0 (pred (length l))).
  { induction l as [|c l IH]; intros a q Hq N Z; [reflexivity|]. cbn [tl length pred] in *.
    destruct l as [|d l]; [reflexivity|]. cbn [length repeat] in *. destruct q as [|e q]; [discriminate|].
    injection Z as Z0 Z. assert (T : tl (d :: l) = repeat 0 (length l)).
    { apply (IH a q); [cbn in *; lia| |exact Z]. intros k. exact (N (S k)). }
    cbn [tl] in T. f_equal; [|exact T]. specialize (N 0%nat). cbn [nth skipn ev] in N.
    rewrite T, (ev_zeros L), Z0 in N.
    transitivity (d + a * 0); [ring|now symmetry]. }
  assert (Fac : forall (l : list F) a, exists q, length q = pred (length l) /\
    (forall k, nth k q 0 = ev (skipn (S k) l) a) /\ forall x, ev l x = ev l a + (x - a) * ev q x).
  { induction l as [|c l IH]; intros a.
    - exists []. split; [reflexivity|]. split; [now intros [|k]|]. intros. cbn. ring.
    - destruct (IH a) as (q & Hq & N & E). destruct l as [|d l].
      + exists []. split; [reflexivity|]. split; [now intros [|[|k]]|]. intros. cbn. ring.
      + exists (ev (d :: l) a :: q). split; [cbn in *; lia|]. split; [intros [|k]; [reflexivity|apply N]|].
        intros x. change (ev (c :: d :: l) x) with (c + x * ev (d :: l) x).
        change (ev (c :: d :: l) a) with (c + a * ev (d :: l) a). rewrite (E x). cbn [ev]. ring. }
  induction n as [|n IH]; intros l pts Hl ND Hp Z; [now destruct l|].
  destruct pts as [|a pts]; [discriminate|]. inversion ND as [|? ? Nin ND']; subst.
  destruct (Fac l a) as (q & Hq & N & E).
  assert (Za : ev l a = 0) by (apply Z; now left).
  assert (Zq : q = repeat 0 n).
  { apply (IH q pts); [lia|assumption|cbn in Hp; lia|]. intros b Hb.
    assert (Zb : ev l b = 0) by (apply Z; now right). rewrite (E b), Za in Zb.
    destruct (f_mul_eq_0 L (b - a) (ev q b)) as [H0|H0]; [rewrite <- Zb; ring| |exact H0].
    apply (f_sub_eq_0 L) in H0. now subst. }
  destruct l as [|c l]; [discriminate|]. cbn in Hl. injection Hl as Hl.
  pose proof (Top (c :: l) a q Hq N) as T. cbn [length pred tl] in T. rewrite Hl in T. specialize (T Zq). subst l.
  cbn [repeat]. f_equal. cbn [ev] in Za. rewrite (ev_zeros L) in Za. rewrite <- Za. ring.
Qed.

Lemma ev_inj (a b : list F) pts : length a = length b -> NoDup pts -> length pts = length a ->
  (forall x, In x pts -> ev a x = ev b x) -> a = b.
Proof.
  intros Hl ND Hp E.
  set (d := map (fun p => fst p - snd p) (combine a b)).
  assert (Ed : forall x, ev d x = ev a x - ev b x).
  { intros x. unfold d. clear - Hl L. revert b Hl. induction a as [|u a IH]; intros [|v b] Hl; try discriminate; cbn; [ring|].
    rewrite IH by (cbn in Hl; lia). ring. }
  assert (Z : d = repeat 0 (length a)).
  { apply (zero_roots _ d pts); auto.
    - unfold d. rewrite map_length, combine_length. lia.
    - intros x Hx. rewrite Ed, (E x Hx). ring. }
  unfold d in Z. clear d Ed E ND Hp pts. revert b Hl Z. induction a as [|u a IH]; intros [|v b] Hl Z; try discriminate; [reflexivity|].
  cbn in Z. injection Z as Z0 Z. apply (f_sub_eq_0 L) in Z0. subst v. f_equal. apply IH; [cbn in Hl; lia|exact Z].
Qed.

Lemma gsh_length f (s : F) t i : length (gsh f s t i) = length (leaves f).
Proof. rewrite <- (map_length fst), gsh_idents. unfold idents. apply map_length. Qed.

Lemma app_same {A} (a b a' b' : list A) : length a = length a' -> (a ++ b = a' ++ b')%list -> a = a' /\ b = b'.
Proof.
  revert a'. induction a as [|x a IH]; intros [|x' a'] Hl E; try discriminate; [auto|].
  cbn in E. injection E as <- E. destruct (IH a' ltac:(cbn in Hl; lia) E) as [-> ->]. auto.
Qed.

Lemma map_seq_at (t t' : nat -> F) n : forall i i', map t (seq i n) = map t' (seq i' n) ->
  forall k, (k < n)%nat -> t' (i' + k)%nat = t (i + k)%nat.
Proof.
  induction n as [|n IH]; intros i i' E k Hk; [lia|]. cbn in E. injection E as E0 E. destruct k as [|k].
  - rewrite !Nat.add_0_r. now symmetry.
  - rewrite <- !plus_n_Sm. apply (IH (S i) (S i') E). lia.
Qed.

(** From the shares follow the secret and all values drawn for them. *)
Lemma gsh_inj f : arity2 f = true -> small_ok C (and_width f) -> forall (s : F) t i s' t' i',
  gsh f s t i = gsh f s' t' i' -> s = s' /\ forall k, (k < coins f)%nat -> t' (i' + k)%nat = t (i + k)%nat.
Proof.
  induction f as [n p|l IH|l IH] using formula_ind'; intros A S s t i s' t' i' E.
  - cbn in E. injection E as ->. split; [reflexivity|]. cbn. lia.
  - cbn [arity2] in A. apply andb_prop in A as [A1 A2]. apply Nat.leb_le in A1.
    rewrite !gsh_FAnd in E. cbn [coins]. cbn [and_width] in S.
    set (a := s :: map t (seq i (length l - 1))) in *. set (a' := s' :: map t' (seq i' (length l - 1))) in *.
    assert (G : forall x j j', gsh_and a t l x j = gsh_and a' t' l x j' ->
      (forall y, (x <= y < x + length l)%nat -> ev a (usize_to_fr y) = ev a' (usize_to_fr y)) /\
      forall k, (k < list_sum (map coins l))%nat -> t' (j' + k)%nat = t (j + k)%nat).
    { assert (S' : forall g, In g l -> small_ok C (and_width g)).
      { intros g Hg k Hk. apply S. split; [lia|]. etransitivity; [apply Hk|].
        etransitivity; [|apply Nat.le_max_r]. clear - Hg. induction l as [|h l IHl]; [destruct Hg|].
        cbn. destruct Hg as [->|Hg]; [apply Nat.le_max_l|]. etransitivity; [apply IHl, Hg|apply Nat.le_max_r]. }
      clear A1 S E. clearbody a a'. induction IH as [|g l Hg _ IHl]; intros x j j' E; [split; cbn; intros; lia|].
      cbn [forallb] in A2. apply andb_prop in A2 as [Ag A2]. cbn [gsh_and] in E.
      apply app_same in E as [E1 E2]; [|now rewrite !gsh_length].
      destruct (Hg Ag (S' g (or_introl eq_refl)) _ _ _ _ _ _ E1) as [V D].
      destruct (IHl A2 (fun h Hh => S' h (or_intror Hh)) _ _ _ E2) as [V' D'].
      split.
      - intros y Hy. destruct (Nat.eq_dec y x) as [->|N]; [exact V|]. apply V'. cbn [length] in Hy. lia.
      - intros k Hk. cbn [map] in Hk. rewrite lsum_cons in Hk. destruct (Nat.lt_ge_cases k (coins g)) as [K|K]; [now apply D|].
        specialize (D' (k - coins g)%nat ltac:(lia)). change (nd g) with (coins g) in D'.
        now replace (j' + coins g + (k - coins g))%nat with (j' + k)%nat in D' by lia;
        replace (j + coins g + (k - coins g))%nat with (j + k)%nat in D' by lia. }
    destruct (G _ _ _ E) as [V D].
    assert (EA : a = a').
    { apply (ev_inj a a' (map usize_to_fr (seq 1 (length l)))).
      - unfold a, a'. cbn. now rewrite !map_length, !seq_length.
      - apply (usize_NoDup L (length l)); [intros k Hk; apply S; lia|apply seq_NoDup|].
        intros k Hk. apply in_seq in Hk. lia.
      - unfold a. cbn. rewrite !map_length, !seq_length. lia.
      - intros x Hx. apply in_map_iff in Hx as (y & <- & Hy). apply in_seq in Hy. apply V. lia. }
    unfold a, a' in EA. injection EA as E0 EA. split; [exact E0|]. intros k Hk.
    destruct (Nat.lt_ge_cases k (length l - 1)) as [K|K]; [now apply (map_seq_at t t' _ i i' EA)|].
    specialize (D (k - (length l - 1))%nat ltac:(lia)).
    now replace (i' + (length l - 1) + (k - (length l - 1)))%nat with (i' + k)%nat in D by lia;
    replace (i + (length l - 1) + (k - (length l - 1)))%nat with (i + k)%nat in D by lia.
  - cbn [arity2] in A. apply andb_prop in A as [A1 A2]. apply Nat.leb_le in A1.
    rewrite !gsh_FOr in E. cbn [coins]. cbn [and_width] in S.
    assert (G : forall j j', gsh_or s t l j = gsh_or s' t' l j' -> (l <> [] -> s = s') /\
      forall k, (k < list_sum (map coins l))%nat -> t' (j' + k)%nat = t (j + k)%nat).
    { clear A1 E. induction IH as [|g l Hg _ IHl]; intros j j' E; [split; [congruence|cbn; intros; lia]|].
      cbn [forallb] in A2. apply andb_prop in A2 as [Ag A2]. cbn [gsh_or] in E.
      apply app_same in E as [E1 E2]; [|now rewrite !gsh_length]. cbn [fold_right] in S.
      destruct (Hg Ag (fun k Hk => S k ltac:(lia)) _ _ _ _ _ _ E1) as [V D].
      destruct (IHl A2 (fun k Hk => S k ltac:(lia)) _ _ E2) as [V' D'].
      split; [auto|]. intros k Hk. cbn [map] in Hk. rewrite lsum_cons in Hk. destruct (Nat.lt_ge_cases k (coins g)) as [K|K]; [now apply D|].
      specialize (D' (k - coins g)%nat ltac:(lia)). change (nd g) with (coins g) in D'.
      now replace (j' + coins g + (k - coins g))%nat with (j' + k)%nat in D' by lia;
      replace (j + coins g + (k - coins g))%nat with (j + k)%nat in D' by lia. }
    destruct (G _ _ E) as [V D]. split; [|exact D]. apply V. destruct l; [cbn in A1; lia|discriminate].
Qed.

Lemma dealt_inj f : arity2 f = true -> small_ok C (and_width f) -> forall (s : F) t i sh j s' t' i' j',
  dealt t f s i sh j -> dealt t' f s' i' sh j' -> s = s' /\ forall k, (k < coins f)%nat -> t' (i' + k)%nat = t (i + k)%nat.
Proof.
  intros A S s t i sh j s' t' i' j' H H'. apply dealt_unique in H as [-> _]. apply dealt_unique in H' as [E _].
  now apply gsh_inj.
Qed.

Lemma dealt_place (t : nat -> F) f s i sh j : dealt t f s i sh j -> j = (i + coins f)%nat /\ length sh = length (leaves f).
Proof. intros H. apply dealt_unique in H as [-> ->]. split; [reflexivity|apply gsh_length]. Qed.

Lemma same_lists {A} (l l' : list A) : length l = length l' ->
  (forall k x x', nth_error l k = Some x -> nth_error l' k = Some x' -> x = x') -> l = l'.
Proof.
  revert l'. induction l as [|a l IH]; intros [|b l'] Hl H; try discriminate; [reflexivity|]. f_equal.
  - exact (H 0%nat a b eq_refl eq_refl).
  - apply IH; [cbn in Hl; lia|]. intros k x x' E E'. exact (H (S k) x x' E E').
Qed.

(** ** Groups *)

Lemma f_mul_cancel (a x y : F) : a <> 0 -> a * x = a * y -> x = y.
Proof.
  intros N E. apply (f_sub_eq_0 L). destruct (f_mul_eq_0 L a (x - y)) as [Z|Z]; [|contradiction|exact Z].
  transitivity (a * x - a * y); [ring|]. rewrite E. ring.
Qed.

Lemma log1_nz a : a <> g1zero C -> log1 L a <> 0.
Proof. intros N Z. apply N. apply (log1_inj L). now rewrite (log1_zero L). Qed.
Lemma log2_nz a : a <> g2zero C -> log2 L a <> 0.
Proof. intros N Z. apply N. apply (log2_inj L). now rewrite (log2_zero L). Qed.
Lemma logT_nz a : a <> gtone C -> logT L a <> 0.
Proof. intros N Z. apply N. apply (logT_inj L). now rewrite (logT_one L). Qed.

Lemma g1mul_inj a x y : a <> g1zero C -> g1mul C a x = g1mul C a y -> x = y.
Proof. intros N E. apply (f_equal (log1 L)) in E. rewrite !(log1_mul L) in E. now apply f_mul_cancel in E; [|apply log1_nz]. Qed.
Lemma g2mul_inj a x y : a <> g2zero C -> g2mul C a x = g2mul C a y -> x = y.
Proof. intros N E. apply (f_equal (log2 L)) in E. rewrite !(log2_mul L) in E. now apply f_mul_cancel in E; [|apply log2_nz]. Qed.
Lemma gtpow_inj a x y : a <> gtone C -> gtpow C a x = gtpow C a y -> x = y.
Proof. intros N E. apply (f_equal (logT L)) in E. rewrite !(logT_pow L) in E. now apply f_mul_cancel in E; [|apply logT_nz]. Qed.
Lemma g1add_inj a x y : g1add C a x = g1add C a y -> x = y.
Proof.
  intros E. apply (f_equal (log1 L)) in E. rewrite !(log1_add L) in E. apply (log1_inj L).
  transitivity ((log1 L a + log1 L x) - log1 L a); [ring|]. rewrite E. ring.
Qed.
Lemma g1add_inj_l a x y : g1add C x a = g1add C y a -> x = y.
Proof.
  intros E. apply (f_equal (log1 L)) in E. rewrite !(log1_add L) in E. apply (log1_inj L).
  transitivity ((log1 L x + log1 L a) - log1 L a); [ring|]. rewrite E. ring.
Qed.
Lemma g2add_inj a x y : g2add C a x = g2add C a y -> x = y.
Proof.
  intros E. apply (f_equal (log2 L)) in E. rewrite !(log2_add L) in E. apply (log2_inj L).
  transitivity ((log2 L a + log2 L x) - log2 L a); [ring|]. rewrite E. ring.
Qed.
Lemma gtmul_inj a x y : gtmul C a x = gtmul C a y -> x = y.
Proof.
  intros E. apply (f_equal (logT L)) in E. rewrite !(logT_mul L) in E. apply (logT_inj L).
  transitivity ((logT L a + logT L x) - logT L a); [ring|]. rewrite E. ring.
Qed.
Lemma gtmul_inj_l a x y : gtmul C x a = gtmul C y a -> x = y.
Proof.
  intros E. apply (f_equal (logT L)) in E. rewrite !(logT_mul L) in E. apply (logT_inj L).
  transitivity ((logT L x + logT L a) - logT L a); [ring|]. rewrite E. ring.
Qed.

Lemma g1one_nz : g1one C <> g1zero C.
Proof. intros E. apply (f_equal (log1 L)) in E. rewrite (log1_one L), (log1_zero L) in E. now apply (f_one_neq_zero L). Qed.
Lemma g2one_nz : g2one C <> g2zero C.
Proof. intros E. apply (f_equal (log2 L)) in E. rewrite (log2_one L), (log2_zero L) in E. now apply (f_one_neq_zero L). Qed.
Lemma egg_nz : pairing C (g1one C) (g2one C) <> gtone C.
Proof.
  intros E. apply (f_equal (logT L)) in E. rewrite (logT_pairing L), (log1_one L), (log2_one L), (logT_one L) in E.
  apply (f_one_neq_zero L). rewrite <- E. ring.
Qed.

Lemma gen1 x y : g1mul C (g1one C) x = g1mul C (g1one C) y -> x = y.
Proof. apply g1mul_inj, g1one_nz. Qed.
Lemma gen2 x y : g2mul C (g2one C) x = g2mul C (g2one C) y -> x = y.
Proof. apply g2mul_inj, g2one_nz. Qed.
Lemma genT x y : gtpow C (pairing C (g1one C) (g2one C)) x = gtpow C (pairing C (g1one C) (g2one C)) y -> x = y.
Proof. apply gtpow_inj, egg_nz. Qed.

Lemma at0 (t t' : nat -> F) i i' : t' i' = t i -> t' (i' + 0)%nat = t (i + 0)%nat.
Proof. now rewrite !Nat.add_0_r. Qed.

(** [k] below a number: one goal for each value. *)
Ltac each k Hk := repeat (destruct k as [|k]; [first [apply at0|idtac]|try lia]); try lia.

(** ** BSW *)

(** A setup in which the second generator is zero hides the master key. *)
Lemma bsw_setup_shows t i x j t' i' j' : bsw_setup (C := C) t i = Ok (x, j) -> bsw_setup t' i' = Ok (x, j') ->
  t (i + 1)%nat <> 0 -> forall k, (k < 4)%nat -> t' (i' + k)%nat = t (i + k)%nat.
Proof.
  destruct x as [pk msk]. intros H H' N k Hk. apply (bsw_setup_eq L) in H as (_ & _ & A & B & Bt & _ & _ & Al & _).
  apply (bsw_setup_eq L) in H' as (_ & _ & A' & B' & Bt' & _ & _ & Al' & _).
  rewrite A in A'. apply gen1 in A'. rewrite Al in Al'. pose proof B as B0. rewrite B in B'. apply gen2 in B'.
  rewrite Bt in Bt'. apply g2mul_inj in Al'.
  - each k Hk; now symmetry.
  - rewrite B0. intros Z. apply N. apply gen2. rewrite Z. apply (log2_inj L).
    rewrite (log2_zero L), (log2_mul L). ring.
Qed.

Lemma bsw_keygen_shows (pk : bsw_pk C) msk a l : Bsw.bpk_g1 pk <> g1zero C -> Bsw.bpk_g2 pk <> g2zero C ->
  shows (bsw_keygen pk msk (a :: l)) (1 + length (a :: l)).
Proof.
  intros N1 N2 t i x j t' i' j' H H' k Hk.
  assert (S : exists sk, x = Some sk).
  { unfold bsw_keygen in H. apply rbind_Ok in H as (r & i1 & _ & H). apply rbind_Ok in H as (b & i2 & _ & H).
    apply rbind_Ok in H as (d & i3 & _ & H). apply rret_Ok in H as [<- _]. eauto. }
  destruct S as [sk ->]. apply (bsw_keygen_eq L) in H as (_ & _ & D & _ & H). apply (bsw_keygen_eq L) in H' as (_ & _ & D' & _ & H').
  destruct k as [|k].
  - apply at0. rewrite D in D'. apply g2add_inj in D'. apply g2mul_inj in D'; [now symmetry|exact N2].
  - destruct (nth_error (a :: l) k) as [b|] eqn:E; [|apply nth_error_None in E; lia].
    destruct (H k b E) as (h & _ & V). destruct (H' k b E) as (h' & _ & V'). rewrite V in V'. injection V' as V' _.
    apply g1mul_inj in V'; [|exact N1]. rewrite <- !Nat.add_assoc in V'. cbn in V'. now symmetry.
Qed.

Lemma bsw_delegate_shows (pk : bsw_pk C) sk a l : Bsw.bpk_g1 pk <> g1zero C -> bpk_f pk <> g2zero C ->
  NoDup (map b_string (bsk_dj sk)) -> is_subset (a :: l) (map b_string (bsk_dj sk)) = true ->
  shows (bsw_delegate pk sk (a :: l)) (1 + length (a :: l)).
Proof.
  intros N1 N2 ND SB t i x j t' i' j' H H' k Hk.
  assert (S : exists sk, x = Some sk).
  { unfold bsw_delegate in H. rewrite SB in H. cbn [negb] in H. apply rbind_Ok in H as (r & i1 & _ & H).
    apply rbind_Ok in H as (d & i3 & _ & H). apply rret_Ok in H as [<- _]. eauto. }
  destruct S as [sk' ->]. apply bsw_delegate_eq in H as (_ & D & _ & H). apply bsw_delegate_eq in H' as (_ & D' & _ & H').
  destruct k as [|k].
  - apply at0. rewrite D in D'. apply g2add_inj in D'. apply g2mul_inj in D'; [now symmetry|exact N2].
  - destruct (nth_error (a :: l) k) as [b|] eqn:E; [|apply nth_error_None in E; lia].
    destruct (H k b E) as (h & d & _ & I & Ed & V). destruct (H' k b E) as (h' & d' & _ & I' & Ed' & V').
    assert (d = d').
    { clear - ND I I' Ed Ed'. subst b. induction (bsk_dj sk) as [|y r IH]; [destruct I|].
      cbn in ND. inversion ND as [|? ? Nin ND']; subst. destruct I as [->|I], I' as [->|I']; auto.
      - destruct Nin. rewrite <- Ed'. now apply in_map.
      - destruct Nin. rewrite Ed'. now apply in_map. }
    subst d'. rewrite V in V'. injection V' as V' _. apply g1add_inj in V'.
    apply g1mul_inj in V'; [|exact N1]. rewrite <- !Nat.add_assoc in V'. cbn in V'. now symmetry.
Qed.

Lemma bsw_encrypt_shows nonce (pk : bsw_pk C) pol lang data f : Bsw.bpk_g1 pk <> g1zero C ->
  parse pol lang = Ok (tree f) -> arity2 f = true -> small_ok C (and_width f) ->
  shows (bsw_encrypt nonce pk pol lang data) (2 + coins f).
Proof.
  intros N1 P A S t i ct j t' i' j' H H' k Hk.
  apply (bsw_encrypt_eq L) with (1 := P) in H as (sh & m & Em & D & _ & _ & Cp & _ & Ln & H).
  apply (bsw_encrypt_eq L) with (1 := P) in H' as (sh' & m' & Em' & D' & _ & _ & Cp' & _ & Ln' & H').
  assert (sh = sh').
  { apply same_lists; [congruence|]. intros q [n x] [n' x'] E E'. destruct (H q n x E) as (h & _ & V).
    destruct (H' q n' x' E') as (h' & _ & V'). rewrite V in V'. injection V' as <- V' _. apply g1mul_inj in V'; [|exact N1]. now subst. }
  subst sh'. destruct (dealt_inj f A S _ _ _ _ _ _ _ _ _ D D') as [Es T].
  rewrite Cp, Es in Cp'. apply gtmul_inj in Cp'. subst m m'. apply genT in Cp'.
  destruct k as [|[|k]].
  - apply at0. now symmetry.
  - now symmetry.
  - specialize (T k ltac:(lia)). rewrite <- !Nat.add_assoc in T. exact T.
Qed.

(** ** GHW11 *)

Lemma zero_exp2 x : g2mul C (g2one C) x = g2zero C -> x = 0.
Proof. intros Z. apply (f_equal (log2 L)) in Z. rewrite (log2_mul L), (log2_one L), (log2_zero L) in Z. rewrite <- Z. ring. Qed.
Lemma zero_exp1 x : g1mul C (g1one C) x = g1zero C -> x = 0.
Proof. intros Z. apply (f_equal (log1 L)) in Z. rewrite (log1_mul L), (log1_one L), (log1_zero L) in Z. rewrite <- Z. ring. Qed.

Lemma ghw_setup_shows t i x j t' i' j' : ghw_setup (C := C) t i = Ok (x, j) -> ghw_setup t' i' = Ok (x, j') ->
  t (i + 1)%nat <> 0 -> forall k, (k < 4)%nat -> t' (i' + k)%nat = t (i + k)%nat.
Proof.
  destruct x as [pk msk]. intros H H' N k Hk. apply ghw_setup_eq in H as (_ & _ & A & B & _ & Ga & Al & _).
  apply ghw_setup_eq in H' as (_ & _ & A' & B' & _ & Ga' & Al' & _).
  assert (NZ : gpk_g2 pk <> g2zero C) by (rewrite B; intros Z; now apply N, zero_exp2).
  rewrite A in A'. apply gen1 in A'. rewrite Ga in Ga'. rewrite Al in Al'. rewrite B in B'. apply gen2 in B'.
  apply g2mul_inj in Ga'; [|exact NZ]. apply g2mul_inj in Al'; [|exact NZ]. each k Hk; now symmetry.
Qed.

Lemma ghw_keygen_shows (pk : ghw_pk C) msk a l : gpk_g2 pk <> g2zero C -> shows (ghw_keygen pk msk (a :: l)) 1.
Proof.
  intros N t i x j t' i' j' H H' k Hk.
  assert (S : exists sk, x = Some sk).
  { unfold ghw_keygen in H. apply rbind_Ok in H as (r & i1 & _ & H). apply rbind_Ok in H as (b & i2 & _ & H).
    apply rret_Ok in H as [<- _]. eauto. }
  destruct S as [sk ->]. apply ghw_keygen_eq in H as (_ & _ & E & _). apply ghw_keygen_eq in H' as (_ & _ & E' & _).
  rewrite E in E'. apply g2mul_inj in E'; [|exact N]. each k Hk. now symmetry.
Qed.

Lemma ghw_tkgen_shows (sk : ghw_sk C) : shows (ghw_tkgen sk) 1.
Proof.
  intros t i [tk z] j t' i' j' H H' k Hk. apply (ghw_tkgen_eq L) in H as (E & _). apply (ghw_tkgen_eq L) in H' as (E' & _).
  each k Hk. congruence.
Qed.

Lemma ghw_encrypt_shows nonce (pk : ghw_pk C) pol lang data f : gpk_g1 pk <> g1zero C -> gpk_g1a pk <> g1zero C ->
  parse pol lang = Ok (tree f) -> arity2 f = true -> small_ok C (and_width f) ->
  shows (ghw_encrypt nonce pk pol lang data) (2 + coins f + length (leaves f)).
Proof.
  intros N1 N2 P A S t i ct j t' i' j' H H' k Hk.
  apply (ghw_encrypt_eq L) with (1 := P) in H as (sh & q & m & Em & D & _ & _ & _ & Cp & _ & Ln & H).
  apply (ghw_encrypt_eq L) with (1 := P) in H' as (sh' & q' & m' & Em' & D' & _ & _ & _ & Cp' & _ & Ln' & H').
  assert (R : forall z n x, nth_error sh z = Some (n, x) -> t' (q' + z)%nat = t (q + z)%nat /\ nth_error sh' z = Some (n, x)).
  { intros z n x E. destruct (nth_error sh' z) as [[n' x']|] eqn:E'.
    2:{ apply nth_error_None in E'. assert (z < length sh)%nat by (apply nth_error_Some; congruence). lia. }
    destruct (H z n x E) as (h & Eh & V). destruct (H' z n' x' E') as (h' & Eh' & V'). rewrite V in V'.
    injection V' as <- V1 V2. rewrite Eh in Eh'. injection Eh' as <-. apply g1mul_inj in V2; [|exact N1]. rewrite V2 in V1.
    apply g1add_inj_l in V1. apply g1mul_inj in V1; [|exact N2]. subst. split; [now symmetry|reflexivity]. }
  assert (sh = sh').
  { apply same_lists; [congruence|]. intros z [n x] x' E E'. destruct (R z n x E) as [_ E2]. congruence. }
  subst sh'. destruct (dealt_inj f A S _ _ _ _ _ _ _ _ _ D D') as [Es T].
  destruct (dealt_place _ _ _ _ _ _ D) as [-> Hl]. destruct (dealt_place _ _ _ _ _ _ D') as [-> _].
  rewrite Cp, Es in Cp'. apply gtmul_inj in Cp'. subst m m'. apply genT in Cp'.
  destruct k as [|[|k]].
  - apply at0. now symmetry.
  - now symmetry.
  - destruct (Nat.lt_ge_cases k (coins f)) as [K|K].
    + specialize (T k K). rewrite <- !Nat.add_assoc in T. exact T.
    + destruct (nth_error sh (k - coins f)) as [[n x]|] eqn:E.
      2:{ apply nth_error_None in E. lia. }
      destruct (R _ n x E) as [Q _].
      replace (i' + 2 + coins f + (k - coins f))%nat with (i' + Datatypes.S (Datatypes.S k))%nat in Q by lia.
      now replace (i + 2 + coins f + (k - coins f))%nat with (i + Datatypes.S (Datatypes.S k))%nat in Q by lia.
Qed.

(** ** LSW *)

Lemma lsw_setup_shows : shows (@lsw_setup C) 7.
Proof.
  intros t i [pk msk] j t' i' j' H H' k Hk. apply (lsw_setup_eq L) in H as (_ & A & B & D & E & G & U & V & _).
  apply (lsw_setup_eq L) in H' as (_ & A' & B' & D' & E' & G' & U' & V' & _).
  rewrite A in A'. rewrite B in B'. rewrite D in D'. rewrite E in E'. rewrite G in G'. rewrite U in U'. rewrite V in V'.
  apply gen1 in E', U'. apply gen2 in G', V'. each k Hk; now symmetry.
Qed.

Lemma f_opp_inj (x y : F) : - x = - y -> x = y.
Proof. intros E. transitivity (- - x); [ring|]. rewrite E. ring. Qed.

Lemma lsw_keygen_shows (pk : lsw_pk C) msk pol lang f :
  lpk_g1 pk <> g1zero C -> lpk_g2 pk <> g2zero C -> lmsk_alpha2 msk <> 0 ->
  parse pol lang = Ok (tree f) -> arity2 f = true -> small_ok C (and_width f) ->
  shows (lsw_keygen pk msk pol lang) (coins f + length (leaves f)).
Proof.
  intros N1 N2 Na P A S t i sk j t' i' j' H H' k Hk.
  apply (lsw_keygen_eq L) with (1 := P) in H as (sh & q & D & _ & _ & Ln & H).
  apply (lsw_keygen_eq L) with (1 := P) in H' as (sh' & q' & D' & _ & _ & Ln' & H').
  assert (NE : map fst sh = map fst sh').
  { destruct (dealt_unique _ _ _ _ _ _ D) as [-> _]. destruct (dealt_unique _ _ _ _ _ _ D') as [-> _].
    now rewrite !gsh_idents. }
  assert (R : forall z n x, nth_error sh z = Some (n, x) -> t' (q' + z)%nat = t (q + z)%nat /\ nth_error sh' z = Some (n, x)).
  { intros z n x E. destruct (nth_error sh' z) as [[n' x']|] eqn:E'.
    2:{ apply nth_error_None in E'. assert (z < length sh)%nat by (apply nth_error_Some; congruence). lia. }
    assert (n = n').
    { pose proof (map_nth_error fst _ _ E) as M. pose proof (map_nth_error fst _ _ E') as M'. rewrite NE in M. cbn in *. congruence. }
    subst n'. destruct (H z n x E) as (h & Eh & V). destruct (H' z n x' E') as (h' & Eh' & V'). rewrite V in V'. clear V.
    rewrite Eh in Eh'. injection Eh' as <-. destruct (String.prefix "!" (remove_index n)).
    - injection V' as V3 _ V5. apply g1mul_inj in V5; [|exact N1]. apply f_opp_inj in V5. rewrite V5 in V3.
      apply g1add_inj_l in V3. apply g1mul_inj in V3; [|exact N1]. subst. split; [now symmetry|reflexivity].
    - injection V' as V1 V2. apply g2mul_inj in V2; [|exact N2]. rewrite V2 in V1.
      apply g1add_inj_l in V1. apply g1mul_inj in V1; [|exact N1]. apply f_mul_cancel in V1; [|exact Na].
      subst. split; [now symmetry|reflexivity]. }
  assert (sh = sh').
  { apply same_lists; [congruence|]. intros z [n x] x' E E'. destruct (R z n x E) as [_ E2]. congruence. }
  subst sh'. destruct (dealt_inj f A S _ _ _ _ _ _ _ _ _ D D') as [_ T].
  destruct (dealt_place _ _ _ _ _ _ D) as [-> Hl]. destruct (dealt_place _ _ _ _ _ _ D') as [-> _].
  destruct (Nat.lt_ge_cases k (coins f)) as [K|K]; [now apply T|].
  destruct (nth_error sh (k - coins f)) as [[n x]|] eqn:E.
  2:{ apply nth_error_None in E. lia. }
  destruct (R _ n x E) as [Q _].
  replace (i' + coins f + (k - coins f))%nat with (i' + k)%nat in Q by lia.
  now replace (i + coins f + (k - coins f))%nat with (i + k)%nat in Q by lia.
Qed.

(** All but the last value drawn for the attributes. *)
Lemma lsw_encrypt_shows nonce (pk : lsw_pk C) l data t i x j t' i' j' : lpk_g2 pk <> g2zero C -> lpk_g1b pk <> g1zero C ->
  lsw_encrypt nonce pk l data t i = Ok (x, j) -> lsw_encrypt nonce pk l data t' i' = Ok (x, j') ->
  forall k, (k < 2 + length l)%nat -> k <> length l -> t' (i' + k)%nat = t (i + k)%nat.
Proof.
  intros N2 N1 H H' k Hk Nk.
  apply (lsw_encrypt_eq L) in H as (m & Em & _ & E2 & E1 & _ & _ & H). apply (lsw_encrypt_eq L) in H' as (m' & Em' & _ & E2' & E1' & _ & _ & H').
  rewrite E2 in E2'. apply g2mul_inj in E2'; [|exact N2]. rewrite E1, E2' in E1'. apply gtmul_inj in E1'. subst m m'. apply genT in E1'.
  destruct k as [|k]; [apply at0; now symmetry|].
  destruct (Nat.eq_dec (Datatypes.S k) (1 + length l)) as [->|Q].
  { rewrite !Nat.add_assoc. now symmetry. }
  destruct (nth_error l (Datatypes.S k)) as [a|] eqn:E; [|apply nth_error_None in E; lia].
  destruct (H _ a E) as (h & _ & V). destruct (H' _ a E) as (h' & _ & V'). rewrite V in V'. injection V' as _ V' _.
  apply g1mul_inj in V'; [|exact N1]. cbn [lsw_share] in V'. now symmetry.
Qed.

(** The last one has no influence at all. *)
Lemma lsw_ejs_ext (pk : lsw_pk C) s attrs : forall i sx sx',
  (forall k, (k < length attrs)%nat -> nth_error sx' (i + k) = nth_error sx (i + k)) ->
  lsw_ejs pk s sx' i attrs = lsw_ejs pk s sx i attrs.
Proof.
  induction attrs as [|a l IH]; intros i sx sx' H; [reflexivity|]. cbn [lsw_ejs].
  assert (E : nth_error sx' i = nth_error sx i).
  { specialize (H 0%nat ltac:(cbn; lia)). now rewrite Nat.add_0_r in H. }
  rewrite E, (IH (S i) sx sx'); [reflexivity|].
  intros k Hk. rewrite plus_Sn_m, plus_n_Sm. apply H. cbn. lia.
Qed.

Lemma lsw_encrypt_hides nonce (pk : lsw_pk C) l data t t' i :
  (forall k, k <> (i + length l)%nat -> t' k = t k) ->
  lsw_encrypt nonce pk l data t' i = lsw_encrypt nonce pk l data t i.
Proof.
  intros T. destruct l as [|a l]; [reflexivity|]. destruct data as [|c data]; [reflexivity|].
  unfold lsw_encrypt. erewrite (rbind_run draw _ t') by reflexivity. erewrite (rbind_run draw _ t) by reflexivity.
  cbn [length] in T. rewrite (T i) by lia.
  erewrite (rbind_run _ _ t') by apply (lsw_sx_eq L). erewrite (rbind_run _ _ t) by apply (lsw_sx_eq L).
  assert (M : forall m k, (S i <= k)%nat -> (k + m <= i + S (length l))%nat -> map t' (seq k m) = map t (seq k m)).
  { induction m as [|m IH]; intros k K K'; [reflexivity|]. cbn. rewrite T by lia. f_equal. apply IH; lia. }
  rewrite (lsw_ejs_ext pk (t i) (a :: l) 0
    (- fsum (map t (seq (S i) (length l))) :: map t (seq (S i) (S (length l))))
    (- fsum (map t' (seq (S i) (length l))) :: map t' (seq (S i) (S (length l))))).
  - unfold rbind at 1 4. unfold rlift at 1 3. destruct (lsw_ejs _ _ _ _ _) as [ej| |]; try reflexivity.
    unfold draw_gt, rbind, draw, rret. rewrite T by lia. reflexivity.
  - intros k Hk. rewrite (M (length l)) by lia. destruct k as [|k]; [reflexivity|]. cbn [nth_error Nat.add length] in *.
    rewrite !seq_S, !map_app, (M (length l)) by lia. rewrite !nth_error_app1 by (rewrite map_length, seq_length; lia). reflexivity.
Qed.

(** ** YCT14 *)

Lemma yct_setup_shows attrs t i x j t' i' j' : yct_setup (C := C) attrs t i = Ok (x, j) ->
  yct_setup attrs t' i' = Ok (x, j') -> t i <> 0 ->
  forall k, (k < 2 + length attrs)%nat -> t' (i' + k)%nat = t (i + k)%nat.
Proof.
  destruct x as [pk msk]. intros H H' N k Hk.
  apply yct_setup_eq in H as (_ & A & G & _ & _ & H). apply yct_setup_eq in H' as (_ & A' & G' & _ & _ & H').
  rewrite A in A'. destruct k as [|[|k]].
  - now apply at0.
  - rewrite G, <- A' in G'. apply (f_equal (logT L)) in G'. rewrite !(logT_pow L), !(logT_pairing L), (log1_one L), (log2_one L) in G'.
    apply (f_mul_cancel (t i)); [exact N|]. transitivity (1 * 1 * t' (i' + 1)%nat * t i); [ring|]. rewrite <- G'. ring.
  - destruct (nth_error attrs k) as [a|] eqn:E; [|apply nth_error_None in E; lia].
    destruct (H k a E) as [_ V]. destruct (H' k a E) as [_ V']. rewrite V in V'. injection V' as V'.
    rewrite <- !Nat.add_assoc in V'. now symmetry.
Qed.

Lemma yct_parts_inj (msk : yct_msk C) : forall sh sh' l, map fst sh = map fst sh' ->
  (forall n x, In (n, x) sh -> msk_get_private msk (remove_index n) <> Err) ->
  yct_parts msk sh l -> yct_parts msk sh' l -> sh = sh'.
Proof.
  induction sh as [|[n x] sh IH]; intros [|[n' x'] sh'] l N K H H'; try discriminate; [reflexivity|].
  injection N as <- N. inversion H as [|? ? ? l1 si y G Z E R|? ? ? ? G]; subst; [|destruct (K n x (or_introl eq_refl) G)].
  inversion H' as [|? ? ? l2 si' y' G' Z' E' R'|? ? ? ? G']; subst; [|congruence].
  assert (si' = si) by congruence. subst si'. f_equal. apply (IH sh' l1 N); auto. intros m z Hz. apply (K m z). now right.
Qed.

Lemma yct_keygen_shows (msk : yct_msk C) pol lang f : parse pol lang = Ok (tree f) -> arity2 f = true ->
  small_ok C (and_width f) -> (forall n, In n (idents f) -> msk_get_private msk (remove_index n) <> Err) ->
  shows (yct_keygen msk pol lang) (coins f).
Proof.
  intros P A S K t i sk j t' i' j' H H'.
  apply (yct_keygen_eq L) with (1 := P) in H as (sh & D & _ & Y). apply (yct_keygen_eq L) with (1 := P) in H' as (sh' & D' & _ & Y').
  assert (N : map fst sh = idents f) by (apply dealt_unique in D as [-> _]; now apply gsh_idents).
  assert (N' : map fst sh' = idents f) by (apply dealt_unique in D' as [-> _]; now apply gsh_idents).
  assert (E : sh = sh').
  { apply (yct_parts_inj msk sh sh' (ysk_du sk)); auto; [congruence|]. intros n x I. apply K. rewrite <- N.
    apply (in_map fst) in I. exact I. }
  subst sh'. destruct (dealt_inj f A S _ _ _ _ _ _ _ _ _ D D') as [_ T]. exact T.
Qed.

(** One public part different from one is enough. *)
Lemma yct_encrypt_shows nonce (pk : yct_pk C) attrs data a : In a attrs ->
  NoDup (map y_name (ypk_attrs pk)) -> (forall g, In (YAttr a (Some (YPub g))) (ypk_attrs pk) -> g <> gtone C) ->
  shows (yct_encrypt nonce pk attrs data) 1.
Proof.
  intros I ND N t i ct j t' i' j' H H' k Hk. apply In_nth_error in I as [q E].
  apply yct_encrypt_eq in H as (_ & _ & _ & H). apply yct_encrypt_eq in H' as (_ & _ & _ & H').
  destruct (H q a E) as (g & G & V). destruct (H' q a E) as (g' & G' & V'). rewrite V in V'. injection V' as V'.
  assert (g = g').
  { assert (X : YAttr a (Some (YPub g)) = YAttr a (Some (YPub g'))); [|congruence].
    clear - ND G G'. induction (ypk_attrs pk) as [|y l IH]; [destruct G|]. cbn in ND. inversion ND as [|? ? Nin ND']; subst.
    destruct G as [->|G], G' as [G'|G']; try now auto.
    - exfalso. apply Nin. cbn. apply (in_map y_name) in G'. exact G'.
    - subst y. exfalso. apply Nin. cbn. apply (in_map y_name) in G. exact G. }
  subst g'. apply gtpow_inj in V'; [|now apply N]. each k Hk. now symmetry.
Qed.

(** ** AC17 *)

Lemma ac_setup_shows t i x j t' i' j' : ac_setup (C := C) t i = Ok (x, j) -> ac_setup t' i' = Ok (x, j') ->
  t i <> 0 -> forall k, (k < 9)%nat -> t' (i' + k)%nat = t (i + k)%nat.
Proof.
  destruct x as [pk msk]. intros H H' N k Hk. apply ac_setup_eq in H as (_ & _ & M). apply ac_setup_eq in H' as (_ & _ & M').
  rewrite M in M'. injection M' as G HH K0 K1 K2 A0 A1 B0 B1. apply gen1 in G. apply gen2 in HH. rewrite <- G in K0, K1, K2.
  assert (NZ : g1mul C (g1one C) (t i) <> g1zero C) by (intros Z; now apply N, zero_exp1).
  apply (g1mul_inj _ _ _ NZ) in K0, K1, K2. each k Hk; now symmetry.
Qed.

Lemma cp_keygen_shows (pk : ac_pk C) msk a0 a1 b0 b1 k0 k1 k2 attrs : ac_keys pk msk a0 a1 b0 b1 k0 k1 k2 ->
  amsk_g msk <> g1zero C -> amsk_h msk <> g2zero C -> b0 <> 0 -> b1 <> 0 ->
  shows (cp_keygen msk attrs) (3 + length attrs).
Proof.
  intros K Ng Nh N0 N1 t i sk j t' i' j' H H' k Hk.
  apply (cp_keygen_eq L) with (1 := K) in H as (_ & _ & _ & _ & E0 & Ep & _ & H).
  apply (cp_keygen_eq L) with (1 := K) in H' as (_ & _ & _ & _ & E0' & Ep' & _ & H').
  rewrite E0 in E0'. injection E0' as R0 R1 _. apply (g2mul_inj _ _ _ Nh) in R0, R1.
  apply f_mul_cancel in R0; [|exact N0]. apply f_mul_cancel in R1; [|exact N1].
  destruct k as [|[|k]]; [apply at0; now symmetry|now symmetry|].
  destruct (Nat.eq_dec k (length attrs)) as [->|Q].
  - rewrite Ep in Ep'. injection Ep' as _ _ S. apply (g1mul_inj _ _ _ Ng) in S.
    replace (i' + Datatypes.S (Datatypes.S (length attrs)))%nat with (i' + 2 + length attrs)%nat by lia.
    replace (i + Datatypes.S (Datatypes.S (length attrs)))%nat with (i + 2 + length attrs)%nat by lia.
    transitivity (k2 - (k2 - t' (i' + 2 + length attrs)%nat)); [ring|]. rewrite <- S. ring.
  - destruct (nth_error attrs k) as [a|] eqn:E; [|apply nth_error_None in E; lia].
    pose proof (H k a E) as V. pose proof (H' k a E) as V'. rewrite V in V'. injection V' as _ _ V'.
    apply (g1mul_inj _ _ _ Ng) in V'. apply f_opp_inj in V'. rewrite <- !Nat.add_assoc in V'. now symmetry.
Qed.

Lemma cp_encrypt_shows nonce (pk : ac_pk C) msk a0 a1 b0 b1 k0 k1 k2 pol lang data f : ac_keys pk msk a0 a1 b0 b1 k0 k1 k2 ->
  parse pol lang = Ok (tree f) -> binary_and f = true -> amsk_h msk <> g2zero C -> a0 <> 0 -> a1 <> 0 ->
  shows (cp_encrypt nonce pk pol data lang) 3.
Proof.
  intros K P B Nh N0 N1 t i ct j t' i' j' H H' k Hk.
  apply (cp_encrypt_eq L) with (1 := K) (2 := P) (3 := B) in H as (m & Em & _ & _ & E0 & Ep & _).
  apply (cp_encrypt_eq L) with (1 := K) (2 := P) (3 := B) in H' as (m' & Em' & _ & _ & E0' & Ep' & _).
  rewrite E0 in E0'. injection E0' as R0 R1 _. apply (g2mul_inj _ _ _ Nh) in R0, R1.
  apply f_mul_cancel in R0; [|exact N0]. apply f_mul_cancel in R1; [|exact N1].
  rewrite Ep, <- R0, <- R1 in Ep'. apply gtmul_inj in Ep'. subst m m'. apply genT in Ep'. each k Hk; now symmetry.
Qed.

Lemma kp_encrypt_shows nonce (pk : ac_pk C) msk a0 a1 b0 b1 k0 k1 k2 attrs data : ac_keys pk msk a0 a1 b0 b1 k0 k1 k2 ->
  amsk_h msk <> g2zero C -> a0 <> 0 -> a1 <> 0 -> shows (kp_encrypt nonce pk attrs data) 3.
Proof.
  intros K Nh N0 N1 t i ct j t' i' j' H H' k Hk.
  apply (kp_encrypt_eq L) with (1 := K) in H as (m & Em & _ & _ & E0 & Ep & _).
  apply (kp_encrypt_eq L) with (1 := K) in H' as (m' & Em' & _ & _ & E0' & Ep' & _).
  rewrite E0 in E0'. injection E0' as R0 R1 _. apply (g2mul_inj _ _ _ Nh) in R0, R1.
  apply f_mul_cancel in R0; [|exact N0]. apply f_mul_cancel in R1; [|exact N1].
  rewrite Ep, <- R0, <- R1 in Ep'. apply gtmul_inj in Ep'. subst m m'. apply genT in Ep'. each k Hk; now symmetry.
Qed.

(** The rows of the matrix together determine every column. *)
Lemma lwr_rank f : binary_and f = true -> forall v c (w : nat -> F), (length v <= c)%nat ->
  Forall (fun r => dot (snd r) w = 0) (fst (lwr f v c)) ->
  dot v w = 0 /\ forall k, (c <= k < snd (lwr f v c))%nat -> w k = 0.
Proof.
  intros B. pattern f. apply binary_ind; [..|exact B]; clear f B.
  - intros n p v c w H D. inversion D; subst. split; [assumption|]. cbn. intros; lia.
  - intros a b Ba Bb IHa IHb v c w H D. rewrite lwr_FAnd in *. cbn [fst snd] in *.
    apply Forall_app in D as [Da Db]. pose proof (lwr_grow a Ba (resize v c ++ [1%Z]) (S c)) as G.
    apply IHa in Da as [Va Ka]; [|rewrite app_length, resize_length; cbn; lia].
    apply IHb in Db as [Vb Kb]; [|rewrite app_length, repeat_length; cbn; lia].
    rewrite (dot_snoc L), (dot_zeros L), repeat_length in Vb. cbn [zf] in Vb.
    assert (Zc : w c = 0). { transitivity (- (0 + - (1) * w c)); [ring|]. rewrite Vb. ring. }
    rewrite (dot_snoc L), resize_length, (dot_resize L) in Va by exact H. rewrite Zc in Va. split.
    + rewrite <- Va. ring.
    + intros k Hk. destruct (Nat.eq_dec k c) as [->|]; [exact Zc|].
      destruct (Nat.lt_ge_cases k (snd (lwr a (resize v c ++ [1%Z]) (S c)))); [apply Ka|apply Kb]; lia.
  - intros l Hl Bl IH v c w H D. rewrite lwr_FOr in *.
    assert (X : (l <> [] -> dot v w = 0) /\ forall k, (c <= k < snd (lwr_or v l c))%nat -> w k = 0).
    { clear Hl. revert c H D. induction IH as [|g l Hg _ IHl]; intros c H D; [split; [congruence|cbn; intros; lia]|].
      inversion Bl as [|? ? Bg Bl']; subst. cbn [lwr_or fst snd] in *. apply Forall_app in D as [D1 D2].
      pose proof (lwr_grow g Bg v c) as G. apply Hg in D1 as [V K]; [|exact H].
      apply IHl in D2 as [V2 K2]; [|exact Bl'|lia]. split; [auto|]. intros k Hk.
      destruct (Nat.lt_ge_cases k (snd (lwr g v c))); [apply K|apply K2]; lia. }
    split; [apply X; destruct l; [cbn in Hl; lia|discriminate]|apply X].
Qed.

Lemma dot_sub row : forall k (w w' : nat -> F), dot_from k row (fun c => w c - w' c) = dot_from k row w - dot_from k row w'.
Proof. induction row as [|z row IH]; intros k w w'; cbn; [ring|]. rewrite IH. ring. Qed.

Lemma fsum_diff (g g' u : nat -> F) l : (forall q, g' q - g q = - u q) -> fsum (map g' l) - fsum (map g l) = - fsum (map u l).
Proof.
  intros H. induction l as [|q l IH]; cbn [map fsum]; [ring|].
  transitivity ((g' q - g q) + (fsum (map g' l) - fsum (map g l))); [ring|]. rewrite H, IH. ring.
Qed.

Lemma dot_three row (u v : nat -> F) a : forall o,
  dot_from o row (fun c => match c with O => 0 | S _ => u c + a * v c end) =
  - (dot_from o row (fun c => match c with O => 0 | S _ => - u c end)
     + a * dot_from o row (fun c => match c with O => 0 | S _ => - v c end)).
Proof. induction row as [|z row IH]; intros o; cbn; [ring|]. rewrite IH. destruct o; ring. Qed.

Lemma dot_nil row : forall o, dot_from o row (fun _ => 0 : F) = 0.
Proof. induction row as [|z row IH]; intros o; cbn; [ring|]. rewrite IH. ring. Qed.

Lemma kp_keygen_shows (pk : ac_pk C) msk a0 a1 b0 b1 k0 k1 k2 pol lang f : ac_keys pk msk a0 a1 b0 b1 k0 k1 k2 ->
  parse pol lang = Ok (tree f) -> binary_and f = true ->
  amsk_g msk <> g1zero C -> amsk_h msk <> g2zero C -> b0 <> 0 -> b1 <> 0 -> 1 + a0 <> 0 ->
  shows (kp_keygen msk pol lang) (1 + msp_width f + length (leaves f)).
Proof.
  intros K P B Ng Nh N0 N1 Na t i sk j t' i' j' H H' k Hk.
  apply (kp_keygen_eq L) with (1 := K) (2 := P) (3 := B) in H as (A0 & _ & _ & _ & E0 & _ & Ln & H).
  apply (kp_keygen_eq L) with (1 := K) (2 := P) (3 := B) in H' as (_ & _ & _ & _ & E0' & _ & _ & H').
  rewrite E0 in E0'. injection E0' as R0 R1 _. apply (g2mul_inj _ _ _ Nh) in R0, R1.
  apply f_mul_cancel in R0; [|exact N0]. apply f_mul_cancel in R1; [|exact N1].
  rewrite <- R0, <- R1 in H'.
  set (R := sort_rows (rev (msp_rows f))) in *. set (x0 := b0 * t i) in *. set (x1 := b1 * t (i + 1)%nat) in *.
  set (x2 := t i + t (i + 1)%nat) in *. set (wd := msp_width f) in *.
  set (y := finv C a0) in *. assert (Y : y * a0 = 1) by (unfold y; field; exact A0).
  set (u := fun c : nat => t' (i' + 1 + c)%nat - t (i + 1 + c)%nat).
  set (cum := fun c : nat => fsum (map u (seq 1 c))).
  set (w := fun c : nat => match c with O => 0 | S _ => u c + a0 * cum c end).
  assert (LR : length R = length (leaves f)).
  { unfold R. rewrite <- (rows_leaves f B), <- (rev_length (msp_rows f)). symmetry.
    apply Permutation.Permutation_length, sort_rows_perm. }
  (* the two columns *)
  assert (Col : forall c, kp_column (fun c => t' (i' + 1 + c)%nat) x0 x1 x2 y k0 0 c
                        - kp_column (fun c => t (i + 1 + c)%nat) x0 x1 x2 y k0 0 c
                        = match c with O => 0 | S _ => - cum c end).
  { intros [|c]; cbn [kp_column]; [ring|]. unfold cum. apply fsum_diff. intros q. unfold u. ring. }
  assert (Last : forall c, kp_column_last (fun c => t' (i' + 1 + c)%nat) k2 c
                         - kp_column_last (fun c => t (i + 1 + c)%nat) k2 c
                         = match c with O => 0 | S _ => - u c end).
  { intros [|c]; cbn [kp_column_last]; [ring|]. unfold u. ring. }
  assert (Row : forall q name row, nth_error R q = Some (name, row) ->
            dot row w = 0 /\ t' (i' + 1 + wd + q)%nat - t (i + 1 + wd + q)%nat
                            = dot row (fun c => match c with O => 0 | S _ => - u c end)).
  { intros q name row E. pose proof (H q name row E) as V. pose proof (H' q name row E) as V'. rewrite V in V'.
    injection V' as V0 _ V2. apply (g1mul_inj _ _ _ Ng) in V0, V2.
    set (s := t (i + 1 + wd + q)%nat) in *. set (s' := t' (i' + 1 + wd + q)%nat) in *.
    set (Wn := W name x0 x1 x2 0) in *.
    assert (D0 : dot row (fun c => match c with O => 0 | S _ => - cum c end) = (s - s') * y).
    { rewrite <- (AcEquationProofs.dot_ext _ _ _ (fun c _ => Col c)). unfold dot. rewrite dot_sub. fold (dot row (kp_column (fun c => t' (i' + 1 + c)%nat) x0 x1 x2 y k0 0)).
      fold (dot row (kp_column (fun c => t (i + 1 + c)%nat) x0 x1 x2 y k0 0)).
      set (d' := dot row (kp_column (fun c => t' (i' + 1 + c)%nat) _ _ _ _ _ _)) in *. set (d := dot row (kp_column (fun c => t (i + 1 + c)%nat) _ _ _ _ _ _)) in *.
      transitivity (((Wn + s') * y + d') - ((Wn + s) * y + d) + (s - s') * y); [ring|]. rewrite <- V0. ring. }
    assert (D2 : dot row (fun c => match c with O => 0 | S _ => - u c end) = s' - s).
    { rewrite <- (AcEquationProofs.dot_ext _ _ _ (fun c _ => Last c)). unfold dot. rewrite dot_sub.
      fold (dot row (kp_column_last (fun c => t' (i' + 1 + c)%nat) k2)).
      fold (dot row (kp_column_last (fun c => t (i + 1 + c)%nat) k2)).
      set (d' := dot row (kp_column_last (fun c => t' (i' + 1 + c)%nat) _)) in *. set (d := dot row (kp_column_last (fun c => t (i + 1 + c)%nat) _)) in *.
      transitivity ((- s' + d') - (- s + d) + (s' - s)); [ring|]. rewrite <- V2. ring. }
    split; [|now symmetry].
    transitivity (- (dot row (fun c => match c with O => 0 | S _ => - u c end)
                     + a0 * dot row (fun c => match c with O => 0 | S _ => - cum c end))).
    - apply dot_three.
    - rewrite D0, D2. transitivity ((s - s') * (1 - y * a0)); [ring|]. rewrite Y. ring. }
  assert (RK : forall c, (c < wd)%nat -> w c = 0).
  { assert (FR : Forall (fun r => dot (snd r) w = 0) (fst (lwr f [1%Z] 1))).
    { apply Forall_forall. intros [name row] I.
      assert (I' : In (name, resize row wd) R).
      { apply sorted_In. unfold msp_rows. apply in_map_iff. exists (name, row). auto. }
      apply In_nth_error in I' as [q E]. apply Row in E as [E _]. rewrite (dot_resize L) in E; [exact E|].
      pose proof (lwr_row_length f B [1%Z] 1 (le_n _)) as RL. rewrite Forall_forall in RL. exact (RL _ I). }
    apply (lwr_rank f B) in FR as [_ FR]; [|cbn; lia]. intros [|c] Hc; [reflexivity|]. apply FR. unfold wd, msp_width in Hc. lia. }
  assert (UZ : forall c, (1 <= c < wd)%nat -> u c = 0 /\ cum c = 0).
  { induction c as [|c IH]; intros Hc; [lia|].
    assert (Zc : cum c = 0) by (destruct c; [reflexivity|apply IH; lia]).
    assert (Ec : cum (S c) = cum c + u (S c)).
    { unfold cum. rewrite seq_S, map_app, (fsum_app L). cbn. ring. }
    pose proof (RK (S c) ltac:(lia)) as Z. cbn [w] in Z. rewrite Ec, Zc in Z.
    assert (U : u (S c) = 0).
    { destruct (f_mul_eq_0 L (1 + a0) (u (S c))) as [Q|Q]; [|contradiction|exact Q]. rewrite <- Z. ring. }
    split; [exact U|]. rewrite Ec, Zc, U. ring. }
  assert (wd >= 1)%nat by (apply msp_width_pos, B).
  destruct k as [|[|k]]; [apply at0; now symmetry|now symmetry|].
  destruct (Nat.lt_ge_cases (Datatypes.S k) wd) as [Kw|Kw].
  - destruct (UZ (Datatypes.S k) ltac:(lia)) as [U _]. unfold u in U. apply (f_sub_eq_0 L) in U.
    rewrite <- !Nat.add_assoc in U. exact U.
  - destruct (nth_error R (Datatypes.S k - wd)) as [[name row]|] eqn:E; [|apply nth_error_None in E; lia].
    pose proof (Row _ _ _ E) as [_ V].
    rewrite (AcEquationProofs.dot_ext _ _ (fun _ => 0)) in V.
    + pose proof (dot_nil row 0) as Z. unfold dot in V.
      rewrite Z in V. apply (f_sub_eq_0 L) in V.
      replace (i' + 1 + wd + (Datatypes.S k - wd))%nat with (i' + Datatypes.S (Datatypes.S k))%nat in V by lia.
      now replace (i + 1 + wd + (Datatypes.S k - wd))%nat with (i + Datatypes.S (Datatypes.S k))%nat in V by lia.
    + intros [|c] Hc; [reflexivity|].
      assert (Lr : length row = wd).
      { apply nth_error_In in E. apply sorted_In in E. apply msp_rows_length in E. exact E. }
      destruct (UZ (Datatypes.S c) ltac:(lia)) as [-> _]. ring.
Qed.

(** ** AW11 *)

Lemma aw_setup_shows : shows (@aw_setup C) 2.
Proof.
  intros t i gk j t' i' j' H H' k Hk. apply aw_setup_eq in H as (_ & A & B). apply aw_setup_eq in H' as (_ & A' & B').
  rewrite A in A'. rewrite B in B'. apply gen1 in A'. apply gen2 in B'. each k Hk; now symmetry.
Qed.

Lemma aw_authgen_shows (gk : aw_gk C) a l : shows (aw_authgen gk (a :: l)) (2 * length (a :: l)).
Proof.
  intros t i x j t' i' j' H H' k Hk.
  assert (S : exists pk msk, x = Some (pk, msk)).
  { unfold aw_authgen in H. apply rbind_Ok in H as (r & i1 & _ & H). apply rret_Ok in H as [<- _]. eauto. }
  destruct S as (pk & msk & ->). apply aw_authgen_eq in H as (_ & _ & _ & H). apply aw_authgen_eq in H' as (_ & _ & _ & H').
  destruct (Nat.Even_or_Odd k) as [[q ->]|[q ->]];
  (destruct (nth_error (a :: l) q) as [b|] eqn:E; [|apply nth_error_None in E; lia]);
  destruct (H q b E) as [V _]; destruct (H' q b E) as [V' _]; rewrite V in V'; injection V' as V0 V1; [now symmetry|].
  rewrite !Nat.add_assoc. now symmetry.
Qed.

Lemma concat_at {A} (es : list (list A)) : forall k x, (forall q e, nth_error es q = Some e -> length e = 1%nat) ->
  nth_error es k = Some [x] -> nth_error (concat es) k = Some x.
Proof.
  induction es as [|e es IH]; intros k x U E; [now destruct k|].
  destruct e as [|y [|z e]]; try (specialize (U 0%nat _ eq_refl); discriminate).
  destruct k as [|k]; cbn in *; [congruence|]. apply IH; auto. intros q e E'. exact (U (S q) e E').
Qed.

Lemma aw_encrypt_shows nonce (gk : aw_gk C) pks pol lang data f : agk_g1 gk <> g1zero C -> agk_g2 gk <> g2zero C ->
  parse pol lang = Ok (tree f) -> arity2 f = true -> small_ok C (and_width f) ->
  (forall n, In n (idents f) -> find_pk_attr pks (remove_index (upper C n)) <> None) ->
  shows (aw_encrypt nonce gk pks pol lang data) (2 + 2 * coins f + length (leaves f)).
Proof.
  intros N1 N2 P A S Pub t i ct j t' i' j' H H' k Hk.
  apply (aw_encrypt_eq L) with (1 := P) in H as (sh & p & wsh & q & m & es & Em & D & Dw & _ & _ & C0 & _ & Ec & Le & H).
  apply (aw_encrypt_eq L) with (1 := P) in H' as (sh' & p' & wsh' & q' & m' & es' & Em' & D' & Dw' & _ & _ & C0' & _ & Ec' & Le' & H').
  set (e := pairing C (agk_g1 gk) (agk_g2 gk)) in *.
  assert (NE : e <> gtone C).
  { intros Z. apply (f_equal (logT L)) in Z. unfold e in Z. rewrite (logT_pairing L), (logT_one L) in Z.
    destruct (f_mul_eq_0 L _ _ Z) as [Z'|Z']; [now apply (log1_nz _ N1)|now apply (log2_nz _ N2)]. }
  assert (I : map fst sh = idents f) by (apply dealt_unique in D as [-> _]; now apply gsh_idents).
  assert (I' : map fst sh' = idents f) by (apply dealt_unique in D' as [-> _]; now apply gsh_idents).
  assert (Iw : map fst wsh = idents f) by (apply dealt_unique in Dw as [-> _]; now apply gsh_idents).
  assert (Iw' : map fst wsh' = idents f) by (apply dealt_unique in Dw' as [-> _]; now apply gsh_idents).
  assert (Ls : length sh = length sh') by (rewrite <- (map_length fst sh), <- (map_length fst sh'); congruence).
  assert (Lw : length wsh = length sh) by (rewrite <- (map_length fst sh), <- (map_length fst wsh); congruence).
  assert (Lw' : length wsh' = length sh) by (rewrite <- (map_length fst sh), <- (map_length fst wsh'); congruence).
  assert (One : forall z n x, nth_error sh z = Some (n, x) -> exists x', nth_error sh' z = Some (n, x')).
  { intros z n x E. destruct (nth_error sh' z) as [[n' x']|] eqn:E'.
    2:{ apply nth_error_None in E'. assert (z < length sh)%nat by (apply nth_error_Some; congruence). lia. }
    pose proof (map_nth_error fst _ _ E) as M. pose proof (map_nth_error fst _ _ E') as M'. rewrite I in M. rewrite I' in M'.
    cbn in *. assert (n' = n) by congruence. subst. eauto. }
  assert (Key : forall z n x, nth_error sh z = Some (n, x) -> find_pk_attr pks (remove_index (upper C n)) <> None).
  { intros z n x E. apply Pub. rewrite <- I. apply nth_error_In in E. apply (in_map fst) in E. exact E. }
  assert (U : forall z l, nth_error es z = Some l -> length l = 1%nat).
  { intros z l E. destruct (nth_error sh z) as [[n x]|] eqn:En.
    2:{ apply nth_error_None in En. assert (z < length es)%nat by (apply nth_error_Some; congruence). lia. }
    destruct (H z n x En) as [[Z _]|(? & ? & ? & ? & _ & _ & V)]; [destruct (Key _ _ _ En Z)|]. rewrite V in E. now injection E as <-. }
  assert (U' : forall z l, nth_error es' z = Some l -> length l = 1%nat).
  { intros z l E. destruct (nth_error sh z) as [[n x]|] eqn:En.
    2:{ apply nth_error_None in En. assert (z < length es')%nat by (apply nth_error_Some; congruence). lia. }
    destruct (One _ _ _ En) as (x' & En').
    destruct (H' z n x' En') as [[Z _]|(? & ? & ? & ? & _ & _ & V)]; [destruct (Key _ _ _ En Z)|]. rewrite V in E. now injection E as <-. }
  assert (R : forall z n x, nth_error sh z = Some (n, x) ->
            t' (q' + 1 + z)%nat = t (q + 1 + z)%nat /\ nth_error sh' z = Some (n, x) /\ nth_error wsh z = nth_error wsh' z).
  { intros z n x E. destruct (One _ _ _ E) as (x' & E').
    destruct (H z n x E) as [[Z _]|(b & eb & y & w & Fi & W & V)]; [destruct (Key _ _ _ E Z)|].
    destruct (H' z n x' E') as [[Z _]|(b' & eb' & y' & w' & Fi' & W' & V')]; [destruct (Key _ _ _ E Z)|].
    rewrite Fi in Fi'. injection Fi' as <- <- <-. apply (concat_at es z _ U) in V. apply (concat_at es' z _ U') in V'.
    rewrite <- Ec in V. rewrite <- Ec', V in V'. injection V' as V1 V2 V3.
    apply (g2mul_inj _ _ _ N2) in V2. rewrite V2 in V1, V3. apply gtmul_inj_l in V1. apply (gtpow_inj _ _ _ NE) in V1.
    apply g2add_inj in V3. apply (g2mul_inj _ _ _ N2) in V3. subst. split; [now symmetry|]. split; [exact E'|congruence]. }
  assert (sh = sh').
  { apply same_lists; [exact Ls|]. intros z [n x] x' E E'. destruct (R z n x E) as (_ & E2 & _). congruence. }
  assert (wsh = wsh').
  { apply same_lists; [congruence|]. intros z x x' E E'. destruct (nth_error sh z) as [[n y]|] eqn:En.
    2:{ apply nth_error_None in En. assert (z < length wsh)%nat by (apply nth_error_Some; congruence). lia. }
    destruct (R z n y En) as (_ & _ & E2). congruence. }
  subst sh' wsh'. destruct (dealt_inj f A S _ _ _ _ _ _ _ _ _ D D') as [Es T].
  destruct (dealt_inj f A S _ _ _ _ _ _ _ _ _ Dw Dw') as [_ Tw].
  destruct (dealt_place _ _ _ _ _ _ D) as [-> Hl]. destruct (dealt_place _ _ _ _ _ _ D') as [-> _].
  destruct (dealt_place _ _ _ _ _ _ Dw) as [-> _]. destruct (dealt_place _ _ _ _ _ _ Dw') as [-> _].
  rewrite C0, Es in C0'. apply gtmul_inj_l in C0'. subst m m'. apply genT in C0'.
  destruct k as [|k]; [apply at0; now symmetry|].
  destruct (Nat.lt_ge_cases k (coins f)) as [K|K].
  { specialize (T k K). rewrite <- !Nat.add_assoc in T. exact T. }
  destruct (Nat.lt_ge_cases k (2 * coins f)) as [K2|K2].
  { specialize (Tw (k - coins f)%nat ltac:(lia)).
    replace (i' + 1 + coins f + (k - coins f))%nat with (i' + Datatypes.S k)%nat in Tw by lia.
    now replace (i + 1 + coins f + (k - coins f))%nat with (i + Datatypes.S k)%nat in Tw by lia. }
  destruct (Nat.eq_dec k (2 * coins f)) as [->|K3].
  { replace (i' + Datatypes.S (2 * coins f))%nat with (i' + 1 + coins f + coins f)%nat by lia.
    replace (i + Datatypes.S (2 * coins f))%nat with (i + 1 + coins f + coins f)%nat by lia. now symmetry. }
  destruct (nth_error sh (k - 1 - 2 * coins f)) as [[n x]|] eqn:E; [|apply nth_error_None in E; lia].
  destruct (R _ n x E) as (Q & _).
  replace (i' + 1 + coins f + coins f + 1 + (k - 1 - 2 * coins f))%nat with (i' + Datatypes.S k)%nat in Q by lia.
  now replace (i + 1 + coins f + coins f + 1 + (k - 1 - 2 * coins f))%nat with (i + Datatypes.S k)%nat in Q by lia.
Qed.

(** ** BDABE *)

Lemma bind_known {A B} (o : outcome A) (k : A -> rand F B) t i :
  rbind (rlift o) k t i = match o with Ok a => k a t i | Err => Err | Panic => Panic end.
Proof. now destruct o. Qed.
Lemma bind_g1 {B} (k : G1 C -> rand F B) t i : rbind draw_g1 k t i = k (g1mul C (g1one C) (t i)) t (S i).
Proof. reflexivity. Qed.
Lemma bind_g2 {B} (k : G2 C -> rand F B) t i : rbind draw_g2 k t i = k (g2mul C (g2one C) (t i)) t (S i).
Proof. reflexivity. Qed.

Lemma takes_same {A} (m : rand F A) n t t' i : takes m n -> (forall k, (k < n)%nat -> t' (i + k)%nat = t (i + k)%nat) -> m t' i = m t i.
Proof.
  intros K T. specialize (K t i t' i T). destruct (m t i) as [[a j]| |]; [destruct K as [-> ->]; reflexivity|exact K|exact K].
Qed.

Lemma bd_setup_shows : shows (@bd_setup C) 5.
Proof.
  intros t i [pk msk] j t' i' j' H H' k Hk. apply bd_setup_eq in H as (_ & Y & A & B & D & E & _).
  apply bd_setup_eq in H' as (_ & Y' & A' & B' & D' & E' & _).
  rewrite Y in Y'. rewrite A in A'. rewrite B in B'. rewrite D in D'. rewrite E in E'.
  apply gen1 in A', D'. apply gen2 in B', E'. each k Hk; now symmetry.
Qed.

Lemma bd_authgen_shows (pk : bd_pk C) msk name : Bdabe.bpk_g1 pk <> g1zero C -> shows (bd_authgen pk msk name) 2.
Proof.
  intros N t i x j t' i' j' H H' k Hk. apply bd_authgen_eq in H as (_ & _ & A & _ & B). apply bd_authgen_eq in H' as (_ & _ & A' & _ & B').
  rewrite A in A'. rewrite B in B'. apply (g1mul_inj _ _ _ N) in A'. each k Hk; now symmetry.
Qed.

Lemma bd_keygen_shows (pk : bd_pk C) au name : Bdabe.bpk_g1 pk <> g1zero C -> shows (bd_keygen pk au name) 1.
Proof.
  intros N t i x j t' i' j' H H' k Hk. apply bd_keygen_eq in H as (_ & _ & _ & _ & _ & A & _). apply bd_keygen_eq in H' as (_ & _ & _ & _ & _ & A' & _).
  rewrite A in A'. apply (g1mul_inj _ _ _ N) in A'. each k Hk; now symmetry.
Qed.

Lemma log_msg x y : logT L (pairing C (g1mul C (g1one C) x) (g2mul C (g2one C) y)) = x * y.
Proof. rewrite (logT_pairing L), (log1_mul L), (log2_mul L), (log1_one L), (log2_one L). ring. Qed.

(** The two values of the payload key show only through their product; the others show. *)
Lemma bd_encrypt_shows nonce (pk : bd_pk C) apks pol lang data t i x j t' i' j' v terms : bpk_p1 pk <> g1zero C ->
  parse pol lang = Ok v -> json_to_dnf v (map bd_pak apks) = Ok terms -> terms <> [] ->
  bd_encrypt nonce pk apks pol lang data t i = Ok (x, j) -> bd_encrypt nonce pk apks pol lang data t' i' = Ok (x, j') ->
  t' i' * t' (i' + 1)%nat = t i * t (i + 1)%nat /\
  forall k, (2 <= k < 2 + length terms)%nat -> t' (i' + k)%nat = t (i + k)%nat.
Proof.
  intros N P T NT H H'.
  apply bd_encrypt_eq in H as (v1 & te & m & P1 & _ & T1 & Em & _ & _ & _ & _ & H).
  apply bd_encrypt_eq in H' as (v2 & te' & m' & P2 & _ & T2 & Em' & _ & _ & _ & _ & H').
  rewrite P in P1, P2. injection P1 as <-. injection P2 as <-. rewrite T in T1, T2. injection T1 as <-. injection T2 as <-.
  assert (R : forall k tm, nth_error terms k = Some tm -> m = m' /\ t' (i' + 2 + k)%nat = t (i + 2 + k)%nat).
  { intros k tm E. pose proof (H k tm E) as V. pose proof (H' k tm E) as V'. rewrite V in V'. injection V' as V1 V2 _ _ _.
    apply (g1mul_inj _ _ _ N) in V2. rewrite V2 in V1. apply gtmul_inj in V1. now split. }
  split.
  - destruct terms as [|tm terms]; [congruence|]. destruct (R 0%nat tm eq_refl) as [E _]. subst m m'.
    apply (f_equal (logT L)) in E. rewrite !log_msg in E. now symmetry.
  - intros k Hk. destruct (nth_error terms (k - 2)) as [tm|] eqn:E; [|apply nth_error_None in E; lia].
    destruct (R _ _ E) as [_ Q]. replace (i' + 2 + (k - 2))%nat with (i' + k)%nat in Q by lia.
    now replace (i + 2 + (k - 2))%nat with (i + k)%nat in Q by lia.
Qed.

Lemma bd_encrypt_hides nonce (pk : bd_pk C) apks pol lang data t t' i :
  t' i * t' (S i) = t i * t (S i) -> (forall k, (2 <= k)%nat -> t' (i + k)%nat = t (i + k)%nat) ->
  bd_encrypt nonce pk apks pol lang data t' i = bd_encrypt nonce pk apks pol lang data t i.
Proof.
  intros E T. unfold bd_encrypt. rewrite !bind_known. destruct (parse pol lang) as [v| |]; try reflexivity.
  destruct (policy_in_dnf v false None); [|reflexivity].
  rewrite !bind_known. destruct (unwrap_res _) as [terms| |]; try reflexivity.
  rewrite !bind_g1, !bind_g2. cbv zeta.
  assert (M : pairing C (g1mul C (g1one C) (t' i)) (g2mul C (g2one C) (t' (S i)))
            = pairing C (g1mul C (g1one C) (t i)) (g2mul C (g2one C) (t (S i)))).
  { apply (logT_inj L). now rewrite !log_msg. }
  rewrite M. set (msg := pairing C _ _).
  eapply takes_same with (n := (1 * length terms + 0)%nat).
  - apply takes_bind; [|intros ?; apply takes_known; intros ? _; apply takes_ret].
    apply takes_map. intros x _. unfold bd_tuple_of. apply (takes_bind _ _ 1 0); [apply takes_draw|]. intros; apply takes_ret.
  - intros k Hk. specialize (T (2 + k)%nat ltac:(lia)). replace (i + (2 + k))%nat with (S (S i) + k)%nat in T by lia. exact T.
Qed.

(** ** MKE08 *)

Lemma mk_setup_shows t i x j t' i' j' : mk_setup (C := C) t i = Ok (x, j) -> mk_setup t' i' = Ok (x, j') ->
  t i <> 0 -> t (i + 1)%nat <> 0 -> forall k, (k < 6)%nat -> t' (i' + k)%nat = t (i + k)%nat.
Proof.
  destruct x as [pk msk]. intros H H' N N' k Hk. apply mk_setup_eq in H as (_ & A & B & D & E & _ & _ & Y & Z).
  apply mk_setup_eq in H' as (_ & A' & B' & D' & E' & _ & _ & Y' & Z').
  assert (N1 : mpk_g1 pk <> g1zero C) by (rewrite A; intros Q; now apply N, zero_exp1).
  assert (N2 : mpk_g2 pk <> g2zero C) by (rewrite B; intros Q; now apply N', zero_exp2).
  rewrite A in A'. rewrite B in B'. rewrite D in D'. rewrite E in E'. rewrite Y in Y'. rewrite Z in Z'.
  apply gen1 in A', D'. apply gen2 in B', E'. apply (g1mul_inj _ _ _ N1) in Y'. apply (g2mul_inj _ _ _ N2) in Z'.
  each k Hk; now symmetry.
Qed.

Lemma mk_authgen_shows name : shows (mk_authgen (C := C) name) 1.
Proof.
  intros t i x j t' i' j' H H' k Hk. apply mk_authgen_eq in H as (_ & _ & A). apply mk_authgen_eq in H' as (_ & _ & A').
  each k Hk; congruence.
Qed.

Lemma mk_keygen_shows (pk : mk_pk C) msk name : mpk_g1 pk <> g1zero C -> shows (mk_keygen pk msk name) 1.
Proof.
  intros N t i x j t' i' j' H H' k Hk. apply mk_keygen_eq in H as (_ & _ & _ & _ & _ & A & _).
  apply mk_keygen_eq in H' as (_ & _ & _ & _ & _ & A' & _). rewrite A in A'. apply (g1mul_inj _ _ _ N) in A'. each k Hk; now symmetry.
Qed.

Lemma mk_encrypt_shows nonce (pk : mk_pk C) apks pol lang data t i x j t' i' j' v terms : mpk_p1 pk <> g1zero C ->
  parse pol lang = Ok v -> json_to_dnf v (map mk_pak apks) = Ok terms -> terms <> [] ->
  mk_encrypt nonce pk apks pol lang data t i = Ok (x, j) -> mk_encrypt nonce pk apks pol lang data t' i' = Ok (x, j') ->
  t' i' * t' (i' + 1)%nat = t i * t (i + 1)%nat /\
  (t i * t (i + 1)%nat <> 0 -> t' (i' + 2)%nat = t (i + 2)%nat) /\
  forall k, (3 <= k < 3 + length terms)%nat -> t' (i' + k)%nat = t (i + k)%nat.
Proof.
  intros N P T NT H H'.
  apply mk_encrypt_eq in H as (v1 & te & m & n & P1 & _ & T1 & Em & En & _ & _ & _ & _ & H).
  apply mk_encrypt_eq in H' as (v2 & te' & m' & n' & P2 & _ & T2 & Em' & En' & _ & _ & _ & _ & H').
  rewrite P in P1, P2. injection P1 as <-. injection P2 as <-. rewrite T in T1, T2. injection T1 as <-. injection T2 as <-.
  assert (R : forall k tm, nth_error terms k = Some tm -> m = m' /\ n = n' /\ t' (i' + 3 + k)%nat = t (i + 3 + k)%nat).
  { intros k tm E. pose proof (H k tm E) as V. pose proof (H' k tm E) as V'. rewrite V in V'. injection V' as V1 V2 V3 _ _ _.
    apply (g1mul_inj _ _ _ N) in V3. rewrite V3 in V1, V2. apply gtmul_inj in V1, V2. auto. }
  assert (Q : m = m' /\ n = n') by (destruct terms as [|tm terms]; [congruence|]; destruct (R 0%nat tm eq_refl) as (? & ? & _); auto).
  destruct Q as [Q1 Q2]. repeat apply conj.
  - subst m m'. apply (f_equal (logT L)) in Q1. rewrite !log_msg in Q1. now symmetry.
  - intros NZ. rewrite En, En', <- Q1 in Q2. symmetry. apply (gtpow_inj m); [|exact Q2]. intros Z. apply NZ.
    rewrite <- log_msg, <- Em, Z. apply (logT_one L).
  - intros k Hk. destruct (nth_error terms (k - 3)) as [tm|] eqn:E; [|apply nth_error_None in E; lia].
    destruct (R _ _ E) as (_ & _ & Q). replace (i' + 3 + (k - 3))%nat with (i' + k)%nat in Q by lia.
    now replace (i + 3 + (k - 3))%nat with (i + k)%nat in Q by lia.
Qed.

Lemma mk_encrypt_hides nonce (pk : mk_pk C) apks pol lang data t t' i :
  t' i * t' (S i) = t i * t (S i) -> (forall k, (2 <= k)%nat -> t' (i + k)%nat = t (i + k)%nat) ->
  mk_encrypt nonce pk apks pol lang data t' i = mk_encrypt nonce pk apks pol lang data t i.
Proof.
  intros E T. unfold mk_encrypt. rewrite !bind_known. destruct (parse pol lang) as [v| |]; try reflexivity.
  destruct (policy_in_dnf v false None); [|reflexivity].
  rewrite !bind_known. destruct (unwrap_res _) as [terms| |]; try reflexivity.
  rewrite !bind_g1, !bind_g2. cbv zeta.
  assert (M : pairing C (g1mul C (g1one C) (t' i)) (g2mul C (g2one C) (t' (S i)))
            = pairing C (g1mul C (g1one C) (t i)) (g2mul C (g2one C) (t (S i)))).
  { apply (logT_inj L). now rewrite !log_msg. }
  rewrite M. set (msg := pairing C _ _).
  eapply takes_same with (n := (1 + (1 * length terms + 0))%nat).
  - apply takes_bind; [apply takes_draw|intros x]. apply takes_bind; [|intros ?; apply takes_known; intros ? _; apply takes_ret].
    apply takes_map. intros z _. unfold mk_conj_of. apply (takes_bind _ _ 1 0); [apply takes_draw|]. intros; apply takes_ret.
  - intros k Hk. specialize (T (2 + k)%nat ltac:(lia)). replace (i + (2 + k))%nat with (S (S i) + k)%nat in T by lia. exact T.
Qed.

(** ** AW11, a leaf whose attribute no authority publishes *)

Lemma rmap_same {A B} (f : A -> rand F B) l : forall t t' i, (forall x, takes (f x) 1) ->
  (forall k x, nth_error l k = Some x -> f x t' (i + k)%nat = f x t (i + k)%nat) -> rmap f l t' i = rmap f l t i.
Proof.
  induction l as [|a l IH]; intros t t' i T H; [reflexivity|]. cbn [rmap]. unfold rbind at 1 3.
  pose proof (H 0%nat a eq_refl) as E. rewrite Nat.add_0_r in E. rewrite E.
  pose proof (T a t i t i (fun _ _ => eq_refl)) as Q. destruct (f a t i) as [[y j]| |]; try reflexivity. destruct Q as [-> _].
  unfold rbind. rewrite Nat.add_1_r. rewrite (IH t t' (S i) T); [reflexivity|].
  intros k x Hk. rewrite plus_Sn_m, plus_n_Sm. now apply H.
Qed.

Lemma aw_encrypt_hides nonce (gk : aw_gk C) pks pol lang data f k n t t' i : parse pol lang = Ok (tree f) ->
  nth_error (idents f) k = Some n -> find_pk_attr pks (remove_index (upper C n)) = None ->
  (forall q, q <> (i + (2 + 2 * coins f + k))%nat -> t' q = t q) ->
  aw_encrypt nonce gk pks pol lang data t' i = aw_encrypt nonce gk pks pol lang data t i.
Proof.
  intros P Hn Fi T. unfold aw_encrypt. rewrite !bind_known, P. rewrite !bind_known.
  destruct (unwrap_res (calculate_msp (tree f))) as [msp| |]; try reflexivity.
  rewrite !bind_known. destruct (unwrap _) as [r0| |]; try reflexivity.
  erewrite (rbind_run draw _ t') by reflexivity. erewrite (rbind_run draw _ t) by reflexivity. rewrite (T i) by lia.
  erewrite (rbind_run _ _ t') by apply (gen_shares_policy_eq L). erewrite (rbind_run _ _ t) by apply (gen_shares_policy_eq L).
  erewrite (rbind_run _ _ t') by apply (gen_shares_policy_eq L). erewrite (rbind_run _ _ t) by apply (gen_shares_policy_eq L).
  change (nd f) with (coins f).
  rewrite (gsh_at f (t i) t t' (S i) (S i)) by (intros q Hq; change (nd f) with (coins f) in Hq; apply T; lia).
  rewrite (gsh_at f 0 t t' (S i + coins f) (S i + coins f)) by (intros q Hq; change (nd f) with (coins f) in Hq; apply T; lia).
  set (sh := gsh f (t i) t (S i)). set (w := gsh f 0 t (S i + coins f)). set (p := (S i + coins f + coins f)%nat).
  assert (LI : length (idents f) = length sh) by (unfold sh; now rewrite <- (gsh_idents f (t i) t (S i)), map_length).
  erewrite (rbind_run draw_gt _ t') by reflexivity. erewrite (rbind_run draw_gt _ t) by reflexivity.
  rewrite (T p) by (unfold p; lia). cbv zeta. unfold rbind at 1 3.
  rewrite (rmap_same _ _ t t' (S p)); [reflexivity| |].
  - intros x. unfold aw_entry. apply (takes_bind _ _ 1 0); [apply takes_draw|]. intros r.
    destruct (find_pk_attr pks (remove_index (upper C (fst (snd x))))) as [[[a e] y]|]; [|apply takes_ret]. apply takes_known. intros; apply takes_ret.
  - intros q [o [m x]] E. assert (X : nth_error sh q = Some (m, x)).
    { clear - E. revert q E. generalize 0%nat. induction sh as [|z l IH]; intros z0 [|q] E; cbn in *; try discriminate; [congruence|].
      now apply IH in E. }
    destruct (Nat.eq_dec q k) as [->|N].
    + assert (m = n).
      { apply (map_nth_error fst) in X. unfold sh in X. rewrite gsh_idents in X. cbn in X. congruence. }
      subst m. unfold aw_entry. cbn [fst snd]. erewrite (rbind_run draw _ t') by reflexivity.
      erewrite (rbind_run draw _ t) by reflexivity. rewrite Fi. reflexivity.
    + unfold aw_entry. cbn [fst snd]. erewrite (rbind_run draw _ t') by reflexivity.
      erewrite (rbind_run draw _ t) by reflexivity. rewrite (T (S p + q)%nat) by (unfold p; lia).
      destruct (find_pk_attr pks (remove_index (upper C m))) as [a|]; [rewrite !bind_known; now destruct (unwrap _)|reflexivity].
Qed.

(** ** As stated in PropertiesDraws.v *)

Lemma kp_keygen_shows_all (pk : ac_pk C) msk a0 a1 b0 b1 k0 k1 k2 pol lang f : ac_keys pk msk a0 a1 b0 b1 k0 k1 k2 ->
  parse pol lang = Ok (tree f) -> binary_and f = true ->
  amsk_g msk <> g1zero C -> amsk_h msk <> g2zero C -> b0 <> 0 -> b1 <> 0 -> 1 + a0 <> 0 ->
  shows (kp_keygen msk pol lang) (2 + coins f + length (leaves f)).
Proof.
  intros K P B. intros. replace (2 + coins f)%nat with (1 + msp_width f)%nat by (rewrite (width_coins f B); lia).
  now apply (kp_keygen_shows pk msk a0 a1 b0 b1 k0 k1 k2).
Qed.

Lemma yct_keygen_shows_all (msk : yct_msk C) pol lang f : parse pol lang = Ok (tree f) -> arity2 f = true ->
  plain_names f = true -> small_ok C (and_width f) -> (forall n, In n (names f) -> msk_get_private msk n <> Err) ->
  shows (yct_keygen msk pol lang) (coins f).
Proof.
  intros P A Pl S K. apply (yct_keygen_shows msk pol lang f P A S). intros n I. apply K.
  rewrite <- (gsh_names f (0 : F) (fun _ => 0) 0 Pl). rewrite <- (gsh_idents f (0 : F) (fun _ => 0) 0) in I.
  apply in_map_iff in I as (x & <- & I). apply in_map_iff. now exists x.
Qed.

Lemma takes_apart {A} (m : rand F A) n t i x j : takes m n -> m t i = Ok (x, j) ->
  j = (i + n)%nat /\
  m (fun k => t (i + k)%nat) 0%nat = Ok (x, n) /\
  forall t', (forall k, (i <= k < i + n)%nat -> t' k = t k) -> m t' i = Ok (x, j).
Proof.
  intros T H. assert (J : j = (i + n)%nat).
  { pose proof (T t i t i (fun _ _ => eq_refl)) as Q. rewrite H in Q. apply Q. }
  split; [exact J|]. split.
  - pose proof (T t i (fun k => t (i + k)%nat) 0%nat (fun _ _ => eq_refl)) as Q. rewrite H in Q. apply Q.
  - intros t' E. rewrite <- H. apply (takes_same m n); [exact T|]. intros k Hk. apply E. lia.
Qed.

Lemma plus_one (x : F) : x + 1 <> x.
Proof.
  intros E. apply (f_one_neq_zero L). transitivity ((x + 1) - x); [ring|]. rewrite E. ring.
Qed.

Lemma lsw_not_shows nonce (pk : lsw_pk C) l data t i x j : lsw_encrypt nonce pk l data t i = Ok (x, j) ->
  ~ shows (lsw_encrypt nonce pk l data) (2 + length l).
Proof.
  intros H Sh. set (t' := fun k => if (k =? i + length l)%nat then t k + 1 else t k).
  assert (H' : lsw_encrypt nonce pk l data t' i = Ok (x, j)).
  { rewrite <- H. apply lsw_encrypt_hides. intros k N. unfold t'. apply Nat.eqb_neq in N. now rewrite N. }
  specialize (Sh t i x j t' i j H H' (length l) ltac:(lia)). unfold t' in Sh. rewrite Nat.eqb_refl in Sh.
  now apply plus_one in Sh.
Qed.

Lemma aw_not_shows nonce (gk : aw_gk C) pks pol lang data f k n t i x j : parse pol lang = Ok (tree f) ->
  nth_error (idents f) k = Some n -> find_pk_attr pks (remove_index (upper C n)) = None ->
  aw_encrypt nonce gk pks pol lang data t i = Ok (x, j) ->
  ~ shows (aw_encrypt nonce gk pks pol lang data) (2 + 2 * coins f + length (leaves f)).
Proof.
  intros P Hn Fi H Sh. set (p := (2 + 2 * coins f + k)%nat). set (t' := fun k => if (k =? i + p)%nat then t k + 1 else t k).
  assert (H' : aw_encrypt nonce gk pks pol lang data t' i = Ok (x, j)).
  { rewrite <- H. apply (aw_encrypt_hides nonce gk pks pol lang data f k n t t' i P Hn Fi). intros q N. fold p in N.
    unfold t'. apply Nat.eqb_neq in N. now rewrite N. }
  assert (K : (k < length (leaves f))%nat).
  { rewrite <- (map_length (fun x => node_index (fst x) (snd x)) (leaves f)). apply nth_error_Some. unfold idents in Hn. congruence. }
  specialize (Sh t i x j t' i j H H' p ltac:(unfold p; lia)). unfold t' in Sh. rewrite Nat.eqb_refl in Sh.
  now apply plus_one in Sh.
Qed.

Definition swap2 (t : nat -> F) (i k : nat) : F :=
  if (k =? i)%nat then t (S i) else if (k =? S i)%nat then t i else t k.

Lemma swap2_at t i : swap2 t i i = t (S i) /\ swap2 t i (S i) = t i /\ forall k, (2 <= k)%nat -> swap2 t i (i + k) = t (i + k)%nat.
Proof.
  unfold swap2. rewrite !Nat.eqb_refl. split; [reflexivity|]. split.
  - now rewrite (proj2 (Nat.eqb_neq (S i) i)) by lia.
  - intros k Hk. rewrite (proj2 (Nat.eqb_neq (i + k) i)), (proj2 (Nat.eqb_neq (i + k) (S i))) by lia. reflexivity.
Qed.

Lemma bd_not_shows nonce (pk : bd_pk C) apks pol lang data t i x j n : (1 <= n)%nat ->
  bd_encrypt nonce pk apks pol lang data t i = Ok (x, j) -> t i <> t (S i) ->
  ~ shows (bd_encrypt nonce pk apks pol lang data) n.
Proof.
  intros Hn H N Sh. destruct (swap2_at t i) as (A & B & D).
  assert (H' : bd_encrypt nonce pk apks pol lang data (swap2 t i) i = Ok (x, j)).
  { rewrite <- H. apply bd_encrypt_hides; [rewrite A, B; ring|exact D]. }
  specialize (Sh t i x j (swap2 t i) i j H H' 0%nat ltac:(lia)). rewrite !Nat.add_0_r, A in Sh. now apply N.
Qed.

Lemma mk_not_shows nonce (pk : mk_pk C) apks pol lang data t i x j n : (1 <= n)%nat ->
  mk_encrypt nonce pk apks pol lang data t i = Ok (x, j) -> t i <> t (S i) ->
  ~ shows (mk_encrypt nonce pk apks pol lang data) n.
Proof.
  intros Hn H N Sh. destruct (swap2_at t i) as (A & B & D).
  assert (H' : mk_encrypt nonce pk apks pol lang data (swap2 t i) i = Ok (x, j)).
  { rewrite <- H. apply mk_encrypt_hides; [rewrite A, B; ring|exact D]. }
  specialize (Sh t i x j (swap2 t i) i j H H' 0%nat ltac:(lia)). rewrite !Nat.add_0_r, A in Sh. now apply N.
Qed.

End Shows.
