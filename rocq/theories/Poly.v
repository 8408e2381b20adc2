(** * Poly: polynomial functions over the scalar field (proof library) *)
From Coq Require Import String List Bool Arith Lia Field.
From Verif Require Import Base Crypto.
Import ListNotations.

Section Poly.
Context {C : crypto} (L : laws C).
Local Open Scope F_scope.
Add Field poly_field : (f_theory L).
Notation F := (F C).

Lemma f_one_neq_zero : (1 : F) <> 0.
Proof. apply (F_1_neq_0 (f_theory L)). Qed.

Lemma feqb_refl x : feqb C x x = true.
Proof. now apply (feqb_eq L). Qed.

Lemma feqb_neq x y : feqb C x y = false <-> x <> y.
Proof.
  split.
  - intros H E. apply (feqb_eq L) in E. congruence.
  - intros H. destruct (feqb C x y) eqn:E; [|reflexivity].
    apply (feqb_eq L) in E. contradiction.
Qed.

Lemma f_dec (x y : F) : {x = y} + {x <> y}.
Proof.
  destruct (feqb C x y) eqn:E; [left | right].
  - now apply (feqb_eq L). - now apply feqb_neq.
Qed.

Lemma f_mul_eq_0 (x y : F) : x * y = 0 -> x = 0 \/ y = 0.
Proof.
  intros H. destruct (f_dec x 0) as [E|N]; [now left|right].
  transitivity (finv C x * (x * y)); [field; exact N|]. rewrite H. ring.
Qed.

Lemma f_sub_eq_0 (x y : F) : x - y = 0 -> x = y.
Proof. intros H. replace x with ((x - y) + y) by ring. rewrite H. ring. Qed.

Lemma f_sub_neq_0 (x y : F) : x <> y -> x - y <> 0.
Proof. intros H E. apply H. now apply f_sub_eq_0. Qed.

Lemma finv_opt_neq (x : F) : x <> 0 -> finv_opt x = Some (finv C x).
Proof.
  intros H. unfold finv_opt. destruct (feqb C x 0) eqn:E; [|reflexivity].
  apply (feqb_eq L) in E. contradiction.
Qed.

Lemma finv_opt_Some (x y : F) : finv_opt x = Some y -> x <> 0 /\ y = finv C x.
Proof.
  unfold finv_opt. destruct (feqb C x 0) eqn:E; [discriminate|].
  intros H. injection H as <-. apply feqb_neq in E. auto.
Qed.

(** Horner evaluation of a coefficient list. *)
Fixpoint ev (l : list F) (x : F) : F :=
  match l with [] => 0 | a :: r => a + x * ev r x end.

(** [f] is a polynomial function with [n] coefficients. *)
Definition polyn (n : nat) (f : F -> F) : Prop :=
  exists l, length l = n /\ forall x, f x = ev l x.

Lemma ev_zeros n x : ev (repeat 0 n) x = 0.
Proof. induction n; cbn; [reflexivity|rewrite IHn; ring]. Qed.

Lemma ev_app_zeros l n x : ev (l ++ repeat 0 n) x = ev l x.
Proof. induction l; cbn; [apply ev_zeros | now rewrite IHl]. Qed.

Lemma polyn_mono n m f : n <= m -> polyn n f -> polyn m f.
Proof.
  intros H (l & Hl & E). exists (l ++ repeat 0 (m - n)). split.
  - rewrite app_length, repeat_length. lia.
  - intros x. now rewrite ev_app_zeros.
Qed.

Lemma polyn_ext n f g : (forall x, f x = g x) -> polyn n f -> polyn n g.
Proof. intros H (l & Hl & E). exists l. split; [assumption|]. intros. now rewrite <- H. Qed.

Lemma polyn_zero n : polyn n (fun _ => 0).
Proof. exists (repeat 0 n). split; [apply repeat_length|]. intros. now rewrite ev_zeros. Qed.

Lemma polyn_const c : polyn 1 (fun _ => c).
Proof. exists [c]. split; [reflexivity|]. intros. cbn. ring. Qed.

Fixpoint ladd (a b : list F) : list F :=
  match a, b with
  | x :: a', y :: b' => (x + y) :: ladd a' b'
  | [], _ => b
  | _, [] => a
  end.

Lemma ev_ladd a : forall b x, ev (ladd a b) x = ev a x + ev b x.
Proof.
  induction a as [|u a IH]; intros [|v b] x; cbn; try ring. rewrite IH. ring.
Qed.

Lemma ladd_length a : forall b, length (ladd a b) = Nat.max (length a) (length b).
Proof. induction a as [|u a IH]; intros [|v b]; cbn; auto. Qed.

Lemma polyn_add n f g : polyn n f -> polyn n g -> polyn n (fun x => f x + g x).
Proof.
  intros (a & Ha & Ea) (b & Hb & Eb). exists (ladd a b). split.
  - rewrite ladd_length. lia.
  - intros x. now rewrite ev_ladd, Ea, Eb.
Qed.

Lemma polyn_scale n c f : polyn n f -> polyn n (fun x => c * f x).
Proof.
  intros (a & Ha & Ea). exists (map (fmul C c) a). split.
  - now rewrite map_length.
  - intros x. rewrite Ea. clear -L. induction a; cbn; [ring|rewrite <- IHa; ring].
Qed.

Lemma polyn_mul_lin n a f : polyn n f -> polyn (S n) (fun x => (x - a) * f x).
Proof.
  intros (l & Hl & E). exists (ladd (0 :: l) (map (fmul C (- a)) l)). split.
  - rewrite ladd_length, map_length. cbn [length]. lia.
  - intros x. rewrite ev_ladd, E. cbn [ev].
    assert (H : ev (map (fmul C (- a)) l) x = - a * ev l x).
    { clear -L. induction l; cbn; [ring|rewrite IHl; ring]. }
    rewrite H. ring.
Qed.

(** Synthetic division by [x - a]. *)
Lemma ev_factor l : forall a, exists q, length q = pred (length l) /\
  forall x, ev l x = ev l a + (x - a) * ev q x.
Proof.
  induction l as [|c l IH]; intros a.
  - exists []. split; [reflexivity|]. intros. cbn. ring.
  - destruct (IH a) as (q & Hq & E). destruct l as [|d l].
    + exists []. split; [reflexivity|]. intros. cbn. ring.
    + exists (ev (d :: l) a :: q). split; [cbn in *; lia|].
      intros x. change (ev (c :: d :: l) x) with (c + x * ev (d :: l) x).
      change (ev (c :: d :: l) a) with (c + a * ev (d :: l) a).
      rewrite (E x). cbn [ev]. ring.
Qed.

(** A polynomial with [n] coefficients and [n] distinct roots is zero. *)
Lemma polyn_roots n : forall f pts, polyn n f -> NoDup pts -> length pts = n ->
  (forall a, In a pts -> f a = 0) -> forall x, f x = 0.
Proof.
  induction n as [|n IH]; intros f pts (l & Hl & E) ND Hp Z x.
  - destruct l; [|discriminate]. rewrite E. reflexivity.
  - destruct pts as [|a pts]; [discriminate|].
    destruct (ev_factor l a) as (q & Hq & Eq).
    assert (Za : ev l a = 0) by (rewrite <- E; apply Z; now left).
    inversion ND as [|? ? Nin ND']; subst.
    assert (Zq : forall y, ev q y = 0).
    { apply (IH (ev q) pts).
      - exists q. split; [lia|reflexivity].
      - assumption.
      - cbn in Hp. lia.
      - intros b Hb. assert (Zb : f b = 0) by (apply Z; now right).
        rewrite E, (Eq b), Za in Zb.
        assert (b - a <> 0).
        { apply f_sub_neq_0. intros ->. contradiction. }
        destruct (f_mul_eq_0 (b - a) (ev q b)) as [H0|H0]; auto.
        + rewrite <- Zb. ring.
        + contradiction. }
    rewrite E, (Eq x), Za, Zq. ring.
Qed.

(** Product of [(x - j) * d j] over the points different from [i]. *)
Fixpoint lprod (i : F) (l : list F) (x : F) : F :=
  match l with
  | [] => 1
  | j :: r => if feqb C i j then lprod i r x
              else ((x - j) * finv C (i - j)) * lprod i r x
  end.

Lemma lprod_polyn i l : polyn (S (length (filter (fun j => negb (feqb C i j)) l))) (lprod i l).
Proof.
  induction l as [|j l IH]; cbn; [apply polyn_const|].
  destruct (feqb C i j) eqn:E; cbn; [exact IH|].
  apply polyn_ext with (fun x => (x - j) * (finv C (i - j) * lprod i l x)).
  - intros. ring.
  - apply polyn_mul_lin, polyn_scale, IH.
Qed.

Lemma filter_neq_length (i : F) l : NoDup l -> In i l ->
  S (length (filter (fun j => negb (feqb C i j)) l)) = length l.
Proof.
  induction l as [|j l IH]; intros ND I; [contradiction|].
  inversion ND as [|? ? Nin ND']; subst. cbn. destruct I as [->|I].
  - rewrite feqb_refl. cbn. f_equal.
    clear IH ND ND'. induction l as [|k l IHl]; [reflexivity|]. cbn.
    assert (E : feqb C i k = false) by (apply feqb_neq; intros ->; apply Nin; now left).
    rewrite E. cbn. f_equal. apply IHl. intros H. apply Nin. now right.
  - assert (E : feqb C i j = false) by (apply feqb_neq; intros ->; contradiction).
    rewrite E. cbn. f_equal. now apply IH.
Qed.

Lemma lprod_self i l : lprod i l i = 1.
Proof.
  induction l as [|j l IH]; cbn; [reflexivity|].
  destruct (feqb C i j) eqn:E; [exact IH|]. rewrite IH.
  apply feqb_neq in E. field. now apply f_sub_neq_0.
Qed.

Lemma lprod_other i l x : In x l -> x <> i -> lprod i l x = 0.
Proof.
  induction l as [|j l IH]; intros I N; [contradiction|]. cbn.
  destruct (feqb C i j) eqn:E.
  - apply (feqb_eq L) in E. subst j. destruct I as [->|I]; [now contradiction N|auto].
  - destruct I as [->|I].
    + replace (x - x) with (0 : F) by ring. ring.
    + rewrite (IH I N). ring.
Qed.

Fixpoint fsum (l : list F) : F :=
  match l with [] => 0 | a :: r => a + fsum r end.

Lemma fsum_app a b : fsum (a ++ b) = fsum a + fsum b.
Proof. induction a; cbn; [ring|rewrite IHa; ring]. Qed.

(** Lagrange interpolation. *)
Lemma lagrange_interp l p x : NoDup l -> polyn (length l) p ->
  fsum (map (fun i => p i * lprod i l x) l) = p x.
Proof.
  intros ND Hp.
  set (f := fun x => fsum (map (fun i => p i * lprod i l x) l) + - (1) * p x).
  assert (Z : f x = 0).
  { apply (polyn_roots (length l) f l); auto.
    - unfold f. apply polyn_add; [|now apply polyn_scale].
      assert (H : forall m, incl m l -> polyn (length l)
                 (fun x => fsum (map (fun i => p i * lprod i l x) m))).
      { induction m as [|i m IHm]; intros Hi; cbn; [apply polyn_zero|].
        apply polyn_add.
        - apply polyn_scale. rewrite <- (filter_neq_length i l ND).
          + apply lprod_polyn. + apply Hi. now left.
        - apply IHm. intros y Hy. apply Hi. now right. }
      apply H, incl_refl.
    - intros a Ha. unfold f.
      assert (H : forall m, NoDup m -> incl m l ->
         fsum (map (fun i => p i * lprod i l a) m) = if in_dec f_dec a m then p a else 0).
      { induction m as [|i m IHm]; intros NDm Hi; [reflexivity|].
        inversion NDm as [|? ? Nin NDm']; subst.
        cbn [map fsum].
        rewrite IHm; auto; [|intros y Hy; apply Hi; now right].
        destruct (in_dec f_dec a (i :: m)) as [I1|I1];
        destruct (in_dec f_dec a m) as [I2|I2].
        - rewrite lprod_other; auto; [ring|]. intros ->. contradiction.
        - destruct I1 as [->|I1]; [|contradiction]. rewrite lprod_self. ring.
        - exfalso. apply I1. now right.
        - rewrite lprod_other; auto; [ring|]. intros ->. apply I1. now left. }
      rewrite H; auto using incl_refl.
      destruct (in_dec f_dec a l); [ring|contradiction]. }
  unfold f in Z. replace (p x) with (p x + 0) by ring. rewrite <- Z. ring.
Qed.

(** Small integers are distinct in the field up to [n]. *)
Definition small_ok (n : nat) : Prop :=
  forall k, 0 < k <= n -> (usize_to_fr k : F) <> 0.

Lemma usize_to_fr_add a b : (usize_to_fr (a + b)%nat : F) = usize_to_fr a + usize_to_fr b.
Proof. induction a; cbn; [ring|rewrite IHa; ring]. Qed.

Lemma usize_to_fr_inj n a b : small_ok n -> a <= n -> b <= n ->
  (usize_to_fr a : F) = usize_to_fr b -> a = b.
Proof.
  intros S Ha Hb E.
  assert (H : forall a b, a <= n -> b <= n -> a <= b ->
    (usize_to_fr a : F) = usize_to_fr b -> a = b).
  { clear - S L. intros a b Ha Hb Hab E.
    destruct (Nat.eq_dec a b) as [|N]; [assumption|exfalso].
    apply (S (b - a)%nat); [lia|].
    replace b with (a + (b - a))%nat in E by lia. rewrite usize_to_fr_add in E.
    transitivity ((usize_to_fr a + usize_to_fr (b - a)%nat) - usize_to_fr a : F); [ring|].
    rewrite <- E. ring. }
  destruct (Nat.le_ge_cases a b); [now apply H|symmetry; apply H; auto].
Qed.

End Poly.
Arguments small_ok C n : clear implicits.
