(** * Sp80038dProofs: the cipher of Gcm.v is GCM of SP 800-38D over AES-256 *)
From Coq Require Import String Ascii List Bool Arith NArith Lia.
From Verif Require Import Sha3 Gcm PrimitiveSpec PrimitiveProofs Fips202 Fips202Proofs Fips197 Fips197Proofs Sp80038d.
Import ListNotations.
Local Open Scope nat_scope.

(** ** Polynomials *)
Definition total (f : nat -> bool) (l : list nat) : bool := fold_right xorb false (map f l).
Definition later (m : nat) (f : nat -> bool) (k : nat) : bool := if m <=? k then f (k - m) else false.

Lemma total_app f a b : total f (a ++ b) = xorb (total f a) (total f b).
Proof.
  unfold total. induction a as [|x a IH]; cbn; [now destruct (fold_right _ _ _)|]. rewrite IH.
  now rewrite xorb_assoc.
Qed.
Lemma total_false f l : (forall i, In i l -> f i = false) -> total f l = false.
Proof.
  induction l as [|x l IH]; intros H; [reflexivity|]. unfold total in *. cbn. rewrite H by now left.
  rewrite IH; [reflexivity|]. intros i Hi. apply H. now right.
Qed.
Lemma total_ext f g l : (forall i, In i l -> f i = g i) -> total f l = total g l.
Proof.
  induction l as [|x l IH]; intros H; [reflexivity|]. unfold total in *. cbn. rewrite H by now left.
  f_equal. apply IH. intros i Hi. apply H. now right.
Qed.

Lemma times_low x y n k : (forall i, n <= i -> x i = false) ->
  times x y k = total (fun i => x i && later i y k) (seq 0 n).
Proof.
  intros Hx. unfold times. fold (total (fun i => x i && y (k - i)) (seq 0 (S k))).
  rewrite (total_ext _ (fun i => x i && later i y k)).
  2:{ intros i Hi. apply in_seq in Hi. unfold later. destruct (Nat.leb_spec i k); [reflexivity|lia]. }
  assert (Z : forall m, Nat.max n (S k) = m ->
    total (fun i => x i && later i y k) (seq 0 (S k)) = total (fun i => x i && later i y k) (seq 0 m) /\
    total (fun i => x i && later i y k) (seq 0 n) = total (fun i => x i && later i y k) (seq 0 m)).
  { intros m <-. split.
    - replace (Nat.max n (S k)) with (S k + (Nat.max n (S k) - S k)) by lia. rewrite seq_app, total_app.
      rewrite (total_false _ (seq (0 + S k) _)); [now rewrite xorb_false_r|].
      intros i Hi. apply in_seq in Hi. unfold later. destruct (Nat.leb_spec i k); [lia|]. apply andb_false_r.
    - replace (Nat.max n (S k)) with (n + (Nat.max n (S k) - n)) at 1 by lia. rewrite seq_app, total_app.
      rewrite (total_false _ (seq (0 + n) _)); [now rewrite xorb_false_r|].
      intros i Hi. apply in_seq in Hi. rewrite Hx by lia. reflexivity. }
  destruct (Z _ eq_refl) as [-> ->]. reflexivity.
Qed.

(** Multiples of the modulus. *)
Definition multiple (q : nat -> bool) (k : nat) : bool :=
  xorb (later 0 q k) (xorb (later 1 q k) (xorb (later 2 q k) (xorb (later 7 q k) (later 128 q k)))).
Lemma modulus_high i : 129 <= i -> modulus i = false.
Proof.
  intros H. unfold modulus. cbn [existsb].
  repeat match goal with |- context [i =? ?n] => destruct (Nat.eqb_spec i n); [lia|] end. reflexivity.
Qed.
Lemma times_modulus q k : times modulus q k = multiple q k.
Proof.
  rewrite (times_low modulus q 129 k modulus_high). unfold multiple.
  change 129 with (1 + (1 + (1 + (4 + (1 + (120 + 1)))))).
  rewrite !seq_app, !total_app.
  rewrite (total_false _ (seq _ 4)), (total_false _ (seq _ 120)).
  - unfold total. cbn [seq map fold_right Nat.add].
    change (modulus 0) with true. change (modulus 1) with true. change (modulus 2) with true.
    change (modulus 7) with true. change (modulus 128) with true.
    rewrite !andb_true_l, !xorb_false_r. rewrite !xorb_false_l. reflexivity.
  - intros i Hi. apply in_seq in Hi. unfold modulus. cbn [existsb].
    repeat match goal with |- context [i =? ?n] => destruct (Nat.eqb_spec i n); [lia|] end. reflexivity.
  - intros i Hi. apply in_seq in Hi. unfold modulus. cbn [existsb].
    repeat match goal with |- context [i =? ?n] => destruct (Nat.eqb_spec i n); [lia|] end. reflexivity.
Qed.

Lemma later_xor m f g k : later m (fun i => xorb (f i) (g i)) k = xorb (later m f k) (later m g k).
Proof. unfold later. now destruct (m <=? k). Qed.
Lemma later_and m (c : bool) f k : later m (fun i => c && f i) k = c && later m f k.
Proof. unfold later. destruct (m <=? k); [reflexivity|]. now destruct c. Qed.
Lemma later_later m n f k : later m (later n f) k = later (n + m) f k.
Proof.
  unfold later. destruct (Nat.leb_spec m k).
  - destruct (Nat.leb_spec n (k - m)), (Nat.leb_spec (n + m) k); try lia. f_equal. lia.
  - destruct (Nat.leb_spec (n + m) k); [lia|reflexivity].
Qed.
Lemma later_ext m f g k : (forall i, f i = g i) -> later m f k = later m g k.
Proof. intros H. unfold later. destruct (m <=? k); [apply H|reflexivity]. Qed.

Lemma multiple_xor f g k : multiple (fun i => xorb (f i) (g i)) k = xorb (multiple f k) (multiple g k).
Proof.
  unfold multiple. rewrite !later_xor.
  generalize (later 0 f k), (later 1 f k), (later 2 f k), (later 7 f k), (later 128 f k).
  generalize (later 0 g k), (later 1 g k), (later 2 g k), (later 7 g k), (later 128 g k).
  intros a b c d e a' b' c' d' e'. destruct a, b, c, d, e, a', b', c', d', e'; reflexivity.
Qed.
Lemma multiple_and c f k : multiple (fun i => c && f i) k = c && multiple f k.
Proof. unfold multiple. rewrite !later_and. now destruct c. Qed.
Lemma multiple_later m f k : multiple (later m f) k = later m (multiple f) k.
Proof.
  unfold multiple at 2. rewrite !later_xor. unfold multiple.
  rewrite !later_later, !(Nat.add_comm m). reflexivity.
Qed.

(** ** The multiplication of blocks *)
Definition small (a : N) : Prop := (a < 2 ^ 128)%N.
Definition co (a : N) (i : nat) : bool := if i <? 128 then bit a (127 - i) else false.

Lemma small_high a z : small a -> 128 <= z -> bit a z = false.
Proof.
  intros H Hz. unfold bit. destruct (N.eq_dec a 0) as [->|Ha]; [apply N.bits_0|].
  apply N.bits_above_log2. apply N.log2_lt_pow2 in H; lia.
Qed.
Lemma small_lxor a b : small a -> small b -> small (N.lxor a b).
Proof.
  intros Ha Hb. unfold small. destruct (N.eq_dec (N.lxor a b) 0) as [->|H]; [reflexivity|].
  apply N.log2_lt_pow2; [lia|]. destruct (N.lt_ge_cases (N.log2 (N.lxor a b)) 128) as [L|L]; [exact L|].
  exfalso. pose proof (N.bit_log2 _ H) as B. rewrite N.lxor_spec in B.
  rewrite <- (N2Nat.id (N.log2 (N.lxor a b))) in B. fold (bit a (N.to_nat (N.log2 (N.lxor a b)))) in B.
  fold (bit b (N.to_nat (N.log2 (N.lxor a b)))) in B. rewrite !small_high in B by (assumption || lia). discriminate.
Qed.
Lemma co_lxor a b k : co (N.lxor a b) k = xorb (co a k) (co b k).
Proof. unfold co. destruct (k <? 128); [apply bit_lxor|reflexivity]. Qed.
Lemma co_inj a b : small a -> small b -> (forall k, co a k = co b k) -> a = b.
Proof.
  intros Ha Hb H. apply N.bits_inj. intros z. rewrite <- (N2Nat.id z). fold (bit a (N.to_nat z)) (bit b (N.to_nat z)).
  destruct (le_lt_dec 128 (N.to_nat z)) as [L|L]; [now rewrite !small_high|].
  specialize (H (127 - N.to_nat z)). unfold co in H. destruct (Nat.ltb_spec (127 - N.to_nat z) 128); [|lia].
  replace (127 - (127 - N.to_nat z)) with (N.to_nat z) in H by lia. exact H.
Qed.

Definition stepped (v : N) : N := if N.testbit v 0 then N.lxor (v / 2) (225 * 2 ^ 120) else (v / 2)%N.
Lemma tail_co k : co (225 * 2 ^ 120) k = modulus k && (k <? 128).
Proof.
  unfold co. destruct (Nat.ltb_spec k 128) as [H|H]; [|now rewrite andb_false_r]. rewrite andb_true_r.
  assert (A : forallb (fun k => Bool.eqb (bit (225 * 2 ^ 120) (127 - k)) (modulus k)) (seq 0 128) = true)
    by (vm_compute; reflexivity).
  rewrite forallb_forall in A. apply eqb_prop. apply A. apply in_seq. lia.
Qed.
Lemma half_co v k : co (v / 2) k = if k <? 128 then (if k =? 0 then bit v 128 else co v (k - 1)) else false.
Proof.
  unfold co. destruct (Nat.ltb_spec k 128) as [H|H]; [|reflexivity].
  replace (v / 2)%N with (N.div2 v) by apply N.div2_div. unfold bit at 1. rewrite N.div2_spec, N.shiftr_spec'.
  destruct (Nat.eqb_spec k 0) as [->|Hk]; [reflexivity|]. destruct (Nat.ltb_spec (k - 1) 128); [|lia].
  unfold bit. f_equal. lia.
Qed.
Lemma small_stepped v : small v -> small (stepped v).
Proof.
  intros H. unfold stepped.
  assert (D : small (v / 2)) by (unfold small in *; apply N.div_lt_upper_bound; lia).
  destruct (N.testbit v 0); [apply small_lxor; [exact D|]; reflexivity|exact D].
Qed.
Lemma stepped_co v k : small v ->
  later 1 (co v) k = xorb (co (stepped v) k) (multiple (fun i => co v 127 && (i =? 0)) k).
Proof.
  intros Hv. rewrite multiple_and.
  assert (M : multiple (fun i => i =? 0) k = modulus k).
  { unfold multiple, modulus, later. cbn [existsb].
    destruct (Nat.leb_spec 0 k); [|lia]. rewrite Nat.sub_0_r.
    assert (E : forall n, (if n <=? k then k - n =? 0 else false) = (k =? n)).
    { intros n. destruct (Nat.leb_spec n k), (Nat.eqb_spec k n); try lia; try reflexivity.
      - apply Nat.eqb_eq. lia.
      - apply Nat.eqb_neq. lia. }
    rewrite !E. destruct (Nat.eqb_spec k 0), (Nat.eqb_spec k 1), (Nat.eqb_spec k 2), (Nat.eqb_spec k 7),
      (Nat.eqb_spec k 128); try lia; reflexivity. }
  rewrite M. assert (L : N.testbit v 0 = co v 127) by reflexivity.
  unfold stepped. rewrite L. destruct (co v 127) eqn:C.
  - rewrite co_lxor, tail_co, half_co. unfold later.
    destruct (Nat.ltb_spec k 128) as [H|H].
    + rewrite andb_true_r. destruct (Nat.eqb_spec k 0) as [->|Hk].
      * cbn. now rewrite small_high by (exact Hv || lia).
      * destruct (Nat.leb_spec 1 k); [|lia]. now destruct (co v (k - 1)), (modulus k).
    + rewrite andb_false_r. destruct (Nat.leb_spec 1 k); [|lia]. cbn [xorb andb].
      destruct (Nat.eq_dec k 128) as [->|Hk]; [exact C|]. rewrite modulus_high by lia.
      unfold co. destruct (Nat.ltb_spec (k - 1) 128); [lia|reflexivity].
  - rewrite half_co. cbn [andb]. rewrite xorb_false_r. unfold later.
    destruct (Nat.leb_spec 1 k) as [H1|H1].
    + destruct (Nat.eqb_spec k 0); [lia|]. destruct (Nat.ltb_spec k 128) as [H|H]; [reflexivity|].
      destruct (Nat.eq_dec k 128) as [->|Hk]; [exact C|].
      unfold co. destruct (Nat.ltb_spec (k - 1) 128); [lia|reflexivity].
    + replace k with 0 by lia. cbn. now rewrite small_high by (exact Hv || lia).
Qed.

Lemma gf_mul_step n y v z : gf_mul (S n) y v z =
  gf_mul n y (stepped v) (if bit y n then N.lxor z v else z).
Proof. reflexivity. Qed.

Lemma gf_mul_co n : forall m y v z h qv, m + n = 128 -> small v -> small z ->
  (forall k, later m h k = xorb (co v k) (multiple qv k)) -> (forall i, m <= i -> qv i = false) ->
  small (gf_mul n y v z) /\
  exists q, (forall i, 127 <= i -> q i = false) /\
    forall k, xorb (co (gf_mul n y v z) k) (co z k) =
      xorb (total (fun i => co y i && later i h k) (seq m n)) (multiple q k).
Proof.
  induction n as [|n IH]; intros m y v z h qv Hm Hv Hz Hq Hs.
  - split; [exact Hz|]. exists (fun _ => false). split; [reflexivity|]. intros k. cbn [gf_mul seq].
    rewrite xorb_nilpotent. unfold total, multiple, later. cbn [map fold_right].
    now destruct (0 <=? k), (1 <=? k), (2 <=? k), (7 <=? k), (128 <=? k).
  - rewrite gf_mul_step.
    assert (Ey : bit y n = co y m).
    { unfold co. destruct (Nat.ltb_spec m 128); [|lia]. f_equal. lia. }
    rewrite Ey.
    destruct (IH (S m) y (stepped v) (if co y m then N.lxor z v else z) h
      (fun i => xorb (co v 127 && (i =? 0)) (later 1 qv i))) as (Sm & q & Q1 & Q2).
    + lia.
    + now apply small_stepped.
    + destruct (co y m); [now apply small_lxor|exact Hz].
    + intros k. rewrite multiple_xor, multiple_later.
      replace (later (S m) h k) with (later 1 (later m h) k) by (rewrite later_later; f_equal; lia).
      rewrite (later_ext 1 _ _ k Hq), later_xor, stepped_co by exact Hv. apply xorb_assoc.
    + intros i Hi. unfold later. destruct (Nat.eqb_spec i 0); [lia|]. rewrite andb_false_r.
      destruct (Nat.leb_spec 1 i); [|lia]. rewrite Hs by lia. reflexivity.
    + split; [exact Sm|]. exists (fun i => xorb (q i) (co y m && qv i)). split.
      * intros i Hi. rewrite Q1, Hs by lia. now rewrite andb_false_r.
      * intros k. specialize (Q2 k). rewrite multiple_xor, multiple_and.
        cbn [seq]. change (m :: seq (S m) n) with ([m] ++ seq (S m) n). rewrite total_app.
        unfold total at 1. cbn [map fold_right]. rewrite Hq, xorb_false_r.
        set (r := gf_mul n y _ _) in *. clearbody r.
        replace (co (if co y m then N.lxor z v else z) k) with (xorb (co z k) (co y m && co v k)) in Q2.
        2:{ destruct (co y m); [now rewrite co_lxor|]. apply xorb_false_r. }
        revert Q2. generalize (co r k), (co z k), (co y m), (co v k), (multiple qv k), (multiple q k).
        generalize (total (fun i => co y i && later i h k) (seq (S m) n)). clear.
        intros a b c d e f g. now destruct a, b, c, d, e, f, g.
Qed.

Lemma gf_mul_product y h : small h -> small (gf_mul 128 y h 0) /\
  exists q, (forall i, 127 <= i -> q i = false) /\
    forall k, times (co y) (co h) k = xorb (co (gf_mul 128 y h 0) k) (times modulus q k).
Proof.
  intros Hh.
  destruct (gf_mul_co 128 0 y h 0 (co h) (fun _ => false)) as (S & q & Q1 & Q2); try reflexivity; try assumption.
  - intros k. unfold multiple, later. rewrite Nat.sub_0_r.
    now destruct (co h k), (1 <=? k), (2 <=? k), (7 <=? k), (128 <=? k).
  - split; [exact S|]. exists q. split; [exact Q1|]. intros k. rewrite times_modulus.
    rewrite (times_low _ _ 128). 2:{ intros i Hi. unfold co. destruct (Nat.ltb_spec i 128); [lia|reflexivity]. }
    specialize (Q2 k). set (r := gf_mul _ _ _ _) in *. clearbody r.
    replace (co 0 k) with false in Q2. 2:{ unfold co, bit. rewrite N.bits_0. now destruct (k <? 128). }
    revert Q2. generalize (total (fun i => co y i && later i (co h) k) (seq 0 128)), (co r k), (multiple q k).
    intros a b c. now destruct a, b, c.
Qed.

(** ** Bytes and numbers *)
Lemma be_n_app a b : be_n (a ++ b) = (be_n a * 256 ^ N.of_nat (List.length b) + be_n b)%N.
Proof.
  revert b. assert (G : forall b s, fold_left (fun a b => a * 256 + b)%N b s = (s * 256 ^ N.of_nat (List.length b) + be_n b)%N).
  { induction b as [|x b IH]; intros s; [cbn; lia|]. unfold be_n. cbn [fold_left]. rewrite (IH (s * 256 + x)%N), (IH (0 * 256 + x)%N).
    cbn [List.length]. rewrite Nat2N.inj_succ, N.pow_succ_r'. nia. }
  intros b. unfold be_n at 1. rewrite fold_left_app. apply G.
Qed.
Lemma be_n_last a b : be_n (a ++ [b]) = (b + 256 * be_n a)%N.
Proof. rewrite be_n_app. change (256 ^ N.of_nat (List.length [b]))%N with 256%N. change (be_n [b]) with b. lia. Qed.
Lemma be_n_lt X : octets X -> (be_n X < 256 ^ N.of_nat (List.length X))%N.
Proof.
  induction X as [|b X IH] using rev_ind; intros O; [reflexivity|]. unfold octets in O. rewrite Forall_app in O.
  destruct O as [O Ob]. apply Forall_inv in Ob. specialize (IH O). rewrite be_n_last, app_length.
  cbn [List.length]. rewrite Nat.add_1_r, Nat2N.inj_succ, N.pow_succ_r'. lia.
Qed.
Lemma be_bytes_octets k n : octets (be_bytes k n).
Proof.
  revert n. induction k as [|k IH]; intros n; [constructor|]. cbn [be_bytes]. apply Forall_app. split; [apply IH|].
  constructor; [|constructor]. apply N.mod_lt. discriminate.
Qed.
Lemma be_n_be_bytes k n : be_n (be_bytes k n) = (n mod 256 ^ N.of_nat k)%N.
Proof.
  revert n. induction k as [|k IH]; intros n; [cbn; now rewrite N.mod_1_r|].
  cbn [be_bytes]. rewrite be_n_last, IH, Nat2N.inj_succ, N.pow_succ_r'.
  rewrite N.mod_mul_r; [reflexivity|discriminate|]. apply N.pow_nonzero. discriminate.
Qed.
Lemma be_bytes_be_n X : octets X -> be_bytes (List.length X) (be_n X) = X.
Proof.
  induction X as [|b X IH] using rev_ind; intros O; [reflexivity|]. unfold octets in O. rewrite Forall_app in O.
  destruct O as [O Ob]. apply Forall_inv in Ob. rewrite be_n_last, app_length. cbn [List.length].
  rewrite Nat.add_1_r. cbn [be_bytes]. f_equal.
  - transitivity (be_bytes (List.length X) (be_n X)); [|exact (IH O)]. f_equal.
    rewrite (N.mul_comm 256 (be_n X)), N.div_add by discriminate. rewrite N.div_small by exact Ob. lia.
  - f_equal. rewrite (N.mul_comm 256 (be_n X)), N.mod_add by discriminate. now apply N.mod_small.
Qed.
Lemma be_bytes_app j k n : be_bytes (j + k) n = be_bytes j (n / 256 ^ N.of_nat k) ++ be_bytes k n.
Proof.
  revert n. induction k as [|k IH]; intros n.
  - cbn [be_bytes]. rewrite Nat.add_0_r, app_nil_r, N.div_1_r. reflexivity.
  - rewrite Nat.add_succ_r. cbn [be_bytes]. rewrite IH, app_assoc. f_equal. f_equal. f_equal.
    rewrite Nat2N.inj_succ, N.pow_succ_r', N.div_div; [reflexivity|discriminate|]. apply N.pow_nonzero. discriminate.
Qed.
Lemma four_is n : four_bytes n = be_bytes 4 n.
Proof.
  cbn [be_bytes app]. unfold four_bytes. rewrite !N.div_div by discriminate. reflexivity.
Qed.
Lemma eight_is n : eight_bytes n = be_bytes 8 n.
Proof. unfold eight_bytes. rewrite !four_is. symmetry. apply (be_bytes_app 4 4). Qed.
Lemma sixteen_is n : (n < 2 ^ 64)%N -> eight_bytes 0 ++ eight_bytes n = be_bytes 16 n.
Proof.
  intros H. rewrite !eight_is. rewrite (be_bytes_app 8 8). f_equal. f_equal. symmetry. now apply N.div_small.
Qed.

Lemma be_n_bit X z : octets X -> bit (be_n X) z =
  if z <? 8 * List.length X then bit (nth (List.length X - 1 - z / 8) X 0%N) (z mod 8) else false.
Proof.
  revert z. induction X as [|b X IH] using rev_ind; intros z O; [unfold bit; apply N.bits_0|].
  unfold octets in O. rewrite Forall_app in O. destruct O as [O Ob]. apply Forall_inv in Ob.
  rewrite be_n_last, testbit_mix, IH by assumption. rewrite app_length. cbn [List.length].
  destruct (Nat.ltb_spec z 8) as [Hz|Hz].
  - destruct (Nat.ltb_spec z (8 * (List.length X + 1))); [|lia]. rewrite Nat.div_small, Nat.mod_small by exact Hz.
    rewrite app_nth2 by lia. replace (List.length X + 1 - 1 - 0 - List.length X) with 0 by lia. reflexivity.
  - destruct (Nat.ltb_spec (z - 8) (8 * List.length X)) as [H|H].
    + destruct (Nat.ltb_spec z (8 * (List.length X + 1))); [|lia].
      replace z with (z - 8 + 1 * 8) at 3 4 by lia. rewrite Nat.mod_add, Nat.div_add by discriminate.
      assert ((z - 8) / 8 < List.length X) by (apply Nat.div_lt_upper_bound; lia).
      rewrite app_nth1 by lia. f_equal. f_equal. lia.
    + destruct (Nat.ltb_spec z (8 * (List.length X + 1))); [lia|reflexivity].
Qed.
Lemma coefficient_co X i : is_block X -> coefficient_of X i = co (be_n X) i.
Proof.
  intros [L O]. unfold coefficient_of, co. destruct (Nat.ltb_spec i 128) as [H|H]; [|reflexivity].
  rewrite be_n_bit, L by exact O. destruct (Nat.ltb_spec (127 - i) (8 * 16)); [|lia].
  pose proof (Nat.div_mod i 8 ltac:(discriminate)) as D. pose proof (Nat.mod_upper_bound i 8 ltac:(discriminate)) as M.
  assert (Q : i / 8 < 16) by (apply Nat.div_lt_upper_bound; lia).
  assert (E1 : (127 - i) / 8 = 15 - i / 8) by (symmetry; apply (Nat.div_unique _ 8 _ (7 - i mod 8)); lia).
  assert (E2 : (127 - i) mod 8 = 7 - i mod 8) by (symmetry; apply (Nat.mod_unique _ 8 (15 - i / 8)); lia).
  rewrite E1, E2. unfold bit. f_equal. f_equal. lia.
Qed.
Lemma block_small X : is_block X -> small (be_n X).
Proof. intros [L O]. pose proof (be_n_lt X O) as H. rewrite L in H. exact H. Qed.
Lemma block_bytes n : is_block (be_bytes 16 n).
Proof. split; [apply be_bytes_length|apply be_bytes_octets]. Qed.
Lemma block_back X : is_block X -> be_bytes 16 (be_n X) = X.
Proof. intros [L O]. rewrite <- L. now apply be_bytes_be_n. Qed.
Lemma small_back n : small n -> be_n (be_bytes 16 n) = n.
Proof. intros H. rewrite be_n_be_bytes. now apply N.mod_small. Qed.
Lemma xor_block X Y : is_block X -> is_block Y -> is_block (xor_string X Y).
Proof.
  intros [L O] [L' O']. split; [|apply xor_bytes_octets; congruence || assumption].
  change (List.length (xor_bytes X Y) = 16). rewrite xor_bytes_length, L, L'. reflexivity.
Qed.
Lemma be_n_xor X Y : is_block X -> is_block Y -> be_n (xor_string X Y) = N.lxor (be_n X) (be_n Y).
Proof.
  intros HX HY. pose proof (xor_block X Y HX HY) as HZ. apply N.bits_inj. intros z. rewrite <- (N2Nat.id z).
  change (bit (be_n (xor_string X Y)) (N.to_nat z) = bit (N.lxor (be_n X) (be_n Y)) (N.to_nat z)).
  destruct HX as [L O], HY as [L' O'], HZ as [L'' O'']. rewrite bit_lxor, !be_n_bit, L, L', L'' by assumption.
  destruct (N.to_nat z <? 8 * 16); [|reflexivity]. rewrite <- bit_lxor. f_equal.
  apply xor_bytes_nth. congruence.
Qed.

(** ** Products and sums of blocks *)
Lemma times_ext x x' y y' k : (forall i, x i = x' i) -> (forall i, y i = y' i) -> times x y k = times x' y' k.
Proof.
  intros Hx Hy. unfold times. f_equal. apply map_ext. intros i. now rewrite Hx, Hy.
Qed.
Theorem product_is X H : is_block X -> is_block H -> is_product X H (be_bytes 16 (gf_mul 128 (be_n X) (be_n H) 0)).
Proof.
  intros HX HH. split; [apply block_bytes|].
  destruct (gf_mul_product (be_n X) (be_n H) (block_small H HH)) as (S & q & Q1 & Q2).
  exists q. split; [exact Q1|]. intros k. rewrite coefficient_co by apply block_bytes. rewrite small_back by exact S.
  rewrite <- Q2. apply times_ext; intros i; now apply coefficient_co.
Qed.

Lemma multiple_low q n : (forall i, n <= i -> q i = false) -> (forall k, 128 <= k -> multiple q k = false) ->
  forall i, q i = false.
Proof.
  revert q. induction n as [|n IH]; intros q Hq Hm; [intros i; apply Hq; lia|].
  apply (IH q); [|exact Hm]. intros i Hi. destruct (Nat.eq_dec i n) as [->|Hn]; [|apply Hq; lia].
  specialize (Hm (n + 128) ltac:(lia)). unfold multiple, later in Hm.
  destruct (Nat.leb_spec 0 (n + 128)), (Nat.leb_spec 1 (n + 128)), (Nat.leb_spec 2 (n + 128)),
    (Nat.leb_spec 7 (n + 128)), (Nat.leb_spec 128 (n + 128)); try lia.
  rewrite !(Hq (n + 128 - _)) in Hm by lia. replace (n + 128 - 128) with n in Hm by lia. now rewrite !xorb_false_l in Hm.
Qed.
Theorem product_unique X Y Z Z' : is_product X Y Z -> is_product X Y Z' -> Z = Z'.
Proof.
  intros (B & q & Q1 & Q2) (B' & q' & Q1' & Q2').
  rewrite <- (block_back Z B), <- (block_back Z' B'). f_equal.
  assert (E : forall k, xorb (co (be_n Z) k) (co (be_n Z') k) = multiple (fun i => xorb (q i) (q' i)) k).
  { intros k. rewrite multiple_xor, <- !times_modulus, <- !coefficient_co by assumption.
    specialize (Q2 k). rewrite Q2' in Q2. revert Q2.
    generalize (coefficient_of Z k), (coefficient_of Z' k), (times modulus q k), (times modulus q' k).
    intros a b c d. now destruct a, b, c, d. }
  assert (D : forall i, xorb (q i) (q' i) = false).
  { apply (multiple_low (fun i => xorb (q i) (q' i)) 127).
    - intros i Hi. now rewrite Q1, Q1'.
    - intros k Hk. rewrite <- E. unfold co. destruct (Nat.ltb_spec k 128); [lia|reflexivity]. }
  apply co_inj; [now apply block_small..|]. intros k. specialize (E k).
  replace (multiple (fun i => xorb (q i) (q' i)) k) with false in E.
  - revert E. now destruct (co (be_n Z) k), (co (be_n Z') k).
  - unfold multiple, later. rewrite !D. now destruct (0 <=? k), (1 <=? k), (2 <=? k), (7 <=? k), (128 <=? k).
Qed.
Lemma ghash_unique H Y Xs R : ghash_from H Y Xs R -> forall R', ghash_from H Y Xs R' -> R = R'.
Proof.
  induction 1 as [Y|Y X Y' Xs R P G IH]; intros R' G'; inversion G'; subst; [reflexivity|].
  apply IH. match goal with A : is_product (xor_string Y X) H ?V |- _ => rewrite (product_unique _ _ _ _ P A) end.
  assumption.
Qed.
Lemma ghash_app H Y a R b R' : ghash_from H Y a R -> ghash_from H R b R' -> ghash_from H Y (a ++ b) R'.
Proof. induction 1; intros G; [exact G|]. cbn [app]. econstructor; [eassumption|]. now apply IHghash_from. Qed.

(** ** GHASH *)
Lemma filled_block bs u : 16 <= List.length bs + u ->
  firstn 16 (firstn 16 bs ++ repeat 0%N 16) = firstn 16 (bs ++ repeat 0%N u).
Proof.
  intros H. apply (nth_ext _ _ 0%N 0%N).
  - rewrite !firstn_length, !app_length, !repeat_length, firstn_length. lia.
  - intros k Hk. rewrite firstn_length in Hk. rewrite !nth_cut by lia.
    destruct (le_lt_dec (List.length bs) k) as [L|L].
    + rewrite !app_nth2 by (try rewrite firstn_length; lia). rewrite !nth_repeat. reflexivity.
    + rewrite !app_nth1 by (try rewrite firstn_length; lia). apply nth_cut. lia.
Qed.
Lemma dropped_block bs u : 16 <= List.length bs + u ->
  skipn 16 (bs ++ repeat 0%N u) = skipn 16 bs ++ repeat 0%N (u - (16 - List.length bs)).
Proof.
  intros H. rewrite skipn_app. f_equal. apply (nth_ext _ _ 0%N 0%N).
  - rewrite skipn_length, !repeat_length. reflexivity.
  - intros k _. rewrite nth_drop, !nth_repeat. reflexivity.
Qed.
Lemma zeros_octets u : octets (repeat 0%N u).
Proof. apply Forall_forall. intros x Hx. apply repeat_spec in Hx. subst. reflexivity. Qed.

Lemma ghash_is H n : forall acc bs u, is_block H -> small acc -> octets bs -> List.length bs + u = 16 * n ->
  small (ghash n (be_n H) acc bs) /\
  ghash_from H (be_bytes 16 acc) (split_blocks n (bs ++ repeat 0%N u)) (be_bytes 16 (ghash n (be_n H) acc bs)).
Proof.
  induction n as [|n IH]; intros acc bs u BH Sa O L; [split; [exact Sa|constructor]|].
  cbn [ghash split_blocks]. rewrite (filled_block bs u) by lia. rewrite dropped_block by lia.
  set (X := firstn 16 (bs ++ repeat 0%N u)).
  assert (BX : is_block X).
  { split; [unfold X; rewrite firstn_length, app_length, repeat_length; lia|].
    apply octets_cut. apply Forall_app. split; [exact O|apply zeros_octets]. }
  clearbody X.
  assert (E : N.lxor acc (be_n X) = be_n (xor_string (be_bytes 16 acc) X)).
  { rewrite be_n_xor by (apply block_bytes || exact BX). now rewrite small_back. }
  rewrite E.
  pose proof (product_is _ H (xor_block _ X (block_bytes acc) BX) BH) as P.
  pose proof (proj1 (gf_mul_product (be_n (xor_string (be_bytes 16 acc) X)) (be_n H) (block_small H BH))) as Sg.
  set (v := gf_mul _ _ _ _) in *. clearbody v.
  destruct (IH v (skipn 16 bs) (u - (16 - List.length bs)) BH Sg) as [S1 S2].
  - now apply octets_cut.
  - rewrite skipn_length. lia.
  - split; [exact S1|]. econstructor; [exact P|exact S2].
Qed.

Lemma split_app n m : forall A B, List.length A = 16 * n ->
  split_blocks (n + m) (A ++ B) = split_blocks n A ++ split_blocks m B.
Proof.
  induction n as [|n IH]; intros A B L.
  - destruct A; [reflexivity|discriminate].
  - cbn [Nat.add split_blocks app]. f_equal.
    + rewrite firstn_app. replace (16 - List.length A) with 0 by lia. rewrite firstn_O. apply app_nil_r.
    + rewrite skipn_app. replace (16 - List.length A) with 0 by lia. rewrite skipn_O. apply IH. rewrite skipn_length. lia.
Qed.

Lemma filled_length n : exists u, 16 * ((n + 15) / 16) - n = u /\ n + u = 16 * ((n + 15) / 16).
Proof.
  eexists. split; [reflexivity|].
  pose proof (Nat.div_mod (n + 15) 16 ltac:(discriminate)) as D.
  pose proof (Nat.mod_upper_bound (n + 15) 16 ltac:(discriminate)) as M. lia.
Qed.

Theorem sum_is H C : is_block H -> octets C -> (8 * N.of_nat (List.length C) < 2 ^ 64)%N ->
  small (gcm_sum (be_n H) C) /\
  is_ghash H (blocks (C ++ repeat 0%N (16 * ((List.length C + 15) / 16) - List.length C) ++
      eight_bytes 0 ++ eight_bytes (8 * N.of_nat (List.length C))))
    (be_bytes 16 (gcm_sum (be_n H) C)).
Proof.
  intros BH O Hl. rewrite sixteen_is by exact Hl. unfold gcm_sum.
  destruct (filled_length (List.length C)) as (u & -> & Hu).
  set (n := (List.length C + 15) / 16) in *. clearbody n.
  assert (Sl : small (8 * N.of_nat (List.length C))).
  { unfold small. eapply N.lt_trans; [exact Hl|reflexivity]. }
  set (len := (8 * N.of_nat (List.length C))%N) in *. clearbody len.
  destruct (ghash_is H n 0 C u BH eq_refl O Hu) as [S1 S2].
  set (g := ghash n (be_n H) 0 C) in *. clearbody g.
  assert (E : N.lxor g len = be_n (xor_string (be_bytes 16 g) (be_bytes 16 len))).
  { rewrite be_n_xor by apply block_bytes. now rewrite !small_back. }
  rewrite E. split; [apply gf_mul_product, block_small, BH|].
  unfold is_ghash, blocks. rewrite app_assoc, app_length.
  assert (LA : List.length (C ++ repeat 0%N u) = 16 * n) by (rewrite app_length, repeat_length; exact Hu).
  rewrite LA, be_bytes_length. replace ((16 * n + 16) / 16) with (n + 1).
  2:{ replace (16 * n + 16) with ((n + 1) * 16) by lia. symmetry. apply Nat.div_mul. discriminate. }
  rewrite split_app by exact LA. eapply ghash_app; [exact S2|].
  cbn [split_blocks]. rewrite firstn_all2 by (rewrite be_bytes_length; lia).
  econstructor; [|constructor]. apply product_is; [|exact BH]. apply xor_block; apply block_bytes.
Qed.

(** ** Counter mode *)
Lemma inc32_is nonce i : List.length nonce = 12 ->
  inc32 (nonce ++ four_bytes (i mod 2 ^ 32)) = nonce ++ four_bytes ((i + 1) mod 2 ^ 32).
Proof.
  intros L. unfold inc32. rewrite firstn_app, skipn_app, L, Nat.sub_diag, firstn_O, skipn_O.
  rewrite firstn_all2, skipn_all2, app_nil_r by lia. cbn [app]. f_equal. f_equal.
  change number with be_n. rewrite !four_is, be_n_be_bytes. change (256 ^ N.of_nat 4)%N with (2 ^ 32)%N.
  rewrite N.mod_mod by discriminate. apply N.add_mod_idemp_l. discriminate.
Qed.
Lemma counters_is nonce n : forall i, List.length nonce = 12 ->
  counters n (nonce ++ four_bytes (i mod 2 ^ 32)) =
  map (fun k => nonce ++ be_bytes 4 ((i + N.of_nat k) mod 2 ^ 32)) (seq 0 n).
Proof.
  induction n as [|n IH]; intros i L; [reflexivity|]. cbn [counters]. rewrite inc32_is, IH by exact L.
  cbn [seq map]. rewrite N.add_0_r, four_is. f_equal. rewrite (map_seq_add _ 1). apply map_ext. intros k.
  f_equal. f_equal. f_equal. lia.
Qed.

Lemma digits_lxor (b c : bool) (x y : N) :
  N.lxor ((if b then 1 else 0) + 2 * x) ((if c then 1 else 0) + 2 * y) = ((if xorb b c then 1 else 0) + 2 * N.lxor x y)%N.
Proof.
  destruct x as [|x], y as [|y], b, c; try reflexivity; cbn; destruct (Pos.lxor x y); reflexivity.
Qed.
Lemma ascii_lxor a b : N_of_ascii (xor_ascii a b) = N.lxor (N_of_ascii a) (N_of_ascii b).
Proof.
  destruct a as [a0 a1 a2 a3 a4 a5 a6 a7], b as [b0 b1 b2 b3 b4 b5 b6 b7]. unfold N_of_ascii, xor_ascii.
  cbn [N_of_digits]. now rewrite !digits_lxor.
Qed.

Section counter.
Context (rks : list (list N)) (nonce : list N) (E : list N -> list N).
Hypothesis (Cipher_is : forall X, is_block X -> E X = aes_block rks X /\ is_block (E X)).
Hypothesis (Nonce_length : List.length nonce = 12) (Nonce_octets : octets nonce).

Lemma counter_is_block i : is_block (nonce ++ be_bytes 4 (i mod 2 ^ 32)).
Proof.
  split; [rewrite app_length, be_bytes_length, Nonce_length; reflexivity|].
  apply Forall_app. split; [exact Nonce_octets|apply be_bytes_octets].
Qed.
Lemma counter_value i : counter_block rks nonce i = E (nonce ++ be_bytes 4 (i mod 2 ^ 32)) /\
  is_block (counter_block rks nonce i).
Proof.
  destruct (Cipher_is _ (counter_is_block i)) as [H B]. unfold counter_block. rewrite <- H. now split.
Qed.

Definition stream (n : nat) (i : N) : list N := concat (map (fun k => counter_block rks nonce (i + N.of_nat k)) (seq 0 n)).
Lemma stream_S n i : stream (S n) i = counter_block rks nonce i ++ stream n (i + 1).
Proof.
  unfold stream. cbn [seq map concat]. rewrite N.add_0_r. f_equal. f_equal. rewrite (map_seq_add _ 1).
  apply map_ext. intros k. f_equal. lia.
Qed.

Lemma ctr_stream data : forall n i ks, octets ks -> List.length data <= List.length ks + 16 * n ->
  map N_of_ascii (ctr rks nonce i ks data) = xor_string (map N_of_ascii data) (ks ++ stream n i).
Proof.
  induction data as [|x data IH]; intros n i ks O L; [reflexivity|]. cbn [ctr].
  destruct ks as [|k ks].
  - cbn [app List.length] in *. destruct n as [|n]; [cbn in L; lia|].
    rewrite stream_S. destruct (counter_value i) as [_ [Lc Oc]].
    destruct (counter_block rks nonce i) as [|k ks]; [discriminate|].
    inversion_clear Oc as [|? ? Ok Oks]. cbn [map app]. unfold xor_string at 1. cbn [combine map fst snd].
    rewrite ascii_lxor, N_ascii_embedding by exact Ok. f_equal. apply IH; [exact Oks|].
    cbn [List.length] in Lc. lia.
  - inversion_clear O as [|? ? Ok Oks]. cbn [map app]. unfold xor_string at 1. cbn [combine map fst snd].
    rewrite ascii_lxor, N_ascii_embedding by exact Ok. f_equal. apply IH; [exact Oks|].
    cbn [List.length] in L. lia.
Qed.

Theorem ctr_is i data :
  map N_of_ascii (ctr rks nonce i [] data) = gctr E (nonce ++ four_bytes (i mod 2 ^ 32)) (map N_of_ascii data).
Proof.
  destruct (filled_length (List.length data)) as (u & _ & Hu).
  rewrite (ctr_stream data ((List.length data + 15) / 16) i []); [|constructor|cbn [List.length]; lia].
  unfold gctr. cbn [app]. rewrite map_length, counters_is by exact Nonce_length.
  unfold stream. rewrite map_map. do 2 f_equal. apply map_ext. intros k. apply counter_value.
Qed.

Lemma gctr_block X : is_block X -> gctr E (nonce ++ [0; 0; 0; 1]%N) X = xor_string X (counter_block rks nonce 1).
Proof.
  intros [L _]. unfold gctr. rewrite L. change ((16 + 15) / 16) with 1.
  change [0; 0; 0; 1]%N with (four_bytes (1 mod 2 ^ 32)). rewrite counters_is by exact Nonce_length.
  cbn [seq map concat]. rewrite app_nil_r. f_equal. symmetry. apply (counter_value 1).
Qed.

Theorem gcm_is data : (8 * N.of_nat (List.length data) < 2 ^ 64)%N ->
  is_gcm E nonce (map N_of_ascii data) (map N_of_ascii (ctr rks nonce 2 [] data))
    (map N_of_ascii (gcm_tag rks nonce (ctr rks nonce 2 [] data))).
Proof.
  intros Hl. unfold is_gcm. cbv zeta. split.
  - rewrite ctr_is. f_equal. change [0; 0; 0; 1]%N with (four_bytes (1 mod 2 ^ 32)). rewrite inc32_is by exact Nonce_length.
    reflexivity.
  - pose proof (ctr_length rks nonce 2 [] data) as Lc.
    set (ct := ctr rks nonce 2 [] data) in *. clearbody ct.
    assert (Oc : octets (map N_of_ascii ct)).
    { apply Forall_map, Forall_forall. intros x _. apply N_ascii_bounded. }
    destruct (Cipher_is (repeat 0%N 16)) as [E0 B0]; [split; [reflexivity|apply zeros_octets]|].
    destruct (sum_is (E (repeat 0%N 16)) (map N_of_ascii ct) B0 Oc) as [S1 S2].
    { rewrite map_length, Lc. exact Hl. }
    eexists. split; [exact S2|]. rewrite gctr_block by apply block_bytes.
    unfold gcm_tag. cbv zeta. rewrite <- E0. set (s := gcm_sum _ _) in *. clearbody s.
    destruct (counter_value 1) as [_ B1]. set (c := counter_block rks nonce 1) in *. clearbody c.
    rewrite <- (block_back _ (xor_block _ _ (block_bytes s) B1)), be_n_xor by (apply block_bytes || exact B1).
    rewrite small_back by exact S1. set (t := N.lxor s (be_n c)). clearbody t.
    pose proof (be_bytes_octets 16 t) as Ot. revert Ot. generalize (be_bytes 16 t) as bs. clear.
    induction bs as [|b bs IH]; intros O; [reflexivity|]. inversion_clear O. cbn [map].
    rewrite N_ascii_embedding by assumption. f_equal. now apply IH.
Qed.
End counter.

Theorem gcm_unique E IV P C T C' T' : is_gcm E IV P C T -> is_gcm E IV P C' T' -> C = C' /\ T = T'.
Proof.
  unfold is_gcm. cbv zeta. intros (-> & S & G & ->) (-> & S' & G' & ->). split; [reflexivity|].
  now rewrite (ghash_unique _ _ _ _ G _ G').
Qed.

(** ** The cipher of Gcm.v *)
Lemma text_octets s : octets (text_bytes s).
Proof. apply Forall_map, Forall_forall. intros x _. apply N_ascii_bounded. Qed.
Lemma text_of l : text_bytes (string_of_list_ascii l) = map N_of_ascii l.
Proof. unfold text_bytes. now rewrite list_ascii_of_string_of_list_ascii. Qed.

Theorem gcm_enc_is key nonce data w : String.length key = 32 -> String.length nonce = 12 ->
  (8 * N.of_nat (String.length data) < 2 ^ 64)%N -> schedule (text_bytes key) w ->
  exists c t, gcm_enc key nonce data = (c ++ t)%string /\ String.length t = 16 /\
    is_gcm (Cipher w) (text_bytes nonce) (text_bytes data) (text_bytes c) (text_bytes t).
Proof.
  intros Lk Ln Ld Sw. unfold gcm_enc. cbv zeta.
  assert (Ci : forall X, is_block X -> Cipher w X = aes_block (round_keys (text_bytes key)) X /\ is_block (Cipher w X)).
  { intros X [L O]. assert (E : aes_block (round_keys (text_bytes key)) X = Cipher w X).
    { apply aes_fips; try assumption; [now rewrite text_bytes_length|apply text_octets]. }
    rewrite <- E. split; [reflexivity|]. apply aes_form; try assumption; [now rewrite text_bytes_length|apply text_octets]. }
  rewrite soa_app. eexists _, _. split; [reflexivity|]. split; [rewrite soa_length; apply tag_length|].
  rewrite !text_of. apply gcm_is; try assumption.
  - now rewrite text_bytes_length.
  - apply text_octets.
  - rewrite aos_length. exact Ld.
Qed.

Theorem gcm_dec_is key nonce c t m w : String.length key = 32 -> String.length nonce = 12 -> String.length t = 16 ->
  (8 * N.of_nat (String.length m) < 2 ^ 64)%N -> schedule (text_bytes key) w ->
  gcm_dec key nonce (c ++ t) = Some m <->
  is_gcm (Cipher w) (text_bytes nonce) (text_bytes m) (text_bytes c) (text_bytes t).
Proof.
  intros Lk Ln Lt Lm Sw. rewrite gcm_exact.
  destruct (gcm_enc_is key nonce m w Lk Ln Lm Sw) as (c' & t' & E & Lt' & G). rewrite E. split.
  - intros H. pose proof (f_equal String.length H) as L. rewrite !append_len in L.
    apply append_inj in H as [-> ->]; [exact G|lia].
  - intros G'. destruct (gcm_unique _ _ _ _ _ _ _ G G') as [A B].
    apply text_bytes_inj in A, B. now subst.
Qed.

Lemma text_back bs : octets bs -> text_bytes (bytes_text bs) = bs.
Proof.
  intros O. unfold bytes_text. rewrite text_of. induction O as [|b bs Hb O IH]; [reflexivity|]. cbn [map].
  rewrite N_ascii_embedding by exact Hb. now rewrite IH.
Qed.

Theorem sha3_text s : bits_of_bytes (text_bytes (sha3_256 s)) = sha3_256_bits (bits_of_bytes (text_bytes s)).
Proof.
  unfold sha3_256. rewrite text_back; [apply sha3_fips, text_octets|]. apply Forall_forall, sha3_bytes_small.
Qed.

Lemma bits_inj a : forall b, octets a -> octets b -> bits_of_bytes a = bits_of_bytes b -> a = b.
Proof.
  induction a as [|x a IH]; intros [|y b] Oa Ob H; [reflexivity|discriminate..|].
  inversion_clear Oa. inversion_clear Ob. unfold bits_of_bytes in H. cbn [flat_map] in H.
  assert (Hh : bits_of_byte x = bits_of_byte y /\ bits_of_bytes a = bits_of_bytes b).
  { pose proof (byte_length x) as Lx. pose proof (byte_length y) as Ly.
    split; [apply (f_equal (firstn 8)) in H; rewrite !firstn_app, Lx, Ly in H
           |apply (f_equal (skipn 8)) in H; rewrite !skipn_app, Lx, Ly in H].
    - rewrite Nat.sub_diag, !firstn_O, !app_nil_r, !firstn_all2 in H by lia. exact H.
    - rewrite Nat.sub_diag, !skipn_O, !skipn_all2 in H by lia. exact H. }
  destruct Hh as [Hx Ht]. f_equal; [|now apply IH].
  apply N.bits_inj. intros z. rewrite <- (N2Nat.id z). fold (bit x (N.to_nat z)) (bit y (N.to_nat z)).
  destruct (le_lt_dec 8 (N.to_nat z)) as [L|L]; [now rewrite !byte_high|].
  rewrite <- !byte_nth by exact L. now rewrite Hx.
Qed.
