(** Prime numbers: Fermat's little theorem and Pocklington's criterion.  Nothing here models
    code; it serves the instance of the laws over the scalar field of the curve BN254
    (BnInstance.v), the order of the type [Fr] that /repo/src/schemes imports from rabe-bn. *)
From Coq Require Import ZArith Znumtheory Zpow_facts List Permutation Lia Bool.
Import ListNotations.
Local Open Scope Z_scope.

(** ** Fermat *)
Definition residues (q : Z) : list Z := map Z.of_nat (seq 1 (Z.to_nat (q - 1))).

Lemma residues_in q x : In x (residues q) <-> 1 <= x < q.
Proof.
  unfold residues. rewrite in_map_iff. split.
  - intros (n & <- & H). apply in_seq in H. lia.
  - intros H. exists (Z.to_nat x). split; [lia|]. apply in_seq. lia.
Qed.

Lemma residues_nodup q : NoDup (residues q).
Proof.
  unfold residues. apply FinFun.Injective_map_NoDup; [|apply seq_NoDup].
  intros a b H. lia.
Qed.

Definition product (l : list Z) : Z := fold_right Z.mul 1 l.

Lemma product_perm l m : Permutation l m -> product l = product m.
Proof.
  unfold product. induction 1; cbn [fold_right]; try congruence; ring.
Qed.

Lemma product_scaled a q l : 0 < q ->
  product (map (fun i => (a * i) mod q) l) mod q = (a ^ Z.of_nat (length l) * product l) mod q.
Proof.
  intros Hq. induction l as [|x l IH]; [reflexivity|].
  cbn [map product fold_right length]. fold (product l).
  fold (product (map (fun i => (a * i) mod q) l)).
  rewrite Nat2Z.inj_succ, Z.pow_succ_r by lia.
  rewrite Z.mul_mod, IH, Z.mod_mod, <- Z.mul_mod by lia. f_equal. ring.
Qed.

Lemma prime_pos q : prime q -> 1 < q.
Proof. intros []. assumption. Qed.

Lemma coprime_below q x : prime q -> 1 <= x < q -> ~ (q | x).
Proof. intros Hq Hx D. apply Z.divide_pos_le in D; lia. Qed.

Lemma product_coprime q l : prime q -> (forall x, In x l -> 1 <= x < q) -> ~ (q | product l).
Proof.
  intros Hq. induction l as [|x l IH]; intros H D.
  - cbn in D. apply prime_pos in Hq. apply Z.divide_pos_le in D; lia.
  - cbn [product fold_right] in D. apply prime_mult in D; [|exact Hq]. destruct D as [D|D].
    + revert D. apply coprime_below; [exact Hq|]. apply H. now left.
    + revert D. apply IH. intros y Hy. apply H. now right.
Qed.

Lemma mod_eq_divide q a b : 0 < q -> a mod q = b mod q <-> (q | a - b).
Proof.
  intros Hq. split.
  - intros H. apply Z.mod_divide; [lia|]. rewrite Zminus_mod, H, Z.sub_diag. apply Z.mod_0_l. lia.
  - intros [k H]. replace a with (b + k * q) by lia. apply Z.mod_add. lia.
Qed.

Theorem fermat q a : prime q -> ~ (q | a) -> a ^ (q - 1) mod q = 1.
Proof.
  intros Hq Ha. pose proof (prime_pos q Hq) as H1.
  set (f := fun i => (a * i) mod q).
  assert (P : Permutation (map f (residues q)) (residues q)).
  { apply NoDup_Permutation_bis.
    - assert (G : forall l, NoDup l -> (forall x, In x l -> 1 <= x < q) -> NoDup (map f l)).
      { induction l as [|x l IH]; intros ND B; [constructor|]. cbn [map].
        inversion ND as [|? ? N1 N2]; subst. constructor.
        - intros I. apply in_map_iff in I. destruct I as (y & E & Iy). unfold f in E.
          apply mod_eq_divide in E; [|lia]. rewrite <- Z.mul_sub_distr_l in E.
          apply prime_mult in E; [|exact Hq]. destruct E as [E|E]; [contradiction|].
          assert (Bx := B x (or_introl eq_refl)). assert (By := B y (or_intror Iy)).
          destruct (Z.eq_dec x y) as [->|N]; [contradiction|].
          apply Z.divide_abs_r in E. apply Z.divide_pos_le in E; lia.
        - apply IH; [exact N2|]. intros y Hy. apply B. now right. }
      apply G; [apply residues_nodup|]. intros x. apply residues_in.
    - rewrite map_length. lia.
    - intros y I. apply in_map_iff in I. destruct I as (x & <- & Ix). apply residues_in in Ix.
      apply residues_in. unfold f.
      assert (B := Z.mod_pos_bound (a * x) q ltac:(lia)).
      destruct (Z.eq_dec ((a * x) mod q) 0) as [E|N]; [|lia].
      apply Z.mod_divide in E; [|lia]. apply prime_mult in E; [|exact Hq].
      destruct E as [E|E]; [contradiction|]. exfalso. revert E. now apply coprime_below. }
  assert (E := product_scaled a q (residues q) ltac:(lia)).
  fold f in E. rewrite (product_perm _ _ P) in E.
  assert (Len : Z.of_nat (length (residues q)) = q - 1).
  { unfold residues. rewrite map_length, seq_length. lia. }
  rewrite Len in E.
  assert (D : (q | (a ^ (q - 1) - 1) * product (residues q))).
  { rewrite Z.mul_sub_distr_r, Z.mul_1_l. apply mod_eq_divide; [lia|]. symmetry. exact E. }
  apply prime_mult in D; [|exact Hq]. destruct D as [D|D].
  - apply mod_eq_divide in D; [|lia]. rewrite D. apply Z.mod_1_l. lia.
  - exfalso. revert D. apply product_coprime; [exact Hq|]. intros x. apply residues_in.
Qed.

(** ** Prime divisors *)
Lemma prime_divisor n : 1 < n -> exists q, prime q /\ (q | n).
Proof.
  intros H. assert (G : 0 <= n) by lia. revert H. pattern n.
  apply Zlt_0_ind; [clear n G|exact G]. intros n IH _ H.
  destruct (prime_dec n) as [P|N].
  - exists n. split; [exact P|apply Z.divide_refl].
  - destruct (not_prime_divide n H N) as (d & B & D).
    destruct (IH d ltac:(lia) ltac:(lia)) as (q & Q & Dq). exists q. split; [exact Q|].
    now apply Z.divide_trans with d.
Qed.

(** A number that is not prime has a prime divisor below its square root. *)
Lemma small_divisor n : 1 < n -> ~ prime n -> exists q, prime q /\ (q | n) /\ q * q <= n.
Proof.
  intros H N. destruct (not_prime_divide n H N) as (d & B & [k D]).
  assert (K : 1 < k) by nia.
  assert (S : d * d <= n \/ k * k <= n) by nia.
  destruct S as [S|S].
  - destruct (prime_divisor d ltac:(lia)) as (q & Q & Dq).
    assert (q <= d) by (apply Z.divide_pos_le; [lia|exact Dq]). pose proof (prime_pos q Q).
    exists q. split; [exact Q|]. split; [|nia].
    apply Z.divide_trans with d; [exact Dq|]. exists k. exact D.
  - destruct (prime_divisor k ltac:(lia)) as (q & Q & Dq).
    assert (q <= k) by (apply Z.divide_pos_le; [lia|exact Dq]). pose proof (prime_pos q Q).
    exists q. split; [exact Q|]. split; [|nia].
    apply Z.divide_trans with k; [exact Dq|]. exists d. lia.
Qed.

(** ** Trial division *)
Fixpoint trial (fuel : nat) (d n : Z) : bool :=
  if n <? d * d then true
  else match fuel with
       | O => false
       | S fuel' => if n mod d =? 0 then false else trial fuel' (d + 1) n
       end.

Lemma trial_ok fuel : forall d n, 1 < d -> 1 < n -> trial fuel d n = true ->
  forall q, d <= q -> q * q <= n -> ~ (q | n).
Proof.
  induction fuel as [|fuel IH]; intros d n Hd Hn T q Hq S D; cbn [trial] in T;
    destruct (n <? d * d) eqn:E; try (apply Z.ltb_lt in E; nia); [discriminate|].
  destruct (n mod d =? 0) eqn:M; [discriminate|].
  destruct (Z.eq_dec q d) as [->|Ne].
  - apply Z.mod_divide in D; [|lia]. apply Z.eqb_neq in M. contradiction.
  - revert D. apply (IH (d + 1) n); [lia|lia|exact T|lia|exact S].
Qed.

Theorem trial_prime fuel n : 1 < n -> trial fuel 2 n = true -> prime n.
Proof.
  intros Hn T. destruct (prime_dec n) as [P|N]; [exact P|]. exfalso.
  destruct (small_divisor n Hn N) as (q & Q & D & S). pose proof (prime_pos q Q).
  revert D. apply (trial_ok fuel 2 n); auto; lia.
Qed.

(** ** Pocklington *)
Lemma power_divisor p e d : prime p -> 0 <= e -> 0 < d -> (d | p ^ (e + 1)) ->
  d = p ^ (e + 1) \/ (d | p ^ e).
Proof.
  intros P He Hd [k D]. pose proof (prime_pos p P) as H1.
  assert (X : 0 < p ^ (e + 1)) by (apply Z.pow_pos_nonneg; lia).
  assert (K : 0 < k) by nia.
  destruct (Zdivide_dec p k) as [[j J]|N].
  - right. exists j. rewrite Z.pow_add_r, Z.pow_1_r in D by lia. subst k. nia.
  - left. assert (R : rel_prime k (p ^ (e + 1))).
    { apply rel_prime_Zpower_r; [lia|]. apply rel_prime_sym. now apply prime_rel_prime. }
    assert (G : (k | 1)).
    { destruct R as [_ _ R]. apply R; [apply Z.divide_refl|]. exists d. lia. }
    apply Z.divide_1_r_nonneg in G; [|lia]. subst k. lia.
Qed.

Lemma pow_mod_one b m q : 1 < q -> 0 <= m -> b mod q = 1 -> b ^ m mod q = 1.
Proof.
  intros Hq Hm E. rewrite Zpower_mod, E, Z.pow_1_l by lia. apply Z.mod_1_l. lia.
Qed.

(** Two exponents that give one, give one at their greatest common divisor. *)
Lemma pow_gcd b q m n : 1 < q -> 0 < m -> 0 < n ->
  b ^ m mod q = 1 -> b ^ n mod q = 1 -> b ^ Z.gcd m n mod q = 1.
Proof.
  intros Hq Hm Hn Em En.
  destruct (Z.gcd_bezout m n (Z.gcd m n) eq_refl) as (u & v & B).
  set (d := Z.gcd m n) in *. assert (Hd : 0 <= d) by apply Z.gcd_nonneg.
  set (w := Z.abs u + Z.abs v).
  (* (u + w n) m = (w m - v) n + d *)
  assert (B' : (u + w * n) * m = (w * m - v) * n + d) by (rewrite <- B; ring).
  assert (W0 : 0 <= w) by (unfold w; lia).
  assert (W1 : w <= w * n) by (clearbody w; clear - W0 Hn; nia).
  assert (W2 : w <= w * m) by (clearbody w; clear - W0 Hm; nia).
  assert (U : 0 <= u + w * n) by (unfold w in *; lia).
  assert (V : 0 <= w * m - v) by (unfold w in *; lia).
  assert (E1 : b ^ ((u + w * n) * m) mod q = 1).
  { rewrite Z.mul_comm, Z.pow_mul_r by lia. now apply pow_mod_one. }
  rewrite B', Z.pow_add_r in E1 by (try apply Z.mul_nonneg_nonneg; lia).
  rewrite Z.mul_mod in E1 by lia.
  assert (E2 : b ^ ((w * m - v) * n) mod q = 1).
  { rewrite Z.mul_comm, Z.pow_mul_r by lia. now apply pow_mod_one. }
  rewrite E2, Z.mul_1_l, Z.mod_mod in E1 by lia. exact E1.
Qed.

Lemma mod_of_divisor n q x y : 0 < q -> 0 < n -> (q | n) -> x mod n = y mod n -> x mod q = y mod q.
Proof.
  intros Hq Hn D E. apply mod_eq_divide; [lia|]. apply mod_eq_divide in E; [|lia].
  now apply Z.divide_trans with n.
Qed.

(** One prime power of [n - 1]: it divides [q - 1] for every prime divisor [q] of [n]. *)
Lemma pock_power n a p e q : 1 < n -> prime p -> 0 <= e -> (p ^ (e + 1) | n - 1) ->
  a ^ (n - 1) mod n = 1 -> Z.gcd (a ^ ((n - 1) / p) - 1) n = 1 ->
  prime q -> (q | n) -> (p ^ (e + 1) | q - 1).
Proof.
  intros Hn P He [m M] Ea G Q D. pose proof (prime_pos p P) as Hp. pose proof (prime_pos q Q) as Hq.
  assert (X : 0 < p ^ (e + 1)) by (apply Z.pow_pos_nonneg; lia).
  assert (X0 : 0 < p ^ e) by (apply Z.pow_pos_nonneg; lia).
  assert (Hm : 0 < m) by (apply (Z.mul_pos_cancel_r m (p ^ (e + 1)) X); lia).
  set (b := a ^ m).
  assert (One : b ^ (p ^ (e + 1)) mod q = 1).
  { unfold b. rewrite <- Z.pow_mul_r, <- M by lia.
    transitivity (1 mod q); [|apply Z.mod_1_l; lia].
    apply (mod_of_divisor n); try lia; [exact D|]. rewrite Ea. symmetry. apply Z.mod_1_l. lia. }
  assert (Not : b ^ (p ^ e) mod q <> 1).
  { intros E. unfold b in E. rewrite <- Z.pow_mul_r in E by lia.
    assert (Quot : (n - 1) / p = m * p ^ e).
    { rewrite M, Z.pow_add_r, Z.pow_1_r by lia. rewrite Z.mul_assoc. apply Z.div_mul. lia. }
    rewrite <- Quot in E.
    assert (D1 : (q | a ^ ((n - 1) / p) - 1)).
    { apply mod_eq_divide; [lia|]. rewrite E. symmetry. apply Z.mod_1_l. lia. }
    assert (D2 : (q | 1)) by (rewrite <- G; now apply Z.gcd_greatest).
    apply Z.divide_pos_le in D2; lia. }
  assert (Nb : ~ (q | b)).
  { intros Db. apply Z.mod_divide in Db; [|lia].
    rewrite Zpower_mod, Db, Z.pow_0_l, Z.mod_0_l in One by lia. lia. }
  assert (F := fermat q b Q Nb).
  assert (Gd := pow_gcd b q (p ^ (e + 1)) (q - 1) Hq X ltac:(lia) One F).
  destruct (power_divisor p e (Z.gcd (p ^ (e + 1)) (q - 1)) P He) as [E|E].
  - assert (Z.gcd (p ^ (e + 1)) (q - 1) <> 0) by (intros Z0; apply Z.gcd_eq_0_l in Z0; lia).
    pose proof (Z.gcd_nonneg (p ^ (e + 1)) (q - 1)). lia.
  - apply Z.gcd_divide_l.
  - rewrite <- E. apply Z.gcd_divide_r.
  - exfalso. apply Not. destruct E as [j J].
    assert (Hj : 0 <= j).
    { pose proof (Z.gcd_nonneg (p ^ (e + 1)) (q - 1)) as Gn.
      destruct (Z.lt_ge_cases j 0) as [Neg|]; [exfalso|assumption].
      pose proof (Z.mul_nonpos_nonneg j _ (Z.lt_le_incl _ _ Neg) Gn). lia. }
    rewrite J, Z.mul_comm, Z.pow_mul_r by (try apply Z.gcd_nonneg; lia).
    now apply pow_mod_one.
Qed.

(** A factored part of [n - 1], as primes with exponents (less one). *)
Definition factored (l : list (Z * Z)) : Z :=
  fold_right (fun pe acc => fst pe ^ (snd pe + 1) * acc) 1 l.

(** Powers and greatest common divisors as one computes them. *)
Definition pock_step (n a : Z) (pe : Z * Z) : bool :=
  (0 <=? snd pe) && ((n - 1) mod (fst pe ^ (snd pe + 1)) =? 0) &&
  (Z.gcd (Zpow_mod a ((n - 1) / fst pe) n - 1) n =? 1).

Fixpoint distinct (l : list (Z * Z)) : bool :=
  match l with
  | [] => true
  | pe :: l' => forallb (fun pf => negb (fst pe =? fst pf)) l' && distinct l'
  end.

Definition pock (n a : Z) (l : list (Z * Z)) : bool :=
  (1 <? n) && (Zpow_mod a (n - 1) n =? 1) && forallb (pock_step n a) l && distinct l &&
  (n <? factored l * factored l).

Lemma factored_pos l : (forall pe, In pe l -> prime (fst pe) /\ 0 <= snd pe) -> 0 < factored l.
Proof.
  induction l as [|pe l IH]; intros H; [reflexivity|]. cbn [factored fold_right].
  destruct (H pe (or_introl eq_refl)) as [P E]. pose proof (prime_pos _ P).
  apply Z.mul_pos_pos; [apply Z.pow_pos_nonneg; lia|]. apply IH. intros q I. apply H. now right.
Qed.

Lemma factored_rel p e l : prime p -> 0 <= e -> forallb (fun pf => negb (p =? fst pf)) l = true ->
  (forall pe, In pe l -> prime (fst pe) /\ 0 <= snd pe) -> rel_prime (p ^ (e + 1)) (factored l).
Proof.
  intros P He. induction l as [|pf l IH]; intros D H.
  - cbn. apply rel_prime_sym, rel_prime_1.
  - cbn [forallb] in D. apply andb_prop in D. destruct D as [D1 D2].
    cbn [factored fold_right]. destruct (H pf (or_introl eq_refl)) as [Pf Ef].
    apply rel_prime_mult.
    + apply rel_prime_Zpower; try lia. apply prime_rel_prime; [exact P|].
      intros Dv. apply negb_true_iff, Z.eqb_neq in D1. apply D1.
      apply prime_div_prime; assumption.
    + apply IH; [exact D2|]. intros pe I. apply H. now right.
Qed.

Lemma factored_divides m l : distinct l = true ->
  (forall pe, In pe l -> prime (fst pe) /\ 0 <= snd pe) ->
  (forall pe, In pe l -> (fst pe ^ (snd pe + 1) | m)) -> (factored l | m).
Proof.
  induction l as [|pe l IH]; intros D H A; [apply Z.divide_1_l|].
  cbn [distinct] in D. apply andb_prop in D. destruct D as [D1 D2].
  cbn [factored fold_right]. fold (factored l).
  destruct (H pe (or_introl eq_refl)) as [P E].
  assert (R := factored_rel (fst pe) (snd pe) l P E D1 (fun q I => H q (or_intror I))).
  assert (A1 := A pe (or_introl eq_refl)).
  assert (A2 := IH D2 (fun q I => H q (or_intror I)) (fun q I => A q (or_intror I))).
  destruct A2 as [k K]. subst m.
  assert (G : (fst pe ^ (snd pe + 1) | k)).
  { apply Gauss with (factored l); [|exact R]. now rewrite Z.mul_comm. }
  destruct G as [j ->]. exists j. ring.
Qed.

Theorem pocklington n a l : pock n a l = true -> (forall pe, In pe l -> prime (fst pe)) -> prime n.
Proof.
  unfold pock. intros H Pr. apply andb_prop in H. destruct H as [H S].
  apply andb_prop in H. destruct H as [H D]. apply andb_prop in H. destruct H as [H St].
  apply andb_prop in H. destruct H as [Hn Ea]. apply Z.ltb_lt in Hn, S. apply Z.eqb_eq in Ea.
  rewrite Zpow_mod_correct in Ea by lia.
  destruct (prime_dec n) as [P|N]; [exact P|]. exfalso.
  destruct (small_divisor n Hn N) as (q & Q & Dq & Sq). pose proof (prime_pos q Q) as Hq.
  assert (All : forall pe, In pe l -> prime (fst pe) /\ 0 <= snd pe).
  { intros pe I. split; [now apply Pr|]. rewrite forallb_forall in St. specialize (St pe I).
    unfold pock_step in St. apply andb_prop in St. destruct St as [St _].
    apply andb_prop in St. destruct St as [St _]. now apply Z.leb_le. }
  assert (Dv : (factored l | q - 1)).
  { apply factored_divides; [exact D|exact All|]. intros pe I. destruct (All pe I) as [P E].
    rewrite forallb_forall in St. specialize (St pe I).
    unfold pock_step in St. apply andb_prop in St. destruct St as [St G].
    apply andb_prop in St. destruct St as [_ M]. apply Z.eqb_eq in M, G.
    assert (X : 0 < fst pe ^ (snd pe + 1)).
    { pose proof (prime_pos _ P). apply Z.pow_pos_nonneg; lia. }
    apply (pock_power n a); auto; [apply Z.mod_divide; [lia|exact M]|].
    rewrite Zpow_mod_correct in G by lia.
    rewrite Z.gcd_comm, <- Z.gcd_mod, Zminus_mod_idemp_l, Z.gcd_mod, Z.gcd_comm in G by lia.
    exact G. }
  assert (0 < factored l) by (apply factored_pos; exact All).
  apply Z.divide_pos_le in Dv; [|lia].
  assert (Lt : factored l < q) by lia. clear - H Lt S Sq. nia.
Qed.

(** ** The same with an element of known order

    [b] has the order [p1 * p2] modulo [n], and modulo every prime divisor of
    [n] as well; fewer and shorter powers than above. *)
Lemma order_prime n b p m q : 1 < n -> prime p -> 0 <= m ->
  b ^ (m * p) mod n = 1 -> Z.gcd (b ^ m - 1) n = 1 ->
  prime q -> (q | n) -> (p | q - 1).
Proof.
  intros Hn P Hm E G Q D. pose proof (prime_pos p P) as Hp. pose proof (prime_pos q Q) as Hq.
  set (c := b ^ m) in *.
  assert (One : c ^ p mod q = 1).
  { unfold c. rewrite <- Z.pow_mul_r by lia.
    transitivity (1 mod q); [|apply Z.mod_1_l; lia].
    apply (mod_of_divisor n); try lia; [exact D|]. rewrite E. symmetry. apply Z.mod_1_l. lia. }
  assert (Not : c mod q <> 1).
  { intros Ec. assert (D1 : (q | c - 1)).
    { apply mod_eq_divide; [lia|]. rewrite Ec. symmetry. apply Z.mod_1_l. lia. }
    assert (D2 : (q | 1)) by (rewrite <- G; now apply Z.gcd_greatest).
    apply Z.divide_pos_le in D2; lia. }
  assert (Nc : ~ (q | c)).
  { intros Dc. apply Z.mod_divide in Dc; [|lia].
    rewrite Zpower_mod, Dc, Z.pow_0_l, Z.mod_0_l in One by lia. discriminate One. }
  destruct (Zdivide_dec p (q - 1)) as [Y|N]; [exact Y|]. exfalso. apply Not.
  assert (Gd := pow_gcd c q p (q - 1) Hq ltac:(lia) ltac:(lia) One (fermat q c Q Nc)).
  apply prime_rel_prime in N; [|exact P]. apply Zgcd_1_rel_prime in N.
  rewrite N, Z.pow_1_r in Gd. exact Gd.
Qed.

Definition pock2 (n b p1 p2 : Z) : bool :=
  (1 <? n) && (n <? (p1 * p2) * (p1 * p2)) && negb (p1 =? p2) &&
  (let x := Zpow_mod b p1 n in
   (Z.gcd (x - 1) n =? 1) && (Zpow_mod x p2 n =? 1)) &&
  (Z.gcd (Zpow_mod b p2 n - 1) n =? 1).

Lemma gcd_mod_sub x n : n <> 0 -> Z.gcd (x mod n - 1) n = Z.gcd (x - 1) n.
Proof.
  intros N. rewrite Z.gcd_comm, <- Z.gcd_mod, Zminus_mod_idemp_l, Z.gcd_mod, Z.gcd_comm by exact N.
  reflexivity.
Qed.

Theorem pocklington2 n b p1 p2 : pock2 n b p1 p2 = true -> prime p1 -> prime p2 -> prime n.
Proof.
  unfold pock2. intros H P1 P2. cbv zeta in H.
  apply andb_prop in H. destruct H as [H G2]. apply andb_prop in H. destruct H as [H H3].
  apply andb_prop in H3. destruct H3 as [G1 E]. apply andb_prop in H. destruct H as [H Ne].
  apply andb_prop in H. destruct H as [Hn S]. apply Z.ltb_lt in Hn, S. apply Z.eqb_eq in G1, G2, E.
  apply negb_true_iff, Z.eqb_neq in Ne.
  pose proof (prime_pos p1 P1) as H1. pose proof (prime_pos p2 P2) as H2.
  rewrite Zpow_mod_correct in G2 by lia. rewrite (Zpow_mod_correct b) in G1, E by lia.
  rewrite Zpow_mod_correct in E by lia. rewrite <- Zpower_mod in E by lia.
  rewrite <- Z.pow_mul_r in E by lia. rewrite gcd_mod_sub in G1, G2 by lia.
  destruct (prime_dec n) as [P|N]; [exact P|]. exfalso.
  destruct (small_divisor n Hn N) as (q & Q & Dq & Sq). pose proof (prime_pos q Q) as Hq.
  assert (D2 : (p2 | q - 1)) by (apply (order_prime n b p2 p1); auto; lia).
  rewrite Z.mul_comm in E.
  assert (D1 : (p1 | q - 1)) by (apply (order_prime n b p1 p2); auto; lia).
  assert (D : (p1 * p2 | q - 1)).
  { destruct D2 as [k K]. rewrite K in D1 |- *. rewrite Z.mul_comm in D1.
    apply Gauss in D1.
    - destruct D1 as [j ->]. exists j. ring.
    - apply prime_rel_prime; [exact P1|]. intros D. apply Ne. now apply prime_div_prime. }
  apply Z.divide_pos_le in D; [|lia].
  assert (X : 0 < p1 * p2) by (apply Z.mul_pos_pos; lia). clear - D X S Sq. nia.
Qed.
