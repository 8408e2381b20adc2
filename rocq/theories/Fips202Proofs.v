(** * Fips202Proofs: the digest of Sha3.v is SHA3-256 of FIPS 202, bit by bit *)
From Coq Require Import List Bool Arith NArith Lia.
From Verif Require Import Sha3 PrimitiveSpec PrimitiveProofs Fips202.
Import ListNotations.
Local Open Scope nat_scope.

(** ** Bits of lanes *)
Definition narrow (a : N) : Prop := forall z, (64 <= z)%N -> N.testbit a z = false.
Definition bit (a : N) (z : nat) : bool := N.testbit a (N.of_nat z).

Lemma narrow_0 : narrow 0.
Proof. intros z _. apply N.bits_0. Qed.
Lemma narrow_lxor a b : narrow a -> narrow b -> narrow (N.lxor a b).
Proof. intros Ha Hb z Hz. now rewrite N.lxor_spec, Ha, Hb. Qed.
Lemma narrow_ldiff a b : narrow a -> narrow (N.ldiff a b).
Proof. intros Ha z Hz. now rewrite N.ldiff_spec, Ha. Qed.
Lemma narrow_rotl a n : narrow a -> (n <= 64)%N -> narrow (rotl a n).
Proof.
  intros Ha Hn z Hz. unfold rotl. rewrite N.lor_spec, N.mod_pow2_bits_high by exact Hz.
  rewrite N.shiftr_spec' , Ha by lia. reflexivity.
Qed.

Lemma bit_rotl a n z : narrow a -> (n < 64)%N -> z < 64 ->
  bit (rotl a n) z = bit a ((z + 64 - N.to_nat n) mod 64).
Proof.
  intros Ha Hn Hz. unfold bit, rotl. rewrite N.lor_spec, N.mod_pow2_bits_low by lia.
  rewrite N.shiftr_spec'. destruct (le_lt_dec (N.to_nat n) z) as [H|H].
  - rewrite N.shiftl_spec_high' by lia. rewrite (Ha (N.of_nat z + (64 - n))%N) by lia. rewrite orb_false_r.
    replace (z + 64 - N.to_nat n) with ((z - N.to_nat n) + 1 * 64) by lia.
    rewrite Nat.mod_add, Nat.mod_small by lia. f_equal. lia.
  - rewrite N.shiftl_spec_low by lia. rewrite orb_false_l. rewrite Nat.mod_small by lia. f_equal. lia.
Qed.

(** ** States *)
Lemma lane_map f n i : i < n -> lane (map f (seq 0 n)) i = f i.
Proof.
  intros H. unfold lane. rewrite (nth_indep _ 0%N (f 0)) by (rewrite map_length, seq_length; exact H).
  rewrite map_nth, seq_nth by exact H. reflexivity.
Qed.

Definition alike (s : list N) (A : state_array) : Prop :=
  List.length s = 25 /\ (forall i, i < 25 -> narrow (lane s i)) /\
  (forall x y z, x < 5 -> y < 5 -> z < 64 -> A x y z = bit (lane s (x + 5 * y)) z).

Lemma split25 (Q : nat -> Prop) : (forall x y, x < 5 -> y < 5 -> Q (x + 5 * y)) -> forall i, i < 25 -> Q i.
Proof.
  intros H i Hi. replace i with (i mod 5 + 5 * (i / 5)).
  - apply H; [apply Nat.mod_upper_bound; discriminate|]. apply Nat.div_lt_upper_bound; [discriminate|lia].
  - pose proof (Nat.div_mod i 5). lia.
Qed.
Lemma lane_xy x y : x < 5 -> (x + 5 * y) mod 5 = x /\ (x + 5 * y) / 5 = y.
Proof.
  intros H. replace (x + 5 * y) with (x + y * 5) by lia. rewrite Nat.mod_add, Nat.div_add by discriminate.
  rewrite Nat.mod_small, Nat.div_small by exact H. now split.
Qed.
Lemma mod5 a : a mod 5 < 5.
Proof. now apply Nat.mod_upper_bound. Qed.
Lemma mod64 a : a mod 64 < 64.
Proof. apply Nat.mod_upper_bound. discriminate. Qed.

(** A step that gives lane [x + 5 y] the value [f x y]. *)
Lemma alike_map (g : nat -> N) (A : state_array) :
  (forall x y, x < 5 -> y < 5 -> narrow (g (x + 5 * y))) ->
  (forall x y z, x < 5 -> y < 5 -> z < 64 -> A x y z = bit (g (x + 5 * y)) z) ->
  alike (map g (seq 0 25)) A.
Proof.
  intros Hn Hb. split; [now rewrite map_length, seq_length|]. split.
  - apply (split25 (fun i => narrow (lane (map g (seq 0 25)) i))). intros x y Hx Hy.
    rewrite lane_map by lia. now apply Hn.
  - intros x y z Hx Hy Hz. rewrite lane_map by lia. now apply Hb.
Qed.

Lemma bit_lxor a b z : bit (N.lxor a b) z = xorb (bit a z) (bit b z).
Proof. apply N.lxor_spec. Qed.

Lemma alike_theta s A : alike s A -> alike (theta s) (theta_step A).
Proof.
  intros (Hl & Hn & Hb). unfold theta.
  set (g := fun x => N.lxor (lane s x) (N.lxor (lane s (x + 5)) (N.lxor (lane s (x + 10))
                          (N.lxor (lane s (x + 15)) (lane s (x + 20)))))).
  set (h := fun x => N.lxor (lane (map g (seq 0 5)) ((x + 4) mod 5)) (rotl (lane (map g (seq 0 5)) ((x + 1) mod 5)) 1)).
  assert (Ng : forall x, x < 5 -> narrow (g x)).
  { intros x Hx. unfold g. repeat apply narrow_lxor; apply Hn; lia. }
  assert (Bg : forall x z, x < 5 -> z < 64 -> parity A x z = bit (g x) z).
  { intros x z Hx Hz. unfold g, parity. rewrite !bit_lxor, !Hb by lia.
    change (5 * 0) with 0. change (5 * 1) with 5. change (5 * 2) with 10. change (5 * 3) with 15. change (5 * 4) with 20.
    now rewrite Nat.add_0_r. }
  assert (Nh : forall x, x < 5 -> narrow (h x)).
  { intros x Hx. unfold h. rewrite !lane_map by apply mod5. apply narrow_lxor; [apply Ng, mod5|].
    apply narrow_rotl; [apply Ng, mod5|discriminate]. }
  apply alike_map.
  - intros x y Hx Hy. destruct (lane_xy x y Hx) as [-> _]. rewrite lane_map by exact Hx.
    apply narrow_lxor; [apply Hn; lia|now apply Nh].
  - intros x y z Hx Hy Hz. destruct (lane_xy x y Hx) as [-> _]. rewrite lane_map by exact Hx.
    rewrite bit_lxor. unfold h. rewrite !lane_map by apply mod5. rewrite bit_lxor.
    rewrite bit_rotl by (first [apply Ng, mod5 | reflexivity | exact Hz]).
    unfold theta_step. rewrite Hb by assumption. rewrite !Bg by (first [apply mod5 | exact Hz | apply mod64]).
    change (N.to_nat 1) with 1. now replace (z + 64 - 1) with (z + 63) by lia.
Qed.

Lemma rho_offset i : i < 25 -> lane rho_offsets i = rho_spec i /\ (lane rho_offsets i < 64)%N.
Proof.
  intros H. split; [rewrite rho_table; now apply lane_map|].
  assert (B : forallb (fun n => (n <? 64)%N) rho_offsets = true) by reflexivity.
  rewrite forallb_forall in B. apply N.ltb_lt, B. unfold lane. now apply nth_In.
Qed.

Lemma alike_rho s A : alike s A -> alike (rho s) (rho_step A).
Proof.
  intros (Hl & Hn & Hb). unfold rho. apply alike_map.
  - intros x y Hx Hy. destruct (rho_offset (x + 5 * y) ltac:(lia)) as [_ B].
    apply narrow_rotl; [apply Hn; lia|lia].
  - intros x y z Hx Hy Hz. destruct (rho_offset (x + 5 * y) ltac:(lia)) as [E B].
    rewrite bit_rotl by (first [apply Hn; lia | exact B | exact Hz]). rewrite E.
    unfold rho_step. exact (Hb x y _ Hx Hy (mod64 _)).
Qed.

Lemma alike_pi s A : alike s A -> alike (pi s) (pi_step A).
Proof.
  intros (Hl & Hn & Hb). unfold pi. apply alike_map.
  - intros x y Hx Hy. destruct (lane_xy x y Hx) as [-> ->]. apply Hn. pose proof (mod5 (x + 3 * y)). lia.
  - intros x y z Hx Hy Hz. destruct (lane_xy x y Hx) as [-> ->]. unfold pi_step.
    apply Hb; [apply mod5|assumption..].
Qed.

Lemma chi_index x y k : x < 5 -> (x + 5 * y + k) mod 5 = (x + k) mod 5.
Proof.
  intros _. replace (x + 5 * y + k) with (x + k + y * 5) by lia. now rewrite Nat.mod_add.
Qed.

Lemma alike_chi s A : alike s A -> alike (chi s) (chi_step A).
Proof.
  intros (Hl & Hn & Hb). unfold chi. apply alike_map.
  - intros x y Hx Hy. rewrite !chi_index by exact Hx. destruct (lane_xy x y Hx) as [_ ->].
    pose proof (mod5 (x + 2)).
    apply narrow_lxor; [apply Hn; lia|]. apply narrow_ldiff, Hn. lia.
  - intros x y z Hx Hy Hz. rewrite !chi_index by exact Hx. destruct (lane_xy x y Hx) as [_ ->].
    rewrite bit_lxor. unfold bit at 2. rewrite N.ldiff_spec. unfold chi_step.
    rewrite !Hb by (first [apply mod5 | assumption]). unfold bit.
    f_equal. rewrite xorb_true_r. apply andb_comm.
Qed.

Lemma rc_narrow ir : ir < 24 -> narrow (rc_spec ir).
Proof.
  intros H z Hz.
  assert (B : forallb (fun n => (n <? 2 ^ 64)%N) round_constants = true) by reflexivity.
  rewrite forallb_forall in B.
  assert (L : (rc_spec ir < 2 ^ 64)%N).
  { apply N.ltb_lt, B. rewrite rc_table. apply in_map_iff. exists ir. split; [reflexivity|]. apply in_seq. lia. }
  destruct (N.eq_dec (rc_spec ir) 0) as [->|N0]; [apply N.bits_0|].
  apply N.bits_above_log2. apply N.lt_le_trans with 64%N; [|exact Hz].
  apply N.log2_lt_pow2; lia.
Qed.

Lemma alike_iota ir s A : ir < 24 -> alike s A -> alike (iota (rc_spec ir) s) (iota_step ir A).
Proof.
  intros Hr (Hl & Hn & Hb). destruct s as [|a s]; [discriminate|]. cbn [iota].
  split; [exact Hl|]. split.
  - intros [|i] Hi; [|exact (Hn (S i) Hi)]. apply narrow_lxor; [exact (Hn 0 Hi)|now apply rc_narrow].
  - intros x y z Hx Hy Hz. unfold iota_step. rewrite Hb by assumption.
    destruct x as [|x]; [|reflexivity]. destruct y as [|y].
    + cbn [Nat.eqb andb Nat.add Nat.mul lane nth]. symmetry. apply bit_lxor.
    + destruct (0 + 5 * S y) as [|k] eqn:E; [lia|]. reflexivity.
Qed.

Lemma alike_rounds l : (forall ir, In ir l -> ir < 24) -> forall s A, alike s A ->
  alike (fold_left keccak_round (map rc_spec l) s) (fold_left round_step l A).
Proof.
  induction l as [|ir l IH]; intros Hl s A H; [exact H|]. cbn [map fold_left]. apply IH.
  - intros k Hk. apply Hl. now right.
  - unfold keccak_round, round_step. apply alike_iota; [apply Hl; now left|].
    now apply alike_chi, alike_pi, alike_rho, alike_theta.
Qed.

(** ** Strings of 1600 bits *)
Definition lane_bits (a : N) : list bool := map (bit a) (seq 0 64).
Definition state_bits (s : list N) : list bool := flat_map lane_bits s.

Lemma flat_length {A B} (f : A -> list B) k l : (forall x, List.length (f x) = k) ->
  List.length (flat_map f l) = k * List.length l.
Proof.
  intros H. induction l as [|x l IH]; cbn [flat_map List.length]; [lia|]. rewrite app_length, H, IH. lia.
Qed.
Lemma flat_nth {A B} (f : A -> list B) k l : (forall x, List.length (f x) = k) ->
  forall i j (d : B) (e : A), j < k -> i < List.length l -> nth (k * i + j) (flat_map f l) d = nth j (f (nth i l e)) d.
Proof.
  intros H. induction l as [|x l IH]; intros i j d e Hj Hi; cbn [List.length] in Hi; [lia|].
  cbn [flat_map]. destruct i as [|i].
  - rewrite Nat.mul_0_r, Nat.add_0_l. rewrite app_nth1 by (rewrite H; exact Hj). reflexivity.
  - rewrite app_nth2 by (rewrite H; lia). rewrite H. replace (k * S i + j - k) with (k * i + j) by lia.
    cbn [nth]. apply IH; lia.
Qed.
Lemma lane_bits_length a : List.length (lane_bits a) = 64.
Proof. unfold lane_bits. now rewrite map_length, seq_length. Qed.
Lemma lane_bits_nth a z : z < 64 -> nth z (lane_bits a) false = bit a z.
Proof.
  intros H. unfold lane_bits. rewrite (nth_indep _ false (bit a 0)) by (rewrite map_length, seq_length; exact H).
  rewrite map_nth, seq_nth by exact H. reflexivity.
Qed.

Lemma alike_bits s : List.length s = 25 -> (forall i, i < 25 -> narrow (lane s i)) -> alike s (array_of (state_bits s)).
Proof.
  intros Hl Hn. split; [exact Hl|]. split; [exact Hn|]. intros x y z Hx Hy Hz.
  unfold array_of, state_bits. rewrite (flat_nth lane_bits 64 s lane_bits_length _ _ false 0%N) by lia.
  rewrite lane_bits_nth by exact Hz. unfold lane. f_equal. f_equal. lia.
Qed.

Lemma string_of_alike s A : alike s A -> string_of A = state_bits s.
Proof.
  intros (Hl & Hn & Hb). unfold string_of, state_bits.
  assert (E : s = map (lane s) (seq 0 25)).
  { clear - Hl. unfold lane. do 26 (destruct s as [|? s]; [try discriminate Hl|]); [reflexivity|discriminate Hl]. }
  rewrite E at 1. change (seq 0 25) with (flat_map (fun y => map (fun x => x + 5 * y) (seq 0 5)) (seq 0 5)).
  assert (In5 : forall y, In y (seq 0 5) -> y < 5) by (intros y H; apply in_seq in H; lia).
  revert In5. generalize (seq 0 5) at 1 3 5 as l. induction l as [|y l IH]; intros Hy; [reflexivity|].
  cbn [flat_map]. rewrite map_app, flat_map_app. f_equal; [|apply IH; intros k Hk; apply Hy; now right].
  assert (In5 : forall x, In x (seq 0 5) -> x < 5) by (intros x H; apply in_seq in H; lia).
  revert In5. generalize (seq 0 5) as m. induction m as [|x m IHm]; intros Hx; [reflexivity|].
  cbn [flat_map map]. f_equal; [|apply IHm; intros k Hk; apply Hx; now right].
  apply map_ext_in. intros z Hz. apply in_seq in Hz. apply Hb; [apply Hx; now left|apply Hy; now left|lia].
Qed.

Definition wide (s : list N) : Prop := List.length s = 25 /\ forall i, i < 25 -> narrow (lane s i).

Lemma keccak_bits s : wide s -> wide (keccak_f s) /\ keccak_p (state_bits s) = state_bits (keccak_f s).
Proof.
  intros [Hl Hn]. unfold keccak_f, keccak_p. rewrite rc_table.
  assert (H : alike (fold_left keccak_round (map rc_spec (seq 0 24)) s)
                (fold_left round_step (seq 0 24) (array_of (state_bits s)))).
  { apply alike_rounds; [intros ir Hi; apply in_seq in Hi; lia|now apply alike_bits]. }
  split; [|exact (string_of_alike _ _ H)]. destruct H as (H1 & H2 & _). now split.
Qed.

(** ** Bytes *)
Definition octets (bs : list N) : Prop := Forall (fun b => (b < 256)%N) bs.

Lemma byte_length b : List.length (bits_of_byte b) = 8.
Proof. reflexivity. Qed.
Lemma byte_nth b z : z < 8 -> nth z (bits_of_byte b) false = bit b z.
Proof. intros H. do 8 (destruct z as [|z]; [reflexivity|]). lia. Qed.
Lemma byte_high b z : (b < 256)%N -> 8 <= z -> bit b z = false.
Proof.
  intros H Hz. unfold bit. destruct (N.eq_dec b 0) as [->|N0]; [apply N.bits_0|].
  apply N.bits_above_log2. apply N.lt_le_trans with 8%N; [|lia]. apply N.log2_lt_pow2; [lia|exact H].
Qed.

Lemma testbit_mix (b r : N) z : (b < 256)%N -> bit (b + 256 * r) z = if z <? 8 then bit b z else bit r (z - 8).
Proof.
  intros Hb. assert (E : (b + 256 * r = N.lor b (N.shiftl r 8))%N).
  { assert (Z : N.land b (N.shiftl r 8) = 0%N).
    { apply N.bits_inj. intros k. rewrite N.land_spec, N.bits_0. destruct (N.lt_ge_cases k 8) as [Hk|Hk].
      - rewrite N.shiftl_spec_low by exact Hk. apply andb_false_r.
      - replace (N.testbit b k) with false; [reflexivity|]. symmetry.
        replace k with (N.of_nat (N.to_nat k)) by lia. apply byte_high; [exact Hb|lia]. }
    rewrite <- (N.lxor_lor _ _ Z), <- (N.add_nocarry_lxor _ _ Z), N.shiftl_mul_pow2.
    change (2 ^ 8)%N with 256%N. lia. }
  unfold bit at 1. rewrite E, N.lor_spec. destruct (Nat.ltb_spec z 8) as [Hz|Hz].
  - rewrite N.shiftl_spec_low by lia. apply orb_false_r.
  - rewrite N.shiftl_spec_high' by lia. fold (bit b z). rewrite (byte_high b z Hb Hz). cbn [orb].
    unfold bit. f_equal. lia.
Qed.

Lemma lane_of_bytes_bit bs z : octets bs -> bit (lane_of_bytes bs) z = nth z (bits_of_bytes bs) false.
Proof.
  intros H. revert z. induction H as [|b bs Hb Hbs IH]; intros z.
  - cbn [lane_of_bytes bits_of_bytes flat_map]. destruct z; reflexivity.
  - cbn [lane_of_bytes]. rewrite testbit_mix by exact Hb. unfold bits_of_bytes. cbn [flat_map].
    destruct (Nat.ltb_spec z 8) as [Hz|Hz].
    + rewrite app_nth1 by exact Hz. now rewrite byte_nth.
    + rewrite app_nth2 by exact Hz. rewrite IH. reflexivity.
Qed.

Lemma bits_length bs : List.length (bits_of_bytes bs) = 8 * List.length bs.
Proof. exact (flat_length bits_of_byte 8 bs byte_length). Qed.
Lemma bits_app a b : bits_of_bytes (a ++ b) = bits_of_bytes a ++ bits_of_bytes b.
Proof. apply flat_map_app. Qed.
Lemma flat_firstn {A B} (f : A -> list B) k n l : (forall x, List.length (f x) = k) ->
  firstn (k * n) (flat_map f l) = flat_map f (firstn n l).
Proof.
  intros H. revert l. induction n as [|n IH]; intros l; [rewrite Nat.mul_0_r; reflexivity|].
  destruct l as [|x l]; [now rewrite !firstn_nil|]. cbn [firstn flat_map]. rewrite <- (IH l).
  replace (k * S n) with (List.length (f x) + k * n) by (rewrite H; lia). apply firstn_app_2.
Qed.
Lemma flat_skipn {A B} (f : A -> list B) k n l : (forall x, List.length (f x) = k) ->
  skipn (k * n) (flat_map f l) = flat_map f (skipn n l).
Proof.
  intros H. revert l. induction n as [|n IH]; intros l; [rewrite Nat.mul_0_r; reflexivity|].
  destruct l as [|x l]; [now rewrite !skipn_nil|]. cbn [skipn flat_map]. rewrite <- (IH l).
  replace (k * S n) with (k * n + List.length (f x)) by (rewrite H; lia).
  rewrite skipn_app, skipn_all2 by lia. rewrite Nat.add_sub. reflexivity.
Qed.
Lemma bits_firstn n bs : firstn (8 * n) (bits_of_bytes bs) = bits_of_bytes (firstn n bs).
Proof. exact (flat_firstn bits_of_byte 8 n bs byte_length). Qed.
Lemma bits_skipn n bs : skipn (8 * n) (bits_of_bytes bs) = bits_of_bytes (skipn n bs).
Proof. exact (flat_skipn bits_of_byte 8 n bs byte_length). Qed.

Lemma octets_cut n bs : octets bs -> octets (firstn n bs) /\ octets (skipn n bs).
Proof.
  intros H. rewrite <- (firstn_skipn n bs) in H. apply Forall_app in H. exact H.
Qed.

Lemma map_seq_add {A} (f : nat -> A) a n : map f (seq a n) = map (fun i => f (i + a)) (seq 0 n).
Proof.
  revert a. induction n as [|n IH]; intros a; [reflexivity|]. cbn [seq map]. f_equal.
  rewrite IH. rewrite <- (seq_shift n 0), map_map. apply map_ext. intros i. f_equal. lia.
Qed.

Lemma lane_bytes_bits n x : bits_of_bytes (bytes_of_lane n x) = map (bit x) (seq 0 (8 * n)).
Proof.
  revert x. induction n as [|n IH]; intros x; [reflexivity|].
  cbn [bytes_of_lane]. unfold bits_of_bytes in *. cbn [flat_map]. rewrite IH.
  replace (8 * S n) with (8 + 8 * n) by lia. rewrite seq_app, map_app. f_equal.
  - unfold bits_of_byte. apply map_ext_in. intros z Hz. apply in_seq in Hz. unfold bit.
    change 256%N with (2 ^ 8)%N. rewrite N.mod_pow2_bits_low by lia. reflexivity.
  - rewrite (map_seq_add _ (0 + 8)). apply map_ext. intros z. unfold bit.
    change 256%N with (2 ^ 8)%N. rewrite N.div_pow2_bits. f_equal. lia.
Qed.

(** ** The sponge *)
Lemma nth_pad k l m : nth k (l ++ repeat false m) false = nth k l false.
Proof.
  destruct (le_lt_dec (List.length l) k) as [H|H].
  - rewrite app_nth2 by exact H. rewrite (nth_overflow l) by exact H.
    generalize (k - List.length l) as j. clear. induction m as [|m IH]; intros [|j]; try reflexivity. apply IH.
  - now rewrite app_nth1.
Qed.
Lemma nth_cut {A} (l : list A) n k d : k < n -> nth k (firstn n l) d = nth k l d.
Proof.
  revert l k. induction n as [|n IH]; intros l k H; [lia|]. destruct l as [|x l]; [reflexivity|].
  destruct k as [|k]; [reflexivity|]. cbn. apply IH. lia.
Qed.
Lemma nth_drop {A} (l : list A) n k d : nth k (skipn n l) d = nth (n + k) l d.
Proof.
  revert l. induction n as [|n IH]; intros l; [reflexivity|]. destruct l as [|x l]; [now destruct k|].
  cbn. apply IH.
Qed.

Lemma xor_nth a b k : List.length a = List.length b ->
  nth k (xor_bits a b) false = xorb (nth k a false) (nth k b false).
Proof.
  intros H. unfold xor_bits.
  exact (eq_trans (map_nth (fun p : bool * bool => xorb (fst p) (snd p)) (combine a b) (false, false) k)
           (f_equal (fun p : bool * bool => xorb (fst p) (snd p)) (combine_nth a b k false false H))).
Qed.

Definition added (s block : list N) : list N :=
  map (fun i => N.lxor (lane s i) (lane_of_bytes (firstn 8 (skipn (8 * i) block)))) (seq 0 25).

Lemma block_lane block i z : octets block ->
  bit (lane_of_bytes (firstn 8 (skipn (8 * i) block))) z =
  if z <? 64 then nth (64 * i + z) (bits_of_bytes block) false else false.
Proof.
  intros H. destruct (octets_cut (8 * i) block H) as [_ H1]. destruct (octets_cut 8 _ H1) as [H2 _].
  rewrite lane_of_bytes_bit by exact H2. rewrite <- bits_firstn, <- bits_skipn. change (8 * 8) with 64.
  destruct (Nat.ltb_spec z 64) as [Hz|Hz].
  - rewrite nth_cut by exact Hz. rewrite nth_drop. f_equal. lia.
  - apply nth_overflow. rewrite firstn_length. lia.
Qed.

Lemma added_wide s block : wide s -> octets block -> wide (added s block).
Proof.
  intros [Hl Hn] Ho. split; [unfold added; now rewrite map_length, seq_length|].
  intros i Hi. unfold added. rewrite lane_map by exact Hi. apply narrow_lxor; [now apply Hn|].
  intros z Hz. pose proof (block_lane block i (N.to_nat z) Ho) as B. unfold bit in B. rewrite Nnat.N2Nat.id in B.
  rewrite B. destruct (Nat.ltb_spec (N.to_nat z) 64); [lia|reflexivity].
Qed.

Lemma added_bits s block : wide s -> octets block -> List.length (bits_of_bytes block) <= 1600 ->
  xor_bits (state_bits s) (bits_of_bytes block ++ repeat false (1600 - List.length (bits_of_bytes block))) =
  state_bits (added s block).
Proof.
  intros [Hl Hn] Ho Hb.
  assert (L1 : List.length (state_bits s) = 1600).
  { unfold state_bits. rewrite (flat_length lane_bits 64 s lane_bits_length), Hl. reflexivity. }
  assert (Hk : List.length (added s block) = 25) by (unfold added; now rewrite map_length, seq_length).
  assert (L2 : List.length (state_bits (added s block)) = 1600).
  { unfold state_bits. rewrite (flat_length lane_bits 64 _ lane_bits_length), Hk. reflexivity. }
  assert (L3 : List.length (bits_of_bytes block ++ repeat false (1600 - List.length (bits_of_bytes block))) = 1600).
  { rewrite app_length, repeat_length. lia. }
  apply (nth_ext _ _ false false).
  { unfold xor_bits. rewrite map_length, combine_length, L1, L2, L3. apply Nat.min_id. }
  intros k Hk2. unfold xor_bits in Hk2. rewrite map_length, combine_length, L1, L3, Nat.min_id in Hk2.
  rewrite xor_nth by (rewrite L1, L3; reflexivity). rewrite nth_pad.
  assert (Ek : k = 64 * (k / 64) + k mod 64) by (apply Nat.div_mod; discriminate).
  pose proof (mod64 k) as Hz.
  assert (Hi : k / 64 < 25) by (apply Nat.div_lt_upper_bound; [discriminate|exact Hk2]).
  rewrite Ek. set (i := k / 64) in *. set (z := k mod 64) in *. clearbody i z.
  unfold state_bits. rewrite !(flat_nth lane_bits 64 _ lane_bits_length _ _ false 0%N) by (rewrite ?Hl, ?Hk; assumption).
  rewrite !lane_bits_nth by exact Hz. fold (lane s i). fold (lane (added s block) i).
  unfold added. rewrite lane_map by exact Hi. rewrite bit_lxor, (block_lane block i z Ho).
  apply Nat.ltb_lt in Hz. now rewrite Hz.
Qed.

Lemma absorb_bits n : forall s bs, wide s -> octets bs -> List.length bs = 136 * n ->
  wide (absorb n s bs) /\ absorbing 1088 n (state_bits s) (bits_of_bytes bs) = state_bits (absorb n s bs).
Proof.
  induction n as [|n IH]; intros s bs Hw Ho Hl; [split; [exact Hw|reflexivity]|].
  cbn [absorb absorbing]. unfold rate.
  rewrite (bits_firstn 136 bs : firstn 1088 _ = _), (bits_skipn 136 bs : skipn 1088 _ = _).
  destruct (octets_cut 136 bs Ho) as [O1 O2].
  assert (L : List.length (bits_of_bytes (firstn 136 bs)) = 1088).
  { rewrite bits_length, firstn_length_le by lia. reflexivity. }
  pose proof (added_bits s (firstn 136 bs) Hw O1) as E. rewrite L in E. rewrite E; [|lia].
  destruct (keccak_bits (added s (firstn 136 bs)) (added_wide _ _ Hw O1)) as [W ->].
  apply IH; [exact W|exact O2|]. rewrite skipn_length. lia.
Qed.

Lemma bits_zeros k : bits_of_bytes (repeat 0%N k) = repeat false (8 * k).
Proof.
  induction k as [|k IH]; [reflexivity|]. cbn [repeat]. unfold bits_of_bytes in *. cbn [flat_map]. rewrite IH.
  replace (8 * S k) with (8 + 8 * k) by lia. reflexivity.
Qed.

Lemma padding_bits n : bits_of_bytes (padding n) = [false; true] ++ pad101 1088 (8 * n + 2).
Proof.
  unfold padding, pad101, rate. pose proof (Nat.div_mod n 136 ltac:(discriminate)) as Dn.
  pose proof (Nat.mod_upper_bound n 136 ltac:(discriminate)) as Bn.
  set (m := n mod 136) in *. set (q := n / 136) in *. clearbody m q.
  replace ((8 * n + 2 + 2) mod 1088) with (8 * m + 4).
  2:{ replace (8 * n + 2 + 2) with (8 * m + 4 + q * 1088) by lia. rewrite Nat.mod_add by discriminate.
      symmetry. apply Nat.mod_small. lia. }
  rewrite (Nat.mod_small (1088 - (8 * m + 4))) by lia.
  destruct (136 - m) as [|[|k]] eqn:E; [lia| |].
  - replace (1088 - (8 * m + 4)) with 4 by lia. reflexivity.
  - replace (1088 - (8 * m + 4)) with (5 + (8 * k + 7)) by lia.
    change (6%N :: repeat 0%N k ++ [128%N]) with ([6%N] ++ repeat 0%N k ++ [128%N]).
    rewrite !bits_app, bits_zeros. rewrite !repeat_app, <- !app_assoc. reflexivity.
Qed.

Lemma padding_octets n : octets (padding n).
Proof.
  unfold padding. destruct (rate - n mod rate) as [|[|k]]; [repeat constructor..|].
  constructor; [reflexivity|]. apply Forall_app. split; [|repeat constructor].
  apply Forall_forall. intros b Hb. apply repeat_spec in Hb. now subst b.
Qed.

Lemma bits_flat {A} (g : A -> list N) l : bits_of_bytes (flat_map g l) = flat_map (fun x => bits_of_bytes (g x)) l.
Proof. induction l as [|x l IH]; [reflexivity|]. cbn [flat_map]. now rewrite bits_app, IH. Qed.

Lemma zeros_wide : wide (repeat 0%N 25).
Proof.
  split; [reflexivity|]. intros i _. unfold lane. rewrite nth_repeat. exact narrow_0.
Qed.

Theorem sha3_fips bs : octets bs -> bits_of_bytes (sha3_bytes bs) = sha3_256_bits (bits_of_bytes bs).
Proof.
  intros Ho. unfold sha3_256_bits, sponge. cbv zeta.
  assert (Ep : (bits_of_bytes bs ++ [false; true]) ++ pad101 1088 (List.length (bits_of_bytes bs ++ [false; true])) =
               bits_of_bytes (bs ++ padding (List.length bs))).
  { rewrite bits_app, padding_bits, app_length, bits_length, <- app_assoc. reflexivity. }
  rewrite Ep. set (padded := bs ++ padding (List.length bs)).
  assert (Op : octets padded) by (apply Forall_app; split; [exact Ho|apply padding_octets]).
  assert (Lp : exists n, List.length padded = 136 * n).
  { unfold padded. rewrite app_length. destruct (padding_length (List.length bs)) as [_ H2].
    apply Nat.mod_divides in H2; [|discriminate]. exact H2. }
  destruct Lp as (n & Lp). rewrite bits_length, Lp.
  replace (8 * (136 * n) / 1088) with n.
  2:{ replace (8 * (136 * n)) with (n * 1088) by lia. symmetry. apply Nat.div_mul. discriminate. }
  destruct (absorb_bits n (repeat 0%N 25) padded zeros_wide Op Lp) as [[Wl _] A].
  change (state_bits (repeat 0%N 25)) with (repeat false 1600) in A. rewrite A.
  unfold state_bits. rewrite (flat_firstn lane_bits 64 4 _ lane_bits_length : firstn 256 _ = _).
  unfold sha3_bytes. cbv zeta. fold padded. rewrite Lp. unfold rate at 1.
  replace (136 * n / 136) with n by (rewrite Nat.mul_comm; symmetry; apply Nat.div_mul; discriminate).
  rewrite bits_flat. apply flat_map_ext. intros x. exact (lane_bytes_bits 8 x).
Qed.
