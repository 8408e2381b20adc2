(** * Fips197Proofs: the block cipher of Gcm.v is AES-256 of FIPS 197 *)
From Coq Require Import List Bool Arith NArith Lia.
From Verif Require Import Sha3 Gcm PrimitiveSpec PrimitiveProofs Fips202 Fips202Proofs Fips197.
Import ListNotations.
Local Open Scope nat_scope.

(** ** Bytes *)
Definition octet (b : N) : Prop := (b < 256)%N.

Lemma octet_bits b : (forall z, 8 <= z -> bit b z = false) -> octet b.
Proof.
  intros H. unfold octet. destruct (N.lt_ge_cases b 256) as [L|L]; [exact L|]. exfalso.
  assert (N8 : (8 <= N.log2 b)%N) by (change 8%N with (N.log2 256); now apply N.log2_le_mono).
  specialize (H (N.to_nat (N.log2 b))). unfold bit in H. rewrite Nnat.N2Nat.id in H.
  rewrite N.bit_log2 in H by lia. discriminate H. lia.
Qed.
Lemma octet_lxor a b : octet a -> octet b -> octet (N.lxor a b).
Proof.
  intros Ha Hb. apply octet_bits. intros z Hz. rewrite bit_lxor.
  now rewrite (byte_high a z Ha Hz), (byte_high b z Hb Hz).
Qed.
Lemma all_octets (Q : N -> bool) : forallb Q (map N.of_nat (seq 0 256)) = true -> forall b, octet b -> Q b = true.
Proof. intros H b Hb. rewrite forallb_forall in H. apply H. now apply bytes_256. Qed.
Lemma octet_xtime b : octet b -> octet (xtime b).
Proof.
  intros H. apply N.ltb_lt. revert b H.
  apply (all_octets (fun b => (xtime b <? 256)%N)). vm_compute. reflexivity.
Qed.
Lemma sub_is b : octet b -> sub_byte b = sub b.
Proof.
  intros H. pose proof (all_octets _ sbox_rows b H) as R. cbv beta in R.
  apply andb_true_iff in R as [R _]. apply andb_true_iff in R as [_ R]. apply N.eqb_eq in R.
  exact R.
Qed.
Lemma octet_sub b : octet b -> octet (sub_byte b).
Proof.
  intros H. apply N.ltb_lt. revert b H.
  apply (all_octets (fun b => (sub_byte b <? 256)%N)). vm_compute. reflexivity.
Qed.

Lemma mul_step n a b : byte_mul (S n) a b = N.lxor (if N.testbit a 0 then b else 0%N) (byte_mul n (a / 2) (xtime b)).
Proof. reflexivity. Qed.
Lemma mul_0 n b : byte_mul n 0 b = 0%N.
Proof.
  revert b. induction n as [|n IH]; intros b; [reflexivity|]. rewrite mul_step. change (0 / 2)%N with 0%N.
  rewrite IH. reflexivity.
Qed.
Lemma mul_1 n b : byte_mul (S n) 1 b = b.
Proof. rewrite mul_step. change (1 / 2)%N with 0%N. rewrite mul_0. apply N.lxor_0_r. Qed.
Lemma mul_2 b : byte_mul 8 2 b = xtime b.
Proof. rewrite mul_step. change (2 / 2)%N with 1%N. rewrite mul_1. reflexivity. Qed.
Lemma mul_3 b : byte_mul 8 3 b = N.lxor b (xtime b).
Proof. rewrite mul_step. change (3 / 2)%N with 1%N. rewrite mul_1. reflexivity. Qed.

(** ** States *)
Definition same (s : list N) (A : state) : Prop :=
  List.length s = 16 /\ octets s /\ forall r c, r < 4 -> c < 4 -> A r c = nth (r + 4 * c) s 0%N.

Lemma octets_nth s i : octets s -> octet (nth i s 0%N).
Proof.
  intros H. unfold octets in H. rewrite Forall_forall in H.
  destruct (nth_in_or_default i s 0%N) as [I| ->]; [now apply H|reflexivity].
Qed.
Lemma octets_of s n : List.length s = n -> (forall i, i < n -> octet (nth i s 0%N)) -> octets s.
Proof.
  intros L H. apply Forall_forall. intros b Hb. apply (In_nth _ _ 0%N) in Hb as (i & Hi & <-). apply H. lia.
Qed.
Lemma nth_map0 (f : nat -> N) n i : i < n -> nth i (map f (seq 0 n)) 0%N = f i.
Proof. exact (lane_map f n i). Qed.

Lemma xor_bytes_length a b : List.length (xor_bytes a b) = Nat.min (List.length a) (List.length b).
Proof. unfold xor_bytes. now rewrite map_length, combine_length. Qed.
Lemma xor_bytes_nth a b i : List.length a = List.length b ->
  nth i (xor_bytes a b) 0%N = N.lxor (nth i a 0%N) (nth i b 0%N).
Proof.
  intros H. unfold xor_bytes.
  exact (eq_trans (map_nth (fun p : N * N => N.lxor (fst p) (snd p)) (combine a b) (0, 0)%N i)
           (f_equal (fun p : N * N => N.lxor (fst p) (snd p)) (combine_nth a b i 0%N 0%N H))).
Qed.
Lemma xor_bytes_octets a b : List.length a = List.length b -> octets a -> octets b -> octets (xor_bytes a b).
Proof.
  intros L Ha Hb. apply (octets_of _ (List.length a)).
  - rewrite xor_bytes_length, <- L. apply Nat.min_id.
  - intros i Hi. rewrite xor_bytes_nth by exact L. apply octet_lxor; now apply octets_nth.
Qed.

Lemma same_sub s A : same s A -> same (map sub_byte s) (SubBytes A).
Proof.
  intros (L & O & H). split; [now rewrite map_length|]. split.
  - apply Forall_forall. intros b Hb. apply in_map_iff in Hb as (a & <- & Ha).
    apply octet_sub. unfold octets in O. rewrite Forall_forall in O. now apply O.
  - intros r c Hr Hc. unfold SubBytes. rewrite H by assumption.
    rewrite (nth_indep (map sub_byte s) 0%N (sub_byte 0)) by (rewrite map_length; lia). rewrite map_nth.
    symmetry. apply sub_is. now apply octets_nth.
Qed.

Lemma shift_index r c : r < 4 -> c < 4 -> (r + 4 * c + 4 * ((r + 4 * c) mod 4)) mod 16 = r + 4 * ((c + r) mod 4).
Proof. intros Hr Hc. do 4 (destruct r as [|r]; [do 4 (destruct c as [|c]; [reflexivity|]); lia|]). lia. Qed.

Lemma same_shift s A : same s A -> same (shift_rows s) (ShiftRows A).
Proof.
  intros (L & O & H). unfold shift_rows. split; [now rewrite map_length, seq_length|]. split.
  - apply Forall_forall. intros b Hb. apply in_map_iff in Hb as (i & <- & _). now apply octets_nth.
  - intros r c Hr Hc. rewrite nth_map0 by lia. rewrite shift_index by assumption. unfold ShiftRows.
    apply H; [exact Hr|]. apply Nat.mod_upper_bound. discriminate.
Qed.

Lemma octet_mix a b c d : octet a -> octet b -> octet c -> octet d -> octet (mix_byte a b c d).
Proof.
  intros. unfold mix_byte. repeat apply octet_lxor; try assumption; now apply octet_xtime.
Qed.

Lemma same_mix s A : same s A -> same (mix_columns s) (MixColumns A).
Proof.
  intros (L & O & H). unfold mix_columns.
  set (g := fun c => mix_column (nth (4 * c) s 0%N) (nth (4 * c + 1) s 0%N) (nth (4 * c + 2) s 0%N) (nth (4 * c + 3) s 0%N)).
  assert (Lg : forall c, List.length (g c) = 4) by reflexivity.
  split; [now rewrite (flat_length g 4 _ Lg)|]. split.
  - apply Forall_forall. intros b Hb. apply in_flat_map in Hb as (c & _ & Hb). unfold g, mix_column in Hb.
    cbn [In] in Hb. destruct Hb as [<-|[<-|[<-|[<-|[]]]]]; apply octet_mix; now apply octets_nth.
  - intros r c Hr Hc. rewrite (Nat.add_comm r).
    rewrite (flat_nth g 4 (seq 0 4) Lg c r 0%N 0) by (first [exact Hr | rewrite seq_length; exact Hc]).
    rewrite seq_nth by exact Hc. change (0 + c) with c. unfold g, MixColumns.
    cbn [map seq fold_right]. rewrite !H by lia.
    change (0 + 4 * c) with (4 * c). 
    rewrite (Nat.add_comm 1 (4 * c)), (Nat.add_comm 2 (4 * c)), (Nat.add_comm 3 (4 * c)).
    set (a0 := nth (4 * c) s 0%N). set (a1 := nth (4 * c + 1) s 0%N).
    set (a2 := nth (4 * c + 2) s 0%N). set (a3 := nth (4 * c + 3) s 0%N). clearbody a0 a1 a2 a3.
    destruct r as [|[|[|[|r]]]]; [..|exfalso; lia];
      unfold mix_column, mix_byte, coefficient; cbn [nth Nat.add Nat.sub Nat.modulo Nat.divmod fst snd];
      rewrite ?mul_1, ?mul_2, ?mul_3; apply N.bits_inj; intros z; rewrite !N.lxor_spec, ?N.bits_0;
      repeat match goal with |- context [N.testbit ?x z] => destruct (N.testbit x z) end; reflexivity.
Qed.

(** ** The key schedule *)
Definition word (a : list N) : Prop := List.length a = 4 /\ octets a.

Lemma xor_word_is a b : word a -> word b -> xor_bytes a b = xor_word a b /\ word (xor_bytes a b).
Proof.
  intros [La Oa] [Lb Ob]. split; [|split].
  - unfold xor_word. do 4 (destruct a as [|? a]; [discriminate La|]). destruct a; [|discriminate La].
    do 4 (destruct b as [|? b]; [discriminate Lb|]). destruct b; [|discriminate Lb]. reflexivity.
  - rewrite xor_bytes_length, La, Lb. reflexivity.
  - apply xor_bytes_octets; [now rewrite La, Lb|assumption..].
Qed.

Lemma sub_word a : word a -> map sub_byte a = SubWord a /\ word (map sub_byte a).
Proof.
  intros [La Oa]. unfold octets in Oa. rewrite Forall_forall in Oa. split; [|split].
  - apply map_ext_in. intros b Hb. now apply sub_is, Oa.
  - now rewrite map_length.
  - apply Forall_forall. intros b Hb. apply in_map_iff in Hb as (c & <- & Hc). now apply octet_sub, Oa.
Qed.

Lemma rot_map (f : N -> N) a x r : List.length a = 4 -> map f a = x :: r -> r ++ [x] = map f (RotWord a).
Proof.
  intros La E. do 4 (destruct a as [|? a]; [discriminate La|]). destruct a; [|discriminate La].
  injection E as <- <-. reflexivity.
Qed.
Lemma rot_word a x r : word a -> map sub_byte a = x :: r -> r ++ [x] = SubWord (RotWord a).
Proof.
  intros Ha E. destruct (sub_word a Ha) as [S _]. rewrite S in E. destruct Ha as [La _].
  exact (rot_map sub a x r La E).
Qed.

Lemma rcon_is i : 8 <= i < 60 -> i mod 8 = 0 -> rcon (i / 8) = (2 ^ N.of_nat (i / 8 - 1))%N /\ octet (2 ^ N.of_nat (i / 8 - 1)).
Proof.
  intros Hi Hm. pose proof (Nat.div_mod i 8 ltac:(discriminate)) as D. rewrite Hm in D.
  assert (B : i / 8 < 8) by (apply Nat.div_lt_upper_bound; lia). set (q := i / 8) in *. clearbody q.
  destruct q as [|[|[|[|[|[|[|[|q]]]]]]]]; [exfalso; lia|..|exfalso; lia]; vm_compute; split; reflexivity.
Qed.

(** The words so far, oldest first, as a function. *)
Definition nth_word (ws : list (list N)) (i : nat) : list N := nth i ws [].
Definition next (w : nat -> list N) (i : nat) : list N :=
  xor_word (w (i - 8))
     (if i mod 8 =? 0 then xor_word (SubWord (RotWord (w (i - 1)))) [rcon (i / 8); 0; 0; 0]%N
      else if i mod 8 =? 4 then SubWord (w (i - 1))
      else w (i - 1)).

Lemma next_word_is i ws : 8 <= i < 60 -> List.length ws = i -> Forall word ws ->
  next_word i ws = next (nth_word (rev ws)) i /\ word (next_word i ws).
Proof.
  intros Hi L Hw.
  assert (Hat : forall k, k < i -> nth_word (rev ws) (i - S k) = nth k ws [] /\ word (nth k ws [])).
  { intros k Hk. split.
    - unfold nth_word. rewrite rev_nth by lia. f_equal. lia.
    - rewrite Forall_forall in Hw. apply Hw, nth_In. lia. }
  unfold next_word, next. cbv zeta.
  destruct (Hat 7 ltac:(lia)) as [-> W7]. destruct (Hat 0 ltac:(lia)) as [-> W0].
  set (prev := nth 0 ws []) in *. set (old := nth 7 ws []) in *. clearbody prev old.
  destruct (sub_word prev W0) as [Es Ws].
  destruct (Nat.eqb_spec (i mod 8) 0) as [Em|Em].
  - destruct (map sub_byte prev) as [|x r] eqn:E; [destruct Ws; discriminate|].
    assert (Wr : word (r ++ [x])).
    { destruct Ws as [L1 O1]. inversion O1 as [|? ? O2 O3]; subst. split; [rewrite app_length; cbn in *; lia|].
      apply Forall_app. now repeat constructor. }
    destruct (rcon_is i Hi Em) as [Er Or].
    assert (Wc : word [2 ^ N.of_nat (i / 8 - 1); 0; 0; 0]%N).
    { split; [reflexivity|]. repeat constructor; exact Or. }
    destruct (xor_word_is _ _ Wr Wc) as [E1 W1]. destruct (xor_word_is _ _ W7 W1) as [E2 W2].
    split; [|exact W2]. rewrite E2, E1, Er, (rot_word _ _ _ W0 E). reflexivity.
  - destruct (i mod 8 =? 4).
    + destruct (xor_word_is _ _ W7 Ws) as [E2 W2]. split; [|exact W2]. now rewrite E2, Es.
    + exact (xor_word_is _ _ W7 W0).
Qed.

Definition good (m : nat) (ws : list (list N)) (start : list (list N)) : Prop :=
  List.length ws = m /\ Forall word ws /\
  (forall i, i < 8 -> nth_word (rev ws) i = nth_word start i) /\
  (forall i, 8 <= i < m -> nth_word (rev ws) i = next (nth_word (rev ws)) i).

Lemma next_ext w v i : (forall k, k < i -> w k = v k) -> 8 <= i -> next w i = next v i.
Proof.
  intros H Hi. unfold next. now rewrite (H (i - 8)), (H (i - 1)) by lia.
Qed.

Lemma expand_good start n : forall i ws, 8 <= i -> i + n <= 60 -> good i ws start -> good (i + n) (expand n i ws) start.
Proof.
  induction n as [|n IH]; intros i ws H8 Hn Hg; [now rewrite Nat.add_0_r|].
  cbn [expand]. replace (i + S n) with (S i + n) by lia. apply IH; [lia|lia|].
  destruct Hg as (L & Hw & H0 & H1). destruct (next_word_is i ws ltac:(lia) L Hw) as [E W].
  assert (K : forall k, k < i -> nth_word (rev (next_word i ws :: ws)) k = nth_word (rev ws) k).
  { intros k Hk. unfold nth_word. cbn [rev]. rewrite app_nth1 by (rewrite rev_length; lia). reflexivity. }
  split; [cbn [List.length]; now rewrite L|]. split; [now constructor|]. split.
  - intros k Hk. rewrite K by lia. now apply H0.
  - intros k Hk. rewrite (next_ext _ (nth_word (rev ws))) by (first [intros j Hj; apply K; lia | lia]).
    destruct (Nat.eq_dec k i) as [->|Ne].
    + unfold nth_word at 1. cbn [rev]. rewrite app_nth2 by (rewrite rev_length; lia).
      rewrite rev_length, L, Nat.sub_diag. exact E.
    + rewrite K by lia. apply H1. lia.
Qed.

Definition key_word (key : list N) (i : nat) : list N := map (fun k => nth (4 * i + k) key 0%N) (seq 0 4).

Lemma cut4 {A} (l : list A) n d : n + 4 <= List.length l ->
  firstn 4 (skipn n l) = map (fun k => nth (n + k) l d) (seq 0 4).
Proof.
  intros H. apply (nth_ext _ _ d d).
  - rewrite firstn_length, skipn_length, map_length, seq_length. lia.
  - intros k Hk. rewrite firstn_length, skipn_length in Hk.
    rewrite nth_cut, nth_drop by lia.
    rewrite (nth_indep (map _ _) d ((fun k => nth (n + k) l d) 0)) by (rewrite map_length, seq_length; lia).
    rewrite (map_nth (fun k => nth (n + k) l d)), seq_nth by lia. reflexivity.
Qed.

Lemma start_good key : List.length key = 32 -> octets key ->
  let start := map (fun i => firstn 4 (skipn (4 * i) key)) (seq 0 8) in
  good 8 (rev start) start /\ forall i, i < 8 -> nth_word start i = key_word key i.
Proof.
  intros L O start.
  assert (E : start = map (key_word key) (seq 0 8)).
  { unfold start. apply map_ext_in. intros i Hi. apply in_seq in Hi. apply cut4. lia. }
  split; [split; [now rewrite rev_length; unfold start; rewrite map_length, seq_length|]; split; [|split]|].
  - apply Forall_rev. rewrite E. apply Forall_forall. intros w Hw. apply in_map_iff in Hw as (i & <- & _).
    split; [reflexivity|]. apply Forall_forall. intros b Hb. unfold key_word in Hb.
    apply in_map_iff in Hb as (k & <- & _). now apply octets_nth.
  - intros i _. now rewrite rev_involutive.
  - intros i Hi. lia.
  - intros i Hi. rewrite E. unfold nth_word.
    rewrite (nth_indep _ [] (key_word key 0)) by (rewrite map_length, seq_length; exact Hi).
    rewrite map_nth, seq_nth by exact Hi. reflexivity.
Qed.

Lemma key_words_good key : List.length key = 32 -> octets key ->
  List.length (key_words key) = 60 /\ (forall i, i < 60 -> word (nth_word (key_words key) i)) /\
  schedule key (nth_word (key_words key)).
Proof.
  intros L O. destruct (start_good key L O) as [G S].
  apply (expand_good _ 52) in G; [|lia|lia]. destruct G as (G1 & G2 & G3 & G4). unfold key_words.
  split; [now rewrite rev_length|]. split.
  - intros i Hi. apply Forall_rev in G2. rewrite Forall_forall in G2. apply G2, nth_In. now rewrite rev_length, G1.
  - split; [|exact G4]. intros i Hi. rewrite G3 by exact Hi. now apply S.
Qed.

Lemma schedule_unique key w v : schedule key w -> schedule key v -> forall i, i < 60 -> w i = v i.
Proof.
  intros [W0 W1] [V0 V1] i. induction i as [i IH] using lt_wf_ind. intros Hi.
  destruct (le_lt_dec 8 i) as [H|H].
  - rewrite W1, V1 by lia. apply (next_ext w v); [|exact H]. intros k Hk. apply IH; lia.
  - now rewrite W0, V0.
Qed.

(** ** The cipher *)
Lemma round_keys_eq key ws : key_words key = ws ->
  round_keys key = map (fun r => concat (firstn 4 (skipn (4 * r) ws))) (seq 0 15).
Proof. intros <-. reflexivity. Qed.
Lemma round_key_eq key ws r : key_words key = ws -> r < 15 ->
  nth r (round_keys key) [] = concat (firstn 4 (skipn (4 * r) ws)).
Proof.
  intros E Hr. rewrite (round_keys_eq key ws E).
  rewrite (nth_indep _ [] ((fun r => concat (firstn 4 (skipn (4 * r) ws))) 0))
    by (rewrite map_length, seq_length; exact Hr).
  rewrite (map_nth (fun r => concat (firstn 4 (skipn (4 * r) ws)))), seq_nth by exact Hr. reflexivity.
Qed.

Lemma concat_cut (ws : list (list N)) n : n + 4 <= List.length ws ->
  concat (firstn 4 (skipn n ws)) = nth n ws [] ++ nth (n + 1) ws [] ++ nth (n + 2) ws [] ++ nth (n + 3) ws [].
Proof.
  intros H. rewrite (cut4 ws n [] H). cbn [map seq concat]. now rewrite Nat.add_0_r, app_nil_r.
Qed.
Lemma nth_four (a b c d : list N) i j : List.length a = 4 -> List.length b = 4 -> List.length c = 4 -> List.length d = 4 ->
  i < 4 -> j < 4 -> nth (i + 4 * j) (a ++ b ++ c ++ d) 0%N = nth i (nth j [a; b; c; d] []) 0%N.
Proof.
  intros La Lb Lc Ld Hi Hj.
  do 4 (destruct a as [|? a]; [discriminate La|]). destruct a; [|discriminate La].
  do 4 (destruct b as [|? b]; [discriminate Lb|]). destruct b; [|discriminate Lb].
  do 4 (destruct c as [|? c]; [discriminate Lc|]). destruct c; [|discriminate Lc].
  do 4 (destruct d as [|? d]; [discriminate Ld|]). destruct d; [|discriminate Ld].
  do 4 (destruct j as [|j]; [do 4 (destruct i as [|i]; [reflexivity|]); lia|]). lia.
Qed.
Lemma round_key_nth key r i c : List.length key = 32 -> octets key -> r < 15 -> i < 4 -> c < 4 ->
  nth (i + 4 * c) (nth r (round_keys key) []) 0%N = nth i (nth_word (key_words key) (4 * r + c)) 0%N.
Proof.
  intros L O Hr Hi Hc. destruct (key_words_good key L O) as (L60 & Hw & _).
  rewrite (round_key_eq key _ r eq_refl Hr). revert L60 Hw. generalize (key_words key) as ws. intros ws L60 Hw.
  rewrite concat_cut by lia. unfold nth_word in *.
  assert (W : forall k, k < 4 -> List.length (nth (4 * r + k) ws []) = 4) by (intros k Hk; apply Hw; lia).
  rewrite nth_four; [|rewrite <- (Nat.add_0_r (4 * r)); apply W; lia|apply W; lia..|exact Hi|exact Hc].
  f_equal. destruct c as [|[|[|[|c]]]]; [now rewrite Nat.add_0_r|reflexivity..|lia].
Qed.

Lemma round_key_form key r : List.length key = 32 -> octets key -> r < 15 ->
  List.length (nth r (round_keys key) []) = 16 /\ octets (nth r (round_keys key) []).
Proof.
  intros L O Hr. destruct (key_words_good key L O) as (L60 & Hw & _).
  assert (L16 : List.length (nth r (round_keys key) []) = 16).
  { rewrite (round_key_eq key _ r eq_refl Hr). revert L60 Hw. generalize (key_words key) as ws. intros ws L60 Hw.
    rewrite concat_cut by lia. unfold nth_word in *. rewrite !app_length.
    assert (W : forall k, k < 4 -> List.length (nth (4 * r + k) ws []) = 4) by (intros k Hk; apply Hw; lia).
    pose proof (W 0 ltac:(lia)) as W0. rewrite Nat.add_0_r in W0. now rewrite W0, !W by lia. }
  split; [exact L16|]. apply (octets_of _ 16 L16). intros k Hk.
  replace k with (k mod 4 + 4 * (k / 4)) by (pose proof (Nat.div_mod k 4); lia).
  assert (k mod 4 < 4) by (apply Nat.mod_upper_bound; discriminate).
  assert (k / 4 < 4) by (apply Nat.div_lt_upper_bound; lia).
  rewrite round_key_nth by assumption. apply octets_nth. apply Hw. lia.
Qed.

Lemma same_add key w r s A : List.length key = 32 -> octets key -> schedule key w -> r < 15 ->
  same s A -> same (xor_bytes s (nth r (round_keys key) [])) (AddRoundKey w r A).
Proof.
  intros L O Sw Hr (Ls & Os & H). destruct (round_key_form key r L O Hr) as [Lk Ok].
  split; [rewrite xor_bytes_length, Ls, Lk; reflexivity|].
  split; [apply xor_bytes_octets; [now rewrite Ls, Lk|assumption..]|].
  intros i c Hi Hc. rewrite xor_bytes_nth by now rewrite Ls, Lk. unfold AddRoundKey.
  rewrite H by assumption. f_equal. rewrite round_key_nth by assumption.
  destruct (key_words_good key L O) as (_ & _ & Sk).
  now rewrite (schedule_unique key w _ Sw Sk) by lia.
Qed.

Lemma same_output s A : same s A -> output_of A = s.
Proof.
  intros (L & _ & H). unfold output_of. do 16 (destruct s as [|? s]; [discriminate L|]).
  destruct s; [|discriminate L]. cbn [flat_map map seq List.app]. rewrite !H by lia. reflexivity.
Qed.

Lemma round_keys_length key : List.length (round_keys key) = 15.
Proof. rewrite (round_keys_eq key _ eq_refl). now rewrite map_length, seq_length. Qed.

Lemma aes_same key w block : List.length key = 32 -> octets key -> List.length block = 16 -> octets block ->
  schedule key w -> exists A, same (aes_block (round_keys key) block) A /\ Cipher w block = output_of A.
Proof.
  intros L O Lb Ob Sw. unfold aes_block, Cipher. cbv zeta.
  assert (S0 : same block (state_of block)) by (split; [exact Lb|]; split; [exact Ob|reflexivity]).
  assert (Ek : firstn 13 (skipn 1 (round_keys key)) = map (fun r => nth r (round_keys key) []) (seq 1 13)).
  { apply (nth_ext _ _ [] []).
    - rewrite firstn_length, skipn_length, map_length, seq_length, round_keys_length. reflexivity.
    - intros k Hk. rewrite firstn_length, skipn_length, round_keys_length in Hk.
      rewrite nth_cut, nth_drop by lia.
      rewrite (nth_indep (map _ _) [] ((fun r => nth r (round_keys key) []) 0)) by (rewrite map_length, seq_length; lia).
      rewrite (map_nth (fun r => nth r (round_keys key) [])), seq_nth by lia. reflexivity. }
  rewrite Ek.
  assert (R : forall l s A, (forall r, In r l -> r < 15) -> same s A ->
    same (fold_left aes_round (map (fun r => nth r (round_keys key) []) l) s)
      (fold_left (fun s round => AddRoundKey w round (MixColumns (ShiftRows (SubBytes s)))) l A)).
  { induction l as [|r l IH]; intros s A Hl H; [exact H|]. cbn [map fold_left]. apply IH.
    - intros k Hk. apply Hl. now right.
    - unfold aes_round. apply (same_add key); try assumption; [apply Hl; now left|].
      now apply same_mix, same_shift, same_sub. }
  eexists. split; [|reflexivity]. apply (same_add key); try assumption; [lia|].
  apply same_shift, same_sub, R; [intros r Hr; apply in_seq in Hr; lia|].
  apply (same_add key); try assumption. lia.
Qed.

Theorem aes_fips key w block : List.length key = 32 -> octets key -> List.length block = 16 -> octets block ->
  schedule key w -> aes_block (round_keys key) block = Cipher w block.
Proof.
  intros L O Lb Ob Sw. destruct (aes_same key w block L O Lb Ob Sw) as (A & S & ->).
  symmetry. exact (same_output _ _ S).
Qed.

Lemma aes_form key block : List.length key = 32 -> octets key -> List.length block = 16 -> octets block ->
  List.length (aes_block (round_keys key) block) = 16 /\ octets (aes_block (round_keys key) block).
Proof.
  intros L O Lb Ob. destruct (key_words_good key L O) as (_ & _ & Sk).
  destruct (aes_same key _ block L O Lb Ob Sk) as (A & (S1 & S2 & _) & _). now split.
Qed.
