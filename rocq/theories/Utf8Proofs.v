(** * Utf8Proofs: the text check accepts exactly the encodings of Unicode texts (C104) *)
From Coq Require Import String Ascii List Bool Arith NArith ZArith Lia.
From Verif Require Import Base Files.
Import ListNotations.
Local Open Scope string_scope.
Local Open Scope N_scope.

(** ** Specification: Unicode scalar values and their encodings (RFC 3629) *)
Definition scalar (n : N) : Prop := n < 55296 \/ 57344 <= n <= 1114111.

Definition byte (n : N) : ascii := ascii_of_N n.

Definition encode (n : N) : string :=
  if n <? 128 then String (byte n) ""
  else if n <? 2048 then String (byte (192 + n / 64)) (String (byte (128 + n mod 64)) "")
  else if n <? 65536 then
    String (byte (224 + n / 4096)) (String (byte (128 + n / 64 mod 64)) (String (byte (128 + n mod 64)) ""))
  else
    String (byte (240 + n / 262144)) (String (byte (128 + n / 4096 mod 64))
      (String (byte (128 + n / 64 mod 64)) (String (byte (128 + n mod 64)) ""))).

Fixpoint encode_all (l : list N) : string :=
  match l with [] => "" | n :: r => encode n ++ encode_all r end.

(** ** Proof *)

Lemma between_N lo hi c :
  between lo hi c = ((N.of_nat lo <=? N_of_ascii c) && (N_of_ascii c <=? N.of_nat hi))%bool.
Proof.
  unfold between, nat_of_ascii. f_equal; apply eq_true_iff_eq; rewrite Nat.leb_le, N.leb_le; lia.
Qed.

Lemma byte_range c : N_of_ascii c < 256.
Proof. apply N_ascii_bounded. Qed.

Lemma in_range lo hi n : n < 256 -> N.of_nat lo <= n <= N.of_nat hi -> between lo hi (byte n) = true.
Proof.
  intros B H. rewrite between_N. unfold byte. rewrite N_ascii_embedding by exact B.
  apply andb_true_intro. split; apply N.leb_le; apply H.
Qed.

Lemma off_range lo hi n : n < 256 -> n < N.of_nat lo \/ N.of_nat hi < n -> between lo hi (byte n) = false.
Proof.
  intros B H. rewrite between_N. unfold byte. rewrite N_ascii_embedding by exact B.
  apply andb_false_iff. destruct H; [left|right]; now apply N.leb_gt.
Qed.

(** One step of the check, with numbers for bytes. *)
Lemma utf8_1 a r : a < 128 -> utf8 (String (byte a) r) = utf8 r.
Proof. intros H. cbn [utf8]. rewrite in_range by (cbn; lia). reflexivity. Qed.

Lemma utf8_2 a b r : 194 <= a <= 223 -> 128 <= b <= 191 -> utf8 (String (byte a) (String (byte b) r)) = utf8 r.
Proof.
  intros A B. cbn [utf8]. rewrite (off_range 0 127 a) by (cbn; lia). rewrite (in_range 194 223 a) by (cbn; lia).
  rewrite in_range by (cbn; lia). reflexivity.
Qed.

Lemma utf8_3 a b c r :
  a = 224 /\ 160 <= b <= 191 \/ (225 <= a <= 236 \/ 238 <= a <= 239) /\ 128 <= b <= 191 \/ a = 237 /\ 128 <= b <= 159 ->
  128 <= c <= 191 -> utf8 (String (byte a) (String (byte b) (String (byte c) r))) = utf8 r.
Proof.
  intros H D. cbn [utf8]. rewrite (off_range 0 127 a) by (cbn; lia). rewrite (off_range 194 223 a) by (cbn; lia).
  rewrite (in_range 128 191 c) by (cbn; lia).
  destruct H as [(A & B)|[([A|A] & B)|(A & B)]].
  - rewrite (in_range 224 224 a) by (cbn; lia). rewrite (in_range 160 191 b) by (cbn; lia). reflexivity.
  - rewrite (off_range 224 224 a) by (cbn; lia). rewrite (in_range 225 236 a) by (cbn; lia).
    rewrite (in_range 128 191 b) by (cbn; lia). reflexivity.
  - rewrite (off_range 224 224 a) by (cbn; lia). rewrite (off_range 225 236 a) by (cbn; lia).
    rewrite (in_range 238 239 a) by (cbn; lia). rewrite (in_range 128 191 b) by (cbn; lia). reflexivity.
  - rewrite (off_range 224 224 a) by (cbn; lia). rewrite (off_range 225 236 a) by (cbn; lia).
    rewrite (off_range 238 239 a) by (cbn; lia). rewrite (in_range 237 237 a) by (cbn; lia).
    rewrite (in_range 128 159 b) by (cbn; lia). reflexivity.
Qed.

Lemma utf8_4 a b c d r :
  a = 240 /\ 144 <= b <= 191 \/ 241 <= a <= 243 /\ 128 <= b <= 191 \/ a = 244 /\ 128 <= b <= 143 ->
  128 <= c <= 191 -> 128 <= d <= 191 ->
  utf8 (String (byte a) (String (byte b) (String (byte c) (String (byte d) r)))) = utf8 r.
Proof.
  intros H D E. cbn [utf8].
  rewrite (off_range 0 127 a) by (cbn; lia). rewrite (off_range 194 223 a) by (cbn; lia).
  rewrite (off_range 224 224 a) by (cbn; lia). rewrite (off_range 225 236 a) by (cbn; lia).
  rewrite (off_range 238 239 a) by (cbn; lia). rewrite (off_range 237 237 a) by (cbn; lia).
  rewrite (in_range 128 191 c) by (cbn; lia). rewrite (in_range 128 191 d) by (cbn; lia).
  destruct H as [(A & B)|[(A & B)|(A & B)]].
  - rewrite (in_range 240 240 a) by (cbn; lia). rewrite (in_range 144 191 b) by (cbn; lia). reflexivity.
  - rewrite (off_range 240 240 a) by (cbn; lia). rewrite (in_range 241 243 a) by (cbn; lia).
    rewrite (in_range 128 191 b) by (cbn; lia). reflexivity.
  - rewrite (off_range 240 240 a) by (cbn; lia). rewrite (off_range 241 243 a) by (cbn; lia).
    rewrite (in_range 244 244 a) by (cbn; lia). rewrite (in_range 128 143 b) by (cbn; lia). reflexivity.
Qed.

(** The digits to base 64. *)
Lemma digits n : exists q1 r1 q2 r2 q3 r3,
  n = 64 * q1 + r1 /\ q1 = 64 * q2 + r2 /\ q2 = 64 * q3 + r3 /\ r1 < 64 /\ r2 < 64 /\ r3 < 64 /\
  n / 64 = q1 /\ n mod 64 = r1 /\ n / 64 mod 64 = r2 /\ n / 4096 = q2 /\ n / 4096 mod 64 = r3 /\ n / 262144 = q3.
Proof.
  exists (n / 64), (n mod 64), (n / 4096), (n / 64 mod 64), (n / 262144), (n / 4096 mod 64).
  assert (E1 : n / 4096 = n / 64 / 64) by (rewrite N.div_div by lia; reflexivity).
  assert (E2 : n / 262144 = n / 4096 / 64) by (rewrite N.div_div by lia; reflexivity).
  rewrite E1 at 1. rewrite E2 at 1.
  repeat split; try (apply N.div_mod; lia); try (apply N.mod_lt; lia).
Qed.

Lemma digits_of q3 r3 r2 r1 n : n = 64 * (64 * (64 * q3 + r3) + r2) + r1 -> r1 < 64 -> r2 < 64 -> r3 < 64 ->
  n mod 64 = r1 /\ n / 64 mod 64 = r2 /\ n / 4096 = 64 * q3 + r3 /\ n / 4096 mod 64 = r3 /\ n / 262144 = q3.
Proof.
  intros H H1 H2 H3. destruct (digits n) as (a1 & b1 & a2 & b2 & a3 & b3 & F).
  repeat match goal with F : _ /\ _ |- _ => destruct F as (? & F) end.
  repeat match goal with E : n / ?k = ?x |- _ => rewrite ?E; revert E | E : n mod ?k = ?x |- _ => rewrite ?E; revert E | E : n / ?k mod ?m = ?x |- _ => rewrite ?E; revert E end.
  intros. assert (a1 = 64 * (64 * q3 + r3) + r2) by lia. assert (b1 = r1) by lia.
  assert (a2 = 64 * q3 + r3) by lia. assert (b2 = r2) by lia. assert (a3 = q3) by lia. assert (b3 = r3) by lia.
  repeat split; congruence.
Qed.

Lemma utf8_encode n r : scalar n -> utf8 (encode n ++ r) = utf8 r.
Proof.
  unfold scalar. intros H. unfold encode.
  destruct (digits n) as (q1 & r1 & q2 & r2 & q3 & r3 & D1 & D2 & D3 & B1 & B2 & B3 & E1 & E2 & E3 & E4 & E5 & E6).
  rewrite E3, E5, E1, E2, E4, E6. clear E1 E2 E3 E4 E5 E6.
  destruct (N.ltb_spec n 128); [apply utf8_1; lia|].
  destruct (N.ltb_spec n 2048); [cbn [append]; apply utf8_2; lia|].
  destruct (N.ltb_spec n 65536).
  - cbn [append]. apply utf8_3; lia.
  - cbn [append]. apply utf8_4; lia.
Qed.

Lemma byte_back c : byte (N_of_ascii c) = c.
Proof. apply ascii_N_embedding. Qed.

Lemma encode_2 a b : 194 <= N_of_ascii a <= 223 -> 128 <= N_of_ascii b <= 191 ->
  exists n, scalar n /\ encode n = String a (String b "").
Proof.
  intros A B. set (n := 64 * (N_of_ascii a - 192) + (N_of_ascii b - 128)).
  exists n. split; [unfold scalar, n; lia|].
  assert (E : n / 64 = N_of_ascii a - 192) by (symmetry; apply (N.div_unique n 64 _ (N_of_ascii b - 128)); unfold n; lia).
  assert (E1 : n mod 64 = N_of_ascii b - 128) by (symmetry; apply (N.mod_unique n 64 (N_of_ascii a - 192)); unfold n; lia).
  unfold encode. rewrite E, E1.
  destruct (N.ltb_spec n 128); [unfold n in *; lia|].
  destruct (N.ltb_spec n 2048); [|unfold n in *; lia].
  replace (192 + (N_of_ascii a - 192)) with (N_of_ascii a) by lia.
  replace (128 + (N_of_ascii b - 128)) with (N_of_ascii b) by lia. now rewrite !byte_back.
Qed.

Lemma encode_3 a b c :
  N_of_ascii a = 224 /\ 160 <= N_of_ascii b <= 191 \/
  (225 <= N_of_ascii a <= 236 \/ 238 <= N_of_ascii a <= 239) /\ 128 <= N_of_ascii b <= 191 \/
  N_of_ascii a = 237 /\ 128 <= N_of_ascii b <= 159 ->
  128 <= N_of_ascii c <= 191 ->
  exists n, scalar n /\ encode n = String a (String b (String c "")).
Proof.
  intros A D. set (n := 64 * (64 * (64 * 0 + (N_of_ascii a - 224)) + (N_of_ascii b - 128)) + (N_of_ascii c - 128)).
  destruct (digits_of 0 (N_of_ascii a - 224) (N_of_ascii b - 128) (N_of_ascii c - 128) n eq_refl) as (E1 & E2 & E3 & _ & _);
    [lia|lia|lia|].
  exists n. split; [unfold scalar, n; lia|]. unfold encode. rewrite E2, E1, E3.
  destruct (N.ltb_spec n 128); [unfold n in *; lia|].
  destruct (N.ltb_spec n 2048); [unfold n in *; lia|].
  destruct (N.ltb_spec n 65536); [|unfold n in *; lia].
  replace (224 + (64 * 0 + (N_of_ascii a - 224))) with (N_of_ascii a) by lia.
  replace (128 + (N_of_ascii b - 128)) with (N_of_ascii b) by lia.
  replace (128 + (N_of_ascii c - 128)) with (N_of_ascii c) by lia. now rewrite !byte_back.
Qed.

Lemma encode_4 a b c d :
  N_of_ascii a = 240 /\ 144 <= N_of_ascii b <= 191 \/ 241 <= N_of_ascii a <= 243 /\ 128 <= N_of_ascii b <= 191 \/
  N_of_ascii a = 244 /\ 128 <= N_of_ascii b <= 143 ->
  128 <= N_of_ascii c <= 191 -> 128 <= N_of_ascii d <= 191 ->
  exists n, scalar n /\ encode n = String a (String b (String c (String d ""))).
Proof.
  intros A D F.
  set (n := 64 * (64 * (64 * (N_of_ascii a - 240) + (N_of_ascii b - 128)) + (N_of_ascii c - 128)) + (N_of_ascii d - 128)).
  destruct (digits_of (N_of_ascii a - 240) (N_of_ascii b - 128) (N_of_ascii c - 128) (N_of_ascii d - 128) n eq_refl)
    as (E1 & E2 & _ & E3 & E4); [lia|lia|lia|].
  exists n. split; [unfold scalar, n; lia|]. unfold encode. rewrite E3, E2, E1, E4.
  destruct (N.ltb_spec n 128); [unfold n in *; lia|].
  destruct (N.ltb_spec n 2048); [unfold n in *; lia|].
  destruct (N.ltb_spec n 65536); [unfold n in *; lia|].
  replace (240 + (N_of_ascii a - 240)) with (N_of_ascii a) by lia.
  replace (128 + (N_of_ascii b - 128)) with (N_of_ascii b) by lia.
  replace (128 + (N_of_ascii c - 128)) with (N_of_ascii c) by lia.
  replace (128 + (N_of_ascii d - 128)) with (N_of_ascii d) by lia. now rewrite !byte_back.
Qed.

Lemma range_N lo hi c : between lo hi c = true -> N.of_nat lo <= N_of_ascii c <= N.of_nat hi.
Proof. rewrite between_N. intros H. apply andb_prop in H as (A & B). apply N.leb_le in A, B. now split. Qed.

Lemma range_1 c : between 0 127 c = true -> N_of_ascii c < 128.
Proof. intros H. apply range_N in H. cbn in H. lia. Qed.

(** A valid text starts with one encoded character. *)
Lemma utf8_head a r : utf8 (String a r) = true ->
  exists n r', scalar n /\ String a r = encode n ++ r' /\ utf8 r' = true /\ (String.length r' < String.length (String a r))%nat.
Proof.
  intros H. cbn [utf8] in H.
  destruct (between 0 127 a) eqn:A1.
  { apply range_1 in A1. exists (N_of_ascii a), r. split; [unfold scalar; lia|].
    split; [|split; [exact H|cbn; lia]]. unfold encode.
    destruct (N.ltb_spec (N_of_ascii a) 128); [|lia]. now rewrite byte_back. }
  destruct r as [|b r]; [discriminate|].
  destruct (between 194 223 a) eqn:A2.
  { apply andb_prop in H as (B & H). apply range_N in A2, B. cbn in A2, B.
    destruct (encode_2 a b A2 B) as (n & Hn & E). exists n, r. rewrite E. split; [exact Hn|].
    split; [reflexivity|]. split; [exact H|cbn; lia]. }
  destruct r as [|c r]; [discriminate|].
  assert (three : between 128 191 c = true -> utf8 r = true ->
    N_of_ascii a = 224 /\ 160 <= N_of_ascii b <= 191 \/
    (225 <= N_of_ascii a <= 236 \/ 238 <= N_of_ascii a <= 239) /\ 128 <= N_of_ascii b <= 191 \/
    N_of_ascii a = 237 /\ 128 <= N_of_ascii b <= 159 ->
    exists n r', scalar n /\ String a (String b (String c r)) = encode n ++ r' /\ utf8 r' = true /\
      (String.length r' < String.length (String a (String b (String c r))))%nat).
  { intros Cc U X. apply range_N in Cc. cbn in Cc. destruct (encode_3 a b c X Cc) as (n & Hn & E).
    exists n, r. rewrite E. split; [exact Hn|]. split; [reflexivity|]. split; [exact U|cbn; lia]. }
  destruct (between 224 224 a) eqn:A3.
  { apply andb_prop in H as (H & U). apply andb_prop in H as (B & D). apply three; [exact D|exact U|].
    apply range_N in A3, B. cbn in A3, B. left. lia. }
  destruct (between 225 236 a || between 238 239 a)%bool eqn:A4.
  { apply andb_prop in H as (H & U). apply andb_prop in H as (B & D). apply three; [exact D|exact U|].
    apply range_N in B. cbn in B. right; left. split; [|exact B].
    apply orb_prop in A4 as [A4|A4]; apply range_N in A4; cbn in A4; [left|right]; exact A4. }
  destruct (between 237 237 a) eqn:A5.
  { apply andb_prop in H as (H & U). apply andb_prop in H as (B & D). apply three; [exact D|exact U|].
    apply range_N in A5, B. cbn in A5, B. right; right. lia. }
  destruct r as [|d r]; [discriminate|]. clear three.
  assert (four : between 128 191 c = true -> between 128 191 d = true -> utf8 r = true ->
    N_of_ascii a = 240 /\ 144 <= N_of_ascii b <= 191 \/ 241 <= N_of_ascii a <= 243 /\ 128 <= N_of_ascii b <= 191 \/
    N_of_ascii a = 244 /\ 128 <= N_of_ascii b <= 143 ->
    exists n r', scalar n /\ String a (String b (String c (String d r))) = encode n ++ r' /\ utf8 r' = true /\
      (String.length r' < String.length (String a (String b (String c (String d r)))))%nat).
  { intros Cc Cd U X. apply range_N in Cc, Cd. cbn in Cc, Cd. destruct (encode_4 a b c d X Cc Cd) as (n & Hn & E).
    exists n, r. rewrite E. split; [exact Hn|]. split; [reflexivity|]. split; [exact U|cbn; lia]. }
  destruct (between 240 240 a) eqn:A6.
  { apply andb_prop in H as (H & U). apply andb_prop in H as (H & Cd). apply andb_prop in H as (B & Cc).
    apply four; [exact Cc|exact Cd|exact U|]. apply range_N in A6, B. cbn in A6, B. left. lia. }
  destruct (between 241 243 a) eqn:A7.
  { apply andb_prop in H as (H & U). apply andb_prop in H as (H & Cd). apply andb_prop in H as (B & Cc).
    apply four; [exact Cc|exact Cd|exact U|]. apply range_N in A7, B. cbn in A7, B. right; left. lia. }
  destruct (between 244 244 a) eqn:A8; [|discriminate].
  apply andb_prop in H as (H & U). apply andb_prop in H as (H & Cd). apply andb_prop in H as (B & Cc).
  apply four; [exact Cc|exact Cd|exact U|]. apply range_N in A8, B. cbn in A8, B. right; right. lia.
Qed.

Theorem utf8_exact s : utf8 s = true <-> exists l, Forall scalar l /\ s = encode_all l.
Proof.
  split.
  - remember (String.length s) as k eqn:K. revert s K.
    induction k as [k IH] using (well_founded_induction Wf_nat.lt_wf). intros s K H.
    destruct s as [|a r]; [now exists []|].
    destruct (utf8_head a r H) as (n & r' & Hn & E & U & Hl). rewrite E in *. subst k.
    destruct (IH _ Hl r' eq_refl U) as (l & Hs & ->). exists (n :: l). split; [now constructor|reflexivity].
  - intros (l & Hs & ->). induction Hs as [|n l Hn _ IH]; [reflexivity|]. cbn [encode_all]. now rewrite utf8_encode.
Qed.

Theorem read_exact d path s :
  read_file d path = Ok s <-> fs_open d path = Some s /\ exists l, Forall scalar l /\ s = encode_all l.
Proof.
  unfold read_file. rewrite <- utf8_exact. destruct (fs_open d path) as [x|].
  - destruct (utf8 x) eqn:U; split.
    + injection 1 as ->. auto.
    + intros (E & _). congruence.
    + discriminate.
    + intros (E & V). injection E as ->. congruence.
  - split; [discriminate|]. intros (E & _). discriminate E.
Qed.

Theorem read_never_err d path : read_file d path <> Err.
Proof. unfold read_file. destruct (fs_open d path) as [x|]; [destruct (utf8 x)|]; discriminate. Qed.
