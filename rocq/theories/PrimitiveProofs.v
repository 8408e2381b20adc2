(** * PrimitiveProofs: lengths and inverses of SHA3-256 and AES-256-GCM *)
From Coq Require Import String Ascii List Bool Arith NArith ZArith Lia.
From Verif Require Import Base Crypto Symmetric Sha3 Gcm PrimitiveSpec.
Import ListNotations.

(** ** Texts as lists of characters *)
Lemma soa_length l : String.length (string_of_list_ascii l) = List.length l.
Proof. induction l as [|a l IH]; [reflexivity|]. cbn [string_of_list_ascii String.length List.length]. now rewrite IH. Qed.

Lemma aos_length s : List.length (list_ascii_of_string s) = String.length s.
Proof. rewrite <- (string_of_list_ascii_of_string s) at 2. symmetry. apply soa_length. Qed.

Lemma soa_app a b : string_of_list_ascii (a ++ b) = (string_of_list_ascii a ++ string_of_list_ascii b)%string.
Proof. induction a as [|x a IH]; [reflexivity|]. cbn. now rewrite IH. Qed.

Lemma aos_app a b : list_ascii_of_string (a ++ b) = list_ascii_of_string a ++ list_ascii_of_string b.
Proof. induction a as [|x a IH]; [reflexivity|]. cbn. now rewrite IH. Qed.

Lemma text_bytes_length s : List.length (text_bytes s) = String.length s.
Proof. unfold text_bytes. now rewrite map_length, aos_length. Qed.

Lemma text_bytes_inj a b : text_bytes a = text_bytes b -> a = b.
Proof.
  unfold text_bytes. intros H. apply (f_equal (map ascii_of_N)) in H. rewrite !map_map in H.
  rewrite !(map_ext _ (fun x => x) ascii_N_embedding), !map_id in H.
  now rewrite <- (string_of_list_ascii_of_string a), <- (string_of_list_ascii_of_string b), H.
Qed.

(** ** The digest *)
Lemma keccak_round_length s rc : List.length (keccak_round s rc) = 25.
Proof. reflexivity. Qed.

Lemma fold_length cs s : List.length s = 25 -> List.length (fold_left keccak_round cs s) = 25.
Proof.
  revert s. induction cs as [|c cs IH]; intros s H; [exact H|]. cbn [fold_left]. apply IH. apply keccak_round_length.
Qed.

Lemma absorb_block_length s b : List.length (absorb_block s b) = 25.
Proof.
  unfold absorb_block, keccak_f. apply fold_length. rewrite map_length. apply seq_length.
Qed.

Lemma absorb_length n s bs : List.length s = 25 -> List.length (absorb n s bs) = 25.
Proof.
  revert s bs. induction n as [|n IH]; intros s bs H; [exact H|]. cbn [absorb]. apply IH. apply absorb_block_length.
Qed.

Lemma lane_bytes_length n x : List.length (bytes_of_lane n x) = n.
Proof. revert x. induction n as [|n IH]; intros x; [reflexivity|]. cbn. now rewrite IH. Qed.

Lemma lane_bytes_small n x b : In b (bytes_of_lane n x) -> (b < 256)%N.
Proof.
  revert x. induction n as [|n IH]; intros x; [intros []|]. cbn -[N.modulo N.div].
  intros [<-|H]; [apply N.mod_lt; discriminate|exact (IH _ H)].
Qed.

Lemma sha3_bytes_length bs : List.length (sha3_bytes bs) = 32.
Proof.
  unfold sha3_bytes.
  set (s := absorb _ _ _). assert (H : List.length s = 25) by (apply absorb_length; reflexivity).
  clearbody s. destruct s as [|a [|b [|c [|d s]]]]; try discriminate H.
  change (firstn 4 (a :: b :: c :: d :: s)) with [a; b; c; d]. cbn [flat_map].
  rewrite !app_length, !lane_bytes_length. reflexivity.
Qed.

Lemma sha3_bytes_small bs b : In b (sha3_bytes bs) -> (b < 256)%N.
Proof.
  unfold sha3_bytes. intros H. apply in_flat_map in H as (x & _ & H). exact (lane_bytes_small _ _ _ H).
Qed.

Lemma sha3_length s : String.length (sha3_256 s) = 32.
Proof. unfold sha3_256, bytes_text. now rewrite soa_length, map_length, sha3_bytes_length. Qed.

Lemma fold_be (bs : list N) a : (forall b, In b bs -> (b < 256)%N) -> (0 <= a)%Z ->
  (a * 256 ^ Z.of_nat (List.length bs) <= fold_left (fun a b => a * 256 + Z.of_N b) bs a
   < (a + 1) * 256 ^ Z.of_nat (List.length bs))%Z.
Proof.
  revert a. induction bs as [|b bs IH]; intros a H Ha; [cbn; lia|].
  cbn [fold_left List.length]. rewrite Nat2Z.inj_succ, Z.pow_succ_r by lia.
  assert (Hb : (0 <= Z.of_N b < 256)%Z) by (specialize (H b (or_introl eq_refl)); lia).
  specialize (IH (a * 256 + Z.of_N b)%Z (fun x i => H x (or_intror i)) ltac:(lia)).
  assert (P : (0 < 256 ^ Z.of_nat (List.length bs))%Z) by (apply Z.pow_pos_nonneg; lia).
  set (p := (256 ^ Z.of_nat (List.length bs))%Z) in *. clearbody p. split; nia.
Qed.

Lemma sha3_number_range s : (0 <= sha3_number s < 2 ^ 256)%Z.
Proof.
  unfold sha3_number, be_number.
  pose proof (fold_be (sha3_bytes (text_bytes s)) 0 (sha3_bytes_small _) ltac:(lia)) as H.
  rewrite sha3_bytes_length in H. change (256 ^ Z.of_nat 32)%Z with (2 ^ 256)%Z in H. lia.
Qed.

(** The padding fills the last block, and the padded text determines the text. *)
Lemma padding_length n : 0 < List.length (padding n) <= rate /\ (n + List.length (padding n)) mod rate = 0.
Proof.
  unfold padding. assert (R : rate <> 0) by discriminate.
  pose proof (Nat.mod_upper_bound n rate R) as U. pose proof (Nat.div_mod n rate R) as D.
  assert (K : forall k, (rate - n mod rate)%nat = k -> (n + k) mod rate = 0).
  { intros k <-. replace (n + (rate - n mod rate)) with (0 + (n / rate + 1) * rate) by lia.
    rewrite Nat.mod_add by exact R. reflexivity. }
  destruct (rate - n mod rate)%nat as [|[|k]] eqn:E; [lia| |].
  - split; [cbn; unfold rate; lia|]. cbn [List.length]. exact (K 1 eq_refl).
  - assert (Len : List.length (6%N :: repeat 0%N k ++ [128%N]) = S (S k)).
    { cbn [List.length]. rewrite app_length, repeat_length. cbn. lia. }
    rewrite Len. split; [unfold rate in *; lia|]. exact (K _ eq_refl).
Qed.

Lemma rev_repeat {A} (x : A) n : rev (repeat x n) = repeat x n.
Proof.
  induction n as [|n IH]; [reflexivity|]. cbn [repeat rev]. rewrite IH. symmetry. apply repeat_cons.
Qed.

Lemma rev_padding n : rev (padding n) = [134%N] \/ exists k, rev (padding n) = 128%N :: repeat 0%N k ++ [6%N].
Proof.
  unfold padding. destruct (rate - n mod rate)%nat as [|[|k]]; [now left|now left|right].
  exists k. cbn [rev]. rewrite rev_app_distr. cbn [rev app]. now rewrite rev_repeat.
Qed.

Lemma zeros_inj k k' (a b : list N) : repeat 0%N k ++ 6%N :: a = repeat 0%N k' ++ 6%N :: b -> a = b.
Proof.
  revert k'. induction k as [|k IH]; intros [|k'] H; cbn in H; try discriminate.
  - now injection H.
  - injection H as H. exact (IH _ H).
Qed.

Lemma padded_inj (a b : list N) :
  a ++ padding (List.length a) = b ++ padding (List.length b) -> a = b.
Proof.
  intros H. apply (f_equal (@rev N)) in H. rewrite !rev_app_distr in H.
  rewrite <- (rev_involutive a), <- (rev_involutive b). f_equal.
  destruct (rev_padding (List.length a)) as [Ea|(k & Ea)], (rev_padding (List.length b)) as [Eb|(k' & Eb)];
    rewrite Ea, Eb in H; cbn [app] in H; try discriminate.
  - now injection H.
  - injection H as H. rewrite <- !app_assoc in H. exact (zeros_inj _ _ _ _ H).
Qed.

(** ** The cipher *)
Lemma xor_ascii_invol x y : xor_ascii (xor_ascii x y) y = x.
Proof. destruct x, y. cbn. f_equal; rewrite xorb_assoc, xorb_nilpotent, xorb_false_r; reflexivity. Qed.

Lemma xor_ascii_cancel x y k : xor_ascii (xor_ascii x k) (xor_ascii y k) = xor_ascii x y.
Proof.
  destruct x, y, k. cbn.
  f_equal; match goal with |- xorb (xorb ?a ?k) (xorb ?b ?k) = _ => destruct a, b, k; reflexivity end.
Qed.

Lemma ctr_invol rks n i ks data : ctr rks n i ks (ctr rks n i ks data) = data.
Proof.
  revert i ks. induction data as [|x r IH]; intros i ks; [reflexivity|]. cbn [ctr].
  destruct ks as [|k ks]; [destruct (counter_block rks n i) as [|k ks] eqn:E|]; cbn [ctr]; rewrite ?E.
  - now rewrite IH.
  - now rewrite xor_ascii_invol, IH.
  - now rewrite xor_ascii_invol, IH.
Qed.

Lemma ctr_length rks n i ks data : List.length (ctr rks n i ks data) = List.length data.
Proof.
  revert i ks. induction data as [|x r IH]; intros i ks; [reflexivity|]. cbn [ctr].
  destruct ks as [|k ks]; [destruct (counter_block rks n i) as [|k ks]|]; cbn [List.length]; now rewrite IH.
Qed.

Lemma ctr_xor rks n i ks d1 d2 j x y : nth_error d1 j = Some x -> nth_error d2 j = Some y ->
  exists x' y', nth_error (ctr rks n i ks d1) j = Some x' /\ nth_error (ctr rks n i ks d2) j = Some y' /\
    xor_ascii x' y' = xor_ascii x y.
Proof.
  revert i ks d2 j. induction d1 as [|a d1 IH]; intros i ks [|b d2] [|j] H1 H2;
    try discriminate; cbn [nth_error] in H1, H2; cbn [ctr].
  - injection H1 as ->. injection H2 as ->.
    destruct ks as [|k ks]; [destruct (counter_block rks n i) as [|k ks]|]; cbn [nth_error]; eexists _, _;
      (split; [reflexivity|split; [reflexivity|]]); rewrite ?xor_ascii_cancel; reflexivity.
  - destruct ks as [|k ks]; [destruct (counter_block rks n i) as [|k ks]|]; cbn [nth_error]; now apply IH.
Qed.

Lemma be_bytes_length k n : List.length (be_bytes k n) = k.
Proof.
  revert n. induction k as [|k IH]; intros n; [reflexivity|].
  cbn [be_bytes]. rewrite app_length, IH. cbn. lia.
Qed.

Lemma tag_length rks n ct : List.length (gcm_tag rks n ct) = 16.
Proof. unfold gcm_tag. cbv zeta. rewrite map_length. apply be_bytes_length. Qed.

Lemma gcm_enc_length k n m : String.length (gcm_enc k n m) = String.length m + 16.
Proof.
  unfold gcm_enc. cbv zeta. now rewrite soa_length, app_length, tag_length, ctr_length, aos_length.
Qed.

Theorem gcm_exact k n c m : gcm_dec k n c = Some m <-> c = gcm_enc k n m.
Proof.
  unfold gcm_dec, gcm_enc. cbv zeta. set (rks := round_keys (text_bytes k)). clearbody rks.
  split.
  - destruct (Nat.ltb_spec (List.length (list_ascii_of_string c)) 16) as [Hl|Hl]; [discriminate|].
    set (cs := list_ascii_of_string c) in *. set (j := List.length cs - 16).
    destruct (list_eq_dec ascii_dec (skipn j cs) (gcm_tag rks (text_bytes n) (firstn j cs))) as [E|E]; [|discriminate].
    intros H. injection H as <-. rewrite list_ascii_of_string_of_list_ascii, ctr_invol, <- E, firstn_skipn.
    symmetry. apply string_of_list_ascii_of_string.
  - intros ->. rewrite list_ascii_of_string_of_list_ascii.
    set (ct := ctr _ _ _ _ _). rewrite app_length, tag_length.
    replace (List.length ct + 16 <? 16) with false by (symmetry; apply Nat.ltb_ge; lia).
    rewrite Nat.add_sub, firstn_app, Nat.sub_diag, firstn_all, app_nil_r.
    rewrite skipn_app, Nat.sub_diag, skipn_all. cbn [app skipn].
    destruct (list_eq_dec ascii_dec _ _) as [_|E]; [|now destruct E].
    unfold ct. rewrite ctr_invol. now rewrite string_of_list_ascii_of_string.
Qed.

Theorem gcm_ok k n m : gcm_dec k n (gcm_enc k n m) = Some m.
Proof. now apply gcm_exact. Qed.

(** ** [encrypt_symmetric] and [decrypt_symmetric] with this cipher *)
Lemma append_len a b : String.length (a ++ b) = String.length a + String.length b.
Proof. induction a as [|x a IH]; [reflexivity|]. cbn. now rewrite IH. Qed.

Lemma append_cut a b n : String.length a = n ->
  String.substring 0 n (a ++ b) = a /\ String.substring n (String.length b) (a ++ b) = b.
Proof.
  revert n. induction a as [|c a IH]; intros n H; cbn in H; subst n; cbn [String.append String.substring].
  - split; [now destruct b|]. induction b as [|d b IHb]; [reflexivity|]. cbn [String.length]. cbn. now rewrite IHb.
  - destruct (IH _ eq_refl) as [E1 E2]. split; [now rewrite E1|exact E2].
Qed.

Lemma substring_split n s : n <= String.length s ->
  (String.substring 0 n s ++ String.substring n (String.length s - n) s)%string = s /\
  String.length (String.substring 0 n s) = n.
Proof.
  revert n. induction s as [|c s IH]; intros [|n] H; cbn in H; try lia.
  - split; reflexivity.
  - split; [|reflexivity]. cbn [String.substring String.append]. rewrite Nat.sub_0_r.
    clear. cbn [String.length]. cbn. f_equal. induction s as [|d s IHs]; [reflexivity|]. cbn. now rewrite IHs.
  - destruct (IH n ltac:(lia)) as [E1 E2]. cbn [String.length String.substring String.append].
    cbn [Nat.sub]. now rewrite E1, E2.
Qed.

Section Seal.
Context {C : crypto}.
Hypothesis (Enc : aead_enc C = gcm_enc) (Dec : aead_dec C = gcm_dec).

Lemma seal_length (k : GT C) nonce data c : encrypt_symmetric nonce k data = Ok c ->
  String.length c = String.length nonce + String.length data + 16.
Proof.
  unfold encrypt_symmetric. intros H. injection H as <-. rewrite Enc.
  rewrite append_len, gcm_enc_length. lia.
Qed.

Lemma open_exact (k : GT C) c data :
  decrypt_symmetric k c = Ok data <->
  exists nonce, String.length nonce = 12 /\ encrypt_symmetric nonce k data = Ok c.
Proof.
  unfold decrypt_symmetric, encrypt_symmetric. rewrite Enc, Dec. split.
  - destruct (Nat.ltb_spec (String.length c) 12) as [Hl|Hl]; [discriminate|].
    destruct (substring_split 12 c Hl) as [E1 E2].
    destruct (gcm_dec _ _ _) as [d|] eqn:E; [|discriminate]. intros H. injection H as ->.
    apply gcm_exact in E. exists (String.substring 0 12 c). split; [exact E2|].
    now rewrite <- E, E1.
  - intros (nonce & Hn & H). injection H as <-.
    set (b := gcm_enc _ _ _). destruct (append_cut nonce b 12 Hn) as [E1 E2].
    assert (Lb : String.length (nonce ++ b) = 12 + String.length b).
    { rewrite append_len. lia. }
    rewrite Lb. replace (12 + String.length b <? 12) with false by (symmetry; apply Nat.ltb_ge; lia).
    replace (12 + String.length b - 12) with (String.length b) by lia.
    rewrite E1, E2. unfold b. now rewrite gcm_ok.
Qed.

Lemma open_short (k : GT C) c : 12 <= String.length c < 28 -> decrypt_symmetric k c = Err.
Proof.
  intros Hc. destruct (decrypt_symmetric k c) as [d| |] eqn:E; [|reflexivity|].
  - apply open_exact in E as (nonce & Hn & E). apply seal_length in E. lia.
  - unfold decrypt_symmetric in E. replace (String.length c <? 12) with false in E by (symmetry; apply Nat.ltb_ge; lia).
    destruct (aead_dec C _ _ _); discriminate.
Qed.
End Seal.

(** ** Further facts on the cipher *)
Lemma append_inj a b c d : String.length a = String.length c -> (a ++ b)%string = (c ++ d)%string -> a = c /\ b = d.
Proof.
  revert c. induction a as [|x a IH]; intros [|y c] H E; cbn in H, E; try discriminate.
  - now split.
  - injection H as H. injection E as -> E. destruct (IH _ H E) as [-> ->]. now split.
Qed.

Lemma gcm_one_tag k n c t t' m : String.length t = 16 -> String.length t' = 16 ->
  gcm_dec k n (c ++ t) = Some m -> t <> t' -> gcm_dec k n (c ++ t') = None.
Proof.
  intros Ht Ht' D Ne. destruct (gcm_dec k n (c ++ t')) as [m'|] eqn:D'; [|reflexivity]. destruct Ne.
  apply gcm_exact in D, D'. unfold gcm_enc in D, D'. cbv zeta in D, D'. rewrite soa_app in D, D'.
  pose proof (f_equal String.length D) as L1. pose proof (f_equal String.length D') as L2.
  rewrite !append_len, !soa_length, tag_length, Ht in L1. rewrite !append_len, !soa_length, tag_length, Ht' in L2.
  apply append_inj in D as [Dc Dt]; [|rewrite soa_length; lia].
  apply append_inj in D' as [Dc' Dt']; [|rewrite soa_length; lia].
  rewrite Dt, Dt'. do 2 f_equal. rewrite Dc in Dc'.
  apply (f_equal list_ascii_of_string) in Dc'. now rewrite !list_ascii_of_string_of_list_ascii in Dc'.
Qed.

Lemma nth_error_app_l {A} (l r : list A) j x : nth_error l j = Some x -> nth_error (l ++ r) j = Some x.
Proof.
  intros H. rewrite nth_error_app1; [exact H|]. apply nth_error_Some. congruence.
Qed.

Lemma get_nth s j : String.get j s = nth_error (list_ascii_of_string s) j.
Proof.
  revert j. induction s as [|c s IH]; intros [|j]; cbn; try reflexivity. apply IH.
Qed.

Lemma gcm_reuse k n m1 m2 j x y :
  String.get j m1 = Some x -> String.get j m2 = Some y ->
  exists x' y', String.get j (gcm_enc k n m1) = Some x' /\ String.get j (gcm_enc k n m2) = Some y' /\
    xor_ascii x' y' = xor_ascii x y.
Proof.
  rewrite !get_nth. intros H1 H2.
  destruct (ctr_xor (round_keys (text_bytes k)) (text_bytes n) 2 [] _ _ _ _ _ H1 H2) as (x' & y' & E1 & E2 & E).
  exists x', y'. unfold gcm_enc. cbv zeta. rewrite !list_ascii_of_string_of_list_ascii.
  repeat split; [now apply nth_error_app_l|now apply nth_error_app_l|exact E].
Qed.

(** ** The tables *)
Lemma rc_table : round_constants = map rc_spec (seq 0 24).
Proof. vm_compute. reflexivity. Qed.

Lemma rho_table : rho_offsets = map rho_spec (seq 0 25).
Proof. vm_compute. reflexivity. Qed.

Lemma sbox_rows : forallb (fun b =>
  ((inverse_byte b <? 256)%N && N.eqb (sub_byte b) (affine (inverse_byte b)) &&
   (if (b =? 0)%N then (inverse_byte b =? 0)%N else (byte_mul 8 b (inverse_byte b) =? 1)%N))%bool) (map N.of_nat (seq 0 256)) = true.
Proof. vm_compute. reflexivity. Qed.

Lemma bytes_256 b : (b < 256)%N <-> In b (map N.of_nat (seq 0 256)).
Proof.
  rewrite in_map_iff. split.
  - intros H. exists (N.to_nat b). split; [lia|]. apply in_seq. lia.
  - intros (n & <- & H). apply in_seq in H. lia.
Qed.

Lemma sbox_spec b : (b < 256)%N ->
  exists c, (c < 256)%N /\ sub_byte b = affine c /\
    (b = 0%N -> c = 0%N) /\ (b <> 0%N -> byte_mul 8 b c = 1%N).
Proof.
  intros H. apply bytes_256 in H. pose proof (proj1 (forallb_forall _ _) sbox_rows b H) as R.
  cbv beta in R. revert R. generalize (inverse_byte b). intros c R.
  apply andb_true_iff in R as [R E2]. apply andb_true_iff in R as [E0 E1].
  apply N.ltb_lt in E0. apply N.eqb_eq in E1. exists c. split; [exact E0|]. split; [exact E1|].
  split; intros K.
  - rewrite K in E2. apply N.eqb_eq in E2. exact E2.
  - apply N.eqb_neq in K. rewrite K in E2. apply N.eqb_eq in E2. exact E2.
Qed.
