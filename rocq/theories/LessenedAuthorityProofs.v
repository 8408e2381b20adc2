(** * LessenedAuthorityProofs: proofs for the AW11 part of C155 *)
From Coq Require Import String List Bool Arith Lia.
From Verif Require Import Base Crypto Policy Parse Spec SchemeLib Symmetric Sharing SharingProofs Msp MspProofs PolicyProofs Draws DrawsProofs
  Aw11 Aw11Proofs Alternative AlternativeProofs AlternativeAuthority AlternativeAuthorityProofs Lessened LessenedProofs.
Import ListNotations.

Section LessenedAuthorityProofs.
Context {C : crypto} (L : laws C).

Lemma aw_pieces_those (gk : aw_gk C) pks km sh ws ds : length ws = length sh -> length ds = length sh ->
  those km (aw_pieces gk pks sh ws ds) = aw_pieces gk pks (those km sh) (those km ws) (those km ds).
Proof.
  intros H G. unfold aw_pieces. rewrite those_map, those_combine by (rewrite combine_length; lia). now rewrite those_combine by lia.
Qed.

(** The number of draws before a part of the mask. *)
Lemma kept_count (a b : list bool) (t : nat -> F C) i n m :
  length (those a (map t (seq i (length a)))) = n -> length (those b (map t (seq (i + length a) (length b)))) = m ->
  length (those (a ++ b) (map t (seq i (length (a ++ b))))) = n + m.
Proof.
  intros H G. rewrite app_length, seq_app, map_app, those_app by now rewrite map_length, seq_length. rewrite app_length. lia.
Qed.

Lemma aw_lessened nonce (gk : aw_gk C) pks pol lang pol' lang' data f f' km cm t i ct j :
  parse pol lang = Ok (tree f) -> parse pol' lang' = Ok (tree f') -> lessened f f' km cm -> binary_and f' = true ->
  aw_encrypt nonce gk pks pol lang data t i = Ok (ct, j) ->
  exists G, awct_c ct = concat G /\ map (@length _) G = map (aw_held pks) (names f) /\
    aw_encrypt nonce gk pks pol' lang' data (kept ([true] ++ cm ++ cm ++ [true] ++ km) t i) 0 =
      Ok (AwCt (pol', lang') (awct_c0 ct) (concat (aw_marked (marks f') (those km G))) (awct_data ct), 2 + 2 * coins f' + length (leaves f')).
Proof.
  intros P P' Le Bg H.
  destruct (binary_and f) eqn:Bin.
  2:{ exfalso. unfold aw_encrypt in H. unfold rbind at 1, rlift at 1 in H. rewrite P in H. unfold rbind at 1, rlift at 1 in H.
      rewrite (calculate_msp_bad _ Bin) in H. discriminate H. }
  rewrite (aw_encrypt_run L _ _ _ _ _ _ _ _ _ P Bin) in H. cbv zeta in H.
  rewrite (aw_encrypt_run L _ _ _ _ _ _ _ _ _ P' Bg). cbv zeta.
  destruct (proj1 lessened_lengths _ _ _ _ Le) as [Lk Lc].
  assert (N1 : length (those [true] (map t (seq i (length [true])))) = 1) by reflexivity.
  assert (Nc : forall k, length (those cm (map t (seq k (length cm)))) = nd f') by (intros k; rewrite Lc; apply (those_draws Le)).
  assert (N2 : length (those ([true] ++ cm) (map t (seq i (length ([true] ++ cm))))) = 1 + nd f') by (apply kept_count; [exact N1|apply Nc]).
  assert (N3 : length (those (([true] ++ cm) ++ cm) (map t (seq i (length (([true] ++ cm) ++ cm))))) = 1 + nd f' + nd f')
    by (apply kept_count; [exact N2|apply Nc]).
  assert (N4 : length (those ((([true] ++ cm) ++ cm) ++ [true]) (map t (seq i (length ((([true] ++ cm) ++ cm) ++ [true]))))) = 1 + nd f' + nd f' + 1)
    by (apply kept_count; [exact N3|reflexivity]).
  set (t' := kept ([true] ++ cm ++ cm ++ [true] ++ km) t i).
  assert (K1 : map t' (seq 1 (nd f')) = those cm (map t (seq (S i) (nd f)))).
  { unfold t'. rewrite (kept_between [true] cm (cm ++ [true] ++ km) t i 1 (nd f') N1 (Nc _)). rewrite Lc. do 3 f_equal. cbn. lia. }
  assert (K2 : map t' (seq (S (0 + nd f')) (nd f')) = those cm (map t (seq (S (i + nd f)) (nd f)))).
  { unfold t'. replace ([true] ++ cm ++ cm ++ [true] ++ km) with (([true] ++ cm) ++ cm ++ [true] ++ km) by now rewrite <- !app_assoc.
    replace (S (0 + nd f')) with (1 + nd f') by lia.
    rewrite (kept_between ([true] ++ cm) cm ([true] ++ km) t i _ (nd f') N2 (Nc _)). rewrite Lc. do 3 f_equal. rewrite app_length, Lc. cbn. lia. }
  assert (K3 : map t' (seq (S (0 + 2 * nd f')) 1) = [t (S (i + 2 * nd f))]).
  { unfold t'. replace ([true] ++ cm ++ cm ++ [true] ++ km) with ((([true] ++ cm) ++ cm) ++ [true] ++ km) by now rewrite <- !app_assoc.
    replace (S (0 + 2 * nd f')) with (1 + nd f' + nd f') by lia.
    rewrite (kept_between (([true] ++ cm) ++ cm) [true] km t i _ 1 N3 eq_refl). cbn [length seq map those]. do 2 f_equal.
    rewrite !app_length, Lc. cbn [length]. lia. }
  assert (Lf' : forall k, length (those km (map t (seq k (length km)))) = length (leaves f')).
  { intros k. transitivity (length (those km (map fst (leaves f)))).
    - apply those_len. now rewrite !map_length, seq_length.
    - rewrite <- (lessened_names_one _ _ _ _ Le). apply map_length. }
  assert (K4 : map t' (seq (S (S (0 + 2 * nd f'))) (length (leaves f'))) = those km (map t (seq (S (S (i + 2 * nd f))) (length (leaves f))))).
  { unfold t'. replace ([true] ++ cm ++ cm ++ [true] ++ km) with (((([true] ++ cm) ++ cm) ++ [true]) ++ km ++ []) by now rewrite <- !app_assoc, app_nil_r.
    replace (S (S (0 + 2 * nd f'))) with (1 + nd f' + nd f' + 1) by lia.
    rewrite (kept_between ((([true] ++ cm) ++ cm) ++ [true]) km [] t i _ _ N4 (Lf' _)). rewrite Lk. do 3 f_equal.
    rewrite !app_length, Lc. cbn [length]. lia. }
  assert (T0 : t' 0 = t i) by reflexivity.
  assert (T1 : t' (S (0 + 2 * nd f')) = t (S (i + 2 * nd f))) by (cbn [seq map] in K3; congruence).
  rewrite T0, T1. destruct (encrypt_symmetric _ _ _) as [d| |]; try discriminate H. apply ok_pair in H as [<- _]. cbn [awct_c awct_c0 awct_data].
  pose proof (proj1 lessened_gsh _ _ _ _ Le (t i) t (S i) t' 1 K1) as E1.
  pose proof (proj1 lessened_gsh _ _ _ _ Le (f0 C) t (S (i + nd f)) t' (S (0 + nd f')) K2) as E2.
  eexists. split; [reflexivity|]. split.
  - rewrite (aw_pieces_held L), gsh_removed by (rewrite ?map_length, ?seq_length, !gsh_len; reflexivity). apply aw_held_removed.
  - rewrite aw_pieces_those by (rewrite ?map_length, ?seq_length, !gsh_len; reflexivity).
    rewrite <- (gsh_marks f' (t i) t' 1), (aw_pieces_marked L _ _ _ _ _ _ _ E1 E2) by (apply those_len; now rewrite !gsh_len).
    rewrite K4. reflexivity.
Qed.
End LessenedAuthorityProofs.
