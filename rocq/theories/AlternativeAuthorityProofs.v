(** * AlternativeAuthorityProofs: proofs for the AW11 part of C150 *)
From Coq Require Import String List Bool Arith Lia.
From Verif Require Import Base Crypto Policy Parse Spec SchemeLib Symmetric Sharing SharingProofs Msp MspProofs PolicyProofs LswProofs Draws DrawsProofs
  Aw11 Aw11Proofs TruncationProofs Alternative AlternativeProofs AlternativeAuthority.
Import ListNotations.

Lemma aw_drawn_lt pre g post m n : m < n -> aw_drawn pre g post m < aw_drawn pre g post n.
Proof.
  intros H. unfold aw_drawn. cbv zeta.
  generalize (list_sum (map coins pre)) (list_sum (map coins post)) (coins g) (length (flat_map leaves pre)). intros a b c d.
  destruct (Nat.ltb_spec m 1), (Nat.ltb_spec n 1), (Nat.ltb_spec m (1 + c)), (Nat.ltb_spec n (1 + c)),
    (Nat.ltb_spec m (1 + 2 * c)), (Nat.ltb_spec n (1 + 2 * c)), (Nat.eqb_spec m (1 + 2 * c)), (Nat.eqb_spec n (1 + 2 * c)); lia.
Qed.

Lemma combine_app_eq {A B} (l1 : list A) : forall (m1 : list B) l2 m2, length l1 = length m1 ->
  combine (l1 ++ l2) (m1 ++ m2) = combine l1 m1 ++ combine l2 m2.
Proof. induction l1 as [|a l IH]; intros [|b m] l2 m2 H; try discriminate; [reflexivity|]. cbn in *. now rewrite IH by lia. Qed.

Lemma blank_binary f : binary_and (blank f) = binary_and f.
Proof.
  induction f as [n p|l IH|l IH] using formula_ind'; cbn [blank binary_and]; [reflexivity| |]; rewrite map_length; f_equal;
    induction IH as [|g l H _ IHl]; cbn; [reflexivity|now rewrite H, IHl|reflexivity|now rewrite H, IHl].
Qed.

Lemma binary_leaves f : binary_and f = true -> leaves f <> [].
Proof.
  induction f as [n p|l IH|l IH] using formula_ind'; intros B; cbn in *; [discriminate| |];
    apply andb_true_iff in B as [E B]; destruct l as [|g l]; try discriminate E;
    inversion_clear IH as [|? ? H _]; cbn in B; apply andb_true_iff in B as [B _]; cbn; intros K; apply app_eq_nil in K as [K _]; exact (H B K).
Qed.

Lemma names_flat l : map fst (flat_map leaves l) = flat_map names l.
Proof. induction l as [|g l IH]; [reflexivity|]. cbn [flat_map]. now rewrite map_app, IH. Qed.

Lemma app_split {A} (a : list A) : forall a' b b', a ++ b = a' ++ b' -> length a = length a' -> a = a' /\ b = b'.
Proof.
  induction a as [|x a IH]; intros [|x' a'] b b' H E; try discriminate; [auto|]. cbn in *. injection H as -> H.
  destruct (IH a' b b' H) as [-> ->]; [lia|auto].
Qed.

Section AlternativeAuthorityProofs.
Context {C : crypto} (L : laws C).

(** One round of the loop of encryption, as a function of both shares and the draw. *)
Definition aw_piece (gk : aw_gk C) pks (p : (string * F C) * (string * F C)) (d : F C) : list (string * GT C * G2 C * G2 C) :=
  match find_pk_attr pks (remove_index (upper C (fst (fst p)))) with
  | None => []
  | Some a => [(upper C (fst (fst p)),
           gtmul C (gtpow C (pairing C (agk_g1 gk) (agk_g2 gk)) (snd (fst p))) (gtpow C (snd (fst a)) d),
           g2mul C (agk_g2 gk) d,
           g2add C (g2mul C (snd a) d) (g2mul C (agk_g2 gk) (snd (snd p))))]
  end.

Definition aw_pieces gk pks sh ws ds := map (fun x => aw_piece gk pks (fst x) (snd x)) (combine (combine sh ws) ds).

Lemma aw_loop gk pks t sh : forall W0 ws i, length ws = length sh ->
  rmap (fun ix => aw_entry gk pks (W0 ++ ws) (fst ix) (snd ix)) (combine (seq (length W0) (length sh)) sh) t i =
  Ok (aw_pieces gk pks sh ws (map t (seq i (length sh))), i + length sh).
Proof.
  induction sh as [|x sh IH]; intros W0 [|w ws] i H; try discriminate.
  - cbn. now rewrite Nat.add_0_r.
  - cbn [length seq combine rmap map aw_pieces]. injection H as H.
    assert (E : aw_entry gk pks (W0 ++ w :: ws) (length W0) x t i = Ok (aw_piece gk pks (x, w) (t i), S i)).
    { unfold aw_entry, aw_piece, rbind at 1, draw. cbn [fst snd]. destruct (find_pk_attr _ _); [|reflexivity].
      rewrite nth_error_app2, Nat.sub_diag by lia. reflexivity. }
    unfold rbind at 1. cbn [fst snd]. rewrite E.
    specialize (IH (W0 ++ [w]) ws (S i) H). rewrite <- app_assoc, app_length in IH. cbn [length List.app] in IH.
    rewrite Nat.add_1_r in IH. unfold rbind at 1. rewrite IH. unfold rret, aw_pieces. cbn [combine map fst snd]. f_equal. f_equal. lia.
Qed.

Lemma aw_pieces_held gk pks sh : forall ws ds, length ws = length sh -> length ds = length sh ->
  map (@length _) (aw_pieces gk pks sh ws ds) = map (aw_held pks) (map (fun x => remove_index (fst x)) sh).
Proof.
  induction sh as [|x sh IH]; intros [|w ws] [|d ds] H G; try discriminate; [reflexivity|]. unfold aw_pieces in *. cbn [combine map fst snd].
  rewrite IH by (cbn in *; lia). f_equal. unfold aw_piece, aw_held. cbn [fst snd].
  rewrite (remove_index_upper L), (remove_index_no_us (remove_index (fst x))) by apply remove_index_no_us_out.
  destruct (find_pk_attr _ _); reflexivity.
Qed.

Lemma aw_held_removed pks ns : map (aw_held (C := C) pks) (map remove_index ns) = map (aw_held pks) ns.
Proof.
  rewrite map_map. apply map_ext. intros n. unfold aw_held.
  now rewrite (remove_index_no_us (remove_index n)) by apply remove_index_no_us_out.
Qed.

Lemma aw_pieces_marked gk pks sh : forall sh' ws ws' ds, map bare sh = map bare sh' -> map bare ws = map bare ws' -> length ws = length sh ->
  aw_marked (map fst sh') (aw_pieces gk pks sh ws ds) = aw_pieces gk pks sh' ws' ds.
Proof.
  induction sh as [|x sh IH]; intros [|x' sh'] [|w ws] [|w' ws'] ds H G E; try discriminate; [reflexivity|].
  destruct ds as [|d ds]; [reflexivity|]. unfold aw_pieces, aw_marked in *. cbn [combine map fst snd] in *.
  unfold bare in H at 1 3, G at 1 3. injection H as H1 H2 H3. injection G as G1 G2 G3.
  rewrite (IH sh' ws ws' ds H3 G3) by (cbn in *; lia). f_equal. unfold aw_piece. cbn [fst snd].
  rewrite !(remove_index_upper L), H1, H2, G2. destruct (find_pk_attr _ _); reflexivity.
Qed.

Lemma aw_marked_len ms (l : list (list (string * GT C * G2 C * G2 C))) : length l = length ms -> length (aw_marked ms l) = length ms.
Proof. intros H. unfold aw_marked. rewrite map_length, combine_length. lia. Qed.

Local Open Scope rand_scope.

(** Encryption under a policy that the span program accepts. *)
Lemma aw_encrypt_run nonce (gk : aw_gk C) pks pol lang data f t i : parse pol lang = Ok (tree f) -> binary_and f = true ->
  aw_encrypt nonce gk pks pol lang data t i =
  let msg := gtpow C (pairing C (g1one C) (g2one C)) (t (S (i + 2 * nd f))) in
  match encrypt_symmetric nonce msg data with
  | Ok d => Ok (AwCt (pol, lang) (gtmul C msg (gtpow C (pairing C (agk_g1 gk) (agk_g2 gk)) (t i)))
      (concat (aw_pieces gk pks (gsh f (t i) t (S i)) (gsh f (f0 C) t (S (i + nd f)))
        (map t (seq (S (S (i + 2 * nd f))) (length (leaves f)))))) d, S (S (i + 2 * nd f)) + length (leaves f))
  | Err => Err | Panic => Panic end.
Proof.
  intros P B. cbv zeta. unfold aw_encrypt. unfold rbind at 1, rlift at 1. rewrite P.
  unfold rbind at 1, rlift at 1. rewrite (calculate_msp_eq f B). cbn [unwrap_res].
  unfold rbind at 1, rlift at 1. cbn [msp_m].
  assert (E : exists r, nth_error (map snd (sort_rows (rev (msp_rows f)))) 0 = Some r).
  { destruct (map snd (sort_rows (rev (msp_rows f)))) as [|r m] eqn:E; [|exists r; reflexivity]. exfalso.
    apply (binary_leaves f B). apply length_zero_iff_nil. apply (f_equal (@length _)) in E. rewrite map_length in E.
    rewrite <- (Permutation.Permutation_length (msp_rows_perm f _ eq_refl)) in E. cbn in E.
    rewrite <- (map_length fst), msp_rows_names in E by exact B. unfold names in E. now rewrite map_length in E. }
  destruct E as [r E]. rewrite E. cbn [unwrap].
  unfold rbind at 1, draw at 1. unfold rbind at 1. rewrite (gen_shares_policy_eq L). unfold rbind at 1. rewrite (gen_shares_policy_eq L).
  unfold rbind at 1, draw_gt at 1. unfold rbind at 1, draw at 1. unfold rret at 1. unfold rbind at 1.
  pose proof (aw_loop gk pks t (gsh f (t i) t (S i)) [] (gsh f (f0 C) t (S (i + nd f))) (S (S i + nd f + nd f))
    ltac:(now rewrite !gsh_len)) as K. cbn [length List.app] in K.
  change (S i + nd f) with (S (i + nd f)) in *. rewrite K. rewrite gsh_len.
  replace (S (i + nd f) + nd f) with (S (i + 2 * nd f)) by lia. unfold rbind, rlift.
  destruct (encrypt_symmetric _ _ _); reflexivity.
Qed.

Lemma seq_app3 {A} (t : nat -> A) i a b d : map t (seq i (a + (b + d))) = map t (seq i a) ++ map t (seq (i + a) b) ++ map t (seq (i + a + b) d).
Proof. now rewrite !seq_app, !map_app. Qed.

Lemma aw_pieces_app gk pks a b wa wb da db : length a = length wa -> length a = length da ->
  aw_pieces gk pks (a ++ b) (wa ++ wb) (da ++ db) = aw_pieces gk pks a wa da ++ aw_pieces gk pks b wb db.
Proof.
  intros H G. unfold aw_pieces. rewrite (combine_app_eq a wa) by exact H.
  rewrite combine_app_eq by (rewrite combine_length; lia). apply map_app.
Qed.

Lemma aw_alternative nonce (gk : aw_gk C) pks pol lang pol' lang' data pre g post g' t i ct j :
  parse pol lang = Ok (tree (FOr (pre ++ g :: post))) -> parse pol' lang' = Ok (tree g') -> blank g' = blank g ->
  aw_encrypt nonce gk pks pol lang data t i = Ok (ct, j) ->
  exists A B D, awct_c ct = concat A ++ concat B ++ concat D /\
    map (@length _) A = map (aw_held pks) (flat_map names pre) /\
    map (@length _) B = map (aw_held pks) (names g) /\
    map (@length _) D = map (aw_held pks) (flat_map names post) /\
    aw_encrypt nonce gk pks pol' lang' data (fun n => t (i + aw_drawn pre g post n)) 0 =
      Ok (AwCt (pol', lang') (awct_c0 ct) (concat (aw_marked (marks g') B)) (awct_data ct), 2 + 2 * coins g + length (leaves g)).
Proof.
  intros P P' Bl H.
  destruct (binary_and (FOr (pre ++ g :: post))) eqn:Bin.
  2:{ exfalso. unfold aw_encrypt in H. unfold rbind at 1, rlift at 1 in H. rewrite P in H. unfold rbind at 1, rlift at 1 in H.
      rewrite (calculate_msp_bad _ Bin) in H. discriminate H. }
  assert (Bg : binary_and g' = true).
  { rewrite <- blank_binary, Bl, blank_binary. cbn in Bin. apply andb_true_iff in Bin as [_ Bin]. rewrite forallb_forall in Bin.
    apply Bin, in_or_app. right. now left. }
  rewrite (aw_encrypt_run _ _ _ _ _ _ _ _ _ P Bin) in H. cbv zeta in H.
  set (t' := fun n => t (i + aw_drawn pre g post n)).
  rewrite (aw_encrypt_run _ _ _ _ _ _ _ _ _ P' Bg). cbv zeta.
  set (f := FOr (pre ++ g :: post)) in *. set (a := list_sum (map coins pre)) in *. set (b := list_sum (map coins post)) in *.
  assert (Nf : nd f = a + (coins g + b)) by apply nd_or.
  assert (Ng : nd g' = coins g) by (rewrite (blank_same _ _ Bl); reflexivity).
  assert (T0 : t' 0 = t i) by (unfold t', aw_drawn; cbn; now rewrite Nat.add_0_r).
  assert (T1 : t' (S (0 + 2 * nd g')) = t (S (i + 2 * nd f))).
  { unfold t', aw_drawn. cbv zeta. fold a b. rewrite Ng, Nf.
    destruct (Nat.ltb_spec (S (0 + 2 * coins g)) 1); [lia|]. destruct (Nat.ltb_spec (S (0 + 2 * coins g)) (1 + coins g)); [lia|].
    destruct (Nat.ltb_spec (S (0 + 2 * coins g)) (1 + 2 * coins g)); [lia|].
    destruct (Nat.eqb_spec (S (0 + 2 * coins g)) (1 + 2 * coins g)); [f_equal; lia|lia]. }
  rewrite T0, T1. destruct (encrypt_symmetric _ _ _) as [d| |]; try discriminate H. apply ok_pair in H as [<- _]. cbn [awct_c awct_c0 awct_data].
  destruct (gsh_alternative pre g post g' (t i) t (S i) t' 1 Bl) as (A1 & B1 & D1 & E1 & LA1 & LD1 & EB1).
  { intros k Hk. unfold t', aw_drawn. cbv zeta. fold a b.
    destruct (Nat.ltb_spec (1 + k) 1); [lia|]. destruct (Nat.ltb_spec (1 + k) (1 + coins g)); [f_equal; lia|lia]. }
  destruct (gsh_alternative pre g post g' (f0 C) t (S (i + nd f)) t' (S (0 + nd g')) Bl) as (A2 & B2 & D2 & E2 & LA2 & LD2 & EB2).
  { intros k Hk. unfold t', aw_drawn. cbv zeta. fold a b. rewrite Ng, Nf.
    destruct (Nat.ltb_spec (S (0 + coins g) + k) 1); [lia|]. destruct (Nat.ltb_spec (S (0 + coins g) + k) (1 + coins g)); [lia|].
    destruct (Nat.ltb_spec (S (0 + coins g) + k) (1 + 2 * coins g)); [f_equal; lia|lia]. }
  fold f in E1, E2.
  assert (Lg : length (leaves g') = length (leaves g)).
  { rewrite <- (map_length fst (leaves g')), <- (blank_names g'), Bl, blank_names. apply map_length. }
  assert (LB1 : length B1 = length (leaves g)) by (rewrite <- (map_length bare B1), EB1, map_length, gsh_len; exact Lg).
  assert (LB2 : length B2 = length (leaves g)) by (rewrite <- (map_length bare B2), EB2, map_length, gsh_len; exact Lg).
  assert (Lf : length (leaves f) = length A1 + (length B1 + length D1)) by (rewrite <- (gsh_len f (t i) t (S i)), E1, !app_length; reflexivity).
  pose proof (gsh_removed f (t i) t (S i)) as R. rewrite E1, !map_app in R.
  assert (Lv : leaves f = flat_map leaves pre ++ leaves g ++ flat_map leaves post).
  { unfold f. change (leaves (FOr (pre ++ g :: post))) with (flat_map leaves (pre ++ g :: post)). rewrite flat_map_app. reflexivity. }
  rewrite Lv, !map_app in R. apply app_split in R as [RA R]; [|rewrite !map_length; exact LA1].
  apply app_split in R as [RB RD]; [|rewrite !map_length; exact LB1].
  rewrite E1, E2, Lf, seq_app3.
  rewrite aw_pieces_app by (rewrite ?map_length, ?seq_length; lia). rewrite aw_pieces_app by (rewrite ?map_length, ?seq_length; lia).
  rewrite !concat_app. eexists _, _, _. split; [reflexivity|].
  split; [rewrite aw_pieces_held, RA by (rewrite ?map_length, ?seq_length; lia); rewrite <- names_flat; apply aw_held_removed|].
  split; [rewrite aw_pieces_held, RB by (rewrite ?map_length, ?seq_length; lia); apply aw_held_removed|].
  split; [rewrite aw_pieces_held, RD by (rewrite ?map_length, ?seq_length; lia); rewrite <- names_flat; apply aw_held_removed|].
  rewrite <- (gsh_marks g' (t i) t' 1), (aw_pieces_marked _ _ _ _ _ _ _ EB1 EB2) by lia.
  f_equal. f_equal; [|rewrite Ng, Lg; reflexivity]. f_equal. f_equal. f_equal. rewrite Lg, LB1. apply map_at.
  intros k Hk. unfold t', aw_drawn. cbv zeta. fold a b. rewrite Ng, Nf.
  destruct (Nat.ltb_spec (S (S (0 + 2 * coins g)) + k) 1); [lia|]. destruct (Nat.ltb_spec (S (S (0 + 2 * coins g)) + k) (1 + coins g)); [lia|].
  destruct (Nat.ltb_spec (S (S (0 + 2 * coins g)) + k) (1 + 2 * coins g)); [lia|].
  destruct (Nat.eqb_spec (S (S (0 + 2 * coins g)) + k) (1 + 2 * coins g)); [lia|]. f_equal. lia.
Qed.
End AlternativeAuthorityProofs.
