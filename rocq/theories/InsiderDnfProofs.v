(** * InsiderDnfProofs: the holder of a fitting key of BDABE and MKE08 opens with a combination *)
From Coq Require Import String Ascii List Bool Arith Lia Field.
From Verif Require Import Base Crypto Policy Tools Sharing Spec PolicyProofs Poly SharingProofs
  Symmetric Parse SchemeLib Dnf DnfProofs Bdabe BdabeProofs Mke08 Mke08Proofs
  ExactProofs Generic Views Insiders GenericProofs InsiderProofs.
Import ListNotations.

Section InsiderDnfProofs.
Context {C : crypto} (L : laws C).
Local Open Scope F_scope.
Add Field insider_dnf_field : (f_theory L).
Notation F := (F C).
Ltac logs := log_simpl L.

(** The first list with names that are all owned. *)
Fixpoint first_in (own : list string) (ts : list (list string)) : nat :=
  match ts with
  | [] => 0
  | t :: r => if forallb (fun a => smem a own) t then 0 else S (first_in own r)
  end.

(** The sum of the elements of the names in [cj], if those of [own] start at [off]. *)
Fixpoint calc1 (off : nat) (own : list string) (i : nat) (cj : list string) (acc : comb1 C) : comb1 C :=
  match cj with
  | [] => acc
  | a :: r => calc1 off own (S i) r (if i =? 0 then Seen1 (off + place a own) else Add1 acc (Seen1 (off + place a own)))
  end.
Fixpoint calc2 (off : nat) (own : list string) (i : nat) (cj : list string) (acc : comb2 C) : comb2 C :=
  match cj with
  | [] => acc
  | a :: r => calc2 off own (S i) r (if i =? 0 then Seen2 (off + place a own) else Add2 acc (Seen2 (off + place a own)))
  end.

Lemma nth_deep {A} (l r : list A) n k d : length l = n -> nth (n + k) (l ++ r) d = nth k r d.
Proof. intros <-. apply app_nth2_plus. Qed.

(** ** BDABE *)

Definition bd_comb (n : nat) (ts : list (list string)) (own : list string) : combT C :=
  let k := first_in own ts in let R := (length ts * 2)%nat in let cj := nth k ts [] in
  MulT (MulT (MulT (SeenT (1 + (n + k)))
      (Pair (Seen1 (2 + (n + (k * 2 + 0)))) (calc2 (2 + (n + (R + 2))) own 0 cj One2)))
      (Pair (calc1 (2 + (n + (R + 2))) own 0 cj One1) (Seen2 (2 + (n + (k * 2 + 0))))))
    (InvT (MulT (Pair (Seen1 (2 + (n + (k * 2 + 1)))) (Seen2 (2 + (n + (R + 0)))))
      (Pair (Seen1 (2 + (n + (R + 0)))) (Seen2 (2 + (n + (k * 2 + 1))))))).

Lemma bd_first_at (uk : bd_uk C) J : (exists t, In t J /\ bd_satisfiable (bt_attr t) (buk_ska uk) = true) ->
  exists t, nth_error J (first_in (map bask_attr (buk_ska uk)) (map bt_attr J)) = Some t /\
    bd_satisfiable (bt_attr t) (buk_ska uk) = true /\ bd_first uk J = bd_open uk t.
Proof.
  induction J as [|t J IH]; intros (t0 & I & St); [contradiction|]. cbn [map first_in bd_first].
  assert (E : forallb (fun a => smem a (map bask_attr (buk_ska uk))) (bt_attr t) = bd_satisfiable (bt_attr t) (buk_ska uk)).
  { apply eq_true_iff_eq. rewrite bd_satisfiable_attrs, forallb_forall. split; intros H a Ia; specialize (H a Ia); now apply smem_In. }
  rewrite E. destruct (bd_satisfiable (bt_attr t) (buk_ska uk)) eqn:S.
  - exists t. auto.
  - destruct I as [->|I]; [congruence|]. destruct IH as (t1 & H); [eauto|]. exists t1. exact H.
Qed.

Lemma bd_calc_comb v off (sk : list (bd_ask C)) :
  (forall q x, nth_error sk q = Some x -> nth (off + q) (seen1 v) (g1zero C) = bask_au1 x /\ nth (off + q) (seen2 v) (g2zero C) = bask_au2 x) ->
  forall cj i a1 a2, bd_satisfiable cj sk = true ->
  bd_calc_from i cj sk (eval1 v a1, eval2 v a2) =
  (eval1 v (calc1 off (map bask_attr sk) i cj a1), eval2 v (calc2 off (map bask_attr sk) i cj a2)).
Proof.
  intros H. induction cj as [|a cj IH]; intros i a1 a2 St; [reflexivity|].
  pose proof (proj1 (bd_satisfiable_attrs _ _) St a (or_introl eq_refl)) as Ia.
  cbn [bd_satisfiable forallb] in St. apply andb_prop in St as [_ St].
  destruct (find_place (@bask_attr C) a sk _ eq_refl Ia) as (_ & y & Hy & Fy).
  cbn [bd_calc_from calc1 calc2]. rewrite Fy. destruct (H _ _ Hy) as (H1 & H2).
  rewrite <- IH by exact St. f_equal. destruct (i =? 0); cbn [eval1 eval2 fst snd]; now rewrite H1, H2.
Qed.

Theorem bd_comb_eval (pk : bd_pk C) apks ct uk :
  (exists t, In t (bct_j ct) /\ bd_satisfiable (bt_attr t) (buk_ska uk) = true) ->
  evalT (both (bd_view pk apks ct) (bd_held uk))
    (bd_comb (length apks) (map bt_attr (bct_j ct)) (map bask_attr (buk_ska uk))) = bd_first uk (bct_j ct).
Proof.
  intros H. destruct (bd_first_at uk _ H) as (t & Ht & St & ->).
  set (v := both (bd_view pk apks ct) (bd_held uk)). set (own := map bask_attr (buk_ska uk)) in *.
  unfold bd_comb. rewrite map_length. set (k := first_in own (map bt_attr (bct_j ct))) in *. set (n := length apks).
  rewrite (nth_error_nth (map bt_attr (bct_j ct)) k [] (map_nth_error _ _ _ Ht)).
  assert (V1 : seen1 v = [Bdabe.bpk_g1 pk; Bdabe.bpk_p1 pk] ++ map (@bapk_a1 C) apks ++ flat_map (fun t => [bt_e2 t; bt_e4 t]) (bct_j ct) ++
    [busk_u1 (buk_sk uk); bupk_u1 (buk_pk uk)] ++ map (@bask_au1 C) (buk_ska uk)) by (cbn; now rewrite app_assoc).
  assert (V2 : seen2 v = [Bdabe.bpk_g2 pk; Bdabe.bpk_p2 pk] ++ map (@bapk_a2 C) apks ++ flat_map (fun t => [bt_e3 t; bt_e5 t]) (bct_j ct) ++
    [busk_u2 (buk_sk uk); bupk_u2 (buk_pk uk)] ++ map (@bask_au2 C) (buk_ska uk)) by (cbn; now rewrite app_assoc).
  assert (VT : seenT v = [Bdabe.bpk_egg pk] ++ map (@bapk_a3 C) apks ++ map (@bt_e1 C) (bct_j ct)) by (cbn; now rewrite app_nil_r).
  pose proof (nth_chunk (fun t : bd_tuple C => [bt_e2 t; bt_e4 t]) 2 _ (fun _ _ => eq_refl) k _ 0 _ Ht eq_refl) as A0.
  pose proof (nth_chunk (fun t : bd_tuple C => [bt_e2 t; bt_e4 t]) 2 _ (fun _ _ => eq_refl) k _ 1 _ Ht eq_refl) as A1.
  pose proof (nth_chunk (fun t : bd_tuple C => [bt_e3 t; bt_e5 t]) 2 _ (fun _ _ => eq_refl) k _ 0 _ Ht eq_refl) as B0.
  pose proof (nth_chunk (fun t : bd_tuple C => [bt_e3 t; bt_e5 t]) 2 _ (fun _ _ => eq_refl) k _ 1 _ Ht eq_refl) as B1.
  pose proof (chunk_length (fun t : bd_tuple C => [bt_e2 t; bt_e4 t]) 2 (bct_j ct) (fun _ _ => eq_refl)) as L1.
  pose proof (chunk_length (fun t : bd_tuple C => [bt_e3 t; bt_e5 t]) 2 (bct_j ct) (fun _ _ => eq_refl)) as L2.
  assert (N1 : length (map (@bapk_a1 C) apks) = n) by apply map_length.
  assert (N2 : length (map (@bapk_a2 C) apks) = n) by apply map_length.
  assert (N3 : length (map (@bapk_a3 C) apks) = n) by apply map_length.
  assert (Cc : bd_calc (bt_attr t) (buk_ska uk) =
    (eval1 v (calc1 (2 + (n + (length (bct_j ct) * 2 + 2))) own 0 (bt_attr t) One1),
     eval2 v (calc2 (2 + (n + (length (bct_j ct) * 2 + 2))) own 0 (bt_attr t) One2))).
  { unfold bd_calc. change (g1one C, g2one C) with (eval1 v One1, eval2 v One2). apply bd_calc_comb; [|exact St].
    intros q x Hx. rewrite V1, V2. rewrite <- !Nat.add_assoc.
    rewrite !(nth_deep [_; _] _ 2) by reflexivity.
    rewrite (nth_deep _ _ _ _ _ N1), (nth_deep _ _ _ _ _ N2), (nth_deep _ _ _ _ _ L1), (nth_deep _ _ _ _ _ L2).
    rewrite !(nth_deep [_; _] _ 2) by reflexivity.
    split; apply nth_error_nth; now apply map_nth_error. }
  unfold bd_open. cbv zeta. rewrite Cc. cbn [fst snd evalT eval1 eval2]. rewrite V1, V2, VT.
  rewrite !(nth_deep [_; _] _ 2) by reflexivity. rewrite !(nth_deep [_] _ 1) by reflexivity.
  rewrite !(nth_deep _ _ _ _ _ N1), !(nth_deep _ _ _ _ _ N2), !(nth_deep _ _ _ _ _ N3).
  rewrite (nth_deep _ _ _ _ _ L1), (nth_deep _ _ _ _ _ L2).
  rewrite (nth_front _ _ _ _ _ A0), (nth_front _ _ _ _ _ A1), (nth_front _ _ _ _ _ B0), (nth_front _ _ _ _ _ B1).
  rewrite (nth_error_nth _ k _ (map_nth_error (@bt_e1 C) _ _ Ht)). reflexivity.
Qed.

Theorem bd_insider : exists e : nat -> list (list string) -> list string -> combT C,
  forall nonce pol lang data f (pk : bd_pk C) msk As ts i apks te ct j uk,
  bd_setup ts 0%nat = Ok (pk, msk, i) -> Forall (bd_authority pk msk) As -> bd_unique As ->
  Forall (bd_pk_issued pk As) apks -> bd_user pk As uk ->
  bd_encrypt nonce pk apks pol lang data te 0%nat = Ok (ct, j) -> parse pol lang = Ok (tree f) ->
  (forall c, In c (conjs f) -> exists n, In n c /\ In n (map bapk_attr apks)) ->
  sat (owns (map bask_attr (buk_ska uk))) f = true ->
  evalT (both (bd_view pk apks ct) (bd_held uk))
    (e (length apks) (map bt_attr (bct_j ct)) (map bask_attr (buk_ska uk))) = payload (te 0%nat * te 1%nat).
Proof.
  exists bd_comb. intros nonce pol lang data f pk msk As ts i apks te ct j uk Hs HA Hu Hp U He P Kn S.
  destruct (bd_covered _ _ _ _ _ _ _ _ _ _ _ He P _ Kn S) as (_ & Cov).
  destruct (bd_first_opens L _ _ _ _ _ _ Hs HA Hu _ _ _ _ _ _ _ _ _ _ Hp He P uk U Cov) as (msg & _ & Hm & Ht & Em).
  rewrite (bd_comb_eval pk apks ct uk Ht), Hm, Em. apply (logT_inj L). unfold payload. logs. ring.
Qed.

(** ** MKE08 *)

Definition mk_comb (n : nat) (ts : list (list string)) (own : list string) : combT C :=
  let k := first_in own ts in let R := (length ts * 2)%nat in let cj := nth k ts [] in
  MulT (MulT (MulT (MulT (SeenT (1 + (n + (1 + (n + k))))) (SeenT (1 + (n + (1 + (n + (length ts + k)))))))
      (Pair (Seen1 (2 + (n + (k * 2 + 0)))) (calc2 (2 + (n + (R + 2))) own 0 cj One2)))
      (Pair (calc1 (2 + (n + (R + 2))) own 0 cj One1) (Seen2 (2 + (n + (k * 2 + 0))))))
    (InvT (MulT (Pair (Seen1 (2 + (n + (k * 2 + 1)))) (Seen2 (2 + (n + (R + 0)))))
      (Pair (Seen1 (2 + (n + (R + 0)))) (Seen2 (2 + (n + (k * 2 + 1))))))).

Lemma mk_first_at (uk : mk_uk C) J : (exists t, In t J /\ mk_satisfiable (mj_str t) (muk_ska uk) = true) ->
  exists t, nth_error J (first_in (map mask_attr (muk_ska uk)) (map mj_str J)) = Some t /\
    mk_satisfiable (mj_str t) (muk_ska uk) = true /\ mk_first uk J = mk_open uk t.
Proof.
  induction J as [|t J IH]; intros (t0 & I & St); [contradiction|]. cbn [map first_in mk_first].
  assert (E : forallb (fun a => smem a (map mask_attr (muk_ska uk))) (mj_str t) = mk_satisfiable (mj_str t) (muk_ska uk)).
  { apply eq_true_iff_eq. rewrite mk_satisfiable_attrs, forallb_forall. split; intros H a Ia; specialize (H a Ia); now apply smem_In. }
  rewrite E. destruct (mk_satisfiable (mj_str t) (muk_ska uk)) eqn:S.
  - exists t. auto.
  - destruct I as [->|I]; [congruence|]. destruct IH as (t1 & H); [eauto|]. exists t1. exact H.
Qed.

Lemma mk_calc_comb v off (sk : list (mk_ask C)) :
  (forall q x, nth_error sk q = Some x -> nth (off + q) (seen1 v) (g1zero C) = mask_g1 x /\ nth (off + q) (seen2 v) (g2zero C) = mask_g2 x) ->
  forall cj i a1 a2, mk_satisfiable cj sk = true ->
  mk_calc_from i cj sk (eval1 v a1, eval2 v a2) =
  (eval1 v (calc1 off (map mask_attr sk) i cj a1), eval2 v (calc2 off (map mask_attr sk) i cj a2)).
Proof.
  intros H. induction cj as [|a cj IH]; intros i a1 a2 St; [reflexivity|].
  pose proof (proj1 (mk_satisfiable_attrs _ _) St a (or_introl eq_refl)) as Ia.
  cbn [mk_satisfiable forallb] in St. apply andb_prop in St as [_ St].
  destruct (find_place (@mask_attr C) a sk _ eq_refl Ia) as (_ & y & Hy & Fy).
  cbn [mk_calc_from calc1 calc2]. rewrite Fy. destruct (H _ _ Hy) as (H1 & H2).
  rewrite <- IH by exact St. f_equal. destruct (i =? 0); cbn [eval1 eval2 fst snd]; now rewrite H1, H2.
Qed.

Theorem mk_comb_eval (pk : mk_pk C) apks ct uk :
  (exists t, In t (mct_e ct) /\ mk_satisfiable (mj_str t) (muk_ska uk) = true) ->
  evalT (both (mk_view pk apks ct) (mk_held uk))
    (mk_comb (length apks) (map mj_str (mct_e ct)) (map mask_attr (muk_ska uk))) = mk_first uk (mct_e ct).
Proof.
  intros H. destruct (mk_first_at uk _ H) as (t & Ht & St & ->).
  set (v := both (mk_view pk apks ct) (mk_held uk)). set (own := map mask_attr (muk_ska uk)) in *.
  unfold mk_comb. rewrite map_length. set (k := first_in own (map mj_str (mct_e ct))) in *. set (n := length apks).
  rewrite (nth_error_nth (map mj_str (mct_e ct)) k [] (map_nth_error _ _ _ Ht)).
  assert (V1 : seen1 v = [mpk_g1 pk; mpk_p1 pk] ++ map (@mapk_g1 C) apks ++ flat_map (fun t => [mj_3 t; mj_5 t]) (mct_e ct) ++
    [musk_g1 (muk_sk uk); mupk_g1 (muk_pk uk)] ++ map (@mask_g1 C) (muk_ska uk)) by (cbn; now rewrite app_assoc).
  assert (V2 : seen2 v = [mpk_g2 pk; mpk_p2 pk] ++ map (@mapk_g2 C) apks ++ flat_map (fun t => [mj_4 t; mj_6 t]) (mct_e ct) ++
    [musk_g2 (muk_sk uk); mupk_g2 (muk_pk uk)] ++ map (@mask_g2 C) (muk_ska uk)) by (cbn; now rewrite app_assoc).
  assert (VT : seenT v = [mpk_egg2 pk] ++ map (@mapk_gt2 C) apks ++ [mpk_egg1 pk] ++ map (@mapk_gt1 C) apks ++
    map (@mj_1 C) (mct_e ct) ++ map (@mj_2 C) (mct_e ct)) by (cbn; now rewrite app_nil_r).
  pose proof (nth_chunk (fun t : mk_conj C => [mj_3 t; mj_5 t]) 2 _ (fun _ _ => eq_refl) k _ 0 _ Ht eq_refl) as A0.
  pose proof (nth_chunk (fun t : mk_conj C => [mj_3 t; mj_5 t]) 2 _ (fun _ _ => eq_refl) k _ 1 _ Ht eq_refl) as A1.
  pose proof (nth_chunk (fun t : mk_conj C => [mj_4 t; mj_6 t]) 2 _ (fun _ _ => eq_refl) k _ 0 _ Ht eq_refl) as B0.
  pose proof (nth_chunk (fun t : mk_conj C => [mj_4 t; mj_6 t]) 2 _ (fun _ _ => eq_refl) k _ 1 _ Ht eq_refl) as B1.
  pose proof (chunk_length (fun t : mk_conj C => [mj_3 t; mj_5 t]) 2 (mct_e ct) (fun _ _ => eq_refl)) as L1.
  pose proof (chunk_length (fun t : mk_conj C => [mj_4 t; mj_6 t]) 2 (mct_e ct) (fun _ _ => eq_refl)) as L2.
  assert (N1 : length (map (@mapk_g1 C) apks) = n) by apply map_length.
  assert (N2 : length (map (@mapk_g2 C) apks) = n) by apply map_length.
  assert (N3 : length (map (@mapk_gt2 C) apks) = n) by apply map_length.
  assert (N4 : length (map (@mapk_gt1 C) apks) = n) by apply map_length.
  assert (N5 : length (map (@mj_1 C) (mct_e ct)) = length (mct_e ct)) by apply map_length.
  assert (Cc : mk_calc (mj_str t) (muk_ska uk) =
    (eval1 v (calc1 (2 + (n + (length (mct_e ct) * 2 + 2))) own 0 (mj_str t) One1),
     eval2 v (calc2 (2 + (n + (length (mct_e ct) * 2 + 2))) own 0 (mj_str t) One2))).
  { unfold mk_calc. change (g1one C, g2one C) with (eval1 v One1, eval2 v One2). apply mk_calc_comb; [|exact St].
    intros q x Hx. rewrite V1, V2. rewrite <- !Nat.add_assoc.
    rewrite !(nth_deep [_; _] _ 2) by reflexivity.
    rewrite (nth_deep _ _ _ _ _ N1), (nth_deep _ _ _ _ _ N2), (nth_deep _ _ _ _ _ L1), (nth_deep _ _ _ _ _ L2).
    rewrite !(nth_deep [_; _] _ 2) by reflexivity.
    split; apply nth_error_nth; now apply map_nth_error. }
  unfold mk_open. cbv zeta. rewrite Cc. cbn [fst snd evalT eval1 eval2]. rewrite V1, V2, VT.
  rewrite !(nth_deep [_; _] _ 2) by reflexivity. rewrite !(nth_deep [mpk_egg2 pk] _ 1) by reflexivity.
  rewrite !(nth_deep _ _ _ _ _ N1), !(nth_deep _ _ _ _ _ N2), !(nth_deep _ _ _ _ _ N3).
  rewrite !(nth_deep [mpk_egg1 pk] _ 1) by reflexivity. rewrite !(nth_deep _ _ _ _ _ N4), (nth_deep _ _ _ _ _ N5).
  rewrite (nth_deep _ _ _ _ _ L1), (nth_deep _ _ _ _ _ L2).
  rewrite (nth_front _ _ _ _ _ A0), (nth_front _ _ _ _ _ A1), (nth_front _ _ _ _ _ B0), (nth_front _ _ _ _ _ B1).
  rewrite (nth_front _ _ k _ _ (map_nth_error (@mj_1 C) _ _ Ht)).
  rewrite (nth_error_nth _ k _ (map_nth_error (@mj_2 C) _ _ Ht)). reflexivity.
Qed.

Theorem mk_insider : exists e : nat -> list (list string) -> list string -> combT C,
  forall nonce pol lang data f (pk : mk_pk C) msk As ts i apks te ct j uk,
  mk_setup ts 0%nat = Ok (pk, msk, i) -> mk_unique As ->
  Forall (mk_pk_issued pk As) apks -> mk_user pk msk As uk ->
  mk_encrypt nonce pk apks pol lang data te 0%nat = Ok (ct, j) -> parse pol lang = Ok (tree f) ->
  (forall c, In c (conjs f) -> exists n, In n c /\ In n (map mapk_attr apks)) ->
  sat (owns (map mask_attr (muk_ska uk))) f = true ->
  evalT (both (mk_view pk apks ct) (mk_held uk))
    (e (length apks) (map mj_str (mct_e ct)) (map mask_attr (muk_ska uk))) =
  payload (te 0%nat * te 1%nat * (1 + te 2%nat)).
Proof.
  exists mk_comb. intros nonce pol lang data f pk msk As ts i apks te ct j uk Hs Hu Hp U He P Kn S.
  destruct (mk_covered _ _ _ _ _ _ _ _ _ _ _ He P _ Kn S) as (_ & Cov).
  destruct (mk_first_opens L _ _ _ _ _ _ Hs Hu _ _ _ _ _ _ _ _ _ _ Hp He P uk U Cov) as (msg & _ & Hm & Ht & Em).
  rewrite (mk_comb_eval pk apks ct uk Ht), Hm, Em. apply (logT_inj L). unfold payload. logs. ring.
Qed.

End InsiderDnfProofs.
