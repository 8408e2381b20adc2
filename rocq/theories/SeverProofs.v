(** * SeverProofs: YCT14 keys for "A" and for "A and B" give one for "B" (C158) *)
From Coq Require Import String List Bool Arith Lia Field.
From Verif Require Import Base Crypto Policy Tools Sharing Parse Spec PolicyProofs Poly SharingProofs SchemeLib ParseProofs Symmetric
  Draws DrawsProofs Yct14 Yct14Proofs Alternative AlternativeProofs Retarget RetargetProofs RekeyProofs Sever.
Import ListNotations.

Lemma one_means A p1 pA g S : sat S (FOr [FLeaf A p1; FAnd [FLeaf A pA; g]]) = S A.
Proof. cbn. destruct (S A); [reflexivity|]. reflexivity. Qed.

Section SeverProofs.
Context {C : crypto} (L : laws C).
Local Open Scope F_scope.
Add Field sever_field : (f_theory L).

Theorem yct_severs U (pk : yct_pk C) msk A B p1 pA pB p pol1 lang1 pol2 lang2 pol lang sk1 sk2
    ts is js t1 i1 j1 t2 i2 j2 :
  yct_setup U ts is = Ok ((pk, msk), js) ->
  parse pol1 lang1 = Ok (tree (FLeaf A p1)) ->
  parse pol2 lang2 = Ok (tree (FAnd [FLeaf A pA; FLeaf B pB])) ->
  parse pol lang = Ok (tree (FLeaf B p)) ->
  yct_keygen msk pol1 lang1 t1 i1 = Ok (sk1, j1) ->
  yct_keygen msk pol2 lang2 t2 i2 = Ok (sk2, j2) ->
  In A U -> In B U -> A <> B -> no_us A = true -> no_us B = true ->
  ymsk_s msk + (t2 i2 + t2 i2) <> 0 ->
  exists sk, yct_sever sk1 sk2 A B pol lang = Ok sk /\
    forall t i, yct_keygen msk pol lang t i = Ok (sk, i).
Proof.
  intros Hs P1 P2 P H1 H2 IA IB NAB UA UB NZ.
  apply (yct_setup_keys L) in Hs as (G & _ & K).
  destruct (K A) as [(_ & gA & sA & _ & MA & _)|(X & _)]; [|contradiction].
  destruct (K B) as [(_ & gB & sB & _ & MB & _)|(X & _)]; [|contradiction].
  set (f := FAnd [FLeaf A pA; FLeaf B pB]) in *.
  assert (ND : NoDup (names f)).
  { cbn. constructor; [intros [E|[]]; congruence|]. constructor; [intros []|constructor]. }
  assert (PN : plain_names f = true) by (cbn; now rewrite UA, UB).
  assert (LA : In (A, pA) (leaves f)) by (cbn; auto).
  assert (LB : In (B, pB) (leaves f)) by (cbn; auto).
  assert (ND1 : NoDup (names (FLeaf A p1))) by (cbn; constructor; [intros []|constructor]).
  assert (PN1 : plain_names (FLeaf A p1) = true) by (cbn; now rewrite UA).
  assert (L1 : In (A, p1) (leaves (FLeaf A p1))) by (cbn; auto).
  destruct (yct_sk_get L (FLeaf A p1) _ _ _ _ _ _ _ _ _ _ P1 H1 ND1 PN1 L1 MA) as (NA & V1).
  destruct (yct_sk_get L f _ _ _ _ _ _ _ _ _ _ P2 H2 ND PN LA MA) as (_ & V2A).
  destruct (yct_sk_get L f _ _ _ _ _ _ _ _ _ _ P2 H2 ND PN LB MB) as (NB & V2B).
  assert (NI : seqb (node_index A pA) (node_index B pB) = false).
  { apply seqb_neq. intros E. apply node_index_inj in E as [E _]. contradiction. }
  assert (S1 : forall (s : F C) t i, oval (assoc (node_index A p1) (gsh (FLeaf A p1) s t i)) = s).
  { intros s t i. cbn [gsh assoc]. rewrite seqb_refl. reflexivity. }
  assert (SA : forall (s : F C) t i, oval (assoc (node_index A pA) (gsh f s t i)) = s + t i).
  { intros s t i. unfold f. cbn [gsh app assoc length Nat.sub seq map]. rewrite seqb_refl.
    cbn. ring. }
  assert (SB : forall (s : F C) t i, oval (assoc (node_index B pB) (gsh f s t i)) = s + (t i + t i)).
  { intros s t i. unfold f. cbn [gsh app assoc length Nat.sub seq map]. rewrite NI, seqb_refl.
    cbn. ring. }
  rewrite S1 in V1. rewrite SA in V2A. rewrite SB in V2B.
  unfold yct_sever. rewrite V1, V2A, V2B. cbn [obind].
  eexists. split; [reflexivity|]. intros t i.
  unfold yct_keygen. rewrite P. cbn [tree]. erewrite rbind_run by reflexivity.
  cbn [gen_shares_policy]. erewrite rbind_run by reflexivity.
  cbn [yct_du fst snd]. rewrite remove_index_leaf by exact UB.
  unfold private_from. cbn [fst snd]. rewrite MB. cbn [obind].
  rewrite (finv_opt_neq L) by exact NB. cbn [unwrap obind].
  erewrite rbind_run by reflexivity. unfold rret. do 6 f_equal.
  revert NZ. generalize (ymsk_s msk) (t2 i2). clear - L NA NB. intros s r NZ. f_equal.
  replace ((s + r) * finv C sA + (s + r) * finv C sA - s * finv C sA)
    with ((s + (r + r)) * finv C sA) by ring.
  field. auto.
Qed.

Lemma yct_du_times (msk : yct_msk C) r l : forall l' d,
  map (fun x => remove_index (fst x)) l = map (fun x => remove_index (fst x)) l' ->
  map snd l' = map (fmul C r) (map snd l) -> yct_du msk l = Ok d -> yct_du msk l' = Ok (map (yct_times r) d).
Proof.
  induction l as [|x l IH]; intros [|x' l'] d E1 E2 H; try discriminate.
  - cbn in H. injection H as <-. reflexivity.
  - cbn [map] in E1, E2. injection E1 as Ex E1. injection E2 as Ey E2. cbn [yct_du] in *. rewrite <- Ex, Ey.
    unfold private_from in *. cbn [fst snd] in *. destruct (msk_get_private msk _) as [si| |]; cbn [obind] in *; try discriminate.
    + destruct (unwrap (finv_opt si)) as [v| |]; cbn [obind] in *; try discriminate.
      * destruct (yct_du msk l) as [d'| |] eqn:Ed; cbn [obind] in H; try discriminate.
        rewrite (IH l' d' E1 E2 eq_refl). cbn [obind]. injection H as <-. cbn [map yct_times y_node y_name]. do 5 f_equal. ring.
      * apply (IH l' d E1 E2 H).
    + apply (IH l' d E1 E2 H).
Qed.

Lemma yct_severs_core (msk : yct_msk C) A pA sA g g' pol lang sk1 sk2 t2 i2 :
  msk_get_private msk A = Ok sA -> sA <> 0 -> sk_get_private sk1 A = Ok (ymsk_s msk * finv C sA) ->
  parse pol lang = Ok (tree g') -> blank g' = blank g ->
  yct_du msk (gsh (FAnd [FLeaf A pA; g]) (ymsk_s msk) t2 i2) = Ok (ysk_du sk2) ->
  no_us A = true -> ymsk_s msk + (t2 i2 + t2 i2) <> 0 ->
  exists sk k, yct_sever_any sk1 sk2 A pol lang = Ok sk /\
    yct_keygen msk pol lang (fun n => k * t2 (i2 + 1 + n)%nat) 0%nat = Ok (sk, coins g).
Proof.
  intros MA NA V1 P Bl K2 UA NZ.
  rewrite gsh_FAnd in K2. cbn [gsh_and length Nat.sub seq map] in K2. rewrite app_nil_r in K2.
  cbn [gsh List.app yct_du fst snd] in K2. rewrite remove_index_leaf in K2 by exact UA.
  unfold private_from in K2. cbn [fst snd] in K2. rewrite MA in K2. cbn [obind] in K2.
  rewrite (finv_opt_neq L) in K2 by exact NA. cbn [unwrap obind] in K2.
  apply obind_Ok in K2 as (d & Hd & K2). 
  assert (E2 : sk_get_private sk2 A = Ok ((ymsk_s msk + t2 i2) * finv C sA)).
  { injection K2 as K2. unfold sk_get_private. rewrite <- K2. cbn [find y_name]. rewrite seqb_refl. cbn. f_equal. ring. }
  assert (T : tl (ysk_du sk2) = d) by (injection K2 as K2; rewrite <- K2; reflexivity). clear K2.
  unfold yct_sever_any. rewrite V1, E2, T. cbn [obind].
  set (s := ymsk_s msk) in *. set (c := t2 i2) in *.
  set (k := s * finv C (s + (c + c))).
  assert (Ek : s * finv C sA * finv C ((s + c) * finv C sA + (s + c) * finv C sA - s * finv C sA) = k).
  { unfold k. replace ((s + c) * finv C sA + (s + c) * finv C sA - s * finv C sA) with ((s + (c + c)) * finv C sA) by ring.
    field. auto. }
  rewrite Ek. eexists. exists k. split; [reflexivity|].
  unfold yct_keygen. unfold rbind at 1, rlift at 1. rewrite P. unfold rbind at 1. rewrite (gen_shares_policy_eq L).
  unfold rbind, rlift. change (ymsk_s msk) with s.
  rewrite (yct_du_times msk k _ (gsh g' s (fun n => k * t2 (i2 + 1 + n)%nat) 0%nat) d) with (3 := Hd).
  - unfold rret. now rewrite (blank_same _ _ Bl).
  - rewrite !gsh_removed. f_equal. rewrite <- (blank_names g), <- Bl. apply blank_names.
  - rewrite <- (blank_gsh g'), Bl, blank_gsh. rewrite <- (gsh_scale L).
    apply (f_equal (map snd)). replace (k * _) with s.
    + apply gsh_at. intros m Hm. cbn beta. f_equal. f_equal. cbn [nd]. lia.
    + unfold k. cbn. fold s c. field. exact NZ.
Qed.

Theorem yct_severs_any U (pk : yct_pk C) msk A p1 pA g g' pol1 lang1 pol2 lang2 pol lang sk1 sk2
    ts is js t1 i1 j1 t2 i2 j2 :
  yct_setup U ts is = Ok ((pk, msk), js) ->
  parse pol1 lang1 = Ok (tree (FLeaf A p1)) ->
  parse pol2 lang2 = Ok (tree (FAnd [FLeaf A pA; g])) ->
  parse pol lang = Ok (tree g') -> blank g' = blank g ->
  yct_keygen msk pol1 lang1 t1 i1 = Ok (sk1, j1) ->
  yct_keygen msk pol2 lang2 t2 i2 = Ok (sk2, j2) ->
  In A U -> no_us A = true ->
  ymsk_s msk + (t2 i2 + t2 i2) <> 0 ->
  exists sk k, yct_sever_any sk1 sk2 A pol lang = Ok sk /\
    yct_keygen msk pol lang (fun n => k * t2 (i2 + 1 + n)%nat) 0%nat = Ok (sk, coins g).
Proof.
  intros Hs P1 P2 P Bl H1 H2 IA UA NZ.
  apply (yct_setup_keys L) in Hs as (G & _ & K).
  destruct (K A) as [(_ & gA & sA & _ & MA & _)|(X & _)]; [|contradiction].
  assert (ND1 : NoDup (names (FLeaf A p1))) by (cbn; constructor; [intros []|constructor]).
  assert (PN1 : plain_names (FLeaf A p1) = true) by (cbn; now rewrite UA).
  assert (L1 : In (A, p1) (leaves (FLeaf A p1))) by (cbn; auto).
  destruct (yct_sk_get L (FLeaf A p1) _ _ _ _ _ _ _ _ _ _ P1 H1 ND1 PN1 L1 MA) as (NA & V1).
  cbn [gsh assoc] in V1. rewrite seqb_refl in V1. cbn [oval] in V1.
  destruct (yct_keygen_inv L _ _ _ _ _ _ _ _ P2 H2) as (_ & K2).
  eapply yct_severs_core; eassumption.
Qed.

Theorem yct_severs_one U (pk : yct_pk C) msk A p1 pA g g' pol1 lang1 pol lang sk ts is js t i j :
  yct_setup U ts is = Ok ((pk, msk), js) ->
  parse pol1 lang1 = Ok (tree (FOr [FLeaf A p1; FAnd [FLeaf A pA; g]])) ->
  parse pol lang = Ok (tree g') -> blank g' = blank g ->
  yct_keygen msk pol1 lang1 t i = Ok (sk, j) ->
  In A U -> no_us A = true ->
  ymsk_s msk + (t i + t i) <> 0 ->
  exists sk' k, yct_sever_one sk A pol lang = Ok sk' /\
    yct_keygen msk pol lang (fun n => k * t (i + 1 + n)%nat) 0%nat = Ok (sk', coins g).
Proof.
  intros Hs P1 P Bl H1 IA UA NZ.
  apply (yct_setup_keys L) in Hs as (G & _ & K).
  destruct (K A) as [(_ & gA & sA & _ & MA & _)|(X & _)]; [|contradiction].
  destruct (yct_keygen_inv L _ _ _ _ _ _ _ _ P1 H1) as (_ & K2).
  rewrite gsh_FOr in K2. cbn [gsh_or] in K2. rewrite app_nil_r in K2.
  change (gsh (FLeaf A p1) (ymsk_s msk) t i) with [(node_index A p1, ymsk_s msk)] in K2.
  cbn [List.app yct_du fst snd] in K2. rewrite remove_index_leaf in K2 by exact UA.
  unfold private_from in K2 at 1. cbn [fst snd] in K2. rewrite MA in K2. cbn [obind] in K2.
  destruct (finv_opt sA) as [v|] eqn:Ev; [|discriminate K2]. cbn [unwrap obind] in K2.
  assert (NA : sA <> 0).
  { intros ->. unfold finv_opt in Ev. rewrite (proj2 (feqb_eq L _ _) eq_refl) in Ev. discriminate Ev. }
  rewrite (finv_opt_neq L) in Ev by exact NA.
  assert (Ev' : v = finv C sA) by congruence. subst v. clear Ev.
  apply obind_Ok in K2 as (d & Hd & K2). 
  unfold yct_sever_one. eapply yct_severs_core with (sA := sA) (pA := pA) (g := g) (t2 := t) (i2 := i); try eassumption.
  - injection K2 as K2. unfold sk_get_private. rewrite <- K2. cbn [find y_name]. rewrite seqb_refl. reflexivity.
  - injection K2 as K2. rewrite <- K2. cbn [ysk_du tl]. rewrite <- Hd. f_equal. f_equal. cbn [nd]. lia.
Qed.

(** With it the holder opens every ciphertext that satisfies the rest of the policy. *)
Theorem yct_sever_opens nonce U (pk : yct_pk C) msk A p1 pA g g' pol1 lang1 pol2 lang2 pol lang sk1 sk2 attrs data ct
    ts is js t1 i1 j1 t2 i2 j2 te ie je :
  yct_setup U ts is = Ok ((pk, msk), js) ->
  parse pol1 lang1 = Ok (tree (FLeaf A p1)) ->
  parse pol2 lang2 = Ok (tree (FAnd [FLeaf A pA; g])) ->
  parse pol lang = Ok (tree g') -> blank g' = blank g ->
  yct_keygen msk pol1 lang1 t1 i1 = Ok (sk1, j1) ->
  yct_keygen msk pol2 lang2 t2 i2 = Ok (sk2, j2) ->
  In A U -> no_us A = true ->
  ymsk_s msk + (t2 i2 + t2 i2) <> 0 ->
  yct_encrypt nonce pk attrs data te ie = Ok (ct, je) -> String.length nonce = 12%nat ->
  arity2 g' = true -> NoDup (names g') -> plain_names g' = true -> small_ok C (and_width g') ->
  sat (owns attrs) g' = true ->
  exists sk, yct_sever_any sk1 sk2 A pol lang = Ok sk /\ yct_decrypt sk ct = Ok data.
Proof.
  intros Hs P1 P2 P Bl H1 H2 IA UA NZ He Ln Ar ND PN Sm Sa.
  destruct (yct_severs_any _ _ _ _ _ _ _ _ _ _ _ _ _ _ _ _ _ _ _ _ _ _ _ _ _ Hs P1 P2 P Bl H1 H2 IA UA NZ) as (sk & k & E & Hk).
  exists sk. split; [exact E|]. eapply (yct_correct L); eassumption.
Qed.
End SeverProofs.
