(** * BillsKeygenProofs: the bills of the keys (C148) *)
From Coq Require Import String List Bool Arith Lia ZArith.
From Verif Require Import Base Crypto Policy Tools Sharing Msp Dnf Parse Symmetric Bdabe Mke08 Bsw Ghw11 Lsw Yct14 Ac17 Aw11.
From Verif Require Import Spec PolicyProofs SharingProofs MspProofs CoreProofs SchemeLib Ac17Proofs Bills BillsProofs BillsEncrypt BillsEncryptProofs BillsKeygen.
Import ListNotations.
Local Open Scope nat_scope.

Section BillsKeygen.
Context {C : crypto}.
Notation T := (tally C).

(** ** BSW *)
Theorem bsw_keygen_bill (pk : bsw_pk C) (msk : bsw_msk C) attrs t i sk j :
  bsw_keygen (C := T) (t_bsw_pk pk) (t_bsw_msk msk) attrs t i = Ok (Some sk, j) ->
  snd (bsk_d sk) = 2 /\ Forall (fun y : battr T => snd (b_g1 y) = 1 /\ snd (b_g2 y) = 3) (bsk_dj sk).
Proof.
  unfold bsw_keygen. intros H. destruct attrs as [|a attrs]; [discriminate|].
  step H r Hr. cbv zeta in H. lift H b Hb. step H l Hl. apply rret_Ok in H as (E & _). injection E as <-.
  cbn [bsk_d bsk_dj]. split; [reflexivity|]. apply rmap_Forall2 in Hl. clear -Hl.
  induction Hl as [|x y l1 l2 (p & q & E) _ IH]; constructor; [|exact IH].
  step E s Hs. lift E h Hh. apply rret_Ok in E as (<- & _). apply unwrap_res_Ok, hash2_bill in Hh. cbn. rewrite Hh. auto.
Qed.

Theorem bsw_delegate_bill (pk : bsw_pk C) (sk : bsw_sk C) subset t i sk' j :
  bsw_delegate (C := T) (t_bsw_pk pk) (t_bsw_sk sk) subset t i = Ok (Some sk', j) ->
  snd (bsk_d sk') = 1 /\ Forall (fun y : battr T => snd (b_g1 y) = 1 /\ snd (b_g2 y) = 3) (bsk_dj sk').
Proof.
  unfold bsw_delegate. intros H. destruct (negb _); [discriminate|]. destruct subset as [|a l0]; [discriminate|].
  step H r Hr. step H l Hl. apply rret_Ok in H as (E & _). injection E as <-.
  cbn [bsk_d bsk_dj]. split; [reflexivity|]. apply rmap_Forall2 in Hl. clear -Hl.
  induction Hl as [|x y l1 l2 (p & q & E) _ IH]; constructor; [|exact IH].
  step E s Hs. lift E v Hv. lift E h Hh. apply rret_Ok in E as (<- & _). apply unwrap_res_Ok, hash2_bill in Hh.
  destruct (find _ _) as [v'|] eqn:F0; [|discriminate]. cbn in Hv. injection Hv as ->.
  apply found in F0 as (w & -> & _). cbn. rewrite Hh. auto.
Qed.

(** ** GHW11 *)
Theorem ghw_keygen_bill (pk : ghw_pk C) (g : G2 C) pk' attrs t i sk j :
  ghw_keygen (C := T) (t_ghw_pk pk) (GhwMsk (e2 g) pk') attrs t i = Ok (Some sk, j) ->
  snd (gsk_k sk) = 1 /\ snd (gsk_l sk) = 1 /\ Forall (fun y : string * G2 T => snd (snd y) = 2) (gsk_attr sk).
Proof.
  unfold ghw_keygen. intros H. destruct attrs as [|a attrs]; [discriminate|].
  step H r Hr. cbv zeta in H. lift H l Hl. apply rret_Ok in H as (E & _). injection E as <-.
  cbn [gsk_k gsk_l gsk_attr]. split; [reflexivity|]. split; [reflexivity|]. apply omap_Forall2 in Hl. clear -Hl.
  induction Hl as [|x y l1 l2 E _ IH]; constructor; [|exact IH].
  apply obind_Ok in E as (h & Hh & E). injection E as <-. apply unwrap_res_Ok, hash2_bill in Hh. cbn. now rewrite Hh.
Qed.

Theorem ghw_tkgen_bill (sk : ghw_sk C) t i tk z j :
  ghw_tkgen (C := T) (t_ghw_sk sk) t i = Ok ((tk, z), j) ->
  snd (gtk_k tk) = 1 /\ snd (gtk_l tk) = 1 /\ Forall (fun y : string * G2 T => snd (snd y) = 1) (gtk_attr tk).
Proof.
  unfold ghw_tkgen. intros H. step H r Hr. lift H b Hb. apply rret_Ok in H as (E & _). injection E as <- _.
  cbn [gtk_k gtk_l gtk_attr]. split; [reflexivity|]. split; [reflexivity|]. cbn [gsk_attr t_ghw_sk].
  clear. induction (gsk_attr sk) as [|x l IH]; constructor; [reflexivity|exact IH].
Qed.

(** ** LSW *)
Theorem lsw_keygen_bill (pk : lsw_pk C) (msk : lsw_msk C) pol lang t i sk j :
  lsw_keygen (C := T) (t_lsw_pk pk) (t_lsw_msk msk) pol lang t i = Ok (sk, j) ->
  Forall (fun y : lsw_dj T => exists neg, is_negative (ld_name y) = Ok neg /\
    (snd (ld_1 y), snd (ld_2 y), snd (ld_3 y), snd (ld_4 y), snd (ld_5 y)) =
    if neg : bool then (0, 0, 2, 2, 1) else (3, 1, 0, 0, 0)) (lsk_dj sk).
Proof.
  unfold lsw_keygen. intros H. lift H v Hv. step H sh Hs. step H l Hl. apply rret_Ok in H as (<- & _).
  cbn [lsk_dj]. apply rmap_Forall2 in Hl. clear -Hl.
  induction Hl as [|x y l1 l2 (p & q & E) _ IH]; constructor; [|exact IH]. cbv zeta in E.
  step E r Hr. lift E n Hn. exists n. destruct n.
  - lift E h Hh. apply rret_Ok in E as (<- & _). cbn [ld_name]. split; [exact Hn|reflexivity].
  - lift E h Hh. apply rret_Ok in E as (<- & _). apply unwrap_res_Ok, hash1_bill in Hh. cbn [ld_name].
    split; [exact Hn|]. cbn. now rewrite Hh.
Qed.

(** ** AW11 *)
Theorem aw_authgen_bill (gk : aw_gk C) attrs t i pk msk j :
  aw_authgen (C := T) (t_aw_gk gk) attrs t i = Ok (Some (pk, msk), j) ->
  Forall (fun y : string * GT T * G2 T => snd (snd (fst y)) = (1, 1) /\ snd (snd y) = 1) (apk_attr pk).
Proof.
  unfold aw_authgen. intros H. destruct attrs as [|a attrs]; [discriminate|].
  step H l Hl. apply rret_Ok in H as (E & _). injection E as <- _. cbn [apk_attr].
  apply rmap_Forall2 in Hl. clear -Hl. induction Hl as [|x y l1 l2 (p & q & E) _ IH]; constructor; [|exact IH].
  cbv zeta in E. step E r Hr. step E s Hs. apply rret_Ok in E as (<- & _). cbn. auto.
Qed.

Theorem aw_keygen_bill (gk : aw_gk C) (msk : aw_msk T) name attrs sk :
  aw_keygen (C := T) (t_aw_gk gk) msk name attrs = Ok sk ->
  Forall (fun y : string * G1 T => snd (snd y) = 3) (awsk_attr sk).
Proof.
  unfold aw_keygen. intros H. destruct attrs as [|a attrs]; [discriminate|]. destruct (seqb name ""); [discriminate|].
  assert (G : forall l k k', Forall (fun y : string * G1 T => snd (snd y) = 3) (awsk_attr k) ->
    ofold (fun (sk : aw_sk T) a => aw_add (t_aw_gk gk) msk a sk) l k = Ok k' ->
    Forall (fun y : string * G1 T => snd (snd y) = 3) (awsk_attr k')).
  { clear. induction l as [|x l IH]; intros k k' K H; cbn [ofold] in H; [now injection H as <-|].
    apply obind_Ok in H as (k1 & E & H). apply (IH k1); [|exact H]. unfold aw_add in E.
    destruct (seqb x ""); [discriminate|]. destruct (seqb (awsk_gid k) ""); [discriminate|].
    apply obind_Ok in E as (h & Hh & E). apply obind_Ok in E as (e & He & E). injection E as <-. cbn [awsk_attr].
    apply Forall_app. split; [exact K|]. constructor; [|constructor]. apply hash1_bill in Hh. cbn. now rewrite Hh. }
  refine (G _ _ _ _ H). constructor.
Qed.

(** ** BDABE and MKE08 *)
Theorem bd_keys_bill (pk : bd_pk C) (msk : bd_msk T) (au : bd_auth C) (upk : bd_upk C) :
  (forall name t i a j, bd_authgen (C := T) (t_bd_pk pk) msk name t i = Ok (a, j) ->
    snd (bau_a1 a) = 1 /\ snd (bau_a2 a) = 1) /\
  (forall name t i uk j, bd_keygen (C := T) (t_bd_pk pk) (t_bd_auth au) name t i = Ok (uk, j) ->
    snd (busk_u1 (buk_sk uk)) = 1 /\ snd (busk_u2 (buk_sk uk)) = 1 /\
    snd (bupk_u1 (buk_pk uk)) = 1 /\ snd (bupk_u2 (buk_pk uk)) = 1) /\
  (forall attr k, bd_request_pk (C := T) (t_bd_pk pk) (t_bd_auth au) attr = Ok k ->
    snd (bapk_a1 k) = 1 /\ snd (bapk_a2 k) = 1 /\ snd (bapk_a3 k) = (0, 1)) /\
  (forall attr k, bd_request_sk (C := T) (t_bd_upk upk) (t_bd_auth au) attr = Ok k ->
    snd (bask_au1 k) = 1 /\ snd (bask_au2 k) = 1).
Proof.
  repeat apply conj.
  - intros name t i a j H. unfold bd_authgen in H. step H r Hr. step H s Hs. apply rret_Ok in H as (<- & _). cbn. auto.
  - intros name t i a j H. unfold bd_keygen in H. step H r Hr. apply rret_Ok in H as (<- & _). cbn. auto.
  - intros attr k H. unfold bd_request_pk in H. destruct (from_authority _ _); [|discriminate].
    apply obind_Ok in H as (h1 & _ & H). apply obind_Ok in H as (h2 & _ & H). injection H as <-. cbn. auto.
  - intros attr k H. unfold bd_request_sk in H. destruct (_ && _)%bool; [|discriminate].
    apply obind_Ok in H as (h1 & _ & H). apply obind_Ok in H as (h2 & _ & H). injection H as <-. cbn. auto.
Qed.

Theorem mk_keys_bill (pk : mk_pk C) (msk : mk_msk C) (au : mk_auth T) (upk : mk_upk C) :
  (forall name t i uk j, mk_keygen (C := T) (t_mk_pk pk) (t_mk_msk msk) name t i = Ok (uk, j) ->
    snd (musk_g1 (muk_sk uk)) = 1 /\ snd (musk_g2 (muk_sk uk)) = 1 /\
    snd (mupk_g1 (muk_pk uk)) = 1 /\ snd (mupk_g2 (muk_pk uk)) = 1) /\
  (forall attr k, mk_request_pk (C := T) (t_mk_pk pk) attr au = Ok k ->
    snd (mapk_g1 k) = 1 /\ snd (mapk_g2 k) = 1 /\ snd (mapk_gt1 k) = (0, 1) /\ snd (mapk_gt2 k) = (0, 1)) /\
  (forall attr k, mk_request_sk (C := T) (t_mk_upk upk) attr au = Ok k ->
    snd (mask_g1 k) = 1 /\ snd (mask_g2 k) = 1).
Proof.
  repeat apply conj.
  - intros name t i a j H. unfold mk_keygen in H. step H r Hr. apply rret_Ok in H as (<- & _). cbn. auto.
  - intros attr k H. unfold mk_request_pk in H. destruct (from_authority _ _); [|discriminate].
    apply obind_Ok in H as (h1 & _ & H). apply obind_Ok in H as (h2 & _ & H). injection H as <-. cbn. auto.
  - intros attr k H. unfold mk_request_sk in H. destruct (_ && _)%bool; [|discriminate].
    apply obind_Ok in H as (h1 & _ & H). apply obind_Ok in H as (h2 & _ & H). injection H as <-. cbn. auto.
Qed.

(** ** AC17 *)
Lemma hash_prod_bill (g : G1 C) label br a_t t acc r :
  hash_prod (C := T) (e1 g) label br a_t t acc = Ok r -> snd r = snd acc + 6.
Proof.
  unfold hash_prod. intros H. apply (ofold_adds _ 2) in H; [exact H|]. clear. intros st x st' E.
  apply obind_Ok in E as (h & Hh & E). apply obind_Ok in E as (b & _ & E). injection E as <-.
  apply unwrap_res_Ok, hash1_bill in Hh. cbn. rewrite Hh. reflexivity.
Qed.

Lemma k0_bill (msk : ac_msk C) br l : ac_k0 (C := T) (t_ac_msk msk) br = Ok l -> Forall (fun g : G2 T => snd g = 1) l.
Proof.
  unfold ac_k0. intros H. apply omap_Forall2 in H. induction H as [|x y l1 l2 E _ IH]; constructor; [|exact IH].
  apply obind_Ok in E as (b & _ & E). now injection E as <-.
Qed.

Lemma two {A} (f : nat -> outcome A) l : omap f ts = Ok l -> exists x y, l = [x; y] /\ f 0 = Ok x /\ f 1 = Ok y.
Proof.
  unfold ts, asz. cbn [seq omap]. intros H. apply obind_Ok in H as (x & X & H). apply obind_Ok in H as (r & Y & H).
  injection H as <-. apply obind_Ok in Y as (y & Y & H). cbn in H. injection H as <-. eauto.
Qed.

Theorem cp_keygen_bill (msk : ac_msk C) attrs t i sk j :
  cp_keygen (C := T) (t_ac_msk msk) attrs t i = Ok (sk, j) ->
  Forall (fun g : G2 T => snd g = 1) (ask_k0 (acps_sk sk)) /\
  Forall (fun y : string * list (G1 T) => map (fun g : G1 T => snd g) (snd y) = [7; 7; 1]) (ask_k (acps_sk sk)) /\
  map (fun g : G1 T => snd g) (ask_kp (acps_sk sk)) = [7; 7; 1].
Proof.
  unfold cp_keygen. intros H. destruct attrs as [|a attrs]; [discriminate|].
  step H br Hbr. lift H k0 Hk. step H k Hl. step H s Hs. lift H kp Hp. lift H g2 Hg. apply rret_Ok in H as (<- & _).
  cbn [acps_sk ask_k0 ask_k ask_kp]. apply k0_bill in Hk. split; [exact Hk|]. split.
  - apply rmap_Forall2 in Hl. clear -Hl. induction Hl as [|x y l1 l2 (p & q & E) _ IH]; constructor; [|exact IH].
    step E r Hr. lift E key He. apply rret_Ok in E as (<- & _). cbn [snd].
    assert (K : forall u v, obind (idx (amsk_a (t_ac_msk msk)) u) (fun a => obind (unwrap (finv_opt a)) (fun a_t =>
      obind (hash_prod (amsk_g (t_ac_msk msk)) x br a_t u (g1zero T)) (fun prod =>
      Ok (g1add T prod (g1mul T (amsk_g (t_ac_msk msk)) (fmul T r a_t)))))) = Ok v -> snd v = 7).
    { clear. intros u v E. apply obind_Ok in E as (a & _ & E). apply obind_Ok in E as (b & _ & E).
      apply obind_Ok in E as (z & Hz & E). injection E as <-. apply hash_prod_bill in Hz. cbn. rewrite Hz. reflexivity. }
    apply two in He as (u & v & -> & U & V). apply K in U. apply K in V. cbn. now rewrite U, V.
  - assert (K : forall u v, obind (idx (amsk_gk (t_ac_msk msk)) u) (fun gk =>
      obind (idx (amsk_a (t_ac_msk msk)) u) (fun a => obind (unwrap (finv_opt a)) (fun a_t =>
      obind (hash_prod (amsk_g (t_ac_msk msk)) "01" br a_t u gk) (fun prod =>
      Ok (g1add T prod (g1mul T (amsk_g (t_ac_msk msk)) (fmul T s a_t))))))) = Ok v -> snd v = 7).
    { clear. intros u v E. apply obind_Ok in E as (gk & Hg & E). apply obind_Ok in E as (a & _ & E). apply obind_Ok in E as (b & _ & E).
      apply obind_Ok in E as (z & Hz & E). injection E as <-. apply hash_prod_bill in Hz.
      cbn [amsk_gk t_ac_msk] in Hg. apply (idx_given e1) in Hg; [|reflexivity]. cbn. rewrite Hz, Hg. reflexivity. }
    apply two in Hp as (u & v & -> & U & V). apply K in U. apply K in V.
    cbn [amsk_gk t_ac_msk] in Hg. apply (idx_given e1) in Hg; [|reflexivity]. cbn. now rewrite U, V, Hg.
Qed.

Lemma entry_at_bill (msk : ac_msk C) z acc k r : entry_at (C := T) z acc (amsk_gk (t_ac_msk msk)) k = Ok r -> snd r = snd acc.
Proof.
  unfold entry_at. cbn [amsk_gk t_ac_msk]. destruct (z =? 1)%Z; [|destruct (z =? -1)%Z; [|intros E; now injection E as <-]];
    intros E; apply obind_Ok in E as (x & X & E); injection E as <-; apply (idx_given e1) in X; try reflexivity; cbn; lia.
Qed.

Lemma row_climb (row : list Z) (round : G1 T * G1 T -> nat -> outcome (G1 T * G1 T)) : Forall small row ->
  (forall st j st', round st j = Ok st' -> exists z, idx row j = Ok z /\ snd (snd st') = snd (snd st) + 7 /\
     fst st' = entry_add (C := T) z (fst st) (snd st')) ->
  forall b a, row = (a ++ b)%list -> forall st st', snd (snd st) = 7 * (length a - 1) -> 1 <= length a ->
  ofold round (seq (length a) (length b)) st = Ok st' -> snd (fst st') = snd (fst st) + climb (length a) b.
Proof.
  intros S1 K. induction b as [|z b IH]; intros a E st st' B La H; cbn [length seq ofold] in H; [injection H as <-; cbn; lia|].
  apply obind_Ok in H as (s1 & E1 & H). apply K in E1 as (z' & Z & B1 & E1).
  destruct st as [p q], s1 as [p1 q1]. cbn [fst snd] in B, B1, E1.
  assert (z' = z). { unfold idx in Z. rewrite E, nth_error_app2, Nat.sub_diag in Z by lia. cbn in Z. congruence. } subst z'.
  specialize (IH (a ++ [z])%list). rewrite <- app_assoc in IH. specialize (IH E).
  rewrite app_length, Nat.add_1_r in IH. apply IH in H; [|cbn [fst snd]; lia|lia]. rewrite H. cbn [fst]. rewrite E1.
  assert (Sz : small z). { rewrite Forall_forall in S1. apply S1. rewrite E. apply in_elt. }
  assert (B2 : snd q1 = 7 * length a) by lia.
  unfold entry_add. cbn [climb]. destruct Sz as [-> | [-> | ->]]; cbn [Z.eqb Pos.eqb]; cbn in *; rewrite ?B2; lia.
Qed.

Lemma kp_entry_bill (msk : ac_msk C) br sp sg name z0 r t e : Forall small (z0 :: r) ->
  kp_entry (C := T) (t_ac_msk msk) br sp sg (length (z0 :: r)) name (z0 :: r) t = Ok e -> snd e = 7 + climb 1 r.
Proof.
  intros Sm H. unfold kp_entry in H. apply obind_Ok in H as (a & _ & H). apply obind_Ok in H as (b & _ & H).
  apply obind_Ok in H as (p0 & P0 & H). cbv zeta in H. apply obind_Ok in H as (z & _ & H). apply obind_Ok in H as (p2 & P2 & H).
  apply obind_Ok in H as (st & Hst & H). injection H as <-. apply hash_prod_bill in P0. apply entry_at_bill in P2.
  assert (B : snd p2 = 7) by (rewrite P2; cbn; rewrite P0; reflexivity). clear P2 P0.
  cbn [length] in Hst. rewrite Nat.sub_succ, Nat.sub_0_r in Hst.
  apply (row_climb (z0 :: r) _ Sm) with (a := [z0]) in Hst; [refine (eq_trans Hst _); cbn [fst]; rewrite B; reflexivity| |reflexivity|reflexivity|cbn; lia].
  clear. intros st j st' E. apply obind_Ok in E as (p & P & E). apply obind_Ok in E as (q & _ & E). cbv zeta in E.
  apply obind_Ok in E as (z & Z & E). injection E as <-. exists z. split; [exact Z|]. split; [|reflexivity].
  destruct st as [u w]. apply hash_prod_bill in P. cbn in P |- *. rewrite P. lia.
Qed.

Lemma kp_last_bill (msk : ac_msk C) sp sg z0 r e : Forall small (z0 :: r) ->
  kp_last (C := T) (t_ac_msk msk) sp sg (length (z0 :: r)) (z0 :: r) = Ok e -> snd e = 1 + nonzero r.
Proof.
  intros Sm H. unfold kp_last in H. apply obind_Ok in H as (z & _ & H). apply obind_Ok in H as (p2 & P2 & H).
  apply entry_at_bill in P2. cbn [length] in H. rewrite Nat.sub_succ, Nat.sub_0_r in H.
  assert (G : forall b a, (z0 :: r) = (a ++ b)%list -> forall h h',
    ofold (fun acc j => obind (idx (z0 :: r) j) (fun z => obind (idx sp (j - 1)) (fun s =>
      Ok (entry_add (C := T) z acc (g1mul T (amsk_g (t_ac_msk msk)) (fopp T s)))))) (seq (length a) (length b)) h = Ok h' ->
    snd h' = snd h + nonzero b).
  { clear -Sm. induction b as [|z b IH]; intros a E h h' H; cbn [length seq ofold] in H; [injection H as <-; unfold nonzero; cbn; lia|].
    apply obind_Ok in H as (h1 & E1 & H). apply obind_Ok in E1 as (z' & Z & E1). apply obind_Ok in E1 as (q & _ & E1). injection E1 as <-.
    assert (z' = z). { unfold idx in Z. rewrite E, nth_error_app2, Nat.sub_diag in Z by lia. cbn in Z. congruence. } subst z'.
    specialize (IH (a ++ [z])%list). rewrite <- app_assoc in IH. specialize (IH E).
    rewrite app_length, Nat.add_1_r in IH. apply IH in H. rewrite H.
    assert (Sz : small z). { rewrite Forall_forall in Sm. apply Sm. rewrite E. apply in_elt. }
    unfold entry_add, nonzero. cbn [filter]. destruct Sz as [-> | [-> | ->]]; cbn; lia. }
  apply (G r [z0] eq_refl) in H. rewrite H, P2. reflexivity.
Qed.

Theorem kp_keygen_bill (msk : ac_msk C) pol lang t i sk j f msp :
  parse pol lang = Ok (tree f) -> binary_and f = true -> calculate_msp (tree f) = Ok msp ->
  kp_keygen (C := T) (t_ac_msk msk) pol lang t i = Ok (sk, j) ->
  Forall (fun g : G2 T => snd g = 1) (ask_k0 (akps_sk sk)) /\
  Forall2 (fun (row : list Z) (y : string * list (G1 T)) =>
    map (fun g : G1 T => snd g) (snd y) = [7 + climb 1 (tl row); 7 + climb 1 (tl row); 1 + nonzero (tl row)])
    (msp_m msp) (ask_k (akps_sk sk)).
Proof.
  intros P B M H. unfold kp_keygen in H. lift H v Hv. rewrite P in Hv. injection Hv as <-.
  rewrite M in H. lift H ms Hm. cbn in Hm. injection Hm as <-.
  rewrite (calculate_msp_eq f B) in M. injection M as <-. cbn [msp_m msp_pi] in *. set (R := sort_rows (rev (msp_rows f))) in *.
  lift H row0 Hr. assert (Hn : length row0 = msp_width f).
  { apply idx_Ok, nth_error_In in Hr. apply in_map_iff in Hr as (r & <- & Ir).
    apply (proj1 (sorted_In f r)) in Ir. now apply msp_rows_length. }
  cbv zeta in H. rewrite Hn in H. step H br Hb. lift H k0 Hk. step H sp Hs. step H k Hl. apply rret_Ok in H as (<- & _).
  cbn [akps_sk ask_k0 ask_k]. apply k0_bill in Hk. split; [exact Hk|].
  assert (Sub : forall r, In r R -> In r (msp_rows f)) by (intros r; apply sorted_In).
  apply rmap_Forall2 in Hl. rewrite map_length in Hl.
  assert (G : forall b a, R = (a ++ b)%list -> forall k, Forall2 (fun x y => exists p q,
     (rbind (rlift (idx (map fst R) x)) (fun name => rbind (rlift (idx (map snd R) x)) (fun row =>
      rbind draw (fun sigma_attr =>
      rbind (rlift (omap (kp_entry (C := T) (t_ac_msk msk) br sp sigma_attr (msp_width f) name row) ts)) (fun key =>
      rbind (rlift (kp_last (C := T) (t_ac_msk msk) sp sigma_attr (msp_width f) row)) (fun last =>
      rret (name, (key ++ [last])%list))))))) t p = Ok (y, q)) (seq (length a) (length b)) k ->
    Forall2 (fun (row : list Z) (y : string * list (G1 T)) =>
      map (fun g : G1 T => snd g) (snd y) = [7 + climb 1 (tl row); 7 + climb 1 (tl row); 1 + nonzero (tl row)]) (map snd b) k).
  { clear - Sub B. induction b as [|r b IH]; intros a E k H; cbn [length seq map] in *; [inversion H; constructor|].
    inversion H as [|x y l1 l2 (p & q & X) Y]; subst x l1 k. constructor.
    - lift X name Xn. lift X row Xr. step X sg Xs. lift X key Xk. lift X la Xl. apply rret_Ok in X as (<- & _). cbn [snd].
      assert (row = snd r).
      { unfold idx in Xr. rewrite E, map_app, nth_error_app2, map_length, Nat.sub_diag in Xr by (rewrite map_length; lia). cbn in Xr. congruence. }
      subst row. assert (Ir : In r (msp_rows f)) by (apply Sub; rewrite E; apply in_elt).
      assert (Len := msp_rows_length f r Ir). assert (Sm := msp_rows_small f r B Ir). rewrite <- Len in Xk, Xl.
      apply two in Xk as (u & w & -> & U & V).
      destruct (snd r) as [|z0 z].
      { exfalso. unfold kp_last in Xl. cbn in Xl. discriminate. }
      apply kp_entry_bill in U; [|exact Sm]. apply kp_entry_bill in V; [|exact Sm]. apply kp_last_bill in Xl; [|exact Sm].
      cbn [tl app map]. now rewrite U, V, Xl.
    - apply (IH (a ++ [r])%list); [now rewrite <- app_assoc|]. rewrite app_length, Nat.add_1_r. exact Y. }
  exact (G R [] eq_refl k Hl).
Qed.

End BillsKeygen.
