(** * BillsEncryptProofs: the bills of what the encryptions make (C146) *)
From Coq Require Import String List Bool Arith Lia ZArith.
From Verif Require Import Base Crypto Policy Tools Sharing Msp Dnf Parse Symmetric Bdabe Mke08 Bsw Ghw11 Lsw Yct14 Ac17 Aw11.
From Verif Require Import Spec PolicyProofs SharingProofs MspProofs CoreProofs SchemeLib Ac17Proofs RobustProofs Bills BillsProofs BillsEncrypt.
Import ListNotations.
Local Open Scope nat_scope.

Ltac step H x E := let i := fresh "i" in apply rbind_Ok in H as (x & i & E & H).
Ltac lift H x E := let i := fresh "i" in apply rbind_Ok in H as (x & i & E & H); apply rlift_Ok in E as (E & <-).

Lemma Forall2_len2 {A B} (R : A -> B -> Prop) l r : Forall2 R l r -> length l = length r.
Proof. induction 1; cbn; congruence. Qed.

Section BillsEncrypt.
Context {C : crypto}.
Notation T := (tally C).

Lemma drawn_bill t i (m : GT T) j : draw_gt (C := T) t i = Ok (m, j) -> snd m = (1, 1).
Proof. unfold draw_gt, rbind, draw, rret. intros H. injection H as <- _. reflexivity. Qed.

Lemma sealed_bill nonce (m : GT T) p e data d : snd m = (p, e) -> encrypt_symmetric (C := T) nonce m data = Ok d ->
  d = (nonce ++ bill p e)%string.
Proof. intros B H. unfold encrypt_symmetric in H. cbn in H. rewrite B in H. now injection H as <-. Qed.

Lemma hash1_bill (g : G1 T) s h : sha3_hash_g1 (C := T) g s = Ok h -> snd h = S (snd g).
Proof. unfold sha3_hash_g1. destruct (hash T s); [|discriminate]. intros E. now injection E as <-. Qed.
Lemma hash2_bill (g : G2 T) s h : sha3_hash_g2 (C := T) g s = Ok h -> snd h = S (snd g).
Proof. unfold sha3_hash_g2. destruct (hash T s); [|discriminate]. intros E. now injection E as <-. Qed.
Lemma unwrap_res_Ok {A} (o : outcome A) x : unwrap_res o = Ok x -> o = Ok x.
Proof. destruct o; cbn; congruence. Qed.

(** ** BSW *)
Theorem bsw_encrypt_bill nonce (pk : bsw_pk C) pol lang data t i ct j :
  bsw_encrypt (C := T) nonce (t_bsw_pk pk) pol lang data t i = Ok (ct, j) ->
  snd (bct_c ct) = 1 /\ snd (bct_cp ct) = (1, 2) /\
  Forall (fun y : battr T => snd (b_g1 y) = 1 /\ snd (b_g2 y) = 2) (bct_cy ct) /\
  bct_data ct = (nonce ++ bill 1 1)%string.
Proof.
  unfold bsw_encrypt. intros H. step H s Hs. step H m Hm. lift H v Hv. step H sh Hsh. cbv zeta in H.
  lift H cy Hc. lift H d Hd. apply rret_Ok in H as (<- & _). cbn [bct_c bct_cp bct_cy bct_data].
  apply drawn_bill in Hm. split; [reflexivity|]. split; [cbn; now rewrite Hm|]. split; [|exact (sealed_bill _ _ _ _ _ _ Hm Hd)].
  apply omap_Forall2 in Hc. clear -Hc. induction Hc as [|x y l1 l2 E _ IH]; constructor; [|exact IH].
  apply obind_Ok in E as (h & Hh & E). injection E as <-. apply unwrap_res_Ok, hash2_bill in Hh. cbn. rewrite Hh. auto.
Qed.

(** ** GHW11 *)
Theorem ghw_encrypt_bill nonce (pk : ghw_pk C) pol lang data t i ct j :
  ghw_encrypt (C := T) nonce (t_ghw_pk pk) pol lang data t i = Ok (ct, j) ->
  snd (gct_c ct) = (1, 2) /\ snd (gct_c1 ct) = 1 /\
  Forall (fun y : string * (G1 T * G1 T) => snd (fst (snd y)) = 3 /\ snd (snd (snd y)) = 1) (gct_cidi ct) /\
  gct_data ct = (nonce ++ bill 1 1)%string.
Proof.
  unfold ghw_encrypt. intros H. step H s Hs. step H m Hm. lift H v Hv. step H sh Hsh. cbv zeta in H.
  step H cy Hc. lift H d Hd. apply rret_Ok in H as (<- & _). cbn [gct_c gct_c1 gct_cidi gct_data].
  apply drawn_bill in Hm. split; [cbn; now rewrite Hm|]. split; [reflexivity|]. split; [|exact (sealed_bill _ _ _ _ _ _ Hm Hd)].
  apply rmap_Forall2 in Hc. clear -Hc. induction Hc as [|x y l1 l2 (a & b & E) _ IH]; constructor; [|exact IH].
  step E r Hr. lift E h Hh. apply rret_Ok in E as (<- & _). apply unwrap_res_Ok, hash1_bill in Hh. cbn. rewrite Hh. auto.
Qed.

(** ** LSW *)
Lemma lsw_ejs_bill (pk : lsw_pk C) s sx attrs : forall i l, lsw_ejs (C := T) (t_lsw_pk pk) s sx i attrs = Ok l ->
  Forall (fun y : lsw_ej T => snd (le_1 y) = 2 /\ snd (le_2 y) = 1 /\ snd (le_3 y) = 2) l.
Proof.
  induction attrs as [|a attrs IH]; intros i l H; cbn [lsw_ejs] in H; [injection H as <-; constructor|].
  apply obind_Ok in H as (h & Hh & H). apply obind_Ok in H as (x & _ & H). apply obind_Ok in H as (hf & _ & H).
  apply obind_Ok in H as (r & Hr & H). injection H as <-. constructor; [|exact (IH _ _ Hr)].
  apply unwrap_res_Ok, hash1_bill in Hh. cbn. rewrite Hh. auto.
Qed.

Theorem lsw_encrypt_bill nonce (pk : lsw_pk C) attrs data t i ct j :
  lsw_encrypt (C := T) nonce (t_lsw_pk pk) attrs data t i = Ok (ct, j) ->
  snd (lct_e1 ct) = (1, 2) /\ snd (lct_e2 ct) = 1 /\
  Forall (fun y : lsw_ej T => snd (le_1 y) = 2 /\ snd (le_2 y) = 1 /\ snd (le_3 y) = 2) (lct_ej ct) /\
  lct_ct ct = (nonce ++ bill 1 1)%string.
Proof.
  unfold lsw_encrypt. intros H. destruct attrs as [|a attrs]; [discriminate|]. destruct data as [|c data]; [discriminate|].
  step H s Hs. step H sx Hx. lift H ej He. step H m Hm. cbv zeta in H. lift H d Hd. apply rret_Ok in H as (<- & _).
  cbn [lct_e1 lct_e2 lct_ej lct_ct]. apply drawn_bill in Hm. split; [cbn; now rewrite Hm|]. split; [reflexivity|].
  split; [exact (lsw_ejs_bill _ _ _ _ _ _ He)|exact (sealed_bill _ _ _ _ _ _ Hm Hd)].
Qed.

(** ** AW11 *)
Lemma find_pk_given (pks : list (aw_pk C)) n a : find_pk_attr (C := T) (map t_aw_pk pks) n = Some a ->
  snd (snd (fst a)) = (0, 0) /\ snd (snd a) = 0.
Proof.
  induction pks as [|k pks IH]; cbn [map find_pk_attr]; [discriminate|]. destruct (find _ _) eqn:E; [|exact IH].
  intros X. injection X as <-. cbn [apk_attr t_aw_pk] in E. apply found in E as (y & -> & _). auto.
Qed.

Theorem aw_encrypt_bill nonce (gk : aw_gk C) (pks : list (aw_pk C)) pol lang data t i ct j :
  aw_encrypt (C := T) nonce (t_aw_gk gk) (map t_aw_pk pks) pol lang data t i = Ok (ct, j) ->
  snd (awct_c0 ct) = (2, 2) /\
  Forall (fun y : string * GT T * G2 T * G2 T =>
    snd (snd (fst (fst y))) = (1, 2) /\ snd (snd (fst y)) = 1 /\ snd (snd y) = 2) (awct_c ct) /\
  awct_data ct = (nonce ++ bill 1 1)%string.
Proof.
  unfold aw_encrypt. intros H. lift H v Hv. lift H msp Hp. lift H r0 H0. step H s Hs. step H sh Hsh. step H w Hw.
  step H m Hm. cbv zeta in H. step H c Hc. lift H d Hd. apply rret_Ok in H as (<- & _).
  cbn [awct_c0 awct_c awct_data]. apply drawn_bill in Hm. split; [cbn; now rewrite Hm|].
  split; [|exact (sealed_bill _ _ _ _ _ _ Hm Hd)].
  apply rmap_Forall2 in Hc. clear -Hc. apply Forall_concat. induction Hc as [|x y l1 l2 (a & b & E) _ IH]; constructor; [|exact IH].
  unfold aw_entry in E. step E r Hr. destruct (find_pk_attr _ _) as [k|] eqn:K.
  - lift E u Hu. apply rret_Ok in E as (<- & _). apply find_pk_given in K as (K1 & K2).
    destruct k as [[kn kg] kh]. cbn in K1, K2. constructor; [|constructor]. cbn. rewrite K1, K2. auto.
  - apply rret_Ok in E as (<- & _). constructor.
Qed.

(** ** The conjunctions of BDABE and MKE08 *)
Definition pak0 (p : pak T) : Prop :=
  snd (pak_g1 p) = 0 /\ snd (pak_g2 p) = 0 /\ snd (pak_gt1 p) = (0, 0) /\ snd (pak_gt2 p) = (0, 0).
Definition term0 (x : term T) : Prop :=
  snd (tm_g1 x) = 0 /\ snd (tm_g2 x) = 0 /\ snd (tm_gt1 x) = (0, 0) /\ snd (tm_gt2 x) = (0, 0).

Lemma merge0 x p : term0 x -> pak0 p -> term0 (merge_term x p).
Proof. intros (A & B & D & E) (A' & B' & D' & E'). unfold term0. cbn. rewrite A, B, D, E, A', B', D', E'. auto. Qed.

Lemma update0 p i : pak0 p -> forall l, Forall term0 l -> Forall term0 (update_nth i (fun x => merge_term x p) l).
Proof.
  intros P l. revert i. induction l as [|x l IH]; intros i H; [destruct i; constructor|].
  inversion H as [|? ? Hx Hl]; subst. destruct i; cbn [update_nth]; constructor; auto. now apply merge0.
Qed.

Lemma leaf0 n i pks : Forall pak0 pks -> forall l, Forall term0 l -> Forall term0 (dnf_leaf pks n i l).
Proof.
  unfold dnf_leaf. induction 1 as [|p pks Hp _ IH]; intros l H; [exact H|]. cbn [fold_left]. apply IH.
  destruct (seqb _ _); [|exact H]. destruct (_ <? _); [now apply update0|].
  apply Forall_app. split; [exact H|]. constructor; [|constructor]. exact Hp.
Qed.

Lemma dnf0 pks : Forall pak0 pks -> forall v i t l, Forall term0 l -> Forall term0 (snd (dnf pks v i t l)).
Proof.
  intros P. induction v as [n p|ty w IH|ch IH] using pvalue_ind'; intros i t l H; cbn [dnf].
  - now apply leaf0.
  - destruct t as [[| |]|]; try (apply IH; exact H); destruct ty; try (apply IH; exact H); exact H.
  - destruct t as [[| |]|]; try exact H.
    + revert l H. generalize true. induction IH as [|x ch E _ IHl]; intros r l H; [exact H|].
      cbv zeta. destruct r; apply IHl; [apply E|]; exact H.
    + revert l H. generalize true. generalize 0. induction IH as [|x ch E _ IHl]; intros k r l H; [exact H|].
      cbv zeta. destruct r; apply IHl; [apply E|]; exact H.
Qed.

Lemma insert0 x : term0 x -> forall l, Forall term0 l -> Forall term0 (insert_term x l).
Proof.
  intros X l H. induction H as [|y l Hy H IH]; cbn [insert_term]; [auto|]. destruct (_ <=? _); auto.
Qed.

Lemma json0 v pks l : Forall pak0 pks -> json_to_dnf v pks = Ok l -> Forall term0 l.
Proof.
  intros P. unfold json_to_dnf. assert (H := dnf0 pks P v 0 None [] (Forall_nil _)).
  destruct (fst _); [|discriminate]. intros E. injection E as <-. unfold sort_terms.
  induction H as [|x r X _ IH]; [constructor|]. cbn [fold_right]. now apply insert0.
Qed.

Theorem bd_encrypt_bill nonce (pk : bd_pk C) (apks : list (bd_apk C)) pol lang data t i ct j :
  bd_encrypt (C := T) nonce (t_bd_pk pk) (map t_bd_apk apks) pol lang data t i = Ok (ct, j) ->
  Forall (fun y : bd_tuple T =>
    snd (bt_e1 y) = (1, 3) /\ snd (bt_e2 y) = 1 /\ snd (bt_e3 y) = 1 /\ snd (bt_e4 y) = 1 /\ snd (bt_e5 y) = 1)
    (Bdabe.bct_j ct) /\
  Bdabe.bct_data ct = (nonce ++ bill 1 2)%string.
Proof.
  unfold bd_encrypt. intros H. lift H v Hv. destruct (policy_in_dnf v false None); [|discriminate].
  lift H l Hl. step H m1 H1. step H m2 H2. cbv zeta in H. step H c Hc. lift H d Hd. apply rret_Ok in H as (<- & _).
  cbn [Bdabe.bct_j Bdabe.bct_data]. unfold draw_g1, draw_g2, rbind, draw, rret in H1, H2.
  injection H1 as <- _. injection H2 as <- _.
  apply unwrap_res_Ok, obind_Ok in Hl as (v' & _ & Hl). apply json0 in Hl.
  2:{ clear. induction apks; constructor; [repeat split|assumption]. }
  split; [|refine (sealed_bill _ _ _ _ _ _ _ Hd); reflexivity].
  apply rmap_Forall2 in Hc. clear -Hc Hl. induction Hc as [|x y l1 l2 (a & b & E) _ IH]; constructor.
  - inversion Hl as [|? ? (A & B & D & _) _]; subst. unfold bd_tuple_of in E. step E r Hr. apply rret_Ok in E as (<- & _).
    cbn. rewrite A, B, D. cbn. auto.
  - apply IH. now inversion Hl.
Qed.

Theorem mk_encrypt_bill nonce (pk : mk_pk C) (apks : list (mk_apk C)) pol lang data t i ct j :
  mk_encrypt (C := T) nonce (t_mk_pk pk) (map t_mk_apk apks) pol lang data t i = Ok (ct, j) ->
  Forall (fun y : mk_conj T =>
    snd (mj_1 y) = (1, 3) /\ snd (mj_2 y) = (1, 4) /\
    snd (mj_3 y) = 1 /\ snd (mj_4 y) = 1 /\ snd (mj_5 y) = 1 /\ snd (mj_6 y) = 1) (mct_e ct) /\
  mct_data ct = (nonce ++ bill 2 5)%string.
Proof.
  unfold mk_encrypt. intros H. lift H v Hv. destruct (policy_in_dnf v false None); [|discriminate].
  lift H l Hl. step H m1 H1. step H m2 H2. cbv zeta in H. step H z Hz. step H c Hc. lift H d Hd. apply rret_Ok in H as (<- & _).
  cbn [mct_e mct_data]. unfold draw_g1, draw_g2, rbind, draw, rret in H1, H2.
  injection H1 as <- _. injection H2 as <- _.
  apply unwrap_res_Ok, obind_Ok in Hl as (v' & _ & Hl). apply json0 in Hl.
  2:{ clear. induction apks; constructor; [repeat split|assumption]. }
  split; [|refine (sealed_bill _ _ _ _ _ _ _ Hd); reflexivity].
  apply rmap_Forall2 in Hc. clear -Hc Hl. induction Hc as [|x y l1 l2 (a & b & E) _ IH]; constructor.
  - inversion Hl as [|? ? (A & B & D & G) _]; subst. unfold mk_conj_of in E. step E r Hr. apply rret_Ok in E as (<- & _).
    cbn. rewrite A, B, D, G. cbn. repeat apply conj; reflexivity.
  - apply IH. now inversion Hl.
Qed.

(** ** AC17 *)
Lemma draw_s_bill (pk : ac_pk C) t i s c0 j : draw_s (C := T) (t_ac_pk pk) t i = Ok ((s, c0), j) ->
  Forall (fun g : G2 T => snd g = 1) c0.
Proof.
  unfold draw_s. intros H. step H r Hr. cbv zeta in H. lift H c Hc. lift H h Hh. apply rret_Ok in H as (E & _).
  injection E as _ <-. apply Forall_app. split.
  - apply omap_Forall2 in Hc. clear -Hc. induction Hc as [|x y l1 l2 E _ IH]; constructor; [|exact IH].
    apply obind_Ok in E as (k & Hk & E). apply obind_Ok in E as (u & _ & E). injection E as <-.
    cbn [apk_ha t_ac_pk] in Hk. apply (idx_given e2) in Hk; [|reflexivity]. cbn. now rewrite Hk.
  - constructor; [|constructor]. cbn [apk_ha t_ac_pk] in Hh. apply (idx_given e2) in Hh; [|reflexivity]. cbn. now rewrite Hh.
Qed.

Lemma ac_cp_bill (pk : ac_pk C) s m : ac_cp (C := T) (t_ac_pk pk) s = Ok m -> snd m = (0, 2).
Proof.
  unfold ac_cp. intros H.
  assert (K := ofold_count (fun (c : GT T) i => obind (idx (apk_egh (t_ac_pk pk)) i) (fun e =>
                    obind (idx s i) (fun x => Ok (gtmul T c (gtpow T e x))))) (fun g => snd g) 0 1).
  rewrite (K) with (l := ts) (st := gtone T) (2 := H); [reflexivity|].
  clear. intros st x st' E. apply obind_Ok in E as (e & He & E). apply obind_Ok in E as (y & _ & E). injection E as <-.
  cbn [apk_egh t_ac_pk] in He. unfold idx in He. destruct (nth_error _ _) as [q|] eqn:N; [|discriminate]. injection He as <-.
  apply nth_error_In in N. apply in_map_iff in N as (z & <- & _). cbn. now rewrite Nat.add_0_r, Nat.add_1_r.
Qed.

(** A loop over two rounds that adds the same in both. *)
Lemma ofold_adds {A} (step : G1 T -> A -> outcome (G1 T)) n :
  (forall st x st', step st x = Ok st' -> snd st' = snd st + n) ->
  forall l st st', ofold step l st = Ok st' -> snd st' = snd st + length l * n.
Proof.
  intros K. induction l as [|x l IH]; intros st st' H; cbn [ofold] in H; [injection H as <-; cbn; lia|].
  apply obind_Ok in H as (s1 & E & H). apply K in E. apply IH in H. rewrite H, E. cbn [length]. lia.
Qed.

Lemma kp_ct_entry_bill (g : G1 C) attr s l e : kp_ct_entry (C := T) (e1 g) attr s l = Ok e -> snd e = 4.
Proof.
  unfold kp_ct_entry. intros H. apply (ofold_adds _ 2) in H; [exact H|]. clear. intros st x st' E.
  apply obind_Ok in E as (h & Hh & E). apply obind_Ok in E as (y & _ & E). injection E as <-.
  apply hash1_bill in Hh. cbn. rewrite Hh. cbn. lia.
Qed.

Theorem kp_encrypt_bill nonce (pk : ac_pk C) attrs data t i ct j :
  kp_encrypt (C := T) nonce (t_ac_pk pk) attrs data t i = Ok (ct, j) ->
  Forall (fun g : G2 T => snd g = 1) (act_c0 (akp_ct ct)) /\
  Forall (fun y : string * list (G1 T) => length (snd y) = 3 /\ Forall (fun g : G1 T => snd g = 4) (snd y)) (act_c (akp_ct ct)) /\
  snd (act_cp (akp_ct ct)) = (1, 3) /\
  act_ct (akp_ct ct) = (nonce ++ bill 1 1)%string.
Proof.
  unfold kp_encrypt. intros H. step H sc Hs. destruct sc as [s c0]. lift H c Hc. lift H cp Hp. step H m Hm. lift H d Hd.
  apply rret_Ok in H as (<- & _). cbn [akp_ct act_c0 act_c act_cp act_ct].
  apply drawn_bill in Hm. apply ac_cp_bill in Hp. apply draw_s_bill in Hs.
  split; [exact Hs|]. split; [|split; [cbn; now rewrite Hm, Hp|exact (sealed_bill _ _ _ _ _ _ Hm Hd)]].
  apply omap_Forall2 in Hc. clear -Hc. induction Hc as [|x y l1 l2 E _ IH]; constructor; [|exact IH].
  apply obind_Ok in E as (q & Hq & E). injection E as <-. cbn [snd]. apply omap_Forall2 in Hq. split.
  - apply Forall2_len2 in Hq. now rewrite <- Hq.
  - clear -Hq. induction Hq as [|a b l r E _ IH]; constructor; [|exact IH]. exact (kp_ct_entry_bill _ _ _ _ _ E).
Qed.

Lemma table_bill (g : G1 C) n table j x l y t e : hash_table (C := T) (e1 g) n = Ok table ->
  idx table j = Ok x -> idx x l = Ok y -> idx y t = Ok e -> snd e = 1.
Proof.
  assert (M : forall A B (f : A -> outcome B) l r i x, omap f l = Ok r -> idx r i = Ok x -> exists a, f a = Ok x).
  { intros A B f k r i z H I. unfold idx in I. destruct (nth_error r i) eqn:N; [|discriminate]. injection I as ->.
    apply omap_Forall2 in H. apply nth_error_In in N. clear -H N. induction H as [|a b k r E _ IH]; [destruct N|].
    destruct N as [->|N]; [eauto|auto]. }
  unfold hash_table. intros H X Y E. apply (M _ _ _ _ _ _ _ H) in X as (j' & X).
  apply (M _ _ _ _ _ _ _ X) in Y as (l' & Y). apply (M _ _ _ _ _ _ _ Y) in E as (t' & E).
  apply hash1_bill in E. exact E.
Qed.

Lemma row_bill (row : list Z) (round : G1 T -> nat -> outcome (G1 T)) : Forall small row ->
  (forall h j h', round h j = Ok h' -> exists z e, idx row j = Ok z /\ snd e = 1 /\ h' = entry_add (C := T) z h e) ->
  forall h h', ofold round (seq 0 (length row)) h = Ok h' -> snd h' = snd h + nonzero row.
Proof.
  intros S1 K. assert (G : forall b a, row = (a ++ b)%list -> forall h h',
    ofold round (seq (length a) (length b)) h = Ok h' -> snd h' = snd h + nonzero b).
  { induction b as [|z b IH]; intros a E h h' H; cbn [length seq ofold] in H; [injection H as <-; unfold nonzero; cbn; lia|].
    apply obind_Ok in H as (h1 & E1 & H). apply K in E1 as (z' & e & Z & He & ->).
    assert (z' = z). { unfold idx in Z. rewrite E, nth_error_app2, Nat.sub_diag in Z by lia. cbn in Z. congruence. } subst z'.
    specialize (IH (a ++ [z])%list). rewrite <- app_assoc in IH. specialize (IH E).
    rewrite app_length, Nat.add_1_r in IH. apply IH in H. rewrite H.
    assert (Sz : small z). { rewrite Forall_forall in S1. apply S1. rewrite E. apply in_elt. }
    unfold entry_add, nonzero. cbn [filter]. destruct Sz as [-> | [-> | ->]]; cbn; rewrite ?He; lia. }
  exact (G row [] eq_refl).
Qed.

Lemma cp_entry_bill (g : G1 C) table name row s l e : Forall small row ->
  hash_table (C := T) (e1 g) (length row) = Ok table ->
  cp_entry (C := T) (e1 g) table (length row) name row s l = Ok e -> snd e = 4 + 2 * nonzero row.
Proof.
  intros Sm Ht H. unfold cp_entry in H. apply (ofold_adds _ (2 + nonzero row)) in H; [rewrite H; cbn; lia|].
  clear H. intros st x st' E. apply obind_Ok in E as (h & Hh & E). apply obind_Ok in E as (h2 & H2 & E).
  apply obind_Ok in E as (y & _ & E). injection E as <-. apply hash1_bill in Hh.
  apply (row_bill row _ Sm) in H2.
  - cbn. rewrite H2, Hh. cbn. lia.
  - clear -Ht. intros h j h' J. apply obind_Ok in J as (z & Z & J). apply obind_Ok in J as (x0 & J1 & J).
    apply obind_Ok in J as (y0 & J2 & J). apply obind_Ok in J as (e & J3 & J). injection J as <-.
    exists z, e. split; [exact Z|]. split; [exact (table_bill _ _ _ _ _ _ _ _ _ Ht J1 J2 J3)|reflexivity].
Qed.

Theorem cp_encrypt_bill nonce (pk : ac_pk C) pol lang data t i ct j f msp :
  parse pol lang = Ok (tree f) -> binary_and f = true -> calculate_msp (tree f) = Ok msp ->
  cp_encrypt (C := T) nonce (t_ac_pk pk) pol data lang t i = Ok (ct, j) ->
  Forall (fun g : G2 T => snd g = 1) (act_c0 (acp_ct ct)) /\
  Forall2 (fun (row : list Z) (y : string * list (G1 T)) =>
    length (snd y) = 3 /\ Forall (fun g : G1 T => snd g = 4 + 2 * nonzero row) (snd y)) (msp_m msp) (act_c (acp_ct ct)) /\
  snd (act_cp (acp_ct ct)) = (1, 3) /\
  act_ct (acp_ct ct) = (nonce ++ bill 1 1)%string.
Proof.
  intros P B M H. unfold cp_encrypt in H. lift H v Hv. rewrite P in Hv. injection Hv as <-.
  rewrite M in H. lift H ms Hm. cbn in Hm. injection Hm as <-.
  rewrite (calculate_msp_eq f B) in M. injection M as <-. cbn [msp_m msp_pi] in *. set (R := sort_rows (rev (msp_rows f))) in *.
  lift H row0 Hr. assert (Hn : length row0 = msp_width f).
  { apply idx_Ok, nth_error_In in Hr. apply in_map_iff in Hr as (r & <- & Ir).
    apply (proj1 (sorted_In f r)) in Ir. now apply msp_rows_length. }
  rewrite Hn in H. step H sc Hs. destruct sc as [s c0]. lift H table Ht. lift H c Hc. lift H cp Hp. step H m Hm. lift H d Hd.
  apply rret_Ok in H as (<- & _). cbn [acp_ct act_c0 act_c act_cp act_ct].
  apply drawn_bill in Hm. apply ac_cp_bill in Hp. apply draw_s_bill in Hs.
  split; [exact Hs|]. split; [|split; [cbn; now rewrite Hm, Hp|exact (sealed_bill _ _ _ _ _ _ Hm Hd)]].
  rewrite map_length in Hc. rewrite (omap_rows R) in Hc. apply omap_Forall2 in Hc.
  assert (Sub : forall r, In r R -> In r (msp_rows f)) by (intros r; apply sorted_In).
  clearbody R. clear - Hc Sub Ht B. induction Hc as [|r e R c E _ IH]; cbn [map]; [constructor|].
  constructor; [|apply IH; intros; apply Sub; now right].
  apply obind_Ok in E as (q & Eq & E). injection E as <-. cbn [snd].
  assert (Ir : In r (msp_rows f)) by (apply Sub; now left).
  assert (Len := msp_rows_length f r Ir). assert (Sm := msp_rows_small f r B Ir). rewrite <- Len in Eq, Ht.
  apply omap_Forall2 in Eq. split; [apply Forall2_len2 in Eq; now rewrite <- Eq|].
  clear -Eq Ht Sm. induction Eq as [|a b l k E _ IH]; constructor; [|exact IH].
  exact (cp_entry_bill _ _ _ _ _ _ _ Sm Ht E).
Qed.

End BillsEncrypt.
