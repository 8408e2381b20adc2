(** * Proofs about the AC17 schemes *)
From Coq Require Import String List Bool Arith Lia ZArith Field Sorting.Permutation.
From Verif Require Import Base Crypto Policy Tools Sharing Spec PolicyProofs Poly
  SharingProofs Symmetric Parse Msp MspProofs SchemeLib Ac17.
Import ListNotations.

(** Take a successful [obind] apart. *)
Ltac oinv H :=
  let a := fresh "a" in let E := fresh "E" in
  apply obind_Ok in H as (a & E & H).

Lemma idx_Ok {A} (l : list A) i x : idx l i = Ok x <-> nth_error l i = Some x.
Proof. unfold idx. destruct (nth_error l i); cbn; split; congruence. Qed.

Lemma idx_lt {A} (l : list A) i d : i < length l -> idx l i = Ok (nth i l d).
Proof. intros H. apply idx_Ok. now apply nth_error_nth'. Qed.

Lemma idx_nth {A} (l : list A) i x d : idx l i = Ok x -> i < length l /\ x = nth i l d.
Proof.
  intros H. apply idx_Ok in H. split; [apply nth_error_Some; congruence|].
  symmetry. now apply nth_error_nth.
Qed.

Lemma idx_app {A} (l r : list A) x : idx (l ++ x :: r) (length l) = Ok x.
Proof. apply idx_Ok. rewrite nth_error_app2 by lia. now rewrite Nat.sub_diag. Qed.

(** Loops over row numbers are loops over the rows. *)
Lemma omap_rows {B} (R : list (string * list Z)) (k : string -> list Z -> outcome B) :
  omap (fun i => obind (idx (map fst R) i) (fun n => obind (idx (map snd R) i) (k n)))
       (seq 0 (length R)) = omap (fun r => k (fst r) (snd r)) R.
Proof.
  assert (G : forall B0 A0, omap (fun i => obind (idx (map fst (A0 ++ B0)) i) (fun n =>
      obind (idx (map snd (A0 ++ B0)) i) (k n))) (seq (length A0) (length B0)) =
      omap (fun r => k (fst r) (snd r)) B0).
  { induction B0 as [|r B0 IH]; intros A0; [reflexivity|].
    cbn [length seq omap]. rewrite !map_app. cbn [map].
    rewrite <- (map_length fst A0) at 1. rewrite idx_app. cbn [obind].
    rewrite <- (map_length snd A0) at 1. rewrite idx_app. cbn [obind].
    specialize (IH (A0 ++ [r])). rewrite app_length in IH. cbn in IH. rewrite Nat.add_1_r in IH.
    rewrite <- app_assoc in IH. cbn [app] in IH. rewrite !map_app in IH. cbn [map] in IH.
    rewrite IH. reflexivity. }
  apply (G R []).
Qed.

Lemma rmap_rows {F B} (R : list (string * list Z)) (k : string -> list Z -> rand F B) t :
  forall i, rmap (fun i => rbind (rlift (idx (map fst R) i)) (fun n =>
                  rbind (rlift (idx (map snd R) i)) (k n))) (seq 0 (length R)) t i
   = rmap (fun r => k (fst r) (snd r)) R t i.
Proof.
  assert (G : forall B0 A0 i, rmap (fun i => rbind (rlift (idx (map fst (A0 ++ B0)) i)) (fun n =>
      rbind (rlift (idx (map snd (A0 ++ B0)) i)) (k n))) (seq (length A0) (length B0)) t i =
      rmap (fun r => k (fst r) (snd r)) B0 t i).
  { induction B0 as [|r B0 IH]; intros A0 i; [reflexivity|].
    cbn [length seq rmap]. rewrite !map_app. cbn [map].
    specialize (IH (A0 ++ [r])). rewrite app_length in IH. cbn in IH. rewrite Nat.add_1_r in IH.
    rewrite <- app_assoc in IH. cbn [app] in IH. rewrite !map_app in IH. cbn [map] in IH.
    unfold rbind at 1 2 3. unfold rlift at 1. rewrite <- (map_length fst A0) at 1. rewrite idx_app.
    unfold rlift at 1. rewrite <- (map_length snd A0) at 1. rewrite idx_app.
    unfold rbind at 4. destruct (k (fst r) (snd r) t i) as [[y j]| |]; [|reflexivity|reflexivity].
    unfold rbind at 1 4. rewrite IH. reflexivity. }
  apply (G R []).
Qed.

Section Ac17Proofs.
Context {C : crypto} (L : laws C).
Local Open Scope F_scope.
Add Field ac17_field : (f_theory L).
Notation F := (F C).

Ltac logs := log_simpl L.

(** The hash of a text as a scalar. *)
Definition hv (s : string) : F := match hash C s with Some h => h | None => 0 end.

Lemma hash_g1_Ok (g p : G1 C) s : sha3_hash_g1 g s = Ok p -> log1 L p = log1 L g * hv s.
Proof.
  unfold sha3_hash_g1, hv. destruct (hash C s); [|discriminate].
  intros H. injection H as <-. logs. ring.
Qed.

(** Hash vector of a label for column [t] of the assumption matrix. *)
Definition W (x : string) (x0 x1 x2 : F) (t : nat) : F :=
  hv (lab x 0 t) * x0 + hv (lab x 1 t) * x1 + hv (lab x 2 t) * x2.

Lemma hash_prod_log (g : G1 C) x x0 x1 x2 at' t acc p :
  hash_prod g x [x0; x1; x2] at' t acc = Ok p ->
  log1 L p = log1 L acc + log1 L g * W x x0 x1 x2 t * at'.
Proof.
  unfold hash_prod, ls, asz. cbn [seq Nat.add ofold]. intros H.
  repeat match goal with
  | H : obind ?m ?k = Ok ?z |- _ => apply obind_Ok in H as (? & ? & H)
  | H : unwrap_res ?m = Ok _ |- _ =>
      let E := fresh in destruct m eqn:E in H; try discriminate; cbn in H; injection H as <-
  | H : Ok _ = Ok _ |- _ => injection H as <-
  end.
  cbn in *.
  repeat match goal with
  | H : sha3_hash_g1 _ _ = Ok _ |- _ => apply hash_g1_Ok in H
  | H : Ok _ = Ok _ |- _ => injection H as <-
  end.
  logs. repeat match goal with H : log1 L _ = _ |- _ => rewrite H; clear H end.
  unfold W. ring.
Qed.

(** Master keys in explicit form. *)
Definition ac_keys (pk : ac_pk C) (msk : ac_msk C) (a0 a1 b0 b1 k0 k1 k2 : F) : Prop :=
  exists g h,
  pk = AcPk g [g2mul C h a0; g2mul C h a1; h]
         [gtpow C (pairing C g h) (k0 * a0 + k2); gtpow C (pairing C g h) (k1 * a1 + k2)] /\
  msk = AcMsk g h [g1mul C g k0; g1mul C g k1; g1mul C g k2] [a0; a1] [b0; b1].

Lemma ac_setup_keys t i (pk : ac_pk C) msk j : ac_setup t i = Ok ((pk, msk), j) ->
  exists a0 a1 b0 b1 k0 k1 k2, ac_keys pk msk a0 a1 b0 b1 k0 k1 k2.
Proof.
  unfold ac_setup, draw_g1, draw_g2, rbind, rret, rlift, draw. cbn.
  intros H. injection H as <- <- _. unfold ac_keys. do 7 eexists. do 2 eexists.
  split; reflexivity.
Qed.

Lemma draw_br_inv (pk : ac_pk C) msk a0 a1 b0 b1 k0 k1 k2 t i br j :
  ac_keys pk msk a0 a1 b0 b1 k0 k1 k2 -> draw_br msk t i = Ok (br, j) ->
  exists x0 x1 x2, br = [x0; x1; x2].
Proof.
  intros (g & h & -> & ->). unfold draw_br, rbind, rret, rlift, draw. cbn.
  intros H. injection H as <- _. eauto.
Qed.

Lemma draw_s_inv (pk : ac_pk C) msk a0 a1 b0 b1 k0 k1 k2 t i s c0 j :
  ac_keys pk msk a0 a1 b0 b1 k0 k1 k2 -> draw_s pk t i = Ok ((s, c0), j) ->
  exists s0 s1 u0 u1 u2, s = [s0; s1] /\ c0 = [u0; u1; u2] /\
    log2 L u0 = log2 L (amsk_h msk) * a0 * s0 /\ log2 L u1 = log2 L (amsk_h msk) * a1 * s1 /\
    log2 L u2 = log2 L (amsk_h msk) * (s0 + s1) /\ j = (i + 2)%nat.
Proof.
  intros (g & h & -> & ->). unfold draw_s, rbind, rret, rlift, draw. cbn.
  intros H. injection H as <- <- <-. do 5 eexists. repeat split; try lia; logs; ring.
Qed.

Lemma ac_k0_inv (pk : ac_pk C) msk a0 a1 b0 b1 k0 k1 k2 x0 x1 x2 l :
  ac_keys pk msk a0 a1 b0 b1 k0 k1 k2 -> ac_k0 msk [x0; x1; x2] = Ok l ->
  l = [g2mul C (amsk_h msk) x0; g2mul C (amsk_h msk) x1; g2mul C (amsk_h msk) x2].
Proof.
  intros (g & h & -> & ->). unfold ac_k0. cbn. intros H. now injection H as <-.
Qed.

Lemma ac_cp_inv (pk : ac_pk C) msk a0 a1 b0 b1 k0 k1 k2 s0 s1 c :
  ac_keys pk msk a0 a1 b0 b1 k0 k1 k2 -> ac_cp pk [s0; s1] = Ok c ->
  logT L c = log1 L (apk_g pk) * log2 L (amsk_h msk) * ((k0 * a0 + k2) * s0 + (k1 * a1 + k2) * s1).
Proof.
  intros (g & h & -> & ->). unfold ac_cp. cbn. intros H. injection H as <-. logs. ring.
Qed.

(** ** Sums over the entries with a given name *)

Fixpoint evl (entries : list (string * list (G1 C))) (i : nat) (n : string) : F :=
  match entries with
  | [] => 0
  | e :: r => (if seqb (fst e) n then log1 L (nth i (snd e) (g1zero C)) else 0) + evl r i n
  end.

Lemma select_sum_log entries i sel :
  Forall (fun e => (i < length (snd e))%nat) entries ->
  exists u, select_sum entries i sel = Ok u /\
    log1 L u = fsum (map (fun x => evl entries i (fst x)) sel).
Proof.
  intros H. unfold select_sum.
  assert (X : forall n es acc, Forall (fun e : string * list (G1 C) => (i < length (snd e))%nat) es -> exists u,
    ofold (fun acc e => if seqb (fst e) n
                        then obind (idx (snd e) i) (fun x => Ok (g1add C acc x))
                        else Ok acc) es acc = Ok u /\ log1 L u = log1 L acc + evl es i n).
  { intros n. induction es as [|e es IH]; intros acc He; cbn [ofold evl].
    - exists acc. split; [reflexivity|ring].
    - inversion He as [|? ? H1 H2]; subst. destruct (seqb (fst e) n).
      + rewrite (idx_lt _ _ (g1zero C) H1). cbn [obind].
        destruct (IH (g1add C acc (nth i (snd e) (g1zero C))) H2) as (u & -> & V).
        exists u. split; [reflexivity|]. rewrite V. logs. ring.
      + cbn [obind]. destruct (IH acc H2) as (u & -> & V). exists u. split; [reflexivity|].
        rewrite V. ring. }
  assert (Y : forall sel acc, exists u,
    ofold (fun acc cur => ofold (fun acc e => if seqb (fst e) (fst cur)
                        then obind (idx (snd e) i) (fun x => Ok (g1add C acc x))
                        else Ok acc) entries acc) sel acc = Ok u /\
    log1 L u = log1 L acc + fsum (map (fun x : string * string => evl entries i (fst x)) sel)).
  { clear sel. induction sel as [|x sel IH]; intros acc; cbn [ofold map fsum].
    - exists acc. split; [reflexivity|ring].
    - destruct (X (fst x) entries acc H) as (v & -> & V). cbn [obind].
      destruct (IH v) as (u & -> & V'). exists u. split; [reflexivity|]. rewrite V', V. ring. }
  destruct (Y sel (g1zero C)) as (u & E & V). exists u. split; [exact E|]. rewrite V. logs. ring.
Qed.

Lemma evl_none entries i n : ~ In n (map fst entries) -> evl entries i n = 0.
Proof.
  induction entries as [|e r IH]; cbn [evl map]; intros H; [reflexivity|].
  destruct (seqb (fst e) n) eqn:E.
  - apply seqb_eq in E. exfalso. apply H. now left.
  - rewrite IH; [ring|]. intros I. apply H. now right.
Qed.

Lemma evl_distinct {A} (h : A -> string) (v : A -> nat -> F) xs entries :
  Forall2 (fun x e => fst e = h x /\ length (snd e) = 3%nat /\
             forall i, (i < 3)%nat -> log1 L (nth i (snd e) (g1zero C)) = v x i) xs entries ->
  NoDup (map h xs) -> forall x i, In x xs -> (i < 3)%nat -> evl entries i (h x) = v x i.
Proof.
  induction 1 as [|a e xs entries (E1 & E2 & E3) R IH]; intros ND x i I Hi; [contradiction|].
  inversion ND as [|? ? Nin ND']; subst. cbn [evl]. rewrite E1.
  assert (Nm : map fst entries = map h xs).
  { clear - R. induction R as [|a e xs entries (E & _) _ IH]; cbn; congruence. }
  destruct I as [->|I].
  - rewrite seqb_refl, E3 by exact Hi. rewrite evl_none; [ring|]. now rewrite Nm.
  - destruct (seqb (h a) (h x)) eqn:B.
    + apply seqb_eq in B. exfalso. apply Nin. rewrite B. now apply in_map.
    + rewrite IH; auto. ring.
Qed.

Lemma fsum_add {A} (u v : A -> F) l :
  fsum (map (fun x => u x + v x) l) = fsum (map u l) + fsum (map v l).
Proof. induction l; cbn; [ring|rewrite IHl; ring]. Qed.

(** Values attached to names agree with values attached to matrix rows. *)
Lemma select_rows own f (val : string -> F) (g : string * list Z -> F) :
  binary_and f = true -> (forall r, In r (msp_rows f) -> val (fst r) = g r) ->
  fsum (map (fun x => val (fst x)) (map leaf_pair (sel (pmask own f) (leaves f)))) =
  fsum (map g (sel (pmask own f) (msp_rows f))).
Proof.
  intros B H. rewrite map_map. cbn [leaf_pair fst].
  transitivity (fsum (map val (sel (pmask own f) (names f)))).
  - unfold names. rewrite sel_map, map_map. reflexivity.
  - rewrite <- (msp_rows_names f B), sel_map, map_map. f_equal. apply map_ext_in.
    intros r I. apply H. now apply sel_incl in I.
Qed.

Lemma binary_arity2 f : binary_and f = true -> arity2 f = true.
Proof.
  intros B. pattern f. apply binary_ind; [..|exact B]; clear f B.
  - reflexivity.
  - intros a b _ _ Ha Hb. cbn. now rewrite Ha, Hb.
  - intros l H _ IH. cbn. apply andb_true_intro. split; [destruct (length l) as [|[|n]]; [lia|lia|reflexivity]|].
    apply forallb_forall. now apply Forall_forall.
Qed.

(** ** Ciphertext-policy variant *)

Definition key_entry (G : F) (a0 a1 x0 x1 x2 : F) (e : string * list (G1 C)) (n : string) : Prop :=
  fst e = n /\ exists p0 p1 p2, snd e = [p0; p1; p2] /\
    log1 L p0 = (G * W n x0 x1 x2 0 - log1 L p2) * finv C a0 /\
    log1 L p1 = (G * W n x0 x1 x2 1 - log1 L p2) * finv C a1.

Lemma cp_keygen_inv (pk : ac_pk C) msk a0 a1 b0 b1 k0 k1 k2 attrs t i sk j :
  ac_keys pk msk a0 a1 b0 b1 k0 k1 k2 ->
  cp_keygen msk attrs t i = Ok (sk, j) ->
  attrs <> [] /\ a0 <> 0 /\ a1 <> 0 /\
  exists x0 x1 x2 sg q0 q1 q2,
    acps_attr sk = attrs /\
    ask_k0 (acps_sk sk) = [g2mul C (amsk_h msk) x0; g2mul C (amsk_h msk) x1; g2mul C (amsk_h msk) x2] /\
    Forall2 (fun n e => key_entry (log1 L (amsk_g msk)) a0 a1 x0 x1 x2 e n) attrs (ask_k (acps_sk sk)) /\
    ask_kp (acps_sk sk) = [q0; q1; q2] /\
    log1 L q0 = log1 L (amsk_g msk) * (k0 + (W "01" x0 x1 x2 0 + sg) * finv C a0) /\
    log1 L q1 = log1 L (amsk_g msk) * (k1 + (W "01" x0 x1 x2 1 + sg) * finv C a1) /\
    log1 L q2 = log1 L (amsk_g msk) * (k2 - sg).
Proof.
  intros K H. unfold cp_keygen in H. destruct attrs as [|n0 at0]; [discriminate|].
  set (attrs := n0 :: at0) in *. split; [discriminate|].
  apply rbind_Ok in H as (br & i1 & Hbr & H).
  destruct (draw_br_inv _ _ _ _ _ _ _ _ _ _ _ _ _ K Hbr) as (x0 & x1 & x2 & ->).
  apply rbind_Ok in H as (kk & i2 & Hk & H). apply rlift_Ok in Hk as [Hk <-].
  apply (ac_k0_inv _ _ _ _ _ _ _ _ _ _ _ _ _ K) in Hk. subst kk.
  apply rbind_Ok in H as (k & i3 & Hkk & H).
  apply rbind_Ok in H as (sg & i4 & Hsg & H). injection Hsg as <- <-.
  apply rbind_Ok in H as (kp & i5 & Hkp & H). apply rlift_Ok in Hkp as [Hkp <-].
  apply rbind_Ok in H as (g2 & i6 & Hg2 & H). apply rlift_Ok in Hg2 as [Hg2 <-].
  apply rret_Ok in H as [<- _]. destruct K as (g & h & -> & ->). cbn [amsk_a amsk_g amsk_gk amsk_h] in *.
  unfold ts, asz in Hkp. cbn [seq omap] in Hkp.
  cbn [idx nth_error unwrap obind] in Hkp.
  destruct (finv_opt a0) as [y0|] eqn:E0; [|discriminate]. cbn [unwrap obind] in Hkp.
  apply obind_Ok in Hkp as (w0 & Hw0 & Hkp). apply obind_Ok in Hw0 as (v0 & Hv0 & Hw0).
  injection Hw0 as <-. apply obind_Ok in Hkp as (rest & Hr & Hkp). injection Hkp as <-.
  destruct (finv_opt a1) as [y1|] eqn:E1; [|discriminate]. cbn [unwrap obind] in Hr.
  apply obind_Ok in Hr as (w1 & Hw1 & Hr). apply obind_Ok in Hw1 as (v1 & Hv1 & Hw1).
  injection Hw1 as <-. injection Hr as <-. cbn in Hg2. injection Hg2 as <-.
  pose proof (finv_opt_Some L _ _ E0) as (N0 & ->). pose proof (finv_opt_Some L _ _ E1) as (N1 & ->).
  apply hash_prod_log in Hv0, Hv1.
  split; [exact N0|]. split; [exact N1|].
  exists x0, x1, x2, (t i3). do 3 eexists. cbn [acps_attr acps_sk ask_k0 ask_k ask_kp app].
  split; [reflexivity|]. split; [reflexivity|]. split.
  - apply rmap_Forall2 in Hkk. eapply Forall2_impl; [|exact Hkk].
    intros n e (p & q & He).
    apply rbind_Ok in He as (sa & j1 & Hsa & He). injection Hsa as <- <-.
    apply rbind_Ok in He as (key & j2 & Hkey & He). apply rlift_Ok in Hkey as [Hkey <-].
    apply rret_Ok in He as [<- _]. split; [reflexivity|].
    unfold ts, asz in Hkey. cbn [seq omap idx nth_error unwrap obind] in Hkey.
    rewrite E0, E1 in Hkey. cbn [unwrap obind] in Hkey.
    apply obind_Ok in Hkey as (w0 & Hw0 & Hkey). apply obind_Ok in Hw0 as (z0 & Hz0 & Hw0).
    injection Hw0 as <-. apply obind_Ok in Hkey as (rest & Hr & Hkey). injection Hkey as <-.
    apply obind_Ok in Hr as (w1 & Hw1 & Hr). apply obind_Ok in Hw1 as (z1 & Hz1 & Hw1).
    injection Hw1 as <-. injection Hr as <-.
    apply hash_prod_log in Hz0, Hz1. do 3 eexists. split; [reflexivity|].
    split; logs; [rewrite Hz0|rewrite Hz1]; logs; ring.
  - split; [reflexivity|]. repeat split; logs; [rewrite Hv0|rewrite Hv1|]; logs; ring.
Qed.

(** Entries of a row times the column values. *)
Lemma dot_seq (row : list Z) (w : nat -> F) : forall k,
  fsum (map (fun j => zf (nth (j - k) row 0%Z) * w j) (seq k (length row))) = dot_from k row w.
Proof.
  induction row as [|z row IH]; intros k; cbn [length seq map fsum dot_from]; [reflexivity|].
  rewrite Nat.sub_diag. cbn [nth]. f_equal. rewrite <- IH. apply (fsum_map_ext).
  intros j Hj. apply in_seq in Hj. replace (j - k)%nat with (S (j - S k)) by lia. reflexivity.
Qed.

Lemma entry_add_log z (acc x : G1 C) : small z ->
  log1 L (entry_add z acc x) = log1 L acc + zf z * log1 L x.
Proof.
  intros [->|[->| ->]]; cbn; logs; ring.
Qed.

(** A column loop that adds [x j] according to the row entry. *)
Lemma row_loop (row : list Z) (step : G1 C -> nat -> outcome (G1 C)) (w : nat -> F) js :
  Forall small row ->
  (forall acc j r, In j js -> step acc j = Ok r -> exists z x, idx row j = Ok z /\
     r = entry_add z acc x /\ log1 L x = w j) ->
  forall acc r, ofold step js acc = Ok r ->
  log1 L r = log1 L acc + fsum (map (fun j => zf (nth j row 0%Z) * w j) js).
Proof.
  intros Sm. induction js as [|j js IH]; intros H acc r E; cbn [ofold map fsum] in *.
  - injection E as <-. ring.
  - apply obind_Ok in E as (acc' & E1 & E).
    destruct (H acc j acc' (or_introl eq_refl) E1) as (z & x & Ez & -> & Vx).
    rewrite (IH (fun a b c d => H a b c (or_intror d)) _ _ E).
    destruct (idx_nth _ _ _ 0%Z Ez) as (Hj & ->).
    rewrite entry_add_log, Vx; [ring|]. rewrite Forall_forall in Sm. apply Sm. now apply nth_In.
Qed.

Lemma hash_table_inv (g : G1 C) n table : hash_table g n = Ok table ->
  forall j l t x y e, In l ls -> In t ts -> idx table j = Ok x -> idx x l = Ok y -> idx y t = Ok e ->
  log1 L e = log1 L g * hv (lab (col (j + 1)) l t).
Proof.
  intros H j l t x y e Il It Hx Hy He. unfold hash_table in H.
  assert (J : forall A B (f : A -> outcome B) (l : list A) r i y, omap f l = Ok r -> idx r i = Ok y ->
    exists x, nth_error l i = Some x /\ f x = Ok y).
  { clear. intros A B f l r i y H. apply omap_Forall2 in H. revert i y.
    induction H as [|a b l r E _ IH]; intros [|i] y Hy; try discriminate.
    - cbn in *. injection Hy as <-. eauto.
    - apply IH. exact Hy. }
  destruct (J _ _ _ _ _ _ _ H Hx) as (j' & Ej & H1).
  assert (j' = j).
  { pose proof (nth_error_nth' (seq 0 n) 0%nat (n := j)) as N.
    assert (Hj : (j < length (seq 0 n))%nat) by (apply nth_error_Some; congruence).
    rewrite (N Hj), seq_nth in Ej by (rewrite seq_length in Hj; exact Hj). injection Ej as <-. reflexivity. }
  subst j'.
  destruct (J _ _ _ _ _ _ _ H1 Hy) as (l' & El & H2).
  destruct (J _ _ _ _ _ _ _ H2 He) as (t' & Et & H3).
  assert (l' = l).
  { unfold ls, asz in Il, El. cbn in Il, El. intuition subst; cbn in El; congruence. }
  assert (t' = t).
  { unfold ts, asz in It, Et. cbn in It, Et. intuition subst; cbn in Et; congruence. }
  subst. now apply hash_g1_Ok.
Qed.

(** Column values for entry [l], [t]. *)
Definition colv (l t : nat) (j : nat) : F := hv (lab (col (j + 1)) l t).

Lemma cp_entry_log (g : G1 C) table n name row s0 s1 l q :
  hash_table g n = Ok table -> length row = n -> Forall small row -> In l ls ->
  cp_entry g table n name row [s0; s1] l = Ok q ->
  log1 L q = log1 L g * ((hv (lab name l 0) + dot row (colv l 0)) * s0 +
                         (hv (lab name l 1) + dot row (colv l 1)) * s1).
Proof.
  intros HT Len Sm Il H. unfold cp_entry, ts, asz in H. cbn [seq ofold] in H.
  assert (X : forall t h0 h, In t ts ->
    ofold (fun hash j => obind (idx row j) (fun z => obind (idx table j) (fun x =>
       obind (idx x l) (fun y => obind (idx y t) (fun e => Ok (entry_add z hash e)))))) (seq 0 n) h0 = Ok h ->
    log1 L h = log1 L h0 + log1 L g * dot row (colv l t)).
  { intros t h0 h It E. erewrite (row_loop row _ (fun j => log1 L g * colv l t j)); [|exact Sm| |exact E].
    - f_equal. subst n. unfold dot. rewrite <- (dot_seq row _ 0%nat). rewrite <- (fsum_scale L).
      apply fsum_map_ext. intros j _. rewrite Nat.sub_0_r. ring.
    - intros acc j r Ij E1. apply obind_Ok in E1 as (z & Ez & E1). apply obind_Ok in E1 as (x & Ex & E1).
      apply obind_Ok in E1 as (y & Ey & E1). apply obind_Ok in E1 as (e & Ee & E1). injection E1 as <-.
      exists z, e. split; [exact Ez|]. split; [reflexivity|].
      now rewrite (hash_table_inv _ _ _ HT _ _ _ _ _ _ Il It Ex Ey Ee). }
  apply obind_Ok in H as (q0 & H0 & H).
  apply obind_Ok in H0 as (h0 & Hh0 & H0). apply obind_Ok in H0 as (u0 & Hu0 & H0).
  cbn in H0. injection H0 as <-.
  apply obind_Ok in H as (q1 & H1 & H). injection H as <-.
  apply obind_Ok in H1 as (h1 & Hh1 & H1). apply obind_Ok in H1 as (u1 & Hu1 & H1).
  cbn in H1. injection H1 as <-.
  apply X in Hu0; [|cbn; auto]. apply X in Hu1; [|cbn; auto].
  apply hash_g1_Ok in Hh0, Hh1. logs. rewrite Hu0, Hu1, Hh0, Hh1. ring.
Qed.

Definition ct_entry (G s0 s1 : F) (r : string * list Z) (e : string * list (G1 C)) : Prop :=
  fst e = fst r /\ length (snd e) = 3%nat /\
  forall l, (l < 3)%nat -> log1 L (nth l (snd e) (g1zero C)) =
     G * ((hv (lab (fst r) l 0) + dot (snd r) (colv l 0)) * s0 +
          (hv (lab (fst r) l 1) + dot (snd r) (colv l 1)) * s1).

Lemma sorted_In f r : In r (sort_rows (rev (msp_rows f))) <-> In r (msp_rows f).
Proof.
  pose proof (msp_rows_perm f _ eq_refl) as P. split; intros I.
  - eapply Permutation_in; [apply Permutation_sym; exact P|exact I].
  - eapply Permutation_in; [exact P|exact I].
Qed.

Lemma cp_encrypt_inv nonce (pk : ac_pk C) msk a0 a1 b0 b1 k0 k1 k2 pol lang data t i ct j f :
  ac_keys pk msk a0 a1 b0 b1 k0 k1 k2 -> parse pol lang = Ok (tree f) -> binary_and f = true ->
  cp_encrypt nonce pk pol data lang t i = Ok (ct, j) ->
  exists s0 s1 u0 u1 u2 msg,
    acp_policy ct = (pol, lang) /\
    act_c0 (acp_ct ct) = [u0; u1; u2] /\
    log2 L u0 = log2 L (amsk_h msk) * a0 * s0 /\ log2 L u1 = log2 L (amsk_h msk) * a1 * s1 /\
    log2 L u2 = log2 L (amsk_h msk) * (s0 + s1) /\
    Forall2 (ct_entry (log1 L (amsk_g msk)) s0 s1) (sort_rows (rev (msp_rows f))) (act_c (acp_ct ct)) /\
    logT L (act_cp (acp_ct ct)) =
      log1 L (amsk_g msk) * log2 L (amsk_h msk) * ((k0 * a0 + k2) * s0 + (k1 * a1 + k2) * s1) + logT L msg /\
    encrypt_symmetric nonce msg data = Ok (act_ct (acp_ct ct)) /\
    msg = gtpow C (pairing C (g1one C) (g2one C)) (t (i + 2)%nat).
Proof.
  intros K P B H. unfold cp_encrypt in H. rewrite P in H.
  apply rbind_Ok in H as (v & i1 & Hv & H). apply rlift_Ok in Hv as [Hv <-]. injection Hv as <-.
  rewrite (calculate_msp_eq f B) in H.
  apply rbind_Ok in H as (msp & i2 & Hm & H). apply rlift_Ok in Hm as [Hm <-]. injection Hm as <-.
  cbn [msp_m msp_pi] in H. set (R := sort_rows (rev (msp_rows f))) in *.
  apply rbind_Ok in H as (row0 & i3 & Hr & H). apply rlift_Ok in Hr as [Hr <-].
  assert (Hn : length row0 = msp_width f).
  { apply idx_Ok, nth_error_In in Hr. apply in_map_iff in Hr as (r & <- & Ir).
    apply (proj1 (sorted_In f r)) in Ir. now apply msp_rows_length. }
  rewrite Hn in H.
  apply rbind_Ok in H as ([s c0] & i4 & Hs & H).
  destruct (draw_s_inv _ _ _ _ _ _ _ _ _ _ _ _ _ _ K Hs) as (s0 & s1 & u0 & u1 & u2 & -> & -> & U0 & U1 & U2 & Ei).
  apply rbind_Ok in H as (table & i5 & Ht & H). apply rlift_Ok in Ht as [Ht <-].
  apply rbind_Ok in H as (c & i6 & Hc & H). apply rlift_Ok in Hc as [Hc <-].
  apply rbind_Ok in H as (cp & i7 & Hcp & H). apply rlift_Ok in Hcp as [Hcp <-].
  apply rbind_Ok in H as (msg & i8 & Hmsg & H).
  apply rbind_Ok in H as (d & i9 & Hd & H). apply rlift_Ok in Hd as [Hd <-].
  assert (Em : msg = gtpow C (pairing C (g1one C) (g2one C)) (t (i + 2)%nat))
    by (unfold draw_gt, rbind, draw, rret in Hmsg; injection Hmsg as <- _; now rewrite Ei).
  apply rret_Ok in H as [<- _]. cbn [acp_policy acp_ct act_c0 act_c act_cp act_ct].
  apply (ac_cp_inv _ _ _ _ _ _ _ _ _ _ _ _ K) in Hcp.
  exists s0, s1, u0, u1, u2, msg. repeat split; auto.
  - rewrite map_length in Hc. rewrite (omap_rows R) in Hc.
    apply omap_Forall2 in Hc.
    assert (Sub : forall r, In r R -> In r (msp_rows f)) by (intros r; apply sorted_In).
    clearbody R. clear - Hc Sub Ht B K.
    assert (Eg : apk_g pk = amsk_g msk) by (destruct K as (g & h & -> & ->); reflexivity).
    induction Hc as [|r e R c E _ IH]; [constructor|].
    constructor; [|apply IH; intros; apply Sub; now right].
    apply obind_Ok in E as (q & Eq & E). injection E as <-.
    assert (Ir : In r (msp_rows f)) by (apply Sub; now left).
    pose proof (msp_rows_length f r Ir) as Len. pose proof (msp_rows_small f r B Ir) as Sm.
    unfold ls, asz in Eq. cbn [seq Nat.add omap] in Eq.
    apply obind_Ok in Eq as (q0 & Q0 & Eq). apply obind_Ok in Eq as (r1 & Q1' & Eq).
    apply obind_Ok in Q1' as (q1 & Q1 & Q1'). apply obind_Ok in Q1' as (r2 & Q2' & Q1').
    apply obind_Ok in Q2' as (q2 & Q2 & Q2'). injection Q2' as <-. injection Q1' as <-. injection Eq as <-.
    apply (cp_entry_log _ _ _ _ _ _ _ _ _ Ht Len Sm) in Q0; [|cbn; auto].
    apply (cp_entry_log _ _ _ _ _ _ _ _ _ Ht Len Sm) in Q1; [|cbn; auto].
    apply (cp_entry_log _ _ _ _ _ _ _ _ _ Ht Len Sm) in Q2; [|cbn; auto].
    rewrite Eg in *. split; [reflexivity|]. split; [reflexivity|].
    intros l Hl. destruct l as [|[|[|l]]]; cbn [snd nth]; auto. lia.
  - logs. rewrite Hcp. destruct K as (g & h & -> & ->). reflexivity.
Qed.

Lemma names_sorted f : binary_and f = true -> NoDup (names f) ->
  NoDup (map fst (sort_rows (rev (msp_rows f)))).
Proof.
  intros B ND. eapply Permutation_NoDup; [|exact ND]. rewrite <- (msp_rows_names f B).
  apply Permutation_map. apply msp_rows_perm. reflexivity.
Qed.

Lemma cp_opens nonce (pk : ac_pk C) msk attrs sk pol lang data ct f ts is js tk ik jk te ie je :
  ac_setup ts is = Ok ((pk, msk), js) ->
  cp_keygen msk attrs tk ik = Ok (sk, jk) ->
  cp_encrypt nonce pk pol data lang te ie = Ok (ct, je) ->
  parse pol lang = Ok (tree f) ->
  binary_and f = true -> NoDup (names f) -> NoDup attrs ->
  sat (owns attrs) f = true ->
  exists ps,
    ac_products (acps_sk sk) (acp_ct ct) false (map leaf_pair (sel (pmask (owns attrs) f) (leaves f))) = Ok ps /\
    gtmul C (act_cp (acp_ct ct)) (gtmul C (snd ps) (gtinv C (fst ps))) =
      gtpow C (pairing C (g1one C) (g2one C)) (te (ie + 2)%nat) /\
    encrypt_symmetric nonce (gtpow C (pairing C (g1one C) (g2one C)) (te (ie + 2)%nat)) data = Ok (act_ct (acp_ct ct)) /\
    attrs <> [] /\ acp_policy ct = (pol, lang) /\ acps_attr sk = attrs.
Proof.
  intros Hs Hk He P B ND NA S.
  apply ac_setup_keys in Hs as (a0 & a1 & b0 & b1 & k0 & k1 & k2 & K).
  destruct (cp_keygen_inv _ _ _ _ _ _ _ _ _ _ _ _ _ _ K Hk)
    as (NE & N0 & N1 & x0 & x1 & x2 & sg & q0 & q1 & q2 & A1 & A2 & A3 & A4 & V0 & V1 & V2).
  destruct (cp_encrypt_inv _ _ _ _ _ _ _ _ _ _ _ _ _ _ _ _ _ _ K P B He)
    as (s0 & s1 & u0 & u1 & u2 & msg & E1 & E2 & U0 & U1 & U2 & E3 & E4 & E5 & Em).
  set (G := log1 L (amsk_g msk)) in *. set (H := log2 L (amsk_h msk)) in *.
  pose proof (binary_arity2 f B) as A.
  set (pr := map leaf_pair (sel (pmask (owns attrs) f) (leaves f))).
  assert (Lc : forall i, (i < 3)%nat -> Forall (fun e => (i < length (snd e))%nat) (act_c (acp_ct ct))).
  { intros i Hi. clear - E3 Hi. induction E3 as [|r e R c (_ & Le & _) _ IH]; constructor; [lia|exact IH]. }
  assert (Lk : forall i, (i < 3)%nat -> Forall (fun e => (i < length (snd e))%nat) (ask_k (acps_sk sk))).
  { intros i Hi. clear - A3 Hi. induction A3 as [|r e R c (_ & p0 & p1 & p2 & Le & _) _ IH];
      constructor; [rewrite Le; exact Hi|exact IH]. }
  destruct (select_sum_log _ 0 pr (Lc 0%nat ltac:(lia))) as (g0 & G0 & Vg0).
  destruct (select_sum_log _ 1 pr (Lc 1%nat ltac:(lia))) as (g1 & G1 & Vg1).
  destruct (select_sum_log _ 2 pr (Lc 2%nat ltac:(lia))) as (g2 & G2 & Vg2).
  destruct (select_sum_log _ 0 pr (Lk 0%nat ltac:(lia))) as (h0 & H0 & Vh0).
  destruct (select_sum_log _ 1 pr (Lk 1%nat ltac:(lia))) as (h1 & H1 & Vh1).
  destruct (select_sum_log _ 2 pr (Lk 2%nat ltac:(lia))) as (h2 & H2 & Vh2).
  set (Hs := fun l t => fsum (map (fun x => hv (lab (fst x) l t)) pr)).
  (* ciphertext side *)
  assert (Vc : forall l, (l < 3)%nat -> fsum (map (fun x => evl (act_c (acp_ct ct)) l (fst x)) pr) =
     G * ((Hs l 0%nat + hv (lab "01" l 0)) * s0 + (Hs l 1%nat + hv (lab "01" l 1)) * s1)).
  { intros l Hl. unfold pr.
    rewrite (select_rows (owns attrs) f _ (fun r =>
      G * ((hv (lab (fst r) l 0) + dot (snd r) (colv l 0)) * s0 +
           (hv (lab (fst r) l 1) + dot (snd r) (colv l 1)) * s1)) B).
    2:{ intros r Ir.
        apply (evl_distinct fst (fun r l => G * ((hv (lab (fst r) l 0) + dot (snd r) (colv l 0)) * s0 +
           (hv (lab (fst r) l 1) + dot (snd r) (colv l 1)) * s1)) _ _ E3); auto.
        - now apply names_sorted.
        - now apply sorted_In. }
    rewrite (fsum_scale L). f_equal.
    pose proof (msp_complete_f L (owns attrs) (colv l 0) f B S) as D0.
    pose proof (msp_complete_f L (owns attrs) (colv l 1) f B S) as D1.
    unfold Hs, pr.
    rewrite !(select_rows (owns attrs) f (fun n => hv (lab n l _)) (fun r => hv (lab (fst r) l _)) B)
      by reflexivity.
    change (hv (lab "01" l 0)) with (colv l 0 0%nat). change (hv (lab "01" l 1)) with (colv l 1 0%nat).
    rewrite <- D0, <- D1. generalize (sel (pmask (owns attrs) f) (msp_rows f)). clear - L.
    induction l0 as [|r l0 IH]; cbn [map fsum]; [ring|]. rewrite IH. ring. }
  (* key side *)
  assert (Vk : forall n, In n attrs ->
     evl (ask_k (acps_sk sk)) 0 n = (G * W n x0 x1 x2 0 - evl (ask_k (acps_sk sk)) 2 n) * finv C a0 /\
     evl (ask_k (acps_sk sk)) 1 n = (G * W n x0 x1 x2 1 - evl (ask_k (acps_sk sk)) 2 n) * finv C a1).
  { clear - L A3 NA. induction A3 as [|a e at' k (En & p0 & p1 & p2 & Ee & P0 & P1) R IH]; intros n I; [contradiction|].
    inversion NA as [|? ? Nin NA']; subst. cbn [evl]. rewrite Ee. cbn [nth].
    assert (Nm : map fst k = at').
    { clear - R. induction R as [|a e at' k (E & _) _ IH]; cbn; congruence. }
    destruct I as [<-|I].
    - rewrite seqb_refl. rewrite !evl_none by (now rewrite Nm). rewrite P0, P1. split; ring.
    - destruct (seqb (fst e) n) eqn:Eb.
      + apply seqb_eq in Eb. subst n. contradiction.
      + destruct (IH NA' n I) as (-> & ->). split; ring. }
  assert (In_pr : forall x, In x pr -> In (fst x) attrs).
  { intros x Ix. destruct (pruned_leaf _ _ _ Ix) as (n & p & -> & _ & Io). now apply smem_In in Io. }
  assert (Vk0 : fsum (map (fun x => evl (ask_k (acps_sk sk)) 0 (fst x)) pr) =
     (G * (Hs 0%nat 0%nat * x0 + Hs 1%nat 0%nat * x1 + Hs 2%nat 0%nat * x2) - log1 L h2) * finv C a0).
  { rewrite Vh2. unfold Hs. clear - L Vk In_pr. clearbody pr.
    induction pr as [|x l0 IH]; cbn [map fsum]; [ring|]. rewrite IH by (intros; apply In_pr; now right).
    destruct (Vk (fst x)) as (-> & _); [apply In_pr; now left|]. unfold W. ring. }
  assert (Vk1 : fsum (map (fun x => evl (ask_k (acps_sk sk)) 1 (fst x)) pr) =
     (G * (Hs 0%nat 1%nat * x0 + Hs 1%nat 1%nat * x1 + Hs 2%nat 1%nat * x2) - log1 L h2) * finv C a1).
  { rewrite Vh2. unfold Hs. clear - L Vk In_pr. clearbody pr.
    induction pr as [|x l0 IH]; cbn [map fsum]; [ring|]. rewrite IH by (intros; apply In_pr; now right).
    destruct (Vk (fst x)) as (_ & ->); [apply In_pr; now left|]. unfold W. ring. }
  rewrite Vc in Vg0, Vg1, Vg2 by lia. rewrite Vk0 in Vh0. rewrite Vk1 in Vh1.
  unfold ac_products, ls, asz. cbn [seq Nat.add ofold].
  rewrite G0, H0, A2, A4, E2. cbn [obind idx nth_error unwrap].
  rewrite G1, H1. cbn [obind idx nth_error unwrap].
  rewrite G2, H2. cbn [obind idx nth_error unwrap fst snd].
  eexists. split; [reflexivity|]. rewrite <- Em. split; [|auto].
  cbn [fst snd]. apply (logT_inj L). logs.
  rewrite E4, U0, U1, U2, V0, V1, V2, Vg0, Vg1, Vg2, Vh0, Vh1. fold H. unfold W. field. auto.
Qed.

Theorem cp_correct nonce (pk : ac_pk C) msk attrs sk pol lang data ct f ts is js tk ik jk te ie je :
  ac_setup ts is = Ok ((pk, msk), js) ->
  cp_keygen msk attrs tk ik = Ok (sk, jk) ->
  cp_encrypt nonce pk pol data lang te ie = Ok (ct, je) ->
  parse pol lang = Ok (tree f) ->
  String.length nonce = 12%nat ->
  binary_and f = true -> NoDup (names f) -> NoDup attrs ->
  sat (owns attrs) f = true ->
  cp_decrypt sk ct = Ok data.
Proof.
  intros Hs Hk He P Ln B ND NA S.
  destruct (cp_opens _ _ _ _ _ _ _ _ _ _ _ _ _ _ _ _ _ _ _ Hs Hk He P B ND NA S) as (ps & Ep & Em & E5 & NE & E1 & A1).
  pose proof (binary_arity2 f B) as A.
  unfold cp_decrypt, ac_open. rewrite E1, A1. cbn [fst snd]. rewrite P. cbn [obind].
  rewrite traverse_tree, S.
  assert (E : (0 <? length attrs)%nat = true) by (destruct attrs; [congruence|reflexivity]).
  rewrite E. cbn [andb]. rewrite calc_pruned_tree by exact A. rewrite S. cbn [obind fst snd].
  rewrite Ep. cbn [obind]. rewrite Em. apply (symmetric_roundtrip L nonce); [exact Ln|exact E5].
Qed.

(** ** Key-policy variant *)

(** Value of [_temp] after column [j]; [sp] is [sigma_prime]. *)
Fixpoint tmp (G : F) (sp : list F) (x0 x1 x2 y : F) (t j : nat) : F :=
  match j with
  | O => 0
  | S j' => tmp G sp x0 x1 x2 y t j' + G * W (col j) x0 x1 x2 t * y - G * nth j' sp 0
  end.

(** Column values of key component [t] (0, 1) and of the last component. *)
Definition kz (G : F) (sp : list F) (x0 x1 x2 y k : F) (t j : nat) : F :=
  match j with O => G * k | S _ => tmp G sp x0 x1 x2 y t j end.
Definition kz2 (G : F) (sp : list F) (k : F) (j : nat) : F :=
  match j with O => G * k | S j' => - (G * nth j' sp 0) end.

Lemma kp_loop (g : G1 C) sp x0 x1 x2 y t row m : Forall small row -> forall k acc temp st,
  (1 <= k)%nat -> log1 L temp = tmp (log1 L g) sp x0 x1 x2 y t (k - 1) ->
  ofold (fun st j =>
    obind (hash_prod g (col j) [x0; x1; x2] y t (snd st)) (fun temp0 =>
    obind (idx sp (j - 1)) (fun s =>
    let temp := g1add C temp0 (g1mul C g (fopp C s)) in
    obind (idx row j) (fun z => Ok (entry_add z (fst st) temp, temp)))))
    (seq k m) (acc, temp) = Ok st ->
  log1 L (fst st) = log1 L acc +
    fsum (map (fun j => zf (nth j row 0%Z) * tmp (log1 L g) sp x0 x1 x2 y t j) (seq k m)).
Proof.
  intros Sm. induction m as [|m IH]; intros k acc temp st Hk Ht E; cbn [seq ofold map fsum] in *.
  - injection E as <-. cbn. ring.
  - apply obind_Ok in E as (st' & E1 & E).
    apply obind_Ok in E1 as (t0 & H0 & E1). apply obind_Ok in E1 as (s & Hs & E1).
    cbv zeta in E1. apply obind_Ok in E1 as (z & Hz & E1). injection E1 as <-. cbn [fst snd] in *.
    apply hash_prod_log in H0. destruct (idx_nth _ _ _ 0 Hs) as (_ & ->).
    destruct (idx_nth _ _ _ 0%Z Hz) as (Hj & ->).
    assert (V : log1 L (g1add C t0 (g1mul C g (- nth (k - 1) sp 0))) =
                tmp (log1 L g) sp x0 x1 x2 y t k).
    { logs. rewrite H0, Ht. destruct k as [|k]; [lia|]. cbn [Nat.sub tmp]. rewrite Nat.sub_0_r. ring. }
    apply IH in E; [|lia|].
    + rewrite E, entry_add_log, V; [ring|]. rewrite Forall_forall in Sm. apply Sm. now apply nth_In.
    + rewrite V. f_equal. lia.
Qed.

Lemma dot_split row (w : nat -> F) n : length row = n -> (1 <= n)%nat ->
  dot row w = zf (nth 0 row 0%Z) * w 0%nat +
    fsum (map (fun j => zf (nth j row 0%Z) * w j) (seq 1 (n - 1))).
Proof.
  intros <- Hn. unfold dot. rewrite <- (dot_seq row w 0%nat).
  destruct row as [|z row]; [cbn in Hn; lia|]. cbn [length seq map fsum Nat.sub nth].
  f_equal. rewrite Nat.sub_0_r. apply fsum_map_ext. intros j _. now rewrite Nat.sub_0_r.
Qed.

Definition kp_key_entry (G a0 a1 x0 x1 x2 k0 k1 k2 : F) (sp : list F)
  (r : string * list Z) (e : string * list (G1 C)) : Prop :=
  fst e = fst r /\ exists p0 p1 p2 sg, snd e = [p0; p1; p2] /\
    log1 L p0 = G * (W (fst r) x0 x1 x2 0 + sg) * finv C a0
                + dot (snd r) (kz G sp x0 x1 x2 (finv C a0) k0 0) /\
    log1 L p1 = G * (W (fst r) x0 x1 x2 1 + sg) * finv C a1
                + dot (snd r) (kz G sp x0 x1 x2 (finv C a1) k1 1) /\
    log1 L p2 = - (G * sg) + dot (snd r) (kz2 G sp k2).

Lemma entry_at_ok z (acc : G1 C) l i x : idx l i = Ok x -> entry_at z acc l i = Ok (entry_add z acc x).
Proof. intros E. unfold entry_at, entry_add. rewrite E. destruct (z =? 1)%Z, (z =? -1)%Z; reflexivity. Qed.

Lemma kp_entry_log (pk : ac_pk C) msk a0 a1 b0 b1 k0 k1 k2 x0 x1 x2 sp sg n name row t p a k :
  ac_keys pk msk a0 a1 b0 b1 k0 k1 k2 -> length row = n -> (1 <= n)%nat -> Forall small row ->
  (t = 0%nat /\ a = a0 /\ k = k0 \/ t = 1%nat /\ a = a1 /\ k = k1) ->
  kp_entry msk [x0; x1; x2] sp sg n name row t = Ok p ->
  a <> 0 /\ log1 L p = log1 L (amsk_g msk) * (W name x0 x1 x2 t + sg) * finv C a
                + dot row (kz (log1 L (amsk_g msk)) sp x0 x1 x2 (finv C a) k t).
Proof.
  intros (g & h & -> & ->) Len Hn Sm Ht H. unfold kp_entry in H. cbn [amsk_a amsk_g amsk_gk] in *.
  apply obind_Ok in H as (a' & Ha & H). apply obind_Ok in H as (y & Hy & H).
  apply obind_Ok in H as (pr & Hp & H). cbv zeta in H.
  apply obind_Ok in H as (z0 & Hz & H). apply obind_Ok in H as (pr2 & Hg & H).
  apply obind_Ok in H as (st & Hst & H). injection H as <-.
  assert (Hi : a' = a /\ idx [g1mul C g k0; g1mul C g k1; g1mul C g k2] t = Ok (g1mul C g k)).
  { destruct Ht as [(-> & -> & ->)|(-> & -> & ->)]; cbn in Ha |- *; split; congruence. }
  destruct Hi as (-> & Hi). rewrite (entry_at_ok _ _ _ _ _ Hi) in Hg. injection Hg as <-.
  destruct (finv_opt a) as [ia|] eqn:Ea; [|discriminate]. cbn in Hy. injection Hy as <-.
  pose proof (finv_opt_Some L _ _ Ea) as (Na & ->). split; [exact Na|].
  apply (kp_loop _ _ _ _ _ _ _ _ _ Sm) in Hst; [|lia|cbn; now logs].
  rewrite Hst. destruct (idx_nth _ _ _ 0%Z Hz) as (Hj & ->).
  rewrite entry_add_log by (rewrite Forall_forall in Sm; apply Sm; now apply nth_In).
  apply hash_prod_log in Hp. logs. rewrite Hp. logs.
  rewrite (dot_split row _ n Len Hn). cbn [kz].
  replace (fsum (map (fun j => zf (nth j row 0%Z) * kz (log1 L g) sp x0 x1 x2 (finv C a) k t j) (seq 1 (n - 1))))
    with (fsum (map (fun j => zf (nth j row 0%Z) * tmp (log1 L g) sp x0 x1 x2 (finv C a) t j) (seq 1 (n - 1)))).
  - ring.
  - apply fsum_map_ext. intros j Ij. apply in_seq in Ij. destruct j; [lia|reflexivity].
Qed.

Lemma kp_last_log (pk : ac_pk C) msk a0 a1 b0 b1 k0 k1 k2 sp sg n row p :
  ac_keys pk msk a0 a1 b0 b1 k0 k1 k2 -> length row = n -> (1 <= n)%nat -> Forall small row ->
  kp_last msk sp sg n row = Ok p ->
  log1 L p = - (log1 L (amsk_g msk) * sg) + dot row (kz2 (log1 L (amsk_g msk)) sp k2).
Proof.
  intros (g & h & -> & ->) Len Hn Sm H. unfold kp_last in H. cbn [amsk_a amsk_g amsk_gk] in *.
  apply obind_Ok in H as (z0 & Hz & H). apply obind_Ok in H as (gk & Hg & H).
  rewrite (entry_at_ok _ _ [g1mul C g k0; g1mul C g k1; g1mul C g k2] asz (g1mul C g k2) eq_refl) in Hg. injection Hg as <-.
  erewrite (row_loop row _ (kz2 (log1 L g) sp k2)); [|exact Sm| |exact H].
  - destruct (idx_nth _ _ _ 0%Z Hz) as (Hj & ->).
    rewrite entry_add_log by (rewrite Forall_forall in Sm; apply Sm; now apply nth_In).
    rewrite (dot_split row _ n Len Hn). cbn [kz2]. logs. ring.
  - intros acc j r Ij E. apply in_seq in Ij. apply obind_Ok in E as (z & Ez & E).
    apply obind_Ok in E as (s & Es & E). injection E as <-.
    do 2 eexists. split; [exact Ez|]. split; [reflexivity|]. logs.
    destruct (idx_nth _ _ _ 0 Es) as (_ & ->). destruct j as [|j]; [lia|].
    cbn [kz2 Nat.sub]. rewrite Nat.sub_0_r. ring.
Qed.

Lemma kp_keygen_inv (pk : ac_pk C) msk a0 a1 b0 b1 k0 k1 k2 pol lang t i sk j f :
  ac_keys pk msk a0 a1 b0 b1 k0 k1 k2 -> parse pol lang = Ok (tree f) -> binary_and f = true ->
  kp_keygen msk pol lang t i = Ok (sk, j) ->
  exists x0 x1 x2 sp,
    akps_policy sk = (pol, lang) /\
    ask_k0 (akps_sk sk) = [g2mul C (amsk_h msk) x0; g2mul C (amsk_h msk) x1; g2mul C (amsk_h msk) x2] /\
    Forall2 (fun r e => a0 <> 0 /\ a1 <> 0 /\
               kp_key_entry (log1 L (amsk_g msk)) a0 a1 x0 x1 x2 k0 k1 k2 sp r e)
      (sort_rows (rev (msp_rows f))) (ask_k (akps_sk sk)).
Proof.
  intros K P B H. unfold kp_keygen in H. rewrite P in H.
  apply rbind_Ok in H as (v & i1 & Hv & H). apply rlift_Ok in Hv as [Hv <-]. injection Hv as <-.
  rewrite (calculate_msp_eq f B) in H.
  apply rbind_Ok in H as (msp & i2 & Hm & H). apply rlift_Ok in Hm as [Hm <-]. injection Hm as <-.
  cbn [msp_m msp_pi] in H. set (R := sort_rows (rev (msp_rows f))) in *.
  apply rbind_Ok in H as (row0 & i3 & Hr & H). apply rlift_Ok in Hr as [Hr <-].
  assert (Hn : length row0 = msp_width f).
  { apply idx_Ok, nth_error_In in Hr. apply in_map_iff in Hr as (r & <- & Ir).
    apply (proj1 (sorted_In f r)) in Ir. now apply msp_rows_length. }
  rewrite Hn in H.
  apply rbind_Ok in H as (br & i4 & Hbr & H).
  destruct (draw_br_inv _ _ _ _ _ _ _ _ _ _ _ _ _ K Hbr) as (x0 & x1 & x2 & ->).
  apply rbind_Ok in H as (kk & i5 & Hk & H). apply rlift_Ok in Hk as [Hk <-].
  apply (ac_k0_inv _ _ _ _ _ _ _ _ _ _ _ _ _ K) in Hk. subst kk.
  apply rbind_Ok in H as (sp & i6 & Hsp & H).
  apply rbind_Ok in H as (k & i7 & Hk & H). apply rret_Ok in H as [<- _].
  cbn [akps_policy akps_sk ask_k0 ask_k]. exists x0, x1, x2, sp.
  split; [reflexivity|]. split; [reflexivity|].
  rewrite map_length, (rmap_rows R) in Hk. apply rmap_Forall2 in Hk.
  assert (Sub : forall r, In r R -> In r (msp_rows f)) by (intros r; apply sorted_In).
  clearbody R. pose proof (msp_width_pos f B) as Wp. clear - Hk Sub B K Wp.
  induction Hk as [|r e R k (i & j & E) _ IH]; [constructor|].
  constructor; [|apply IH; intros; apply Sub; now right].
  apply rbind_Ok in E as (sg & j1 & _ & E).
  apply rbind_Ok in E as (key & j2 & Hkey & E). apply rlift_Ok in Hkey as [Hkey <-].
  apply rbind_Ok in E as (la & j3 & Hla & E). apply rlift_Ok in Hla as [Hla <-].
  apply rret_Ok in E as [<- _].
  assert (Ir : In r (msp_rows f)) by (apply Sub; now left).
  pose proof (msp_rows_length f r Ir) as Len. pose proof (msp_rows_small f r B Ir) as Sm.
  unfold ts, asz in Hkey. cbn [seq omap] in Hkey.
  apply obind_Ok in Hkey as (p0 & P0 & Hkey). apply obind_Ok in Hkey as (rest & P1' & Hkey).
  apply obind_Ok in P1' as (p1 & P1 & P1'). injection P1' as <-. injection Hkey as <-.
  apply (kp_entry_log _ _ _ _ _ _ _ _ _ _ _ _ _ _ _ _ _ _ _ a0 k0 K Len Wp Sm) in P0 as (N0 & P0); [|auto].
  apply (kp_entry_log _ _ _ _ _ _ _ _ _ _ _ _ _ _ _ _ _ _ _ a1 k1 K Len Wp Sm) in P1 as (N1 & P1); [|auto].
  apply (kp_last_log _ _ _ _ _ _ _ _ _ _ _ _ _ _ K Len Wp Sm) in Hla.
  split; [exact N0|]. split; [exact N1|]. split; [reflexivity|].
  exists p0, p1, la, sg. cbn [snd app]. auto.
Qed.

Definition kp_ct_row (G s0 s1 : F) (n : string) (e : string * list (G1 C)) : Prop :=
  fst e = n /\ length (snd e) = 3%nat /\
  forall l, (l < 3)%nat -> log1 L (nth l (snd e) (g1zero C)) =
     G * (hv (lab n l 0) * s0 + hv (lab n l 1) * s1).

Lemma kp_ct_entry_log (g : G1 C) n s0 s1 l q :
  kp_ct_entry g n [s0; s1] l = Ok q ->
  log1 L q = log1 L g * (hv (lab n l 0) * s0 + hv (lab n l 1) * s1).
Proof.
  unfold kp_ct_entry, ts, asz. cbn [seq ofold]. intros H.
  apply obind_Ok in H as (q0 & H0 & H).
  apply obind_Ok in H0 as (h0 & Hh0 & H0). cbn in H0. injection H0 as <-.
  apply obind_Ok in H as (q1 & H1 & H). injection H as <-.
  apply obind_Ok in H1 as (h1 & Hh1 & H1). cbn in H1. injection H1 as <-.
  apply hash_g1_Ok in Hh0, Hh1. logs. rewrite Hh0, Hh1. ring.
Qed.

Lemma kp_encrypt_inv nonce (pk : ac_pk C) msk a0 a1 b0 b1 k0 k1 k2 attrs data t i ct j :
  ac_keys pk msk a0 a1 b0 b1 k0 k1 k2 ->
  kp_encrypt nonce pk attrs data t i = Ok (ct, j) ->
  exists s0 s1 u0 u1 u2 msg,
    akp_attr ct = attrs /\
    act_c0 (akp_ct ct) = [u0; u1; u2] /\
    log2 L u0 = log2 L (amsk_h msk) * a0 * s0 /\ log2 L u1 = log2 L (amsk_h msk) * a1 * s1 /\
    log2 L u2 = log2 L (amsk_h msk) * (s0 + s1) /\
    Forall2 (kp_ct_row (log1 L (amsk_g msk)) s0 s1) attrs (act_c (akp_ct ct)) /\
    logT L (act_cp (akp_ct ct)) =
      log1 L (amsk_g msk) * log2 L (amsk_h msk) * ((k0 * a0 + k2) * s0 + (k1 * a1 + k2) * s1) + logT L msg /\
    encrypt_symmetric nonce msg data = Ok (act_ct (akp_ct ct)) /\
    msg = gtpow C (pairing C (g1one C) (g2one C)) (t (i + 2)%nat).
Proof.
  intros K H. unfold kp_encrypt in H.
  apply rbind_Ok in H as ([s c0] & i4 & Hs & H).
  destruct (draw_s_inv _ _ _ _ _ _ _ _ _ _ _ _ _ _ K Hs) as (s0 & s1 & u0 & u1 & u2 & -> & -> & U0 & U1 & U2 & Ei).
  apply rbind_Ok in H as (c & i6 & Hc & H). apply rlift_Ok in Hc as [Hc <-].
  apply rbind_Ok in H as (cp & i7 & Hcp & H). apply rlift_Ok in Hcp as [Hcp <-].
  apply rbind_Ok in H as (msg & i8 & Hmsg & H).
  apply rbind_Ok in H as (d & i9 & Hd & H). apply rlift_Ok in Hd as [Hd <-].
  assert (Em : msg = gtpow C (pairing C (g1one C) (g2one C)) (t (i + 2)%nat))
    by (unfold draw_gt, rbind, draw, rret in Hmsg; injection Hmsg as <- _; now rewrite Ei).
  apply rret_Ok in H as [<- _]. cbn [akp_attr akp_ct act_c0 act_c act_cp act_ct].
  apply (ac_cp_inv _ _ _ _ _ _ _ _ _ _ _ _ K) in Hcp.
  assert (Eg : apk_g pk = amsk_g msk) by (destruct K as (g & h & -> & ->); reflexivity).
  exists s0, s1, u0, u1, u2, msg. repeat split; auto.
  - apply omap_Forall2 in Hc. eapply Forall2_impl; [|exact Hc]. intros n e E.
    apply obind_Ok in E as (q & Eq & E). injection E as <-.
    unfold ls, asz in Eq. cbn [seq Nat.add omap] in Eq.
    apply obind_Ok in Eq as (q0 & Q0 & Eq). apply obind_Ok in Eq as (r1 & Q1' & Eq).
    apply obind_Ok in Q1' as (q1 & Q1 & Q1'). apply obind_Ok in Q1' as (r2 & Q2' & Q1').
    apply obind_Ok in Q2' as (q2 & Q2 & Q2'). injection Q2' as <-. injection Q1' as <-. injection Eq as <-.
    apply kp_ct_entry_log in Q0, Q1, Q2. rewrite Eg in *.
    split; [reflexivity|]. split; [reflexivity|].
    intros l Hl. destruct l as [|[|[|l]]]; cbn [snd nth]; auto. lia.
  - logs. rewrite Hcp, Eg. reflexivity.
Qed.

Lemma kp_opens nonce (pk : ac_pk C) msk attrs sk pol lang data ct f ts is js tk ik jk te ie je :
  ac_setup ts is = Ok ((pk, msk), js) ->
  kp_keygen msk pol lang tk ik = Ok (sk, jk) ->
  kp_encrypt nonce pk attrs data te ie = Ok (ct, je) ->
  parse pol lang = Ok (tree f) ->
  binary_and f = true -> NoDup (names f) -> NoDup attrs ->
  sat (owns attrs) f = true ->
  exists ps,
    ac_products (akps_sk sk) (akp_ct ct) true (map leaf_pair (sel (pmask (owns attrs) f) (leaves f))) = Ok ps /\
    gtmul C (act_cp (akp_ct ct)) (gtmul C (snd ps) (gtinv C (fst ps))) =
      gtpow C (pairing C (g1one C) (g2one C)) (te (ie + 2)%nat) /\
    encrypt_symmetric nonce (gtpow C (pairing C (g1one C) (g2one C)) (te (ie + 2)%nat)) data = Ok (act_ct (akp_ct ct)) /\
    attrs <> [] /\ akps_policy sk = (pol, lang) /\ akp_attr ct = attrs.
Proof.
  intros Hs Hk He P B ND NA S.
  apply ac_setup_keys in Hs as (a0 & a1 & b0 & b1 & k0 & k1 & k2 & K).
  destruct (kp_keygen_inv _ _ _ _ _ _ _ _ _ _ _ _ _ _ _ _ K P B Hk)
    as (x0 & x1 & x2 & sp & A1 & A2 & A3).
  destruct (kp_encrypt_inv _ _ _ _ _ _ _ _ _ _ _ _ _ _ _ _ K He)
    as (s0 & s1 & u0 & u1 & u2 & msg & E1 & E2 & U0 & U1 & U2 & E3 & E4 & E5 & Em).
  set (G := log1 L (amsk_g msk)) in *. set (H := log2 L (amsk_h msk)) in *.
  pose proof (binary_arity2 f B) as A.
  pose proof (owns_nonempty attrs f S A) as NE.
  set (pr := map leaf_pair (sel (pmask (owns attrs) f) (leaves f))).
  assert (Lc : forall i, (i < 3)%nat -> Forall (fun e => (i < length (snd e))%nat) (act_c (akp_ct ct))).
  { intros i Hi. clear - E3 Hi. induction E3 as [|r e R c (_ & Le & _) _ IH]; constructor; [lia|exact IH]. }
  assert (Lk : forall i, (i < 3)%nat -> Forall (fun e => (i < length (snd e))%nat) (ask_k (akps_sk sk))).
  { intros i Hi. clear - A3 Hi. induction A3 as [|r e R c (_ & _ & _ & p0 & p1 & p2 & sg & Le & _) _ IH];
      constructor; [rewrite Le; exact Hi|exact IH]. }
  destruct (select_sum_log _ 0 pr (Lc 0%nat ltac:(lia))) as (g0 & G0 & Vg0).
  destruct (select_sum_log _ 1 pr (Lc 1%nat ltac:(lia))) as (g1 & G1 & Vg1).
  destruct (select_sum_log _ 2 pr (Lc 2%nat ltac:(lia))) as (g2 & G2 & Vg2).
  destruct (select_sum_log _ 0 pr (Lk 0%nat ltac:(lia))) as (h0 & H0 & Vh0).
  destruct (select_sum_log _ 1 pr (Lk 1%nat ltac:(lia))) as (h1 & H1 & Vh1).
  destruct (select_sum_log _ 2 pr (Lk 2%nat ltac:(lia))) as (h2 & H2 & Vh2).
  set (Hs := fun l t => fsum (map (fun x => hv (lab (fst x) l t)) pr)).
  assert (In_pr : forall x, In x pr -> In (fst x) attrs).
  { intros x Ix. destruct (pruned_leaf _ _ _ Ix) as (n & p & -> & _ & Io). now apply smem_In in Io. }
  (* ciphertext side *)
  assert (Vc : forall l, (l < 3)%nat -> fsum (map (fun x => evl (act_c (akp_ct ct)) l (fst x)) pr) =
     G * (Hs l 0%nat * s0 + Hs l 1%nat * s1)).
  { intros l Hl. unfold Hs.
    rewrite (fsum_map_ext (fun x => evl (act_c (akp_ct ct)) l (fst x))
       (fun x => G * (hv (lab (fst x) l 0) * s0 + hv (lab (fst x) l 1) * s1))).
    - generalize pr. clear - L. induction pr as [|x r IH]; cbn [map fsum]; [ring|]. rewrite IH. ring.
    - intros x Ix. apply In_pr in Ix.
      apply (evl_distinct (fun n => n) (fun n l => G * (hv (lab n l 0) * s0 + hv (lab n l 1) * s1)) _ _ E3); auto.
      now rewrite map_id. }
  (* key side *)
  set (z0 := kz G sp x0 x1 x2 (finv C a0) k0 0) in *.
  set (z1 := kz G sp x0 x1 x2 (finv C a1) k1 1) in *.
  set (z2 := kz2 G sp k2) in *.
  set (D := fun i (w : nat -> F) r => evl (ask_k (akps_sk sk)) i (fst r) - dot (snd r) w).
  assert (Vk : forall r, In r (msp_rows f) -> a0 <> 0 /\ a1 <> 0 /\
     D 0%nat z0 r = (G * W (fst r) x0 x1 x2 0 - D 2%nat z2 r) * finv C a0 /\
     D 1%nat z1 r = (G * W (fst r) x0 x1 x2 1 - D 2%nat z2 r) * finv C a1).
  { intros r Ir. apply sorted_In in Ir. pose proof (names_sorted f B ND) as NS.
    revert r Ir. unfold D. clear - L A3 NS.
    induction A3 as [|a e R k (N0 & N1 & En & p0 & p1 & p2 & sg & Ee & P0 & P1 & P2) A3 IH]; intros n I; [contradiction|].
    inversion NS as [|? ? Nin NA']; subst. cbn [evl]. rewrite Ee. cbn [nth].
    assert (Nm : map fst k = map fst R).
    { clear - A3. induction A3 as [|a e at' k (_ & _ & E & _) _ IH]; cbn; congruence. }
    destruct I as [<-|I].
    - rewrite En, seqb_refl. rewrite !evl_none by (now rewrite Nm). rewrite P0, P1, P2.
      fold z0 z1 z2. repeat split; auto; field; auto.
    - destruct (seqb (fst e) (fst n)) eqn:Eb.
      + apply seqb_eq in Eb. exfalso. apply Nin. rewrite <- En, Eb. now apply in_map.
      + destruct (IH NA' n I) as (_ & _ & V0 & V1). repeat split; auto.
        * transitivity (evl k 0 (fst n) - dot (snd n) z0); [ring|]. rewrite V0. ring.
        * transitivity (evl k 1 (fst n) - dot (snd n) z1); [ring|]. rewrite V1. ring. }
  assert (X : forall i w, w 0%nat = G * (match i with 0 => k0 | 1 => k1 | _ => k2 end)%nat ->
     fsum (map (fun x => evl (ask_k (akps_sk sk)) i (fst x)) pr) =
     fsum (map (D i w) (sel (pmask (owns attrs) f) (msp_rows f))) + w 0%nat).
  { intros i w _. unfold pr.
    rewrite (select_rows (owns attrs) f (evl (ask_k (akps_sk sk)) i) (fun r => evl (ask_k (akps_sk sk)) i (fst r)) B)
      by reflexivity.
    rewrite <- (msp_complete_f L (owns attrs) w f B S). rewrite <- fsum_add. apply fsum_map_ext.
    intros r _. unfold D. ring. }
  assert (W0 : z0 0%nat = G * k0) by reflexivity. assert (W1 : z1 0%nat = G * k1) by reflexivity.
  assert (W2 : z2 0%nat = G * k2) by reflexivity.
  rewrite (X 0%nat z0 W0), W0 in Vh0. rewrite (X 1%nat z1 W1), W1 in Vh1. rewrite (X 2%nat z2 W2), W2 in Vh2.
  assert (NZ : a0 <> 0 /\ a1 <> 0).
  { inversion A3 as [E0|r e R k (N0 & N1 & _) _ E0]; [|auto].
    pose proof (msp_rows_perm f _ eq_refl) as Pm. rewrite <- E0 in Pm.
    apply Permutation_sym, Permutation_nil in Pm.
    pose proof (msp_complete_f L (owns attrs) (fun _ => 1) f B S) as M. rewrite Pm in M.
    replace (sel (pmask (owns attrs) f) (@nil (string * list Z))) with (@nil (string * list Z)) in M
      by (destruct (pmask (owns attrs) f) as [|[|]]; reflexivity). cbn in M. exfalso. exact (F_1_neq_0 (f_theory L) (eq_sym M)). }
  destruct NZ as (N0 & N1).
  assert (Sub : forall r, In r (sel (pmask (owns attrs) f) (msp_rows f)) -> In r (msp_rows f))
    by (intros r Ir; now apply sel_incl in Ir).
  assert (Hs' : forall l t, Hs l t = fsum (map (fun r => hv (lab (fst r) l t)) (sel (pmask (owns attrs) f) (msp_rows f)))).
  { intros l t. unfold Hs, pr. apply (select_rows (owns attrs) f (fun n => hv (lab n l t))); auto. }
  set (D2 := fsum (map (D 2%nat z2) (sel (pmask (owns attrs) f) (msp_rows f)))) in *.
  assert (V0 : fsum (map (D 0%nat z0) (sel (pmask (owns attrs) f) (msp_rows f))) =
     (G * (Hs 0%nat 0%nat * x0 + Hs 1%nat 0%nat * x1 + Hs 2%nat 0%nat * x2) - D2) * finv C a0).
  { unfold D2. rewrite !Hs'. clear - L Vk Sub. revert Sub. generalize (sel (pmask (owns attrs) f) (msp_rows f)).
    induction l as [|r l IH]; intros Sub; cbn [map fsum]; [ring|]. rewrite IH by (intros; apply Sub; now right).
    destruct (Vk r) as (_ & _ & -> & _); [apply Sub; now left|]. unfold W. ring. }
  assert (V1 : fsum (map (D 1%nat z1) (sel (pmask (owns attrs) f) (msp_rows f))) =
     (G * (Hs 0%nat 1%nat * x0 + Hs 1%nat 1%nat * x1 + Hs 2%nat 1%nat * x2) - D2) * finv C a1).
  { unfold D2. rewrite !Hs'. clear - L Vk Sub. revert Sub. generalize (sel (pmask (owns attrs) f) (msp_rows f)).
    induction l as [|r l IH]; intros Sub; cbn [map fsum]; [ring|]. rewrite IH by (intros; apply Sub; now right).
    destruct (Vk r) as (_ & _ & _ & ->); [apply Sub; now left|]. unfold W. ring. }
  rewrite V0 in Vh0. rewrite V1 in Vh1. rewrite Vc in Vg0, Vg1, Vg2 by lia.
  unfold ac_products, ls, asz. cbn [seq Nat.add ofold].
  rewrite G0, H0, A2, E2. cbn [obind idx nth_error unwrap].
  rewrite G1, H1. cbn [obind idx nth_error unwrap].
  rewrite G2, H2. cbn [obind idx nth_error unwrap fst snd].
  eexists. split; [reflexivity|]. rewrite <- Em. split; [|auto].
  cbn [fst snd]. apply (logT_inj L). logs.
  rewrite E4, U0, U1, U2, Vg0, Vg1, Vg2, Vh0, Vh1, Vh2. fold H. field. auto.
Qed.

Theorem kp_correct nonce (pk : ac_pk C) msk attrs sk pol lang data ct f ts is js tk ik jk te ie je :
  ac_setup ts is = Ok ((pk, msk), js) ->
  kp_keygen msk pol lang tk ik = Ok (sk, jk) ->
  kp_encrypt nonce pk attrs data te ie = Ok (ct, je) ->
  parse pol lang = Ok (tree f) ->
  String.length nonce = 12%nat ->
  binary_and f = true -> NoDup (names f) -> NoDup attrs ->
  sat (owns attrs) f = true ->
  kp_decrypt sk ct = Ok data.
Proof.
  intros Hs Hk He P Ln B ND NA S.
  destruct (kp_opens _ _ _ _ _ _ _ _ _ _ _ _ _ _ _ _ _ _ _ Hs Hk He P B ND NA S) as (ps & Ep & Em & E5 & NE & E1 & A1).
  pose proof (binary_arity2 f B) as A.
  unfold kp_decrypt, ac_open. rewrite E1, A1. cbn [fst snd]. rewrite P. cbn [obind].
  rewrite traverse_tree, S.
  assert (E : (0 <? length attrs)%nat = true) by (destruct attrs; [congruence|reflexivity]).
  rewrite E. cbn [andb]. rewrite calc_pruned_tree by exact A. rewrite S. cbn [obind fst snd].
  rewrite Ep. cbn [obind]. rewrite Em. apply (symmetric_roundtrip L nonce); [exact Ln|exact E5].
Qed.

(** ** Rejection *)

Theorem cp_reject (sk : ac_cpsk C) ct f :
  parse (fst (acp_policy ct)) (snd (acp_policy ct)) = Ok (tree f) ->
  sat (owns (acps_attr sk)) f = false ->
  cp_decrypt sk ct = Err.
Proof.
  intros P S. unfold cp_decrypt, ac_open. rewrite P. cbn [obind].
  rewrite traverse_tree, S, andb_false_r. reflexivity.
Qed.

Theorem kp_reject (sk : ac_kpsk C) ct f :
  parse (fst (akps_policy sk)) (snd (akps_policy sk)) = Ok (tree f) ->
  sat (owns (akp_attr ct)) f = false ->
  kp_decrypt sk ct = Err.
Proof.
  intros P S. unfold kp_decrypt, ac_open. rewrite P. cbn [obind].
  rewrite traverse_tree, S, andb_false_r. reflexivity.
Qed.

(** ** An AND with other than two children aborts *)

Theorem cp_encrypt_wide_and nonce (pk : ac_pk C) pol lang data f t i :
  parse pol lang = Ok (tree f) -> binary_and f = false ->
  cp_encrypt nonce pk pol data lang t i = Panic.
Proof.
  intros P B. unfold cp_encrypt. rewrite P. erewrite rbind_run by reflexivity.
  rewrite (calculate_msp_bad f B). reflexivity.
Qed.

Theorem kp_keygen_wide_and (msk : ac_msk C) pol lang f t i :
  parse pol lang = Ok (tree f) -> binary_and f = false ->
  kp_keygen msk pol lang t i = Panic.
Proof.
  intros P B. unfold kp_keygen. rewrite P. erewrite rbind_run by reflexivity.
  rewrite (calculate_msp_bad f B). reflexivity.
Qed.

(** ** Progress *)

Lemma ofold_runs {A B} (step : B -> A -> outcome B) l :
  (forall x a, In x l -> exists b, step a x = Ok b) -> forall a, exists b, ofold step l a = Ok b.
Proof.
  induction l as [|x l IH]; intros H a; cbn [ofold]; [eauto|].
  destruct (H x a (or_introl eq_refl)) as (b & ->). cbn [obind]. apply IH.
  intros y c Iy. apply H. now right.
Qed.

Lemma hash_prod_runs (g : G1 C) x x0 x1 x2 y t acc : (forall s, hash C s <> None) ->
  exists p, hash_prod g x [x0; x1; x2] y t acc = Ok p.
Proof.
  intros HT. apply ofold_runs. intros l a Il. unfold sha3_hash_g1.
  pose proof (HT (lab x l t)). destruct (hash C (lab x l t)); [|congruence].
  unfold ls, asz in Il. cbn in Il. cbn [unwrap_res obind].
  destruct Il as [<-|[<-|[<-|[]]]]; cbn; eauto.
Qed.

Lemma ac_setup_runs t i : exists (pk : ac_pk C) msk j, ac_setup t i = Ok ((pk, msk), j).
Proof.
  unfold ac_setup, draw_g1, draw_g2, rbind, rret, rlift, draw. cbn. do 3 eexists. reflexivity.
Qed.

Lemma draw_br_runs (pk : ac_pk C) msk a0 a1 b0 b1 k0 k1 k2 t i :
  ac_keys pk msk a0 a1 b0 b1 k0 k1 k2 -> exists x0 x1 x2 j, draw_br msk t i = Ok ([x0; x1; x2], j).
Proof.
  intros (g & h & -> & ->). unfold draw_br, rbind, rret, rlift, draw. cbn. do 4 eexists. reflexivity.
Qed.

Lemma draw_s_runs (pk : ac_pk C) msk a0 a1 b0 b1 k0 k1 k2 t i :
  ac_keys pk msk a0 a1 b0 b1 k0 k1 k2 -> exists s0 s1 c0 j, draw_s pk t i = Ok (([s0; s1], c0), j).
Proof.
  intros (g & h & -> & ->). unfold draw_s, rbind, rret, rlift, draw. cbn. do 4 eexists. reflexivity.
Qed.

Lemma draw_gt_run (t : nat -> F) i :
  draw_gt t i = Ok (gtpow C (pairing C (g1one C) (g2one C)) (t i), S i).
Proof. reflexivity. Qed.

Lemma cp_keygen_runs (pk : ac_pk C) msk a0 a1 b0 b1 k0 k1 k2 attrs t i :
  ac_keys pk msk a0 a1 b0 b1 k0 k1 k2 -> a0 <> 0 -> a1 <> 0 ->
  (forall s, hash C s <> None) -> attrs <> [] ->
  exists sk j, cp_keygen msk attrs t i = Ok (sk, j).
Proof.
  intros K N0 N1 HT NE. unfold cp_keygen. destruct attrs as [|n0 at0]; [congruence|].
  set (attrs := n0 :: at0). clearbody attrs.
  destruct (draw_br_runs _ _ _ _ _ _ _ _ _ t i K) as (x0 & x1 & x2 & j & E).
  erewrite rbind_run by exact E. clear E. destruct K as (g & h & -> & ->).
  erewrite rbind_run by reflexivity. cbn [amsk_a amsk_g amsk_gk].
  match goal with |- context [rmap ?f attrs] => destruct (rmap_runs f attrs) with (t := t) (i := j) as (r & j2 & E) end.
  - intros x t' i' _. erewrite rbind_run by reflexivity.
    match goal with |- context [omap ?f ts] => destruct (omap_runs f ts) as (l & E) end.
    + intros u Iu. unfold ts, asz in Iu. cbn in Iu.
      destruct Iu as [<-|[<-|[]]]; cbn [idx nth_error unwrap obind];
      rewrite (finv_opt_neq L) by assumption; cbn [unwrap obind];
      match goal with |- context [hash_prod ?a ?b ?c ?d ?e ?f] =>
        destruct (hash_prod_runs a b x0 x1 x2 d e f HT) as (p & ->) end; cbn [obind]; eauto.
    + rewrite E. erewrite rbind_run by reflexivity. eexists _, _. reflexivity.
  - erewrite rbind_run by exact E. erewrite rbind_run by reflexivity.
    match goal with |- context [omap ?f ts] => destruct (omap_runs f ts) as (l & E') end.
    + intros u Iu. unfold ts, asz in Iu. cbn in Iu.
      destruct Iu as [<-|[<-|[]]]; cbn [idx nth_error unwrap obind];
      rewrite (finv_opt_neq L) by assumption; cbn [unwrap obind];
      match goal with |- context [hash_prod ?a ?b ?c ?d ?e ?f] =>
        destruct (hash_prod_runs a b x0 x1 x2 d e f HT) as (p & ->) end; cbn [obind]; eauto.
    + rewrite E'. erewrite rbind_run by reflexivity. erewrite rbind_run by reflexivity.
      eexists _, _. reflexivity.
Qed.

Lemma kp_encrypt_runs nonce (pk : ac_pk C) msk a0 a1 b0 b1 k0 k1 k2 attrs data t i :
  ac_keys pk msk a0 a1 b0 b1 k0 k1 k2 -> (forall s, hash C s <> None) ->
  exists ct j, kp_encrypt nonce pk attrs data t i = Ok (ct, j).
Proof.
  intros K HT. unfold kp_encrypt.
  destruct (draw_s_runs _ _ _ _ _ _ _ _ _ t i K) as (s0 & s1 & c0 & js & E).
  erewrite rbind_run by exact E. clear E. destruct K as (g & h & -> & ->).
  cbv beta iota. cbn [apk_g].
  match goal with |- context [omap ?f attrs] => destruct (omap_runs f attrs) as (r & E) end.
  - intros n _. match goal with |- context [omap ?f ls] => destruct (omap_runs f ls) as (l & E) end.
    + intros l _. apply ofold_runs. intros u a Iu. unfold sha3_hash_g1.
      pose proof (HT (lab n l u)). destruct (hash C (lab n l u)); [|congruence]. cbn [obind].
      unfold ts, asz in Iu. cbn in Iu. destruct Iu as [<-|[<-|[]]]; cbn; eauto.
    + rewrite E. cbn. eauto.
  - rewrite E. erewrite rbind_run by reflexivity. erewrite rbind_run by reflexivity.
    erewrite rbind_run by apply draw_gt_run. erewrite rbind_run by reflexivity.
    eexists _, _. reflexivity.
Qed.

Lemma sorted_nonempty f : binary_and f = true -> exists r R, sort_rows (rev (msp_rows f)) = r :: R.
Proof.
  intros B. destruct (sort_rows (rev (msp_rows f))) as [|r R] eqn:E; [|eauto].
  pose proof (msp_rows_perm f _ eq_refl) as Pm. rewrite E in Pm. apply Permutation_sym, Permutation_nil in Pm.
  pose proof (msp_complete_f (C := C) L (fun _ => true) (fun _ => 1) f B) as M.
  rewrite Pm in M. replace (sel (pmask (fun _ => true) f) (@nil (string * list Z))) with (@nil (string * list Z)) in M
    by (destruct (pmask (fun _ => true) f) as [|[|]]; reflexivity). cbn in M.
  exfalso. apply (F_1_neq_0 (f_theory L)). symmetry. apply M.
  clear - B. pattern f. apply binary_ind; [..|exact B]; clear f B.
  - reflexivity.
  - intros a b _ _ Ha Hb. cbn. now rewrite Ha, Hb.
  - intros l H _ IH. destruct l as [|x l]; [cbn in H; lia|]. cbn. inversion IH; subst.
    now apply orb_true_intro; left.
Qed.

Lemma hash_table_runs (g : G1 C) n : (forall s, hash C s <> None) -> exists tb, hash_table g n = Ok tb.
Proof.
  intros HT. apply omap_runs. intros j _. apply omap_runs. intros l _. apply omap_runs. intros t _.
  unfold sha3_hash_g1. pose proof (HT (lab (col (j + 1)) l t)).
  destruct (hash C (lab (col (j + 1)) l t)); [eauto|congruence].
Qed.

Lemma omap_length {A B} (f : A -> outcome B) l r : omap f l = Ok r -> length r = length l.
Proof. intros H. apply omap_Forall2 in H. induction H; cbn; congruence. Qed.

Lemma hash_table_dims (g : G1 C) n tb : hash_table g n = Ok tb ->
  length tb = n /\ Forall (fun x => length x = 3%nat /\ Forall (fun y => length y = 2%nat) x) tb.
Proof.
  intros H. unfold hash_table in H. split; [rewrite (omap_length _ _ _ H); apply seq_length|].
  apply omap_Forall2 in H. induction H as [|a x l tb E _ IH]; constructor; [|exact IH].
  split; [exact (omap_length _ _ _ E)|]. apply omap_Forall2 in E.
  induction E as [|b y m x E _ IH']; constructor; [|exact IH']. exact (omap_length _ _ _ E).
Qed.

Lemma cp_encrypt_runs nonce (pk : ac_pk C) msk a0 a1 b0 b1 k0 k1 k2 pol lang data f t i :
  ac_keys pk msk a0 a1 b0 b1 k0 k1 k2 -> parse pol lang = Ok (tree f) -> binary_and f = true ->
  (forall s, hash C s <> None) ->
  exists ct j, cp_encrypt nonce pk pol data lang t i = Ok (ct, j).
Proof.
  intros K P B HT. unfold cp_encrypt. rewrite P. erewrite rbind_run by reflexivity.
  rewrite (calculate_msp_eq f B). erewrite rbind_run by reflexivity. cbn [msp_m msp_pi].
  destruct (sorted_nonempty f B) as (r0 & R0 & E0).
  assert (Hr0 : length (snd r0) = msp_width f).
  { apply msp_rows_length. apply sorted_In. rewrite E0. now left. }
  set (R := sort_rows (rev (msp_rows f))) in *.
  assert (Sub : forall r, In r R -> length (snd r) = msp_width f)
    by (intros r Ir; apply msp_rows_length; now apply sorted_In).
  assert (I0 : idx (map snd R) 0 = Ok (snd r0)) by now rewrite E0.
  rewrite I0. erewrite rbind_run by reflexivity. rewrite Hr0.
  destruct (draw_s_runs _ _ _ _ _ _ _ _ _ t i K) as (s0 & s1 & c0 & js & E).
  erewrite rbind_run by exact E. clear E. destruct K as (g & h & -> & ->).
  cbv beta iota. cbn [apk_g].
  destruct (hash_table_runs g (msp_width f) HT) as (tb & Etb). rewrite Etb.
  erewrite rbind_run by reflexivity. rewrite map_length, (omap_rows R).
  destruct (hash_table_dims _ _ _ Etb) as (D1 & D2).
  match goal with |- context [omap ?f R] => destruct (omap_runs f R) as (c & E) end.
  - intros r Ir.
    match goal with |- context [omap ?f ls] => destruct (omap_runs f ls) as (l & E) end.
    + intros l Il. apply ofold_runs. intros u acc Iu. unfold sha3_hash_g1.
      pose proof (HT (lab (fst r) l u)). destruct (hash C (lab (fst r) l u)); [|congruence]. cbn [obind].
      match goal with |- context [ofold ?st (seq 0 ?n) ?ac] => destruct (ofold_runs st (seq 0 n)) with (a := ac) as (q & E) end.
      * intros j acc' Ij. apply in_seq in Ij. rewrite (idx_lt _ _ 0%Z) by (rewrite (Sub _ Ir); lia). cbn [obind].
        rewrite (idx_lt _ _ []) by lia. cbn [obind].
        rewrite Forall_forall in D2. destruct (D2 (nth j tb [])) as (D3 & D4); [apply nth_In; lia|].
        assert (Hl : (l < 3)%nat) by (unfold ls, asz in Il; cbn in Il; lia).
        rewrite (idx_lt _ _ []) by lia. cbn [obind]. rewrite Forall_forall in D4.
        assert (Hu : (u < 2)%nat) by (unfold ts, asz in Iu; cbn in Iu; lia).
        rewrite (idx_lt _ _ (g1zero C)); [cbn [obind]; eauto|]. rewrite D4; [exact Hu|]. apply nth_In. lia.
      * rewrite E. cbn [obind]. unfold ts, asz in Iu. cbn in Iu. destruct Iu as [<-|[<-|[]]]; cbn; eauto.
    + rewrite E. cbn. eauto.
  - rewrite E. erewrite rbind_run by reflexivity. erewrite rbind_run by reflexivity.
    erewrite rbind_run by apply draw_gt_run. erewrite rbind_run by reflexivity.
    eexists _, _. reflexivity.
Qed.

Lemma draws_length n : forall (t : nat -> F) i, exists l j, draws n t i = Ok (l, j) /\ length l = n.
Proof.
  induction n as [|n IH]; intros t i; cbn [draws].
  - do 2 eexists. split; reflexivity.
  - destruct (IH t (S i)) as (l & j & E & Hl). exists (t i :: l), j. split; [|cbn; congruence].
    erewrite rbind_run by reflexivity. erewrite rbind_run by exact E. reflexivity.
Qed.

Lemma kp_keygen_runs (pk : ac_pk C) msk a0 a1 b0 b1 k0 k1 k2 pol lang f t i :
  ac_keys pk msk a0 a1 b0 b1 k0 k1 k2 -> a0 <> 0 -> a1 <> 0 ->
  parse pol lang = Ok (tree f) -> binary_and f = true -> (forall s, hash C s <> None) ->
  exists sk j, kp_keygen msk pol lang t i = Ok (sk, j).
Proof.
  intros K N0 N1 P B HT. unfold kp_keygen. rewrite P. erewrite rbind_run by reflexivity.
  rewrite (calculate_msp_eq f B). erewrite rbind_run by reflexivity. cbn [msp_m msp_pi].
  destruct (sorted_nonempty f B) as (r0 & R0 & E0).
  assert (Hr0 : length (snd r0) = msp_width f).
  { apply msp_rows_length. apply sorted_In. rewrite E0. now left. }
  set (R := sort_rows (rev (msp_rows f))) in *.
  assert (Sub : forall r, In r R -> length (snd r) = msp_width f)
    by (intros r Ir; apply msp_rows_length; now apply sorted_In).
  assert (I0 : idx (map snd R) 0 = Ok (snd r0)) by now rewrite E0.
  rewrite I0. erewrite rbind_run by reflexivity. rewrite Hr0.
  destruct (draw_br_runs _ _ _ _ _ _ _ _ _ t i K) as (x0 & x1 & x2 & j & E).
  erewrite rbind_run by exact E. clear E. pose proof (msp_width_pos f B) as Wp.
  destruct K as (g & h & -> & ->).
  erewrite rbind_run by reflexivity.
  destruct (draws_length (msp_width f - 1) t j) as (sp & j2 & E & Lsp).
  erewrite rbind_run by exact E. clear E. rewrite map_length.
  match goal with |- context [rmap ?f (seq 0 (length R))] =>
    assert (X : exists r j', rmap f (seq 0 (length R)) t j2 = Ok (r, j')) end.
  { rewrite (rmap_rows R). apply rmap_runs. intros r t' i' Ir.
    erewrite rbind_run by reflexivity.
    match goal with |- context [omap ?f ts] => destruct (omap_runs f ts) as (l & E) end.
    - intros u Iu. unfold kp_entry. cbn [amsk_a amsk_g amsk_gk].
      assert (Hu : exists a gk, idx [a0; a1] u = Ok a /\ idx [g1mul C g k0; g1mul C g k1; g1mul C g k2] u = Ok gk /\ a <> 0).
      { unfold ts, asz in Iu. cbn in Iu. destruct Iu as [<-|[<-|[]]]; cbn; eauto. }
      destruct Hu as (a & gk & -> & Hgk & Na). cbn [obind]. rewrite (finv_opt_neq L) by exact Na. cbn [unwrap obind].
      destruct (hash_prod_runs g (fst r) x0 x1 x2 (finv C a) u (g1zero C) HT) as (p & ->). cbn [obind].
      rewrite (idx_lt _ _ 0%Z) by (rewrite (Sub _ Ir); lia). cbn [obind].
      rewrite (entry_at_ok _ _ _ _ _ Hgk). cbn [obind].
      match goal with |- context [ofold ?st (seq 1 ?n) ?ac] => destruct (ofold_runs st (seq 1 n)) with (a := ac) as (q & E) end.
      + intros jj acc Ij. apply in_seq in Ij.
        destruct (hash_prod_runs g (col jj) x0 x1 x2 (finv C a) u (snd acc) HT) as (p' & ->). cbn [obind].
        rewrite (idx_lt _ _ 0) by lia. cbn [obind]. rewrite (idx_lt _ _ 0%Z) by (rewrite (Sub _ Ir); lia).
        cbn [obind]. eauto.
      + rewrite E. cbn. eauto.
    - rewrite E. erewrite rbind_run by reflexivity.
      assert (Y : exists la, kp_last (AcMsk g h [g1mul C g k0; g1mul C g k1; g1mul C g k2] [a0; a1] [b0; b1]) sp (t' i') (msp_width f) (snd r) = Ok la).
      { unfold kp_last. cbn [amsk_a amsk_g amsk_gk].
        rewrite (idx_lt _ _ 0%Z) by (rewrite (Sub _ Ir); lia). cbn [obind].
        rewrite (entry_at_ok _ _ [g1mul C g k0; g1mul C g k1; g1mul C g k2] asz (g1mul C g k2) eq_refl). cbn [obind].
        apply ofold_runs. intros jj acc Ij. apply in_seq in Ij.
        fold (idx (snd r) jj). rewrite (idx_lt _ _ 0%Z) by (rewrite (Sub _ Ir); lia). cbn [obind].
        rewrite (idx_lt _ _ 0) by lia. cbn [obind]. eauto. }
      destruct Y as (la & ->). erewrite rbind_run by reflexivity. eexists _, _. reflexivity. }
  destruct X as (r & j' & E). erewrite rbind_run by exact E. eexists _, _. reflexivity.
Qed.

(** ** Relabelling a ciphertext *)

(** Everything below uses the ciphertext, the public key and the hash only. *)

(** Exponent of component [l], column [t] of the entry for row [(name, row)]. *)
Definition row_coef (name : string) (row : list Z) (l t : nat) : F :=
  hv (lab name l t) + dot row (colv l t).

(** Solve [q_l = a_l0 * y0 + a_l1 * y1] for [l = 0, 1]. *)
Definition solve2 (a00 a01 a10 a11 : F) (q0 q1 : G1 C) : option (G1 C * G1 C) :=
  match finv_opt (a00 * a11 - a01 * a10) with
  | None => None
  | Some d =>
    Some (g1mul C (g1add C (g1mul C q0 a11) (g1neg C (g1mul C q1 a01))) d,
          g1mul C (g1add C (g1mul C q1 a00) (g1neg C (g1mul C q0 a10))) d)
  end.

Lemma solve2_ok a00 a01 a10 a11 (q0 q1 : G1 C) G s0 s1 :
  a00 * a11 - a01 * a10 <> 0 ->
  log1 L q0 = G * (a00 * s0 + a01 * s1) -> log1 L q1 = G * (a10 * s0 + a11 * s1) ->
  exists y0 y1, solve2 a00 a01 a10 a11 q0 q1 = Some (y0, y1) /\
    log1 L y0 = G * s0 /\ log1 L y1 = G * s1.
Proof.
  intros D Q0 Q1. unfold solve2. rewrite (finv_opt_neq L) by exact D. do 2 eexists.
  split; [reflexivity|]. logs. rewrite Q0, Q1. split; field; exact D.
Qed.

(** A ciphertext row made from [g^s0] and [g^s1]. *)
Definition make_row (y0 y1 : G1 C) (coef : nat -> nat -> F) : list (G1 C) :=
  map (fun l => g1add C (g1mul C y0 (coef l 0%nat)) (g1mul C y1 (coef l 1%nat))) ls.

Definition first_entry (ct : ac_ct C) : option (G1 C * G1 C) :=
  match act_c ct with
  | (_, q0 :: q1 :: _) :: _ => Some (q0, q1)
  | _ => None
  end.

Definition msp_list (pol : string) (lang : language) : option (list (string * list Z)) :=
  match parse pol lang with
  | Ok v => match calculate_msp v with
            | Ok m => Some (combine (msp_pi m) (msp_m m))
            | _ => None
            end
  | _ => None
  end.

(** Turns a ciphertext for one policy into one for another policy. *)
Definition cp_relabel (ct : ac_cpct C) (pol : string) (lang : language) : option (ac_cpct C) :=
  match first_entry (acp_ct ct), msp_list (fst (acp_policy ct)) (snd (acp_policy ct)), msp_list pol lang with
  | Some (q0, q1), Some ((n, row) :: _), Some R =>
    match solve2 (row_coef n row 0 0) (row_coef n row 0 1) (row_coef n row 1 0) (row_coef n row 1 1) q0 q1 with
    | Some (y0, y1) =>
      let c := acp_ct ct in
      Some (AcCpCt (pol, lang) (AcCt (act_c0 c)
              (map (fun r => (fst r, make_row y0 y1 (row_coef (fst r) (snd r)))) R)
              (act_cp c) (act_ct c)))
    | None => None
    end
  | _, _, _ => None
  end.

(** Turns a ciphertext for one attribute list into one for another list. *)
Definition kp_relabel (ct : ac_kpct C) (attrs : list string) : option (ac_kpct C) :=
  match first_entry (akp_ct ct), akp_attr ct with
  | Some (q0, q1), n :: _ =>
    match solve2 (hv (lab n 0 0)) (hv (lab n 0 1)) (hv (lab n 1 0)) (hv (lab n 1 1)) q0 q1 with
    | Some (y0, y1) =>
      let c := akp_ct ct in
      Some (AcKpCt attrs (AcCt (act_c0 c)
              (map (fun a => (a, make_row y0 y1 (fun l t => hv (lab a l t)))) attrs)
              (act_cp c) (act_ct c)))
    | None => None
    end
  | _, _ => None
  end.

Lemma row_eq (q : list (G1 C)) y0 y1 coef G s0 s1 :
  length q = 3%nat -> log1 L y0 = G * s0 -> log1 L y1 = G * s1 ->
  (forall l, (l < 3)%nat -> log1 L (nth l q (g1zero C)) = G * (coef l 0%nat * s0 + coef l 1%nat * s1)) ->
  make_row y0 y1 coef = q.
Proof.
  intros Hl Y0 Y1 V. destruct q as [|q0 [|q1 [|q2 [|]]]]; try discriminate.
  pose proof (V 0%nat ltac:(lia)) as V0. pose proof (V 1%nat ltac:(lia)) as V1.
  pose proof (V 2%nat ltac:(lia)) as V2. cbn [nth] in *.
  unfold make_row, ls, asz. cbn [seq Nat.add map].
  repeat f_equal; apply (log1_inj L); logs; rewrite Y0, Y1; [rewrite V0|rewrite V1|rewrite V2]; ring.
Qed.

Lemma cp_encrypt_parts nonce (pk : ac_pk C) msk a0 a1 b0 b1 k0 k1 k2 pol lang data t i ct j f :
  ac_keys pk msk a0 a1 b0 b1 k0 k1 k2 -> parse pol lang = Ok (tree f) -> binary_and f = true ->
  cp_encrypt nonce pk pol data lang t i = Ok (ct, j) ->
  acp_policy ct = (pol, lang) /\
  (exists s i', draw_s pk t i = Ok ((s, act_c0 (acp_ct ct)), i') /\
   exists m, ac_cp pk s = Ok m /\ act_cp (acp_ct ct) = gtmul C m (gtpow C (pairing C (g1one C) (g2one C)) (t i')) /\
   Ok (act_ct (acp_ct ct)) = encrypt_symmetric nonce (gtpow C (pairing C (g1one C) (g2one C)) (t i')) data /\
   j = S i') /\
  Forall2 (ct_entry (log1 L (amsk_g msk)) (t i) (t (S i))) (sort_rows (rev (msp_rows f))) (act_c (acp_ct ct)).
Proof.
  intros K P B H. unfold cp_encrypt in H. rewrite P in H.
  apply rbind_Ok in H as (v & i1 & Hv & H). apply rlift_Ok in Hv as [Hv <-]. injection Hv as <-.
  rewrite (calculate_msp_eq f B) in H.
  apply rbind_Ok in H as (msp & i2 & Hm & H). apply rlift_Ok in Hm as [Hm <-]. injection Hm as <-.
  cbn [msp_m msp_pi] in H. set (R := sort_rows (rev (msp_rows f))) in *.
  apply rbind_Ok in H as (row0 & i3 & Hr & H). apply rlift_Ok in Hr as [Hr <-].
  assert (Hn : length row0 = msp_width f).
  { apply idx_Ok, nth_error_In in Hr. apply in_map_iff in Hr as (r & <- & Ir).
    apply (proj1 (sorted_In f r)) in Ir. now apply msp_rows_length. }
  rewrite Hn in H.
  apply rbind_Ok in H as ([s c0] & i4 & Hs & H).
  apply rbind_Ok in H as (table & i5 & Ht & H). apply rlift_Ok in Ht as [Ht <-].
  apply rbind_Ok in H as (c & i6 & Hc & H). apply rlift_Ok in Hc as [Hc <-].
  apply rbind_Ok in H as (cp & i7 & Hcp & H). apply rlift_Ok in Hcp as [Hcp <-].
  apply rbind_Ok in H as (msg & i8 & Hmsg & H).
  apply rbind_Ok in H as (d & i9 & Hd & H). apply rlift_Ok in Hd as [Hd <-].
  apply rret_Ok in H as [<- <-]. cbn [acp_policy acp_ct act_c0 act_c act_cp act_ct].
  split; [reflexivity|]. injection Hmsg as <- <-. split.
  - exists s, i4. split; [exact Hs|]. exists cp. auto.
  - assert (s = [t i; t (S i)]).
    { destruct K as (g & h & -> & ->). unfold draw_s, rbind, rret, rlift, draw in Hs. cbn in Hs. congruence. }
    subst s. rewrite map_length in Hc. rewrite (omap_rows R) in Hc.
    apply omap_Forall2 in Hc.
    assert (Sub : forall r, In r R -> In r (msp_rows f)) by (intros r; apply sorted_In).
    clearbody R. clear - Hc Sub Ht B K.
    assert (Eg : apk_g pk = amsk_g msk) by (destruct K as (g & h & -> & ->); reflexivity).
    induction Hc as [|r e R c E _ IH]; [constructor|].
    constructor; [|apply IH; intros; apply Sub; now right].
    apply obind_Ok in E as (q & Eq & E). injection E as <-.
    assert (Ir : In r (msp_rows f)) by (apply Sub; now left).
    pose proof (msp_rows_length f r Ir) as Len. pose proof (msp_rows_small f r B Ir) as Sm.
    unfold ls, asz in Eq. cbn [seq Nat.add omap] in Eq.
    apply obind_Ok in Eq as (q0 & Q0 & Eq). apply obind_Ok in Eq as (r1 & Q1' & Eq).
    apply obind_Ok in Q1' as (q1 & Q1 & Q1'). apply obind_Ok in Q1' as (r2 & Q2' & Q1').
    apply obind_Ok in Q2' as (q2 & Q2 & Q2'). injection Q2' as <-. injection Q1' as <-. injection Eq as <-.
    apply (cp_entry_log _ _ _ _ _ _ _ _ _ Ht Len Sm) in Q0; [|cbn; auto].
    apply (cp_entry_log _ _ _ _ _ _ _ _ _ Ht Len Sm) in Q1; [|cbn; auto].
    apply (cp_entry_log _ _ _ _ _ _ _ _ _ Ht Len Sm) in Q2; [|cbn; auto].
    rewrite Eg in *. split; [reflexivity|]. split; [reflexivity|].
    intros l Hl. destruct l as [|[|[|l]]]; cbn [snd nth]; auto. lia.
Qed.

Lemma msp_list_eq pol lang f : parse pol lang = Ok (tree f) -> binary_and f = true ->
  msp_list pol lang = Some (sort_rows (rev (msp_rows f))).
Proof.
  intros P B. unfold msp_list. rewrite P, (calculate_msp_eq f B). cbn [msp_pi msp_m]. f_equal.
  generalize (sort_rows (rev (msp_rows f))).
  induction l as [|[n r] l IH]; cbn; [reflexivity|]. now rewrite IH.
Qed.

(** The determinant that has to be invertible: first matrix row of the policy. *)
Definition cp_det (f : formula) : F :=
  match sort_rows (rev (msp_rows f)) with
  | (n, row) :: _ =>
    row_coef n row 0 0 * row_coef n row 1 1 - row_coef n row 0 1 * row_coef n row 1 0
  | [] => 0
  end.

(** A ciphertext for policy [f] becomes, byte for byte, what [cp_encrypt] would
    have produced for the policy [f'] with the same random choices. *)
Theorem cp_relabel_works nonce (pk : ac_pk C) msk pol lang pol' lang' data ct ct' f f' ts is js te ie je je' :
  ac_setup ts is = Ok ((pk, msk), js) ->
  parse pol lang = Ok (tree f) -> binary_and f = true ->
  parse pol' lang' = Ok (tree f') -> binary_and f' = true ->
  cp_encrypt nonce pk pol data lang te ie = Ok (ct, je) ->
  cp_encrypt nonce pk pol' data lang' te ie = Ok (ct', je') ->
  cp_det f <> 0 ->
  cp_relabel ct pol' lang' = Some ct'.
Proof.
  intros Hs P B P' B' E E' D.
  apply ac_setup_keys in Hs as (a0 & a1 & b0 & b1 & k0 & k1 & k2 & K).
  destruct (cp_encrypt_parts _ _ _ _ _ _ _ _ _ _ _ _ _ _ _ _ _ _ K P B E) as (A1 & (s & i' & A2 & m & A3 & A4 & A5 & _) & A6).
  destruct (cp_encrypt_parts _ _ _ _ _ _ _ _ _ _ _ _ _ _ _ _ _ _ K P' B' E') as (A1' & (s' & i'' & A2' & m' & A3' & A4' & A5' & _) & A6').
  rewrite A2 in A2'. injection A2' as <- C0 <-. rewrite A3 in A3'. injection A3' as <-.
  rewrite <- A4 in A4'. rewrite <- A5 in A5'. injection A5' as A5'.
  unfold cp_relabel, first_entry. rewrite A1. cbn [fst snd].
  rewrite (msp_list_eq _ _ _ P B), (msp_list_eq _ _ _ P' B').
  unfold cp_det in D. destruct (sort_rows (rev (msp_rows f))) as [|[n row] R] eqn:ER; [congruence|].
  inversion A6 as [|? e ? c (E1 & E2 & E3) _ Er Ec]; subst. destruct e as [n' q]. cbn [fst snd] in *. subst n'.
  destruct q as [|q0 [|q1 [|q2 [|]]]]; try discriminate.
  pose proof (E3 0%nat ltac:(lia)) as Q0. pose proof (E3 1%nat ltac:(lia)) as Q1. cbn [nth] in Q0, Q1.
  destruct (solve2_ok _ _ _ _ _ _ _ _ _ D Q0 Q1) as (y0 & y1 & -> & Y0 & Y1).
  f_equal. destruct ct' as [pl [c0' c' cp' d']]. cbn [acp_policy acp_ct act_c0 act_c act_cp act_ct] in *.
  subst. f_equal. f_equal.
  clear - A6' Y0 Y1.
  induction A6' as [|r e R c (E1 & E2 & E3) _ IH]; [reflexivity|]. cbn [map]. f_equal; [|exact IH].
  destruct e as [n q]. cbn [fst snd] in *. subst n. f_equal.
  apply (row_eq q y0 y1 _ _ _ _ E2 Y0 Y1). exact E3.
Qed.

(** Hence a key for any other policy opens it. *)
Theorem cp_relabel_opens nonce (pk : ac_pk C) msk pol lang pol' lang' data ct f f' attrs sk
    ts is js tk ik jk te ie je :
  ac_setup ts is = Ok ((pk, msk), js) ->
  cp_keygen msk attrs tk ik = Ok (sk, jk) ->
  cp_encrypt nonce pk pol data lang te ie = Ok (ct, je) ->
  parse pol lang = Ok (tree f) -> binary_and f = true ->
  parse pol' lang' = Ok (tree f') -> binary_and f' = true ->
  String.length nonce = 12%nat -> (forall s, hash C s <> None) -> cp_det f <> 0 ->
  NoDup (names f') -> NoDup attrs -> sat (owns attrs) f' = true ->
  exists ct', cp_relabel ct pol' lang' = Some ct' /\ cp_decrypt sk ct' = Ok data.
Proof.
  intros Hs Hk E P B P' B' Ln HT D ND NA S.
  pose proof Hs as Hs0. apply ac_setup_keys in Hs0 as (a0 & a1 & b0 & b1 & k0 & k1 & k2 & K).
  destruct (cp_encrypt_runs nonce _ _ _ _ _ _ _ _ _ _ _ data f' te ie K P' B' HT) as (ct' & j' & E').
  exists ct'. split; [exact (cp_relabel_works _ _ _ _ _ _ _ _ _ _ _ _ _ _ _ _ _ _ _ Hs P B P' B' E E' D)|]. eapply cp_correct; eauto.
Qed.

Definition kp_det (n : string) : F :=
  hv (lab n 0 0) * hv (lab n 1 1) - hv (lab n 0 1) * hv (lab n 1 0).

Lemma kp_encrypt_parts nonce (pk : ac_pk C) msk a0 a1 b0 b1 k0 k1 k2 attrs data t i ct j :
  ac_keys pk msk a0 a1 b0 b1 k0 k1 k2 ->
  kp_encrypt nonce pk attrs data t i = Ok (ct, j) ->
  akp_attr ct = attrs /\
  (exists s i', draw_s pk t i = Ok ((s, act_c0 (akp_ct ct)), i') /\
   exists m, ac_cp pk s = Ok m /\ act_cp (akp_ct ct) = gtmul C m (gtpow C (pairing C (g1one C) (g2one C)) (t i')) /\
   Ok (act_ct (akp_ct ct)) = encrypt_symmetric nonce (gtpow C (pairing C (g1one C) (g2one C)) (t i')) data /\
   j = S i') /\
  Forall2 (kp_ct_row (log1 L (amsk_g msk)) (t i) (t (S i))) attrs (act_c (akp_ct ct)).
Proof.
  intros K H. unfold kp_encrypt in H.
  apply rbind_Ok in H as ([s c0] & i4 & Hs & H).
  apply rbind_Ok in H as (c & i6 & Hc & H). apply rlift_Ok in Hc as [Hc <-].
  apply rbind_Ok in H as (cp & i7 & Hcp & H). apply rlift_Ok in Hcp as [Hcp <-].
  apply rbind_Ok in H as (msg & i8 & Hmsg & H).
  apply rbind_Ok in H as (d & i9 & Hd & H). apply rlift_Ok in Hd as [Hd <-].
  apply rret_Ok in H as [<- <-]. cbn [akp_attr akp_ct act_c0 act_c act_cp act_ct].
  split; [reflexivity|]. injection Hmsg as <- <-. split.
  - exists s, i4. split; [exact Hs|]. exists cp. auto.
  - assert (s = [t i; t (S i)]).
    { destruct K as (g & h & -> & ->). unfold draw_s, rbind, rret, rlift, draw in Hs. cbn in Hs. congruence. }
    subst s. assert (Eg : apk_g pk = amsk_g msk) by (destruct K as (g & h & -> & ->); reflexivity).
    apply omap_Forall2 in Hc. eapply Forall2_impl; [|exact Hc]. intros n e E.
    apply obind_Ok in E as (q & Eq & E). injection E as <-.
    unfold ls, asz in Eq. cbn [seq Nat.add omap] in Eq.
    apply obind_Ok in Eq as (q0 & Q0 & Eq). apply obind_Ok in Eq as (r1 & Q1' & Eq).
    apply obind_Ok in Q1' as (q1 & Q1 & Q1'). apply obind_Ok in Q1' as (r2 & Q2' & Q1').
    apply obind_Ok in Q2' as (q2 & Q2 & Q2'). injection Q2' as <-. injection Q1' as <-. injection Eq as <-.
    apply kp_ct_entry_log in Q0, Q1, Q2. rewrite Eg in *.
    split; [reflexivity|]. split; [reflexivity|].
    intros l Hl. destruct l as [|[|[|l]]]; cbn [snd nth]; auto. lia.
Qed.

Theorem kp_relabel_works nonce (pk : ac_pk C) msk n attrs attrs' data ct ct' ts is js te ie je je' :
  ac_setup ts is = Ok ((pk, msk), js) ->
  kp_encrypt nonce pk (n :: attrs) data te ie = Ok (ct, je) ->
  kp_encrypt nonce pk attrs' data te ie = Ok (ct', je') ->
  kp_det n <> 0 ->
  kp_relabel ct attrs' = Some ct'.
Proof.
  intros Hs E E' D.
  apply ac_setup_keys in Hs as (a0 & a1 & b0 & b1 & k0 & k1 & k2 & K).
  destruct (kp_encrypt_parts _ _ _ _ _ _ _ _ _ _ _ _ _ _ _ _ K E) as (A1 & (s & i' & A2 & m & A3 & A4 & A5 & _) & A6).
  destruct (kp_encrypt_parts _ _ _ _ _ _ _ _ _ _ _ _ _ _ _ _ K E') as (A1' & (s' & i'' & A2' & m' & A3' & A4' & A5' & _) & A6').
  rewrite A2 in A2'. injection A2' as <- C0 <-. rewrite A3 in A3'. injection A3' as <-.
  rewrite <- A4 in A4'. rewrite <- A5 in A5'. injection A5' as A5'.
  unfold kp_relabel, first_entry. rewrite A1.
  inversion A6 as [|? e ? c (E1 & E2 & E3) _ Er Ec]; subst. destruct e as [n' q]. cbn [fst snd] in *.
  destruct q as [|q0 [|q1 [|q2 [|]]]]; try discriminate.
  pose proof (E3 0%nat ltac:(lia)) as Q0. pose proof (E3 1%nat ltac:(lia)) as Q1. cbn [nth] in Q0, Q1.
  destruct (solve2_ok _ _ _ _ _ _ _ _ _ D Q0 Q1) as (y0 & y1 & -> & Y0 & Y1).
  f_equal. destruct ct' as [pl [c0' c' cp' d']]. cbn [akp_attr akp_ct act_c0 act_c act_cp act_ct] in *.
  subst. f_equal. f_equal.
  clear - A6' Y0 Y1.
  induction A6' as [|r e R c (E1 & E2 & E3) _ IH]; [reflexivity|]. cbn [map]. f_equal; [|exact IH].
  destruct e as [n q]. cbn [fst snd] in *. subst n. f_equal.
  apply (row_eq q y0 y1 _ _ _ _ E2 Y0 Y1). exact E3.
Qed.

Theorem kp_relabel_opens nonce (pk : ac_pk C) msk n attrs attrs' data ct pol lang f sk
    ts is js tk ik jk te ie je :
  ac_setup ts is = Ok ((pk, msk), js) ->
  kp_keygen msk pol lang tk ik = Ok (sk, jk) ->
  kp_encrypt nonce pk (n :: attrs) data te ie = Ok (ct, je) ->
  parse pol lang = Ok (tree f) -> binary_and f = true ->
  String.length nonce = 12%nat -> (forall s, hash C s <> None) -> kp_det n <> 0 ->
  NoDup (names f) -> NoDup attrs' -> sat (owns attrs') f = true ->
  exists ct', kp_relabel ct attrs' = Some ct' /\ kp_decrypt sk ct' = Ok data.
Proof.
  intros Hs Hk E P B Ln HT D ND NA S.
  pose proof Hs as Hs0. apply ac_setup_keys in Hs0 as (a0 & a1 & b0 & b1 & k0 & k1 & k2 & K).
  destruct (kp_encrypt_runs nonce _ _ _ _ _ _ _ _ _ attrs' data te ie K HT) as (ct' & j' & E').
  exists ct'. split; [exact (kp_relabel_works _ _ _ _ _ _ _ _ _ _ _ _ _ _ _ _ Hs E E' D)|]. eapply kp_correct; eauto.
Qed.

(** ** Attribute "01" *)

(** The text hashed for attribute "01" is the text hashed for matrix column 1. *)
Lemma label_collision l t : lab "01" l t = lab (col 1) l t.
Proof. reflexivity. Qed.

(** Opens any payload with a key that contains the attribute "01": uses the
    key's entry for that attribute and its common part. *)
Definition open_01 (sk : ac_cpsk C) (ct : ac_ct C) : option (outcome string) :=
  match find (fun e => seqb (fst e) "01") (ask_k (acps_sk sk)), ask_kp (acps_sk sk), act_c0 ct with
  | Some (_, [p0; p1; p2]), [q0; q1; q2], [u0; u1; u2] =>
    let d q p u := pairing C (g1add C q (g1neg C p)) u in
    let mask := gtmul C (d q0 p0 u0) (gtmul C (d q1 p1 u1) (d q2 p2 u2)) in
    Some (decrypt_symmetric (gtmul C (act_cp ct) (gtinv C mask)) (act_ct ct))
  | _, _, _ => None
  end.

Lemma open_01_ok nonce (pk : ac_pk C) msk a0 a1 b0 b1 k0 k1 k2 attrs sk tk ik jk ct s0 s1 u0 u1 u2 msg data :
  ac_keys pk msk a0 a1 b0 b1 k0 k1 k2 ->
  cp_keygen msk attrs tk ik = Ok (sk, jk) -> In "01"%string attrs ->
  act_c0 ct = [u0; u1; u2] ->
  log2 L u0 = log2 L (amsk_h msk) * a0 * s0 -> log2 L u1 = log2 L (amsk_h msk) * a1 * s1 ->
  log2 L u2 = log2 L (amsk_h msk) * (s0 + s1) ->
  logT L (act_cp ct) =
      log1 L (amsk_g msk) * log2 L (amsk_h msk) * ((k0 * a0 + k2) * s0 + (k1 * a1 + k2) * s1) + logT L msg ->
  encrypt_symmetric nonce msg data = Ok (act_ct ct) -> String.length nonce = 12%nat ->
  open_01 sk ct = Some (Ok data).
Proof.
  intros K Hk I E2 U0 U1 U2 E4 E5 Ln.
  destruct (cp_keygen_inv _ _ _ _ _ _ _ _ _ _ _ _ _ _ K Hk)
    as (NE & N0 & N1 & x0 & x1 & x2 & sg & q0 & q1 & q2 & A1 & A2 & A3 & A4 & V0 & V1 & V2).
  unfold open_01. rewrite A4, E2.
  assert (X : exists p0 p1 p2, find (fun e => seqb (fst e) "01") (ask_k (acps_sk sk)) = Some ("01"%string, [p0; p1; p2]) /\
    log1 L p0 = (log1 L (amsk_g msk) * W "01" x0 x1 x2 0 - log1 L p2) * finv C a0 /\
    log1 L p1 = (log1 L (amsk_g msk) * W "01" x0 x1 x2 1 - log1 L p2) * finv C a1).
  { clear - A3 I. induction A3 as [|n e at' k (En & p0 & p1 & p2 & Ee & P0 & P1) R IH]; [contradiction|].
    cbn [find]. destruct (seqb (fst e) "01") eqn:Eb.
    - apply seqb_eq in Eb. rewrite <- En, Eb in *. exists p0, p1, p2. destruct e as [n' q]. cbn in *. subst.
      auto.
    - destruct I as [->|I]; [rewrite En, seqb_refl in Eb; discriminate|]. exact (IH I). }
  destruct X as (p0 & p1 & p2 & -> & P0 & P1). f_equal.
  apply (symmetric_roundtrip L nonce); [exact Ln|]. rewrite <- E5. f_equal.
  apply (logT_inj L). logs. rewrite E4, U0, U1, U2, V0, V1, V2, P0, P1. field. auto.
Qed.

(** Whatever the policy, a key with attribute "01" opens the ciphertext. *)
Theorem attribute_01_opens_cp nonce (pk : ac_pk C) msk attrs sk pol lang data ct f ts is js tk ik jk te ie je :
  ac_setup ts is = Ok ((pk, msk), js) ->
  cp_keygen msk attrs tk ik = Ok (sk, jk) ->
  cp_encrypt nonce pk pol data lang te ie = Ok (ct, je) ->
  parse pol lang = Ok (tree f) -> String.length nonce = 12%nat ->
  In "01"%string attrs ->
  open_01 sk (acp_ct ct) = Some (Ok data).
Proof.
  intros Hs Hk E P Ln I.
  apply ac_setup_keys in Hs as (a0 & a1 & b0 & b1 & k0 & k1 & k2 & K).
  destruct (binary_and f) eqn:B; [|rewrite (cp_encrypt_wide_and _ _ _ _ _ _ _ _ P B) in E; discriminate].
  destruct (cp_encrypt_inv _ _ _ _ _ _ _ _ _ _ _ _ _ _ _ _ _ _ K P B E)
    as (s0 & s1 & u0 & u1 & u2 & msg & E1 & E2 & U0 & U1 & U2 & E3 & E4 & E5 & _).
  eapply open_01_ok; eauto.
Qed.

(** The same key opens the key-policy ciphertexts of the same authority. *)
Theorem attribute_01_opens_kp nonce (pk : ac_pk C) msk attrs sk attrs' data ct ts is js tk ik jk te ie je :
  ac_setup ts is = Ok ((pk, msk), js) ->
  cp_keygen msk attrs tk ik = Ok (sk, jk) ->
  kp_encrypt nonce pk attrs' data te ie = Ok (ct, je) ->
  String.length nonce = 12%nat -> In "01"%string attrs ->
  open_01 sk (akp_ct ct) = Some (Ok data).
Proof.
  intros Hs Hk E Ln I.
  apply ac_setup_keys in Hs as (a0 & a1 & b0 & b1 & k0 & k1 & k2 & K).
  destruct (kp_encrypt_inv _ _ _ _ _ _ _ _ _ _ _ _ _ _ _ _ K E)
    as (s0 & s1 & u0 & u1 & u2 & msg & E1 & E2 & U0 & U1 & U2 & E3 & E4 & E5 & _).
  eapply open_01_ok; eauto.
Qed.

End Ac17Proofs.
