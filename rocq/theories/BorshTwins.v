(** * BorshTwins: types that borsh writes in the same way

    Borsh writes no names and no tags, so two structs with the same field types have the same bytes. *)
From Coq Require Import String Ascii List Bool Arith NArith ZArith Lia.
From Verif Require Import Base Crypto Policy Files Borsh BorshProofs BorshExact Console Lengths LengthsProofs Instance ConsoleWitnesses.
From Verif Require Bsw Lsw Aw11 Bdabe Mke08.
Import ListNotations.
Local Open Scope nat_scope.
Local Open Scope string_scope.

(** ** Specification *)

(** What is read as an [A] is read as a [B] with the corresponding fields, and the other way round. *)
Definition twins {A B} (a : codec A) (b : codec B) (there : A -> B) (back : B -> A) : Prop :=
  (forall x, enc a x = enc b (there x)) /\ (forall y, enc b y = enc a (back y)) /\
  (forall s x, try_from_slice a s = Ok x -> try_from_slice b s = Ok (there x)) /\
  (forall s y, try_from_slice b s = Ok y -> try_from_slice a s = Ok (back y)).

(** No bytes are read as both. *)
Definition apart {A B} (a : codec A) (b : codec B) : Prop :=
  forall s x y, try_from_slice a s = Ok x -> try_from_slice b s = Ok y -> False.

(** ** Proofs *)

Definition paired {A B} (a : codec A) (b : codec B) (f : A -> B) (g : B -> A) : Prop :=
  (forall x, enc a x = enc b (f x)) /\ (forall y, enc b y = enc a (g y)) /\
  (forall s, dec_ b s = match dec_ a s with Some (x, r) => Some (f x, r) | None => None end) /\
  (forall s, dec_ a s = match dec_ b s with Some (y, r) => Some (g y, r) | None => None end).

Lemma paired_twins {A B} (a : codec A) (b : codec B) f g : paired a b f g -> twins a b f g.
Proof.
  intros (H1 & H2 & H3 & H4). split; [exact H1 |]. split; [exact H2 |]. unfold try_from_slice. split.
  - intros s x. rewrite (H3 s). destruct (dec_ a s) as [[y [| c r]] |]; congruence.
  - intros s x. rewrite (H4 s). destruct (dec_ b s) as [[y [| c r]] |]; congruence.
Qed.

Lemma paired_as {A B D} (c : codec D) (f : A -> D) (g : D -> A) (f' : B -> D) (g' : D -> B) :
  (forall x, g (f x) = x) -> (forall x, g' (f' x) = x) -> (forall d, f (g d) = d) -> (forall d, f' (g' d) = d) ->
  paired (c_as f g c) (c_as f' g' c) (fun x => g' (f x)) (fun y => g (f' y)).
Proof.
  intros H1 H2 H3 H4. repeat apply conj; cbn; intros.
  - now rewrite H4.
  - now rewrite H3.
  - destruct (dec_ c s) as [[d r] |]; cbn; [now rewrite H3 | reflexivity].
  - destruct (dec_ c s) as [[d r] |]; cbn; [now rewrite H4 | reflexivity].
Qed.

(** Several at once. *)
Lemma paired_pair {A A' B B'} (a : codec A) (a' : codec A') (b : codec B) (b' : codec B') f g h k :
  paired a a' f g -> paired b b' h k ->
  paired (c_pair a b) (c_pair a' b') (fun v => (f (fst v), h (snd v))) (fun v => (g (fst v), k (snd v))).
Proof.
  intros (P1 & P2 & P3 & P4) (Q1 & Q2 & Q3 & Q4). repeat apply conj; cbn; intros.
  - now rewrite P1, Q1.
  - now rewrite P2, Q2.
  - rewrite P3. destruct (dec_ a s) as [[x r] |]; cbn; [| reflexivity].
    rewrite Q3. destruct (dec_ b r) as [[y r'] |]; reflexivity.
  - rewrite P4. destruct (dec_ a' s) as [[x r] |]; cbn; [| reflexivity].
    rewrite Q4. destruct (dec_ b' r) as [[y r'] |]; reflexivity.
Qed.

Lemma paired_all {A B} (a : codec A) (b : codec B) f g : paired a b f g ->
  (forall l, enc_all a l = enc_all b (map f l)) /\
  (forall n s, dec_all b n s = match dec_all a n s with Some (l, r) => Some (map f l, r) | None => None end).
Proof.
  intros (P1 & P2 & P3 & P4). split.
  - induction l as [| x l IH]; cbn; [reflexivity | now rewrite P1, IH].
  - induction n as [| n IH]; intros s; cbn; [reflexivity |].
    rewrite P3. destruct (dec_ a s) as [[x r] |]; cbn; [| reflexivity].
    rewrite IH. destruct (dec_all a n r) as [[l r'] |]; reflexivity.
Qed.

Lemma paired_flip {A B} (a : codec A) (b : codec B) f g : paired a b f g -> paired b a g f.
Proof. intros (P1 & P2 & P3 & P4). repeat apply conj; assumption. Qed.

Lemma paired_list {A B} (a : codec A) (b : codec B) f g :
  paired a b f g -> paired (c_list a) (c_list b) (map f) (map g).
Proof.
  intros P. destruct (paired_all _ _ _ _ P) as [E1 D1]. destruct (paired_all _ _ _ _ (paired_flip _ _ _ _ P)) as [E2 D2].
  unfold c_list. repeat apply conj; intros; cbn [enc dec_].
  - rewrite map_length, E1. reflexivity.
  - rewrite map_length, E2. reflexivity.
  - destruct (dec_ c_len s) as [[n r] |]; cbn [bind]; [apply D1 | reflexivity].
  - destruct (dec_ c_len s) as [[n r] |]; cbn [bind]; [apply D2 | reflexivity].
Qed.

Lemma paired_through {A B D D'} (c : codec D) (c' : codec D') h k (f : A -> D) (g : D -> A) (f' : B -> D') (g' : D' -> B) :
  paired c c' h k ->
  (forall x, g (f x) = x) -> (forall x, g' (f' x) = x) -> (forall d, f (g d) = d) -> (forall d, f' (g' d) = d) ->
  paired (c_as f g c) (c_as f' g' c') (fun x => g' (h (f x))) (fun y => g (k (f' y))).
Proof.
  intros (P1 & P2 & P3 & P4) H1 H2 H3 H4. repeat apply conj; cbn; intros.
  - now rewrite H4, P1.
  - now rewrite H3, P2.
  - rewrite P3. destruct (dec_ c s) as [[d r] |]; cbn; [now rewrite H3 | reflexivity].
  - rewrite P4. destruct (dec_ c' s) as [[d r] |]; cbn; [now rewrite H4 | reflexivity].
Qed.

Section Twins.
Context {C : crypto} (W : wire C).

Ltac same := apply paired_as; [intros [] | intros [] | |]; repeat (let p := fresh in intros p; repeat destruct p as [p ?]); reflexivity.

Lemma pair_pk : paired (c_bsw_pk W) (c_bd_pk W)
  (fun k => Bdabe.BdPk (Bsw.bpk_g1 k) (Bsw.bpk_g2 k) (Bsw.bpk_h k) (Bsw.bpk_f k) (Bsw.bpk_egg k))
  (fun k => Bsw.BswPk (Bdabe.bpk_g1 k) (Bdabe.bpk_g2 k) (Bdabe.bpk_p1 k) (Bdabe.bpk_p2 k) (Bdabe.bpk_egg k)).
Proof. same. Qed.

Lemma pair_gk_msk : paired (c_aw_gk W) (c_mk_msk W)
  (fun k => Mke08.MkMsk (Aw11.agk_g1 k) (Aw11.agk_g2 k)) (fun k => Aw11.AwGk (Mke08.mmsk_g1 k) (Mke08.mmsk_g2 k)).
Proof. same. Qed.

Lemma pair_usk : paired (c_bd_usk W) (c_mk_usk W)
  (fun k => Mke08.MkUsk (Bdabe.busk_u1 k) (Bdabe.busk_u2 k)) (fun k => Bdabe.BdUsk (Mke08.musk_g1 k) (Mke08.musk_g2 k)).
Proof. same. Qed.

Lemma pair_upk : paired (c_bd_upk W) (c_mk_upk W)
  (fun k => Mke08.MkUpk (Bdabe.bupk_u k) (Bdabe.bupk_u1 k) (Bdabe.bupk_u2 k))
  (fun k => Bdabe.BdUpk (Mke08.mupk_name k) (Mke08.mupk_g1 k) (Mke08.mupk_g2 k)).
Proof. same. Qed.

Lemma pair_ask : paired (c_bd_ask W) (c_mk_ask W)
  (fun k => Mke08.MkAsk (Bdabe.bask_attr k) (Bdabe.bask_au1 k) (Bdabe.bask_au2 k))
  (fun k => Bdabe.BdAsk (Mke08.mask_attr k) (Mke08.mask_g1 k) (Mke08.mask_g2 k)).
Proof. same. Qed.

Lemma pair_uk : paired (c_bd_uk W) (c_mk_uk W)
  (fun k => Mke08.MkUk (Mke08.MkUsk (Bdabe.busk_u1 (Bdabe.buk_sk k)) (Bdabe.busk_u2 (Bdabe.buk_sk k)))
     (Mke08.MkUpk (Bdabe.bupk_u (Bdabe.buk_pk k)) (Bdabe.bupk_u1 (Bdabe.buk_pk k)) (Bdabe.bupk_u2 (Bdabe.buk_pk k)))
     (map (fun a => Mke08.MkAsk (Bdabe.bask_attr a) (Bdabe.bask_au1 a) (Bdabe.bask_au2 a)) (Bdabe.buk_ska k)))
  (fun k => Bdabe.BdUk (Bdabe.BdUsk (Mke08.musk_g1 (Mke08.muk_sk k)) (Mke08.musk_g2 (Mke08.muk_sk k)))
     (Bdabe.BdUpk (Mke08.mupk_name (Mke08.muk_pk k)) (Mke08.mupk_g1 (Mke08.muk_pk k)) (Mke08.mupk_g2 (Mke08.muk_pk k)))
     (map (fun a => Bdabe.BdAsk (Mke08.mask_attr a) (Mke08.mask_g1 a) (Mke08.mask_g2 a)) (Mke08.muk_ska k))).
Proof.
  apply (paired_through _ _ _ _
    (fun k : Bdabe.bd_uk C => (Bdabe.buk_sk k, Bdabe.buk_pk k, Bdabe.buk_ska k)) (fun '(a, b, c) => Bdabe.BdUk a b c)
    (fun k : Mke08.mk_uk C => (Mke08.muk_sk k, Mke08.muk_pk k, Mke08.muk_ska k)) (fun '(a, b, c) => Mke08.MkUk a b c)
    (paired_pair _ _ _ _ _ _ _ _ (paired_pair _ _ _ _ _ _ _ _ pair_usk pair_upk) (paired_list _ _ _ _ pair_ask)));
    try (intros []; reflexivity); intros [[] ]; reflexivity.
Qed.

(** What the tool reads from a file. *)
Lemma paired_file (E : env C) {A B} (a : codec A) (b : codec B) f g file d :
  paired a b f g ->
  (forall x, snd (ser_dec E a file d) = Ok x -> snd (ser_dec E b file d) = Ok (f x)) /\
  (forall y, snd (ser_dec E b file d) = Ok y -> snd (ser_dec E a file d) = Ok (g y)).
Proof.
  intros P. apply paired_twins in P. destruct P as (_ & _ & P & Q). unfold ser_dec. cbn [snd].
  destruct (ser_dec_bin E d file); cbn [obind]; split; intros x H; try discriminate; auto.
Qed.

End Twins.

Lemma apart_long {A B} (a : codec A) (b : codec B) n m :
  faithful (fun _ => True) a -> faithful (fun _ => True) b ->
  (forall x, long a x n) -> (forall y, long b y m) -> n <> m -> apart a b.
Proof.
  intros [Ea _] [Eb _] La Lb H s x y Hx Hy.
  apply Ea in Hx. apply Eb in Hy. destruct Hx as [_ Hx], Hy as [_ Hy].
  apply H. rewrite <- (La _ _ Hx), <- (Lb _ _ Hy). reflexivity.
Qed.

Lemma kept_apart :
  forall (C : crypto) (W : wire C) (wf wa wb wt : nat),
  wire_ok W -> wire_tight W -> widths W wf wa wb wt ->
  0 < wf -> 0 < wa -> 0 < wb -> 0 < wt ->
  apart (c_bsw_pk W) (c_mk_pk W) /\ apart (c_bd_pk W) (c_mk_pk W) /\
  apart (c_bsw_msk W) (c_lsw_msk W) /\ apart (c_bsw_msk W) (c_bd_msk W) /\
  apart (c_lsw_msk W) (c_bd_msk W) /\ apart (c_lsw_msk W) (c_mk_msk W) /\
  apart (c_lsw_pk W) (c_aw_gk W) /\ apart (c_bsw_pk W) (c_aw_gk W) /\
  apart (c_bd_pk W) (c_mk_msk W) /\ apart (c_mk_pk W) (c_mk_msk W).
Proof.
  intros C W wf wa wb wt OK OT HW Hf Ha Hb Ht.
  destruct (fixed_long HW) as (L1 & L2 & L3 & L4 & L5 & L6 & L7 & L8 & L9).
  destruct (bsw_exact W OK OT) as (F1 & F2 & _). destruct (lsw_exact W OK OT) as (F3 & F4 & _).
  destruct (aw11_exact W OK OT) as (F5 & _). destruct (bdabe_exact W OK OT) as (F6 & F7 & _).
  destruct (mke08_exact W OK OT) as (F8 & F9 & _).
  repeat apply conj.
  - apply (apart_long _ _ _ _ F1 F8 L1 L8). clear -Ht. lia.
  - apply (apart_long _ _ _ _ F6 F8 L6 L8). clear -Ht. lia.
  - apply (apart_long _ _ _ _ F2 F4 L2 L4). clear -Hf Ha. lia.
  - apply (apart_long _ _ _ _ F2 F7 L2 L7). clear -Hb. lia.
  - apply (apart_long _ _ _ _ F4 F7 L4 L7). clear -Hb. lia.
  - apply (apart_long _ _ _ _ F4 F9 L4 L9). clear -Hf. lia.
  - apply (apart_long _ _ _ _ F3 F5 L3 L5). clear -Ht. lia.
  - apply (apart_long _ _ _ _ F1 F5 L1 L5). clear -Ht. lia.
  - apply (apart_long _ _ _ _ F6 F9 L6 L9). clear -Ht. lia.
  - apply (apart_long _ _ _ _ F8 F9 L8 L9). clear -Ht. lia.
Qed.

Lemma all_twins :
  forall (C : crypto) (W : wire C),
  twins (c_bsw_pk W) (c_bd_pk W)
    (fun k => Bdabe.BdPk (Bsw.bpk_g1 k) (Bsw.bpk_g2 k) (Bsw.bpk_h k) (Bsw.bpk_f k) (Bsw.bpk_egg k))
    (fun k => Bsw.BswPk (Bdabe.bpk_g1 k) (Bdabe.bpk_g2 k) (Bdabe.bpk_p1 k) (Bdabe.bpk_p2 k) (Bdabe.bpk_egg k)) /\
  twins (c_aw_gk W) (c_mk_msk W)
    (fun k => Mke08.MkMsk (Aw11.agk_g1 k) (Aw11.agk_g2 k)) (fun k => Aw11.AwGk (Mke08.mmsk_g1 k) (Mke08.mmsk_g2 k)) /\
  twins (c_bd_ask W) (c_mk_ask W)
    (fun k => Mke08.MkAsk (Bdabe.bask_attr k) (Bdabe.bask_au1 k) (Bdabe.bask_au2 k))
    (fun k => Bdabe.BdAsk (Mke08.mask_attr k) (Mke08.mask_g1 k) (Mke08.mask_g2 k)) /\
  twins (c_bd_uk W) (c_mk_uk W)
    (fun k => Mke08.MkUk (Mke08.MkUsk (Bdabe.busk_u1 (Bdabe.buk_sk k)) (Bdabe.busk_u2 (Bdabe.buk_sk k)))
       (Mke08.MkUpk (Bdabe.bupk_u (Bdabe.buk_pk k)) (Bdabe.bupk_u1 (Bdabe.buk_pk k)) (Bdabe.bupk_u2 (Bdabe.buk_pk k)))
       (map (fun a => Mke08.MkAsk (Bdabe.bask_attr a) (Bdabe.bask_au1 a) (Bdabe.bask_au2 a)) (Bdabe.buk_ska k)))
    (fun k => Bdabe.BdUk (Bdabe.BdUsk (Mke08.musk_g1 (Mke08.muk_sk k)) (Mke08.musk_g2 (Mke08.muk_sk k)))
       (Bdabe.BdUpk (Mke08.mupk_name (Mke08.muk_pk k)) (Mke08.mupk_g1 (Mke08.muk_pk k)) (Mke08.mupk_g2 (Mke08.muk_pk k)))
       (map (fun a => Bdabe.BdAsk (Mke08.mask_attr a) (Mke08.mask_g1 a) (Mke08.mask_g2 a)) (Mke08.muk_ska k))).
Proof.
  intros C W. split; [apply paired_twins; apply pair_pk |]. split; [apply paired_twins; apply pair_gk_msk |].
  split; apply paired_twins; [apply pair_ask | apply pair_uk].
Qed.

Lemma file_alike {C : crypto} (E : env C) {A B} (a : codec A) (b : codec B) f g file d :
  paired a b f g ->
  (exists x, snd (ser_dec E a file d) = Ok x) <-> (exists y, snd (ser_dec E b file d) = Ok y).
Proof.
  intros P. destruct (paired_file E a b f g file d P) as [H1 H2].
  split; intros [x Hx]; eexists; [exact (H1 x Hx) | exact (H2 x Hx)].
Qed.

Lemma files_alike :
  forall (C : crypto) (E : env C) (file : string) (d : fs),
  let W := e_wire E in
  ((exists x, snd (ser_dec E (c_bsw_pk W) file d) = Ok x) <-> (exists y, snd (ser_dec E (c_bd_pk W) file d) = Ok y)) /\
  ((exists x, snd (ser_dec E (c_aw_gk W) file d) = Ok x) <-> (exists y, snd (ser_dec E (c_mk_msk W) file d) = Ok y)) /\
  ((exists x, snd (ser_dec E (c_bd_uk W) file d) = Ok x) <-> (exists y, snd (ser_dec E (c_mk_uk W) file d) = Ok y)).
Proof.
  intros C E file d W. split; [exact (file_alike E _ _ _ _ file d (pair_pk W)) |].
  split; [exact (file_alike E _ _ _ _ file d (pair_gk_msk W)) | exact (file_alike E _ _ _ _ file d (pair_uk W))].
Qed.

Lemma alike_refuted :
  exists (s : string) (x : Bsw.bsw_pk ZC) (y : Bdabe.bd_pk ZC),
  enc (c_bsw_pk zwire) x = Some s /\
  try_from_slice (c_bsw_pk zwire) s = Ok x /\ try_from_slice (c_bd_pk zwire) s = Ok y.
Proof.
  destruct (bsw_borsh zwire zwire_ok) as [H _].
  destruct (H (Bsw.BswPk (zmk 1 : G1 ZC) (zmk 2 : G2 ZC) (zmk 3 : G1 ZC) (zmk 4 : G2 ZC) (zmk 5 : GT ZC))) as (s & E & R).
  exists s. eexists. eexists. split; [exact E |]. split; [exact R |].
  exact (proj1 (proj2 (proj2 (paired_twins _ _ _ _ (pair_pk zwire)))) s _ R).
Qed.

Lemma zp_two (x : zp) b : enc c_zp x = Some b -> String.length b = 2.
Proof. intros H. injection H as <-. reflexivity. Qed.
