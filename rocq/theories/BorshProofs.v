(** * BorshProofs: what is written is read back *)
From Coq Require Import String Ascii List Bool Arith NArith ZArith Lia ZifyN ZifyNat.
From Verif Require Import Base Crypto Policy Tools Sharing Spec Parse ParseProofs Files FilesProofs Instance Borsh.
From Verif Require Bsw Lsw Yct14 Ac17 Aw11 Bdabe Mke08.
Import ListNotations.
Local Open Scope string_scope.

(** ** Specification *)

(** Values satisfying [P] survive writing and reading, whatever follows. *)
Definition good {A} (P : A -> Prop) (c : codec A) : Prop :=
  forall v r, P v -> exists s, enc c v = Some s /\ dec_ c (s ++ r) = Some (v, r).

(** A value read took as many bytes as writing it takes. *)
Definition sized {A} (c : codec A) : Prop :=
  forall s v r, dec_ c s = Some (v, r) ->
  exists e, enc c v = Some e /\ String.length s = (String.length e + String.length r)%nat.

(** The codecs of rabe_bn do both for all elements. *)
Definition wire_ok {C : crypto} (W : wire C) : Prop :=
  (good (fun _ => True) (w_f W) /\ good (fun _ => True) (w_1 W) /\
   good (fun _ => True) (w_2 W) /\ good (fun _ => True) (w_t W)) /\
  (sized (w_f W) /\ sized (w_1 W) /\ sized (w_2 W) /\ sized (w_t W)).

(** What fits a 32-bit length, and texts that Rust can hold. *)
Definition fits (n : nat) : Prop := (N.of_nat n < 4294967296)%N.
Definition text (s : string) : Prop := utf8 s = true /\ fits (String.length s).
Definition bytes (s : string) : Prop := fits (String.length s).
Definition all {A} (P : A -> Prop) (l : list A) : Prop := fits (List.length l) /\ Forall P l.

(** ** Strings *)

Lemma slen_app a b : String.length (a ++ b) = (String.length a + String.length b)%nat.
Proof. apply string_len_app. Qed.

Lemma substring_front v r : String.substring 0 (String.length v) (v ++ r) = v.
Proof. induction v as [|c v IH]; cbn; [now destruct r | now rewrite IH]. Qed.

Lemma substring_0 s : String.substring 0 0 s = "".
Proof. now destruct s. Qed.

Lemma substring_len n : forall m s, (n + m <= String.length s)%nat ->
  String.length (String.substring n m s) = m.
Proof.
  induction n as [|n IH]; intros m s.
  - revert s. induction m as [|m IHm]; intros [|c s] H; cbn in *; try lia.
    rewrite IHm; lia.
  - destruct s as [|c s]; cbn; intros H; [lia|]. apply IH. lia.
Qed.

(** ** Lengths *)

Lemma u32_back n : (n < 4294967296)%N ->
  u32_of (ascii_of_N (n mod 256)) (ascii_of_N ((n / 256) mod 256))
         (ascii_of_N ((n / 65536) mod 256)) (ascii_of_N ((n / 16777216) mod 256)) = n.
Proof.
  intros H. unfold u32_of.
  assert (M : forall m, (m mod 256 < 256)%N) by (intros; now apply N.mod_lt).
  rewrite !N_ascii_embedding by apply M.
  replace (n / 65536)%N with (n / 256 / 256)%N by (now rewrite N.div_div by lia).
  replace (n / 16777216)%N with (n / 256 / 256 / 256)%N by (now rewrite !N.div_div by lia).
  pose proof (N.div_mod n 256 ltac:(lia)).
  pose proof (N.div_mod (n / 256) 256 ltac:(lia)).
  pose proof (N.div_mod (n / 256 / 256) 256 ltac:(lia)).
  assert (n / 256 / 256 / 256 < 256)%N.
  { rewrite !N.div_div by lia. apply N.div_lt_upper_bound; lia. }
  rewrite (N.mod_small (n / 256 / 256 / 256)) by assumption.
  lia.
Qed.

Lemma u32_bound a b c d : (u32_of a b c d < 4294967296)%N.
Proof.
  unfold u32_of.
  pose proof (N_ascii_bounded a). pose proof (N_ascii_bounded b).
  pose proof (N_ascii_bounded c). pose proof (N_ascii_bounded d). lia.
Qed.

Lemma len_enc n : (n < 4294967296)%N -> enc c_len n = Some (u32_bytes n).
Proof. intros H. cbn. unfold two32. apply N.ltb_lt in H. now rewrite H. Qed.

Lemma len_dec n r : (n < 4294967296)%N -> dec_ c_len (u32_bytes n ++ r) = Some (n, r).
Proof. intros H. unfold u32_bytes. cbn [dec_ c_len append]. now rewrite u32_back. Qed.

Lemma len_inv s n r : dec_ c_len s = Some (n, r) ->
  (n < 4294967296)%N /\ String.length s = (4 + String.length r)%nat.
Proof.
  cbn. destruct s as [|a [|b [|c [|d s]]]]; try discriminate.
  intros H. injection H as <- <-. split; [apply u32_bound | reflexivity].
Qed.

Lemma u32_bytes_len n : String.length (u32_bytes n) = 4%nat.
Proof. reflexivity. Qed.

Global Opaque u32_bytes.

(** ** Combinators *)

Lemma bytes_good : good bytes c_bytes.
Proof.
  intros v r H. unfold bytes, fits in H. cbn -[c_len]. rewrite (len_enc _ H). cbn -[c_len].
  eexists; split; [reflexivity|].
  rewrite sapp_ass. rewrite (len_dec _ _ H). cbn -[c_len].
  rewrite slen_app.
  assert (E : (N.of_nat (String.length v) <=? N.of_nat (String.length v + String.length r))%N = true)
    by (apply N.leb_le; lia).
  rewrite E, Nat2N.id, substring_front.
  replace (String.length v + String.length r - String.length v)%nat with (String.length r) by lia.
  now rewrite substring_rest.
Qed.

Lemma bytes_sized : sized c_bytes.
Proof.
  intros s v r. cbn -[c_len]. destruct (dec_ c_len s) as [[n q]|] eqn:E; [|discriminate].
  cbn -[c_len]. apply len_inv in E as [B L].
  destruct (N.leb_spec n (N.of_nat (String.length q))) as [Le|]; [|discriminate].
  intros H. injection H as <- <-.
  assert (X : String.length (String.substring 0 (N.to_nat n) q) = N.to_nat n)
    by (apply substring_len; lia).
  rewrite X, len_enc by lia. cbn -[c_len].
  eexists; split; [reflexivity|].
  rewrite slen_app, u32_bytes_len, L, X, substring_len by lia. lia.
Qed.

Lemma string_good : good text c_string.
Proof.
  intros v r [U H]. destruct (bytes_good v r H) as (s & E1 & E2).
  exists s. split; [exact E1|]. cbn -[c_bytes]. rewrite E2. cbn. now rewrite U.
Qed.

Lemma string_sized : sized c_string.
Proof.
  intros s v r. cbn -[c_bytes]. destruct (dec_ c_bytes s) as [[n q]|] eqn:E; [|discriminate].
  cbn -[c_bytes]. destruct (utf8 n); [|discriminate]. intros H. injection H as -> ->.
  now apply bytes_sized.
Qed.

Lemma pair_good {A B} (P : A -> Prop) (Q : B -> Prop) a b : good P a -> good Q b ->
  good (fun v => P (fst v) /\ Q (snd v)) (c_pair a b).
Proof.
  intros Ha Hb [x y] r [HP HQ]. cbn in *.
  destruct (Hb y r HQ) as (t & E3 & E4).
  destruct (Ha x (t ++ r) HP) as (s & E1 & E2).
  rewrite E1, E3. cbn. eexists; split; [reflexivity|].
  rewrite sapp_ass, E2. cbn. now rewrite E4.
Qed.

Lemma pair_sized {A B} (a : codec A) (b : codec B) : sized a -> sized b -> sized (c_pair a b).
Proof.
  intros Ha Hb s [x y] r. cbn.
  destruct (dec_ a s) as [[x' q]|] eqn:E1; [|discriminate]. cbn.
  destruct (dec_ b q) as [[y' q']|] eqn:E2; [|discriminate]. cbn.
  intros H. injection H as -> -> ->.
  apply Ha in E1 as (e1 & E1 & L1). apply Hb in E2 as (e2 & E2 & L2).
  rewrite E1, E2. cbn. eexists; split; [reflexivity|]. rewrite slen_app. lia.
Qed.

Lemma as_good {A B} (P : A -> Prop) (f : B -> A) (g : A -> B) c :
  good P c -> good (fun v => P (f v) /\ g (f v) = v) (c_as f g c).
Proof.
  intros H v r [HP G]. destruct (H (f v) r HP) as (s & E1 & E2).
  exists s. cbn. rewrite E2. cbn. now rewrite G.
Qed.

Lemma as_sized {A B} (f : B -> A) (g : A -> B) c :
  sized c -> (forall x, f (g x) = x) -> sized (c_as f g c).
Proof.
  intros H G s v r. cbn. destruct (dec_ c s) as [[x q]|] eqn:E; [|discriminate]. cbn.
  intros X. injection X as <- <-. rewrite G. now apply H.
Qed.

Lemma all_good {A} (P : A -> Prop) c : good P c -> forall l r, Forall P l ->
  exists s, enc_all c l = Some s /\ dec_all c (List.length l) (s ++ r) = Some (l, r).
Proof.
  intros H. induction l as [|x l IH]; intros r F; cbn.
  - now exists "".
  - inversion F as [|? ? Px Fl]; subst. destruct (IH r Fl) as (t & E3 & E4).
    destruct (H x (t ++ r) Px) as (s & E1 & E2). rewrite E1, E3. cbn.
    eexists; split; [reflexivity|]. rewrite sapp_ass, E2. cbn. now rewrite E4.
Qed.

Lemma list_good {A} (P : A -> Prop) c : good P c -> good (all P) (c_list c).
Proof.
  intros H l r [B F]. unfold fits in B. cbn -[c_len].
  destruct (all_good P c H l r F) as (s & E1 & E2).
  rewrite (len_enc _ B), E1. cbn -[c_len]. eexists; split; [reflexivity|].
  rewrite sapp_ass, (len_dec _ _ B). cbn -[c_len]. now rewrite Nat2N.id.
Qed.

Lemma dec_all_sized {A} (c : codec A) : sized c -> forall n s l r, dec_all c n s = Some (l, r) ->
  List.length l = n /\
  exists e, enc_all c l = Some e /\ String.length s = (String.length e + String.length r)%nat.
Proof.
  intros H. induction n as [|n IH]; cbn; intros s l r E.
  - injection E as <- <-. split; [reflexivity|]. now exists "".
  - destruct (dec_ c s) as [[x q]|] eqn:E1; [|discriminate]. cbn in E.
    destruct (dec_all c n q) as [[l' q']|] eqn:E2; [|discriminate]. cbn in E.
    injection E as <- <-. apply H in E1 as (e1 & E1 & L1).
    apply IH in E2 as (N & e2 & E2 & L2). cbn. rewrite E1, E2. cbn.
    split; [now rewrite N|]. eexists; split; [reflexivity|]. rewrite slen_app. lia.
Qed.

Lemma list_sized {A} (c : codec A) : sized c -> sized (c_list c).
Proof.
  intros H s l r. cbn -[c_len]. destruct (dec_ c_len s) as [[n q]|] eqn:E; [|discriminate].
  cbn -[c_len]. intros D. apply len_inv in E as [B L].
  apply (dec_all_sized c H) in D as (N & e & E & L'). rewrite N, N2Nat.id, (len_enc _ B), E.
  cbn -[c_len]. eexists; split; [reflexivity|]. rewrite slen_app, u32_bytes_len. lia.
Qed.

Lemma lang_good : good (fun _ => True) c_lang.
Proof. intros [] r _; eexists; split; reflexivity. Qed.

Lemma lang_sized : sized c_lang.
Proof.
  intros s v r. cbn. destruct s as [|b s]; [discriminate|].
  destruct (N_of_ascii b) as [|[|p|]]; try discriminate;
    intros H; injection H as <- <-; eexists; split; reflexivity.
Qed.

Lemma policy_good : good (fun p => text (fst p) /\ True) c_policy.
Proof. exact (pair_good text (fun _ => True) _ _ string_good lang_good). Qed.

Lemma policy_sized : sized c_policy.
Proof. apply pair_sized; [apply string_sized | apply lang_sized]. Qed.

Lemma good_weaken {A} (P Q : A -> Prop) c : good P c -> (forall v, Q v -> P v) -> good Q c.
Proof. intros H I v r q. apply H, I, q. Qed.

Lemma all_weaken {A} (P Q : A -> Prop) l : (forall v, P v -> Q v) -> all P l -> all Q l.
Proof. intros I [F H]. split; [exact F|]. revert H. now apply Forall_impl. Qed.

(** ** Reading back what was written *)

Definition survives {A} (c : codec A) (v : A) : Prop :=
  exists s, enc c v = Some s /\ try_from_slice c s = Ok v.

Lemma good_survives {A} (P : A -> Prop) c v : good P c -> P v -> survives c v.
Proof.
  intros H p. destruct (H v "" p) as (s & E1 & E2). exists s. split; [exact E1|].
  unfold try_from_slice. rewrite sapp_nil in E2. now rewrite E2.
Qed.

(** One byte too many in front: the value read is never the one written. *)
Lemma shifted_differs {A} (c : codec A) v s b : sized c ->
  enc c v = Some s -> try_from_slice c (String b s) <> Ok v.
Proof.
  intros H E D. unfold try_from_slice in D.
  destruct (dec_ c (String b s)) as [[v' [|]]|] eqn:X; try discriminate.
  injection D as ->. apply H in X as (e & E' & L). rewrite E in E'. injection E' as <-.
  cbn in L. lia.
Qed.

(** ** All types *)
Section Types.
Context {C : crypto} (W : wire C) (OK : wire_ok W).

Definition short {A} (l : list A) : Prop := fits (List.length l).

Lemma any_all {A} (l : list A) : short l -> all (fun _ => True) l.
Proof. intros H. split; [exact H|]. apply Forall_forall. auto. Qed.

Create HintDb wf.
Ltac wired := destruct OK as [(Kf & K1 & K2 & Kt) (Sf & S1 & S2 & St)].
Ltac sizes := wired; repeat first
  [ assumption | apply pair_sized | apply list_sized | apply policy_sized | apply string_sized
  | apply bytes_sized | apply lang_sized | apply as_sized ];
  try (let x := fresh in intros x; repeat destruct x as [x ?]; reflexivity); try reflexivity.

Ltac goods := repeat first
  [ eassumption | eapply pair_good | eapply list_good | eapply policy_good | eapply string_good
  | eapply bytes_good | eapply lang_good | eapply as_good ].
Ltac wfs := intuition (auto using any_all);
  try (repeat match goal with H : all _ _ |- _ => revert H end; intros;
       match goal with H : all _ ?l |- all _ ?l => revert H; apply all_weaken end;
       cbn; autounfold with wf; cbn; intuition auto using any_all).
Ltac by_parts :=
  wired; eapply good_weaken; [goods | intros []; autounfold with wf; cbn; wfs].

(** *** BSW *)
Import Bsw.
Definition wf_battr (x : battr C) : Prop := text (b_string x).
Definition wf_bsw_ct (x : bsw_ct C) : Prop := text (fst (bct_policy x)) /\ all wf_battr (bct_cy x) /\ bytes (bct_data x).
Definition wf_bsw_sk (x : bsw_sk C) : Prop := all wf_battr (bsk_dj x).
Hint Unfold wf_battr : wf.
Hint Unfold wf_bsw_ct : wf.
Hint Unfold wf_bsw_sk : wf.
Lemma battr_good : good wf_battr (c_battr W).
Proof. by_parts. Qed.
Lemma battr_sized : sized (c_battr W).
Proof. sizes. Qed.
Lemma bsw_pk_good : good (fun _ => True) (c_bsw_pk W).
Proof. by_parts. Qed.
Lemma bsw_pk_sized : sized (c_bsw_pk W).
Proof. sizes. Qed.
Lemma bsw_msk_good : good (fun _ => True) (c_bsw_msk W).
Proof. by_parts. Qed.
Lemma bsw_msk_sized : sized (c_bsw_msk W).
Proof. sizes. Qed.
Lemma bsw_ct_good : good wf_bsw_ct (c_bsw_ct W).
Proof. pose proof battr_good. by_parts. Qed.
Lemma bsw_ct_sized : sized (c_bsw_ct W).
Proof. pose proof battr_sized. sizes. Qed.
Lemma bsw_sk_good : good wf_bsw_sk (c_bsw_sk W).
Proof. pose proof battr_good. by_parts. Qed.
Lemma bsw_sk_sized : sized (c_bsw_sk W).
Proof. pose proof battr_sized. sizes. Qed.

(** *** LSW *)
Import Lsw.
Definition wf_lsw_dj (x : lsw_dj C) : Prop := text (ld_name x).
Definition wf_lsw_sk (x : lsw_sk C) : Prop := text (fst (lsk_policy x)) /\ all wf_lsw_dj (lsk_dj x).
Definition wf_lsw_ej (x : lsw_ej C) : Prop := text (le_name x).
Definition wf_lsw_ct (x : lsw_ct C) : Prop := all wf_lsw_ej (lct_ej x) /\ bytes (lct_ct x).
Hint Unfold wf_lsw_dj : wf.
Hint Unfold wf_lsw_sk : wf.
Hint Unfold wf_lsw_ej : wf.
Hint Unfold wf_lsw_ct : wf.
Lemma lsw_pk_good : good (fun _ => True) (c_lsw_pk W).
Proof. by_parts. Qed.
Lemma lsw_pk_sized : sized (c_lsw_pk W).
Proof. sizes. Qed.
Lemma lsw_msk_good : good (fun _ => True) (c_lsw_msk W).
Proof. by_parts. Qed.
Lemma lsw_msk_sized : sized (c_lsw_msk W).
Proof. sizes. Qed.
Lemma lsw_dj_good : good wf_lsw_dj (c_lsw_dj W).
Proof. by_parts. Qed.
Lemma lsw_dj_sized : sized (c_lsw_dj W).
Proof. sizes. Qed.
Lemma lsw_sk_good : good wf_lsw_sk (c_lsw_sk W).
Proof. pose proof lsw_dj_good. by_parts. Qed.
Lemma lsw_sk_sized : sized (c_lsw_sk W).
Proof. pose proof lsw_dj_sized. sizes. Qed.
Lemma lsw_ej_good : good wf_lsw_ej (c_lsw_ej W).
Proof. by_parts. Qed.
Lemma lsw_ej_sized : sized (c_lsw_ej W).
Proof. sizes. Qed.
Lemma lsw_ct_good : good wf_lsw_ct (c_lsw_ct W).
Proof. pose proof lsw_ej_good. by_parts. Qed.
Lemma lsw_ct_sized : sized (c_lsw_ct W).
Proof. pose proof lsw_ej_sized. sizes. Qed.

(** *** AC17 *)
Import Ac17.
Definition wf_ac_pk (x : ac_pk C) : Prop := short (apk_ha x) /\ short (apk_egh x).
Definition wf_ac_msk (x : ac_msk C) : Prop := short (amsk_gk x) /\ short (amsk_a x) /\ short (amsk_b x).
Definition wf_ac_ct (x : ac_ct C) : Prop := short (act_c0 x) /\ all (fun e => text (fst e) /\ short (snd e)) (act_c x) /\ bytes (act_ct x).
Definition wf_ac_cpct (x : ac_cpct C) : Prop := text (fst (acp_policy x)) /\ wf_ac_ct (acp_ct x).
Definition wf_ac_kpct (x : ac_kpct C) : Prop := all text (akp_attr x) /\ wf_ac_ct (akp_ct x).
Definition wf_ac_sk (x : ac_sk C) : Prop := short (ask_k0 x) /\ all (fun e => text (fst e) /\ short (snd e)) (ask_k x) /\ short (ask_kp x).
Definition wf_ac_kpsk (x : ac_kpsk C) : Prop := text (fst (akps_policy x)) /\ wf_ac_sk (akps_sk x).
Definition wf_ac_cpsk (x : ac_cpsk C) : Prop := all text (acps_attr x) /\ wf_ac_sk (acps_sk x).
Hint Unfold wf_ac_pk : wf.
Hint Unfold wf_ac_msk : wf.
Hint Unfold wf_ac_ct : wf.
Hint Unfold wf_ac_cpct : wf.
Hint Unfold wf_ac_kpct : wf.
Hint Unfold wf_ac_sk : wf.
Hint Unfold wf_ac_kpsk : wf.
Hint Unfold wf_ac_cpsk : wf.
Lemma ac_pk_good : good wf_ac_pk (c_ac_pk W).
Proof. by_parts. Qed.
Lemma ac_pk_sized : sized (c_ac_pk W).
Proof. sizes. Qed.
Lemma ac_msk_good : good wf_ac_msk (c_ac_msk W).
Proof. by_parts. Qed.
Lemma ac_msk_sized : sized (c_ac_msk W).
Proof. sizes. Qed.
Lemma ac_ct_good : good wf_ac_ct (c_ac_ct W).
Proof. by_parts. Qed.
Lemma ac_ct_sized : sized (c_ac_ct W).
Proof. sizes. Qed.
Lemma ac_cpct_good : good wf_ac_cpct (c_ac_cpct W).
Proof. pose proof ac_ct_good. by_parts. Qed.
Lemma ac_cpct_sized : sized (c_ac_cpct W).
Proof. pose proof ac_ct_sized. sizes. Qed.
Lemma ac_kpct_good : good wf_ac_kpct (c_ac_kpct W).
Proof. pose proof ac_ct_good. by_parts. Qed.
Lemma ac_kpct_sized : sized (c_ac_kpct W).
Proof. pose proof ac_ct_sized. sizes. Qed.
Lemma ac_sk_good : good wf_ac_sk (c_ac_sk W).
Proof. by_parts. Qed.
Lemma ac_sk_sized : sized (c_ac_sk W).
Proof. sizes. Qed.
Lemma ac_kpsk_good : good wf_ac_kpsk (c_ac_kpsk W).
Proof. pose proof ac_sk_good. by_parts. Qed.
Lemma ac_kpsk_sized : sized (c_ac_kpsk W).
Proof. pose proof ac_sk_sized. sizes. Qed.
Lemma ac_cpsk_good : good wf_ac_cpsk (c_ac_cpsk W).
Proof. pose proof ac_sk_good. by_parts. Qed.
Lemma ac_cpsk_sized : sized (c_ac_cpsk W).
Proof. pose proof ac_sk_sized. sizes. Qed.

(** *** AW11 *)
Import Aw11.
Definition wf_aw_pk (x : aw_pk C) : Prop := all (fun e => text (fst (fst e))) (apk_attr x).
Definition wf_aw_msk (x : aw_msk C) : Prop := all (fun e => text (fst (fst e))) (amsk_attr x).
Definition wf_aw_ct (x : aw_ct C) : Prop := text (fst (awct_policy x)) /\ all (fun e => text (fst (fst (fst e)))) (awct_c x) /\ bytes (awct_data x).
Definition wf_aw_sk (x : aw_sk C) : Prop := text (awsk_gid x) /\ all (fun e => text (fst e)) (awsk_attr x).
Hint Unfold wf_aw_pk : wf.
Hint Unfold wf_aw_msk : wf.
Hint Unfold wf_aw_ct : wf.
Hint Unfold wf_aw_sk : wf.
Lemma aw_gk_good : good (fun _ => True) (c_aw_gk W).
Proof. by_parts. Qed.
Lemma aw_gk_sized : sized (c_aw_gk W).
Proof. sizes. Qed.
Lemma aw_pk_good : good wf_aw_pk (c_aw_pk W).
Proof. by_parts. Qed.
Lemma aw_pk_sized : sized (c_aw_pk W).
Proof. sizes. Qed.
Lemma aw_msk_good : good wf_aw_msk (c_aw_msk W).
Proof. by_parts. Qed.
Lemma aw_msk_sized : sized (c_aw_msk W).
Proof. sizes. Qed.
Lemma aw_ct_good : good wf_aw_ct (c_aw_ct W).
Proof. by_parts. Qed.
Lemma aw_ct_sized : sized (c_aw_ct W).
Proof. sizes. Qed.
Lemma aw_sk_good : good wf_aw_sk (c_aw_sk W).
Proof. by_parts. Qed.
Lemma aw_sk_sized : sized (c_aw_sk W).
Proof. sizes. Qed.

(** *** BDABE *)
Import Bdabe.
Definition wf_bd_upk (x : bd_upk C) : Prop := text (bupk_u x).
Definition wf_bd_ask (x : bd_ask C) : Prop := text (bask_attr x).
Definition wf_bd_uk (x : bd_uk C) : Prop := wf_bd_upk (buk_pk x) /\ all wf_bd_ask (buk_ska x).
Definition wf_bd_apk (x : bd_apk C) : Prop := text (bapk_attr x).
Definition wf_bd_auth (x : bd_auth C) : Prop := text (bau_name x).
Definition wf_bd_tuple (x : bd_tuple C) : Prop := all text (bt_attr x).
Definition wf_bd_ct (x : bd_ct C) : Prop := text (fst (Bdabe.bct_policy x)) /\ all wf_bd_tuple (bct_j x) /\ bytes (Bdabe.bct_data x).
Hint Unfold wf_bd_upk : wf.
Hint Unfold wf_bd_ask : wf.
Hint Unfold wf_bd_uk : wf.
Hint Unfold wf_bd_apk : wf.
Hint Unfold wf_bd_auth : wf.
Hint Unfold wf_bd_tuple : wf.
Hint Unfold wf_bd_ct : wf.
Lemma bd_pk_good : good (fun _ => True) (c_bd_pk W).
Proof. by_parts. Qed.
Lemma bd_pk_sized : sized (c_bd_pk W).
Proof. sizes. Qed.
Lemma bd_msk_good : good (fun _ => True) (c_bd_msk W).
Proof. by_parts. Qed.
Lemma bd_msk_sized : sized (c_bd_msk W).
Proof. sizes. Qed.
Lemma bd_upk_good : good wf_bd_upk (c_bd_upk W).
Proof. by_parts. Qed.
Lemma bd_upk_sized : sized (c_bd_upk W).
Proof. sizes. Qed.
Lemma bd_usk_good : good (fun _ => True) (c_bd_usk W).
Proof. by_parts. Qed.
Lemma bd_usk_sized : sized (c_bd_usk W).
Proof. sizes. Qed.
Lemma bd_ask_good : good wf_bd_ask (c_bd_ask W).
Proof. by_parts. Qed.
Lemma bd_ask_sized : sized (c_bd_ask W).
Proof. sizes. Qed.
Lemma bd_uk_good : good wf_bd_uk (c_bd_uk W).
Proof. pose proof bd_usk_good. pose proof bd_upk_good. pose proof bd_ask_good. by_parts. Qed.
Lemma bd_uk_sized : sized (c_bd_uk W).
Proof. pose proof bd_usk_sized. pose proof bd_upk_sized. pose proof bd_ask_sized. sizes. Qed.
Lemma bd_apk_good : good wf_bd_apk (c_bd_apk W).
Proof. by_parts. Qed.
Lemma bd_apk_sized : sized (c_bd_apk W).
Proof. sizes. Qed.
Lemma bd_auth_good : good wf_bd_auth (c_bd_auth W).
Proof. by_parts. Qed.
Lemma bd_auth_sized : sized (c_bd_auth W).
Proof. sizes. Qed.
Lemma bd_tuple_good : good wf_bd_tuple (c_bd_tuple W).
Proof. by_parts. Qed.
Lemma bd_tuple_sized : sized (c_bd_tuple W).
Proof. sizes. Qed.
Lemma bd_ct_good : good wf_bd_ct (c_bd_ct W).
Proof. pose proof bd_tuple_good. by_parts. Qed.
Lemma bd_ct_sized : sized (c_bd_ct W).
Proof. pose proof bd_tuple_sized. sizes. Qed.

(** *** MKE08 *)
Import Mke08.
Definition wf_mk_upk (x : mk_upk C) : Prop := text (mupk_name x).
Definition wf_mk_auth (x : mk_auth C) : Prop := text (mau_name x).
Definition wf_mk_apk (x : mk_apk C) : Prop := text (mapk_attr x).
Definition wf_mk_ask (x : mk_ask C) : Prop := text (mask_attr x).
Definition wf_mk_uk (x : mk_uk C) : Prop := wf_mk_upk (muk_pk x) /\ all wf_mk_ask (muk_ska x).
Definition wf_mk_conj (x : mk_conj C) : Prop := all text (mj_str x).
Definition wf_mk_ct (x : mk_ct C) : Prop := text (fst (mct_policy x)) /\ all wf_mk_conj (mct_e x) /\ bytes (mct_data x).
Hint Unfold wf_mk_upk : wf.
Hint Unfold wf_mk_auth : wf.
Hint Unfold wf_mk_apk : wf.
Hint Unfold wf_mk_ask : wf.
Hint Unfold wf_mk_uk : wf.
Hint Unfold wf_mk_conj : wf.
Hint Unfold wf_mk_ct : wf.
Lemma mk_pk_good : good (fun _ => True) (c_mk_pk W).
Proof. by_parts. Qed.
Lemma mk_pk_sized : sized (c_mk_pk W).
Proof. sizes. Qed.
Lemma mk_msk_good : good (fun _ => True) (c_mk_msk W).
Proof. by_parts. Qed.
Lemma mk_msk_sized : sized (c_mk_msk W).
Proof. sizes. Qed.
Lemma mk_upk_good : good wf_mk_upk (c_mk_upk W).
Proof. by_parts. Qed.
Lemma mk_upk_sized : sized (c_mk_upk W).
Proof. sizes. Qed.
Lemma mk_usk_good : good (fun _ => True) (c_mk_usk W).
Proof. by_parts. Qed.
Lemma mk_usk_sized : sized (c_mk_usk W).
Proof. sizes. Qed.
Lemma mk_auth_good : good wf_mk_auth (c_mk_auth W).
Proof. by_parts. Qed.
Lemma mk_auth_sized : sized (c_mk_auth W).
Proof. sizes. Qed.
Lemma mk_apk_good : good wf_mk_apk (c_mk_apk W).
Proof. by_parts. Qed.
Lemma mk_apk_sized : sized (c_mk_apk W).
Proof. sizes. Qed.
Lemma mk_ask_good : good wf_mk_ask (c_mk_ask W).
Proof. by_parts. Qed.
Lemma mk_ask_sized : sized (c_mk_ask W).
Proof. sizes. Qed.
Lemma mk_uk_good : good wf_mk_uk (c_mk_uk W).
Proof. pose proof mk_usk_good. pose proof mk_upk_good. pose proof mk_ask_good. by_parts. Qed.
Lemma mk_uk_sized : sized (c_mk_uk W).
Proof. pose proof mk_usk_sized. pose proof mk_upk_sized. pose proof mk_ask_sized. sizes. Qed.
Lemma mk_conj_good : good wf_mk_conj (c_mk_conj W).
Proof. by_parts. Qed.
Lemma mk_conj_sized : sized (c_mk_conj W).
Proof. sizes. Qed.
Lemma mk_ct_good : good wf_mk_ct (c_mk_ct W).
Proof. pose proof mk_conj_good. by_parts. Qed.
Lemma mk_ct_sized : sized (c_mk_ct W).
Proof. pose proof mk_conj_sized. sizes. Qed.

(** *** YCT14 *)
Import Yct14.

(** A key or ciphertext with the values of its attributes lost. *)
Definition forget (a : yct_attr C) : yct_attr C := YAttr (y_name a) None.
Definition forget_pk (k : yct_pk C) : yct_pk C := YctPk (ypk_g k) (map forget (ypk_attrs k)).
Definition forget_msk (k : yct_msk C) : yct_msk C := YctMsk (ymsk_s k) (map forget (ymsk_attrs k)).
Definition forget_sk (k : yct_sk C) : yct_sk C := YctSk (ysk_policy k) (map forget (ysk_du k)).
Definition forget_ct (k : yct_ct C) : yct_ct C := YctCt (map forget (yct_attrs k)) (yct_data k).

Definition named (a : yct_attr C) : Prop := text (y_name a).

Lemma yattrs_reads l r : all named l -> exists s,
  enc (c_list c_yattr) l = Some s /\ dec_ (c_list c_yattr) (s ++ r) = Some (map forget l, r).
Proof.
  intros [B F].
  assert (G : good (fun a : yct_attr C => text (y_name a) /\ forget a = a) c_yattr)
    by exact (as_good text y_name (fun n => YAttr n None) c_string string_good).
  assert (E : forall m : list (yct_attr C), enc_all c_yattr m = enc_all c_yattr (map forget m)).
  { induction m as [|a m IH]; cbn [enc_all map]; [reflexivity|]. now rewrite IH. }
  destruct (list_good _ _ G (map forget l) r) as (s & E1 & E2).
  { split; [now rewrite map_length|]. apply Forall_forall. intros a I.
    apply in_map_iff in I as (x & <- & I). rewrite Forall_forall in F. split; [exact (F x I)|reflexivity]. }
  exists s. split; [|exact E2].
  rewrite <- E1. cbn [enc c_list]. now rewrite map_length, E.
Qed.

(** Reads [forget v] for [v]. *)
Ltac reading x := destruct (yattrs_reads x "") as (s & E1 & E2); [assumption|].

Lemma yct_pk_reads pk : all named (ypk_attrs pk) -> exists s,
  enc (c_yct_pk W) pk = Some s /\ try_from_slice (c_yct_pk W) s = Ok (forget_pk pk).
Proof.
  intros A. wired. reading (ypk_attrs pk). destruct (Kt (ypk_g pk) s I) as (q & E3 & E4).
  exists (q ++ s). cbn -[c_list c_yattr]. rewrite E1, E3. split; [reflexivity|].
  unfold try_from_slice. cbn -[c_list c_yattr]. rewrite E4. cbn -[c_list c_yattr].
  rewrite sapp_nil in E2. rewrite E2. reflexivity.
Qed.

Lemma yct_msk_reads msk : all named (ymsk_attrs msk) -> exists s,
  enc (c_yct_msk W) msk = Some s /\ try_from_slice (c_yct_msk W) s = Ok (forget_msk msk).
Proof.
  intros A. wired. reading (ymsk_attrs msk). destruct (Kf (ymsk_s msk) s I) as (q & E3 & E4).
  exists (q ++ s). cbn -[c_list c_yattr]. rewrite E1, E3. split; [reflexivity|].
  unfold try_from_slice. cbn -[c_list c_yattr]. rewrite E4. cbn -[c_list c_yattr].
  rewrite sapp_nil in E2. rewrite E2. reflexivity.
Qed.

Lemma yct_sk_reads sk : text (fst (ysk_policy sk)) -> all named (ysk_du sk) -> exists s,
  enc c_yct_sk sk = Some s /\ try_from_slice c_yct_sk s = Ok (forget_sk sk).
Proof.
  intros T A. reading (ysk_du sk). destruct (policy_good (ysk_policy sk) s (conj T I)) as (q & E3 & E4).
  exists (q ++ s). cbn -[c_list c_yattr c_policy]. rewrite E1, E3. split; [reflexivity|].
  unfold try_from_slice. cbn -[c_list c_yattr c_policy]. rewrite E4. cbn -[c_list c_yattr c_policy].
  rewrite sapp_nil in E2. rewrite E2. reflexivity.
Qed.

Lemma yct_ct_reads ct : all named (yct_attrs ct) -> bytes (yct_data ct) -> exists s,
  enc c_yct_ct ct = Some s /\ try_from_slice c_yct_ct s = Ok (forget_ct ct).
Proof.
  intros A B. destruct (bytes_good (yct_data ct) "" B) as (q & E3 & E4).
  destruct (yattrs_reads (yct_attrs ct) q A) as (s & E1 & E2).
  exists (s ++ q). cbn -[c_list c_yattr c_bytes]. rewrite E1, E3. split; [reflexivity|].
  unfold try_from_slice. cbn -[c_list c_yattr c_bytes]. rewrite E2. cbn -[c_list c_yattr c_bytes].
  rewrite sapp_nil in E4. rewrite E4. reflexivity.
Qed.
End Types.

(** ** What a YCT14 key or ciphertext is good for after reading it back *)

Lemma prune_nonempty attrs f : forall t l, calc_pruned attrs (tree f) t = Ok (true, l) -> l <> [].
Proof.
  induction f as [n p|l IH|l IH] using formula_ind'; intros t sel.
  - cbn [tree calc_pruned]. destruct (contains attrs n); intros H; inversion H; subst; discriminate.
  - cbn [tree calc_pruned]. rewrite map_length. destruct l as [|a l]; [discriminate|].
    destruct (2 <=? List.length (a :: l))%nat; [|discriminate].
    set (loop := fix loop (l : list pvalue) (m : bool) (acc : list (string * string)) {struct l} :=
                     match l with
                     | [] => Ok (m, acc)
                     | c :: r =>
                         obind (unwrap_res (calc_pruned attrs c None)) (fun fl =>
                         let m' := m && fst fl in
                         loop r m' (if m' then (acc ++ snd fl)%list else acc))
                     end).
    assert (H : forall vs m acc acc', acc <> [] -> loop vs m acc = Ok (true, acc') -> acc' <> []).
    { induction vs as [|v vs IHv]; intros m acc acc' N E; cbn [loop] in E.
      - injection E as -> ->. exact N.
      - apply obind_Ok in E as (fl & _ & E). apply IHv in E; [exact E|].
        destruct (m && fst fl); [|exact N]. destruct acc; [congruence|discriminate]. }
    assert (Hf : forall vs acc acc', loop vs false acc <> Ok (true, acc')).
    { induction vs as [|v vs IHv]; intros acc acc' E; cbn [loop] in E; [discriminate|].
      apply obind_Ok in E as (fl & _ & E). cbn [andb] in E. now apply IHv in E. }
    inversion IH as [|? ? Ha Hl]; subst. cbn [map loop].
    destruct (unwrap_res (calc_pruned attrs (tree a) None)) as [[b s]| |] eqn:E; cbn [obind]; try discriminate.
    cbn [fst snd andb].
    destruct b.
    + assert (N : s <> []).
      { destruct (calc_pruned attrs (tree a) None) as [x| |] eqn:E'; try discriminate.
        cbn in E. injection E as ->. now apply (Ha None). }
      cbn [app]. intros X. change ((fix loop0 (l : list pvalue) (m : bool) (acc : list (string * string)) {struct l} :=
                     match l with
                     | [] => Ok (m, acc)
                     | c :: r =>
                         obind (unwrap_res (calc_pruned attrs c None)) (fun fl =>
                         let m' := m && fst fl in
                         loop0 r m' (if m' then (acc ++ snd fl)%list else acc))
                     end)%list) with loop in X.
      destruct (loop (map tree l) true s) as [[m acc]| |] eqn:L; try discriminate.
      injection X as -> <-. now apply (H _ _ _ _ N L).
    + intros X. change ((fix loop0 (l : list pvalue) (m : bool) (acc : list (string * string)) {struct l} :=
                     match l with
                     | [] => Ok (m, acc)
                     | c :: r =>
                         obind (unwrap_res (calc_pruned attrs c None)) (fun fl =>
                         let m' := m && fst fl in
                         loop0 r m' (if m' then (acc ++ snd fl)%list else acc))
                     end)%list) with loop in X.
      destruct (loop (map tree l) false []) as [[m acc]| |] eqn:L; try discriminate.
      injection X as -> <-. exfalso. exact (Hf _ _ _ L).
  - cbn [tree calc_pruned]. rewrite map_length. destruct (2 <=? List.length l)%nat; [|discriminate].
    induction IH as [|a l Ha Hl IHl]; cbn [map]; [discriminate|].
    destruct (calc_pruned attrs (tree a) None) as [[[|] s]| |] eqn:E; cbn [unwrap_res obind fst snd];
      try discriminate.
    + intros X. injection X as <-. now apply (Ha None).
    + exact IHl.
Qed.

Section Lost.
Context {C : crypto}.
Import Yct14.

Lemma find_forget n (l : list (yct_attr C)) a :
  find (fun a => seqb (y_name a) n) (map forget l) = Some a -> y_node a = None.
Proof.
  intros H. apply find_some in H as [H _]. apply in_map_iff in H as (x & <- & _). reflexivity.
Qed.

Lemma lost_encrypt nonce (pk : yct_pk C) attrs data t i :
  attrs <> [] -> data <> EmptyString ->
  yct_encrypt nonce (forget_pk pk) attrs data t i = Panic.
Proof.
  destruct attrs as [|a attrs]; [congruence|]. destruct data as [|c data]; [congruence|]. intros _ _.
  unfold yct_encrypt, rbind, draw, rlift. cbn [omap].
  assert (E : public_from (forget_pk pk) (t i) a = Panic).
  { unfold public_from. cbn [ypk_attrs forget_pk].
    destruct (find _ _) as [x|] eqn:E; [|reflexivity]. apply find_forget in E. now rewrite E. }
  now rewrite E.
Qed.

Lemma lost_keygen (msk : yct_msk C) policy lang t i sk j :
  yct_keygen (forget_msk msk) policy lang t i = Ok (sk, j) -> ysk_du sk = [].
Proof.
  intros H. unfold yct_keygen in H.
  apply rbind_Ok in H as (v & i1 & _ & H). apply rbind_Ok in H as (sh & i2 & _ & H).
  apply rbind_Ok in H as (du & i3 & H1 & H). apply rret_Ok in H as [<- _]. cbn.
  apply rlift_Ok in H1 as [H1 _].
  assert (E : forall l, yct_du (forget_msk msk) l = Ok []); [|congruence].
  clear. induction l as [|x l IH]; cbn [yct_du]; [reflexivity|].
  assert (E : private_from (remove_index (fst x), snd x) (forget_msk msk) = Err); [|now rewrite E].
  unfold private_from, msk_get_private. cbn [ymsk_attrs forget_msk fst snd].
  destruct (find _ _) as [a|] eqn:E; [|reflexivity].
  apply find_some in E as [I E]. apply in_map_iff in I as (y & <- & _).
  cbn in E. now rewrite andb_false_r in E.
Qed.

Lemma lost_ct (sk : yct_sk C) (ct : yct_ct C) data : yct_decrypt sk (forget_ct ct) <> Ok data.
Proof.
  unfold yct_decrypt. intros H. apply obind_Ok in H as (v & E & H).
  apply obind_Ok in H as ([b sel] & P & H). cbn [fst snd] in H.
  destruct b; [|discriminate].
  destruct (parse_shape _ _ _ E) as (f & -> & _). apply prune_nonempty in P.
  destruct sel as [|[n m] sel]; [congruence|].
  apply obind_Ok in H as (o & _ & H). apply obind_Ok in H as (z & _ & H).
  apply obind_Ok in H as (prod & H & _). cbn [ofold] in H.
  apply obind_Ok in H as (a & H & _). unfold yct_step in H.
  apply obind_Ok in H as (g & H & _). unfold ct_get_public in H. cbn [yct_attrs forget_ct] in H.
  destruct (find _ _) as [x|] eqn:F; [|discriminate]. apply find_forget in F.
  unfold node_public in H. rewrite F in H. discriminate.
Qed.

Lemma lost_sk (sk : yct_sk C) (ct : yct_ct C) data : yct_decrypt (forget_sk sk) ct <> Ok data.
Proof.
  unfold yct_decrypt. intros H. apply obind_Ok in H as (v & E & H).
  apply obind_Ok in H as ([b sel] & P & H). cbn [fst snd] in H.
  destruct b; [|discriminate].
  destruct (parse_shape _ _ _ E) as (f & -> & _). apply prune_nonempty in P.
  destruct sel as [|[n m] sel]; [congruence|].
  apply obind_Ok in H as (o & _ & H). apply obind_Ok in H as (z & _ & H).
  apply obind_Ok in H as (prod & H & _). cbn [ofold] in H.
  apply obind_Ok in H as (a & H & _). unfold yct_step in H.
  apply obind_Ok in H as (g & _ & H). apply obind_Ok in H as (x & H & _).
  unfold sk_get_private in H. cbn [ysk_du forget_sk] in H.
  destruct (find _ _) as [y|] eqn:F; [|discriminate]. apply find_forget in F.
  unfold node_private in H. rewrite F in H. discriminate.
Qed.
End Lost.

(** ** All types of a scheme at once *)
Section Schemes.
Context {C : crypto} (W : wire C) (OK : wire_ok W).

Ltac lasts H := intros; eapply good_survives; [exact H | first [exact I | assumption]].

Theorem bsw_borsh :
  (forall x, survives (c_bsw_pk W) x) /\ (forall x, survives (c_bsw_msk W) x) /\
  (forall x, wf_bsw_sk x -> survives (c_bsw_sk W) x) /\
  (forall x, wf_bsw_ct x -> survives (c_bsw_ct W) x).
Proof.
  repeat apply conj; [lasts (bsw_pk_good W OK) | lasts (bsw_msk_good W OK) | lasts (bsw_sk_good W OK) | lasts (bsw_ct_good W OK)].
Qed.

Theorem lsw_borsh :
  (forall x, survives (c_lsw_pk W) x) /\ (forall x, survives (c_lsw_msk W) x) /\
  (forall x, wf_lsw_sk x -> survives (c_lsw_sk W) x) /\
  (forall x, wf_lsw_ct x -> survives (c_lsw_ct W) x).
Proof.
  repeat apply conj; [lasts (lsw_pk_good W OK) | lasts (lsw_msk_good W OK) | lasts (lsw_sk_good W OK) | lasts (lsw_ct_good W OK)].
Qed.

Theorem ac17_borsh :
  (forall x, wf_ac_pk x -> survives (c_ac_pk W) x) /\ (forall x, wf_ac_msk x -> survives (c_ac_msk W) x) /\
  (forall x, wf_ac_cpsk x -> survives (c_ac_cpsk W) x) /\ (forall x, wf_ac_kpsk x -> survives (c_ac_kpsk W) x) /\
  (forall x, wf_ac_cpct x -> survives (c_ac_cpct W) x) /\ (forall x, wf_ac_kpct x -> survives (c_ac_kpct W) x).
Proof.
  repeat apply conj; [lasts (ac_pk_good W OK) | lasts (ac_msk_good W OK) | lasts (ac_cpsk_good W OK) | lasts (ac_kpsk_good W OK) | lasts (ac_cpct_good W OK) | lasts (ac_kpct_good W OK)].
Qed.

Theorem aw11_borsh :
  (forall x, survives (c_aw_gk W) x) /\ (forall x, wf_aw_pk x -> survives (c_aw_pk W) x) /\
  (forall x, wf_aw_msk x -> survives (c_aw_msk W) x) /\ (forall x, wf_aw_sk x -> survives (c_aw_sk W) x) /\
  (forall x, wf_aw_ct x -> survives (c_aw_ct W) x).
Proof.
  repeat apply conj; [lasts (aw_gk_good W OK) | lasts (aw_pk_good W OK) | lasts (aw_msk_good W OK) | lasts (aw_sk_good W OK) | lasts (aw_ct_good W OK)].
Qed.

Theorem bdabe_borsh :
  (forall x, survives (c_bd_pk W) x) /\ (forall x, survives (c_bd_msk W) x) /\
  (forall x, wf_bd_auth x -> survives (c_bd_auth W) x) /\ (forall x, wf_bd_apk x -> survives (c_bd_apk W) x) /\
  (forall x, wf_bd_ask x -> survives (c_bd_ask W) x) /\ (forall x, wf_bd_uk x -> survives (c_bd_uk W) x) /\
  (forall x, wf_bd_ct x -> survives (c_bd_ct W) x).
Proof.
  repeat apply conj; [lasts (bd_pk_good W OK) | lasts (bd_msk_good W OK) | lasts (bd_auth_good W OK) | lasts (bd_apk_good W OK) | lasts (bd_ask_good W OK) | lasts (bd_uk_good W OK) | lasts (bd_ct_good W OK)].
Qed.

Theorem mke08_borsh :
  (forall x, survives (c_mk_pk W) x) /\ (forall x, survives (c_mk_msk W) x) /\
  (forall x, wf_mk_auth x -> survives (c_mk_auth W) x) /\ (forall x, wf_mk_apk x -> survives (c_mk_apk W) x) /\
  (forall x, wf_mk_ask x -> survives (c_mk_ask W) x) /\ (forall x, wf_mk_uk x -> survives (c_mk_uk W) x) /\
  (forall x, wf_mk_ct x -> survives (c_mk_ct W) x).
Proof.
  repeat apply conj; [lasts (mk_pk_good W OK) | lasts (mk_msk_good W OK) | lasts (mk_auth_good W OK) | lasts (mk_apk_good W OK) | lasts (mk_ask_good W OK) | lasts (mk_uk_good W OK) | lasts (mk_ct_good W OK)].
Qed.
End Schemes.
