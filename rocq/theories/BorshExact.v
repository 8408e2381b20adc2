(** * BorshExact: reading accepts exactly what writing produces *)
From Coq Require Import String Ascii List Bool Arith NArith ZArith Lia ZifyN ZifyNat.
From Verif Require Import Base Crypto Policy Files FilesProofs Borsh BorshProofs.
From Verif Require Bsw Lsw Yct14 Ac17 Aw11 Bdabe Mke08.
Import ListNotations.
Local Open Scope string_scope.

(** ** Specification *)

(** The texts read as [v] are exactly the text written for [v], and only values
    satisfying [P] are read. *)
Definition exactly {A} (P : A -> Prop) (c : codec A) : Prop :=
  forall s v, try_from_slice c s = Ok v <-> P v /\ enc c v = Some s.

(** No file is the beginning of another one. *)
Definition prefix_free {A} (c : codec A) : Prop :=
  forall s x v w, try_from_slice c s = Ok v -> try_from_slice c (s ++ x) = Ok w -> x = "".

(** A value read stands at the front of the text as it would be written. *)
Definition tight {A} (P : A -> Prop) (c : codec A) : Prop :=
  forall s v r, dec_ c s = Some (v, r) -> P v /\ exists e, enc c v = Some e /\ s = e ++ r.

(** The codecs of rabe_bn do this for all elements. *)
Definition wire_tight {C : crypto} (W : wire C) : Prop :=
  tight (fun _ => True) (w_f W) /\ tight (fun _ => True) (w_1 W) /\
  tight (fun _ => True) (w_2 W) /\ tight (fun _ => True) (w_t W).

Lemma tight_exactly {A} (P : A -> Prop) c : good P c -> tight P c -> exactly P c.
Proof.
  intros G T s v. unfold try_from_slice. split.
  - destruct (dec_ c s) as [[x [|]]|] eqn:E; try discriminate. intros H. injection H as ->.
    apply T in E as (p & e & E & ->). rewrite sapp_nil. auto.
  - intros (p & E). destruct (G v "" p) as (e & E' & D). rewrite E in E'. injection E' as <-.
    rewrite sapp_nil in D. now rewrite D.
Qed.

Lemma tight_prefix_free {A} (P : A -> Prop) c : good P c -> tight P c -> prefix_free c.
Proof.
  intros G T s x v w Hv Hw. apply (tight_exactly P c G T) in Hv as (Pv & Ev).
  destruct (G v x Pv) as (e & E & D). rewrite Ev in E. injection E as <-.
  unfold try_from_slice in Hw. rewrite D in Hw. now destruct x.
Qed.

(** ** Combinators *)

Lemma bytes_of_u32 a b c d r : u32_bytes (u32_of a b c d) ++ r = String a (String b (String c (String d r))).
Proof.
  Local Transparent u32_bytes. unfold u32_bytes, u32_of. cbn [append].
  pose proof (N_ascii_bounded a). pose proof (N_ascii_bounded b).
  pose proof (N_ascii_bounded c). pose proof (N_ascii_bounded d).
  set (A := N_of_ascii a) in *. set (B := N_of_ascii b) in *. set (D := N_of_ascii c) in *. set (E := N_of_ascii d) in *.
  assert (M0 : ((A + 256 * B + 65536 * D + 16777216 * E) mod 256 = A)%N).
  { symmetry. apply (N.mod_unique _ _ (B + 256 * D + 65536 * E)%N); lia. }
  assert (D1 : ((A + 256 * B + 65536 * D + 16777216 * E) / 256 = B + 256 * D + 65536 * E)%N).
  { symmetry. apply (N.div_unique _ _ _ A); lia. }
  assert (D2 : ((A + 256 * B + 65536 * D + 16777216 * E) / 65536 = D + 256 * E)%N).
  { symmetry. apply (N.div_unique _ _ _ (A + 256 * B)%N); lia. }
  assert (D3 : ((A + 256 * B + 65536 * D + 16777216 * E) / 16777216 = E)%N).
  { symmetry. apply (N.div_unique _ _ _ (A + 256 * B + 65536 * D)%N); lia. }
  assert (M1 : ((B + 256 * D + 65536 * E) mod 256 = B)%N).
  { symmetry. apply (N.mod_unique _ _ (D + 256 * E)%N); lia. }
  assert (M2 : ((D + 256 * E) mod 256 = D)%N).
  { symmetry. apply (N.mod_unique _ _ E); lia. }
  assert (M3 : (E mod 256 = E)%N) by (apply N.mod_small; lia).
  rewrite D1, D2, D3, M0, M1, M2, M3. unfold A, B, D, E. now rewrite !ascii_N_embedding.
Qed.
Global Opaque u32_bytes.

Lemma len_tight s n r : dec_ c_len s = Some (n, r) -> (n < 4294967296)%N /\ s = u32_bytes n ++ r.
Proof.
  cbn. destruct s as [|a [|b [|c [|d s]]]]; try discriminate.
  intros H. injection H as <- <-. split; [apply u32_bound|]. now rewrite bytes_of_u32.
Qed.

Lemma substring_halves n : forall s, (n <= String.length s)%nat ->
  s = String.substring 0 n s ++ String.substring n (String.length s - n) s.
Proof.
  induction n as [|n IH]; intros s H.
  - rewrite substring_0, Nat.sub_0_r. cbn. symmetry. rewrite <- (sapp_nil s) at 2. apply substring_front.
  - destruct s as [|c s]; cbn in *; [lia|]. f_equal. apply IH. lia.
Qed.

Lemma bytes_tight : tight bytes c_bytes.
Proof.
  intros s v r. cbn -[c_len]. destruct (dec_ c_len s) as [[n q]|] eqn:E; [|discriminate].
  cbn -[c_len]. apply len_tight in E as [B ->].
  destruct (N.leb_spec n (N.of_nat (String.length q))) as [Le|]; [|discriminate].
  intros H. injection H as <- <-.
  assert (X : String.length (String.substring 0 (N.to_nat n) q) = N.to_nat n)
    by (apply substring_len; lia).
  unfold bytes, fits. rewrite X, N2Nat.id. split; [exact B|]. rewrite len_enc by exact B. cbn -[c_len].
  eexists; split; [reflexivity|]. rewrite sapp_ass. f_equal. apply substring_halves. lia.
Qed.

Lemma string_tight : tight text c_string.
Proof.
  intros s v r. cbn -[c_bytes]. destruct (dec_ c_bytes s) as [[n q]|] eqn:E; [|discriminate].
  cbn -[c_bytes]. destruct (utf8 n) eqn:U; [|discriminate]. intros H. injection H as -> ->.
  apply bytes_tight in E as (B & E). split; [split; [exact U|exact B]|exact E].
Qed.

Lemma pair_tight {A B} (P : A -> Prop) (Q : B -> Prop) a b : tight P a -> tight Q b ->
  tight (fun v => P (fst v) /\ Q (snd v)) (c_pair a b).
Proof.
  intros Ha Hb s [x y] r. cbn.
  destruct (dec_ a s) as [[x' q]|] eqn:E1; [|discriminate]. cbn.
  destruct (dec_ b q) as [[y' q']|] eqn:E2; [|discriminate]. cbn.
  intros H. injection H as -> -> ->.
  apply Ha in E1 as (Px & e1 & E1 & ->). apply Hb in E2 as (Qy & e2 & E2 & ->).
  split; [auto|]. rewrite E1, E2. cbn. eexists; split; [reflexivity|]. now rewrite sapp_ass.
Qed.

Lemma as_tight {A B} (P : A -> Prop) (f : B -> A) (g : A -> B) c :
  tight P c -> (forall x, f (g x) = x) -> tight (fun v => P (f v)) (c_as f g c).
Proof.
  intros H G s v r. cbn. destruct (dec_ c s) as [[x q]|] eqn:E; [|discriminate]. cbn.
  intros X. injection X as <- <-. rewrite G. now apply H.
Qed.

Lemma dec_all_tight {A} (P : A -> Prop) (c : codec A) : tight P c -> forall n s l r, dec_all c n s = Some (l, r) ->
  List.length l = n /\ Forall P l /\ exists e, enc_all c l = Some e /\ s = e ++ r.
Proof.
  intros H. induction n as [|n IH]; cbn; intros s l r E.
  - injection E as <- <-. split; [reflexivity|]. split; [constructor|]. now exists "".
  - destruct (dec_ c s) as [[x q]|] eqn:E1; [|discriminate]. cbn in E.
    destruct (dec_all c n q) as [[l' q']|] eqn:E2; [|discriminate]. cbn in E.
    injection E as <- <-. apply H in E1 as (Px & e1 & E1 & ->).
    apply IH in E2 as (N & Fl & e2 & E2 & ->). cbn. rewrite E1, E2. cbn.
    split; [now rewrite N|]. split; [now constructor|]. eexists; split; [reflexivity|]. now rewrite sapp_ass.
Qed.

Lemma list_tight {A} (P : A -> Prop) (c : codec A) : tight P c -> tight (all P) (c_list c).
Proof.
  intros H s l r. cbn -[c_len]. destruct (dec_ c_len s) as [[n q]|] eqn:E; [|discriminate].
  cbn -[c_len]. intros D. apply len_tight in E as [B ->].
  apply (dec_all_tight P c H) in D as (N & Fl & e & E & ->). unfold all, fits. rewrite N, N2Nat.id, (len_enc _ B), E.
  split; [split; [exact B|exact Fl]|]. cbn -[c_len]. eexists; split; [reflexivity|]. now rewrite sapp_ass.
Qed.

Lemma lang_tight : tight (fun _ => True) c_lang.
Proof.
  intros s v r. cbn. destruct s as [|b s]; [discriminate|]. pose proof (ascii_N_embedding b) as Eb.
  destruct (N_of_ascii b) as [|[|p|]]; try discriminate;
    intros H; injection H as <- <-; (split; [exact I|]); eexists; (split; [reflexivity|]); cbn [append]; f_equal;
    rewrite <- Eb; reflexivity.
Qed.

Lemma policy_tight : tight (fun p => text (fst p) /\ True) c_policy.
Proof. exact (pair_tight text (fun _ => True) _ _ string_tight lang_tight). Qed.

Lemma tight_weaken {A} (P Q : A -> Prop) c : tight P c -> (forall v, P v -> Q v) -> tight Q c.
Proof. intros H I s v r D. apply H in D as (p & D). auto. Qed.

Lemma all_short {A} (P : A -> Prop) l : all P l -> short l.
Proof. intros [H _]. exact H. Qed.

(** ** All types *)
Section Types.
Context {C : crypto} (W : wire C) (OK : wire_ok W) (OT : wire_tight W).

Create HintDb wfx.
Ltac trip := intros x; cbv beta; repeat match goal with y : (_ * _)%type |- _ => destruct y end; reflexivity.
Ltac tights := repeat first
  [ eassumption | eapply pair_tight | eapply list_tight | eapply policy_tight | eapply string_tight
  | eapply bytes_tight | eapply lang_tight | eapply as_tight; [|trip] ].
Ltac shorts := intuition eauto using all_short;
  try (match goal with H : all _ ?l |- all _ ?l => revert H; apply all_weaken end;
       cbn; autounfold with wfx; cbn; intuition eauto using all_short).
Ltac by_parts :=
  destruct OT as (Tf & T1 & T2 & Tt); eapply tight_weaken; [tights | intros []; autounfold with wfx; cbn; shorts].

Hint Unfold wf_battr wf_bsw_ct wf_bsw_sk wf_lsw_dj wf_lsw_sk wf_lsw_ej wf_lsw_ct wf_ac_pk wf_ac_msk wf_ac_ct wf_ac_cpct wf_ac_kpct wf_ac_sk wf_ac_kpsk wf_ac_cpsk wf_aw_pk wf_aw_msk wf_aw_ct wf_aw_sk wf_bd_upk wf_bd_ask wf_bd_uk wf_bd_apk wf_bd_auth wf_bd_tuple wf_bd_ct wf_mk_upk wf_mk_auth wf_mk_apk wf_mk_ask wf_mk_uk wf_mk_conj wf_mk_ct : wfx.
Lemma battr_tight : tight wf_battr (c_battr W).
Proof. by_parts. Qed.
Lemma bsw_pk_tight : tight (fun _ => True) (c_bsw_pk W).
Proof. by_parts. Qed.
Lemma bsw_msk_tight : tight (fun _ => True) (c_bsw_msk W).
Proof. by_parts. Qed.
Lemma bsw_ct_tight : tight wf_bsw_ct (c_bsw_ct W).
Proof. pose proof battr_tight. by_parts. Qed.
Lemma bsw_sk_tight : tight wf_bsw_sk (c_bsw_sk W).
Proof. pose proof battr_tight. by_parts. Qed.
Lemma lsw_pk_tight : tight (fun _ => True) (c_lsw_pk W).
Proof. by_parts. Qed.
Lemma lsw_msk_tight : tight (fun _ => True) (c_lsw_msk W).
Proof. by_parts. Qed.
Lemma lsw_dj_tight : tight wf_lsw_dj (c_lsw_dj W).
Proof. by_parts. Qed.
Lemma lsw_sk_tight : tight wf_lsw_sk (c_lsw_sk W).
Proof. pose proof lsw_dj_tight. by_parts. Qed.
Lemma lsw_ej_tight : tight wf_lsw_ej (c_lsw_ej W).
Proof. by_parts. Qed.
Lemma lsw_ct_tight : tight wf_lsw_ct (c_lsw_ct W).
Proof. pose proof lsw_ej_tight. by_parts. Qed.
Lemma ac_pk_tight : tight wf_ac_pk (c_ac_pk W).
Proof. by_parts. Qed.
Lemma ac_msk_tight : tight wf_ac_msk (c_ac_msk W).
Proof. by_parts. Qed.
Lemma ac_ct_tight : tight wf_ac_ct (c_ac_ct W).
Proof. by_parts. Qed.
Lemma ac_cpct_tight : tight wf_ac_cpct (c_ac_cpct W).
Proof. pose proof ac_ct_tight. by_parts. Qed.
Lemma ac_kpct_tight : tight wf_ac_kpct (c_ac_kpct W).
Proof. pose proof ac_ct_tight. by_parts. Qed.
Lemma ac_sk_tight : tight wf_ac_sk (c_ac_sk W).
Proof. by_parts. Qed.
Lemma ac_kpsk_tight : tight wf_ac_kpsk (c_ac_kpsk W).
Proof. pose proof ac_sk_tight. by_parts. Qed.
Lemma ac_cpsk_tight : tight wf_ac_cpsk (c_ac_cpsk W).
Proof. pose proof ac_sk_tight. by_parts. Qed.
Lemma aw_gk_tight : tight (fun _ => True) (c_aw_gk W).
Proof. by_parts. Qed.
Lemma aw_pk_tight : tight wf_aw_pk (c_aw_pk W).
Proof. by_parts. Qed.
Lemma aw_msk_tight : tight wf_aw_msk (c_aw_msk W).
Proof. by_parts. Qed.
Lemma aw_ct_tight : tight wf_aw_ct (c_aw_ct W).
Proof. by_parts. Qed.
Lemma aw_sk_tight : tight wf_aw_sk (c_aw_sk W).
Proof. by_parts. Qed.
Lemma bd_pk_tight : tight (fun _ => True) (c_bd_pk W).
Proof. by_parts. Qed.
Lemma bd_msk_tight : tight (fun _ => True) (c_bd_msk W).
Proof. by_parts. Qed.
Lemma bd_upk_tight : tight wf_bd_upk (c_bd_upk W).
Proof. by_parts. Qed.
Lemma bd_usk_tight : tight (fun _ => True) (c_bd_usk W).
Proof. by_parts. Qed.
Lemma bd_ask_tight : tight wf_bd_ask (c_bd_ask W).
Proof. by_parts. Qed.
Lemma bd_uk_tight : tight wf_bd_uk (c_bd_uk W).
Proof. pose proof bd_usk_tight. pose proof bd_upk_tight. pose proof bd_ask_tight. by_parts. Qed.
Lemma bd_apk_tight : tight wf_bd_apk (c_bd_apk W).
Proof. by_parts. Qed.
Lemma bd_auth_tight : tight wf_bd_auth (c_bd_auth W).
Proof. by_parts. Qed.
Lemma bd_tuple_tight : tight wf_bd_tuple (c_bd_tuple W).
Proof. by_parts. Qed.
Lemma bd_ct_tight : tight wf_bd_ct (c_bd_ct W).
Proof. pose proof bd_tuple_tight. by_parts. Qed.
Lemma mk_pk_tight : tight (fun _ => True) (c_mk_pk W).
Proof. by_parts. Qed.
Lemma mk_msk_tight : tight (fun _ => True) (c_mk_msk W).
Proof. by_parts. Qed.
Lemma mk_upk_tight : tight wf_mk_upk (c_mk_upk W).
Proof. by_parts. Qed.
Lemma mk_usk_tight : tight (fun _ => True) (c_mk_usk W).
Proof. by_parts. Qed.
Lemma mk_auth_tight : tight wf_mk_auth (c_mk_auth W).
Proof. by_parts. Qed.
Lemma mk_apk_tight : tight wf_mk_apk (c_mk_apk W).
Proof. by_parts. Qed.
Lemma mk_ask_tight : tight wf_mk_ask (c_mk_ask W).
Proof. by_parts. Qed.
Lemma mk_uk_tight : tight wf_mk_uk (c_mk_uk W).
Proof. pose proof mk_usk_tight. pose proof mk_upk_tight. pose proof mk_ask_tight. by_parts. Qed.
Lemma mk_conj_tight : tight wf_mk_conj (c_mk_conj W).
Proof. by_parts. Qed.
Lemma mk_ct_tight : tight wf_mk_ct (c_mk_ct W).
Proof. pose proof mk_conj_tight. by_parts. Qed.

(** *** YCT14: reading never gives values, only names *)
Import Yct14.
Definition bare (a : yct_attr C) : Prop := text (y_name a) /\ y_node a = None.
Definition wf_yct_pk (x : yct_pk C) : Prop := all bare (ypk_attrs x).
Definition wf_yct_msk (x : yct_msk C) : Prop := all bare (ymsk_attrs x).
Definition wf_yct_sk (x : yct_sk C) : Prop := text (fst (ysk_policy x)) /\ all bare (ysk_du x).
Definition wf_yct_ct (x : yct_ct C) : Prop := all bare (yct_attrs x) /\ bytes (yct_data x).
Hint Unfold wf_yct_pk wf_yct_msk wf_yct_sk wf_yct_ct : wfx.

Lemma yattr_good : good bare c_yattr.
Proof.
  eapply good_weaken; [exact (as_good text y_name (fun n => YAttr n None) c_string string_good)|].
  intros [n []] [T E]; [discriminate|]. auto.
Qed.
Lemma yattr_tight : tight bare c_yattr.
Proof.
  intros s v r. cbn -[c_string]. destruct (dec_ c_string s) as [[x q]|] eqn:E; [|discriminate]. cbn -[c_string].
  intros X. injection X as <- <-. apply string_tight in E as (T & E). split; [now split|exact E].
Qed.
Ltac goods := repeat first
  [ eassumption | eapply pair_good | eapply list_good | eapply policy_good | eapply string_good
  | eapply bytes_good | eapply lang_good | eapply as_good ].
Ltac by_goods := destruct OK as [(Kf & K1 & K2 & Kt) _]; pose proof yattr_good; eapply good_weaken;
  [goods | intros []; autounfold with wfx; cbn; intuition auto].
Lemma yct_pk_good : good wf_yct_pk (c_yct_pk W).
Proof. by_goods. Qed.
Lemma yct_pk_tight : tight wf_yct_pk (c_yct_pk W).
Proof. pose proof yattr_tight. by_parts. Qed.
Lemma yct_msk_good : good wf_yct_msk (c_yct_msk W).
Proof. by_goods. Qed.
Lemma yct_msk_tight : tight wf_yct_msk (c_yct_msk W).
Proof. pose proof yattr_tight. by_parts. Qed.
Lemma yct_sk_good : good wf_yct_sk (c_yct_sk).
Proof. by_goods. Qed.
Lemma yct_sk_tight : tight wf_yct_sk (c_yct_sk).
Proof. pose proof yattr_tight. by_parts. Qed.
Lemma yct_ct_good : good wf_yct_ct (c_yct_ct).
Proof. by_goods. Qed.
Lemma yct_ct_tight : tight wf_yct_ct (c_yct_ct).
Proof. pose proof yattr_tight. by_parts. Qed.

(** ** All files of a scheme at once *)

(** A file is read exactly when it was written for a value satisfying [P]. *)
Definition faithful {A} (P : A -> Prop) (c : codec A) : Prop := exactly P c /\ prefix_free c.

Lemma faithful_of {A} (P : A -> Prop) c : good P c -> tight P c -> faithful P c.
Proof. intros G T. split; [now apply tight_exactly|]. eapply tight_prefix_free; eauto. Qed.

Theorem bsw_exact :
  faithful (fun _ => True) (c_bsw_pk W) /\
  faithful (fun _ => True) (c_bsw_msk W) /\
  faithful wf_bsw_sk (c_bsw_sk W) /\
  faithful wf_bsw_ct (c_bsw_ct W).
Proof.
  repeat match goal with |- _ /\ _ => refine (conj _ _) end; apply faithful_of; first [exact (bsw_pk_good W OK) | exact bsw_pk_tight | exact (bsw_msk_good W OK) | exact bsw_msk_tight | exact (bsw_sk_good W OK) | exact bsw_sk_tight | exact (bsw_ct_good W OK) | exact bsw_ct_tight].
Qed.

Theorem lsw_exact :
  faithful (fun _ => True) (c_lsw_pk W) /\
  faithful (fun _ => True) (c_lsw_msk W) /\
  faithful wf_lsw_sk (c_lsw_sk W) /\
  faithful wf_lsw_ct (c_lsw_ct W).
Proof.
  repeat match goal with |- _ /\ _ => refine (conj _ _) end; apply faithful_of; first [exact (lsw_pk_good W OK) | exact lsw_pk_tight | exact (lsw_msk_good W OK) | exact lsw_msk_tight | exact (lsw_sk_good W OK) | exact lsw_sk_tight | exact (lsw_ct_good W OK) | exact lsw_ct_tight].
Qed.

Theorem ac17_exact :
  faithful wf_ac_pk (c_ac_pk W) /\
  faithful wf_ac_msk (c_ac_msk W) /\
  faithful wf_ac_cpsk (c_ac_cpsk W) /\
  faithful wf_ac_kpsk (c_ac_kpsk W) /\
  faithful wf_ac_cpct (c_ac_cpct W) /\
  faithful wf_ac_kpct (c_ac_kpct W).
Proof.
  repeat match goal with |- _ /\ _ => refine (conj _ _) end; apply faithful_of; first [exact (ac_pk_good W OK) | exact ac_pk_tight | exact (ac_msk_good W OK) | exact ac_msk_tight | exact (ac_cpsk_good W OK) | exact ac_cpsk_tight | exact (ac_kpsk_good W OK) | exact ac_kpsk_tight | exact (ac_cpct_good W OK) | exact ac_cpct_tight | exact (ac_kpct_good W OK) | exact ac_kpct_tight].
Qed.

Theorem aw11_exact :
  faithful (fun _ => True) (c_aw_gk W) /\
  faithful wf_aw_pk (c_aw_pk W) /\
  faithful wf_aw_msk (c_aw_msk W) /\
  faithful wf_aw_sk (c_aw_sk W) /\
  faithful wf_aw_ct (c_aw_ct W).
Proof.
  repeat match goal with |- _ /\ _ => refine (conj _ _) end; apply faithful_of; first [exact (aw_gk_good W OK) | exact aw_gk_tight | exact (aw_pk_good W OK) | exact aw_pk_tight | exact (aw_msk_good W OK) | exact aw_msk_tight | exact (aw_sk_good W OK) | exact aw_sk_tight | exact (aw_ct_good W OK) | exact aw_ct_tight].
Qed.

Theorem bdabe_exact :
  faithful (fun _ => True) (c_bd_pk W) /\
  faithful (fun _ => True) (c_bd_msk W) /\
  faithful wf_bd_auth (c_bd_auth W) /\
  faithful wf_bd_apk (c_bd_apk W) /\
  faithful wf_bd_ask (c_bd_ask W) /\
  faithful wf_bd_uk (c_bd_uk W) /\
  faithful wf_bd_ct (c_bd_ct W).
Proof.
  repeat match goal with |- _ /\ _ => refine (conj _ _) end; apply faithful_of; first [exact (bd_pk_good W OK) | exact bd_pk_tight | exact (bd_msk_good W OK) | exact bd_msk_tight | exact (bd_auth_good W OK) | exact bd_auth_tight | exact (bd_apk_good W OK) | exact bd_apk_tight | exact (bd_ask_good W OK) | exact bd_ask_tight | exact (bd_uk_good W OK) | exact bd_uk_tight | exact (bd_ct_good W OK) | exact bd_ct_tight].
Qed.

Theorem mke08_exact :
  faithful (fun _ => True) (c_mk_pk W) /\
  faithful (fun _ => True) (c_mk_msk W) /\
  faithful wf_mk_auth (c_mk_auth W) /\
  faithful wf_mk_apk (c_mk_apk W) /\
  faithful wf_mk_ask (c_mk_ask W) /\
  faithful wf_mk_uk (c_mk_uk W) /\
  faithful wf_mk_ct (c_mk_ct W).
Proof.
  repeat match goal with |- _ /\ _ => refine (conj _ _) end; apply faithful_of; first [exact (mk_pk_good W OK) | exact mk_pk_tight | exact (mk_msk_good W OK) | exact mk_msk_tight | exact (mk_auth_good W OK) | exact mk_auth_tight | exact (mk_apk_good W OK) | exact mk_apk_tight | exact (mk_ask_good W OK) | exact mk_ask_tight | exact (mk_uk_good W OK) | exact mk_uk_tight | exact (mk_ct_good W OK) | exact mk_ct_tight].
Qed.

Theorem yct14_exact :
  faithful wf_yct_pk (c_yct_pk W) /\
  faithful wf_yct_msk (c_yct_msk W) /\
  faithful wf_yct_sk (c_yct_sk) /\
  faithful wf_yct_ct (c_yct_ct).
Proof.
  repeat match goal with |- _ /\ _ => refine (conj _ _) end; apply faithful_of; first [exact yct_pk_good | exact yct_pk_tight | exact yct_msk_good | exact yct_msk_tight | exact yct_sk_good | exact yct_sk_tight | exact yct_ct_good | exact yct_ct_tight].
Qed.

End Types.

(** What [faithful] means for a file that was read: no other file gives the
    same value; what is cut off or appended makes it unreadable. *)
Theorem faithful_file {A} (P : A -> Prop) (c : codec A) s v : faithful P c -> try_from_slice c s = Ok v ->
  (forall s', try_from_slice c s' = Ok v -> s' = s) /\
  (forall a b, s = a ++ b -> b <> "" -> try_from_slice c a = Err) /\
  (forall b, b <> "" -> try_from_slice c (s ++ b) = Err).
Proof.
  intros [E F] H. pose proof (proj1 (E s v) H) as (Pv & Ev). refine (conj _ (conj _ _)).
  - intros s' H'. apply E in H' as (_ & H'). congruence.
  - intros a b -> N. destruct (try_from_slice c a) as [w| |] eqn:X; [|reflexivity|].
    + exfalso. apply N. exact (F _ _ _ _ X H).
    + unfold try_from_slice in X. destruct (dec_ c a) as [[x [|]]|]; discriminate.
  - intros b N. destruct (try_from_slice c (s ++ b)) as [w| |] eqn:X; [|reflexivity|].
    + exfalso. apply N. exact (F _ _ _ _ H X).
    + unfold try_from_slice in X. destruct (dec_ c (s ++ b)) as [[x [|]]|]; discriminate.
Qed.

(** Reading never aborts. *)
Theorem slice_no_panic {A} (c : codec A) s : try_from_slice c s <> Panic.
Proof. unfold try_from_slice. destruct (dec_ c s) as [[x [|]]|]; discriminate. Qed.
