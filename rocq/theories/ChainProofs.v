(** * ChainProofs: delegation chains, hash labels, departures from the published equations *)
From Coq Require Import String Ascii List Bool Arith ZArith Lia Field.
From Verif Require Import Base Crypto Policy Tools Sharing Spec PolicyProofs Poly SharingProofs
  Symmetric Parse Msp MspProofs SchemeLib CoreProofs Bsw BswProofs Lsw LswProofs Ac17 Ac17Proofs
  EquationProofs AcEquationProofs.
Import ListNotations.

(** ** The texts that AC17 hashes *)

Lemma app_end_inj (x y s s' : string) : String.length s = String.length s' ->
  (x ++ s = y ++ s')%string -> x = y /\ s = s'.
Proof.
  intros L. assert (LA : forall u v : string, String.length (u ++ v) = (String.length u + String.length v)%nat)
    by (induction u; intros; cbn; auto).
  revert y. induction x as [|c x IH]; intros [|d y] E; cbn in E.
  - auto.
  - apply (f_equal String.length) in E. cbn in E. rewrite LA in E. lia.
  - apply (f_equal String.length) in E. cbn in E. rewrite LA in E. lia.
  - injection E as -> E. destruct (IH y E) as [-> ->]. auto.
Qed.

(** Texts made from different names, or for different components, differ. *)
Theorem labels_inj x y l l' t t' : l < 3 -> l' < 3 -> t < 2 -> t' < 2 ->
  lab x l t = lab y l' t' -> x = y /\ l = l' /\ t = t'.
Proof.
  intros A B C0 D E. unfold lab in E.
  destruct l as [|[|[|l]]]; try lia; destruct l' as [|[|[|l']]]; try lia;
  destruct t as [|[|t]]; try lia; destruct t' as [|[|t']]; try lia;
    apply app_end_inj in E as [-> E]; try reflexivity; auto; vm_compute in E; discriminate.
Qed.

(** So a text of an attribute is that of a column exactly if the attribute is named as the
    column: a zero and a number. *)
Theorem labels_columns x l l' t t' c : l < 3 -> l' < 3 -> t < 2 -> t' < 2 ->
  (lab x l t = lab (col c) l' t' <-> x = String "0"%char (dec c) /\ l = l' /\ t = t').
Proof.
  intros A B C0 D. split.
  - intros E. apply labels_inj in E as (-> & -> & ->); auto.
  - intros (-> & -> & ->). reflexivity.
Qed.

Section ChainProofs.
Context {C : crypto} (L : laws C).
Local Open Scope F_scope.
Add Field chain_field : (f_theory L).
Notation F := (F C).
Ltac logs := log_simpl L.

(** ** Delegation chains of BSW *)

(** [derived pk msk root attrs sk]: [sk] is a key for [attrs] obtained from a key generated for
    [root] by any number of delegations, each with its own randomness. *)
Inductive derived (pk : bsw_pk C) (msk : bsw_msk C) (root : list string) :
  list string -> bsw_sk C -> Prop :=
| derived_key t i sk j :
    bsw_keygen pk msk root t i = Ok (Some sk, j) -> derived pk msk root root sk
| derived_step attrs sk subset t i sk' j :
    derived pk msk root attrs sk ->
    bsw_delegate pk sk subset t i = Ok (Some sk', j) ->
    derived pk msk root subset sk'.

Theorem chain_fresh (pk : bsw_pk C) msk root attrs sk ts is js :
  bsw_setup ts is = Ok ((pk, msk), js) -> derived pk msk root attrs sk ->
  attrs <> [] /\ (forall a, In a attrs -> In a root) /\
  exists t j, bsw_keygen pk msk attrs t 0%nat = Ok (Some sk, j).
Proof.
  intros Hs D. induction D as [t i sk j Hk | attrs sk subset t i sk' j D (NE & I & t0 & j0 & Hk) Hd].
  - destruct (bsw_keygen_ok L _ _ _ _ _ _ _ Hk) as (N & K).
    assert (NE : root <> []) by (intros ->; discriminate Hk).
    split; [exact NE|]. split; [auto|].
    exact (bsw_key_range L _ _ _ _ _ NE N K).
  - destruct (bsw_keygen_ok L _ _ _ _ _ _ _ Hk) as (N & K).
    assert (X : subset <> [] /\ (forall a, In a subset -> In a attrs)).
    { destruct K as (_ & Kj). rewrite <- (Forall2_names _ _ _ Kj). revert Hd. unfold bsw_delegate.
      destruct (is_subset subset (map b_string (bsk_dj sk))) eqn:E; cbn; [|discriminate].
      destruct subset; [discriminate|]. intros _. split; [discriminate|]. now apply is_subset_iff. }
    destruct X as (NS & IS). split; [exact NS|]. split; [auto|].
    destruct (bsw_delegate_fresh L _ _ _ _ _ _ _ _ _ _ _ Hs Hk NS IS) as (sh & E).
    rewrite E in Hd. destruct (bsw_keygen_ok L _ _ _ _ _ _ _ Hd) as (_ & K').
    exact (bsw_key_range L _ _ _ _ _ NS N K').
Qed.

(** A key at the end of a chain decrypts exactly as its own attributes allow. *)
Theorem chain_decrypts nonce (pk : bsw_pk C) msk root attrs sk pol lang data ct f ts is js te ie je :
  bsw_setup ts is = Ok ((pk, msk), js) ->
  derived pk msk root attrs sk ->
  bsw_encrypt nonce pk pol lang data te ie = Ok (ct, je) ->
  parse pol lang = Ok (tree f) ->
  String.length nonce = 12%nat ->
  arity2 f = true -> NoDup (leaves f) -> plain_names f = true -> small_ok C (and_width f) ->
  bsw_decrypt sk ct = if sat (owns attrs) f then Ok data else Err.
Proof.
  intros Hs D He P Ln A ND PN SO.
  destruct (chain_fresh _ _ _ _ _ _ _ _ Hs D) as (NE & I & t & j & Hk).
  destruct (sat (owns attrs) f) eqn:S.
  - eapply bsw_correct; eauto.
  - destruct (bsw_keygen_ok L _ _ _ _ _ _ _ Hk) as (_ & _ & Kj).
    apply (bsw_reject sk ct f).
    + assert (E : bct_policy ct = (pol, lang)).
      { destruct (bsw_encrypt_eq L _ _ _ _ _ _ _ _ _ _ P He) as (sh & m & _ & _ & X & _). exact X. }
      rewrite E. exact P.
    + now rewrite (Forall2_names _ _ _ Kj).
Qed.

(** Delegation can be repeated to any length: from a key at the end of a chain every non-empty
    part of its attributes can be delegated. *)
Theorem chain_extends (pk : bsw_pk C) msk root attrs sk subset t i ts is js :
  bsw_setup ts is = Ok ((pk, msk), js) -> derived pk msk root attrs sk ->
  subset <> [] -> (forall a, In a subset -> In a attrs) ->
  exists sk' j, bsw_delegate pk sk subset t i = Ok (Some sk', j) /\ derived pk msk root subset sk'.
Proof.
  intros Hs D NS IS. destruct (chain_fresh _ _ _ _ _ _ _ _ Hs D) as (NE & I & t0 & j0 & Hk).
  destruct (bsw_delegate_fresh L _ _ _ _ _ _ _ _ _ _ _ Hs Hk NS IS) as (sh & E).
  destruct (bsw_keygen_ok L _ _ _ _ _ _ _ Hk) as (N & _ & Kj).
  destruct (bsw_keygen_runs L pk msk subset (fun k => t k + sh (k - i)%nat) i NS N) as (sk' & j & Hk').
  - intros a Ia Ha. apply IS in Ia. clear - Kj Ia Ha.
    induction Kj as [|b x ks dj (E & h & rj & Hh & _) _ IH]; [destruct Ia|].
    destruct Ia as [->|Ia]; [congruence|auto].
  - rewrite <- E in Hk'. exists sk', j. split; [exact Hk'|]. eapply derived_step; [exact D|exact Hk'].
Qed.

(** ** AC17 key-policy keys are not those of the published scheme *)

(** The entry for one row in the published scheme: column [c > 0] has one blinding value
    [sp c], divided by [a_t] like that of the row. *)
Definition kp_published (g : G1 C) (a0 a1 k0 k1 k2 x0 x1 x2 s : F) (sp : nat -> F)
    (name : string) (row : list Z) : list (G1 C) :=
  let column k a t c := match c with O => k | S _ => (W (col c) x0 x1 x2 t + sp c) * finv C a end in
  [g1mul C g ((W name x0 x1 x2 0 + s) * finv C a0 + dot row (column k0 a0 0%nat));
   g1mul C g ((W name x0 x1 x2 1 + s) * finv C a1 + dot row (column k1 a1 1%nat));
   g1mul C g (- s + dot row (fun c => match c with O => k2 | S _ => - sp c end))].

Theorem kp_not_published (pk : ac_pk C) msk a0 a1 b0 b1 k0 k1 k2 pol lang t i sk j f q name z0 z1 :
  ac_keys pk msk a0 a1 b0 b1 k0 k1 k2 -> parse pol lang = Ok (tree f) -> binary_and f = true ->
  kp_keygen msk pol lang t i = Ok (sk, j) ->
  nth_error (sort_rows (rev (msp_rows f))) q = Some (name, [z0; z1]) ->
  amsk_g msk <> g1zero C -> zf z1 * t (i + 2)%nat <> 0 -> a0 <> - (1) ->
  forall x0 x1 x2 s sp,
  ask_k0 (akps_sk sk) = [g2mul C (amsk_h msk) x0; g2mul C (amsk_h msk) x1; g2mul C (amsk_h msk) x2] ->
  amsk_h msk <> g2zero C ->
  nth_error (ask_k (akps_sk sk)) q <>
    Some (name, kp_published (amsk_g msk) a0 a1 k0 k1 k2 x0 x1 x2 s sp name [z0; z1]).
Proof.
  intros K P B Hk Hq Ng Nz Na x0 x1 x2 s sp HK Nh E.
  destruct (kp_keygen_eq L _ _ _ _ _ _ _ _ _ _ _ _ _ _ _ _ K P B Hk) as (N0 & N1 & _ & _ & HK' & _ & _ & X).
  rewrite HK' in HK. injection HK as H0 H1 H2.
  assert (Nh' : log2 L (amsk_h msk) <> 0).
  { intros Z. apply Nh. apply (log2_inj L). rewrite Z. now logs. }
  assert (Ng' : log1 L (amsk_g msk) <> 0).
  { intros Z. apply Ng. apply (log1_inj L). rewrite Z. now logs. }
  assert (X2 : forall u v, g2mul C (amsk_h msk) u = g2mul C (amsk_h msk) v -> u = v).
  { intros u v H. apply (f_equal (log2 L)) in H. revert H. logs. intros H.
    apply (f_equal (fun w => w * finv C (log2 L (amsk_h msk)))) in H.
    revert H. replace (log2 L (amsk_h msk) * u * finv C (log2 L (amsk_h msk))) with u by (field; exact Nh').
    replace (log2 L (amsk_h msk) * v * finv C (log2 L (amsk_h msk))) with v by (field; exact Nh'). auto. }
  apply X2 in H0, H1, H2.
  specialize (X q name _ Hq). rewrite X in E. clear X. injection E as E0 _ E2.
  rewrite <- H0, <- H1, <- H2 in E0. clear H0 H1 H2.
  apply (f_equal (log1 L)) in E0, E2. revert E0 E2. logs.
  set (G := log1 L (amsk_g msk)) in *. set (w := W name _ _ _ _). 
  unfold dot. cbn [dot_from kp_column kp_column_last seq map fsum].
  replace (i + 1 + 1)%nat with (i + 2)%nat by lia. set (v := W (col 1) _ _ _ _).
  set (sg := t (i + 2)%nat) in *. set (s' := t (i + 1 + msp_width f + q)%nat).
  intros E0 E2. 
  assert (Z : G * (zf z1 * sg * (a0 + 1)) = 0).
  { match type of E0 with ?l = ?r => match type of E2 with ?l' = ?r' =>
      transitivity (- (a0 * (l - r)) - (l' - r')) end end; [field; exact N0|].
    rewrite E0, E2. ring. }
  assert (M : forall u v' : F, u * v' = 0 -> u <> 0 -> v' = 0).
  { intros u v' H Nu. replace v' with (finv C u * (u * v')) by (field; exact Nu). rewrite H. ring. }
  apply M in Z; [|exact Ng']. apply M in Z; [|exact Nz]. apply Na.
  replace a0 with ((a0 + 1) - 1) by ring. rewrite Z. ring.
Qed.

End ChainProofs.
