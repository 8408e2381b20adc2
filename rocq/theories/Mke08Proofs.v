(** * Mke08Proofs: correctness and attacks for MKE08 *)
From Coq Require Import String Ascii List Bool Arith Lia Field Permutation.
From Verif Require Import Base Crypto Policy Tools Dnf Parse Symmetric Bdabe Mke08
  Spec Poly PolicyProofs SharingProofs SchemeLib DnfProofs BdabeProofs.
Import ListNotations.

Section Mke08Proofs.
Context {C : crypto} (L : laws C).
Local Open Scope F_scope.
Add Field mk_field : (f_theory L).
Notation F := (F C).
Ltac logs := log_simpl L.

Lemma mk_setup_inv t i (pk : mk_pk C) msk j : mk_setup t i = Ok ((pk, msk), j) -> exists y1 y2,
  logT L (mpk_egg1 pk) = log1 L (mpk_g1 pk) * log2 L (mpk_g2 pk) * y1 /\
  logT L (mpk_egg2 pk) = log1 L (mpk_g1 pk) * log2 L (mpk_g2 pk) * y2 /\
  log1 L (mmsk_g1 msk) = log1 L (mpk_g1 pk) * y1 /\ log2 L (mmsk_g2 msk) = log2 L (mpk_g2 pk) * y2.
Proof.
  intros H. unfold mk_setup, draw_g1, draw_g2, draw, rbind, rret in H. injection H as <- <- _. cbn.
  exists (t (S (S (S (S i))))), (t (S (S (S (S (S i)))))). logs. repeat split; ring.
Qed.

Lemma mk_keygen_inv (pk : mk_pk C) msk name t i uk j : mk_keygen pk msk name t i = Ok (uk, j) ->
  mupk_name (muk_pk uk) = name /\ muk_ska uk = [] /\ exists r,
    log1 L (musk_g1 (muk_sk uk)) = log1 L (mmsk_g1 msk) + log1 L (mpk_p1 pk) * r /\
    log2 L (musk_g2 (muk_sk uk)) = log2 L (mmsk_g2 msk) + log2 L (mpk_p2 pk) * r /\
    log1 L (mupk_g1 (muk_pk uk)) = log1 L (mpk_g1 pk) * r /\
    log2 L (mupk_g2 (muk_pk uk)) = log2 L (mpk_g2 pk) * r.
Proof.
  intros H. unfold mk_keygen, draw, rbind, rret in H. injection H as <- _. cbn.
  repeat split. exists (t i). logs. auto.
Qed.

(** The exponent an authority uses for an attribute. *)
Definition mk_exp (A : mk_auth C) (n : string) : option F :=
  match hash C n, hash C (mau_name A) with
  | Some h1, Some h2 => Some (h1 * h2 * mau_r A)
  | _, _ => None
  end.

Lemma mk_request_pk_inv (pk : mk_pk C) A n k : mk_request_pk pk n A = Ok k ->
  mapk_attr k = n /\ from_authority n (mau_name A) = true /\ exists e, mk_exp A n = Some e /\
    log1 L (mapk_g1 k) = log1 L (mpk_g1 pk) * e /\ log2 L (mapk_g2 k) = log2 L (mpk_g2 pk) * e /\
    logT L (mapk_gt1 k) = logT L (mpk_egg1 pk) * e /\ logT L (mapk_gt2 k) = logT L (mpk_egg2 pk) * e.
Proof.
  unfold mk_request_pk, mk_exp, sha3_hash_fr. destruct (from_authority n (mau_name A)); [|discriminate].
  destruct (hash C n); [|discriminate]. destruct (hash C (mau_name A)); [|discriminate]. cbn.
  intros H. injection H as <-. cbn. split; [reflexivity|]. split; [reflexivity|].
  eexists. split; [reflexivity|]. logs. auto.
Qed.

Lemma mk_request_sk_inv (pku : mk_upk C) A n k : mk_request_sk pku n A = Ok k ->
  mask_attr k = n /\ from_authority n (mau_name A) = true /\ exists e, mk_exp A n = Some e /\
    log1 L (mask_g1 k) = log1 L (mupk_g1 pku) * e /\ log2 L (mask_g2 k) = log2 L (mupk_g2 pku) * e.
Proof.
  unfold mk_request_sk, mk_exp, sha3_hash_fr, is_eligible. rewrite andb_true_r.
  destruct (from_authority n (mau_name A)); [|discriminate].
  destruct (hash C n); [|discriminate]. destruct (hash C (mau_name A)); [|discriminate]. cbn.
  intros H. injection H as <-. cbn. split; [reflexivity|]. split; [reflexivity|].
  eexists. split; [reflexivity|]. logs. auto.
Qed.

(** ** Opening one tuple *)

Lemma mk_calc_from_app a b sk : forall i ret,
  mk_calc_from i (a ++ b) sk ret = mk_calc_from (i + length a)%nat b sk (mk_calc_from (C := C) i a sk ret).
Proof.
  induction a as [|x a IH]; intros i ret; cbn; [now rewrite Nat.add_0_r|].
  replace (i + S (length a))%nat with (S i + length a)%nat by lia.
  destruct (find _ sk); apply IH.
Qed.

(** Keys of a group and the user's keys for the same attributes carry the same
    exponents. *)
Definition mk_matched (pk : mk_pk C) (uk : mk_uk C) (p : pak C) : Prop :=
  exists e x, find (fun x => seqb (mask_attr x) (pak_attr p)) (muk_ska uk) = Some x /\
    log1 L (pak_g1 p) = log1 L (mpk_g1 pk) * e /\ log2 L (pak_g2 p) = log2 L (mpk_g2 pk) * e /\
    logT L (pak_gt1 p) = logT L (mpk_egg1 pk) * e /\ logT L (pak_gt2 p) = logT L (mpk_egg2 pk) * e /\
    log1 L (mask_g1 x) = log1 L (mupk_g1 (muk_pk uk)) * e /\
    log2 L (mask_g2 x) = log2 L (mupk_g2 (muk_pk uk)) * e.

Lemma mk_matched_group (pk : mk_pk C) uk g : g <> [] -> (forall p, In p g -> mk_matched pk uk p) -> exists E,
    log1 L (tm_g1 (mk_term g)) = log1 L (mpk_g1 pk) * E /\
    log2 L (tm_g2 (mk_term g)) = log2 L (mpk_g2 pk) * E /\
    logT L (tm_gt1 (mk_term g)) = logT L (mpk_egg1 pk) * E /\
    logT L (tm_gt2 (mk_term g)) = logT L (mpk_egg2 pk) * E /\
    log1 L (fst (mk_calc (map pak_attr g) (muk_ska uk))) = log1 L (mupk_g1 (muk_pk uk)) * E /\
    log2 L (snd (mk_calc (map pak_attr g) (muk_ska uk))) = log2 L (mupk_g2 (muk_pk uk)) * E.
Proof.
  induction g as [|p g IH] using rev_ind; intros N M; [congruence|]. clear N.
  destruct (M p) as (e & x & Fx & E1 & E2 & ET & ET2 & A1 & A2); [apply in_or_app; right; now left|].
  destruct g as [|q g].
  - cbn. unfold mk_calc. cbn. rewrite Fx. cbn. exists e. auto 10.
  - destruct IH as (E & I1 & I2 & IT & IT2 & J1 & J2); [discriminate|intros; apply M, in_or_app; now left|].
    exists (E + e). rewrite mk_term_snoc by discriminate. cbn [merge_term tm_g1 tm_g2 tm_gt1 tm_gt2]. logs.
    rewrite I1, I2, IT, IT2, E1, E2, ET, ET2. unfold mk_calc in *. rewrite map_app, mk_calc_from_app.
    set (r := mk_calc_from 0 (map pak_attr (q :: g)) (muk_ska uk) (g1one C, g2one C)) in *. clearbody r.
    cbn. rewrite Fx. cbn. logs. rewrite J1, J2, A1, A2. repeat split; ring.
Qed.

Lemma mk_satisfiable_mk_matched (pk : mk_pk C) uk g : (forall p, In p g -> mk_matched pk uk p) ->
  mk_satisfiable (map pak_attr g) (muk_ska uk) = true.
Proof.
  intros M. apply forallb_forall. intros a I. apply in_map_iff in I as (p & <- & I).
  destruct (M p I) as (e & x & Fx & _). now rewrite Fx.
Qed.

Lemma mk_satisfiable_attrs conj (sk : list (mk_ask C)) :
  mk_satisfiable conj sk = true <-> incl conj (map mask_attr sk).
Proof.
  unfold mk_satisfiable. rewrite forallb_forall. split; intros H a I.
  - specialize (H a I). cbn in H. destruct (find _ sk) as [x|] eqn:E; [|discriminate].
    apply find_some in E as (Ix & E). apply seqb_eq in E. subst a. now apply in_map.
  - cbn. apply H in I. apply in_map_iff in I as (x & E & Ix). destruct (find _ sk) eqn:Ef; [reflexivity|].
    apply (find_none _ _ Ef) in Ix. cbn in Ix. rewrite E, seqb_refl in Ix. discriminate.
Qed.

(** ** The setting: one setup, several authorities, one user *)

(** Attribute keys were issued by authorities of the list. *)
Definition mk_pk_issued (pk : mk_pk C) (As : list (mk_auth C)) (k : mk_apk C) : Prop :=
  exists A n, In A As /\ mk_request_pk pk n A = Ok k.
Definition mk_sk_issued (pku : mk_upk C) (As : list (mk_auth C)) (k : mk_ask C) : Prop :=
  exists A n, In A As /\ mk_request_sk pku n A = Ok k.

(** Authority names are unique, as the documentation asks (mke08/mod.rs:172). *)
Definition mk_unique (As : list (mk_auth C)) : Prop :=
  forall A B, In A As -> In B As -> mau_name A = mau_name B -> A = B.

(** Everything a user key contains: generated with the master key, with
    attribute keys issued for it.  The authorities' own keys are arbitrary
    ([authgen] draws [r] and nothing else). *)
Definition mk_user (pk : mk_pk C) msk (As : list (mk_auth C)) (uk : mk_uk C) : Prop :=
  exists name t i j uk0 asks, mk_keygen pk msk name t i = Ok (uk0, j) /\
    Forall (mk_sk_issued (muk_pk uk0) As) asks /\ uk = fold_left mk_add asks uk0.

Lemma fold_mk_add asks : forall uk0 : mk_uk C, fold_left mk_add asks uk0 =
  MkUk (muk_sk uk0) (muk_pk uk0) (muk_ska uk0 ++ asks).
Proof.
  induction asks as [|k asks IH]; intros [s p a]; cbn; [now rewrite app_nil_r|].
  rewrite IH. cbn. now rewrite <- app_assoc.
Qed.

Section World.
Variables (pk : mk_pk C) (msk : mk_msk C) (As : list (mk_auth C)) (ts : nat -> F) (is js : nat).
Hypothesis Hsetup : mk_setup ts is = Ok ((pk, msk), js).
Hypothesis Huniq : mk_unique As.

Lemma mk_issued_matched uk apks n : mk_user pk msk As uk -> Forall (mk_pk_issued pk As) apks ->
  In n (map mask_attr (muk_ska uk)) ->
  forall p, In p (map mk_pak apks) -> pak_attr p = n -> mk_matched pk uk p.
Proof.
  intros (name & t & i & j & uk0 & asks & Hk & Hi & ->) Hp In' p Ip Ep.
  rewrite fold_mk_add in *. destruct (mk_keygen_inv _ _ _ _ _ _ _ Hk) as (_ & E0 & _).
  rewrite E0 in *. cbn [app muk_ska muk_pk] in *.
  apply in_map_iff in Ip as (k & <- & Ik). cbn in Ep. rewrite Forall_forall in Hp, Hi.
  destruct (Hp k Ik) as (B & m & IB & Hk').
  destruct (mk_request_pk_inv _ _ _ _ Hk') as (Ea & FB & e & Ee & L1 & L2 & LT & LT2).
  destruct (find (fun x => seqb (mask_attr x) (pak_attr (mk_pak k))) asks) as [x|] eqn:Fx.
  - pose proof (find_some _ _ Fx) as (Ix & Ex). apply seqb_eq in Ex.
    destruct (Hi x Ix) as (D & d & ID & Hd).
    destruct (mk_request_sk_inv _ _ _ _ Hd) as (Ed & FD & e' & Ee' & M1 & M2).
    cbn in Ex. assert (Emd : m = d) by congruence. clear Ed. subst d.
    assert (D = B) by (apply Huniq; auto; eapply from_authority_unique; eauto). subst D.
    rewrite Ee in Ee'. injection Ee' as <-.
    exists e, x. cbn [pak_g1 pak_g2 pak_gt1 pak_gt2 mk_pak muk_ska muk_pk]. auto 10.
  - exfalso. apply in_map_iff in In' as (x & Ex & Ix). apply (find_none _ _ Fx) in Ix. cbn in Ix.
    rewrite Ex, <- Ep, seqb_refl in Ix. discriminate.
Qed.

Lemma mk_user_logs uk : mk_user pk msk As uk -> exists r,
    log1 L (musk_g1 (muk_sk uk)) = log1 L (mmsk_g1 msk) + log1 L (mpk_p1 pk) * r /\
    log2 L (musk_g2 (muk_sk uk)) = log2 L (mmsk_g2 msk) + log2 L (mpk_p2 pk) * r /\
    log1 L (mupk_g1 (muk_pk uk)) = log1 L (mpk_g1 pk) * r /\
    log2 L (mupk_g2 (muk_pk uk)) = log2 L (mpk_g2 pk) * r.
Proof.
  intros (name & t & i & j & uk0 & asks & Hk & Hi & ->). rewrite fold_mk_add. cbn [muk_sk muk_pk].
  destruct (mk_keygen_inv _ _ _ _ _ _ _ Hk) as (_ & _ & r & K). exists r. exact K.
Qed.

(** The tuple made from a group opens to the encapsulated message. *)
Lemma mk_conj_opens uk msg1 msg2 g t i tp j : mk_user pk msk As uk -> g <> [] ->
  (forall p, In p g -> mk_matched pk uk p) -> mk_conj_of pk msg1 msg2 (mk_term g) t i = Ok (tp, j) ->
  mk_satisfiable (mj_str tp) (muk_ska uk) = true /\ mk_open uk tp = gtmul C msg1 msg2.
Proof.
  intros U N M H. unfold mk_conj_of, draw, rbind, rret in H. injection H as <- _.
  rewrite mk_term_attrs. cbn [mj_str]. split; [now apply (mk_satisfiable_mk_matched pk)|].
  destruct (mk_matched_group pk uk g N M) as (E & G1 & G2 & GT & GT2 & S1 & S2).
  destruct (mk_user_logs uk U) as (r & U1 & U2 & V1 & V2).
  destruct (mk_setup_inv _ _ _ _ _ Hsetup) as (y1 & y2 & Y1 & Y2 & M1 & M2).
  unfold mk_open. cbn [mj_str mj_1 mj_2 mj_3 mj_4 mj_5 mj_6].
  apply (logT_inj L). logs. rewrite GT, GT2, G1, G2, S1, S2, U1, U2, V1, V2, Y1, Y2, M1, M2. ring.
Qed.

Section Ct.
Variables (nonce pol data : string) (lang : language) (apks : list (mk_apk C)) (ct : mk_ct C)
  (te : nat -> F) (ie je : nat) (f : formula).
Hypothesis Hpks : Forall (mk_pk_issued pk As) apks.
Hypothesis Henc : mk_encrypt nonce pk apks pol lang data te ie = Ok (ct, je).
Hypothesis Hparse : parse pol lang = Ok (tree f).
Hypothesis Hnonce : String.length nonce = 12%nat.

Lemma mk_encrypt_inv : flat f = true /\ mct_policy ct = (pol, lang) /\ exists msg1 msg2 T,
  encrypt_symmetric nonce (gtmul C msg1 msg2) data = Ok (mct_data ct) /\
  Permutation (map mk_term (groups (map mk_pak apks) f)) T /\
  Forall2 (fun tm tp => exists a b, mk_conj_of pk msg1 msg2 tm te a = Ok (tp, b)) T (mct_e ct) /\
  msg1 = pairing C (g1mul C (g1one C) (te ie)) (g2mul C (g2one C) (te (S ie))) /\
  msg2 = gtpow C msg1 (te (S (S ie))).
Proof.
  unfold mk_encrypt in Henc. pose proof Henc as H. rewrite Hparse in H.
  apply rbind_Ok in H as (v & j1 & Hv & H). apply rlift_Ok in Hv as [Hv <-]. injection Hv as <-.
  destruct (policy_in_dnf (tree f) false None); [|discriminate].
  cbn [obind] in H. destruct (flat f) eqn:Ef.
  2:{ rewrite json_to_dnf_nested in H by exact Ef. discriminate. }
  destruct (json_to_dnf_flat (map mk_pak apks) f Ef) as (T & ET & PT & _). rewrite ET in H.
  apply rbind_Ok in H as (T' & j2 & HT & H). apply rlift_Ok in HT as [HT <-]. injection HT as <-.
  apply rbind_Ok in H as (m1 & j3 & Hm1 & H). apply rbind_Ok in H as (m2 & j4 & Hm2 & H). cbv zeta in H.
  apply rbind_Ok in H as (x & j4' & Hx & H). cbv zeta in H.
  unfold draw_g1, draw_g2, rbind, draw, rret in Hm1, Hm2, Hx. injection Hm1 as <- <-. injection Hm2 as <- <-. injection Hx as <- <-.
  apply rbind_Ok in H as (jj & j5 & Hj & H). apply rbind_Ok in H as (d & j6 & Hd & H).
  apply rlift_Ok in Hd as [Hd <-]. apply rret_Ok in H as [<- _].
  split; [reflexivity|]. split; [reflexivity|]. eexists _, _, T. cbn [mct_data mct_e].
  split; [exact Hd|]. split; [exact PT|]. split; [|split; reflexivity]. eapply rmap_Forall2; eauto.
Qed.

(** Every tuple of the ciphertext that the user's attributes cover opens to the
    message, so the loop finds it as soon as one is covered. *)
Lemma mk_first_opens uk : mk_user pk msk As uk ->
  (exists g, In g (groups (map mk_pak apks) f) /\ incl (map pak_attr g) (map mask_attr (muk_ska uk))) ->
  exists msg, encrypt_symmetric nonce msg data = Ok (mct_data ct) /\ mk_first uk (mct_e ct) = msg /\
    (exists t, In t (mct_e ct) /\ mk_satisfiable (mj_str t) (muk_ska uk) = true) /\
    msg = gtmul C (pairing C (g1mul C (g1one C) (te ie)) (g2mul C (g2one C) (te (S ie)))) (gtpow C (pairing C (g1mul C (g1one C) (te ie)) (g2mul C (g2one C) (te (S ie)))) (te (S (S ie)))).
Proof.
  intros U (g0 & Ig0 & Inc0). destruct mk_encrypt_inv as (Hf & _ & msg1 & msg2 & T & Hd & PT & F2 & Em & Em2).
  exists (gtmul C msg1 msg2). split; [exact Hd|]. apply and_assoc. split; [|rewrite Em2, Em; reflexivity].
  assert (G : forall g, In g (groups (map mk_pak apks) f) -> g <> [] /\ incl g (map mk_pak apks)).
  { intros g I. destruct f as [n p|l|l]; cbn [groups] in I.
    - split; [eapply split_nonempty; eauto|]. intros x Ix.
      assert (Ik : In x (keys (map mk_pak apks) (names (FLeaf n p)))).
      { rewrite <- (split_concat 0 (keys _ _)). apply in_concat. eauto. }
      apply in_flat_map in Ik as (? & _ & Ik). apply filter_In in Ik. tauto.
    - split; [eapply split_nonempty; eauto|]. intros x Ix.
      assert (Ik : In x (keys (map mk_pak apks) (names (FAnd l)))).
      { rewrite <- (split_concat 0 (keys _ _)). apply in_concat. eauto. }
      apply in_flat_map in Ik as (? & _ & Ik). apply filter_In in Ik. tauto.
    - apply splits_In in I as (N & c & Ic & Inc). split; [exact N|]. intros x Ix. apply Inc in Ix.
      apply in_map_iff in Ic as (y & <- & _). apply in_flat_map in Ix as (? & _ & Ik).
      apply filter_In in Ik. tauto. }
  assert (Cov : exists tm, In tm T /\ incl (tm_attrs tm) (map mask_attr (muk_ska uk))).
  { exists (mk_term g0). split; [|now rewrite mk_term_attrs].
    apply (Permutation_in _ PT). now apply in_map. }
  assert (Src : forall tm, In tm T -> exists g, tm = mk_term g /\ g <> [] /\ incl g (map mk_pak apks)).
  { intros tm I. apply (Permutation_in _ (Permutation_sym PT)) in I. apply in_map_iff in I as (g & <- & I).
    exists g. split; [reflexivity|]. now apply G. }
  clear PT. induction F2 as [|tm tp T' J (a & b & Ht) F2 IH]; [destruct Cov as (? & [] & _)|].
  cbn [mk_first]. destruct (mk_satisfiable (mj_str tp) (muk_ska uk)) eqn:Es.
  - destruct (Src tm (or_introl eq_refl)) as (g & -> & N & Ig).
    split; [|exists tp; split; [now left|exact Es]].
    apply (mk_conj_opens uk msg1 msg2 g te a tp b U N); [|exact Ht].
    intros p Ip. eapply mk_issued_matched; [exact U|exact Hpks| |now apply Ig|reflexivity].
    apply mk_satisfiable_attrs in Es. apply Es.
    unfold mk_conj_of, draw, rbind, rret in Ht. injection Ht as <- _. cbn [mj_str].
    rewrite mk_term_attrs. now apply in_map.
  - enough (X : mk_first uk J = gtmul C msg1 msg2 /\ (exists t, In t J /\ mk_satisfiable (mj_str t) (muk_ska uk) = true)).
    { destruct X as (X1 & t & It & X2). split; [exact X1|]. exists t. split; [now right|exact X2]. }
    apply IH.
    + destruct Cov as (tm' & [->|I] & Inc); [|eauto]. exfalso.
      apply mk_satisfiable_attrs in Inc.
      unfold mk_conj_of, draw, rbind, rret in Ht. injection Ht as <- _. cbn [mj_str] in Es. congruence.
    + intros; apply Src; now right.
Qed.

(** The stored policy text is not bound to the rest of the ciphertext: a user
    who covers one group of keys opens it under any policy text they satisfy. *)
Theorem mk_opens_edited uk ct' f' : mk_user pk msk As uk ->
  (exists g, In g (groups (map mk_pak apks) f) /\ incl (map pak_attr g) (map mask_attr (muk_ska uk))) ->
  mct_e ct' = mct_e ct -> mct_data ct' = mct_data ct ->
  parse (fst (mct_policy ct')) (snd (mct_policy ct')) = Ok (tree f') ->
  sat (owns (map mask_attr (muk_ska uk))) f' = true -> muk_ska uk <> [] ->
  mk_decrypt uk ct' = Ok data.
Proof.
  intros U Cov Ej Ed P' S NE. destruct (mk_first_opens uk U Cov) as (msg & Hd & Hm & _).
  unfold mk_decrypt. rewrite P'. cbn [obind]. rewrite traverse_tree, S, map_length.
  destruct (muk_ska uk) as [|x r] eqn:Ex; [congruence|]. cbn [length Nat.ltb Nat.leb andb].
  rewrite Ej, Ed, Hm. eapply symmetric_roundtrip; eauto.
Qed.

(** ** Correctness *)
Lemma mk_covered (own : list string) :
  (forall c, In c (conjs f) -> exists n, In n c /\ In n (map mapk_attr apks)) ->
  sat (owns own) f = true ->
  own <> [] /\ exists g, In g (groups (map mk_pak apks) f) /\ incl (map pak_attr g) own.
Proof.
  intros Kn S. destruct mk_encrypt_inv as (Hf & _).
  assert (Cj : exists c, In c (conjs f) /\ incl c own).
  { clear - Hf S.
    assert (X : forall x, is_conj x = true -> sat (owns own) x = true -> incl (names x) own).
    { intros [n p|l|l] H Sx; [| |discriminate].
      - intros y [<-|[]]. now apply smem_In.
      - cbn in H, Sx. rewrite forallb_forall in H, Sx. intros y I. unfold names in I. cbn in I.
        apply in_map_iff in I as ((n & p) & <- & I). apply in_flat_map in I as (x & Ix & I).
        specialize (H x Ix). specialize (Sx x Ix). destruct x; try discriminate.
        destruct I as [E|[]]. injection E as <- <-. now apply smem_In. }
    rewrite (conjs_flat f Hf). destruct f as [n p|l|l].
    - exists (names (FLeaf n p)). split; [now left|now apply X].
    - exists (names (FAnd l)). split; [now left|now apply X].
    - cbn in S, Hf. apply existsb_exists in S as (x & Ix & Sx). rewrite forallb_forall in Hf.
      exists (names x). split; [now apply in_map|]. apply X; auto. }
  destruct Cj as (c & Ic & Inc). destruct (Kn c Ic) as (n & In' & Ik).
  assert (Kc : keys (map mk_pak apks) c <> []).
  { apply in_map_iff in Ik as (k & Ek & Ik). intros Z.
    assert (I : In (mk_pak k) (keys (map mk_pak apks) c)).
    { apply in_flat_map. exists n. split; [exact In'|]. apply filter_In. split; [now apply in_map|].
      cbn. apply seqb_eq. exact Ek. }
    rewrite Z in I. destruct I. }
  assert (Kincl : incl (map pak_attr (keys (map mk_pak apks) c)) c).
  { intros y I. apply in_map_iff in I as (p & <- & I). apply in_flat_map in I as (m & Im & I).
    apply filter_In in I as (_ & I). apply seqb_eq in I. now rewrite I. }
  split; [intros Z; rewrite Z in Inc; apply Inc in In'; destruct In'|].
  assert (Cg : exists g, In g (groups (map mk_pak apks) f) /\ incl g (keys (map mk_pak apks) c)).
    { rewrite (conjs_flat f Hf) in Ic. destruct f as [m p|l|l]; cbn [groups].
      - destruct Ic as [<-|[]]. now apply split_covers.
      - destruct Ic as [<-|[]]. now apply split_covers.
      - apply splits_covers; [|exact Kc]. apply in_map_iff in Ic as (x & <- & Ix).
        apply (in_map (fun c => keys (map mk_pak apks) (names c))). exact Ix. }
  destruct Cg as (g & Ig & Incg). exists g. split; [exact Ig|]. intros y I. apply Inc, Kincl.
    revert y I. now apply incl_map.
Qed.

Theorem mk_correct uk : mk_user pk msk As uk ->
  (forall c, In c (conjs f) -> exists n, In n c /\ In n (map mapk_attr apks)) ->
  sat (owns (map mask_attr (muk_ska uk))) f = true -> mk_decrypt uk ct = Ok data.
Proof.
  intros U Kn S. destruct mk_encrypt_inv as (Hf & Ep & _). destruct (mk_covered _ Kn S) as (NE & Cg).
  eapply mk_opens_edited with (f' := f); auto.
  - now rewrite Ep.
  - intros Z. rewrite Z in NE. now apply NE.
Qed.

(** A user who holds only the first attribute of a later conjunction opens the
    ciphertext after replacing the policy text by that attribute; the text of
    the original policy is refused. *)
Theorem mk_split_opens uk x l c a b r pol' lang' p' : mk_user pk msk As uk ->
  f = FOr (x :: l) -> one_key (map mk_pak apks) f -> names x <> [] ->
  In c l -> names c = a :: b :: r -> map mask_attr (muk_ska uk) = [a] ->
  parse pol' lang' = Ok (tree (FLeaf a p')) ->
  mk_decrypt uk (MkCt (pol', lang') (mct_e ct) (mct_data ct)) = Ok data.
Proof.
  intros U Ef OK Nx Ic Ec Own P'. destruct mk_encrypt_inv as (Hf & _).
  assert (NE : muk_ska uk <> []) by (intros Z; rewrite Z in Own; discriminate).
  eapply mk_opens_edited with (f' := FLeaf a p'); auto.
  2:{ cbn. rewrite Own. apply smem_In. now left. }
  rewrite Ef in Hf, OK. destruct (json_to_dnf_flat (map mk_pak apks) _ Hf) as (T & ET & PT & _).
  pose proof (dnf_splits_conjunction (map mk_pak apks) _ T x l c a b r eq_refl Hf OK Nx Ic Ec ET) as I.
  apply in_map_iff in I as (tm & Etm & I). apply (Permutation_in _ (Permutation_sym PT)) in I.
  apply in_map_iff in I as (g & <- & Ig). rewrite mk_term_attrs in Etm.
  exists g. rewrite Ef. split; [exact Ig|]. rewrite Etm, Own. apply incl_refl.
Qed.

(** Attributes without a supplied public key are dropped from a conjunction:
    whoever holds the others opens the ciphertext. *)
Theorem mk_missing_opens uk l pol' lang' f' : mk_user pk msk As uk -> f = FAnd l ->
  keys (map mk_pak apks) (names f) <> [] ->
  (forall n, In n (names f) -> In n (map mapk_attr apks) -> In n (map mask_attr (muk_ska uk))) ->
  parse pol' lang' = Ok (tree f') -> sat (owns (map mask_attr (muk_ska uk))) f' = true ->
  mk_decrypt uk (MkCt (pol', lang') (mct_e ct) (mct_data ct)) = Ok data.
Proof.
  intros U Ef Nk Own P' S. set (ks := keys (map mk_pak apks) (names f)) in *.
  assert (Inc : incl (map pak_attr ks) (map mask_attr (muk_ska uk))).
  { intros y I. apply in_map_iff in I as (p & <- & I). apply in_flat_map in I as (m & Im & I).
    apply filter_In in I as (Ip & I). apply seqb_eq in I. apply in_map_iff in Ip as (k & <- & Ik).
    cbn in *. apply Own; [now rewrite I|]. now apply in_map. }
  eapply mk_opens_edited with (f' := f'); auto.
  - exists ks. split; [|exact Inc]. rewrite Ef. cbn [groups]. rewrite <- Ef. fold ks.
    destruct ks; [congruence|]. now left.
  - intros Z. destruct ks as [|k ks]; [congruence|]. rewrite Z in Inc. apply (Inc (pak_attr k)). now left.
Qed.

End Ct.

(** ** Attribute keys of one authority are related by public factors *)

(** From the secret key of one attribute to that of another one. *)
Definition mk_forge (n2 : string) (k : mk_ask C) : option (mk_ask C) :=
  match hash C (mask_attr k), hash C n2 with
  | Some h1, Some h2 =>
    match finv_opt h1 with
    | Some d => Some (MkAsk n2 (g1mul C (mask_g1 k) (h2 * d)) (g2mul C (mask_g2 k) (h2 * d)))
    | None => None
    end
  | _, _ => None
  end.

Theorem mk_forge_works (pku : mk_upk C) A n1 n2 k h2 : mk_request_sk pku n1 A = Ok k ->
  from_authority n2 (mau_name A) = true -> hash C n2 = Some h2 -> hash C n1 <> Some 0 ->
  exists k2, mk_forge n2 k = Some k2 /\ mk_request_sk pku n2 A = Ok k2.
Proof.
  unfold mk_request_sk, mk_forge, sha3_hash_fr, is_eligible. rewrite !andb_true_r.
  destruct (from_authority n1 (mau_name A)); [|discriminate].
  destruct (hash C n1) as [h1|] eqn:H1; [|discriminate].
  destruct (hash C (mau_name A)) as [h|]; [|discriminate]. cbn [obind]. intros E F2 H2 N.
  injection E as <-. cbn [mask_attr mask_g1 mask_g2]. rewrite H1, H2, F2.
  assert (D : h1 <> 0) by congruence. rewrite (finv_opt_neq L) by exact D. cbn [obind].
  eexists. split; [reflexivity|]. f_equal. f_equal.
  - apply (log1_inj L). logs. field. exact D.
  - apply (log2_inj L). logs. field. exact D.
Qed.

(** So a user key with one attribute of an authority is as good as a user key
    with every attribute of it. *)
Theorem mk_forge_user uk k n2 h2 : mk_user pk msk As uk -> In k (muk_ska uk) ->
  (exists A, In A As /\ from_authority (mask_attr k) (mau_name A) = true /\
             from_authority n2 (mau_name A) = true) ->
  hash C n2 = Some h2 -> hash C (mask_attr k) <> Some 0 ->
  exists k2, mk_forge n2 k = Some k2 /\ mask_attr k2 = n2 /\ mk_user pk msk As (mk_add uk k2).
Proof.
  intros (name & t & i & j & uk0 & asks & Hk & Hi & ->) Ik (B & IB & F1 & F2) H2 N.
  rewrite fold_mk_add in Ik. destruct (mk_keygen_inv _ _ _ _ _ _ _ Hk) as (_ & E0 & _).
  rewrite E0 in Ik. cbn [app muk_ska] in Ik. pose proof Hi as Hi'. rewrite Forall_forall in Hi'.
  destruct (Hi' k Ik) as (D & d & ID & Hd). destruct (mk_request_sk_inv _ _ _ _ Hd) as (Ed & FD & _).
  assert (D = B) by (apply Huniq; auto; eapply from_authority_unique; eauto; congruence). subst D.
  destruct (mk_forge_works _ _ _ n2 _ h2 Hd F2 H2) as (k2 & E2 & R2); [congruence|].
  exists k2. split; [exact E2|]. split; [now apply mk_request_sk_inv in R2|].
  exists name, t, i, j, uk0, (asks ++ [k2]). split; [exact Hk|]. split.
  - apply Forall_app. split; [exact Hi|]. constructor; [|constructor]. exists B, n2. auto.
  - now rewrite fold_left_app.
Qed.

End World.

(** ** Rejection and progress *)

Theorem mk_reject (uk : mk_uk C) ct f :
  parse (fst (mct_policy ct)) (snd (mct_policy ct)) = Ok (tree f) ->
  sat (owns (map mask_attr (muk_ska uk))) f = false -> mk_decrypt uk ct = Err.
Proof.
  intros P S. unfold mk_decrypt. rewrite P. cbn [obind]. rewrite traverse_tree, S, andb_false_r. reflexivity.
Qed.

(** Policies that pass the DNF test but nest an operator below itself abort. *)
Theorem mk_encrypt_nested nonce (pk : mk_pk C) apks pol lang data f t i :
  parse pol lang = Ok (tree f) -> no_or_below_and f -> flat f = false ->
  mk_encrypt nonce pk apks pol lang data t i = Panic.
Proof.
  intros P D N. unfold mk_encrypt. rewrite P. erewrite rbind_run by reflexivity.
  apply policy_in_dnf_iff in D. rewrite D. cbn [obind]. rewrite json_to_dnf_nested by exact N. reflexivity.
Qed.

Theorem mk_encrypt_not_dnf nonce (pk : mk_pk C) apks pol lang data f t i :
  parse pol lang = Ok (tree f) -> ~ no_or_below_and f ->
  mk_encrypt nonce pk apks pol lang data t i = Err.
Proof.
  intros P D. unfold mk_encrypt. rewrite P. erewrite rbind_run by reflexivity.
  destruct (policy_in_dnf (tree f) false None) eqn:E; [|reflexivity]. now apply policy_in_dnf_iff in E.
Qed.

Theorem mk_encrypt_runs nonce (pk : mk_pk C) apks pol lang data f t i :
  parse pol lang = Ok (tree f) -> flat f = true ->
  exists ct j, mk_encrypt nonce pk apks pol lang data t i = Ok (ct, j).
Proof.
  intros P Hf. unfold mk_encrypt. rewrite P. erewrite rbind_run by reflexivity.
  rewrite in_dnf_tree, flat_dnf by exact Hf. cbn [obind].
  destruct (json_to_dnf_flat (map mk_pak apks) f Hf) as (T & -> & _).
  do 4 (erewrite rbind_run by reflexivity; cbv zeta). match goal with |- context [rbind (rmap ?g T) _ t ?k] =>
    destruct (rmap_runs g T) with (t := t) (i := k) as (r & j & E) end.
  - intros; eexists _, _; reflexivity.
  - erewrite rbind_run by exact E. erewrite rbind_run by reflexivity. eexists _, _. reflexivity.
Qed.

Lemma mk_setup_runs t i : exists pk msk j, mk_setup (C := C) t i = Ok ((pk, msk), j).
Proof. unfold mk_setup, draw_g1, draw_g2, draw, rbind, rret. do 3 eexists. reflexivity. Qed.

Lemma mk_authgen_runs name t i : exists A j, mk_authgen (C := C) name t i = Ok (A, j).
Proof. unfold mk_authgen, draw, rbind, rret. do 2 eexists. reflexivity. Qed.

Lemma mk_keygen_runs (pk : mk_pk C) msk name t i : exists uk j, mk_keygen pk msk name t i = Ok (uk, j).
Proof. unfold mk_keygen, draw, rbind, rret. do 2 eexists. reflexivity. Qed.

(** An authority issues both keys exactly for its own attributes. *)
Theorem mk_request_pk_iff (pk : mk_pk C) A n : (forall s, hash C s <> None) ->
  (exists k, mk_request_pk pk n A = Ok k) <-> from_authority n (mau_name A) = true.
Proof.
  intros H. unfold mk_request_pk, sha3_hash_fr. pose proof (H n). pose proof (H (mau_name A)).
  destruct (from_authority n (mau_name A)); [|split; [intros (? & E)|]; discriminate].
  destruct (hash C n); [|congruence]. destruct (hash C (mau_name A)); [|congruence]. cbn.
  split; [reflexivity|]. intros _. eexists. reflexivity.
Qed.

Theorem mk_request_sk_iff (pku : mk_upk C) A n : (forall s, hash C s <> None) ->
  (exists k, mk_request_sk pku n A = Ok k) <-> from_authority n (mau_name A) = true.
Proof.
  intros H. unfold mk_request_sk, sha3_hash_fr, is_eligible. rewrite andb_true_r.
  pose proof (H n). pose proof (H (mau_name A)).
  destruct (from_authority n (mau_name A)); [|split; [intros (? & E)|]; discriminate].
  destruct (hash C n); [|congruence]. destruct (hash C (mau_name A)); [|congruence]. cbn.
  split; [reflexivity|]. intros _. eexists. reflexivity.
Qed.

End Mke08Proofs.
