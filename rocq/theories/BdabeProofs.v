(** * BdabeProofs: authorities, correctness and attacks for BDABE *)
From Coq Require Import String Ascii List Bool Arith Lia Field Permutation.
From Verif Require Import Base Crypto Policy Tools Dnf Parse Symmetric Bdabe
  Spec Poly PolicyProofs SharingProofs SchemeLib DnfProofs.
Import ListNotations.

(** ** Which attributes an authority serves *)

(** The text contains "::" somewhere. *)
Definition has_colons (s : string) : Prop := exists a b, s = (a ++ "::" ++ b)%string.

Lemma match_colons_2 c d r p : match_colons (String c (String d r)) p =
  if (c =? ":")%char && (d =? ":")%char then p :: match_colons r (S (S p))
  else match_colons (String d r) (S p).
Proof.
  destruct c as [[] [] [] [] [] [] [] []]; try reflexivity;
  destruct d as [[] [] [] [] [] [] [] []]; reflexivity.
Qed.

Lemma match_colons_1 c p : match_colons (String c "") p = [].
Proof. destruct c as [[] [] [] [] [] [] [] []]; reflexivity. Qed.

Lemma has_colons_cons c d r : has_colons (String c (String d r)) <->
  (c = ":" /\ d = ":")%char \/ has_colons (String d r).
Proof.
  split.
  - intros ([|x a] & b & E); cbn in E.
    + injection E as -> -> _. now left.
    + injection E as -> E. right. exists a, b. exact E.
  - intros [(-> & ->)|(a & b & E)].
    + exists ""%string, r. reflexivity.
    + exists (String c a), b. rewrite E. reflexivity.
Qed.

Lemma has_colons_short c : ~ has_colons (String c "").
Proof. intros ([|x [|y a]] & b & E); discriminate. Qed.

Lemma has_colons_nil : ~ has_colons "".
Proof. intros ([|x a] & b & E); discriminate. Qed.

Lemma colon_pair c d : (c =? ":")%char && (d =? ":")%char = true <-> (c = ":" /\ d = ":")%char.
Proof. rewrite andb_true_iff, !Ascii.eqb_eq. reflexivity. Qed.

Lemma match_colons_nil s : forall p, match_colons s p = [] <-> ~ has_colons s.
Proof.
  induction s as [|c s IH]; intros p.
  - split; [|reflexivity]. intros _. apply has_colons_nil.
  - destruct s as [|d r].
    + rewrite match_colons_1. split; [|reflexivity]. intros _. apply has_colons_short.
    + rewrite match_colons_2, has_colons_cons. destruct (_ && _) eqn:E.
      * apply colon_pair in E. split; [discriminate|tauto].
      * rewrite IH. assert (N : ~ (c = ":" /\ d = ":")%char) by (rewrite <- colon_pair, E; discriminate). tauto.
Qed.

Lemma has_colons_dec s : has_colons s \/ ~ has_colons s.
Proof.
  induction s as [|c s IH]; [right; apply has_colons_nil|].
  destruct s as [|d r]; [right; apply has_colons_short|]. rewrite has_colons_cons.
  destruct ((c =? ":")%char && (d =? ":")%char) eqn:E.
  - apply colon_pair in E. tauto.
  - assert (N : ~ (c = ":" /\ d = ":")%char) by (rewrite <- colon_pair, E; discriminate). tauto.
Qed.

(** The first match starts right after [pre]. *)
Lemma match_colons_first pre rest : forall p, ~ has_colons (pre ++ ":") ->
  match_colons (pre ++ "::" ++ rest) p = (p + String.length pre) :: match_colons rest (p + String.length pre + 2).
Proof.
  induction pre as [|c pre IH]; intros p N.
  - cbn [append]. rewrite match_colons_2. cbn. rewrite Nat.add_0_r. do 2 f_equal. lia.
  - destruct pre as [|d pre].
    + cbn [append] in *. rewrite match_colons_2. rewrite has_colons_cons in N.
      destruct (_ && _) eqn:E; [apply colon_pair in E; tauto|]. rewrite match_colons_2. cbn.
      replace (p + 1) with (S p) by lia. do 2 f_equal. lia.
    + cbn [append] in *. rewrite match_colons_2. rewrite has_colons_cons in N.
      destruct (_ && _) eqn:E; [apply colon_pair in E; tauto|].
      rewrite (IH (S p)) by tauto. cbn [String.length]. f_equal; [lia|]. f_equal. lia.
Qed.

Lemma has_colons_split s : has_colons s -> exists pre rest, s = (pre ++ "::" ++ rest)%string /\
  ~ has_colons (pre ++ ":").
Proof.
  induction s as [|c s IH]; intros H; [now apply has_colons_nil in H|].
  destruct s as [|d r]; [now apply has_colons_short in H|].
  destruct ((c =? ":")%char && (d =? ":")%char) eqn:E.
  - apply colon_pair in E as (-> & ->). exists ""%string, r. split; [reflexivity|apply has_colons_short].
  - assert (N : ~ (c = ":" /\ d = ":")%char) by (rewrite <- colon_pair, E; discriminate).
    apply has_colons_cons in H as [H|H]; [tauto|]. destruct (IH H) as (pre & rest & Es & Np).
    exists (String c pre), rest. split; [cbn; now rewrite Es|].
    destruct pre as [|x pre]; cbn in *.
    + injection Es as -> _. rewrite has_colons_cons. intros [Z|Z]; [tauto|now apply has_colons_short in Z].
    + injection Es as -> _. rewrite has_colons_cons. tauto.
Qed.

Theorem from_authority_iff attr name : from_authority attr name = true <->
  exists rest, attr = (name ++ "::" ++ rest)%string /\
    ~ has_colons (name ++ ":") /\ ~ has_colons rest.
Proof.
  unfold from_authority. split.
  - destruct (match_colons attr 0) as [|k [|? ?]] eqn:E; try discriminate. intros H. apply seqb_eq in H.
    assert (Hc : has_colons attr).
    { destruct (has_colons_dec attr) as [Y|N]; [exact Y|]. apply (match_colons_nil attr 0) in N. congruence. }
    destruct (has_colons_split _ Hc) as (pre & rest & -> & Np).
    rewrite match_colons_first in E by exact Np. injection E as <- E. cbn in H.
    rewrite substring_app_l in H. subst name. exists rest. apply match_colons_nil in E. auto.
  - intros (rest & -> & Np & Nr). rewrite match_colons_first by exact Np.
    apply (match_colons_nil rest (0 + String.length name + 2)) in Nr. rewrite Nr. cbn.
    apply seqb_eq, substring_app_l.
Qed.

(** No attribute is served by two differently named authorities. *)
Theorem from_authority_unique attr n1 n2 :
  from_authority attr n1 = true -> from_authority attr n2 = true -> n1 = n2.
Proof.
  unfold from_authority. destruct (match_colons attr 0) as [|k [|? ?]]; try discriminate.
  intros E1 E2. apply seqb_eq in E1, E2. congruence.
Qed.

Section BdabeProofs.
Context {C : crypto} (L : laws C).
Local Open Scope F_scope.
Add Field bd_field : (f_theory L).
Notation F := (F C).
Ltac logs := log_simpl L.

Lemma bd_setup_inv t i (pk : bd_pk C) msk j : bd_setup t i = Ok ((pk, msk), j) ->
  logT L (bpk_egg pk) = log1 L (bpk_g1 pk) * log2 L (bpk_g2 pk) * bmsk_y msk.
Proof.
  intros H. unfold bd_setup, draw_g1, draw_g2, draw, rbind, rret in H. injection H as <- <- _. cbn. logs. ring.
Qed.

Lemma bd_authgen_inv (pk : bd_pk C) msk name t i A j : bd_authgen pk msk name t i = Ok (A, j) ->
  bau_name A = name /\ exists alpha, log1 L (bau_a1 A) = log1 L (bpk_g1 pk) * alpha /\
    log2 L (bau_a2 A) = log2 L (bpk_g2 pk) * (bmsk_y msk - alpha).
Proof.
  intros H. unfold bd_authgen, draw, rbind, rret in H. injection H as <- _. cbn.
  split; [reflexivity|]. exists (t i). logs. auto.
Qed.

Lemma bd_keygen_inv (pk : bd_pk C) A name t i uk j : bd_keygen pk A name t i = Ok (uk, j) ->
  bupk_u (buk_pk uk) = name /\ buk_ska uk = [] /\ exists r,
    log1 L (busk_u1 (buk_sk uk)) = log1 L (bau_a1 A) + log1 L (bpk_p1 pk) * r /\
    log2 L (busk_u2 (buk_sk uk)) = log2 L (bau_a2 A) + log2 L (bpk_p2 pk) * r /\
    log1 L (bupk_u1 (buk_pk uk)) = log1 L (bpk_g1 pk) * r /\
    log2 L (bupk_u2 (buk_pk uk)) = log2 L (bpk_g2 pk) * r.
Proof.
  intros H. unfold bd_keygen, draw, rbind, rret in H. injection H as <- _. cbn.
  repeat split. exists (t i). logs. auto.
Qed.

(** The exponent an authority uses for an attribute. *)
Definition bd_exp (A : bd_auth C) (n : string) : option F :=
  match hash C n, hash C (bau_name A) with
  | Some h1, Some h2 => Some (h1 * h2 * bau_a3 A)
  | _, _ => None
  end.

Lemma bd_request_pk_inv (pk : bd_pk C) A n k : bd_request_pk pk A n = Ok k ->
  bapk_attr k = n /\ from_authority n (bau_name A) = true /\ exists e, bd_exp A n = Some e /\
    log1 L (bapk_a1 k) = log1 L (bpk_g1 pk) * e /\ log2 L (bapk_a2 k) = log2 L (bpk_g2 pk) * e /\
    logT L (bapk_a3 k) = logT L (bpk_egg pk) * e.
Proof.
  unfold bd_request_pk, bd_exp, sha3_hash_fr. destruct (from_authority n (bau_name A)); [|discriminate].
  destruct (hash C n); [|discriminate]. destruct (hash C (bau_name A)); [|discriminate]. cbn.
  intros H. injection H as <-. cbn. split; [reflexivity|]. split; [reflexivity|].
  eexists. split; [reflexivity|]. logs. auto.
Qed.

Lemma bd_request_sk_inv (pku : bd_upk C) A n k : bd_request_sk pku A n = Ok k ->
  bask_attr k = n /\ from_authority n (bau_name A) = true /\ exists e, bd_exp A n = Some e /\
    log1 L (bask_au1 k) = log1 L (bupk_u1 pku) * e /\ log2 L (bask_au2 k) = log2 L (bupk_u2 pku) * e.
Proof.
  unfold bd_request_sk, bd_exp, sha3_hash_fr, is_eligible. rewrite andb_true_r.
  destruct (from_authority n (bau_name A)); [|discriminate].
  destruct (hash C n); [|discriminate]. destruct (hash C (bau_name A)); [|discriminate]. cbn.
  intros H. injection H as <-. cbn. split; [reflexivity|]. split; [reflexivity|].
  eexists. split; [reflexivity|]. logs. auto.
Qed.

(** ** Opening one tuple *)

Lemma bd_calc_from_app a b sk : forall i ret,
  bd_calc_from i (a ++ b) sk ret = bd_calc_from (i + length a)%nat b sk (bd_calc_from (C := C) i a sk ret).
Proof.
  induction a as [|x a IH]; intros i ret; cbn; [now rewrite Nat.add_0_r|].
  replace (i + S (length a))%nat with (S i + length a)%nat by lia.
  destruct (find _ sk); apply IH.
Qed.

(** Keys of a group and the user's keys for the same attributes carry the same
    exponents. *)
Definition matched (pk : bd_pk C) (uk : bd_uk C) (p : pak C) : Prop :=
  exists e x, find (fun x => seqb (bask_attr x) (pak_attr p)) (buk_ska uk) = Some x /\
    log1 L (pak_g1 p) = log1 L (bpk_g1 pk) * e /\ log2 L (pak_g2 p) = log2 L (bpk_g2 pk) * e /\
    logT L (pak_gt1 p) = logT L (bpk_egg pk) * e /\
    log1 L (bask_au1 x) = log1 L (bupk_u1 (buk_pk uk)) * e /\
    log2 L (bask_au2 x) = log2 L (bupk_u2 (buk_pk uk)) * e.

Lemma matched_group (pk : bd_pk C) uk g : g <> [] -> (forall p, In p g -> matched pk uk p) -> exists E,
    log1 L (tm_g1 (mk_term g)) = log1 L (bpk_g1 pk) * E /\
    log2 L (tm_g2 (mk_term g)) = log2 L (bpk_g2 pk) * E /\
    logT L (tm_gt1 (mk_term g)) = logT L (bpk_egg pk) * E /\
    log1 L (fst (bd_calc (map pak_attr g) (buk_ska uk))) = log1 L (bupk_u1 (buk_pk uk)) * E /\
    log2 L (snd (bd_calc (map pak_attr g) (buk_ska uk))) = log2 L (bupk_u2 (buk_pk uk)) * E.
Proof.
  induction g as [|p g IH] using rev_ind; intros N M; [congruence|]. clear N.
  destruct (M p) as (e & x & Fx & E1 & E2 & ET & A1 & A2); [apply in_or_app; right; now left|].
  destruct g as [|q g].
  - cbn. unfold bd_calc. cbn. rewrite Fx. cbn. exists e. auto.
  - destruct IH as (E & I1 & I2 & IT & J1 & J2); [discriminate|intros; apply M, in_or_app; now left|].
    exists (E + e). rewrite mk_term_snoc by discriminate. cbn [merge_term tm_g1 tm_g2 tm_gt1]. logs.
    rewrite I1, I2, IT, E1, E2, ET. unfold bd_calc in *. rewrite map_app, bd_calc_from_app.
    set (r := bd_calc_from 0 (map pak_attr (q :: g)) (buk_ska uk) (g1one C, g2one C)) in *. clearbody r.
    cbn. rewrite Fx. cbn. logs. rewrite J1, J2, A1, A2. repeat split; ring.
Qed.

Lemma bd_satisfiable_matched (pk : bd_pk C) uk g : (forall p, In p g -> matched pk uk p) ->
  bd_satisfiable (map pak_attr g) (buk_ska uk) = true.
Proof.
  intros M. apply forallb_forall. intros a I. apply in_map_iff in I as (p & <- & I).
  destruct (M p I) as (e & x & Fx & _). now rewrite Fx.
Qed.

Lemma bd_satisfiable_attrs conj (sk : list (bd_ask C)) :
  bd_satisfiable conj sk = true <-> incl conj (map bask_attr sk).
Proof.
  unfold bd_satisfiable. rewrite forallb_forall. split; intros H a I.
  - specialize (H a I). cbn in H. destruct (find _ sk) as [x|] eqn:E; [|discriminate].
    apply find_some in E as (Ix & E). apply seqb_eq in E. subst a. now apply in_map.
  - cbn. apply H in I. apply in_map_iff in I as (x & E & Ix). destruct (find _ sk) eqn:Ef; [reflexivity|].
    apply (find_none _ _ Ef) in Ix. cbn in Ix. rewrite E, seqb_refl in Ix. discriminate.
Qed.

(** ** The setting: one setup, several authorities, one user *)

(** [A] was made by [authgen] under this setup. *)
Definition bd_authority (pk : bd_pk C) msk (A : bd_auth C) : Prop :=
  exists name t i j, bd_authgen pk msk name t i = Ok (A, j).

(** Attribute keys were issued by authorities of the list. *)
Definition bd_pk_issued (pk : bd_pk C) (As : list (bd_auth C)) (k : bd_apk C) : Prop :=
  exists A n, In A As /\ bd_request_pk pk A n = Ok k.
Definition bd_sk_issued (pku : bd_upk C) (As : list (bd_auth C)) (k : bd_ask C) : Prop :=
  exists A n, In A As /\ bd_request_sk pku A n = Ok k.

(** Authority names are unique, as the documentation asks (bdabe/mod.rs:172). *)
Definition bd_unique (As : list (bd_auth C)) : Prop :=
  forall A B, In A As -> In B As -> bau_name A = bau_name B -> A = B.

(** Everything a user key contains: generated by one of the authorities, with
    attribute keys issued for it. *)
Definition bd_user (pk : bd_pk C) (As : list (bd_auth C)) (uk : bd_uk C) : Prop :=
  exists A name t i j uk0 asks, In A As /\ bd_keygen pk A name t i = Ok (uk0, j) /\
    Forall (bd_sk_issued (buk_pk uk0) As) asks /\ uk = fold_left bd_add asks uk0.

Lemma fold_bd_add asks : forall uk0 : bd_uk C, fold_left bd_add asks uk0 =
  BdUk (buk_sk uk0) (buk_pk uk0) (buk_ska uk0 ++ asks).
Proof.
  induction asks as [|k asks IH]; intros [s p a]; cbn; [now rewrite app_nil_r|].
  rewrite IH. cbn. now rewrite <- app_assoc.
Qed.

Section World.
Variables (pk : bd_pk C) (msk : bd_msk C) (As : list (bd_auth C)) (ts : nat -> F) (is js : nat).
Hypothesis Hsetup : bd_setup ts is = Ok ((pk, msk), js).
Hypothesis HAs : Forall (bd_authority pk msk) As.
Hypothesis Huniq : bd_unique As.

Lemma bd_matched uk apks n : bd_user pk As uk -> Forall (bd_pk_issued pk As) apks ->
  In n (map bask_attr (buk_ska uk)) ->
  forall p, In p (map bd_pak apks) -> pak_attr p = n -> matched pk uk p.
Proof.
  intros (A & name & t & i & j & uk0 & asks & IA & Hk & Hi & ->) Hp In' p Ip Ep.
  rewrite fold_bd_add in *. destruct (bd_keygen_inv _ _ _ _ _ _ _ Hk) as (_ & E0 & _).
  rewrite E0 in *. cbn [app buk_ska buk_pk] in *.
  apply in_map_iff in Ip as (k & <- & Ik). cbn in Ep. rewrite Forall_forall in Hp, Hi.
  destruct (Hp k Ik) as (B & m & IB & Hk').
  destruct (bd_request_pk_inv _ _ _ _ Hk') as (Ea & FB & e & Ee & L1 & L2 & LT).
  destruct (find (fun x => seqb (bask_attr x) (pak_attr (bd_pak k))) asks) as [x|] eqn:Fx.
  - pose proof (find_some _ _ Fx) as (Ix & Ex). apply seqb_eq in Ex.
    destruct (Hi x Ix) as (D & d & ID & Hd).
    destruct (bd_request_sk_inv _ _ _ _ Hd) as (Ed & FD & e' & Ee' & M1 & M2).
    cbn in Ex. assert (Emd : m = d) by congruence. clear Ed. subst d.
    assert (D = B) by (apply Huniq; auto; eapply from_authority_unique; eauto). subst D.
    rewrite Ee in Ee'. injection Ee' as <-.
    exists e, x. cbn [pak_g1 pak_g2 pak_gt1 bd_pak buk_ska buk_pk]. auto 10.
  - exfalso. apply in_map_iff in In' as (x & Ex & Ix). apply (find_none _ _ Fx) in Ix. cbn in Ix.
    rewrite Ex, <- Ep, seqb_refl in Ix. discriminate.
Qed.

Lemma bd_user_logs uk : bd_user pk As uk -> exists alpha r,
    log1 L (busk_u1 (buk_sk uk)) = log1 L (bpk_g1 pk) * alpha + log1 L (bpk_p1 pk) * r /\
    log2 L (busk_u2 (buk_sk uk)) = log2 L (bpk_g2 pk) * (bmsk_y msk - alpha) + log2 L (bpk_p2 pk) * r /\
    log1 L (bupk_u1 (buk_pk uk)) = log1 L (bpk_g1 pk) * r /\
    log2 L (bupk_u2 (buk_pk uk)) = log2 L (bpk_g2 pk) * r.
Proof.
  intros (A & name & t & i & j & uk0 & asks & IA & Hk & Hi & ->). rewrite fold_bd_add. cbn [buk_sk buk_pk].
  rewrite Forall_forall in HAs. destruct (HAs A IA) as (nm & ta & ia & ja & Ha).
  destruct (bd_authgen_inv _ _ _ _ _ _ _ Ha) as (_ & alpha & A1 & A2).
  destruct (bd_keygen_inv _ _ _ _ _ _ _ Hk) as (_ & _ & r & K1 & K2 & K3 & K4).
  exists alpha, r. rewrite K1, K2, K3, K4, A1, A2. auto.
Qed.

(** The tuple made from a group opens to the encapsulated message. *)
Lemma bd_tuple_opens uk msg g t i tp j : bd_user pk As uk -> g <> [] ->
  (forall p, In p g -> matched pk uk p) -> bd_tuple_of pk msg (mk_term g) t i = Ok (tp, j) ->
  bd_satisfiable (bt_attr tp) (buk_ska uk) = true /\ bd_open uk tp = msg.
Proof.
  intros U N M H. unfold bd_tuple_of, draw, rbind, rret in H. injection H as <- _.
  rewrite mk_term_attrs. cbn [bt_attr]. split; [now apply (bd_satisfiable_matched pk)|].
  destruct (matched_group pk uk g N M) as (E & G1 & G2 & GT & S1 & S2).
  destruct (bd_user_logs uk U) as (alpha & r & U1 & U2 & V1 & V2).
  pose proof (bd_setup_inv _ _ _ _ _ Hsetup) as Y.
  unfold bd_open. cbn [bt_attr bt_e1 bt_e2 bt_e3 bt_e4 bt_e5].
  apply (logT_inj L). logs. rewrite GT, G1, G2, S1, S2, U1, U2, V1, V2, Y. ring.
Qed.

Section Ct.
Variables (nonce pol data : string) (lang : language) (apks : list (bd_apk C)) (ct : bd_ct C)
  (te : nat -> F) (ie je : nat) (f : formula).
Hypothesis Hpks : Forall (bd_pk_issued pk As) apks.
Hypothesis Henc : bd_encrypt nonce pk apks pol lang data te ie = Ok (ct, je).
Hypothesis Hparse : parse pol lang = Ok (tree f).
Hypothesis Hnonce : String.length nonce = 12%nat.

Lemma bd_encrypt_inv : flat f = true /\ bct_policy ct = (pol, lang) /\ exists msg T,
  encrypt_symmetric nonce msg data = Ok (bct_data ct) /\
  Permutation (map mk_term (groups (map bd_pak apks) f)) T /\
  Forall2 (fun tm tp => exists a b, bd_tuple_of pk msg tm te a = Ok (tp, b)) T (bct_j ct) /\
  msg = pairing C (g1mul C (g1one C) (te ie)) (g2mul C (g2one C) (te (S ie))).
Proof.
  unfold bd_encrypt in Henc. pose proof Henc as H. rewrite Hparse in H.
  apply rbind_Ok in H as (v & j1 & Hv & H). apply rlift_Ok in Hv as [Hv <-]. injection Hv as <-.
  destruct (policy_in_dnf (tree f) false None); [|discriminate].
  cbn [obind] in H. destruct (flat f) eqn:Ef.
  2:{ rewrite json_to_dnf_nested in H by exact Ef. discriminate. }
  destruct (json_to_dnf_flat (map bd_pak apks) f Ef) as (T & ET & PT & _). rewrite ET in H.
  apply rbind_Ok in H as (T' & j2 & HT & H). apply rlift_Ok in HT as [HT <-]. injection HT as <-.
  apply rbind_Ok in H as (m1 & j3 & Hm1 & H). apply rbind_Ok in H as (m2 & j4 & Hm2 & H). cbv zeta in H.
  unfold draw_g1, draw_g2, rbind, draw, rret in Hm1, Hm2. injection Hm1 as <- <-. injection Hm2 as <- <-.
  apply rbind_Ok in H as (jj & j5 & Hj & H). apply rbind_Ok in H as (d & j6 & Hd & H).
  apply rlift_Ok in Hd as [Hd <-]. apply rret_Ok in H as [<- _].
  split; [reflexivity|]. split; [reflexivity|]. eexists _, T. cbn [bct_data bct_j].
  split; [exact Hd|]. split; [exact PT|]. split; [|reflexivity]. eapply rmap_Forall2; eauto.
Qed.

(** Every tuple of the ciphertext that the user's attributes cover opens to the
    message, so the loop finds it as soon as one is covered. *)
Lemma bd_first_opens uk : bd_user pk As uk ->
  (exists g, In g (groups (map bd_pak apks) f) /\ incl (map pak_attr g) (map bask_attr (buk_ska uk))) ->
  exists msg, encrypt_symmetric nonce msg data = Ok (bct_data ct) /\ bd_first uk (bct_j ct) = msg /\
    (exists t, In t (bct_j ct) /\ bd_satisfiable (bt_attr t) (buk_ska uk) = true) /\
    msg = pairing C (g1mul C (g1one C) (te ie)) (g2mul C (g2one C) (te (S ie))).
Proof.
  intros U (g0 & Ig0 & Inc0). destruct bd_encrypt_inv as (Hf & _ & msg & T & Hd & PT & F2 & Em).
  exists msg. split; [exact Hd|]. apply and_assoc. split; [|exact Em].
  assert (G : forall g, In g (groups (map bd_pak apks) f) -> g <> [] /\ incl g (map bd_pak apks)).
  { intros g I. destruct f as [n p|l|l]; cbn [groups] in I.
    - split; [eapply split_nonempty; eauto|]. intros x Ix.
      assert (Ik : In x (keys (map bd_pak apks) (names (FLeaf n p)))).
      { rewrite <- (split_concat 0 (keys _ _)). apply in_concat. eauto. }
      apply in_flat_map in Ik as (? & _ & Ik). apply filter_In in Ik. tauto.
    - split; [eapply split_nonempty; eauto|]. intros x Ix.
      assert (Ik : In x (keys (map bd_pak apks) (names (FAnd l)))).
      { rewrite <- (split_concat 0 (keys _ _)). apply in_concat. eauto. }
      apply in_flat_map in Ik as (? & _ & Ik). apply filter_In in Ik. tauto.
    - apply splits_In in I as (N & c & Ic & Inc). split; [exact N|]. intros x Ix. apply Inc in Ix.
      apply in_map_iff in Ic as (y & <- & _). apply in_flat_map in Ix as (? & _ & Ik).
      apply filter_In in Ik. tauto. }
  assert (Cov : exists tm, In tm T /\ incl (tm_attrs tm) (map bask_attr (buk_ska uk))).
  { exists (mk_term g0). split; [|now rewrite mk_term_attrs].
    apply (Permutation_in _ PT). now apply in_map. }
  assert (Src : forall tm, In tm T -> exists g, tm = mk_term g /\ g <> [] /\ incl g (map bd_pak apks)).
  { intros tm I. apply (Permutation_in _ (Permutation_sym PT)) in I. apply in_map_iff in I as (g & <- & I).
    exists g. split; [reflexivity|]. now apply G. }
  clear PT. induction F2 as [|tm tp T' J (a & b & Ht) F2 IH]; [destruct Cov as (? & [] & _)|].
  cbn [bd_first]. destruct (bd_satisfiable (bt_attr tp) (buk_ska uk)) eqn:Es.
  - destruct (Src tm (or_introl eq_refl)) as (g & -> & N & Ig).
    split; [|exists tp; split; [now left|exact Es]].
    apply (bd_tuple_opens uk msg g te a tp b U N); [|exact Ht].
    intros p Ip. eapply bd_matched; [exact U|exact Hpks| |now apply Ig|reflexivity].
    apply bd_satisfiable_attrs in Es. apply Es.
    unfold bd_tuple_of, draw, rbind, rret in Ht. injection Ht as <- _. cbn [bt_attr].
    rewrite mk_term_attrs. now apply in_map.
  - enough (X : bd_first uk J = msg /\ (exists t, In t J /\ bd_satisfiable (bt_attr t) (buk_ska uk) = true)).
    { destruct X as (X1 & t & It & X2). split; [exact X1|]. exists t. split; [now right|exact X2]. }
    apply IH.
    + destruct Cov as (tm' & [->|I] & Inc); [|eauto]. exfalso.
      apply bd_satisfiable_attrs in Inc.
      unfold bd_tuple_of, draw, rbind, rret in Ht. injection Ht as <- _. cbn [bt_attr] in Es. congruence.
    + intros; apply Src; now right.
Qed.

(** The stored policy text is not bound to the rest of the ciphertext: a user
    who covers one group of keys opens it under any policy text they satisfy. *)
Theorem bd_opens_edited uk ct' f' : bd_user pk As uk ->
  (exists g, In g (groups (map bd_pak apks) f) /\ incl (map pak_attr g) (map bask_attr (buk_ska uk))) ->
  bct_j ct' = bct_j ct -> bct_data ct' = bct_data ct ->
  parse (fst (bct_policy ct')) (snd (bct_policy ct')) = Ok (tree f') ->
  sat (owns (map bask_attr (buk_ska uk))) f' = true -> buk_ska uk <> [] ->
  bd_decrypt uk ct' = Ok data.
Proof.
  intros U Cov Ej Ed P' S NE. destruct (bd_first_opens uk U Cov) as (msg & Hd & Hm & _).
  unfold bd_decrypt. rewrite P'. cbn [obind]. rewrite traverse_tree, S, map_length.
  destruct (buk_ska uk) as [|x r] eqn:Ex; [congruence|]. cbn [length Nat.ltb Nat.leb andb].
  rewrite Ej, Ed, Hm. eapply symmetric_roundtrip; eauto.
Qed.

(** ** Correctness *)
Lemma bd_covered (own : list string) :
  (forall c, In c (conjs f) -> exists n, In n c /\ In n (map bapk_attr apks)) ->
  sat (owns own) f = true ->
  own <> [] /\ exists g, In g (groups (map bd_pak apks) f) /\ incl (map pak_attr g) own.
Proof.
  intros Kn S. destruct bd_encrypt_inv as (Hf & _).
  assert (Cj : exists c, In c (conjs f) /\ incl c own).
  { clear - Hf S.
    assert (X : forall x, is_conj x = true -> sat (owns own) x = true -> incl (names x) own).
    { intros [n p|l|l] H Sx; [| |discriminate].
      - intros y [<-|[]]. now apply smem_In.
      - cbn in H, Sx. rewrite forallb_forall in H, Sx. intros y I. unfold names in I. cbn in I.
        apply in_map_iff in I as ((n & p) & <- & I). apply in_flat_map in I as (x & Ix & I).
        specialize (H x Ix). specialize (Sx x Ix). destruct x; try discriminate.
        destruct I as [E|[]]. injection E as <- <-. now apply smem_In. }
    rewrite (conjs_flat f Hf). destruct f as [n p|l|l].
    - exists (names (FLeaf n p)). split; [now left|now apply X].
    - exists (names (FAnd l)). split; [now left|now apply X].
    - cbn in S, Hf. apply existsb_exists in S as (x & Ix & Sx). rewrite forallb_forall in Hf.
      exists (names x). split; [now apply in_map|]. apply X; auto. }
  destruct Cj as (c & Ic & Inc). destruct (Kn c Ic) as (n & In' & Ik).
  assert (Kc : keys (map bd_pak apks) c <> []).
  { apply in_map_iff in Ik as (k & Ek & Ik). intros Z.
    assert (I : In (bd_pak k) (keys (map bd_pak apks) c)).
    { apply in_flat_map. exists n. split; [exact In'|]. apply filter_In. split; [now apply in_map|].
      cbn. apply seqb_eq. exact Ek. }
    rewrite Z in I. destruct I. }
  assert (Kincl : incl (map pak_attr (keys (map bd_pak apks) c)) c).
  { intros y I. apply in_map_iff in I as (p & <- & I). apply in_flat_map in I as (m & Im & I).
    apply filter_In in I as (_ & I). apply seqb_eq in I. now rewrite I. }
  split; [intros Z; rewrite Z in Inc; apply Inc in In'; destruct In'|].
  assert (Cg : exists g, In g (groups (map bd_pak apks) f) /\ incl g (keys (map bd_pak apks) c)).
    { rewrite (conjs_flat f Hf) in Ic. destruct f as [m p|l|l]; cbn [groups].
      - destruct Ic as [<-|[]]. now apply split_covers.
      - destruct Ic as [<-|[]]. now apply split_covers.
      - apply splits_covers; [|exact Kc]. apply in_map_iff in Ic as (x & <- & Ix).
        apply (in_map (fun c => keys (map bd_pak apks) (names c))). exact Ix. }
  destruct Cg as (g & Ig & Incg). exists g. split; [exact Ig|]. intros y I. apply Inc, Kincl.
    revert y I. now apply incl_map.
Qed.

Theorem bd_correct uk : bd_user pk As uk ->
  (forall c, In c (conjs f) -> exists n, In n c /\ In n (map bapk_attr apks)) ->
  sat (owns (map bask_attr (buk_ska uk))) f = true -> bd_decrypt uk ct = Ok data.
Proof.
  intros U Kn S. destruct bd_encrypt_inv as (Hf & Ep & _). destruct (bd_covered _ Kn S) as (NE & Cg).
  eapply bd_opens_edited with (f' := f); auto.
  - now rewrite Ep.
  - intros Z. rewrite Z in NE. now apply NE.
Qed.

(** A user who holds only the first attribute of a later conjunction opens the
    ciphertext after replacing the policy text by that attribute; the text of
    the original policy is refused. *)
Theorem bd_split_opens uk x l c a b r pol' lang' p' : bd_user pk As uk ->
  f = FOr (x :: l) -> one_key (map bd_pak apks) f -> names x <> [] ->
  In c l -> names c = a :: b :: r -> map bask_attr (buk_ska uk) = [a] ->
  parse pol' lang' = Ok (tree (FLeaf a p')) ->
  bd_decrypt uk (BdCt (pol', lang') (bct_j ct) (bct_data ct)) = Ok data.
Proof.
  intros U Ef OK Nx Ic Ec Own P'. destruct bd_encrypt_inv as (Hf & _).
  assert (NE : buk_ska uk <> []) by (intros Z; rewrite Z in Own; discriminate).
  eapply bd_opens_edited with (f' := FLeaf a p'); auto.
  2:{ cbn. rewrite Own. apply smem_In. now left. }
  rewrite Ef in Hf, OK. destruct (json_to_dnf_flat (map bd_pak apks) _ Hf) as (T & ET & PT & _).
  pose proof (dnf_splits_conjunction (map bd_pak apks) _ T x l c a b r eq_refl Hf OK Nx Ic Ec ET) as I.
  apply in_map_iff in I as (tm & Etm & I). apply (Permutation_in _ (Permutation_sym PT)) in I.
  apply in_map_iff in I as (g & <- & Ig). rewrite mk_term_attrs in Etm.
  exists g. rewrite Ef. split; [exact Ig|]. rewrite Etm, Own. apply incl_refl.
Qed.

(** Attributes without a supplied public key are dropped from a conjunction:
    whoever holds the others opens the ciphertext. *)
Theorem bd_missing_opens uk l pol' lang' f' : bd_user pk As uk -> f = FAnd l ->
  keys (map bd_pak apks) (names f) <> [] ->
  (forall n, In n (names f) -> In n (map bapk_attr apks) -> In n (map bask_attr (buk_ska uk))) ->
  parse pol' lang' = Ok (tree f') -> sat (owns (map bask_attr (buk_ska uk))) f' = true ->
  bd_decrypt uk (BdCt (pol', lang') (bct_j ct) (bct_data ct)) = Ok data.
Proof.
  intros U Ef Nk Own P' S. set (ks := keys (map bd_pak apks) (names f)) in *.
  assert (Inc : incl (map pak_attr ks) (map bask_attr (buk_ska uk))).
  { intros y I. apply in_map_iff in I as (p & <- & I). apply in_flat_map in I as (m & Im & I).
    apply filter_In in I as (Ip & I). apply seqb_eq in I. apply in_map_iff in Ip as (k & <- & Ik).
    cbn in *. apply Own; [now rewrite I|]. now apply in_map. }
  eapply bd_opens_edited with (f' := f'); auto.
  - exists ks. split; [|exact Inc]. rewrite Ef. cbn [groups]. rewrite <- Ef. fold ks.
    destruct ks; [congruence|]. now left.
  - intros Z. destruct ks as [|k ks]; [congruence|]. rewrite Z in Inc. apply (Inc (pak_attr k)). now left.
Qed.

End Ct.

(** ** Attribute keys of one authority are related by public factors *)

(** From the secret key of one attribute to that of another one. *)
Definition bd_forge (n2 : string) (k : bd_ask C) : option (bd_ask C) :=
  match hash C (bask_attr k), hash C n2 with
  | Some h1, Some h2 =>
    match finv_opt h1 with
    | Some d => Some (BdAsk n2 (g1mul C (bask_au1 k) (h2 * d)) (g2mul C (bask_au2 k) (h2 * d)))
    | None => None
    end
  | _, _ => None
  end.

Theorem bd_forge_works (pku : bd_upk C) A n1 n2 k h2 : bd_request_sk pku A n1 = Ok k ->
  from_authority n2 (bau_name A) = true -> hash C n2 = Some h2 -> hash C n1 <> Some 0 ->
  exists k2, bd_forge n2 k = Some k2 /\ bd_request_sk pku A n2 = Ok k2.
Proof.
  unfold bd_request_sk, bd_forge, sha3_hash_fr, is_eligible. rewrite !andb_true_r.
  destruct (from_authority n1 (bau_name A)); [|discriminate].
  destruct (hash C n1) as [h1|] eqn:H1; [|discriminate].
  destruct (hash C (bau_name A)) as [h|]; [|discriminate]. cbn [obind]. intros E F2 H2 N.
  injection E as <-. cbn [bask_attr bask_au1 bask_au2]. rewrite H1, H2, F2.
  assert (D : h1 <> 0) by congruence. rewrite (finv_opt_neq L) by exact D. cbn [obind].
  eexists. split; [reflexivity|]. f_equal. f_equal.
  - apply (log1_inj L). logs. field. exact D.
  - apply (log2_inj L). logs. field. exact D.
Qed.

(** So a user key with one attribute of an authority is as good as a user key
    with every attribute of it. *)
Theorem bd_forge_user uk k n2 h2 : bd_user pk As uk -> In k (buk_ska uk) ->
  (exists A, In A As /\ from_authority (bask_attr k) (bau_name A) = true /\
             from_authority n2 (bau_name A) = true) ->
  hash C n2 = Some h2 -> hash C (bask_attr k) <> Some 0 ->
  exists k2, bd_forge n2 k = Some k2 /\ bask_attr k2 = n2 /\ bd_user pk As (bd_add uk k2).
Proof.
  intros (A & name & t & i & j & uk0 & asks & IA & Hk & Hi & ->) Ik (B & IB & F1 & F2) H2 N.
  rewrite fold_bd_add in Ik. destruct (bd_keygen_inv _ _ _ _ _ _ _ Hk) as (_ & E0 & _).
  rewrite E0 in Ik. cbn [app buk_ska] in Ik. pose proof Hi as Hi'. rewrite Forall_forall in Hi'.
  destruct (Hi' k Ik) as (D & d & ID & Hd). destruct (bd_request_sk_inv _ _ _ _ Hd) as (Ed & FD & _).
  assert (D = B) by (apply Huniq; auto; eapply from_authority_unique; eauto; congruence). subst D.
  destruct (bd_forge_works _ _ _ n2 _ h2 Hd F2 H2) as (k2 & E2 & R2); [congruence|].
  exists k2. split; [exact E2|]. split; [now apply bd_request_sk_inv in R2|].
  exists A, name, t, i, j, uk0, (asks ++ [k2]). split; [exact IA|]. split; [exact Hk|]. split.
  - apply Forall_app. split; [exact Hi|]. constructor; [|constructor]. exists B, n2. auto.
  - now rewrite fold_left_app.
Qed.

End World.

(** ** Rejection and progress *)

Theorem bd_reject (uk : bd_uk C) ct f :
  parse (fst (bct_policy ct)) (snd (bct_policy ct)) = Ok (tree f) ->
  sat (owns (map bask_attr (buk_ska uk))) f = false -> bd_decrypt uk ct = Err.
Proof.
  intros P S. unfold bd_decrypt. rewrite P. cbn [obind]. rewrite traverse_tree, S, andb_false_r. reflexivity.
Qed.

(** Policies that pass the DNF test but nest an operator below itself abort. *)
Theorem bd_encrypt_nested nonce (pk : bd_pk C) apks pol lang data f t i :
  parse pol lang = Ok (tree f) -> no_or_below_and f -> flat f = false ->
  bd_encrypt nonce pk apks pol lang data t i = Panic.
Proof.
  intros P D N. unfold bd_encrypt. rewrite P. erewrite rbind_run by reflexivity.
  apply policy_in_dnf_iff in D. rewrite D. cbn [obind]. rewrite json_to_dnf_nested by exact N. reflexivity.
Qed.

Theorem bd_encrypt_not_dnf nonce (pk : bd_pk C) apks pol lang data f t i :
  parse pol lang = Ok (tree f) -> ~ no_or_below_and f ->
  bd_encrypt nonce pk apks pol lang data t i = Err.
Proof.
  intros P D. unfold bd_encrypt. rewrite P. erewrite rbind_run by reflexivity.
  destruct (policy_in_dnf (tree f) false None) eqn:E; [|reflexivity]. now apply policy_in_dnf_iff in E.
Qed.

Theorem bd_encrypt_runs nonce (pk : bd_pk C) apks pol lang data f t i :
  parse pol lang = Ok (tree f) -> flat f = true ->
  exists ct j, bd_encrypt nonce pk apks pol lang data t i = Ok (ct, j).
Proof.
  intros P Hf. unfold bd_encrypt. rewrite P. erewrite rbind_run by reflexivity.
  rewrite in_dnf_tree, flat_dnf by exact Hf. cbn [obind].
  destruct (json_to_dnf_flat (map bd_pak apks) f Hf) as (T & -> & _).
  erewrite rbind_run by reflexivity. erewrite rbind_run by reflexivity. erewrite rbind_run by reflexivity.
  cbv zeta. match goal with |- context [rbind (rmap ?g T) _ t ?k] =>
    destruct (rmap_runs g T) with (t := t) (i := k) as (r & j & E) end.
  - intros; eexists _, _; reflexivity.
  - erewrite rbind_run by exact E. erewrite rbind_run by reflexivity. eexists _, _. reflexivity.
Qed.

Lemma bd_setup_runs t i : exists pk msk j, bd_setup (C := C) t i = Ok ((pk, msk), j).
Proof. unfold bd_setup, draw_g1, draw_g2, draw, rbind, rret. do 3 eexists. reflexivity. Qed.

Lemma bd_authgen_runs (pk : bd_pk C) msk name t i : exists A j, bd_authgen pk msk name t i = Ok (A, j).
Proof. unfold bd_authgen, draw, rbind, rret. do 2 eexists. reflexivity. Qed.

Lemma bd_keygen_runs (pk : bd_pk C) A name t i : exists uk j, bd_keygen pk A name t i = Ok (uk, j).
Proof. unfold bd_keygen, draw, rbind, rret. do 2 eexists. reflexivity. Qed.

(** An authority issues both keys exactly for its own attributes. *)
Theorem bd_request_pk_iff (pk : bd_pk C) A n : (forall s, hash C s <> None) ->
  (exists k, bd_request_pk pk A n = Ok k) <-> from_authority n (bau_name A) = true.
Proof.
  intros H. unfold bd_request_pk, sha3_hash_fr. pose proof (H n). pose proof (H (bau_name A)).
  destruct (from_authority n (bau_name A)); [|split; [intros (? & E)|]; discriminate].
  destruct (hash C n); [|congruence]. destruct (hash C (bau_name A)); [|congruence]. cbn.
  split; [reflexivity|]. intros _. eexists. reflexivity.
Qed.

Theorem bd_request_sk_iff (pku : bd_upk C) A n : (forall s, hash C s <> None) ->
  (exists k, bd_request_sk pku A n = Ok k) <-> from_authority n (bau_name A) = true.
Proof.
  intros H. unfold bd_request_sk, sha3_hash_fr, is_eligible. rewrite andb_true_r.
  pose proof (H n). pose proof (H (bau_name A)).
  destruct (from_authority n (bau_name A)); [|split; [intros (? & E)|]; discriminate].
  destruct (hash C n); [|congruence]. destruct (hash C (bau_name A)); [|congruence]. cbn.
  split; [reflexivity|]. intros _. eexists. reflexivity.
Qed.

End BdabeProofs.
