(** * PropertiesChances: C134: how rarely a combination opens

    C109 and C110 say that no combination of what an outsider or a helper sees opens all ciphertexts.  Here the
    values that a system and an encryption draw are counted: [runs n Q S] says that [S] is any list of
    different runs of [n] drawn values with the property [Q], here that the combination [e], fixed before the
    values are drawn, gives the key of the payload; [at_most k p n S] says that [S] is at most [k] in [p] of all
    lists of [n] values, where the field has [p] elements.  Setup and encryption draw from one tape.  The proofs
    are in ChancesProofs.v. *)
From Coq Require Import String List Bool Arith ZArith Lia.
From Verif Require Import Base Crypto Policy Parse Spec Bdabe Mke08 Bsw Ghw11 Lsw Yct14 Ac17 Aw11 Instance BnInstance RealInstance
  Witnesses Generic Views GenericWitnesses Draws Chances ChancesProofs ChancesDnfProofs ChancesAwProofs ChancesWitnesses.
Import ListNotations.
Local Open Scope nat_scope.
Local Open Scope string_scope.

(** C134: BSW: four in p. *)
Theorem C134_bsw :
  forall C : crypto, laws C -> forall p, field_size C p ->
  forall nonce pol lang data f (e : combT C), parse pol lang = Ok (tree f) ->
  forall S, runs (6 + coins f) (fun t => exists pk msk i ct j,
    bsw_setup t 0 = Ok (pk, msk, i) /\ bsw_encrypt nonce pk pol lang data t i = Ok (ct, j) /\
    evalT (bsw_view pk ct) e = payload (t 5)) S ->
  at_most 4 p (6 + coins f) S.
Proof. intros C L p H. exact (bsw_chance L p H). Qed.
Print Assumptions C134_bsw.

Example C134_example_bsw : field_size ZC 1009 /\ (forall gt_bytes up, field_size (real gt_bytes up) (Z.to_nat bn_order)) /\
  parse P HumanPolicy = Ok (tree fP) /\
  runs (6 + coins fP) (fun t => exists pk msk i ct j,
    bsw_setup t 0 = Ok (pk, msk, i) /\ bsw_encrypt nc pk P HumanPolicy "m" t i = Ok (ct, j) /\
    evalT (bsw_view pk ct) guess1 = payload (t 5)) [repeat (f1 ZC) (6 + coins fP)].
Proof. exact (conj Zsize (conj real_size (conj Ptree bsw_opened))). Qed.

(** C134: LSW: five in p. *)
Theorem C134_lsw :
  forall C : crypto, laws C -> forall p, field_size C p ->
  forall nonce attrs data (e : combT C),
  forall S, runs (9 + length attrs) (fun t => exists pk msk i ct j,
    lsw_setup t 0 = Ok (pk, msk, i) /\ lsw_encrypt nonce pk attrs data t i = Ok (ct, j) /\
    evalT (lsw_view pk ct) e = payload (t (8 + length attrs))) S ->
  at_most 5 p (9 + length attrs) S.
Proof. intros C L p H. exact (lsw_chance L p H). Qed.
Print Assumptions C134_lsw.

Example C134_example_lsw : runs 11 (fun t => exists pk msk i ct j,
    lsw_setup t 0 = Ok (pk, msk, i) /\ lsw_encrypt nc pk ["A"; "B"] "m" t i = Ok (ct, j) /\
    evalT (lsw_view pk ct) guess1 = payload (t 10)) [repeat (f1 ZC) 11].
Proof. exact lsw_opened. Qed.

(** C134: AC17, policies in the ciphertext: five in p. *)
Theorem C134_ac17_cp :
  forall C : crypto, laws C -> forall p, field_size C p ->
  forall nonce pol lang data f (e : combT C), parse pol lang = Ok (tree f) -> binary_and f = true ->
  forall S, runs 12 (fun t => exists pk msk i ct j,
    ac_setup t 0 = Ok (pk, msk, i) /\ cp_encrypt nonce pk pol data lang t i = Ok (ct, j) /\
    evalT (ac_view pk (acp_ct ct)) e = payload (t 11)) S ->
  at_most 5 p 12 S.
Proof. intros C L p H. exact (cp_chance L p H). Qed.
Print Assumptions C134_ac17_cp.



(** C134: AC17, policies in the key: five in p. *)
Theorem C134_ac17_kp :
  forall C : crypto, laws C -> forall p, field_size C p ->
  forall nonce attrs data (e : combT C),
  forall S, runs 12 (fun t => exists pk msk i ct j,
    ac_setup t 0 = Ok (pk, msk, i) /\ kp_encrypt nonce pk attrs data t i = Ok (ct, j) /\
    evalT (ac_view pk (akp_ct ct)) e = payload (t 11)) S ->
  at_most 5 p 12 S.
Proof. intros C L p H. exact (kp_chance L p H). Qed.
Print Assumptions C134_ac17_kp.

Example C134_example_ac17 : binary_and fP = true /\ runs 12 (fun t => exists pk msk i ct j kt k,
    ac_setup t 0 = Ok (pk, msk, i) /\ cp_encrypt nc pk P "m" HumanPolicy t i = Ok (ct, j) /\
    kp_encrypt nc pk ["A"; "B"] "m" t i = Ok (kt, k) /\
    evalT (ac_view pk (acp_ct ct)) guess1 = payload (t 11) /\ evalT (ac_view pk (akp_ct kt)) guess1 = payload (t 11)) [repeat (f1 ZC) 12].
Proof. exact (conj eq_refl ac_opened). Qed.

(** C134: YCT14: three in p. *)
Theorem C134_yct :
  forall C : crypto, laws C -> forall p, field_size C p ->
  forall nonce U attrs data (e : combT C),
  forall S, runs (3 + length U) (fun t => exists pk msk i ct j,
    yct_setup U t 0 = Ok (pk, msk, i) /\ yct_encrypt nonce pk attrs data t i = Ok (ct, j) /\
    evalT (yct_view pk ct) e = gtpow C (ypk_g pk) (t i)) S ->
  at_most 3 p (3 + length U) S.
Proof. intros C L p H. exact (yct_chance L p H). Qed.
Print Assumptions C134_yct.



(** C134: and one in p cannot be avoided: who guesses the drawn exponent opens. *)
Theorem C134_yct_guess :
  forall C : crypto, laws C -> forall p, field_size C p ->
  forall nonce U attrs data (x : F C), attrs <> [] -> data <> EmptyString -> incl attrs U ->
  exists S, runs (3 + length U) (fun t => exists pk msk i ct j,
    yct_setup U t 0 = Ok (pk, msk, i) /\ yct_encrypt nonce pk attrs data t i = Ok (ct, j) /\
    evalT (yct_view pk ct) (PowT (SeenT 0) x) = gtpow C (ypk_g pk) (t i)) S /\ length S * p = p ^ (3 + length U).
Proof. intros C L p H. exact (yct_guess L p H). Qed.
Print Assumptions C134_yct_guess.

Example C134_example_yct : field_size ZC 1009 /\ ["A"; "B"] <> [] /\ "m" <> EmptyString /\ incl ["A"; "B"] ["A"; "B"; "C"].
Proof. split; [exact Zsize|]. split; [discriminate|]. split; [discriminate|]. intros x [<-|[<-|[]]]; cbn; auto. Qed.

(** C134: GHW11, who also holds the transformation keys of users with the attributes [us]: six in p. *)
Theorem C134_ghw_cloud :
  forall C : crypto, laws C -> forall p, field_size C p ->
  forall nonce pol lang data f us (e : combT C), parse pol lang = Ok (tree f) ->
  let n := 6 + coins f + length (leaves f) in
  forall S, runs (n + 2 * length us) (fun t => exists pk msk i ct j tks,
    ghw_setup t 0 = Ok (pk, msk, i) /\ ghw_encrypt nonce pk pol lang data t i = Ok (ct, j) /\
    outsourced pk msk (cloud us n t) tks /\ evalT (ghw_view pk ct tks) e = payload (t 5)) S ->
  at_most 6 p (n + 2 * length us) S.
Proof. intros C L p H. exact (ghw_chance L p H). Qed.
Print Assumptions C134_ghw_cloud.

Example C134_example_ghw : let n := 6 + coins fP + length (leaves fP) in
  runs (n + 4) (fun t => exists pk msk i ct j tks,
    ghw_setup t 0 = Ok (pk, msk, i) /\ ghw_encrypt nc pk P HumanPolicy "m" t i = Ok (ct, j) /\
    outsourced pk msk (cloud [["A"]; ["B"; "C"]] n t) tks /\ evalT (ghw_view pk ct tks) guess1 = payload (t 5)) [repeat (f1 ZC) (n + 4)].
Proof. exact ghw_opened. Qed.

(** C134: BDABE, for published keys of attributes of any authorities: three in p.  The values that the authorities drew are
    fixed (in [reqs]); the combination may depend on them.  [K] is the number of conjunctions; a conjunction whose factor
    is zero carries the payload in the open (C109). *)
Theorem C134_bdabe :
  forall C : crypto, laws C -> forall p, field_size C p ->
  forall nonce pol lang data reqs (e : combT C) K,
  forall S, runs (7 + K) (fun t => exists pk msk i apks ct j,
    bd_setup t 0 = Ok (pk, msk, i) /\ bd_published pk msk reqs apks /\
    bd_encrypt nonce pk apks pol lang data t i = Ok (ct, j) /\ length (bct_j ct) = K /\
    (forall u, In u (bct_j ct) -> bt_e4 u <> g1zero C) /\
    evalT (bd_view pk apks ct) e = payload (fmul C (t 5) (t 6))) S ->
  at_most 3 p (7 + K) S.
Proof. intros C L p H. exact (bd_chance L p H). Qed.
Print Assumptions C134_bdabe.

Example C134_example_bdabe : runs (7 + 3) (fun t => exists pk msk i apks ct j,
    bd_setup t 0 = Ok (pk, msk, i) /\ bd_published pk msk three_keys apks /\
    bd_encrypt nc pk apks PX HumanPolicy "m" t i = Ok (ct, j) /\ length (bct_j ct) = 3 /\
    (forall u, In u (bct_j ct) -> bt_e4 u <> g1zero ZC) /\
    evalT (bd_view pk apks ct) guess1 = payload (fmul ZC (t 5) (t 6))) [repeat (f1 ZC) (7 + 3)].
Proof. exact bd_opened. Qed.

(** C134: MKE08, likewise: three in p. *)
Theorem C134_mke :
  forall C : crypto, laws C -> forall p, field_size C p ->
  forall nonce pol lang data reqs (e : combT C) K,
  forall S, runs (9 + K) (fun t => exists pk msk i apks ct j,
    mk_setup t 0 = Ok (pk, msk, i) /\ mk_published pk reqs apks /\
    mk_encrypt nonce pk apks pol lang data t i = Ok (ct, j) /\ length (mct_e ct) = K /\
    (forall u, In u (mct_e ct) -> mj_5 u <> g1zero C) /\
    evalT (mk_view pk apks ct) e = payload (fmul C (fmul C (t 6) (t 7)) (fadd C (f1 C) (t 8)))) S ->
  at_most 3 p (9 + K) S.
Proof. intros C L p H. exact (mk_chance L p H). Qed.
Print Assumptions C134_mke.

Example C134_example_mke : runs (9 + 3) (fun t => exists pk msk i apks ct j,
    mk_setup t 0 = Ok (pk, msk, i) /\ mk_published pk three_keys apks /\
    mk_encrypt nc pk apks PX HumanPolicy "m" t i = Ok (ct, j) /\ length (mct_e ct) = 3 /\
    (forall u, In u (mct_e ct) -> mj_5 u <> g1zero ZC) /\
    evalT (mk_view pk apks ct) guess2 = payload (fmul ZC (fmul ZC (t 6) (t 7)) (fadd ZC (f1 ZC) (t 8)))) [repeat (f1 ZC) (9 + 3)].
Proof. exact mk_opened. Qed.

(** C134: AW11, for authorities with the attributes [Us]: four in p.  Here the values of the authorities are counted; who
    knows the secret exponents of the authorities opens (C136). *)
Theorem C134_aw :
  forall C : crypto, laws C -> forall p, field_size C p ->
  forall nonce pol lang data f Us (e : combT C), parse pol lang = Ok (tree f) ->
  let b := 2 + 2 * length (concat Us) in
  let n := b + 2 + 2 * coins f + length (leaves f) in
  forall S, runs n (fun t => exists gk i pks ct j,
    aw_setup t 0 = Ok (gk, i) /\ authorities gk (offices Us 2 t) pks /\
    aw_encrypt nonce gk pks pol lang data t b = Ok (ct, j) /\
    evalT (aw_view gk pks ct) e = payload (t (b + 1 + 2 * coins f))) S ->
  at_most 4 p n S.
Proof. intros C L p H. exact (aw_chance L p H). Qed.
Print Assumptions C134_aw.

Example C134_example_aw : let Us := [["A"; "B"]; ["C"]] in
  let n := 2 + 2 * length (concat Us) + 2 + 2 * coins fP + length (leaves fP) in
  runs n (fun t => exists gk i pks ct j,
    aw_setup t 0 = Ok (gk, i) /\ authorities gk (offices Us 2 t) pks /\
    aw_encrypt nc gk pks P HumanPolicy "m" t (2 + 2 * length (concat Us)) = Ok (ct, j) /\ length (awct_c ct) = 3 /\
    evalT (aw_view gk pks ct) guess1 = payload (t (2 + 2 * length (concat Us) + 1 + 2 * coins fP))) [repeat (f1 ZC) n].
Proof. exact aw_opened. Qed.
