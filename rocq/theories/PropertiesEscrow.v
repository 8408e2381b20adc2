(** * PropertiesEscrow: C136: the holder of a master key opens every ciphertext without a key of any attribute

    The functions that open are in Escrow.v; the proofs are in EscrowProofs.v.  Attribute keys of BDABE and
    MKE08 are ones that [request_attribute_pk] made, by any authorities [As]. *)
From Coq Require Import String Ascii List Bool Arith ZArith Lia.
From Verif Require Import Base Crypto Policy Tools Spec Parse Symmetric SchemeLib Dnf Bdabe BdabeProofs Mke08 Mke08Proofs
  Bsw Ghw11 Lsw Yct14 Ac17 Views Escrow EscrowProofs Instance Sessions Witnesses GenericWitnesses.
Import ListNotations.
Local Open Scope nat_scope.
Local Open Scope string_scope.

(** C136: BSW, every policy and every message. *)
Theorem C136_bsw :
  forall (C : crypto), laws C ->
  forall nonce ts is (pk : bsw_pk C) msk js pol lang data te ie ct je,
  bsw_setup ts is = Ok (pk, msk, js) -> bsw_encrypt nonce pk pol lang data te ie = Ok (ct, je) ->
  String.length nonce = 12 -> bsw_escrow msk ct = Ok data.
Proof. exact @bsw_escrow_opens. Qed.
Print Assumptions C136_bsw.

Example C136_example_bsw : exists (pk : bsw_pk ZC) msk ct ts i1 i2 i3,
  bsw_setup ts 0 = Ok (pk, msk, i1) /\ bsw_encrypt nc pk P HumanPolicy "hello" ts i2 = Ok (ct, i3).
Proof. by_run (bsw_session (C := ZC) nc ["A"; "C"] P HumanPolicy "hello") (Ok "hello"). Qed.

(** C136: GHW11. *)
Theorem C136_ghw :
  forall (C : crypto), laws C ->
  forall nonce ts is (pk : ghw_pk C) msk js pol lang data te ie ct je,
  ghw_setup ts is = Ok (pk, msk, js) -> ghw_encrypt nonce pk pol lang data te ie = Ok (ct, je) ->
  String.length nonce = 12 -> ghw_escrow msk ct = Ok data.
Proof. exact @ghw_escrow_opens. Qed.
Print Assumptions C136_ghw.

Example C136_example_ghw : exists (pk : ghw_pk ZC) msk ct ts i1 i2 i3,
  ghw_setup ts 0 = Ok (pk, msk, i1) /\ ghw_encrypt nc pk P HumanPolicy "hello" ts i2 = Ok (ct, i3).
Proof. by_run (ghw_session (C := ZC) nc ["A"; "C"] P HumanPolicy "hello") (Ok "hello"). Qed.

(** C136: LSW, every list of attributes. *)
Theorem C136_lsw :
  forall (C : crypto), laws C ->
  forall nonce ts is (pk : lsw_pk C) msk js attrs data te ie ct je,
  lsw_setup ts is = Ok (pk, msk, js) -> lsw_encrypt nonce pk attrs data te ie = Ok (ct, je) ->
  String.length nonce = 12 -> lsw_escrow pk msk ct = Ok data.
Proof. exact @lsw_escrow_opens. Qed.
Print Assumptions C136_lsw.

Example C136_example_lsw : exists (pk : lsw_pk ZC) msk ct ts i1 i2 i3,
  lsw_setup ts 0 = Ok (pk, msk, i1) /\ lsw_encrypt nc pk ["C"; "A"] "hello" ts i2 = Ok (ct, i3).
Proof. by_run (lsw_session (C := ZC) nc P HumanPolicy ["C"; "A"] "hello") (Ok "hello"). Qed.

(** C136: AC17, ciphertext-policy. *)
Theorem C136_cp :
  forall (C : crypto), laws C ->
  forall nonce ts is (pk : ac_pk C) msk js pol lang data te ie ct je,
  ac_setup ts is = Ok (pk, msk, js) -> cp_encrypt nonce pk pol data lang te ie = Ok (ct, je) ->
  String.length nonce = 12 -> ac_escrow msk (acp_ct ct) = Ok data.
Proof. exact @cp_escrow_opens. Qed.
Print Assumptions C136_cp.

Example C136_example_cp : exists (pk : ac_pk ZC) msk ct ts i1 i2 i3,
  ac_setup ts 0 = Ok (pk, msk, i1) /\ cp_encrypt nc pk P "hello" HumanPolicy ts i2 = Ok (ct, i3).
Proof. by_run (cp_session (C := ZC) nc ["A"; "C"] P HumanPolicy "hello") (Ok "hello"). Qed.

(** C136: AC17, key-policy. *)
Theorem C136_kp :
  forall (C : crypto), laws C ->
  forall nonce ts is (pk : ac_pk C) msk js attrs data te ie ct je,
  ac_setup ts is = Ok (pk, msk, js) -> kp_encrypt nonce pk attrs data te ie = Ok (ct, je) ->
  String.length nonce = 12 -> ac_escrow msk (akp_ct ct) = Ok data.
Proof. exact @kp_escrow_opens. Qed.
Print Assumptions C136_kp.

Example C136_example_kp : exists (pk : ac_pk ZC) msk ct ts i1 i2 i3,
  ac_setup ts 0 = Ok (pk, msk, i1) /\ kp_encrypt nc pk ["C"; "A"] "hello" ts i2 = Ok (ct, i3).
Proof. by_run (kp_session (C := ZC) nc P HumanPolicy ["C"; "A"] "hello") (Ok "hello"). Qed.

(** C136: YCT14: any attribute of the ciphertext will do. *)
Theorem C136_yct :
  forall (C : crypto), laws C ->
  forall nonce U ts is (pk : yct_pk C) msk js attrs data te ie ct je n,
  yct_setup U ts is = Ok (pk, msk, js) -> yct_encrypt nonce pk attrs data te ie = Ok (ct, je) ->
  String.length nonce = 12 -> In n attrs -> msk_get_private msk n <> Ok (f0 C) -> yct_escrow msk n ct = Ok data.
Proof. exact @yct_escrow_opens. Qed.
Print Assumptions C136_yct.

Example C136_example_yct : exists (pk : yct_pk ZC) msk i ct j,
  yct_setup (C := ZC) ["A"; "B"; "C"; "D"] (ztape 3) 0 = Ok (pk, msk, i) /\
  yct_encrypt nc pk ["C"; "A"; "D"] "hello" (ztape 3) i = Ok (ct, j) /\ msk_get_private msk "C" <> Ok (f0 ZC).
Proof.
  assert (X : match yct_setup (C := ZC) ["A"; "B"; "C"; "D"] (ztape 3) 0 with Ok (pk, msk, i) =>
    match yct_encrypt nc pk ["C"; "A"; "D"] "hello" (ztape 3) i with Ok _ =>
    match msk_get_private msk "C" with Ok x => negb (feqb ZC x (f0 ZC)) | _ => false end | _ => false end | _ => false end = true)
    by (vm_compute; reflexivity).
  destruct (yct_setup (C := ZC) ["A"; "B"; "C"; "D"] (ztape 3) 0) as [[[pk msk] i]| |]; try discriminate X.
  destruct (yct_encrypt nc pk ["C"; "A"; "D"] "hello" (ztape 3) i) as [[ct j]| |] eqn:He; try discriminate X.
  exists pk, msk, i, ct, j. split; [reflexivity|]. split; [exact He|]. intros E. rewrite E in X.
  apply negb_true_iff in X. pose proof (proj2 (feqb_eq ZL (f0 ZC) (f0 ZC)) eq_refl). congruence.
Qed.

(** C136: MKE08: any conjunction of the ciphertext will do. *)
Theorem C136_mke :
  forall (C : crypto), laws C ->
  forall nonce ts is (pk : mk_pk C) msk js As apks pol lang data te ie ct je t,
  mk_setup ts is = Ok (pk, msk, js) -> Forall (mk_pk_issued pk As) apks ->
  mk_encrypt nonce pk apks pol lang data te ie = Ok (ct, je) -> String.length nonce = 12 -> In t (mct_e ct) ->
  mk_escrow msk t (mct_data ct) = Ok data.
Proof. exact @mk_escrow_opens. Qed.
Print Assumptions C136_mke.

Example C136_example_mke : exists (pk : mk_pk ZC) msk i As apks ct j t,
  mk_setup (C := ZC) (ztape 3) 0 = Ok (pk, msk, i) /\ Forall (mk_pk_issued pk As) apks /\
  mk_encrypt nc pk apks PX HumanPolicy "m" one 0 = Ok (ct, j) /\ In t (mct_e ct).
Proof.
  destruct mk_example as (pk & msk & i & apks & ct & j & Hs & Hp & He & Hl & _).
  destruct (mct_e ct) as [|t l] eqn:E; [discriminate|]. exists pk, msk, i.
  assert (X : exists As, Forall (mk_pk_issued pk As) apks).
  { clear - Hp. unfold mk_published in Hp. induction Hp as [|r k rs ks (au & j & _ & Hk) _ (As & IH)]; [exists []; constructor|].
    exists (au :: As). constructor; [exists au, (snd r); split; [now left|exact Hk]|].
    revert IH. apply Forall_impl. intros q (A & n & I & H). exists A, n. split; [now right|exact H]. }
  destruct X as (As & X). exists As, apks, ct, j, t. rewrite E. split; [exact Hs|]. split; [exact X|]. split; [exact He|now left].
Qed.

(** C136: BDABE: any conjunction of the ciphertext will do. *)
Theorem C136_bdabe :
  forall (C : crypto), laws C ->
  forall nonce ts is (pk : bd_pk C) msk js As apks pol lang data te ie ct je t,
  bd_setup ts is = Ok (pk, msk, js) -> Forall (bd_pk_issued pk As) apks ->
  bd_encrypt nonce pk apks pol lang data te ie = Ok (ct, je) -> String.length nonce = 12 -> In t (bct_j ct) ->
  bd_escrow pk msk t (Bdabe.bct_data ct) = Ok data.
Proof. exact @bd_escrow_opens. Qed.
Print Assumptions C136_bdabe.

(** C136: BDABE: every authority opens every ciphertext, whatever attributes are its own. *)
Theorem C136_bdabe_authority :
  forall (C : crypto), laws C ->
  forall nonce ts is (pk : bd_pk C) msk js As apks pol lang data te ie ct je t name ta ia au ja,
  bd_setup ts is = Ok (pk, msk, js) -> Forall (bd_pk_issued pk As) apks ->
  bd_encrypt nonce pk apks pol lang data te ie = Ok (ct, je) -> String.length nonce = 12 -> In t (bct_j ct) ->
  bd_authgen pk msk name ta ia = Ok (au, ja) ->
  bd_authority_opens au t (Bdabe.bct_data ct) = Ok data.
Proof. exact @bd_authority_opens_all. Qed.
Print Assumptions C136_bdabe_authority.

(** C136: "an authority opens only ciphertexts for attributes of its own" does not hold.  The policy names
    three attributes of the authority x, their keys are made by x, and the authority y opens the ciphertext. *)
Theorem C136_bdabe_refuted : exists (pk : bd_pk ZC) msk i As apks ct j y j' t,
  bd_setup (C := ZC) (ztape 3) 0 = Ok (pk, msk, i) /\ Forall (bd_authority pk msk) As /\ Forall (fun A => bau_name A = "x") As /\
  Forall (bd_pk_issued pk As) apks /\ bd_encrypt nc pk apks PX HumanPolicy "m" one 0 = Ok (ct, j) /\
  parse PX HumanPolicy = Ok (tree fX) /\ forallb (fun n => negb (from_authority n "y")) (names fX) = true /\
  bd_authgen pk msk "y" (ztape 5) 0 = Ok (y, j') /\ In t (Bdabe.bct_j ct) /\
  bd_authority_opens y t (Bdabe.bct_data ct) = Ok "m".
Proof.
  destruct bd_example as (pk & msk & i & apks & ct & j & Hs & Hp & He & Hl & _).
  destruct (Bdabe.bct_j ct) as [|t l] eqn:E; [discriminate|]. destruct (bd_authgen_runs pk msk "y" (ztape 5) 0) as (y & j' & Hy).
  assert (X : exists As, Forall (bd_authority pk msk) As /\ Forall (fun A => bau_name A = "x") As /\ Forall (bd_pk_issued pk As) apks).
  { unfold bd_published in Hp. assert (Hn : Forall (fun r => fst (fst r) = "x") three_keys) by (repeat constructor).
    clear - Hp Hn. induction Hp as [|r k rs ks (au & j & Ha & Hk) _ IH]; [exists []; repeat constructor|].
    inversion Hn as [|? ? N1 N2]; subst. destruct (IH N2) as (As & I1 & I2 & I3). exists (au :: As). repeat apply conj.
    - constructor; [do 4 eexists; exact Ha|exact I1].
    - constructor; [|exact I2]. apply EquationProofs.bd_authgen_eq in Ha as (_ & -> & _). exact N1.
    - constructor; [exists au, (snd r); split; [now left|exact Hk]|].
      revert I3. apply Forall_impl. intros q (A & n & I & H). exists A, n. split; [now right|exact H]. }
  destruct X as (As & X1 & X2 & X3). exists pk, msk, i, As, apks, ct, j, y, j', t. rewrite E.
  split; [exact Hs|]. split; [exact X1|]. split; [exact X2|]. split; [exact X3|]. split; [exact He|].
  split; [vm_compute; reflexivity|]. split; [vm_compute; reflexivity|]. split; [exact Hy|]. split; [now left|].
  refine (bd_authority_opens_all ZL _ _ _ _ _ _ _ _ _ _ _ _ _ _ _ _ _ _ _ _ _ Hs X3 He eq_refl _ Hy). rewrite E. now left.
Qed.
Print Assumptions C136_bdabe_refuted.

