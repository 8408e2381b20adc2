(** * PropertiesFurther: C93, C94: the binary files; who opens a BDABE or MKE08
    ciphertext

    Every statement is written out in full; the proofs are in BorshExact.v and
    DnfExact.v. *)
From Coq Require Import String Ascii List Bool Arith NArith ZArith Lia.
From Verif Require Import Base Crypto Policy Tools Spec Parse Symmetric Instance
  Borsh BorshProofs BorshExact ConsoleWitnesses DnfProofs DnfExact
  Bdabe BdabeProofs Mke08 Mke08Proofs Sessions Witnesses.
Import ListNotations.
Local Open Scope string_scope.

(** C93: [faithful P c] (BorshExact.v): a text is read as [v] exactly when [P v]
    and the text is the one written for [v], and no file is the beginning of
    another. *)
Theorem C93_bsw :
  forall (C : crypto) (W : wire C), wire_ok W -> wire_tight W ->
  faithful (fun _ => True) (c_bsw_pk W) /\ faithful (fun _ => True) (c_bsw_msk W) /\
  faithful wf_bsw_sk (c_bsw_sk W) /\ faithful wf_bsw_ct (c_bsw_ct W).
Proof. exact @bsw_exact. Qed.
Print Assumptions C93_bsw.

Theorem C93_lsw :
  forall (C : crypto) (W : wire C), wire_ok W -> wire_tight W ->
  faithful (fun _ => True) (c_lsw_pk W) /\ faithful (fun _ => True) (c_lsw_msk W) /\
  faithful wf_lsw_sk (c_lsw_sk W) /\ faithful wf_lsw_ct (c_lsw_ct W).
Proof. exact @lsw_exact. Qed.
Print Assumptions C93_lsw.

Theorem C93_ac17 :
  forall (C : crypto) (W : wire C), wire_ok W -> wire_tight W ->
  faithful wf_ac_pk (c_ac_pk W) /\ faithful wf_ac_msk (c_ac_msk W) /\
  faithful wf_ac_cpsk (c_ac_cpsk W) /\ faithful wf_ac_kpsk (c_ac_kpsk W) /\
  faithful wf_ac_cpct (c_ac_cpct W) /\ faithful wf_ac_kpct (c_ac_kpct W).
Proof. exact @ac17_exact. Qed.
Print Assumptions C93_ac17.

Theorem C93_aw11 :
  forall (C : crypto) (W : wire C), wire_ok W -> wire_tight W ->
  faithful (fun _ => True) (c_aw_gk W) /\ faithful wf_aw_pk (c_aw_pk W) /\
  faithful wf_aw_msk (c_aw_msk W) /\ faithful wf_aw_sk (c_aw_sk W) /\ faithful wf_aw_ct (c_aw_ct W).
Proof. exact @aw11_exact. Qed.
Print Assumptions C93_aw11.

Theorem C93_bdabe :
  forall (C : crypto) (W : wire C), wire_ok W -> wire_tight W ->
  faithful (fun _ => True) (c_bd_pk W) /\ faithful (fun _ => True) (c_bd_msk W) /\
  faithful wf_bd_auth (c_bd_auth W) /\ faithful wf_bd_apk (c_bd_apk W) /\
  faithful wf_bd_ask (c_bd_ask W) /\ faithful wf_bd_uk (c_bd_uk W) /\ faithful wf_bd_ct (c_bd_ct W).
Proof. exact @bdabe_exact. Qed.
Print Assumptions C93_bdabe.

Theorem C93_mke08 :
  forall (C : crypto) (W : wire C), wire_ok W -> wire_tight W ->
  faithful (fun _ => True) (c_mk_pk W) /\ faithful (fun _ => True) (c_mk_msk W) /\
  faithful wf_mk_auth (c_mk_auth W) /\ faithful wf_mk_apk (c_mk_apk W) /\
  faithful wf_mk_ask (c_mk_ask W) /\ faithful wf_mk_uk (c_mk_uk W) /\ faithful wf_mk_ct (c_mk_ct W).
Proof. exact @mke08_exact. Qed.
Print Assumptions C93_mke08.

(** For YCT14 the values read carry names only. *)
Theorem C93_yct14 :
  forall (C : crypto) (W : wire C), wire_ok W -> wire_tight W ->
  faithful wf_yct_pk (c_yct_pk W) /\ faithful wf_yct_msk (c_yct_msk W) /\
  faithful (@wf_yct_sk C) c_yct_sk /\ faithful (@wf_yct_ct C) c_yct_ct.
Proof. exact @yct14_exact. Qed.
Print Assumptions C93_yct14.

Theorem C93_damaged :
  forall (A : Type) (P : A -> Prop) (c : codec A) (s : string) (v : A),
  faithful P c -> try_from_slice c s = Ok v ->
  (forall s', try_from_slice c s' = Ok v -> s' = s) /\
  (forall a b, s = a ++ b -> b <> "" -> try_from_slice c a = Err) /\
  (forall b, b <> "" -> try_from_slice c (s ++ b) = Err).
Proof. exact @faithful_file. Qed.
Print Assumptions C93_damaged.

Theorem C93_no_panic : forall (A : Type) (c : codec A) (s : string), try_from_slice c s <> Panic.
Proof. exact @slice_no_panic. Qed.
Print Assumptions C93_no_panic.

Lemma c_zp_tight : tight (fun _ => True) c_zp.
Proof.
  intros s v r H. split; [exact I|]. cbn [dec_ c_zp] in H. destruct s as [|a [|b s]]; try discriminate.
  cbn [zp_dec] in H. pose proof (N_ascii_bounded a) as Ba. pose proof (N_ascii_bounded b) as Bb.
  set (n := (N_of_ascii a + 256 * N_of_ascii b)%N) in *.
  destruct (N.ltb_spec n 1009) as [Hn|]; [|discriminate]. injection H as <- <-.
  eexists. split; [reflexivity|]. change (zval (zmk (Z.of_N n))) with (Z.of_N n mod p0)%Z. unfold p0.
  rewrite Z.mod_small, N2Z.id by lia. unfold n. cbn [append].
  replace ((N_of_ascii a + 256 * N_of_ascii b) mod 256)%N with (N_of_ascii a)
    by (apply (N.mod_unique _ _ (N_of_ascii b)); lia).
  replace ((N_of_ascii a + 256 * N_of_ascii b) / 256)%N with (N_of_ascii b)
    by (apply (N.div_unique _ _ _ (N_of_ascii a)); lia).
  now rewrite !ascii_N_embedding.
Qed.

Example C93_example_wire : wire_ok zwire /\ wire_tight zwire.
Proof. split; [exact zwire_ok|]. repeat split; try exact I; apply c_zp_tight; assumption. Qed.

(** A file that is read; its beginnings and extensions are not. *)
Definition file93 : string :=
  String (ascii_of_nat 7) (String (ascii_of_nat 1)
   (String (ascii_of_nat 1) (String (ascii_of_nat 0) (String (ascii_of_nat 0) (String (ascii_of_nat 0)
   (String (ascii_of_nat 1) (String (ascii_of_nat 0) (String (ascii_of_nat 0) (String (ascii_of_nat 0)
     ("A" ++ String (ascii_of_nat 5) (String (ascii_of_nat 0)
             (String (ascii_of_nat 6) (String (ascii_of_nat 0) ""))))))))))))).

Example C93_example_read :
  (exists sk, try_from_slice (c_bsw_sk zwire) file93 = Ok sk /\ map Bsw.b_string (Bsw.bsk_dj sk) = ["A"]) /\
  try_from_slice (c_bsw_sk zwire) (file93 ++ "x") = Err.
Proof. split; [eexists; split; reflexivity|reflexivity]. Qed.

(** C94: [blocks ks f] (DnfExact.v) are the sets of attributes that open a
    ciphertext for the policy [f] made with public keys for the attributes [ks];
    the policy text [f'] stored with it may have been replaced. *)
Theorem C94_bd_access :
  forall C : crypto, laws C ->
  forall (pk : bd_pk C) (msk : bd_msk C) (As : list (bd_auth C)) (ts : nat -> F C) (is js : nat),
  bd_setup ts is = Ok (pk, msk, js) -> Forall (bd_authority pk msk) As -> bd_unique As ->
  forall (nonce pol data : string) (lang : language) (apks : list (bd_apk C)) (ct : bd_ct C)
    (te : nat -> F C) (ie je : nat) (f : formula),
  Forall (bd_pk_issued pk As) apks ->
  bd_encrypt nonce pk apks pol lang data te ie = Ok (ct, je) ->
  parse pol lang = Ok (tree f) -> String.length nonce = 12%nat ->
  forall (uk : bd_uk C) (ct' : bd_ct C) (f' : formula), bd_user pk As uk ->
  bct_j ct' = bct_j ct -> bct_data ct' = bct_data ct ->
  parse (fst (bct_policy ct')) (snd (bct_policy ct')) = Ok (tree f') ->
  bd_decrypt uk ct' =
    if (0 <? length (buk_ska uk))%nat && sat (owns (map bask_attr (buk_ska uk))) f' then
      if opens (map bapk_attr apks) (map bask_attr (buk_ska uk)) f then Ok data
      else decrypt_symmetric (gtone C) (bct_data ct)
    else Err.
Proof. exact @bd_access. Qed.
Print Assumptions C94_bd_access.

Theorem C94_mk_access :
  forall C : crypto, laws C ->
  forall (pk : mk_pk C) (msk : mk_msk C) (As : list (mk_auth C)) (ts : nat -> F C) (is js : nat),
  mk_setup ts is = Ok (pk, msk, js) -> mk_unique As ->
  forall (nonce pol data : string) (lang : language) (apks : list (mk_apk C)) (ct : mk_ct C)
    (te : nat -> F C) (ie je : nat) (f : formula),
  Forall (mk_pk_issued pk As) apks ->
  mk_encrypt nonce pk apks pol lang data te ie = Ok (ct, je) ->
  parse pol lang = Ok (tree f) -> String.length nonce = 12%nat ->
  forall (uk : mk_uk C) (ct' : mk_ct C) (f' : formula), mk_user pk msk As uk ->
  mct_e ct' = mct_e ct -> mct_data ct' = mct_data ct ->
  parse (fst (mct_policy ct')) (snd (mct_policy ct')) = Ok (tree f') ->
  mk_decrypt uk ct' =
    if (0 <? length (muk_ska uk))%nat && sat (owns (map mask_attr (muk_ska uk))) f' then
      if opens (map mapk_attr apks) (map mask_attr (muk_ska uk)) f then Ok data
      else decrypt_symmetric (gtone C) (mct_data ct)
    else Err.
Proof. exact @mk_access. Qed.
Print Assumptions C94_mk_access.

Theorem C94_opens_iff :
  forall (ks own : list string) (f : formula),
  opens ks own f = true <-> exists b, In b (blocks ks f) /\ incl b own.
Proof. exact opens_iff. Qed.
Print Assumptions C94_opens_iff.

(** With one key for each attribute and no conjunction after the first child,
    the ciphertext opens for exactly the users who satisfy the policy. *)
Theorem C94_opens_is_sat_partial :
  forall (ks own : list string) (f : formula),
  flat f = true -> no_empty_conjunction f -> no_late_conjunction f ->
  (forall n, In n (names f) -> once ks n) -> opens ks own f = sat (owns own) f.
Proof. exact opens_is_sat. Qed.
Print Assumptions C94_opens_is_sat_partial.

(** Otherwise the first attribute of a later conjunction is enough. *)
Theorem C94_opens_more :
  forall (ks : list string) (x : formula) (l : list formula) (c : formula) (a b : string) (r : list string),
  (forall n, In n (names (FOr (x :: l))) -> once ks n) -> names x <> [] ->
  In c l -> names c = a :: b :: r -> opens ks [a] (FOr (x :: l)) = true.
Proof. exact opens_more. Qed.
Print Assumptions C94_opens_more.

(** The access structure is not that of the policy. *)
Theorem C94_refuted : exists (ks own : list string) (f : formula),
  flat f = true /\ (forall n, In n (names f) -> once ks n) /\
  opens ks own f = true /\ sat (owns own) f = false.
Proof.
  exists ["x::A"; "x::B"; "x::C"], ["x::B"], fX. split; [reflexivity|]. split; [|split; reflexivity].
  intros n [<-|[<-|[<-|[]]]]; reflexivity.
Qed.
Print Assumptions C94_refuted.

Example C94_example_blocks :
  blocks ["x::A"; "x::B"; "x::C"; "x::D"] (FOr [FAnd [FLeaf "x::A" 2; FLeaf "x::B" 8]; FAnd [FLeaf "x::B" 14; FLeaf "x::C" 20; FLeaf "x::D" 26]]) =
    [["x::A"; "x::B"]; ["x::B"]; ["x::C"; "x::D"]] /\
  opens ["x::B"] ["x::A"] fX = false /\
  opens ["x::A"; "x::B"] ["x::A"] (FOr [FLeaf "x::A" 2; FLeaf "x::B" 8]) = true /\
  no_late_conjunction (FOr [FLeaf "x::A" 2; FLeaf "x::B" 8]) /\ no_empty_conjunction (FOr [FLeaf "x::A" 2; FLeaf "x::B" 8]).
Proof.
  split; [reflexivity|]. split; [reflexivity|]. split; [reflexivity|]. split; [repeat constructor|].
  repeat constructor; discriminate.
Qed.

(** A user who satisfies the policy but whose attribute had no key supplied. *)
Example C94_example_bd : exists (pk : bd_pk ZC) msk au uk apks asks ct ts i1 i2 i3 i4,
  bd_setup ts 0 = Ok (pk, msk, i1) /\ bd_authgen pk msk "x" ts i1 = Ok (au, i2) /\
  bd_keygen pk au "bob" ts i2 = Ok (uk, i3) /\
  omap (bd_request_pk pk au) ["x::B"] = Ok apks /\
  omap (bd_request_sk (buk_pk uk) au) ["x::A"] = Ok asks /\
  bd_encrypt nc pk apks PX HumanPolicy "hello" ts i3 = Ok (ct, i4) /\
  bd_decrypt (fold_left bd_add asks uk) ct = Err.
Proof.
  by_run (bd_session (C := ZC) nc "x" "bob" ["x::B"] ["x::A"] PX HumanPolicy "hello") (@Err string).
Qed.

Example C94_example_mk : exists (pk : mk_pk ZC) msk au uk apks asks ct ts i1 i2 i3 i4,
  mk_setup ts 0 = Ok (pk, msk, i1) /\ mk_keygen pk msk "bob" ts i1 = Ok (uk, i2) /\
  mk_authgen "x" ts i2 = Ok (au, i3) /\
  omap (fun a => mk_request_pk pk a au) ["x::B"] = Ok apks /\
  omap (fun a => mk_request_sk (muk_pk uk) a au) ["x::A"] = Ok asks /\
  mk_encrypt nc pk apks PX HumanPolicy "hello" ts i3 = Ok (ct, i4) /\
  mk_decrypt (fold_left mk_add asks uk) ct = Err.
Proof.
  by_run (mk_session (C := ZC) nc "x" "bob" ["x::B"] ["x::A"] PX HumanPolicy "hello") (@Err string).
Qed.
