(** * PropertiesSerde: C120 to C122: keys and ciphertexts under the feature "serde"

    Every statement is written out in full; the proofs are in SerdeProofs.v, SerdeTypes.v,
    SerdeExact.v and SerdeConsole.v. *)
From Coq Require Import String Ascii List Bool Arith NArith ZArith Lia Permutation.
From Verif Require Import Base Crypto Policy Tools Sharing Spec Parse Poly CoreProofs SharingProofs SchemeLib Files FilesProofs
  Bdabe Mke08 Bsw Ghw11 Lsw Yct14 Ac17 Aw11 Instance Sessions Witnesses
  Borsh BorshProofs Console ConsoleProofs ConsoleWitnesses Serde SerdeProofs SerdeTypes SerdeExact SerdeConsole.
Import ListNotations.
Local Open Scope string_scope.

(** C120. Every value whose texts are UTF-8 and whose lengths are below 2^64 is read back from
    its own bytes, in every mode of writing and of reading. *)
Theorem C120_bsw :
  forall (C : crypto) (W : swire C) (M M' : mode),
  swire_ok W ->
  (forall x : bsw_pk C, read_as (s_bsw_pk W M) (s_bsw_pk W M') x x) /\
  (forall x : bsw_msk C, read_as (s_bsw_msk W M) (s_bsw_msk W M') x x) /\
  (forall x : bsw_ct C, wf_bsw_ct x -> read_as (s_bsw_ct W M) (s_bsw_ct W M') x x) /\
  (forall x : bsw_sk C, wf_bsw_sk x -> read_as (s_bsw_sk W M) (s_bsw_sk W M') x x).
Proof. exact @bsw_serde. Qed.
Print Assumptions C120_bsw.

Theorem C120_ghw :
  forall (C : crypto) (W : swire C) (M M' : mode),
  swire_ok W ->
  (forall x : ghw_pk C, read_as (s_ghw_pk W M) (s_ghw_pk W M') x x) /\
  (forall x : ghw_msk C, read_as (s_ghw_msk W M) (s_ghw_msk W M') x x) /\
  (forall x : ghw_sk C, wf_ghw_sk x -> read_as (s_ghw_sk W M) (s_ghw_sk W M') x x) /\
  (forall x : ghw_tk C, wf_ghw_tk x -> read_as (s_ghw_tk W M) (s_ghw_tk W M') x x) /\
  (forall x : F C, read_as (s_ghw_rk W M) (s_ghw_rk W M') x x) /\
  (forall x : ghw_ct C, wf_ghw_ct x -> read_as (s_ghw_ct W M) (s_ghw_ct W M') x x) /\
  (forall x : ghw_tct C, read_as (s_ghw_tct W M) (s_ghw_tct W M') x x).
Proof. exact @ghw_serde. Qed.
Print Assumptions C120_ghw.

Theorem C120_lsw :
  forall (C : crypto) (W : swire C) (M M' : mode),
  swire_ok W ->
  (forall x : lsw_pk C, read_as (s_lsw_pk W M) (s_lsw_pk W M') x x) /\
  (forall x : lsw_msk C, read_as (s_lsw_msk W M) (s_lsw_msk W M') x x) /\
  (forall x : lsw_sk C, wf_lsw_sk x -> read_as (s_lsw_sk W M) (s_lsw_sk W M') x x) /\
  (forall x : lsw_ct C, wf_lsw_ct x -> read_as (s_lsw_ct W M) (s_lsw_ct W M') x x).
Proof. exact @lsw_serde. Qed.
Print Assumptions C120_lsw.

Theorem C120_yct :
  forall (C : crypto) (W : swire C) (M M' : mode),
  swire_ok W ->
  (forall x : yct_pk C, wf_yct_pk x -> read_as (s_yct_pk W M) (s_yct_pk W M') x x) /\
  (forall x : yct_msk C, wf_yct_msk x -> read_as (s_yct_msk W M) (s_yct_msk W M') x x) /\
  (forall x : yct_sk C, wf_yct_sk x -> read_as (s_yct_sk W M) (s_yct_sk W M') x x) /\
  (forall x : yct_ct C, wf_yct_ct x -> read_as (s_yct_ct W M) (s_yct_ct W M') x x).
Proof. exact @yct_serde. Qed.
Print Assumptions C120_yct.

Theorem C120_ac17 :
  forall (C : crypto) (W : swire C) (M M' : mode),
  swire_ok W ->
  (forall x : ac_pk C, wf_ac_pk x -> read_as (s_ac_pk W M) (s_ac_pk W M') x x) /\
  (forall x : ac_msk C, wf_ac_msk x -> read_as (s_ac_msk W M) (s_ac_msk W M') x x) /\
  (forall x : ac_ct C, wf_ac_ct x -> read_as (s_ac_ct W M) (s_ac_ct W M') x x) /\
  (forall x : ac_cpct C, wf_ac_cpct x -> read_as (s_ac_cpct W M) (s_ac_cpct W M') x x) /\
  (forall x : ac_kpct C, wf_ac_kpct x -> read_as (s_ac_kpct W M) (s_ac_kpct W M') x x) /\
  (forall x : ac_sk C, wf_ac_sk x -> read_as (s_ac_sk W M) (s_ac_sk W M') x x) /\
  (forall x : ac_kpsk C, wf_ac_kpsk x -> read_as (s_ac_kpsk W M) (s_ac_kpsk W M') x x) /\
  (forall x : ac_cpsk C, wf_ac_cpsk x -> read_as (s_ac_cpsk W M) (s_ac_cpsk W M') x x).
Proof. exact @ac17_serde. Qed.
Print Assumptions C120_ac17.

Theorem C120_aw11 :
  forall (C : crypto) (W : swire C) (M M' : mode),
  swire_ok W ->
  (forall x : aw_gk C, read_as (s_aw_gk W M) (s_aw_gk W M') x x) /\
  (forall x : aw_pk C, wf_aw_pk x -> read_as (s_aw_pk W M) (s_aw_pk W M') x x) /\
  (forall x : aw_msk C, wf_aw_msk x -> read_as (s_aw_msk W M) (s_aw_msk W M') x x) /\
  (forall x : aw_ct C, wf_aw_ct x -> read_as (s_aw_ct W M) (s_aw_ct W M') x x) /\
  (forall x : aw_sk C, wf_aw_sk x -> read_as (s_aw_sk W M) (s_aw_sk W M') x x).
Proof. exact @aw11_serde. Qed.
Print Assumptions C120_aw11.

Theorem C120_bdabe :
  forall (C : crypto) (W : swire C) (M M' : mode),
  swire_ok W ->
  (forall x : bd_pk C, read_as (s_bd_pk W M) (s_bd_pk W M') x x) /\
  (forall x : bd_msk C, read_as (s_bd_msk W M) (s_bd_msk W M') x x) /\
  (forall x : bd_upk C, wf_bd_upk x -> read_as (s_bd_upk W M) (s_bd_upk W M') x x) /\
  (forall x : bd_usk C, read_as (s_bd_usk W M) (s_bd_usk W M') x x) /\
  (forall x : bd_ask C, wf_bd_ask x -> read_as (s_bd_ask W M) (s_bd_ask W M') x x) /\
  (forall x : bd_uk C, wf_bd_uk x -> read_as (s_bd_uk W M) (s_bd_uk W M') x x) /\
  (forall x : bd_apk C, wf_bd_apk x -> read_as (s_bd_apk W M) (s_bd_apk W M') x x) /\
  (forall x : bd_auth C, wf_bd_auth x -> read_as (s_bd_auth W M) (s_bd_auth W M') x x) /\
  (forall x : bd_ct C, wf_bd_ct x -> read_as (s_bd_ct W M) (s_bd_ct W M') x x).
Proof. exact @bdabe_serde. Qed.
Print Assumptions C120_bdabe.

Theorem C120_mke08 :
  forall (C : crypto) (W : swire C) (M M' : mode),
  swire_ok W ->
  (forall x : mk_pk C, read_as (s_mk_pk W M) (s_mk_pk W M') x x) /\
  (forall x : mk_msk C, read_as (s_mk_msk W M) (s_mk_msk W M') x x) /\
  (forall x : mk_upk C, wf_mk_upk x -> read_as (s_mk_upk W M) (s_mk_upk W M') x x) /\
  (forall x : mk_usk C, read_as (s_mk_usk W M) (s_mk_usk W M') x x) /\
  (forall x : mk_auth C, wf_mk_auth x -> read_as (s_mk_auth W M) (s_mk_auth W M') x x) /\
  (forall x : mk_apk C, wf_mk_apk x -> read_as (s_mk_apk W M) (s_mk_apk W M') x x) /\
  (forall x : mk_ask C, wf_mk_ask x -> read_as (s_mk_ask W M) (s_mk_ask W M') x x) /\
  (forall x : mk_uk C, wf_mk_uk x -> read_as (s_mk_uk W M) (s_mk_uk W M') x x) /\
  (forall x : mk_ct C, wf_mk_ct x -> read_as (s_mk_ct W M) (s_mk_ct W M') x x).
Proof. exact @mke08_serde. Qed.
Print Assumptions C120_mke08.

Example C120_example_wire : swire_ok zswire.
Proof. exact zswire_ok. Qed.
Example C120_example :
  let ct := BswCt ("A and B", HumanPolicy) (zmk 3 : G1 ZC) (zmk 500 : GT ZC)
              [BAttr "A_1" (zmk 7 : G1 ZC) (zmk 8 : G2 ZC)] "payload" in
  wf_bsw_ct ct /\
  to_cbor (s_bsw_ct zswire (Mode true false false)) ct <> to_cbor (s_bsw_ct zswire (Mode false false false)) ct /\
  read_as (s_bsw_ct zswire (Mode true false false)) (s_bsw_ct zswire (Mode false false false)) ct ct.
Proof.
  cbv zeta. assert (H : wf_bsw_ct (BswCt ("A and B", HumanPolicy) (zmk 3 : G1 ZC) (zmk 500 : GT ZC)
              [BAttr "A_1" (zmk 7 : G1 ZC) (zmk 8 : G2 ZC)] "payload")).
  { split; [split; reflexivity|]. split; [split; [reflexivity|]|reflexivity].
    constructor; [split; reflexivity|constructor]. }
  split; [exact H|]. split; [vm_compute; discriminate|].
  exact (proj1 (proj2 (proj2 (bsw_serde ZC zswire (Mode true false false) (Mode false false false) zswire_ok))) _ H).
Qed.
(** C120, YCT14: unlike under borsh (C66) the values of the attributes survive. *)
Example C120_example_yct :
  let pk := YctPk (zmk 5 : GT ZC) [YAttr "A" (Some (YPub (zmk 9 : GT ZC))); YAttr "B" None] in
  wf_yct_pk pk /\ read_as (s_yct_pk zswire (Mode true false true)) (s_yct_pk zswire (Mode true false false)) pk pk.
Proof.
  cbv zeta. assert (H : wf_yct_pk (YctPk (zmk 5 : GT ZC) [YAttr "A" (Some (YPub (zmk 9 : GT ZC))); YAttr "B" None])).
  { split; [reflexivity|]. repeat constructor. }
  split; [exact H|].
  exact (proj1 (yct_serde ZC zswire (Mode true false true) (Mode true false false) zswire_ok) _ H).
Qed.

(** C120. The bytes of two values are different, and no other bytes may follow or be missing,
    whatever is read from them. *)
Theorem C120_cut :
  forall (A B : Type) (P : A -> Prop) (d : nat) (s : sd A) (s' : sd B) (v : A) (p q : string),
  sgood P d s -> d <= max_depth -> P v -> to_cbor s v = p ++ q -> q <> "" -> from_cbor s' p = Err.
Proof. exact @cut_refused. Qed.
Print Assumptions C120_cut.
Theorem C120_longer :
  forall (A B : Type) (P : A -> Prop) (d : nat) (s : sd A) (s' : sd B) (v : A) (q : string),
  sgood P d s -> d <= max_depth -> P v -> q <> "" -> from_cbor s' (to_cbor s v ++ q) = Err.
Proof. exact @longer_refused. Qed.
Print Assumptions C120_longer.
Example C120_example_good : sgood wf_bsw_sk 67 (s_bsw_sk zswire (Mode true false false)) /\ 67 <= max_depth.
Proof. split; [apply bsw_sk_sgood, zswire_ok|apply leb_ok; reflexivity]. Qed.

(** C120. [Vec<u8>] takes one byte per value below 24 and two for the others. *)
Theorem C120_bytes_size :
  forall d : string, String.length (to_cbor s_bytes d) =
    String.length (head 4 (N.of_nat (String.length d))) + String.length d + twos d.
Proof. exact bytes_len. Qed.
Print Assumptions C120_bytes_size.

(** C121 is false: a struct is accepted with its entries in any order, and with further ones. *)
Theorem C121_order :
  forall (A B : Type) (M : mode) (fl : fields A) (f : B -> A) (g : A -> B) (es es' : list (val * val)),
  holds max_depth (VMap es) -> Permutation es es' ->
  from_cbor (s_struct M fl f g) (put (VMap es')) = from_cbor (s_struct M fl f g) (put (VMap es)).
Proof. exact @serde_order. Qed.
Print Assumptions C121_order.
Theorem C121_extra :
  forall (A B : Type) (M : mode) (fl : fields A) (f : B -> A) (g : A -> B) (k v : val) (es1 es2 : list (val * val)),
  holds max_depth (VMap (es1 ++ (k, v) :: es2)%list) -> which (f_names fl) k = Some None ->
  from_cbor (s_struct M fl f g) (put (VMap (es1 ++ (k, v) :: es2)%list)) =
  from_cbor (s_struct M fl f g) (put (VMap (es1 ++ es2)%list)).
Proof. exact @serde_extra. Qed.
Print Assumptions C121_extra.
Theorem C121_one_form_refuted :
  exists (k : bsw_sk ZC) (b1 b2 : string),
    let s := s_bsw_sk zswire (Mode true false false) in
    wf_bsw_sk k /\ b1 <> to_cbor s k /\ b2 <> to_cbor s k /\ b1 <> b2 /\
    from_cbor s b1 = Ok k /\ from_cbor s b2 = Ok k.
Proof.
  exists (BswSk (zmk 4 : G2 ZC) []), (put (VMap [(VU 1, VArr []); (VU 0, VU 4)])),
    (put (VMap [(VU 0, VU 4); (VU 1, VArr []); (VText "comment", VText "x")])).
  cbv zeta. split; [split; [reflexivity|constructor]|].
  split; [vm_compute; discriminate|]. split; [vm_compute; discriminate|]. split; [vm_compute; discriminate|].
  split; (rewrite from_put; [reflexivity|apply (holds_mono 2); [apply leb_ok; reflexivity|repeat split; repeat constructor]]).
Qed.
Print Assumptions C121_one_form_refuted.

(** C121. An entry that comes twice or a field that is missing is an error. *)
Theorem C121_twice :
  forall (A B : Type) (M : mode) (fl : fields A) (f : B -> A) (g : A -> B) (k k' : val) (i : nat) (v v' : val)
    (es1 es2 es3 : list (val * val)),
  holds max_depth (VMap (es1 ++ (k, v) :: es2 ++ (k', v') :: es3)%list) ->
  which (f_names fl) k = Some (Some i) -> which (f_names fl) k' = Some (Some i) ->
  from_cbor (s_struct M fl f g) (put (VMap (es1 ++ (k, v) :: es2 ++ (k', v') :: es3)%list)) = Err.
Proof. exact @serde_twice. Qed.
Print Assumptions C121_twice.
Theorem C121_missing :
  forall (A B : Type) (M : mode) (fl : fields A) (f : B -> A) (g : A -> B) (i : nat) (es : list (val * val)),
  holds max_depth (VMap es) -> strict fl -> i < List.length (f_names fl) ->
  ~ means (f_names fl) i es -> from_cbor (s_struct M fl f g) (put (VMap es)) = Err.
Proof. exact @serde_missing. Qed.
Print Assumptions C121_missing.
Example C121_example :
  let fl := f_and (f_one "d" s_zp) (f_one "d_j" (s_list s_zp)) in
  strict fl /\ which (f_names fl) (VU 1) = Some (Some 1) /\ which (f_names fl) (VText "d_j") = Some (Some 1) /\
  which (f_names fl) (VU 2) = Some None /\ which (f_names fl) (VText "e") = Some None /\
  ~ means (f_names fl) 1 [(VU 0, VU 4)].
Proof.
  cbv zeta. split; [apply and_strict; apply one_strict; reflexivity|].
  repeat (split; [reflexivity|]). intros (k & v & [I|[]] & H). injection I as <- <-. discriminate.
Qed.

(** C121. In the packed form that rabe-console writes, keys of one scheme are accepted as keys of
    another; with the names of the fields they are not. *)
Theorem C121_packed_mixup :
  forall (C : crypto) (W : swire C) (M M' : mode),
  swire_ok W -> packed M = true ->
  (forall k : mk_pk C, read_as (s_mk_pk W M) (s_bd_pk W M') k
     (BdPk (mpk_g1 k) (mpk_g2 k) (mpk_p1 k) (mpk_p2 k) (mpk_egg1 k))) /\
  (forall k : bd_pk C, read_as (s_bd_pk W M) (s_bsw_pk W M') k
     (BswPk (Bdabe.bpk_g1 k) (Bdabe.bpk_g2 k) (Bdabe.bpk_p1 k) (Bdabe.bpk_p2 k) (Bdabe.bpk_egg k))) /\
  (forall k : bsw_pk C, read_as (s_bsw_pk W M) (s_ghw_pk W M') k
     (GhwPk (bpk_g1 k) (bpk_g2 k) (bpk_h k) (bpk_f k) (bpk_egg k))) /\
  (forall k : yct_msk C, wf_yct_msk k -> read_as (s_yct_msk W M) (s_bd_msk W M') k (BdMsk (ymsk_s k))) /\
  (forall k : mk_msk C, read_as (s_mk_msk W M) (s_aw_gk W M') k (AwGk (mmsk_g1 k) (mmsk_g2 k))).
Proof. exact @packed_mixup. Qed.
Print Assumptions C121_packed_mixup.
Theorem C121_named_no_mixup :
  forall (C : crypto) (W : swire C) (M M' : mode),
  swire_ok W -> required W -> packed M = false ->
  (forall k : mk_pk C, from_cbor (s_bd_pk W M') (to_cbor (s_mk_pk W M) k) = Err) /\
  (forall k : bd_pk C, from_cbor (s_bsw_pk W M') (to_cbor (s_bd_pk W M) k) = Err) /\
  (forall k : bsw_pk C, from_cbor (s_ghw_pk W M') (to_cbor (s_bsw_pk W M) k) = Err) /\
  (forall k : yct_msk C, wf_yct_msk k -> from_cbor (s_bd_msk W M') (to_cbor (s_yct_msk W M) k) = Err).
Proof. exact @named_no_mixup. Qed.
Print Assumptions C121_named_no_mixup.
Theorem C121_one_type_refuted :
  exists (k : mk_pk ZC) (k' : bd_pk ZC), swire_ok zswire /\ required zswire /\
    read_as (s_mk_pk zswire (Mode true false false)) (s_bd_pk zswire (Mode true false false)) k k'.
Proof.
  exists (MkPk (zmk 2 : G1 ZC) (zmk 3 : G2 ZC) (zmk 4 : G1 ZC) (zmk 5 : G2 ZC) (zmk 6 : GT ZC) (zmk 7 : GT ZC)). eexists.
  split; [exact zswire_ok|]. split; [exact zswire_required|].
  apply (proj1 (packed_mixup ZC zswire (Mode true false false) (Mode true false false) zswire_ok eq_refl)).
Qed.
Print Assumptions C121_one_type_refuted.

(** C122. A file that the console wrote is read back; a ciphertext that it stored as a [Result]
    is not. *)
Theorem C122_files :
  forall (C : crypto) (E : env C),
  env_ok E ->
  forall (A : Type) (s : sd A) (p : string) (v : A) (w : string) (d d' : fs),
  In w labels -> readable d p -> read_as s s v v ->
  store E p (c_cbor s) v w d = (d', Ok tt) -> ser_dec E (c_cbor s) p d' = (d', Ok v).
Proof. exact @serde_files. Qed.
Print Assumptions C122_files.
Theorem C122_results :
  forall (C : crypto) (W : swire C) (M : mode),
  swire_ok W -> required W ->
  (forall x : bsw_ct C, wf_bsw_ct x -> from_cbor (s_bsw_ct W M) (to_cbor (s_result M (s_bsw_ct W M)) (inl x)) = Err) /\
  (forall x : lsw_ct C, wf_lsw_ct x -> from_cbor (s_lsw_ct W M) (to_cbor (s_result M (s_lsw_ct W M)) (inl x)) = Err) /\
  (forall x : aw_ct C, wf_aw_ct x -> from_cbor (s_aw_ct W M) (to_cbor (s_result M (s_aw_ct W M)) (inl x)) = Err) /\
  (forall x : bd_ct C, wf_bd_ct x -> from_cbor (s_bd_ct W M) (to_cbor (s_result M (s_bd_ct W M)) (inl x)) = Err) /\
  (forall x : mk_ct C, wf_mk_ct x -> from_cbor (s_mk_ct W M) (to_cbor (s_result M (s_mk_ct W M)) (inl x)) = Err).
Proof. exact @results_refused. Qed.
Print Assumptions C122_results.
Theorem C122_result_file :
  forall (C : crypto) (E : env C),
  env_ok E ->
  forall (A : Type) (s : sd A) (M : mode) (p : string) (v : A) (d d' : fs),
  readable d p -> from_cbor s (to_cbor (s_result M s) (inl v)) = Err ->
  isave p (begin_ "CT" ++ to_hex (e_deflate E (to_cbor (s_result M s) (inl v))) ++ end_ "CT") d = (d', Ok tt) ->
  ser_dec E (c_cbor s) p d' = (d', Err).
Proof. exact @serde_result_file. Qed.
Print Assumptions C122_result_file.
Example C122_example_result :
  exists ct : bsw_ct ZC, wf_bsw_ct ct /\
    from_cbor (s_bsw_ct zswire (Mode true false false))
      (to_cbor (s_result (Mode true false false) (s_bsw_ct zswire (Mode true false false))) (inl ct)) = Err.
Proof.
  exists (BswCt ("A", HumanPolicy) (zmk 3 : G1 ZC) (zmk 500 : GT ZC) [] "payload").
  assert (H : wf_bsw_ct (BswCt ("A", HumanPolicy) (zmk 3 : G1 ZC) (zmk 500 : GT ZC) [] "payload"))
    by (repeat split; constructor).
  split; [exact H|].
  exact (proj1 (results_refused ZC zswire (Mode true false false) zswire_ok zswire_required) _ H).
Qed.

(** C122. YCT14 works with every value passed on in bytes, for attributes and policies in UTF-8. *)
Theorem C122_yct_session :
  forall C : crypto, laws C -> forall (W : swire C), swire_ok W ->
  forall (M1 M2 M3 M4 N1 N2 N3 N4 : mode) (nonce : string) (U : list string) (pk : yct_pk C) (msk : yct_msk C)
    (attrs : list string) (sk : yct_sk C) (pol : string) (lang : language) (data : string) (ct : yct_ct C)
    (f : formula) (ts : nat -> F C) (is js : nat) (tk : nat -> F C) (ik jk : nat) (te : nat -> F C) (ie je : nat),
  parse pol lang = Ok (tree f) ->
  wall wtext U -> wall wtext attrs -> wtext pol -> fits64 (List.length (leaves f)) ->
  yct_setup U ts is = Ok (pk, msk, js) ->
  exists (pk' : yct_pk C) (msk' : yct_msk C),
    from_cbor (s_yct_pk W N1) (to_cbor (s_yct_pk W M1) pk) = Ok pk' /\
    from_cbor (s_yct_msk W N2) (to_cbor (s_yct_msk W M2) msk) = Ok msk' /\
    (yct_keygen msk' pol lang tk ik = Ok (sk, jk) ->
     yct_encrypt nonce pk' attrs data te ie = Ok (ct, je) -> wbytes (yct_data ct) ->
     exists (sk' : yct_sk C) (ct' : yct_ct C),
       from_cbor (s_yct_sk W N3) (to_cbor (s_yct_sk W M3) sk) = Ok sk' /\
       from_cbor (s_yct_ct W N4) (to_cbor (s_yct_ct W M4) ct) = Ok ct' /\
       (String.length nonce = 12%nat -> arity2 f = true -> NoDup (names f) -> plain_names f = true ->
        small_ok C (and_width f) -> sat (owns attrs) f = true -> yct_decrypt sk' ct' = Ok data)).
Proof. exact @yct_serde_session. Qed.
Print Assumptions C122_yct_session.
Example C122_example :
  exists f, parse P HumanPolicy = Ok (tree f) /\ wall wtext ["A"; "B"; "C"; "D"] /\ wall wtext ["C"; "A"; "D"] /\
    wtext P /\ fits64 (List.length (leaves f)) /\ sat (owns ["C"; "A"; "D"]) f = true /\
  exists (pk : yct_pk ZC) msk sk ct ts i1 i2 i3,
    yct_setup ["A"; "B"; "C"; "D"] ts 0 = Ok (pk, msk, i1) /\
    yct_keygen msk P HumanPolicy ts i1 = Ok (sk, i2) /\
    yct_encrypt nc pk ["C"; "A"; "D"] "hello" ts i2 = Ok (ct, i3) /\
    yct_decrypt sk ct = Ok "hello".
Proof.
  exists fP. split; [reflexivity|]. split; [split; [reflexivity|repeat constructor]|].
  split; [split; [reflexivity|repeat constructor]|]. split; [split; reflexivity|]. split; [reflexivity|]. split; [reflexivity|].
  by_run (Sessions.yct_session (C := ZC) nc ["A"; "B"; "C"; "D"] P HumanPolicy ["C"; "A"; "D"] "hello") (Ok "hello").
Qed.
