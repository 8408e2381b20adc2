(** * PropertiesRobust: C79 to C82: the exact outcome on arbitrary inputs

    Every statement is written out in full; the proofs are in RobustProofs.v and TotalProofs.v. *)
From Coq Require Import String Ascii List Bool Arith ZArith Lia.
From Verif Require Import Base Crypto Policy Tools Sharing Spec Parse Symmetric Msp Dnf DnfProofs
  Bdabe Mke08 Bsw Ghw11 Lsw Yct14 Ac17 Ac17Proofs Aw11 TruncationProofs RobustProofs TotalProofs Instance Sessions Witnesses.
Import ListNotations.
Local Open Scope string_scope.

(** C79. Selecting the leaves to use aborts on exactly these policies and attributes. *)
Theorem C79_prune_aborts :
  forall (attrs : list string) (f : formula) (t : option ptype),
  calc_pruned attrs (tree f) t = Panic <-> aborts (owns attrs) f = true.
Proof. exact @aborts_exact. Qed.
Print Assumptions C79_prune_aborts.

Example C79_example_prune :
  aborts (owns ["A"]) fJ = true /\ aborts (owns ["A"; "B"]) fP = false /\
  aborts (owns ["A"]) (FOr [FLeaf "A" 2; FAnd [FLeaf "B" 9]]) = false /\
  aborts (owns ["B"]) (FOr [FLeaf "A" 2; FAnd [FLeaf "B" 9]]) = true /\
  picks (owns ["A"; "C"]) fP = [("A", 2); ("C", 18)].
Proof. vm_compute. repeat split. Qed.

(** C79, BSW. Keys and ciphertexts are arbitrary values. *)
Theorem C79_bsw_panics :
  forall C : crypto,
  laws C ->
  forall (sk : bsw_sk C) (ct : bsw_ct C) (f : formula),
  parse (fst (bct_policy ct)) (snd (bct_policy ct)) = Ok (tree f) ->
  bsw_decrypt sk ct = Panic <->
  map b_string (bsk_dj sk) <> [] /\
  sat (owns (map b_string (bsk_dj sk))) f = true /\
  (aborts (owns (map b_string (bsk_dj sk))) f = true \/ String.length (bct_data ct) < 12).
Proof. exact @bsw_panics. Qed.
Print Assumptions C79_bsw_panics.

Example C79_example_policy : parse P HumanPolicy = Ok (tree fP) /\ parse PJ JsonPolicy = Ok (tree fJ) /\
  sat (owns ["A"; "B"]) fP = true /\ sat (owns ["A"]) fJ = true.
Proof. vm_compute. repeat split. Qed.
Example C79_example_bsw : bsw_decrypt
  (BswSk (zmk 3 : G2 ZC) [BAttr "A" (zmk 7 : G1 ZC) (zmk 8 : G2 ZC)])
  (BswCt (PJ, JsonPolicy) (zmk 3 : G1 ZC) (zmk 5 : GT ZC) [] "a payload of many bytes") = Panic.
Proof.
  apply (C79_bsw_panics ZC ZL _ _ fJ); [vm_compute; reflexivity|].
  split; [discriminate|]. split; [reflexivity|]. left. reflexivity.
Qed.

(** C79, GHW11, the transformation. *)
Theorem C79_ghw_panics :
  forall C : crypto,
  laws C ->
  forall (tk : ghw_tk C) (ct : ghw_ct C) (f : formula),
  parse (fst (gct_policy ct)) (snd (gct_policy ct)) = Ok (tree f) ->
  ghw_transform ct tk = Panic <->
  map fst (gtk_attr tk) <> [] /\
  sat (owns (map fst (gtk_attr tk))) f = true /\
  (aborts (owns (map fst (gtk_attr tk))) f = true \/
   (exists (n : string) (p : nat),
      In (n, p) (picks (owns (map fst (gtk_attr tk))) f) /\
      ~ In (node_index n p) (map fst (gct_cidi ct)))).
Proof. exact @ghw_panics. Qed.
Print Assumptions C79_ghw_panics.

(** C79, GHW11, the last step. *)
Theorem C79_ghw_out_panics :
  forall (C : crypto) (pct : ghw_tct C) (z : F C) (data : string),
  ghw_decrypt_out pct z data = Panic <-> String.length data < 12.
Proof. exact @ghw_out_panics. Qed.
Print Assumptions C79_ghw_out_panics.

(** C79, LSW. *)
Theorem C79_lsw_panics :
  forall C : crypto,
  laws C ->
  forall (sk : lsw_sk C) (ct : lsw_ct C) (f : formula),
  parse (fst (lsk_policy sk)) (snd (lsk_policy sk)) = Ok (tree f) ->
  lsw_decrypt sk ct = Panic <->
  aborts (owns (map le_name (lct_ej ct))) f = true \/
  sat (owns (map le_name (lct_ej ct))) f = true /\
  ((exists (n : string) (p : nat),
      In (n, p) (picks (owns (map le_name (lct_ej ct))) f) /\
      (~ In n (map ld_name (lsk_dj sk)) \/ odd_start n)) \/ String.length (lct_ct ct) < 12).
Proof. exact @lsw_panics. Qed.
Print Assumptions C79_lsw_panics.

(** C79, YCT14. *)
Theorem C79_yct_panics :
  forall C : crypto,
  laws C ->
  forall (sk : yct_sk C) (ct : yct_ct C) (f : formula),
  parse (fst (ysk_policy sk)) (snd (ysk_policy sk)) = Ok (tree f) ->
  yct_decrypt sk ct = Panic <->
  aborts (owns (map y_name (yct_attrs ct))) f = true \/
  sat (owns (map y_name (yct_attrs ct))) f = true /\
  ((exists (n : string) (p : nat),
      In (n, p) (picks (owns (map y_name (yct_attrs ct))) f) /\
      (~ first_public (yct_attrs ct) n \/ ~ first_private (ysk_du sk) n)) \/
   String.length (yct_data ct) < 12).
Proof. exact @yct_panics. Qed.
Print Assumptions C79_yct_panics.

(** C79, AC17 in both forms. *)
Theorem C79_ac_panics :
  forall (C : crypto) (attrs : list string) (policy : string * language) 
    (sk : ac_sk C) (ct : ac_ct C) (kp : bool) (f : formula),
  parse (fst policy) (snd policy) = Ok (tree f) ->
  ac_open attrs policy sk ct kp = Panic <->
  attrs <> [] /\
  sat (owns attrs) f = true /\
  (aborts (owns attrs) f = true \/
   short_entry (act_c ct) (map fst (picks (owns attrs) f)) \/
   short_entry (ask_k sk) (map fst (picks (owns attrs) f)) \/
   kp = false /\ Datatypes.length (ask_kp sk) < 3 \/
   Datatypes.length (act_c0 ct) < 3 \/
   Datatypes.length (ask_k0 sk) < 3 \/ String.length (act_ct ct) < 12).
Proof. exact @ac_panics. Qed.
Print Assumptions C79_ac_panics.

(** C79, AW11. *)
Theorem C79_aw_panics :
  forall C : crypto,
  laws C ->
  forall (gk : aw_gk C) (sk : aw_sk C) (ct : aw_ct C) (f : formula),
  parse (fst (awct_policy ct)) (snd (awct_policy ct)) = Ok (tree f) ->
  aw_decrypt gk sk ct = Panic <->
  map fst (awsk_attr sk) <> [] /\
  sat (owns (map fst (awsk_attr sk))) f = true /\
  (aborts (owns (map fst (awsk_attr sk))) f = true \/
   (exists h : G1 C, sha3_hash_g1 (agk_g1 gk) (awsk_gid sk) = Ok h) /\
   ((exists (n : string) (p : nat),
       In (n, p) (picks (owns (map fst (awsk_attr sk))) f) /\
       ~ In (node_index n p) (map n4 (awct_c ct))) \/ String.length (awct_data ct) < 12)).
Proof. exact @aw_panics. Qed.
Print Assumptions C79_aw_panics.

(** C79, BDABE. *)
Theorem C79_bd_panics :
  forall (C : crypto) (sk : bd_uk C) (ct : bd_ct C) (f : formula),
  parse (fst (Bdabe.bct_policy ct)) (snd (Bdabe.bct_policy ct)) = Ok (tree f) ->
  bd_decrypt sk ct = Panic <->
  map bask_attr (buk_ska sk) <> [] /\
  sat (owns (map bask_attr (buk_ska sk))) f = true /\
  String.length (Bdabe.bct_data ct) < 12.
Proof. exact @bd_panics. Qed.
Print Assumptions C79_bd_panics.

(** C79, MKE08. *)
Theorem C79_mk_panics :
  forall (C : crypto) (sk : mk_uk C) (ct : mk_ct C) (f : formula),
  parse (fst (mct_policy ct)) (snd (mct_policy ct)) = Ok (tree f) ->
  mk_decrypt sk ct = Panic <->
  map mask_attr (muk_ska sk) <> [] /\
  sat (owns (map mask_attr (muk_ska sk))) f = true /\ String.length (mct_data ct) < 12.
Proof. exact @mk_panics. Qed.
Print Assumptions C79_mk_panics.

(** C79 is false for the other schemes: a ciphertext or key with a missing part aborts the
    program, although the policy is well formed and satisfied and the payload is long enough. *)
Theorem C79_ghw_total_refuted : exists (tk : ghw_tk ZC) ct f,
  parse (fst (gct_policy ct)) (snd (gct_policy ct)) = Ok (tree f) /\ arity2 f = true /\
  12 <= String.length (gct_data ct) /\ ghw_transform ct tk = Panic.
Proof.
  exists (GhwTk (zmk 3 : G2 ZC) (zmk 5 : G2 ZC) [("A", zmk 2 : G2 ZC); ("B", zmk 4 : G2 ZC)]).
  exists (GhwCt (P, HumanPolicy) (zmk 3 : GT ZC) (zmk 5 : G1 ZC) [] "a payload of many bytes"), fP.
  assert (E : parse P HumanPolicy = Ok (tree fP)) by (vm_compute; reflexivity).
  split; [exact E|]. split; [reflexivity|]. split; [cbn; lia|].
  apply (C79_ghw_panics ZC ZL _ _ fP); [exact E|]. split; [discriminate|]. split; [reflexivity|]. right.
  exists "A", 2. split; [left; reflexivity|]. intros [].
Qed.
Print Assumptions C79_ghw_total_refuted.

Theorem C79_lsw_total_refuted : exists (sk : lsw_sk ZC) ct f,
  parse (fst (lsk_policy sk)) (snd (lsk_policy sk)) = Ok (tree f) /\ arity2 f = true /\
  12 <= String.length (lct_ct ct) /\ lsw_decrypt sk ct = Panic.
Proof.
  exists (LswSk (P, HumanPolicy) []).
  exists (LswCt (zmk 3 : GT ZC) (zmk 5 : G2 ZC)
    [LswEj "A" (zmk 2 : G1 ZC) (zmk 3 : G1 ZC) (zmk 4 : G1 ZC); LswEj "B" (zmk 2 : G1 ZC) (zmk 3 : G1 ZC) (zmk 4 : G1 ZC)]
    "a payload of many bytes"), fP.
  assert (E : parse P HumanPolicy = Ok (tree fP)) by (vm_compute; reflexivity).
  split; [exact E|]. split; [reflexivity|]. split; [cbn; lia|].
  apply (C79_lsw_panics ZC ZL _ _ fP); [exact E|]. right. split; [reflexivity|]. left.
  exists "A", 2. split; [left; reflexivity|]. left. intros [].
Qed.
Print Assumptions C79_lsw_total_refuted.

Theorem C79_yct_total_refuted : exists (sk : yct_sk ZC) ct f,
  parse (fst (ysk_policy sk)) (snd (ysk_policy sk)) = Ok (tree f) /\ arity2 f = true /\
  12 <= String.length (yct_data ct) /\ yct_decrypt sk ct = Panic.
Proof.
  exists (YctSk (P, HumanPolicy) []).
  exists (YctCt [YAttr "A" None; YAttr "B" None] "a payload of many bytes"), fP.
  assert (E : parse P HumanPolicy = Ok (tree fP)) by (vm_compute; reflexivity).
  split; [exact E|]. split; [reflexivity|]. split; [cbn; lia|].
  apply (C79_yct_panics ZC ZL _ _ fP); [exact E|]. right. split; [reflexivity|]. left.
  exists "A", 2. split; [left; reflexivity|]. right. intros (a & g & X & _). discriminate X.
Qed.
Print Assumptions C79_yct_total_refuted.

Theorem C79_cp_total_refuted : exists (sk : ac_cpsk ZC) ct f,
  parse (fst (acp_policy ct)) (snd (acp_policy ct)) = Ok (tree f) /\ arity2 f = true /\
  12 <= String.length (act_ct (acp_ct ct)) /\ cp_decrypt sk ct = Panic.
Proof.
  exists (AcCpSk ["A"; "B"] (AcSk [] [] [])).
  exists (AcCpCt (P, HumanPolicy) (AcCt [] [] (zmk 3 : GT ZC) "a payload of many bytes")), fP.
  assert (E : parse P HumanPolicy = Ok (tree fP)) by (vm_compute; reflexivity).
  split; [exact E|]. split; [reflexivity|]. split; [cbn; lia|].
  apply (C79_ac_panics ZC ["A"; "B"] (P, HumanPolicy) (AcSk [] [] []) (AcCt [] [] (zmk 3 : GT ZC) "a payload of many bytes") false fP E).
  split; [discriminate|]. split; [reflexivity|]. do 4 right. left. cbn. lia.
Qed.
Print Assumptions C79_cp_total_refuted.

Theorem C79_kp_total_refuted : exists (sk : ac_kpsk ZC) ct f,
  parse (fst (akps_policy sk)) (snd (akps_policy sk)) = Ok (tree f) /\ arity2 f = true /\
  12 <= String.length (act_ct (akp_ct ct)) /\ kp_decrypt sk ct = Panic.
Proof.
  exists (AcKpSk (P, HumanPolicy) (AcSk [] [] [])).
  exists (AcKpCt ["A"; "B"] (AcCt [] [] (zmk 3 : GT ZC) "a payload of many bytes")), fP.
  assert (E : parse P HumanPolicy = Ok (tree fP)) by (vm_compute; reflexivity).
  split; [exact E|]. split; [reflexivity|]. split; [cbn; lia|].
  apply (C79_ac_panics ZC ["A"; "B"] (P, HumanPolicy) (AcSk [] [] []) (AcCt [] [] (zmk 3 : GT ZC) "a payload of many bytes") true fP E).
  split; [discriminate|]. split; [reflexivity|]. do 4 right. left. cbn. lia.
Qed.
Print Assumptions C79_kp_total_refuted.

Theorem C79_aw_total_refuted : exists gk (sk : aw_sk ZC) ct f,
  parse (fst (awct_policy ct)) (snd (awct_policy ct)) = Ok (tree f) /\ arity2 f = true /\
  12 <= String.length (awct_data ct) /\ aw_decrypt gk sk ct = Panic.
Proof.
  exists (AwGk (zmk 3 : G1 ZC) (zmk 4 : G2 ZC)), (AwSk "bob" [("A", zmk 2 : G1 ZC); ("B", zmk 4 : G1 ZC)]).
  exists (AwCt (P, HumanPolicy) (zmk 3 : GT ZC) [] "a payload of many bytes"), fP.
  assert (E : parse P HumanPolicy = Ok (tree fP)) by (vm_compute; reflexivity).
  split; [exact E|]. split; [reflexivity|]. split; [cbn; lia|].
  apply (C79_aw_panics ZC ZL _ _ _ fP); [exact E|]. split; [discriminate|]. split; [reflexivity|]. right.
  split; [eexists; reflexivity|]. left. exists "A", 2. split; [left; reflexivity|]. intros [].
Qed.
Print Assumptions C79_aw_total_refuted.

(** C79 holds for BSW, BDABE and MKE08 (payload of at least 12 bytes; for BSW no node with fewer than two children). *)
Theorem C79_no_abort_partial :
  forall C : crypto,
  laws C ->
  (forall (sk : bsw_sk C) (ct : bsw_ct C) (f : formula),
   parse (fst (bct_policy ct)) (snd (bct_policy ct)) = Ok (tree f) ->
   arity2 f = true -> 12 <= String.length (bct_data ct) -> bsw_decrypt sk ct <> Panic) /\
  (forall (sk : bd_uk C) (ct : bd_ct C) (f : formula),
   parse (fst (Bdabe.bct_policy ct)) (snd (Bdabe.bct_policy ct)) = Ok (tree f) ->
   12 <= String.length (Bdabe.bct_data ct) -> bd_decrypt sk ct <> Panic) /\
  (forall (sk : mk_uk C) (ct : mk_ct C) (f : formula),
   parse (fst (mct_policy ct)) (snd (mct_policy ct)) = Ok (tree f) ->
   12 <= String.length (mct_data ct) -> mk_decrypt sk ct <> Panic).
Proof. exact @three_never_abort. Qed.
Print Assumptions C79_no_abort_partial.

Example C79_example_no_abort : parse P HumanPolicy = Ok (tree fP) /\ arity2 fP = true /\
  12 <= String.length "a payload of many bytes".
Proof. split; [vm_compute; reflexivity|]. split; [reflexivity|]. cbn. lia. Qed.

(** C80. *)
Theorem C80_msp_verdict :
  forall p : pvalue,
  ((exists m : abe_policy, calculate_msp p = Ok m) <-> convertible p None) /\
  (calculate_msp p = Panic <-> crashes p None) /\
  (calculate_msp p = Err <-> ~ convertible p None /\ ~ crashes p None).
Proof. exact @msp_verdict. Qed.
Print Assumptions C80_msp_verdict.

Example C80_example_convertible : convertible (tree fP) None.
Proof.
  unfold fP. cbn [tree map]. apply conv_obj, conv_and; [apply conv_str|]. apply conv_obj, conv_or; [cbn; lia|].
  intros q [<-|[<-|[]]]; apply conv_str.
Qed.
Example C80_example_crashes : crashes (PObj And (PArr [PStr "A" 0; PStr "B" 0; PStr "C" 0])) None.
Proof. apply crash_obj, crash_wide. cbn. lia. Qed.
Example C80_example_neither :
  ~ convertible (PObj Or (PArr [PStr "A" 0; PObj Leaf (PArr [PStr "B" 0; PStr "C" 0])])) None /\
  ~ crashes (PObj Or (PArr [PStr "A" 0; PObj Leaf (PArr [PStr "B" 0; PStr "C" 0])])) None.
Proof.
  apply (proj2 (proj2 (C80_msp_verdict (PObj Or (PArr [PStr "A" 0; PObj Leaf (PArr [PStr "B" 0; PStr "C" 0])]))))).
  vm_compute. reflexivity.
Qed.

(** C81, BSW. *)
Theorem C81_bsw_encrypt :
  forall C : crypto,
  laws C ->
  forall (nonce : string) (pk : bsw_pk C) (pol : string) (lang : language) 
    (data : string) (t : nat -> F C) (i : nat),
  (parse pol lang = Err -> bsw_encrypt nonce pk pol lang data t i = Err) /\
  (parse pol lang = Panic -> bsw_encrypt nonce pk pol lang data t i = Panic) /\
  (forall f : formula,
   parse pol lang = Ok (tree f) ->
   settled (bsw_encrypt nonce pk pol lang data t i)
     (exists (n : string) (p : nat), In (n, p) (leaves f) /\ hash C (before_us n) = None)).
Proof. exact @bsw_encrypt_outcome. Qed.
Print Assumptions C81_bsw_encrypt.

(** All hashes are defined in [ZC] and none in this instance. *)
Definition ZN : crypto :=
  of_field zp (zmk 0) (zmk 1) zadd zmul zsub zopp zinv zeqb (fun _ => None) (fun x => dec (Z.to_nat (zval x))).
Example C81_example_laws : laws ZN.
Proof. exact (of_field_laws _ _ _ _ _ _ _ _ _ zp_field _ zeqb_ok _ _). Qed.
Example C81_example_hash : hash ZN "A" = None /\ forall s, hash ZC s <> None.
Proof. split; [reflexivity|]. discriminate. Qed.
Example C81_example_parse : parse P HumanPolicy = Ok (tree fP) /\ In ("A", 2) (leaves fP) /\
  parse "nothing here" HumanPolicy = Err /\ parse "{""name"": 7}" JsonPolicy = Panic.
Proof. vm_compute. repeat split. now left. Qed.

(** C81, GHW11. *)
Theorem C81_ghw_encrypt :
  forall C : crypto,
  laws C ->
  forall (nonce : string) (pk : ghw_pk C) (pol : string) (lang : language) 
    (data : string) (t : nat -> F C) (i : nat),
  (parse pol lang = Err -> ghw_encrypt nonce pk pol lang data t i = Err) /\
  (parse pol lang = Panic -> ghw_encrypt nonce pk pol lang data t i = Panic) /\
  (forall f : formula,
   parse pol lang = Ok (tree f) ->
   settled (ghw_encrypt nonce pk pol lang data t i)
     (exists (n : string) (p : nat), In (n, p) (leaves f) /\ hash C (before_us n) = None)).
Proof. exact @ghw_encrypt_outcome. Qed.
Print Assumptions C81_ghw_encrypt.

(** C81, LSW. *)
Theorem C81_lsw_encrypt :
  forall (C : crypto) (nonce : string) (pk : lsw_pk C) (attrs : list string)
    (data : string) (t : nat -> F C) (i : nat),
  (attrs = [] \/ data = "" -> lsw_encrypt nonce pk attrs data t i = Err) /\
  (attrs <> [] ->
   data <> "" ->
   settled (lsw_encrypt nonce pk attrs data t i)
     (exists a : string, In a attrs /\ hash C a = None)).
Proof. exact @lsw_encrypt_outcome. Qed.
Print Assumptions C81_lsw_encrypt.

(** C81, YCT14. Any public key. *)
Theorem C81_yct_encrypt :
  forall (C : crypto) (nonce : string) (pk : yct_pk C) (attrs : list string)
    (data : string) (t : nat -> F C) (i : nat),
  (attrs = [] \/ data = "" -> yct_encrypt nonce pk attrs data t i = Err) /\
  (attrs <> [] ->
   data <> "" ->
   settled (yct_encrypt nonce pk attrs data t i)
     (exists a : string, In a attrs /\ ~ first_public (ypk_attrs pk) a)).
Proof. exact @yct_encrypt_outcome. Qed.
Print Assumptions C81_yct_encrypt.

Example C81_example_yct :
  first_public [YAttr "A" None; YAttr "B" (Some (YPub (zmk 3 : GT ZC)))] "B" /\
  ~ first_public [YAttr "A" None; YAttr "B" (Some (YPub (zmk 3 : GT ZC)))] "A".
Proof.
  split; [do 2 eexists; split; reflexivity|]. intros (a & g & X & Y). injection X as <-. discriminate Y.
Qed.

(** C81, AC17 ciphertext-policy, with the keys of a setup and a hash that never fails. *)
Theorem C81_cp_encrypt :
  forall C : crypto,
  laws C ->
  forall (pk : ac_pk C) (msk : ac_msk C) (t0 : nat -> F C) (i0 j0 : nat),
  ac_setup t0 i0 = Ok (pk, msk, j0) ->
  (forall s : string, hash C s <> None) ->
  forall (nonce pol : string) (lang : language) (data : string) (t : nat -> F C) (i : nat),
  (parse pol lang = Err -> cp_encrypt nonce pk pol data lang t i = Err) /\
  (parse pol lang = Panic -> cp_encrypt nonce pk pol data lang t i = Panic) /\
  (forall f : formula,
   parse pol lang = Ok (tree f) ->
   settled (cp_encrypt nonce pk pol data lang t i) (binary_and f = false)).
Proof. exact @cp_encrypt_outcome. Qed.
Print Assumptions C81_cp_encrypt.

Example C81_example_cp : binary_and fP = true /\
  binary_and (FAnd [FLeaf "A" 2; FLeaf "B" 9; FLeaf "C" 16]) = false /\
  exists pk msk j, ac_setup (C := ZC) (ztape 3) 0 = Ok (pk, msk, j).
Proof. split; [reflexivity|]. split; [reflexivity|]. exact (ac_setup_runs (C := ZC) (ztape 3) 0). Qed.

(** C81, AC17 key-policy. *)
Theorem C81_kp_encrypt :
  forall (C : crypto) (pk : ac_pk C) (msk : ac_msk C) (t0 : nat -> F C) (i0 j0 : nat),
  ac_setup t0 i0 = Ok (pk, msk, j0) ->
  (forall s : string, hash C s <> None) ->
  forall (nonce : string) (attrs : list string) (data : string) (t : nat -> F C) (i : nat),
  settled (kp_encrypt nonce pk attrs data t i) False.
Proof. exact @kp_encrypt_outcome. Qed.
Print Assumptions C81_kp_encrypt.

(** C81, AW11. *)
Theorem C81_aw_encrypt :
  forall C : crypto,
  laws C ->
  forall (nonce : string) (gk : aw_gk C) (pks : list (aw_pk C)) 
    (pol : string) (lang : language) (data : string) (t : nat -> F C) 
    (i : nat),
  (parse pol lang = Err -> aw_encrypt nonce gk pks pol lang data t i = Err) /\
  (parse pol lang = Panic -> aw_encrypt nonce gk pks pol lang data t i = Panic) /\
  (forall f : formula,
   parse pol lang = Ok (tree f) ->
   settled (aw_encrypt nonce gk pks pol lang data t i) (binary_and f = false)).
Proof. exact @aw_encrypt_outcome. Qed.
Print Assumptions C81_aw_encrypt.

(** C81, BDABE. *)
Theorem C81_bd_encrypt :
  forall (C : crypto) (nonce : string) (pk : bd_pk C) (apks : list (bd_apk C))
    (pol : string) (lang : language) (data : string) (t : nat -> F C) 
    (i : nat),
  (parse pol lang = Err -> bd_encrypt nonce pk apks pol lang data t i = Err) /\
  (parse pol lang = Panic -> bd_encrypt nonce pk apks pol lang data t i = Panic) /\
  (forall f : formula,
   parse pol lang = Ok (tree f) ->
   (~ no_or_below_and f -> bd_encrypt nonce pk apks pol lang data t i = Err) /\
   (no_or_below_and f ->
    settled (bd_encrypt nonce pk apks pol lang data t i) (flat f = false))).
Proof. exact @bd_encrypt_outcome. Qed.
Print Assumptions C81_bd_encrypt.

Example C81_example_bd : no_or_below_and fX /\ flat fX = true /\
  no_or_below_and (FAnd [FLeaf "A" 2; FAnd [FLeaf "B" 9; FLeaf "C" 16]]) /\
  flat (FAnd [FLeaf "A" 2; FAnd [FLeaf "B" 9; FLeaf "C" 16]]) = false /\ ~ no_or_below_and fP.
Proof.
  split; [apply policy_in_dnf_iff; reflexivity|]. split; [reflexivity|].
  split; [apply policy_in_dnf_iff; reflexivity|]. split; [reflexivity|].
  intros X. apply policy_in_dnf_iff in X. discriminate X.
Qed.

(** C81, MKE08. *)
Theorem C81_mk_encrypt :
  forall (C : crypto) (nonce : string) (pk : mk_pk C) (apks : list (mk_apk C))
    (pol : string) (lang : language) (data : string) (t : nat -> F C) 
    (i : nat),
  (parse pol lang = Err -> mk_encrypt nonce pk apks pol lang data t i = Err) /\
  (parse pol lang = Panic -> mk_encrypt nonce pk apks pol lang data t i = Panic) /\
  (forall f : formula,
   parse pol lang = Ok (tree f) ->
   (~ no_or_below_and f -> mk_encrypt nonce pk apks pol lang data t i = Err) /\
   (no_or_below_and f ->
    settled (mk_encrypt nonce pk apks pol lang data t i) (flat f = false))).
Proof. exact @mk_encrypt_outcome. Qed.
Print Assumptions C81_mk_encrypt.

(** C82, BSW. *)
Theorem C82_bsw_keygen :
  forall C : crypto,
  laws C ->
  forall (pk : bsw_pk C) (msk : bsw_msk C) (attrs : list string) 
    (t : nat -> F C) (i : nat),
  (attrs = [] -> bsw_keygen pk msk attrs t i = Ok (None, i)) /\
  (attrs <> [] ->
   settled (bsw_keygen pk msk attrs t i)
     (bmsk_beta msk = 0%F \/ (exists a : string, In a attrs /\ hash C a = None))).
Proof. exact @bsw_keygen_outcome. Qed.
Print Assumptions C82_bsw_keygen.

Example C82_example_bsw : ["A"; "B"] <> [] /\ bmsk_beta (BswMsk (zmk 0 : F ZC) (zmk 3 : G2 ZC)) = f0 ZC /\
  bmsk_beta (BswMsk (zmk 5 : F ZC) (zmk 3 : G2 ZC)) <> f0 ZC.
Proof. split; [discriminate|]. split; [reflexivity|]. intros X. apply (f_equal (fun x : zp => zval x)) in X. vm_compute in X. discriminate. Qed.

(** C82, BSW, delegation of any key. *)
Theorem C82_bsw_delegate :
  forall (C : crypto) (pk : bsw_pk C) (sk : bsw_sk C) (subset : list string)
    (t : nat -> F C) (i : nat),
  (~ (subset <> [] /\ incl subset (map b_string (bsk_dj sk))) ->
   bsw_delegate pk sk subset t i = Ok (None, i)) /\
  (subset <> [] ->
   incl subset (map b_string (bsk_dj sk)) ->
   settled (bsw_delegate pk sk subset t i)
     (exists a : string, In a subset /\ hash C a = None)).
Proof. exact @bsw_delegate_outcome. Qed.
Print Assumptions C82_bsw_delegate.

(** C82, GHW11. *)
Theorem C82_ghw_keygen :
  forall (C : crypto) (pk : ghw_pk C) (msk : ghw_msk C) (attrs : list string)
    (t : nat -> F C) (i : nat),
  (attrs = [] -> ghw_keygen pk msk attrs t i = Ok (None, i)) /\
  (attrs <> [] ->
   settled (ghw_keygen pk msk attrs t i)
     (exists a : string, In a attrs /\ hash C a = None)).
Proof. exact @ghw_keygen_outcome. Qed.
Print Assumptions C82_ghw_keygen.

(** C82, GHW11, the transformation key. *)
Theorem C82_ghw_tkgen :
  forall C : crypto,
  laws C ->
  forall (sk : ghw_sk C) (t : nat -> F C) (i : nat),
  settled (ghw_tkgen sk t i) (t i = 0%F).
Proof. exact @ghw_tkgen_outcome. Qed.
Print Assumptions C82_ghw_tkgen.

Example C82_example_tk : (fun _ => zmk 0 : F ZC) 0 = f0 ZC.
Proof. reflexivity. Qed.

(** C82, LSW. *)
Theorem C82_lsw_keygen :
  forall C : crypto,
  laws C ->
  forall (pk : lsw_pk C) (msk : lsw_msk C) (pol : string) (lang : language)
    (t : nat -> F C) (i : nat),
  (parse pol lang = Err -> lsw_keygen pk msk pol lang t i = Err) /\
  (parse pol lang = Panic -> lsw_keygen pk msk pol lang t i = Panic) /\
  (forall f : formula,
   parse pol lang = Ok (tree f) ->
   settled (lsw_keygen pk msk pol lang t i)
     (exists (n : string) (p : nat),
        In (n, p) (leaves f) /\ (odd_start (before_us n) \/ hash C (before_us n) = None))).
Proof. exact @lsw_keygen_outcome. Qed.
Print Assumptions C82_lsw_keygen.

Example C82_example_lsw : odd_start (before_us "_A") /\ ~ odd_start (before_us "A_1").
Proof. split; cbn; [exact I|]. unfold odd_start. cbn. lia. Qed.

(** C82, YCT14. Any master key. *)
Theorem C82_yct_keygen :
  forall C : crypto,
  laws C ->
  forall (msk : yct_msk C) (pol : string) (lang : language) (t : nat -> F C) (i : nat),
  (parse pol lang = Err -> yct_keygen msk pol lang t i = Err) /\
  (parse pol lang = Panic -> yct_keygen msk pol lang t i = Panic) /\
  (forall f : formula,
   parse pol lang = Ok (tree f) ->
   settled (yct_keygen msk pol lang t i)
     (exists (n : string) (p : nat),
        In (n, p) (leaves f) /\ bad_private (ymsk_attrs msk) (before_us n))).
Proof. exact @yct_keygen_outcome. Qed.
Print Assumptions C82_yct_keygen.

Example C82_example_yct :
  bad_private [YAttr "A" (Some (YPriv (zmk 0 : F ZC))); YAttr "B" (Some (YPriv (zmk 3 : F ZC)))] "A" /\
  ~ bad_private [YAttr "A" (Some (YPriv (zmk 0 : F ZC))); YAttr "B" (Some (YPriv (zmk 3 : F ZC)))] "B".
Proof.
  split.
  - eexists. split; [reflexivity|]. right. reflexivity.
  - intros (a & X & Y). injection X as <-. destruct Y as [(g & Y)|Y]; [discriminate|].
    apply (f_equal (fun o : option (yct_type ZC) => match o with Some (YPriv x) => zval x | _ => 0%Z end)) in Y.
    vm_compute in Y. discriminate.
Qed.

(** C82, AC17 ciphertext-policy. *)
Theorem C82_cp_keygen :
  forall C : crypto,
  laws C ->
  forall (pk : ac_pk C) (msk : ac_msk C) (t0 : nat -> F C) (i0 j0 : nat),
  ac_setup t0 i0 = Ok (pk, msk, j0) ->
  (forall s : string, hash C s <> None) ->
  forall (attrs : list string) (t : nat -> F C) (i : nat),
  (attrs = [] -> cp_keygen msk attrs t i = Err) /\
  (attrs <> [] ->
   settled (cp_keygen msk attrs t i) (exists a : F C, In a (amsk_a msk) /\ a = 0%F)).
Proof. exact @cp_keygen_outcome. Qed.
Print Assumptions C82_cp_keygen.

Example C82_example_cp : exists pk msk j, ac_setup (C := ZC) (fun _ => zmk 0) 0 = Ok (pk, msk, j) /\
  In (f0 ZC) (amsk_a msk).
Proof.
  do 3 eexists. split.
  - unfold ac_setup, draw_g1, draw_g2, rbind, rret, rlift, draw. cbn. reflexivity.
  - left. reflexivity.
Qed.

(** C82, AC17 key-policy. *)
Theorem C82_kp_keygen :
  forall C : crypto,
  laws C ->
  forall (pk : ac_pk C) (msk : ac_msk C) (t0 : nat -> F C) (i0 j0 : nat),
  ac_setup t0 i0 = Ok (pk, msk, j0) ->
  (forall s : string, hash C s <> None) ->
  forall (pol : string) (lang : language) (t : nat -> F C) (i : nat),
  (parse pol lang = Err -> kp_keygen msk pol lang t i = Err) /\
  (parse pol lang = Panic -> kp_keygen msk pol lang t i = Panic) /\
  (forall f : formula,
   parse pol lang = Ok (tree f) ->
   (forall a : F C, In a (amsk_a msk) -> a <> 0%F) ->
   settled (kp_keygen msk pol lang t i) (binary_and f = false)).
Proof. exact @kp_keygen_outcome. Qed.
Print Assumptions C82_kp_keygen.

(** C82, AW11. The first attribute that cannot be issued decides. *)
Theorem C82_aw_keygen :
  forall (C : crypto) (gk : aw_gk C) (msk : aw_msk C) (gid : string) (attrs : list string),
  (attrs = [] \/ gid = "" -> aw_keygen gk msk gid attrs = Err) /\
  (gid <> "" ->
   hash C gid <> None ->
   (attrs <> [] ->
    (forall a : string, In a attrs -> a <> "" /\ In a (map n3 (amsk_attr msk))) ->
    exists sk : aw_sk C, aw_keygen gk msk gid attrs = Ok sk) /\
   (forall (before : list string) (a : string) (after : list string),
    attrs = (before ++ a :: after)%list ->
    (forall b : string, In b before -> b <> "" /\ In b (map n3 (amsk_attr msk))) ->
    (a = "" -> aw_keygen gk msk gid attrs = Err) /\
    (a <> "" -> ~ In a (map n3 (amsk_attr msk)) -> aw_keygen gk msk gid attrs = Panic))).
Proof. exact @aw_keygen_outcome. Qed.
Print Assumptions C82_aw_keygen.

Example C82_example_aw : let msk := AwMsk [("A", zmk 2 : F ZC, zmk 3 : F ZC)] in
  ["A"; "B"; ""] = (["A"] ++ "B" :: [""])%list /\
  (forall b, In b ["A"] -> b <> "" /\ In b (map n3 (amsk_attr msk))) /\ ~ In "B" (map n3 (amsk_attr msk)).
Proof.
  split; [reflexivity|]. split.
  - intros b [<-|[]]. split; [discriminate|]. left. reflexivity.
  - intros [X|[]]. discriminate X.
Qed.


(** C79, YCT14. What the accessors of ciphertext, secret key and master key give:
    an error when no entry has the name, else the value of the first one, or an
    abort when that has no value of the wanted kind. *)
Theorem C79_yct_lookups :
  forall (C : crypto) (n : string),
  (forall ct : Yct14.yct_ct C,
     Yct14Proofs.looked_up (fun _ => True) (fun x => match x with Yct14.YPub g => Some g | Yct14.YPriv _ => None end) n
       (Yct14.yct_attrs ct) (Yct14.ct_get_public ct n)) /\
  (forall sk : Yct14.yct_sk C,
     Yct14Proofs.looked_up (fun _ => True) (fun x => match x with Yct14.YPub _ => None | Yct14.YPriv v => Some v end) n
       (Yct14.ysk_du sk) (Yct14.sk_get_private sk n)) /\
  (forall msk : Yct14.yct_msk C,
     Yct14Proofs.looked_up (fun a => Yct14.y_node a <> None)
       (fun x => match x with Yct14.YPub _ => None | Yct14.YPriv v => Some v end) n
       (Yct14.ymsk_attrs msk) (Yct14.msk_get_private msk n)).
Proof. exact @Yct14Proofs.yct_lookups. Qed.
Print Assumptions C79_yct_lookups.

Example C79_example_lookups :
  @Yct14.sk_get_private ZC (Yct14.YctSk ("", HumanPolicy) [Yct14.YAttr "A" (Some (@Yct14.YPriv ZC (zmk 3)))]) "A" = Ok (zmk 3) /\
  @Yct14.sk_get_private ZC (Yct14.YctSk ("", HumanPolicy) [Yct14.YAttr "A" None]) "A" = Panic /\
  @Yct14.sk_get_private ZC (Yct14.YctSk ("", HumanPolicy) []) "A" = Err /\
  @Yct14.msk_get_private ZC (@Yct14.YctMsk ZC (zmk 1) [Yct14.YAttr "A" None]) "A" = Err.
Proof. repeat split. Qed.
