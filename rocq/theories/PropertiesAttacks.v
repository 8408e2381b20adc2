(** * PropertiesAttacks: C52 to C64: what the schemes do not enforce

    Every statement is written out in full; the proofs are in the *Proofs files. *)
From Coq Require Import String Ascii List Bool Arith ZArith Lia.
From Verif Require Import Base Crypto Policy Tools Sharing Spec PolicyProofs Poly SharingProofs
  Msp MspProofs Dnf Symmetric Peg Grammar Parse PegProofs ParseProofs ParseText ParseHuman
  SchemeLib CoreProofs Files FilesProofs DnfProofs Bdabe BdabeProofs Mke08 Mke08Proofs
  Bsw BswProofs Ghw11 Ghw11Proofs Lsw LswProofs Yct14 Yct14Proofs Ac17 Ac17Proofs
  Aw11 Aw11Proofs EdgeProofs TruncationProofs Instance Sessions SessionProofs Witnesses.
Import ListNotations.
Local Open Scope string_scope.
Local Open Scope rand_scope.
Local Open Scope nat_scope.

(** C52 is false. *)
Theorem C52_bsw_forge_works :
  (forall C : crypto,
  laws C ->
  forall (pk : bsw_pk C) (msk : bsw_msk C) (attrs : list string) 
    (sk : bsw_sk C) (t : nat -> F C) (i j : nat) (ks : list string),
  bsw_keygen pk msk attrs t i = Ok (Some sk, j) ->
  ks <> [] ->
  (forall k : string, In k ks -> exists h : F C, hash C k = Some h /\ h <> 0) ->
  exists sk' : bsw_sk C,
    bsw_forge sk ks = Some sk' /\
    (exists (t' : nat -> F C) (j' : nat), bsw_keygen pk msk ks t' 0%nat = Ok (Some sk', j')))%F.
Proof. exact @bsw_forge_works. Qed.
Print Assumptions C52_bsw_forge_works.

(** A key for X only is turned into a key for A and B. *)
Theorem C52_bsw_refuted : exists (pk : bsw_pk ZC) msk sk sk' ct ts i1 i2 i3 i4,
  bsw_setup ts 0 = Ok (pk, msk, i1) /\
  bsw_keygen pk msk ["X"] ts i1 = Ok (Some sk, i2) /\
  bsw_encrypt nc pk P HumanPolicy "hello" ts i3 = Ok (ct, i4) /\
  bsw_decrypt sk ct = Err /\
  bsw_forge sk ["A"; "B"] = Some sk' /\
  bsw_decrypt sk' ct = Ok "hello".
Proof.
  by_run (' (pk, msk) <- bsw_setup (C := ZC) ;; ko <- bsw_keygen pk msk ["X"] ;; sk <- rlift (unwrap ko) ;;
          ct <- bsw_encrypt nc pk P HumanPolicy "hello" ;;
          sk' <- rlift (unwrap (bsw_forge sk ["A"; "B"])) ;;
          rret (bsw_decrypt sk ct, bsw_decrypt sk' ct)) (@Err string, Ok "hello").
Qed.
Print Assumptions C52_bsw_refuted.

(** C53 is false. *)
Theorem C53_ghw_forge_works :
  (forall C : crypto,
  laws C ->
  forall (pk : ghw_pk C) (msk : ghw_msk C) (attrs : list string) 
    (sk : ghw_sk C) (t : nat -> F C) (i j : nat) (ks : list string),
  ghw_keygen pk msk attrs t i = Ok (Some sk, j) ->
  ks <> [] ->
  (forall k : string, In k ks -> hash C k <> None) ->
  exists sk' : ghw_sk C,
    ghw_forge sk ks = Ok sk' /\ ghw_keygen pk msk ks t i = Ok (Some sk', j))%F.
Proof. exact @ghw_forge_works. Qed.
Print Assumptions C53_ghw_forge_works.

Theorem C53_ghw_refuted : exists (pk : ghw_pk ZC) msk sk sk' tk z tk' z' ct ts i1 i2 i3 i4 i5,
  ghw_setup ts 0 = Ok (pk, msk, i1) /\
  ghw_keygen pk msk ["X"] ts i1 = Ok (Some sk, i2) /\
  ghw_encrypt nc pk P HumanPolicy "hello" ts i2 = Ok (ct, i3) /\
  ghw_tkgen sk ts i3 = Ok (tk, z, i4) /\
  obind (ghw_transform ct tk) (fun tct => ghw_decrypt_out tct z (gct_data ct)) = Err /\
  ghw_forge sk ["A"; "B"] = Ok sk' /\
  ghw_tkgen sk' ts i4 = Ok (tk', z', i5) /\
  obind (ghw_transform ct tk') (fun tct => ghw_decrypt_out tct z' (gct_data ct)) = Ok "hello".
Proof.
  by_run (' (pk, msk) <- ghw_setup (C := ZC) ;; ko <- ghw_keygen pk msk ["X"] ;; sk <- rlift (unwrap ko) ;;
          ct <- ghw_encrypt nc pk P HumanPolicy "hello" ;;
          ' (tk, z) <- ghw_tkgen sk ;;
          sk' <- rlift (ghw_forge sk ["A"; "B"]) ;;
          ' (tk', z') <- ghw_tkgen sk' ;;
          rret (obind (ghw_transform ct tk) (fun tct => ghw_decrypt_out tct z (gct_data ct)),
                obind (ghw_transform ct tk') (fun tct => ghw_decrypt_out tct z' (gct_data ct))))
    (@Err string, Ok "hello").
Qed.
Print Assumptions C53_ghw_refuted.

(** C54 is false. *)
Theorem C54_cp_relabel_works :
  (forall C : crypto,
  laws C ->
  forall (nonce : string) (pk : ac_pk C) (msk : ac_msk C) (pol : string) 
    (lang : language) (pol' : string) (lang' : language) (data : string)
    (ct ct' : ac_cpct C) (f f' : formula) (ts : nat -> F C) (is js : nat)
    (te : nat -> F C) (ie je je' : nat),
  ac_setup ts is = Ok (pk, msk, js) ->
  parse pol lang = Ok (tree f) ->
  binary_and f = true ->
  parse pol' lang' = Ok (tree f') ->
  binary_and f' = true ->
  cp_encrypt nonce pk pol data lang te ie = Ok (ct, je) ->
  cp_encrypt nonce pk pol' data lang' te ie = Ok (ct', je') ->
  @cp_det C f <> 0 -> cp_relabel ct pol' lang' = Some ct')%F.
Proof. exact @cp_relabel_works. Qed.
Print Assumptions C54_cp_relabel_works.

(** C54: a key for another policy opens the relabelled ciphertext. *)
Theorem C54_cp_relabel_opens :
  (forall C : crypto,
  laws C ->
  forall (nonce : string) (pk : ac_pk C) (msk : ac_msk C) (pol : string) 
    (lang : language) (pol' : string) (lang' : language) (data : string) 
    (ct : ac_cpct C) (f f' : formula) (attrs : list string) (sk : ac_cpsk C)
    (ts : nat -> F C) (is js : nat) (tk : nat -> F C) (ik jk : nat) 
    (te : nat -> F C) (ie je : nat),
  ac_setup ts is = Ok (pk, msk, js) ->
  cp_keygen msk attrs tk ik = Ok (sk, jk) ->
  cp_encrypt nonce pk pol data lang te ie = Ok (ct, je) ->
  parse pol lang = Ok (tree f) ->
  binary_and f = true ->
  parse pol' lang' = Ok (tree f') ->
  binary_and f' = true ->
  String.length nonce = 12 ->
  (forall s : string, hash C s <> None) ->
  @cp_det C f <> 0 ->
  NoDup (names f') ->
  NoDup attrs ->
  sat (owns attrs) f' = true ->
  exists ct' : ac_cpct C,
    cp_relabel ct pol' lang' = Some ct' /\ cp_decrypt sk ct' = Ok data)%F.
Proof. exact @cp_relabel_opens. Qed.
Print Assumptions C54_cp_relabel_opens.

Example C54_example : cp_det (C := ZC) fP <> 0%F.
Proof. intros H. apply (f_equal zval) in H. vm_compute in H. discriminate H. Qed.

Theorem C54_cp_refuted : exists (pk : ac_pk ZC) msk sk ct ct' ts i1 i2 i3,
  ac_setup ts 0 = Ok (pk, msk, i1) /\
  cp_keygen msk ["X"] ts i1 = Ok (sk, i2) /\
  cp_encrypt nc pk P "hello" HumanPolicy ts i2 = Ok (ct, i3) /\
  cp_decrypt sk ct = Err /\
  cp_relabel ct """X""" HumanPolicy = Some ct' /\
  cp_decrypt sk ct' = Ok "hello".
Proof.
  by_run (' (pk, msk) <- ac_setup (C := ZC) ;; sk <- cp_keygen msk ["X"] ;;
          ct <- cp_encrypt nc pk P "hello" HumanPolicy ;;
          ct' <- rlift (unwrap (cp_relabel ct """X""" HumanPolicy)) ;;
          rret (cp_decrypt sk ct, cp_decrypt sk ct')) (@Err string, Ok "hello").
Qed.
Print Assumptions C54_cp_refuted.

(** C55 is false. *)
Theorem C55_kp_relabel_works :
  (forall C : crypto,
  laws C ->
  forall (nonce : string) (pk : ac_pk C) (msk : ac_msk C) (n : string)
    (attrs attrs' : list string) (data : string) (ct ct' : ac_kpct C) 
    (ts : nat -> F C) (is js : nat) (te : nat -> F C) (ie je je' : nat),
  ac_setup ts is = Ok (pk, msk, js) ->
  kp_encrypt nonce pk (n :: attrs) data te ie = Ok (ct, je) ->
  kp_encrypt nonce pk attrs' data te ie = Ok (ct', je') ->
  @kp_det C n <> 0 -> kp_relabel ct attrs' = Some ct')%F.
Proof. exact @kp_relabel_works. Qed.
Print Assumptions C55_kp_relabel_works.

(** C55: a key for other attributes opens the relabelled ciphertext. *)
Theorem C55_kp_relabel_opens :
  (forall C : crypto,
  laws C ->
  forall (nonce : string) (pk : ac_pk C) (msk : ac_msk C) (n : string)
    (attrs attrs' : list string) (data : string) (ct : ac_kpct C) 
    (pol : string) (lang : language) (f : formula) (sk : ac_kpsk C) 
    (ts : nat -> F C) (is js : nat) (tk : nat -> F C) (ik jk : nat) 
    (te : nat -> F C) (ie je : nat),
  ac_setup ts is = Ok (pk, msk, js) ->
  kp_keygen msk pol lang tk ik = Ok (sk, jk) ->
  kp_encrypt nonce pk (n :: attrs) data te ie = Ok (ct, je) ->
  parse pol lang = Ok (tree f) ->
  binary_and f = true ->
  String.length nonce = 12 ->
  (forall s : string, hash C s <> None) ->
  @kp_det C n <> 0 ->
  NoDup (names f) ->
  NoDup attrs' ->
  sat (owns attrs') f = true ->
  exists ct' : ac_kpct C, kp_relabel ct attrs' = Some ct' /\ kp_decrypt sk ct' = Ok data)%F.
Proof. exact @kp_relabel_opens. Qed.
Print Assumptions C55_kp_relabel_opens.

Example C55_example : kp_det (C := ZC) "X" <> 0%F.
Proof. intros H. apply (f_equal zval) in H. vm_compute in H. discriminate H. Qed.

Theorem C55_kp_refuted : exists (pk : ac_pk ZC) msk sk ct ct' ts i1 i2 i3,
  ac_setup ts 0 = Ok (pk, msk, i1) /\
  kp_keygen msk P HumanPolicy ts i1 = Ok (sk, i2) /\
  kp_encrypt nc pk ["X"] "hello" ts i2 = Ok (ct, i3) /\
  kp_decrypt sk ct = Err /\
  kp_relabel ct ["A"; "B"] = Some ct' /\
  kp_decrypt sk ct' = Ok "hello".
Proof.
  by_run (' (pk, msk) <- ac_setup (C := ZC) ;; sk <- kp_keygen msk P HumanPolicy ;;
          ct <- kp_encrypt nc pk ["X"] "hello" ;;
          ct' <- rlift (unwrap (kp_relabel ct ["A"; "B"])) ;;
          rret (kp_decrypt sk ct, kp_decrypt sk ct')) (@Err string, Ok "hello").
Qed.
Print Assumptions C55_kp_refuted.

(** C56 is false. *)
Theorem C56_lsw_relabel_works :
  (forall C : crypto,
  laws C ->
  forall (nonce : string) (pk : lsw_pk C) (attrs : list string) 
    (data : string) (t : nat -> F C) (i : nat) (ct : lsw_ct C) 
    (j : nat) (ys : list string),
  lsw_encrypt nonce pk attrs data t i = Ok (ct, j) ->
  (forall a : string, In a attrs -> forall h : F C, hash C a = Some h -> h <> 0) ->
  ys <> [] ->
  (forall y : string, In y ys -> hash C y <> None) ->
  exists ct' : lsw_ct C,
    lsw_relabel pk ct ys = Ok ct' /\
    (exists (t' : nat -> F C) (j' : nat), lsw_encrypt nonce pk ys data t' 0%nat = Ok (ct', j')))%F.
Proof. exact @lsw_relabel_works. Qed.
Print Assumptions C56_lsw_relabel_works.

Theorem C56_lsw_refuted : exists (pk : lsw_pk ZC) msk sk ct ct' ts i1 i2 i3,
  lsw_setup ts 0 = Ok (pk, msk, i1) /\
  lsw_keygen pk msk P HumanPolicy ts i1 = Ok (sk, i2) /\
  lsw_encrypt nc pk ["X"] "hello" ts i2 = Ok (ct, i3) /\
  lsw_decrypt sk ct = Err /\
  lsw_relabel pk ct ["A"; "B"] = Ok ct' /\
  lsw_decrypt sk ct' = Ok "hello".
Proof.
  by_run (' (pk, msk) <- lsw_setup (C := ZC) ;; sk <- lsw_keygen pk msk P HumanPolicy ;;
          ct <- lsw_encrypt nc pk ["X"] "hello" ;;
          ct' <- rlift (lsw_relabel pk ct ["A"; "B"]) ;;
          rret (lsw_decrypt sk ct, lsw_decrypt sk ct')) (@Err string, Ok "hello").
Qed.
Print Assumptions C56_lsw_refuted.

(** C57 is false: keys of two users give a key of a third. *)
Theorem C57_aw_forge_works :
  (forall C : crypto,
  laws C ->
  forall (gk : aw_gk C) (msk : aw_msk C) (a gid1 gid2 gid3 : string) 
    (k1 k2 : G1 C) (h3 : F C),
  aw_component gk msk gid1 a k1 ->
  aw_component gk msk gid2 a k2 ->
  hash C gid1 <> hash C gid2 ->
  hash C gid3 = Some h3 ->
  exists k3 : G1 C,
    aw_forge gid1 gid2 gid3 k1 k2 = Some k3 /\
    (forall have : list (string * G1 C),
     gid3 <> ""%string ->
     aw_add gk msk a {| awsk_gid := gid3; awsk_attr := have |} =
     Ok {| awsk_gid := gid3; awsk_attr := have ++ [(upper C a, k3)] |}))%F.
Proof. exact @aw_forge_works. Qed.
Print Assumptions C57_aw_forge_works.

(** C57: colluding users open a ciphertext. *)
Theorem C57_aw_collusion :
  (forall C : crypto,
  laws C ->
  forall (nonce : string) (gk : aw_gk C) (As : list (list string * (aw_pk C * aw_msk C)))
    (gid1 gid2 gid3 : string) (mskA : aw_msk C) (a : string) (k1 k2 : G1 C) 
    (h3 : F C) (issued : list (aw_msk C * string)) (sk3 : aw_sk C) 
    (pol : string) (lang : language) (data : string) (ct : aw_ct C) 
    (f : formula) (ts : nat -> F C) (is js : nat) (te : nat -> F C) 
    (ie je : nat),
  aw_setup ts is = Ok (gk, js) ->
  Forall
    (fun A : list string * (aw_pk C * aw_msk C) =>
     exists (t : nat -> F C) (i j : nat), aw_authgen gk (fst A) t i = Ok (Some (snd A), j))
    As ->
  separate As ->
  (forall (m : aw_msk C) (a0 : string),
   In (m, a0) issued ->
   exists A : list string * (aw_pk C * aw_msk C), In A As /\ m = snd (snd A)) ->
  (exists A : list string * (aw_pk C * aw_msk C), In A As /\ mskA = snd (snd A)) ->
  aw_component gk mskA gid1 a k1 ->
  aw_component gk mskA gid2 a k2 ->
  hash C gid1 <> hash C gid2 ->
  hash C gid3 = Some h3 ->
  gid3 <> ""%string ->
  aw_issue gk gid3 issued = Ok sk3 ->
  aw_encrypt nonce gk (map (fun A : list string * (aw_pk C * aw_msk C) => fst (snd A)) As)
    pol lang data te ie = Ok (ct, je) ->
  parse pol lang = Ok (tree f) ->
  String.length nonce = 12 ->
  NoDup (leaves f) ->
  plain_names f = true ->
  upper_names C f ->
  small_ok C (and_width f) ->
  sat (owns (map snd issued ++ [a])) f = true ->
  exists k3 : G1 C,
    aw_forge gid1 gid2 gid3 k1 k2 = Some k3 /\
    aw_decrypt gk {| awsk_gid := gid3; awsk_attr := awsk_attr sk3 ++ [(upper C a, k3)] |} ct =
    Ok data)%F.
Proof. exact @aw_collusion. Qed.
Print Assumptions C57_aw_collusion.

(** Bob and Eve each hold A, Joe holds B; none can open "A and B"; together they give Joe a key
    component for A. *)
Theorem C57_aw_refuted : exists (gk : aw_gk ZC) pk msk k1 k2 k3 ct x1 x2 x ts i1 i2 i3,
  aw_setup ts 0 = Ok (gk, i1) /\
  aw_authgen gk ["A"; "B"] ts i1 = Ok (Some (pk, msk), i2) /\
  aw_keygen gk msk "bob" ["A"] = Ok k1 /\
  aw_keygen gk msk "eve" ["A"] = Ok k2 /\
  aw_keygen gk msk "joe" ["B"] = Ok k3 /\
  aw_encrypt nc gk [pk] """A"" and ""B""" HumanPolicy "hello" ts i2 = Ok (ct, i3) /\
  aw_decrypt gk k1 ct = Err /\ aw_decrypt gk k2 ct = Err /\ aw_decrypt gk k3 ct = Err /\
  hd_error (map snd (awsk_attr k1)) = Some x1 /\ hd_error (map snd (awsk_attr k2)) = Some x2 /\
  aw_forge "bob" "eve" "joe" x1 x2 = Some x /\
  aw_decrypt gk (AwSk "joe" (awsk_attr k3 ++ [("A", x)])%list) ct = Ok "hello".
Proof.
  by_run (gk <- aw_setup (C := ZC) ;; ao <- aw_authgen gk ["A"; "B"] ;; ' (pk, msk) <- rlift (unwrap ao) ;;
    k1 <- rlift (aw_keygen gk msk "bob" ["A"]) ;; k2 <- rlift (aw_keygen gk msk "eve" ["A"]) ;;
    k3 <- rlift (aw_keygen gk msk "joe" ["B"]) ;;
    ct <- aw_encrypt nc gk [pk] """A"" and ""B""" HumanPolicy "hello" ;;
    x1 <- rlift (unwrap (hd_error (map snd (awsk_attr k1)))) ;;
    x2 <- rlift (unwrap (hd_error (map snd (awsk_attr k2)))) ;;
    x <- rlift (unwrap (aw_forge "bob" "eve" "joe" x1 x2)) ;;
    rret (aw_decrypt gk k1 ct, aw_decrypt gk k2 ct, aw_decrypt gk k3 ct,
          aw_decrypt gk (AwSk "joe" (awsk_attr k3 ++ [("A", x)])%list) ct))
    (@Err string, @Err string, @Err string, Ok "hello").
Qed.
Print Assumptions C57_aw_refuted.

(** C58 is false. *)
Theorem C58_bd_forge_works :
  (forall C : crypto,
  laws C ->
  forall (pku : bd_upk C) (A : bd_auth C) (n1 n2 : string) (k : bd_ask C) (h2 : F C),
  bd_request_sk pku A n1 = Ok k ->
  from_authority n2 (bau_name A) = true ->
  hash C n2 = Some h2 ->
  hash C n1 <> Some 0 ->
  exists k2 : bd_ask C, bd_forge n2 k = Some k2 /\ bd_request_sk pku A n2 = Ok k2)%F.
Proof. exact @bd_forge_works. Qed.
Print Assumptions C58_bd_forge_works.

(** C58: the forged key fits the user. *)
Theorem C58_bd_forge_user :
  (forall C : crypto,
  laws C ->
  forall (pk : bd_pk C) (As : list (bd_auth C)),
  bd_unique As ->
  forall (uk : bd_uk C) (k : bd_ask C) (n2 : string) (h2 : F C),
  bd_user pk As uk ->
  In k (buk_ska uk) ->
  (exists A : bd_auth C,
     In A As /\
     from_authority (bask_attr k) (bau_name A) = true /\
     from_authority n2 (bau_name A) = true) ->
  hash C n2 = Some h2 ->
  hash C (bask_attr k) <> Some 0 ->
  exists k2 : bd_ask C,
    bd_forge n2 k = Some k2 /\ bask_attr k2 = n2 /\ bd_user pk As (bd_add uk k2))%F.
Proof. exact @bd_forge_user. Qed.
Print Assumptions C58_bd_forge_user.

Theorem C58_bd_refuted : exists (pk : bd_pk ZC) msk au uk a s k ct t i1 i2 i3 i4,
  bd_setup t 0 = Ok (pk, msk, i1) /\
  bd_authgen pk msk "x" t i1 = Ok (au, i2) /\
  bd_keygen pk au "bob" t i2 = Ok (uk, i3) /\
  bd_request_pk pk au "x::A" = Ok a /\
  bd_request_sk (buk_pk uk) au "x::X" = Ok s /\
  bd_encrypt nc pk [a] """x::A""" HumanPolicy "hello" t i3 = Ok (ct, i4) /\
  bd_decrypt (bd_add uk s) ct = Err /\
  bd_forge "x::A" s = Some k /\
  bd_decrypt (bd_add uk k) ct = Ok "hello".
Proof.
  by_run (' (pk, msk) <- bd_setup (C := ZC) ;; au <- bd_authgen pk msk "x" ;; uk <- bd_keygen pk au "bob" ;;
    a <- rlift (bd_request_pk pk au "x::A") ;; s <- rlift (bd_request_sk (buk_pk uk) au "x::X") ;;
    ct <- bd_encrypt nc pk [a] """x::A""" HumanPolicy "hello" ;;
    k <- rlift (unwrap (bd_forge "x::A" s)) ;;
    rret (bd_decrypt (bd_add uk s) ct, bd_decrypt (bd_add uk k) ct)) (@Err string, Ok "hello").
Qed.
Print Assumptions C58_bd_refuted.

(** C59 is false. *)
Theorem C59_mk_forge_works :
  (forall C : crypto,
  laws C ->
  forall (pku : mk_upk C) (A : mk_auth C) (n1 n2 : string) (k : mk_ask C) (h2 : F C),
  mk_request_sk pku n1 A = Ok k ->
  from_authority n2 (mau_name A) = true ->
  hash C n2 = Some h2 ->
  hash C n1 <> Some 0 ->
  exists k2 : mk_ask C, mk_forge n2 k = Some k2 /\ mk_request_sk pku n2 A = Ok k2)%F.
Proof. exact @mk_forge_works. Qed.
Print Assumptions C59_mk_forge_works.

(** C59: the forged key fits the user. *)
Theorem C59_mk_forge_user :
  (forall C : crypto,
  laws C ->
  forall (pk : mk_pk C) (msk : mk_msk C) (As : list (mk_auth C)),
  mk_unique As ->
  forall (uk : mk_uk C) (k : mk_ask C) (n2 : string) (h2 : F C),
  mk_user pk msk As uk ->
  In k (muk_ska uk) ->
  (exists A : mk_auth C,
     In A As /\
     from_authority (mask_attr k) (mau_name A) = true /\
     from_authority n2 (mau_name A) = true) ->
  hash C n2 = Some h2 ->
  hash C (mask_attr k) <> Some 0 ->
  exists k2 : mk_ask C,
    mk_forge n2 k = Some k2 /\ mask_attr k2 = n2 /\ mk_user pk msk As (mk_add uk k2))%F.
Proof. exact @mk_forge_user. Qed.
Print Assumptions C59_mk_forge_user.

Theorem C59_mk_refuted : exists (pk : mk_pk ZC) msk au uk a s k ct t i1 i2 i3 i4,
  mk_setup t 0 = Ok (pk, msk, i1) /\
  mk_authgen "x" t i1 = Ok (au, i2) /\
  mk_keygen pk msk "bob" t i2 = Ok (uk, i3) /\
  mk_request_pk pk "x::A" au = Ok a /\
  mk_request_sk (muk_pk uk) "x::X" au = Ok s /\
  mk_encrypt nc pk [a] """x::A""" HumanPolicy "hello" t i3 = Ok (ct, i4) /\
  mk_decrypt (mk_add uk s) ct = Err /\
  mk_forge "x::A" s = Some k /\
  mk_decrypt (mk_add uk k) ct = Ok "hello".
Proof.
  by_run (' (pk, msk) <- mk_setup (C := ZC) ;; au <- mk_authgen "x" ;; uk <- mk_keygen pk msk "bob" ;;
    a <- rlift (mk_request_pk pk "x::A" au) ;; s <- rlift (mk_request_sk (muk_pk uk) "x::X" au) ;;
    ct <- mk_encrypt nc pk [a] """x::A""" HumanPolicy "hello" ;;
    k <- rlift (unwrap (mk_forge "x::A" s)) ;;
    rret (mk_decrypt (mk_add uk s) ct, mk_decrypt (mk_add uk k) ct)) (@Err string, Ok "hello").
Qed.
Print Assumptions C59_mk_refuted.

(** C60 is false. *)
Theorem C60_yct_forge_works :
  (forall C : crypto,
  laws C ->
  forall (U : list string) (pk : yct_pk C) (msk : yct_msk C) (A B : string)
    (pA pB p : nat) (pol1 : string) (lang1 : language) (pol2 : string) 
    (lang2 : language) (pol : string) (lang : language) (sk1 sk2 : yct_sk C)
    (ts : nat -> F C) (is js : nat) (t1 : nat -> F C) (i1 j1 : nat) 
    (t2 : nat -> F C) (i2 j2 : nat),
  yct_setup U ts is = Ok (pk, msk, js) ->
  parse pol1 lang1 = Ok (tree (FAnd [FLeaf A pA; FLeaf B pB])) ->
  parse pol2 lang2 = Ok (tree (FAnd [FLeaf A pA; FLeaf B pB])) ->
  parse pol lang = Ok (tree (FLeaf A p)) ->
  yct_keygen msk pol1 lang1 t1 i1 = Ok (sk1, j1) ->
  yct_keygen msk pol2 lang2 t2 i2 = Ok (sk2, j2) ->
  In A U ->
  In B U ->
  A <> B ->
  no_us A = true ->
  no_us B = true ->
  (1 + 1 : F C) <> 0 ->
  t1 i1 <> t2 i2 ->
  exists sk : yct_sk C,
    yct_forge sk1 sk2 A B pol lang = Ok sk /\
    (forall (t : nat -> F C) (i : nat), yct_keygen msk pol lang t i = Ok (sk, i)))%F.
Proof. exact @yct_forge_works. Qed.
Print Assumptions C60_yct_forge_works.

Theorem C60_yct_refuted : exists (pk : yct_pk ZC) msk sk1 sk2 sk ct t i1 i2 i3 i4,
  yct_setup ["A"; "B"] t 0 = Ok (pk, msk, i1) /\
  yct_keygen msk """A"" and ""B""" HumanPolicy t i1 = Ok (sk1, i2) /\
  yct_keygen msk """A"" and ""B""" HumanPolicy t i2 = Ok (sk2, i3) /\
  yct_encrypt nc pk ["A"] "hello" t i3 = Ok (ct, i4) /\
  yct_decrypt sk1 ct = Err /\ yct_decrypt sk2 ct = Err /\
  yct_forge sk1 sk2 "A" "B" """A""" HumanPolicy = Ok sk /\
  yct_decrypt sk ct = Ok "hello".
Proof.
  by_run (' (pk, msk) <- yct_setup (C := ZC) ["A"; "B"] ;;
    sk1 <- yct_keygen msk """A"" and ""B""" HumanPolicy ;;
    sk2 <- yct_keygen msk """A"" and ""B""" HumanPolicy ;; ct <- yct_encrypt nc pk ["A"] "hello" ;;
    sk <- rlift (yct_forge sk1 sk2 "A" "B" """A""" HumanPolicy) ;;
    rret (yct_decrypt sk1 ct, yct_decrypt sk2 ct, yct_decrypt sk ct)) (@Err string, @Err string, Ok "hello").
Qed.
Print Assumptions C60_yct_refuted.

(** C61 is false. *)
Theorem C61_bd_opens_edited :
  (forall C : crypto,
  laws C ->
  forall (pk : bd_pk C) (msk : bd_msk C) (As : list (bd_auth C)) 
    (ts : nat -> F C) (is js : nat),
  bd_setup ts is = Ok (pk, msk, js) ->
  Forall (bd_authority pk msk) As ->
  bd_unique As ->
  forall (nonce pol data : string) (lang : language) (apks : list (bd_apk C))
    (ct : bd_ct C) (te : nat -> F C) (ie je : nat) (f : formula),
  Forall (bd_pk_issued pk As) apks ->
  bd_encrypt nonce pk apks pol lang data te ie = Ok (ct, je) ->
  parse pol lang = Ok (tree f) ->
  String.length nonce = 12 ->
  forall (uk : bd_uk C) (ct' : bd_ct C) (f' : formula),
  bd_user pk As uk ->
  (exists g : list (pak C),
     In g (groups (map bd_pak apks) f) /\
     incl (map pak_attr g) (map bask_attr (buk_ska uk))) ->
  bct_j ct' = bct_j ct ->
  Bdabe.bct_data ct' = Bdabe.bct_data ct ->
  parse (fst (Bdabe.bct_policy ct')) (snd (Bdabe.bct_policy ct')) = Ok (tree f') ->
  sat (owns (map bask_attr (buk_ska uk))) f' = true ->
  buk_ska uk <> [] -> bd_decrypt uk ct' = Ok data)%F.
Proof. exact @bd_opens_edited. Qed.
Print Assumptions C61_bd_opens_edited.

(** C61: one attribute of a later conjunction suffices. *)
Theorem C61_bd_split_opens :
  (forall C : crypto,
  laws C ->
  forall (pk : bd_pk C) (msk : bd_msk C) (As : list (bd_auth C)) 
    (ts : nat -> F C) (is js : nat),
  bd_setup ts is = Ok (pk, msk, js) ->
  Forall (bd_authority pk msk) As ->
  bd_unique As ->
  forall (nonce pol data : string) (lang : language) (apks : list (bd_apk C))
    (ct : bd_ct C) (te : nat -> F C) (ie je : nat) (f : formula),
  Forall (bd_pk_issued pk As) apks ->
  bd_encrypt nonce pk apks pol lang data te ie = Ok (ct, je) ->
  parse pol lang = Ok (tree f) ->
  String.length nonce = 12 ->
  forall (uk : bd_uk C) (x : formula) (l : list formula) (c : formula) 
    (a b : string) (r : list string) (pol' : string) (lang' : language) 
    (p' : nat),
  bd_user pk As uk ->
  f = FOr (x :: l) ->
  one_key (map bd_pak apks) f ->
  names x <> [] ->
  In c l ->
  names c = a :: b :: r ->
  map bask_attr (buk_ska uk) = [a] ->
  parse pol' lang' = Ok (tree (FLeaf a p')) ->
  bd_decrypt uk
    {|
      Bdabe.bct_policy := (pol', lang');
      bct_j := bct_j ct;
      Bdabe.bct_data := Bdabe.bct_data ct
    |} = Ok data)%F.
Proof. exact @bd_split_opens. Qed.
Print Assumptions C61_bd_split_opens.

(** C61, MKE08. *)
Theorem C61_mk_opens_edited :
  (forall C : crypto,
  laws C ->
  forall (pk : mk_pk C) (msk : mk_msk C) (As : list (mk_auth C)) 
    (ts : nat -> F C) (is js : nat),
  mk_setup ts is = Ok (pk, msk, js) ->
  mk_unique As ->
  forall (nonce pol data : string) (lang : language) (apks : list (mk_apk C))
    (ct : mk_ct C) (te : nat -> F C) (ie je : nat) (f : formula),
  Forall (mk_pk_issued pk As) apks ->
  mk_encrypt nonce pk apks pol lang data te ie = Ok (ct, je) ->
  parse pol lang = Ok (tree f) ->
  String.length nonce = 12 ->
  forall (uk : mk_uk C) (ct' : mk_ct C) (f' : formula),
  mk_user pk msk As uk ->
  (exists g : list (pak C),
     In g (groups (map mk_pak apks) f) /\
     incl (map pak_attr g) (map mask_attr (muk_ska uk))) ->
  mct_e ct' = mct_e ct ->
  mct_data ct' = mct_data ct ->
  parse (fst (mct_policy ct')) (snd (mct_policy ct')) = Ok (tree f') ->
  sat (owns (map mask_attr (muk_ska uk))) f' = true ->
  muk_ska uk <> [] -> mk_decrypt uk ct' = Ok data)%F.
Proof. exact @mk_opens_edited. Qed.
Print Assumptions C61_mk_opens_edited.

(** C61, MKE08. *)
Theorem C61_mk_split_opens :
  (forall C : crypto,
  laws C ->
  forall (pk : mk_pk C) (msk : mk_msk C) (As : list (mk_auth C)) 
    (ts : nat -> F C) (is js : nat),
  mk_setup ts is = Ok (pk, msk, js) ->
  mk_unique As ->
  forall (nonce pol data : string) (lang : language) (apks : list (mk_apk C))
    (ct : mk_ct C) (te : nat -> F C) (ie je : nat) (f : formula),
  Forall (mk_pk_issued pk As) apks ->
  mk_encrypt nonce pk apks pol lang data te ie = Ok (ct, je) ->
  parse pol lang = Ok (tree f) ->
  String.length nonce = 12 ->
  forall (uk : mk_uk C) (x : formula) (l : list formula) (c : formula) 
    (a b : string) (r : list string) (pol' : string) (lang' : language) 
    (p' : nat),
  mk_user pk msk As uk ->
  f = FOr (x :: l) ->
  one_key (map mk_pak apks) f ->
  names x <> [] ->
  In c l ->
  names c = a :: b :: r ->
  map mask_attr (muk_ska uk) = [a] ->
  parse pol' lang' = Ok (tree (FLeaf a p')) ->
  mk_decrypt uk
    {| mct_policy := (pol', lang'); mct_e := mct_e ct; mct_data := mct_data ct |} =
  Ok data)%F.
Proof. exact @mk_split_opens. Qed.
Print Assumptions C61_mk_split_opens.

(** A user with B alone; the policy asks for A, or for B and C. *)
Theorem C61_bd_refuted : exists (pk : bd_pk ZC) msk au uk apks s ct t i1 i2 i3 i4,
  bd_setup t 0 = Ok (pk, msk, i1) /\
  bd_authgen pk msk "x" t i1 = Ok (au, i2) /\
  bd_keygen pk au "bob" t i2 = Ok (uk, i3) /\
  omap (bd_request_pk pk au) ["x::A"; "x::B"; "x::C"] = Ok apks /\
  bd_request_sk (buk_pk uk) au "x::B" = Ok s /\
  bd_encrypt nc pk apks PX HumanPolicy "hello" t i3 = Ok (ct, i4) /\
  bd_decrypt (bd_add uk s) ct = Err /\
  bd_decrypt (bd_add uk s)
    (BdCt (C := ZC) ("""x::B""", HumanPolicy) (bct_j ct) (Bdabe.bct_data ct)) = Ok "hello".
Proof.
  by_run (' (pk, msk) <- bd_setup (C := ZC) ;; au <- bd_authgen pk msk "x" ;; uk <- bd_keygen pk au "bob" ;;
    apks <- rlift (omap (bd_request_pk pk au) ["x::A"; "x::B"; "x::C"]) ;;
    s <- rlift (bd_request_sk (buk_pk uk) au "x::B") ;;
    ct <- bd_encrypt nc pk apks PX HumanPolicy "hello" ;;
    rret (bd_decrypt (bd_add uk s) ct,
          bd_decrypt (bd_add uk s) (BdCt (C := ZC) ("""x::B""", HumanPolicy) (bct_j ct) (Bdabe.bct_data ct))))
    (@Err string, Ok "hello").
Qed.
Print Assumptions C61_bd_refuted.

Theorem C61_mk_refuted : exists (pk : mk_pk ZC) msk au uk apks s ct t i1 i2 i3 i4,
  mk_setup t 0 = Ok (pk, msk, i1) /\
  mk_authgen "x" t i1 = Ok (au, i2) /\
  mk_keygen pk msk "bob" t i2 = Ok (uk, i3) /\
  omap (fun a => mk_request_pk pk a au) ["x::A"; "x::B"; "x::C"] = Ok apks /\
  mk_request_sk (muk_pk uk) "x::B" au = Ok s /\
  mk_encrypt nc pk apks PX HumanPolicy "hello" t i3 = Ok (ct, i4) /\
  mk_decrypt (mk_add uk s) ct = Err /\
  mk_decrypt (mk_add uk s) (MkCt ("""x::B""", HumanPolicy) (mct_e ct) (mct_data ct)) = Ok "hello".
Proof.
  by_run (' (pk, msk) <- mk_setup (C := ZC) ;; au <- mk_authgen "x" ;; uk <- mk_keygen pk msk "bob" ;;
    apks <- rlift (omap (fun a => mk_request_pk pk a au) ["x::A"; "x::B"; "x::C"]) ;;
    s <- rlift (mk_request_sk (muk_pk uk) "x::B" au) ;;
    ct <- mk_encrypt nc pk apks PX HumanPolicy "hello" ;;
    rret (mk_decrypt (mk_add uk s) ct,
          mk_decrypt (mk_add uk s) (MkCt ("""x::B""", HumanPolicy) (mct_e ct) (mct_data ct))))
    (@Err string, Ok "hello").
Qed.
Print Assumptions C61_mk_refuted.

(** C62. *)
Theorem C62_ghw_outsource_hides :
  (forall C : crypto,
  laws C ->
  forall (tk : ghw_tk C) (tct : ghw_tct C) (m : GT C),
  gtct_t tct <> gtone C ->
  gtct_c tct <> m ->
  exists (z : F C) (sk : ghw_sk C),
    ghw_tkgen sk (fun _ : nat => z) 0%nat = Ok (tk, z, 1%nat) /\
    (forall data : string, ghw_decrypt_out tct z data = decrypt_symmetric m data))%F.
Proof. exact @ghw_outsource_hides. Qed.
Print Assumptions C62_ghw_outsource_hides.

Example C62_example : exists (tct : ghw_tct ZC) (m : GT ZC), gtct_t tct <> gtone ZC /\ gtct_c tct <> m.
Proof.
  exists (GhwTct (C := ZC) (ztape 3 1) (ztape 3 2)), (ztape 3 3).
  split; intros H; apply (f_equal zval) in H; vm_compute in H; discriminate H.
Qed.

(** C63 is false. *)
Theorem C63_label_collision :
  forall l t : nat, lab "01" l t = lab (col 1) l t.
Proof. exact @label_collision. Qed.
Print Assumptions C63_label_collision.

(** C63: a key for the attribute "01" opens every ciphertext-policy ciphertext. *)
Theorem C63_attribute_01_opens_cp :
  (forall C : crypto,
  laws C ->
  forall (nonce : string) (pk : ac_pk C) (msk : ac_msk C) (attrs : list string)
    (sk : ac_cpsk C) (pol : string) (lang : language) (data : string) 
    (ct : ac_cpct C) (f : formula) (ts : nat -> F C) (is js : nat) 
    (tk : nat -> F C) (ik jk : nat) (te : nat -> F C) (ie je : nat),
  ac_setup ts is = Ok (pk, msk, js) ->
  cp_keygen msk attrs tk ik = Ok (sk, jk) ->
  cp_encrypt nonce pk pol data lang te ie = Ok (ct, je) ->
  parse pol lang = Ok (tree f) ->
  String.length nonce = 12 ->
  In "01"%string attrs -> open_01 sk (acp_ct ct) = Some (Ok data))%F.
Proof. exact @attribute_01_opens_cp. Qed.
Print Assumptions C63_attribute_01_opens_cp.

(** C63: and, with such a key, every key-policy ciphertext. *)
Theorem C63_attribute_01_opens_kp :
  (forall C : crypto,
  laws C ->
  forall (nonce : string) (pk : ac_pk C) (msk : ac_msk C) (attrs : list string)
    (sk : ac_cpsk C) (attrs' : list string) (data : string) (ct : ac_kpct C)
    (ts : nat -> F C) (is js : nat) (tk : nat -> F C) (ik jk : nat) 
    (te : nat -> F C) (ie je : nat),
  ac_setup ts is = Ok (pk, msk, js) ->
  cp_keygen msk attrs tk ik = Ok (sk, jk) ->
  kp_encrypt nonce pk attrs' data te ie = Ok (ct, je) ->
  String.length nonce = 12 ->
  In "01"%string attrs -> open_01 sk (akp_ct ct) = Some (Ok data))%F.
Proof. exact @attribute_01_opens_kp. Qed.
Print Assumptions C63_attribute_01_opens_kp.

Theorem C63_ac17_refuted : exists (pk : ac_pk ZC) msk sk ct ct' ts i1 i2 i3 i4,
  ac_setup ts 0 = Ok (pk, msk, i1) /\
  cp_keygen msk ["01"] ts i1 = Ok (sk, i2) /\
  cp_encrypt nc pk P "hello" HumanPolicy ts i2 = Ok (ct, i3) /\
  kp_encrypt nc pk ["X"] "hallo" ts i3 = Ok (ct', i4) /\
  cp_decrypt sk ct = Err /\
  open_01 sk (acp_ct ct) = Some (Ok "hello") /\ open_01 sk (akp_ct ct') = Some (Ok "hallo").
Proof.
  by_run (' (pk, msk) <- ac_setup (C := ZC) ;; sk <- cp_keygen msk ["01"] ;;
          ct <- cp_encrypt nc pk P "hello" HumanPolicy ;; ct' <- kp_encrypt nc pk ["X"] "hallo" ;;
          rret (cp_decrypt sk ct, open_01 sk (acp_ct ct), open_01 sk (akp_ct ct')))
    (@Err string, Some (Ok "hello"), Some (Ok "hallo")).
Qed.
Print Assumptions C63_ac17_refuted.

(** C64 is false. *)
Theorem C64_bsw_cut_retarget :
  (forall C : crypto,
  laws C ->
  forall (nonce : string) (pk : bsw_pk C) (pol : string) (lang : language) 
    (pol' : string) (lang' : language) (f f' : formula) (data : string) 
    (t : nat -> F C) (i : nat) (ct : bsw_ct C) (j : nat),
  parse pol lang = Ok (tree f) ->
  parse pol' lang' = Ok (tree f') ->
  cut f = cut f' ->
  bsw_encrypt nonce pk pol lang data t i = Ok (ct, j) ->
  bsw_encrypt nonce pk pol' lang' data t i =
  Ok
    (bsw_retarget pol' lang'
       (map (fun x : string * nat => node_index (fst x) (snd x)) (leaves f')) ct, j))%F.
Proof. exact @bsw_cut_retarget. Qed.
Print Assumptions C64_bsw_cut_retarget.

(** C64: a key for the shorter name opens it. *)
Theorem C64_bsw_cut_opens :
  (forall C : crypto,
  laws C ->
  forall (nonce : string) (pk : bsw_pk C) (msk : bsw_msk C) (attrs : list string)
    (sk : bsw_sk C) (pol : string) (lang : language) (pol' : string) 
    (lang' : language) (f f' : formula) (data : string) (ct : bsw_ct C) 
    (ts : nat -> F C) (is js : nat) (tk : nat -> F C) (ik jk : nat) 
    (te : nat -> F C) (ie je : nat),
  bsw_setup ts is = Ok (pk, msk, js) ->
  bsw_keygen pk msk attrs tk ik = Ok (Some sk, jk) ->
  bsw_encrypt nonce pk pol lang data te ie = Ok (ct, je) ->
  parse pol lang = Ok (tree f) ->
  parse pol' lang' = Ok (tree f') ->
  cut f = cut f' ->
  String.length nonce = 12 ->
  arity2 f' = true ->
  NoDup (leaves f') ->
  plain_names f' = true ->
  small_ok C (and_width f') ->
  sat (owns attrs) f' = true ->
  bsw_decrypt sk
    (bsw_retarget pol' lang'
       (map (fun x : string * nat => node_index (fst x) (snd x)) (leaves f')) ct) =
  Ok data)%F.
Proof. exact @bsw_cut_opens. Qed.
Print Assumptions C64_bsw_cut_opens.

(** Encrypted for A_secret and B; the holder of A and B opens it. *)
Theorem C64_bsw_refuted : exists (pk : bsw_pk ZC) msk sk ct ts i1 i2 i3 i4,
  bsw_setup ts 0 = Ok (pk, msk, i1) /\
  bsw_keygen pk msk ["A"; "B"] ts i1 = Ok (Some sk, i2) /\
  bsw_encrypt nc pk """A_secret"" and ""B""" HumanPolicy "hello" ts i3 = Ok (ct, i4) /\
  bsw_decrypt sk ct = Err /\
  bsw_decrypt sk (bsw_retarget """A"" and ""B""" HumanPolicy ["A_2"; "B_10"] ct) = Ok "hello".
Proof.
  by_run (' (pk, msk) <- bsw_setup (C := ZC) ;; ko <- bsw_keygen pk msk ["A"; "B"] ;; sk <- rlift (unwrap ko) ;;
    ct <- bsw_encrypt nc pk """A_secret"" and ""B""" HumanPolicy "hello" ;;
    rret (bsw_decrypt sk ct, bsw_decrypt sk (bsw_retarget """A"" and ""B""" HumanPolicy ["A_2"; "B_10"] ct)))
    (@Err string, Ok "hello").
Qed.
Print Assumptions C64_bsw_refuted.

(** C64, GHW11. *)
Theorem C64_ghw_cut_retarget :
  (forall C : crypto,
  laws C ->
  forall (nonce : string) (pk : ghw_pk C) (pol : string) (lang : language) 
    (pol' : string) (lang' : language) (f f' : formula) (data : string) 
    (t : nat -> F C) (i : nat) (ct : ghw_ct C) (j : nat),
  parse pol lang = Ok (tree f) ->
  parse pol' lang' = Ok (tree f') ->
  cut f = cut f' ->
  ghw_encrypt nonce pk pol lang data t i = Ok (ct, j) ->
  ghw_encrypt nonce pk pol' lang' data t i =
  Ok
    (ghw_retarget pol' lang'
       (map (fun x : string * nat => node_index (fst x) (snd x)) (leaves f')) ct, j))%F.
Proof. exact @ghw_cut_retarget. Qed.
Print Assumptions C64_ghw_cut_retarget.

(** C64, AW11. *)
Theorem C64_aw_cut_retarget :
  (forall C : crypto,
  laws C ->
  forall (nonce : string) (gk : aw_gk C) (pks : list (aw_pk C)) 
    (pol : string) (lang : language) (pol' : string) (lang' : language) 
    (f f' : formula) (data : string) (t : nat -> F C) (i : nat) 
    (ct : aw_ct C) (j : nat),
  parse pol lang = Ok (tree f) ->
  parse pol' lang' = Ok (tree f') ->
  cut f = cut f' ->
  aw_encrypt nonce gk pks pol lang data t i = Ok (ct, j) ->
  aw_encrypt nonce gk pks pol' lang' data t i =
  Ok (aw_retarget pol' lang' (aw_labels pks f') ct, j))%F.
Proof. exact @aw_cut_retarget. Qed.
Print Assumptions C64_aw_cut_retarget.

(** C64, LSW: a key for the longer name is a key for the shorter. *)
Theorem C64_lsw_cut_rekey :
  (forall C : crypto,
  laws C ->
  forall (pk : lsw_pk C) (msk : lsw_msk C) (pol : string) (lang : language)
    (pol' : string) (lang' : language) (f f' : formula) (t : nat -> F C) 
    (i : nat) (sk : lsw_sk C) (j : nat),
  parse pol lang = Ok (tree f) ->
  parse pol' lang' = Ok (tree f') ->
  cut f = cut f' ->
  lsw_keygen pk msk pol lang t i = Ok (sk, j) ->
  lsw_keygen pk msk pol' lang' t i =
  Ok ({| lsk_policy := (pol', lang'); lsk_dj := lsk_dj sk |}, j))%F.
Proof. exact @lsw_cut_rekey. Qed.
Print Assumptions C64_lsw_cut_rekey.

(** C64, YCT14. *)
Theorem C64_yct_cut_rekey :
  (forall C : crypto,
  laws C ->
  forall (msk : yct_msk C) (pol : string) (lang : language) (pol' : string)
    (lang' : language) (f f' : formula) (t : nat -> F C) (i : nat) 
    (sk : yct_sk C) (j : nat),
  parse pol lang = Ok (tree f) ->
  parse pol' lang' = Ok (tree f') ->
  cut f = cut f' ->
  yct_keygen msk pol lang t i = Ok (sk, j) ->
  yct_keygen msk pol' lang' t i =
  Ok ({| ysk_policy := (pol', lang'); ysk_du := ysk_du sk |}, j))%F.
Proof. exact @yct_cut_rekey. Qed.
Print Assumptions C64_yct_cut_rekey.

