(** * PropertiesSelected: what decryption reads, and whether all who may read agree (C151)

    The statements are about any two keys and any two ciphertexts, whoever made them.  The proofs are in
    SelectedProofs.v. *)
From Coq Require Import String List Bool Arith ZArith Lia.
From Verif Require Import Base Crypto Policy Parse Spec SchemeLib Symmetric Tools Sharing Bdabe Mke08 Bsw Ghw11 Lsw Yct14 Ac17 Aw11
  EquationProofs Instance Sessions Witnesses InsiderWitnesses Selected SelectedProofs.
Import ListNotations.
Local Open Scope string_scope.
Local Open Scope rand_scope.

(** What is selected is a leaf of the policy whose name is held. *)
Theorem C151_held : forall attrs p n l, selected attrs p n l ->
  exists f c, parse (fst p) (snd p) = Ok (tree f) /\ In (n, c) (leaves f) /\ l = node_index n c /\ In n attrs.
Proof. exact selected_held. Qed.
Print Assumptions C151_held.

(** A policy with two alternatives. *)
Definition AorB : string := """A"" or ""B""".

Lemma only_A attrs n l : In "A" attrs -> selected attrs (AorB, HumanPolicy) n l -> n = "A" /\ l = "A_2".
Proof.
  intros A (v & sel & P & Pr & I). cbn [fst snd] in P.
  assert (v = PObj Or (PArr [PStr "A" 2; PStr "B" 9])) as ->.
  { assert (Q : parse AorB HumanPolicy = Ok (PObj Or (PArr [PStr "A" 2; PStr "B" 9]))) by (vm_compute; reflexivity).
    congruence. }
  cbn [calc_pruned length Nat.leb] in Pr.
  assert (contains attrs "A" = true) as Ct.
  { unfold contains. assert (J : In "A" (filter (fun i => seqb i "A") attrs)) by (apply filter_In; split; [exact A|reflexivity]).
    destruct (filter _ attrs); [destruct J|reflexivity]. }
  rewrite Ct in Pr. cbn [unwrap_res obind fst snd] in Pr. injection Pr as <-. destruct I as [I|[]]. injection I as <- <-.
  split; reflexivity.
Qed.

Example C151_example_held : selected ["A"] (AorB, HumanPolicy) "A" "A_2".
Proof. eexists _, _. split; [vm_compute; reflexivity|]. split; [reflexivity|left; reflexivity]. Qed.

Theorem C151_bsw : forall (C : crypto) (sk sk' : bsw_sk C) ct ct',
  bsk_d sk = bsk_d sk' -> map b_string (bsk_dj sk) = map b_string (bsk_dj sk') ->
  bct_policy ct = bct_policy ct' -> bct_c ct = bct_c ct' -> bct_cp ct = bct_cp ct' -> bct_data ct = bct_data ct' ->
  (forall n l, selected (map b_string (bsk_dj sk)) (bct_policy ct) n l ->
     entry_of b_string (bsk_dj sk) n = entry_of b_string (bsk_dj sk') n /\
     entry_of b_string (bct_cy ct) l = entry_of b_string (bct_cy ct') l) ->
  bsw_decrypt sk ct = bsw_decrypt sk' ct'.
Proof. exact @bsw_selected. Qed.
Print Assumptions C151_bsw.

(** Any two values in the entry of the other alternative, in the key and in the ciphertext. *)
Example C151_example_bsw : forall (C : crypto) d c cp data x y (u u' v v' : G1 C) w,
  bsw_decrypt (BswSk d [BAttr "A" x y; BAttr "B" u y]) (BswCt (AorB, HumanPolicy) c cp [BAttr "A_2" x y; BAttr "B_9" v w] data) =
  bsw_decrypt (BswSk d [BAttr "A" x y; BAttr "B" u' y]) (BswCt (AorB, HumanPolicy) c cp [BAttr "A_2" x y; BAttr "B_9" v' w] data).
Proof.
  intros. apply C151_bsw; try reflexivity. intros n l S. apply only_A in S as [-> ->]; [split; reflexivity|left; reflexivity].
Qed.

Theorem C151_ghw : forall (C : crypto) (tk tk' : ghw_tk C) ct ct',
  gtk_k tk = gtk_k tk' -> gtk_l tk = gtk_l tk' -> map fst (gtk_attr tk) = map fst (gtk_attr tk') ->
  gct_policy ct = gct_policy ct' -> gct_c ct = gct_c ct' -> gct_c1 ct = gct_c1 ct' ->
  (forall n l, selected (map fst (gtk_attr tk)) (gct_policy ct) n l ->
     entry_of fst (gtk_attr tk) n = entry_of fst (gtk_attr tk') n /\
     entry_of fst (gct_cidi ct) l = entry_of fst (gct_cidi ct') l) ->
  ghw_transform ct tk = ghw_transform ct' tk'.
Proof. exact @ghw_selected. Qed.
Print Assumptions C151_ghw.

Example C151_example_ghw : forall (C : crypto) k l0 c c1 data data' x (y : G1 C * G1 C) u u' v v',
  ghw_transform (GhwCt (AorB, HumanPolicy) c c1 [("A_2", y); ("B_9", v)] data) (GhwTk k l0 [("A", x); ("B", u)]) =
  ghw_transform (GhwCt (AorB, HumanPolicy) c c1 [("A_2", y); ("B_9", v')] data') (GhwTk k l0 [("A", x); ("B", u')]).
Proof.
  intros. apply C151_ghw; try reflexivity. intros n l S. apply only_A in S as [-> ->]; [split; reflexivity|left; reflexivity].
Qed.

Theorem C151_lsw : forall (C : crypto) (sk sk' : lsw_sk C) ct ct',
  lsk_policy sk = lsk_policy sk' -> map le_name (lct_ej ct) = map le_name (lct_ej ct') ->
  lct_e1 ct = lct_e1 ct' -> lct_e2 ct = lct_e2 ct' -> lct_ct ct = lct_ct ct' ->
  (forall n l, selected (map le_name (lct_ej ct)) (lsk_policy sk) n l ->
     option_map (fun d => (ld_1 d, ld_2 d)) (entry_of ld_name (lsk_dj sk) n) =
       option_map (fun d => (ld_1 d, ld_2 d)) (entry_of ld_name (lsk_dj sk') n) /\
     option_map le_1 (entry_of le_name (lct_ej ct) n) = option_map le_1 (entry_of le_name (lct_ej ct') n)) ->
  lsw_decrypt sk ct = lsw_decrypt sk' ct'.
Proof. exact @lsw_selected. Qed.
Print Assumptions C151_lsw.

(** Even of the selected entries not all components are read. *)
Example C151_example_lsw : forall (C : crypto) (x e f f' g g' h h' : G1 C) y d d' e1 e2 data,
  lsw_decrypt (LswSk (AorB, HumanPolicy) [LswDj "A" x y f g h; d]) (LswCt e1 e2 [LswEj "A" e f g; LswEj "B" f g h] data) =
  lsw_decrypt (LswSk (AorB, HumanPolicy) [LswDj "A" x y f' g' h'; d']) (LswCt e1 e2 [LswEj "A" e f' g'; LswEj "B" f' g' h'] data).
Proof.
  intros. apply C151_lsw; try reflexivity. intros n l S. apply only_A in S as [-> ->]; [split; reflexivity|left; reflexivity].
Qed.

Theorem C151_yct : forall (C : crypto) (sk sk' : yct_sk C) ct ct',
  ysk_policy sk = ysk_policy sk' -> map y_name (yct_attrs ct) = map y_name (yct_attrs ct') -> yct_data ct = yct_data ct' ->
  (forall n l, selected (map y_name (yct_attrs ct)) (ysk_policy sk) n l ->
     entry_of y_name (ysk_du sk) n = entry_of y_name (ysk_du sk') n /\
     entry_of y_name (yct_attrs ct) n = entry_of y_name (yct_attrs ct') n) ->
  yct_decrypt sk ct = yct_decrypt sk' ct'.
Proof. exact @yct_selected. Qed.
Print Assumptions C151_yct.

Example C151_example_yct : forall (C : crypto) (x y : option (yct_type C)) d d' u u' data,
  yct_decrypt (YctSk (AorB, HumanPolicy) [YAttr "A" x; d]) (YctCt [YAttr "A" y; YAttr "B" u] data) =
  yct_decrypt (YctSk (AorB, HumanPolicy) [YAttr "A" x; d']) (YctCt [YAttr "A" y; YAttr "B" u'] data).
Proof.
  intros. apply C151_yct; try reflexivity. intros n l S. apply only_A in S as [-> ->]; [split; reflexivity|left; reflexivity].
Qed.

Theorem C151_aw : forall (C : crypto) gk (sk sk' : aw_sk C) ct ct',
  awsk_gid sk = awsk_gid sk' -> map fst (awsk_attr sk) = map fst (awsk_attr sk') ->
  awct_policy ct = awct_policy ct' -> awct_c0 ct = awct_c0 ct' -> awct_data ct = awct_data ct' ->
  (forall n l, selected (map fst (awsk_attr sk)) (awct_policy ct) n l ->
     entry_of fst (awsk_attr sk) n = entry_of fst (awsk_attr sk') n /\
     entry_of n4 (awct_c ct) l = entry_of n4 (awct_c ct') l) ->
  aw_decrypt gk sk ct = aw_decrypt gk sk' ct'.
Proof. exact @aw_selected. Qed.
Print Assumptions C151_aw.

Example C151_example_aw : forall (C : crypto) gk id c0 data (x u u' : G1 C) y (z w v v' : G2 C),
  aw_decrypt gk (AwSk id [("A", x); ("B", u)]) (AwCt (AorB, HumanPolicy) c0 [("A_2", y, z, w); ("B_9", y, z, v)] data) =
  aw_decrypt gk (AwSk id [("A", x); ("B", u')]) (AwCt (AorB, HumanPolicy) c0 [("A_2", y, z, w); ("B_9", y, z, v')] data).
Proof.
  intros. apply C151_aw; try reflexivity. intros n l S. apply only_A in S as [-> ->]; [split; reflexivity|left; reflexivity].
Qed.

(** AC17 adds up all entries with the name of a selected leaf. *)
Theorem C151_ac17_cp : forall (C : crypto) (sk sk' : ac_cpsk C) ct ct',
  acps_attr sk = acps_attr sk' -> acp_policy ct = acp_policy ct' ->
  ask_k0 (acps_sk sk) = ask_k0 (acps_sk sk') -> ask_kp (acps_sk sk) = ask_kp (acps_sk sk') ->
  act_c0 (acp_ct ct) = act_c0 (acp_ct ct') -> act_cp (acp_ct ct) = act_cp (acp_ct ct') -> act_ct (acp_ct ct) = act_ct (acp_ct ct') ->
  (forall n l, selected (acps_attr sk) (acp_policy ct) n l ->
     entries_of fst (ask_k (acps_sk sk)) n = entries_of fst (ask_k (acps_sk sk')) n /\
     entries_of fst (act_c (acp_ct ct)) n = entries_of fst (act_c (acp_ct ct')) n) ->
  cp_decrypt sk ct = cp_decrypt sk' ct'.
Proof. exact @cp_selected. Qed.
Print Assumptions C151_ac17_cp.

(** In keys for policies the part [k_p] is not read at all. *)
Theorem C151_ac17_kp : forall (C : crypto) (sk sk' : ac_kpsk C) ct ct',
  akp_attr ct = akp_attr ct' -> akps_policy sk = akps_policy sk' -> ask_k0 (akps_sk sk) = ask_k0 (akps_sk sk') ->
  act_c0 (akp_ct ct) = act_c0 (akp_ct ct') -> act_cp (akp_ct ct) = act_cp (akp_ct ct') -> act_ct (akp_ct ct) = act_ct (akp_ct ct') ->
  (forall n l, selected (akp_attr ct) (akps_policy sk) n l ->
     entries_of fst (ask_k (akps_sk sk)) n = entries_of fst (ask_k (akps_sk sk')) n /\
     entries_of fst (act_c (akp_ct ct)) n = entries_of fst (act_c (akp_ct ct')) n) ->
  kp_decrypt sk ct = kp_decrypt sk' ct'.
Proof. exact @kp_selected. Qed.
Print Assumptions C151_ac17_kp.

Example C151_example_ac17 : forall (C : crypto) k0 kp kp' c0 cp data (x y z u u' v v' : list (G1 C)),
  cp_decrypt (AcCpSk ["A"; "B"] (AcSk k0 [("A", x); ("B", u)] kp)) (AcCpCt (AorB, HumanPolicy) (AcCt c0 [("B", v); ("A", y); ("A", z)] cp data)) =
  cp_decrypt (AcCpSk ["A"; "B"] (AcSk k0 [("A", x); ("B", u')] kp)) (AcCpCt (AorB, HumanPolicy) (AcCt c0 [("A", y); ("A", z); ("B", v')] cp data)) /\
  kp_decrypt (AcKpSk (AorB, HumanPolicy) (AcSk k0 [("A", x); ("B", u)] kp)) (AcKpCt ["A"; "B"] (AcCt c0 [("B", v); ("A", y)] cp data)) =
  kp_decrypt (AcKpSk (AorB, HumanPolicy) (AcSk k0 [("A", x); ("B", u')] kp')) (AcKpCt ["A"; "B"] (AcCt c0 [("A", y); ("B", v')] cp data)).
Proof.
  intros. split; [apply C151_ac17_cp|apply C151_ac17_kp]; try reflexivity; intros n l S;
    (apply only_A in S as [-> ->]; [split; reflexivity|left; reflexivity]).
Qed.

(** BDABE and MKE08 read the first block all of whose names are held. *)
Theorem C151_bdabe : forall (C : crypto) (uk uk' : bd_uk C) ct ct' pre pre' b post post',
  buk_sk uk = buk_sk uk' -> map bask_attr (buk_ska uk) = map bask_attr (buk_ska uk') ->
  Bdabe.bct_policy ct = Bdabe.bct_policy ct' -> Bdabe.bct_data ct = Bdabe.bct_data ct' ->
  bct_j ct = List.app pre (b :: post) -> bct_j ct' = List.app pre' (b :: post') ->
  (forall x, In x (List.app pre pre') -> ~ incl (bt_attr x) (map bask_attr (buk_ska uk))) ->
  incl (bt_attr b) (map bask_attr (buk_ska uk)) ->
  (forall n, In n (bt_attr b) -> entry_of bask_attr (buk_ska uk) n = entry_of bask_attr (buk_ska uk') n) ->
  bd_decrypt uk ct = bd_decrypt uk' ct'.
Proof. exact @bd_selected. Qed.
Print Assumptions C151_bdabe.

Theorem C151_mke : forall (C : crypto) (uk uk' : mk_uk C) ct ct' pre pre' b post post',
  muk_sk uk = muk_sk uk' -> map mask_attr (muk_ska uk) = map mask_attr (muk_ska uk') ->
  mct_policy ct = mct_policy ct' -> mct_data ct = mct_data ct' ->
  mct_e ct = List.app pre (b :: post) -> mct_e ct' = List.app pre' (b :: post') ->
  (forall x, In x (List.app pre pre') -> ~ incl (mj_str x) (map mask_attr (muk_ska uk))) ->
  incl (mj_str b) (map mask_attr (muk_ska uk)) ->
  (forall n, In n (mj_str b) -> entry_of mask_attr (muk_ska uk) n = entry_of mask_attr (muk_ska uk') n) ->
  mk_decrypt uk ct = mk_decrypt uk' ct'.
Proof. exact @mk_selected. Qed.
Print Assumptions C151_mke.

(** The first block needs a name that is not held, the last is behind one that fits. *)
Example C151_example_blocks : forall (C : crypto) (p p' : bd_upk C) s (x u u' : G1 C) y p1 data b b' d d' d2,
  bt_attr d = ["Z"] -> bt_attr d' = ["Z"; "A"] -> bt_attr b = ["A"] ->
  bd_decrypt (BdUk s p [BdAsk "A" x y; BdAsk "B" u y]) (BdCt p1 [d; b; b'] data) =
  bd_decrypt (BdUk s p' [BdAsk "A" x y; BdAsk "B" u' y]) (BdCt p1 [d'; b; d2; b'] data).
Proof.
  intros C p p' s x u u' y p1 data b b' d d' d2 Hd Hd' Hb.
  apply (C151_bdabe C _ _ _ _ [d] [d'] b [b'] [d2; b']); try reflexivity; cbn [buk_ska map bask_attr].
  - intros z [<-|[<-|[]]] I; [rewrite Hd in I|rewrite Hd' in I]; destruct (I "Z" (or_introl eq_refl)) as [X|[X|[]]]; discriminate X.
  - rewrite Hb. intros z [<-|[]]. left. reflexivity.
  - rewrite Hb. intros z [<-|[]]. reflexivity.
Qed.

Example C151_example_conjunctions : forall (C : crypto) (p p' : mk_upk C) s (x u u' : G1 C) y p1 data b b' d d' d2,
  mj_str d = ["Z"] -> mj_str d' = ["Z"; "A"] -> mj_str b = ["A"] ->
  mk_decrypt (MkUk s p [MkAsk "A" x y; MkAsk "B" u y]) (MkCt p1 [d; b; b'] data) =
  mk_decrypt (MkUk s p' [MkAsk "A" x y; MkAsk "B" u' y]) (MkCt p1 [d'; b; d2; b'] data).
Proof.
  intros C p p' s x u u' y p1 data b b' d d' d2 Hd Hd' Hb.
  apply (C151_mke C _ _ _ _ [d] [d'] b [b'] [d2; b']); try reflexivity; cbn [muk_ska map mask_attr].
  - intros z [<-|[<-|[]]] I; [rewrite Hd in I|rewrite Hd' in I]; destruct (I "Z" (or_introl eq_refl)) as [X|[X|[]]]; discriminate X.
  - rewrite Hb. intros z [<-|[]]. left. reflexivity.
  - rewrite Hb. intros z [<-|[]]. reflexivity.
Qed.

(** That all who may open a ciphertext get the same from it is false when it was changed: with an
    entry changed one of two fitting keys opens it and the other fails. *)
Theorem C151_bsw_agree_refuted : exists (pk : bsw_pk ZC) msk i skA j skB k ct m,
  bsw_setup (C := ZC) (ztape 3) 0 = Ok (pk, msk, i) /\
  bsw_keygen pk msk ["A"] (ztape 5) 0 = Ok (Some skA, j) /\ bsw_keygen pk msk ["B"] (ztape 6) 0 = Ok (Some skB, k) /\
  bsw_encrypt nc pk AorB HumanPolicy "m" (ztape 7) 0 = Ok (ct, m) /\
  bsw_decrypt skA (bsw_spoilt "B_9" ct) = Ok "m" /\ bsw_decrypt skB (bsw_spoilt "B_9" ct) = Err.
Proof.
  anew_steps (' (pk, msk) <- anew (ztape 3) (bsw_setup (C := ZC)) ;;
    ko <- anew (ztape 5) (bsw_keygen pk msk ["A"]) ;; skA <- rlift (unwrap ko) ;;
    ko' <- anew (ztape 6) (bsw_keygen pk msk ["B"]) ;; skB <- rlift (unwrap ko') ;;
    ct <- anew (ztape 7) (bsw_encrypt nc pk AorB HumanPolicy "m") ;;
    rret (bsw_decrypt skA (bsw_spoilt "B_9" ct), bsw_decrypt skB (bsw_spoilt "B_9" ct))) (@Ok string "m", @Err string).
  give; congruence.
Qed.
Print Assumptions C151_bsw_agree_refuted.

Definition PolA : string := """A""".
Definition PolB : string := """B""".
Theorem C151_lsw_agree_refuted : exists (pk : lsw_pk ZC) msk i skA j skB k ct m,
  lsw_setup (C := ZC) (ztape 3) 0 = Ok (pk, msk, i) /\
  lsw_keygen pk msk PolA HumanPolicy (ztape 5) 0 = Ok (skA, j) /\ lsw_keygen pk msk PolB HumanPolicy (ztape 6) 0 = Ok (skB, k) /\
  lsw_encrypt nc pk ["A"; "B"] "m" (ztape 7) 0 = Ok (ct, m) /\
  lsw_decrypt skA (lsw_spoilt "B" ct) = Ok "m" /\ lsw_decrypt skB (lsw_spoilt "B" ct) = Err.
Proof.
  anew_steps (' (pk, msk) <- anew (ztape 3) (lsw_setup (C := ZC)) ;;
    skA <- anew (ztape 5) (lsw_keygen pk msk PolA HumanPolicy) ;;
    skB <- anew (ztape 6) (lsw_keygen pk msk PolB HumanPolicy) ;;
    ct <- anew (ztape 7) (lsw_encrypt nc pk ["A"; "B"] "m") ;;
    rret (lsw_decrypt skA (lsw_spoilt "B" ct), lsw_decrypt skB (lsw_spoilt "B" ct))) (@Ok string "m", @Err string).
  give; congruence.
Qed.
Print Assumptions C151_lsw_agree_refuted.

Definition XorX : string := """x::A"" or ""x::B""".
Theorem C151_bdabe_agree_refuted : exists (pk : bd_pk ZC) msk i au j ua k ub m k1 k2 s1 s2 ct n,
  bd_setup (C := ZC) (ztape 3) 0 = Ok (pk, msk, i) /\ bd_authgen pk msk "x" (ztape 4) 0 = Ok (au, j) /\
  bd_keygen pk au "ann" (ztape 5) 0 = Ok (ua, k) /\ bd_keygen pk au "bob" (ztape 6) 0 = Ok (ub, m) /\
  bd_request_pk pk au "x::A" = Ok k1 /\ bd_request_pk pk au "x::B" = Ok k2 /\
  bd_request_sk (buk_pk ua) au "x::A" = Ok s1 /\ bd_request_sk (buk_pk ub) au "x::B" = Ok s2 /\
  bd_encrypt nc pk [k1; k2] XorX HumanPolicy "m" (ztape 7) 0 = Ok (ct, n) /\
  bd_decrypt (bd_add ua s1) (bd_spoilt "x::B" ct) = Ok "m" /\ bd_decrypt (bd_add ub s2) (bd_spoilt "x::B" ct) = Err.
Proof.
  anew_steps (' (pk, msk) <- anew (ztape 3) (bd_setup (C := ZC)) ;;
    au <- anew (ztape 4) (bd_authgen pk msk "x") ;; ua <- anew (ztape 5) (bd_keygen pk au "ann") ;; ub <- anew (ztape 6) (bd_keygen pk au "bob") ;;
    k1 <- rlift (bd_request_pk pk au "x::A") ;; k2 <- rlift (bd_request_pk pk au "x::B") ;;
    s1 <- rlift (bd_request_sk (buk_pk ua) au "x::A") ;; s2 <- rlift (bd_request_sk (buk_pk ub) au "x::B") ;;
    ct <- anew (ztape 7) (bd_encrypt nc pk [k1; k2] XorX HumanPolicy "m") ;;
    rret (bd_decrypt (bd_add ua s1) (bd_spoilt "x::B" ct), bd_decrypt (bd_add ub s2) (bd_spoilt "x::B" ct))) (@Ok string "m", @Err string).
  give; congruence.
Qed.
Print Assumptions C151_bdabe_agree_refuted.

Theorem C151_mke_agree_refuted : exists (pk : mk_pk ZC) msk i au j ua k ub m k1 k2 s1 s2 ct n,
  mk_setup (C := ZC) (ztape 3) 0 = Ok (pk, msk, i) /\ mk_authgen (C := ZC) "x" (ztape 4) 0 = Ok (au, j) /\
  mk_keygen pk msk "ann" (ztape 5) 0 = Ok (ua, k) /\ mk_keygen pk msk "bob" (ztape 6) 0 = Ok (ub, m) /\
  mk_request_pk pk "x::A" au = Ok k1 /\ mk_request_pk pk "x::B" au = Ok k2 /\
  mk_request_sk (muk_pk ua) "x::A" au = Ok s1 /\ mk_request_sk (muk_pk ub) "x::B" au = Ok s2 /\
  mk_encrypt nc pk [k1; k2] XorX HumanPolicy "m" (ztape 7) 0 = Ok (ct, n) /\
  mk_decrypt (mk_add ua s1) (mk_spoilt "x::B" ct) = Ok "m" /\ mk_decrypt (mk_add ub s2) (mk_spoilt "x::B" ct) = Err.
Proof.
  anew_steps (' (pk, msk) <- anew (ztape 3) (mk_setup (C := ZC)) ;;
    au <- anew (ztape 4) (mk_authgen (C := ZC) "x") ;; ua <- anew (ztape 5) (mk_keygen pk msk "ann") ;; ub <- anew (ztape 6) (mk_keygen pk msk "bob") ;;
    k1 <- rlift (mk_request_pk pk "x::A" au) ;; k2 <- rlift (mk_request_pk pk "x::B" au) ;;
    s1 <- rlift (mk_request_sk (muk_pk ua) "x::A" au) ;; s2 <- rlift (mk_request_sk (muk_pk ub) "x::B" au) ;;
    ct <- anew (ztape 7) (mk_encrypt nc pk [k1; k2] XorX HumanPolicy "m") ;;
    rret (mk_decrypt (mk_add ua s1) (mk_spoilt "x::B" ct), mk_decrypt (mk_add ub s2) (mk_spoilt "x::B" ct))) (@Ok string "m", @Err string).
  give; congruence.
Qed.
Print Assumptions C151_mke_agree_refuted.
