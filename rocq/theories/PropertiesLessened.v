(** * PropertiesLessened: alternatives deleted anywhere in a policy (C155)

    The proofs are in LessenedProofs.v. *)
From Coq Require Import String List Bool Arith ZArith Lia.
From Verif Require Import Base Crypto Policy Parse Spec SchemeLib Symmetric Draws Bsw Ghw11 Lsw Yct14
  Instance Sessions Witnesses InsiderWitnesses Alternative Lessened LessenedProofs.
Import ListNotations.
Local Open Scope string_scope.
Local Open Scope rand_scope.
Local Open Scope list_scope.

(** What is left asks for no less, and its leaves are those kept. *)
Theorem C155_narrower : forall own f f' km cm, lessened f f' km cm -> sat own f' = true -> sat own f = true.
Proof. exact lessened_sat_one. Qed.
Print Assumptions C155_narrower.

Theorem C155_names : forall f f' km cm, lessened f f' km cm -> map fst (leaves f') = those km (map fst (leaves f)).
Proof. exact lessened_names_one. Qed.
Print Assumptions C155_names.

Theorem C155_bsw : forall (C : crypto), laws C -> forall nonce (pk : bsw_pk C) pol lang pol' lang' pt f f' km cm t i ct j,
  parse pol lang = Ok (tree f) -> parse pol' lang' = Ok (tree f') -> lessened f f' km cm ->
  bsw_encrypt nonce pk pol lang pt t i = Ok (ct, j) ->
  bsw_encrypt nonce pk pol' lang' pt (kept ([true; true] ++ cm) t i) 0 =
    Ok (BswCt (pol', lang') (bct_c ct) (bct_cp ct) (bsw_marked (marks f') (those km (bct_cy ct))) (bct_data ct), 2 + coins f').
Proof. exact @bsw_lessened. Qed.
Print Assumptions C155_bsw.

Theorem C155_ghw : forall (C : crypto), laws C -> forall nonce (pk : ghw_pk C) pol lang pol' lang' pt f f' km cm t i ct j,
  parse pol lang = Ok (tree f) -> parse pol' lang' = Ok (tree f') -> lessened f f' km cm ->
  ghw_encrypt nonce pk pol lang pt t i = Ok (ct, j) ->
  ghw_encrypt nonce pk pol' lang' pt (kept ([true; true] ++ cm ++ km) t i) 0 =
    Ok (GhwCt (pol', lang') (gct_c ct) (gct_c1 ct) (ghw_marked (marks f') (those km (gct_cidi ct))) (gct_data ct), 2 + coins f' + length (leaves f')).
Proof. exact @ghw_lessened. Qed.
Print Assumptions C155_ghw.

Theorem C155_lsw : forall (C : crypto), laws C -> forall (pk : lsw_pk C) msk pol lang pol' lang' f f' km cm t i sk j,
  parse pol lang = Ok (tree f) -> parse pol' lang' = Ok (tree f') -> lessened f f' km cm ->
  lsw_keygen pk msk pol lang t i = Ok (sk, j) ->
  lsw_keygen pk msk pol' lang' (kept (cm ++ km) t i) 0 = Ok (LswSk (pol', lang') (those km (lsk_dj sk)), coins f' + length (leaves f')).
Proof. exact @lsw_lessened. Qed.
Print Assumptions C155_lsw.

(** YCT14 leaves out names that the master key has no value for. *)
Theorem C155_yct : forall (C : crypto), laws C -> forall (msk : yct_msk C) pol lang pol' lang' f f' km cm t i sk j,
  parse pol lang = Ok (tree f) -> parse pol' lang' = Ok (tree f') -> lessened f f' km cm ->
  yct_keygen msk pol lang t i = Ok (sk, j) ->
  yct_keygen msk pol' lang' (kept cm t i) 0 =
    Ok (YctSk (pol', lang') (those (those (map (yct_knows msk) (map remove_index (map fst (leaves f)))) km) (ysk_du sk)), coins f').
Proof. exact @yct_lessened. Qed.
Print Assumptions C155_yct.

(** A disjunction inside a conjunction, two ways to delete of it, and the texts; not in /repo. *)
Definition QD : string := """A"" and (""B"" or (""C"" and ""D"") or ""E"")".
Definition QD1 : string := """A"" and (""B"" or ""E"")".
Definition QD2 : string := """A"" and (""C"" and ""D"")".
Definition fD : formula := FAnd [FLeaf "A" 2; FOr [FLeaf "B" 11; FAnd [FLeaf "C" 19; FLeaf "D" 27]; FLeaf "E" 35]].
Definition fD1 : formula := FAnd [FLeaf "A" 2; FOr [FLeaf "B" 11; FLeaf "E" 18]].
Definition fD2 : formula := FAnd [FLeaf "A" 2; FAnd [FLeaf "C" 11; FLeaf "D" 19]].

Example C155_example :
  parse QD HumanPolicy = Ok (tree fD) /\ parse QD1 HumanPolicy = Ok (tree fD1) /\ parse QD2 HumanPolicy = Ok (tree fD2) /\
  lessened fD fD1 [true; true; false; false; true] [true; false] /\
  lessened fD fD2 [true; false; true; true; false] [true; true] /\
  exists bpk bmsk bi bct bj gpk gmsk gi gct gj lpk lmsk li lsk lj ypk ymsk yi ysk yj,
  bsw_setup (C := ZC) (ztape 3) 0 = Ok (bpk, bmsk, bi) /\ bsw_encrypt nc bpk QD HumanPolicy "m" (ztape 5) 0 = Ok (bct, bj) /\
  ghw_setup (C := ZC) (ztape 3) 0 = Ok (gpk, gmsk, gi) /\ ghw_encrypt nc gpk QD HumanPolicy "m" (ztape 5) 0 = Ok (gct, gj) /\
  lsw_setup (C := ZC) (ztape 3) 0 = Ok (lpk, lmsk, li) /\ lsw_keygen lpk lmsk QD HumanPolicy (ztape 5) 0 = Ok (lsk, lj) /\
  yct_setup (C := ZC) ["A"; "B"; "C"; "D"] (ztape 3) 0 = Ok (ypk, ymsk, yi) /\ yct_keygen ymsk QD HumanPolicy (ztape 5) 0 = Ok (ysk, yj).
Proof.
  split; [vm_compute; reflexivity|]. split; [vm_compute; reflexivity|]. split; [vm_compute; reflexivity|].
  split.
  { refine (L_and [_; _] [_; _] _ [false] _). apply (LA_cons _ _ _ _ [true] [] [true; false; false; true] [false]); [constructor|].
    apply (LA_cons _ _ _ _ [true; false; false; true] [false] [] []); [|constructor]. apply L_or.
    apply (LS_keep _ _ _ _ [true] [] [false; false; true] [false]); [constructor|].
    apply (LS_drop (FAnd [FLeaf _ _; FLeaf _ _]) _ _ [true] []). apply (LS_keep _ _ _ _ [true] [] [] []); constructor. }
  split.
  { refine (L_and [_; _] [_; _] _ [true] _). apply (LA_cons _ _ _ _ [true] [] [false; true; true; false] [true]); [constructor|].
    apply (LA_cons _ _ _ _ [false; true; true; false] [true] [] []); [|constructor]. apply L_one.
    apply (LS_drop (FLeaf _ _) _ _ [true; true; false] [true]). apply (LS_keep _ _ _ _ [true; true] [true] [false] []).
    - refine (L_and [_; _] [_; _] _ [] _). apply (LA_cons _ _ _ _ [true] [] [true] []); [constructor|]. apply (LA_cons _ _ _ _ [true] [] [] []); constructor.
    - apply (LS_drop (FLeaf _ _) _ _ [] []). constructor. }
  anew_steps (' (bpk, bmsk) <- anew (ztape 3) (bsw_setup (C := ZC)) ;;
    bct <- anew (ztape 5) (bsw_encrypt nc bpk QD HumanPolicy "m") ;;
    ' (gpk, gmsk) <- anew (ztape 3) (ghw_setup (C := ZC)) ;;
    gct <- anew (ztape 5) (ghw_encrypt nc gpk QD HumanPolicy "m") ;;
    ' (lpk, lmsk) <- anew (ztape 3) (lsw_setup (C := ZC)) ;;
    lsk <- anew (ztape 5) (lsw_keygen lpk lmsk QD HumanPolicy) ;;
    ' (ypk, ymsk) <- anew (ztape 3) (yct_setup (C := ZC) ["A"; "B"; "C"; "D"]) ;;
    ysk <- anew (ztape 5) (yct_keygen ymsk QD HumanPolicy) ;; rret tt) tt.
  give.
Qed.
