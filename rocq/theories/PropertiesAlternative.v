(** * PropertiesAlternative: one alternative of a policy (C150)

    Of a BSW or GHW11 ciphertext for a disjunction anyone can make one for a single alternative, and
    of an LSW or YCT14 key for a disjunction its holder one for a single alternative: the entries
    of its leaves are exactly what encryption or key generation gives for it, on the draws made for
    it.  The proofs are in AlternativeProofs.v. *)
From Coq Require Import String List Bool Arith ZArith Lia.
From Verif Require Import Base Crypto Policy Parse Spec SchemeLib Symmetric Draws Bsw Ghw11 Lsw Yct14
  Instance Sessions Witnesses InsiderWitnesses Alternative AlternativeProofs.
Import ListNotations.
Local Open Scope string_scope.
Local Open Scope rand_scope.
Local Open Scope list_scope.

(** No draw is used twice, and their order is kept. *)
Theorem C150_draws : forall k pre g post m n, m < n -> drawn_for k pre g post m < drawn_for k pre g post n.
Proof. exact drawn_for_lt. Qed.
Print Assumptions C150_draws.

Theorem C150_bsw : forall (C : crypto), laws C -> forall nonce (pk : bsw_pk C) pol lang pol' lang' pt pre g post g' t i ct j,
  parse pol lang = Ok (tree (FOr (pre ++ g :: post))) -> parse pol' lang' = Ok (tree g') -> blank g' = blank g ->
  bsw_encrypt nonce pk pol lang pt t i = Ok (ct, j) ->
  exists A B D, bct_cy ct = A ++ B ++ D /\ length A = length (flat_map leaves pre) /\ length D = length (flat_map leaves post) /\
    bsw_encrypt nonce pk pol' lang' pt (fun n => t (i + drawn_for 2 pre g post n)) 0 =
      Ok (BswCt (pol', lang') (bct_c ct) (bct_cp ct) (bsw_marked (marks g') B) (bct_data ct), 2 + coins g).
Proof. exact @bsw_alternative. Qed.
Print Assumptions C150_bsw.

Theorem C150_ghw : forall (C : crypto), laws C -> forall nonce (pk : ghw_pk C) pol lang pol' lang' pt pre g post g' t i ct j,
  parse pol lang = Ok (tree (FOr (pre ++ g :: post))) -> parse pol' lang' = Ok (tree g') -> blank g' = blank g ->
  ghw_encrypt nonce pk pol lang pt t i = Ok (ct, j) ->
  exists A B D, gct_cidi ct = A ++ B ++ D /\ length A = length (flat_map leaves pre) /\ length D = length (flat_map leaves post) /\
    ghw_encrypt nonce pk pol' lang' pt (fun n => t (i + drawn_for 2 pre g post n)) 0 =
      Ok (GhwCt (pol', lang') (gct_c ct) (gct_c1 ct) (ghw_marked (marks g') B) (gct_data ct), 2 + coins g + length (leaves g)).
Proof. exact @ghw_alternative. Qed.
Print Assumptions C150_ghw.

Theorem C150_lsw : forall (C : crypto), laws C -> forall (pk : lsw_pk C) msk pol lang pol' lang' pre g post g' t i sk j,
  parse pol lang = Ok (tree (FOr (pre ++ g :: post))) -> parse pol' lang' = Ok (tree g') -> blank g' = blank g ->
  lsw_keygen pk msk pol lang t i = Ok (sk, j) ->
  exists A B D, lsk_dj sk = A ++ B ++ D /\ length A = length (flat_map leaves pre) /\ length D = length (flat_map leaves post) /\
    lsw_keygen pk msk pol' lang' (fun n => t (i + drawn_for 0 pre g post n)) 0 = Ok (LswSk (pol', lang') B, coins g + length (leaves g)).
Proof. exact @lsw_alternative. Qed.
Print Assumptions C150_lsw.

(** YCT14 leaves out names that the master key has no value for. *)
Theorem C150_yct : forall (C : crypto), laws C -> forall (msk : yct_msk C) pol lang pol' lang' pre g post g' t i sk j,
  parse pol lang = Ok (tree (FOr (pre ++ g :: post))) -> parse pol' lang' = Ok (tree g') -> blank g' = blank g ->
  yct_keygen msk pol lang t i = Ok (sk, j) ->
  exists A B D, ysk_du sk = A ++ B ++ D /\
    map y_name A = filter (yct_knows msk) (map remove_index (map fst (flat_map leaves pre))) /\
    map y_name D = filter (yct_knows msk) (map remove_index (map fst (flat_map leaves post))) /\
    yct_keygen msk pol' lang' (fun n => t (i + drawn_for 0 pre g post n)) 0 = Ok (YctSk (pol', lang') B, coins g).
Proof. exact @yct_alternative. Qed.
Print Assumptions C150_yct.

(** The second of three alternatives, and its text; not in /repo. *)
Definition QO : string := """A"" or (""B"" and ""C"") or ""D""".
Definition QA : string := """B"" and ""C""".
Definition gB : formula := FAnd [FLeaf "B" 10; FLeaf "C" 18].
Definition gB' : formula := FAnd [FLeaf "B" 2; FLeaf "C" 10].

Example C150_example :
  parse QO HumanPolicy = Ok (tree (FOr ([FLeaf "A" 2] ++ gB :: [FLeaf "D" 26]))) /\
  parse QA HumanPolicy = Ok (tree gB') /\ blank gB' = blank gB /\
  exists bpk bmsk bi bct bj gpk gmsk gi gct gj lpk lmsk li lsk lj ypk ymsk yi ysk yj,
  bsw_setup (C := ZC) (ztape 3) 0 = Ok (bpk, bmsk, bi) /\ bsw_encrypt nc bpk QO HumanPolicy "m" (ztape 5) 0 = Ok (bct, bj) /\
  ghw_setup (C := ZC) (ztape 3) 0 = Ok (gpk, gmsk, gi) /\ ghw_encrypt nc gpk QO HumanPolicy "m" (ztape 5) 0 = Ok (gct, gj) /\
  lsw_setup (C := ZC) (ztape 3) 0 = Ok (lpk, lmsk, li) /\ lsw_keygen lpk lmsk QO HumanPolicy (ztape 5) 0 = Ok (lsk, lj) /\
  yct_setup (C := ZC) ["A"; "B"; "C"; "D"] (ztape 3) 0 = Ok (ypk, ymsk, yi) /\ yct_keygen ymsk QO HumanPolicy (ztape 5) 0 = Ok (ysk, yj).
Proof.
  split; [vm_compute; reflexivity|]. split; [vm_compute; reflexivity|]. split; [reflexivity|].
  anew_steps (' (bpk, bmsk) <- anew (ztape 3) (bsw_setup (C := ZC)) ;;
    bct <- anew (ztape 5) (bsw_encrypt nc bpk QO HumanPolicy "m") ;;
    ' (gpk, gmsk) <- anew (ztape 3) (ghw_setup (C := ZC)) ;;
    gct <- anew (ztape 5) (ghw_encrypt nc gpk QO HumanPolicy "m") ;;
    ' (lpk, lmsk) <- anew (ztape 3) (lsw_setup (C := ZC)) ;;
    lsk <- anew (ztape 5) (lsw_keygen lpk lmsk QO HumanPolicy) ;;
    ' (ypk, ymsk) <- anew (ztape 3) (yct_setup (C := ZC) ["A"; "B"; "C"; "D"]) ;;
    ysk <- anew (ztape 5) (yct_keygen ymsk QO HumanPolicy) ;; rret tt) tt.
  give.
Qed.
