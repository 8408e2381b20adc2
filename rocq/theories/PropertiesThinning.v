(** * PropertiesThinning: dropping attributes from a key or a ciphertext (C149)

    Whoever holds a key for attributes has one for every part of them, by leaving out entries; whoever
    sees a ciphertext for attributes can make it one for fewer.  The result is what key generation or
    encryption gives for the attributes left, on the same draws without those of the attributes
    dropped.  The proofs are in ThinningProofs.v. *)
From Coq Require Import String List Bool Arith ZArith Lia.
From Verif Require Import Base Crypto Policy Parse Spec SchemeLib Symmetric Bsw Ghw11 Lsw Yct14 Ac17 Aw11 EquationProofs
  Instance Sessions Witnesses InsiderWitnesses Thinning ThinningProofs.
Import ListNotations.
Local Open Scope string_scope.
Local Open Scope rand_scope.

(** The draws that are used again: in their order and none twice, those before the attributes first
    and those behind the attributes last. *)
Theorem C149_places : forall k keep l,
  (forall m n, m < n -> places k keep l m < places k keep l n) /\
  (forall n, n < k -> places k keep l n = n) /\
  (forall n, n < length (filter keep l) -> exists a, nth_error (filter keep l) n = Some a /\ nth_error l (places k keep l (k + n) - k) = Some a) /\
  (forall m, places k keep l (k + length (filter keep l) + m) = k + length l + m).
Proof. exact places_spec. Qed.
Print Assumptions C149_places.

Example C149_example_places :
  map (places 1 (fun a => negb (seqb a "B")) ["A"; "B"; "C"]) [0; 1; 2; 3] = [0; 1; 3; 4].
Proof. reflexivity. Qed.

(** Keys for attributes. *)
Theorem C149_bsw : forall (C : crypto) (pk : bsw_pk C) msk attrs keep t i sk j,
  bsw_keygen pk msk attrs t i = Ok (Some sk, j) -> filter keep attrs <> [] ->
  bsw_keygen pk msk (filter keep attrs) (fun n => t (i + places 1 keep attrs n)) 0 =
    Ok (Some (bsw_thin keep sk), 1 + length (filter keep attrs)).
Proof. exact @bsw_thinned. Qed.
Print Assumptions C149_bsw.

Theorem C149_ghw : forall (C : crypto) (pk : ghw_pk C) msk attrs keep t i sk j,
  ghw_keygen pk msk attrs t i = Ok (Some sk, j) -> filter keep attrs <> [] ->
  ghw_keygen pk msk (filter keep attrs) t i = Ok (Some (ghw_thin keep sk), j).
Proof. exact @ghw_thinned. Qed.
Print Assumptions C149_ghw.

Theorem C149_aw : forall (C : crypto) (gk : aw_gk C) msk name attrs keep sk,
  aw_keygen gk msk name attrs = Ok sk -> filter (fun a => keep (upper C a)) attrs <> [] ->
  aw_keygen gk msk name (filter (fun a => keep (upper C a)) attrs) = Ok (aw_thin keep sk).
Proof. exact @aw_thinned. Qed.
Print Assumptions C149_aw.

Theorem C149_ac17_cp : forall (C : crypto) (msk : ac_msk C) attrs keep t i sk j,
  cp_keygen msk attrs t i = Ok (sk, j) -> filter keep attrs <> [] ->
  cp_keygen msk (filter keep attrs) (fun n => t (i + places 2 keep attrs n)) 0 =
    Ok (cp_thin keep sk, 3 + length (filter keep attrs)).
Proof. exact @cp_thinned. Qed.
Print Assumptions C149_ac17_cp.

Example C149_example_keys : exists pk msk i sk j gpk gmsk gi gsk gj apk amsk ai ask aj gk k al wpk wmsk wsk,
  bsw_setup (C := ZC) (ztape 3) 0 = Ok (pk, msk, i) /\ bsw_keygen pk msk ["C"; "A"] (ztape 5) 0 = Ok (Some sk, j) /\
  ghw_setup (C := ZC) (ztape 3) 0 = Ok (gpk, gmsk, gi) /\ ghw_keygen gpk gmsk ["C"; "A"] (ztape 5) 0 = Ok (Some gsk, gj) /\
  ac_setup (C := ZC) (ztape 3) 0 = Ok (apk, amsk, ai) /\ cp_keygen amsk ["C"; "A"] (ztape 5) 0 = Ok (ask, aj) /\
  aw_setup (C := ZC) (ztape 3) 0 = Ok (gk, k) /\ aw_authgen gk ["A"; "C"] (ztape 5) 0 = Ok (Some (wpk, wmsk), al) /\
  aw_keygen gk wmsk "bob" ["C"; "A"] = Ok wsk /\
  filter (seqb "A") ["C"; "A"] <> [] /\ filter (fun a => seqb "A" (upper ZC a)) ["C"; "A"] <> [].
Proof.
  anew_steps (' (pk, msk) <- anew (ztape 3) (bsw_setup (C := ZC)) ;;
    ko <- anew (ztape 5) (bsw_keygen pk msk ["C"; "A"]) ;; sk <- rlift (unwrap ko) ;;
    ' (gpk, gmsk) <- anew (ztape 3) (ghw_setup (C := ZC)) ;;
    gko <- anew (ztape 5) (ghw_keygen gpk gmsk ["C"; "A"]) ;; gsk <- rlift (unwrap gko) ;;
    ' (apk, amsk) <- anew (ztape 3) (ac_setup (C := ZC)) ;;
    ask <- anew (ztape 5) (cp_keygen amsk ["C"; "A"]) ;;
    gk <- anew (ztape 3) (aw_setup (C := ZC)) ;;
    ao <- anew (ztape 5) (aw_authgen gk ["A"; "C"]) ;; ' (wpk, wmsk) <- rlift (unwrap ao) ;;
    wsk <- rlift (aw_keygen gk wmsk "bob" ["C"; "A"]) ;; rret tt) tt.
  give; vm_compute; discriminate.
Qed.

(** Ciphertexts for attributes. *)
Theorem C149_ac17_kp : forall (C : crypto) nonce (pk : ac_pk C) attrs keep data t i ct j,
  kp_encrypt nonce pk attrs data t i = Ok (ct, j) ->
  kp_encrypt nonce pk (filter keep attrs) data t i = Ok (kp_thin keep ct, j).
Proof. exact @kp_thinned. Qed.
Print Assumptions C149_ac17_kp.

Theorem C149_yct : forall (C : crypto) nonce (pk : yct_pk C) attrs keep plain t i ct j,
  yct_encrypt nonce pk attrs plain t i = Ok (ct, j) -> filter keep attrs <> [] ->
  yct_encrypt nonce pk (filter keep attrs) plain t i = Ok (yct_thin keep ct, j).
Proof. exact @yct_thinned. Qed.
Print Assumptions C149_yct.

(** In LSW every key opens what is left just like what encryption makes for the attributes left. *)
Theorem C149_lsw : forall (C : crypto) nonce (pk : lsw_pk C) attrs keep plain t i ct j,
  lsw_encrypt nonce pk attrs plain t i = Ok (ct, j) -> filter keep attrs <> [] ->
  exists ct' n, lsw_encrypt nonce pk (filter keep attrs) plain (fun n => t (i + places 1 keep attrs n)) 0 = Ok (ct', n) /\
    map le_name (lct_ej ct') = map le_name (lct_ej (lsw_thin keep ct)) /\
    forall sk, lsw_decrypt sk (lsw_thin keep ct) = lsw_decrypt sk ct'.
Proof. exact @lsw_thinned. Qed.
Print Assumptions C149_lsw.

(** But it is none that encryption makes, for whatever attributes, plaintext and draws, unless the
    values of the entries dropped add up to zero. *)
Theorem C149_lsw_noticed : forall (C : crypto), laws C -> forall nonce (pk : lsw_pk C) attrs keep plain t i ct j nonce' attrs' plain' t' i' j',
  lsw_encrypt nonce pk attrs plain t i = Ok (ct, j) ->
  lsw_encrypt nonce' pk attrs' plain' t' i' = Ok (lsw_thin keep ct, j') ->
  fold_right (fun (e : lsw_ej C) s => g1add C (le_2 e) s) (g1zero C) (filter (fun e => negb (keep (le_name e))) (lct_ej ct)) = g1zero C.
Proof. exact @lsw_noticed. Qed.
Print Assumptions C149_lsw_noticed.

Example C149_example_ciphertexts : exists apk amsk ai act aj ypk ymsk yi yct yj lpk lmsk li lct lj,
  ac_setup (C := ZC) (ztape 3) 0 = Ok (apk, amsk, ai) /\ kp_encrypt nc apk ["C"; "A"] "m" (ztape 5) 0 = Ok (act, aj) /\
  yct_setup (C := ZC) ["A"; "B"; "C"] (ztape 3) 0 = Ok (ypk, ymsk, yi) /\ yct_encrypt nc ypk ["C"; "A"] "m" (ztape 5) 0 = Ok (yct, yj) /\
  lsw_setup (C := ZC) (ztape 3) 0 = Ok (lpk, lmsk, li) /\ lsw_encrypt nc lpk ["C"; "A"] "m" (ztape 5) 0 = Ok (lct, lj) /\
  filter (seqb "A") ["C"; "A"] <> [].
Proof.
  anew_steps (' (apk, amsk) <- anew (ztape 3) (ac_setup (C := ZC)) ;;
    act <- anew (ztape 5) (kp_encrypt nc apk ["C"; "A"] "m") ;;
    ' (ypk, ymsk) <- anew (ztape 3) (yct_setup (C := ZC) ["A"; "B"; "C"]) ;;
    yct <- anew (ztape 5) (yct_encrypt nc ypk ["C"; "A"] "m") ;;
    ' (lpk, lmsk) <- anew (ztape 3) (lsw_setup (C := ZC)) ;;
    lct <- anew (ztape 5) (lsw_encrypt nc lpk ["C"; "A"] "m") ;; rret tt) tt.
  give; vm_compute; discriminate.
Qed.

Example C149_example_noticed : exists (pk : lsw_pk ZC) msk i ct j,
  lsw_setup (C := ZC) (ztape 3) 0 = Ok (pk, msk, i) /\ lsw_encrypt nc pk ["C"; "A"] "m" (ztape 5) 0 = Ok (ct, j) /\
  lsw_encrypt nc pk ["C"; "A"] "m" (ztape 5) 0 = Ok (lsw_thin (fun _ => true) ct, j).
Proof.
  destruct C149_example_ciphertexts as (_ & _ & _ & _ & _ & _ & _ & _ & _ & _ & pk & msk & i & ct & j & _ & _ & _ & _ & E & E' & _).
  exists pk, msk, i, ct, j. split; [exact E|]. split; [exact E'|]. rewrite E'. f_equal. f_equal.
  destruct ct as [e1 e2 ej d]. unfold lsw_thin. cbn [lct_e1 lct_e2 lct_ej lct_ct]. f_equal.
  clear. induction ej as [|e l IH]; [reflexivity|]. cbn [filter]. now rewrite <- IH.
Qed.

(** With one of two attributes kept. *)
Theorem C149_lsw_refuted : exists (pk : lsw_pk ZC) msk i ct j,
  lsw_setup (C := ZC) (ztape 3) 0 = Ok (pk, msk, i) /\ lsw_encrypt nc pk ["C"; "A"] "m" (ztape 5) 0 = Ok (ct, j) /\
  forall nonce' attrs' plain' t' i' j', lsw_encrypt nonce' pk attrs' plain' t' i' <> Ok (lsw_thin (seqb "A") ct, j').
Proof.
  anew_steps (' (lpk, lmsk) <- anew (ztape 3) (lsw_setup (C := ZC)) ;;
    lct <- anew (ztape 5) (lsw_encrypt nc lpk ["C"; "A"] "m") ;;
    rret (zeqb (fold_right (fun (e : lsw_ej ZC) s => g1add ZC (le_2 e) s) (g1zero ZC) (filter (fun e => negb (seqb "A" (le_name e))) (lct_ej lct))) (g1zero ZC))) false.
  match goal with E : lsw_setup _ _ = Ok (?pk, ?msk, ?i), E0 : lsw_encrypt _ _ _ _ _ _ = Ok (?ct, ?j) |- _ =>
    exists pk, msk, i, ct, j; split; [exact E|]; split; [exact E0|]; intros nonce' attrs' plain' t' i' j' X;
    pose proof (C149_lsw_noticed ZC ZL _ _ _ _ _ _ _ _ _ _ _ _ _ _ _ E0 X) as Z end.
  apply (proj2 (zeqb_ok _ _)) in Z. match goal with H : zeqb _ _ = false |- _ => rewrite H in Z end. discriminate Z.
Qed.
Print Assumptions C149_lsw_refuted.
