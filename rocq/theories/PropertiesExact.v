(** * PropertiesExact: C13, C41, C42, C87 to C90: pruning, recovery of secrets,
    negated names, decryption for every policy

    Every statement is written out in full; the proofs are in LswNegation.v,
    RecoverProofs.v, ExactProofs.v and AcExactProofs.v. *)
From Coq Require Import String Ascii List Bool Arith ZArith Lia.
From Verif Require Import Base Crypto Policy Tools Sharing Spec Poly SharingProofs Parse Symmetric
  Msp MspProofs Dnf Bdabe Mke08 Bsw Ghw11 Lsw Yct14 Ac17 Ac17Proofs Aw11 Aw11Proofs EquationProofs AcEquationProofs ChainProofs
  RerandProofs BswProofs LswProofs LswNegation RecoverProofs TruncationProofs ExactProofs AcExactProofs Instance Sessions Witnesses.
Import ListNotations.
Local Open Scope string_scope.

(** Policies for the examples: an underscore, a name twice. *)
Definition PU : string := """A_1"" and ""B""".
Definition fU : formula := FAnd [FLeaf "A_1" 2; FLeaf "B" 12].
Definition PD : string := """A"" and ""A""".
Definition fD : formula := FAnd [FLeaf "A" 2; FLeaf "A" 10].
Definition PE : string := """A"" and (""B"" or ""A"")".
Definition fE : formula := FAnd [FLeaf "A" 2; FOr [FLeaf "B" 11; FLeaf "A" 18]].

(** C13. Which leaves pruning returns: all children of a conjunction, the first satisfied child of a disjunction. *)
Theorem C13_pruned_chosen :
  forall (attrs : list string) (f : formula) (t : option ptype),
  arity2 f = true ->
  calc_pruned attrs (tree f) t =
  Ok
    (sat (owns attrs) f,
     if sat (owns attrs) f
     then
      map (fun x : string * nat => (fst x, node_index (fst x) (snd x)))
        (chosen (owns attrs) f)
     else []).
Proof. exact @pruned_chosen. Qed.
Print Assumptions C13_pruned_chosen.

Example C13_example_chosen : chosen (owns ["A"; "C"]) fP = [("A", 2); ("C", 18)]%nat.
Proof. vm_compute. reflexivity. Qed.

(** C87 for policies without disjunction. *)
Theorem C87_recover_conjunction_partial :
  forall C : crypto,
  laws C ->
  forall (f : formula) (s : F C) (t : nat -> F C) (i : nat) (sh : list (string * F C))
    (j : nat),
  conjunctive f = true ->
  arity2 f = true ->
  small_ok C (and_width f) ->
  gen_shares_policy s (tree f) None t i = Ok (sh, j) ->
  recover_secret (map snd sh) (tree f) = Ok s.
Proof. exact @recover_conjunction. Qed.
Print Assumptions C87_recover_conjunction_partial.

Example C87_example_conjunction :
  let f := FAnd [FLeaf "A" 1; FAnd [FLeaf "B" 5; FLeaf "C" 9]] in
  conjunctive f = true /\ arity2 f = true /\ small_ok ZC (and_width f) /\
  (exists sh j, gen_shares_policy (C := ZC) (zmk 5) (tree f) None (ztape 3) 0 = Ok (sh, j) /\ length sh = 3%nat).
Proof.
  split; [reflexivity|]. split; [reflexivity|]. split; [ground|].
  eexists _, _. split; [apply (gen_shares_policy_eq ZL)|reflexivity].
Qed.

(** C87. What every call returns. *)
Theorem C87_recover_exact :
  forall C : crypto,
  laws C ->
  forall (f : formula) (sh : list (F C)) (co : list (string * F C)),
  calc_coefficients (tree f) 1%F [] None = Ok (Some co) ->
  recover_secret sh (tree f) =
  (if (Datatypes.length sh <=? Datatypes.length (leaves f))%nat
   then Ok (dot sh (map snd co))
   else Panic).
Proof. exact @recover_exact. Qed.
Print Assumptions C87_recover_exact.

Example C87_example_exact : calc_coefficients (C := ZC) (tree fP) (f1 ZC) [] None = Ok (Some (gco fP (f1 ZC))) /\
  recover_secret (C := ZC) [zmk 1; zmk 2; zmk 3; zmk 4] (tree fP) = Panic.
Proof.
  assert (E : calc_coefficients (C := ZC) (tree fP) (f1 ZC) [] None = Ok (Some (gco fP (f1 ZC)))) by apply (calc_coefficients_eq ZL).
  split; [exact E|]. rewrite (recover_exact ZL fP _ _ E). reflexivity.
Qed.

(** C87. One share of a disjunction. *)
Theorem C87_recover_one :
  forall C : crypto,
  laws C ->
  forall (n : string) (p : nat) (l : list formula) (s : F C),
  recover_secret [s] (tree (FOr (FLeaf n p :: l))) = Ok s.
Proof. exact @recover_one. Qed.
Print Assumptions C87_recover_one.

(** C87. All shares of a disjunction of conjunctions give a multiple of the secret. *)
Theorem C87_recover_disjunction :
  forall C : crypto,
  laws C ->
  forall (l : list formula) (s : F C) (t : nat -> F C) (i : nat)
    (sh : list (string * F C)) (j : nat),
  forallb conjunctive l = true ->
  arity2 (FOr l) = true ->
  small_ok C (and_width (FOr l)) ->
  gen_shares_policy s (tree (FOr l)) None t i = Ok (sh, j) ->
  recover_secret (map snd sh) (tree (FOr l)) = Ok (times (Datatypes.length l) s).
Proof. exact @recover_disjunction. Qed.
Print Assumptions C87_recover_disjunction.

Example C87_example_disjunction :
  let l := [FLeaf "A" 1; FAnd [FLeaf "B" 5; FLeaf "C" 9]] in
  forallb conjunctive l = true /\ arity2 (FOr l) = true /\ small_ok ZC (and_width (FOr l)) /\
  (exists sh j, gen_shares_policy (C := ZC) (zmk 5) (tree (FOr l)) None (ztape 3) 0 = Ok (sh, j) /\ length sh = 3%nat).
Proof.
  split; [reflexivity|]. split; [reflexivity|]. split; [ground|].
  eexists _, _. split; [apply (gen_shares_policy_eq ZL)|reflexivity].
Qed.

(** C87 is false for every disjunction of two conjunctions and every secret but zero. *)
Theorem C87_recover_secret_refuted :
  forall C : crypto,
  laws C ->
  forall (a b : formula) (s : F C) (t : nat -> F C) (i : nat) 
    (sh : list (string * F C)) (j : nat),
  conjunctive a = true ->
  conjunctive b = true ->
  arity2 a = true ->
  arity2 b = true ->
  small_ok C (and_width (FOr [a; b])) ->
  s <> 0%F ->
  gen_shares_policy s (tree (FOr [a; b])) None t i = Ok (sh, j) ->
  recover_secret (map snd sh) (tree (FOr [a; b])) <> Ok s.
Proof. exact @recover_both. Qed.
Print Assumptions C87_recover_secret_refuted.

Example C87_example_refuted :
  let a := FLeaf "A" 1 in let b := FLeaf "B" 5 in
  conjunctive a = true /\ conjunctive b = true /\ arity2 a = true /\ arity2 b = true /\
  small_ok ZC (and_width (FOr [a; b])) /\ (zmk 5 : F ZC) <> f0 ZC /\
  (exists sh j, gen_shares_policy (C := ZC) (zmk 5) (tree (FOr [a; b])) None (ztape 3) 0 = Ok (sh, j)).
Proof.
  do 4 (split; [reflexivity|]). split; [ground|]. split.
  { intros X. apply (f_equal (fun x : zp => zval x)) in X. vm_compute in X. discriminate. }
  eexists _, _. apply (gen_shares_policy_eq ZL).
Qed.

(** C88. What decryption does with negated names: [carry]. *)
Theorem C88_lsw_decrypt_exact :
  forall C : crypto,
  laws C ->
  forall (nonce : string) (pk : lsw_pk C) (msk : lsw_msk C) (attrs : list string)
    (sk : lsw_sk C) (pol : string) (lang : language) (data : string) 
    (ct : lsw_ct C) (f : formula) (ts : nat -> F C) (is js : nat) 
    (tk : nat -> F C) (ik jk : nat) (te : nat -> F C) (ie je : nat),
  lsw_setup ts is = Ok (pk, msk, js) ->
  lsw_keygen pk msk pol lang tk ik = Ok (sk, jk) ->
  lsw_encrypt nonce pk attrs data te ie = Ok (ct, je) ->
  parse pol lang = Ok (tree f) ->
  arity2 f = true ->
  NoDup (names f) ->
  plain_names f = true ->
  sat (owns attrs) f = true ->
  exists (msg : GT C) (sh co : list (string * F C)) (j : nat),
    encrypt_symmetric nonce msg data = Ok (lct_ct ct) /\
    lct_e1 ct = gtmul C msg (gtpow C (lpk_egg pk) (te ie)) /\
    gen_shares_policy (lmsk_alpha1 msk) (tree f) None tk ik = Ok (sh, j) /\
    calc_coefficients (tree f) 1%F [] None = Ok (Some co) /\
    lsw_decrypt sk ct =
    decrypt_symmetric
      (gtmul C (lct_e1 ct)
         (gtinv C
            (gtpow C (pairing C (lpk_g1 pk) (lpk_g2 pk))
               (te ie * lmsk_alpha2 msk * carry co sh 0 (chosen (owns attrs) f))%F)))
      (lct_ct ct).
Proof. exact @lsw_decrypt_exact. Qed.
Print Assumptions C88_lsw_decrypt_exact.

(** C88 is false: the attributes of the ciphertext are those of the policy, decryption is refused. *)
Theorem C88_lsw_negated_name_refuted : exists (pk : lsw_pk ZC) msk sk ct t i1 i2 i3 p q,
  lsw_setup t 0 = Ok (pk, msk, i1) /\
  lsw_keygen pk msk """A"" and ""!B""" HumanPolicy t i1 = Ok (sk, i2) /\
  lsw_encrypt nc pk ["A"; "!B"] "hello" t i2 = Ok (ct, i3) /\
  parse """A"" and ""!B""" HumanPolicy = Ok (tree (FAnd [FLeaf "A" p; FLeaf "!B" q])) /\
  sat (owns ["A"; "!B"]) (FAnd [FLeaf "A" p; FLeaf "!B" q]) = true /\
  lsw_decrypt sk ct = Err.
Proof. by_run (lsw_session (C := ZC) nc """A"" and ""!B""" HumanPolicy ["A"; "!B"] "hello") (@Err string). Qed.
Print Assumptions C88_lsw_negated_name_refuted.

(** C88 holds when that sum is the secret. *)
Theorem C88_lsw_decrypt_carry_partial :
  forall C : crypto,
  laws C ->
  forall (nonce : string) (pk : lsw_pk C) (msk : lsw_msk C) (attrs : list string)
    (sk : lsw_sk C) (pol : string) (lang : language) (data : string) 
    (ct : lsw_ct C) (f : formula) (ts : nat -> F C) (is js : nat) 
    (tk : nat -> F C) (ik jk : nat) (te : nat -> F C) (ie je : nat)
    (sh : list (string * F C)) (j : nat) (co : list (string * F C)),
  lsw_setup ts is = Ok (pk, msk, js) ->
  lsw_keygen pk msk pol lang tk ik = Ok (sk, jk) ->
  lsw_encrypt nonce pk attrs data te ie = Ok (ct, je) ->
  parse pol lang = Ok (tree f) ->
  String.length nonce = 12 ->
  arity2 f = true ->
  NoDup (names f) ->
  plain_names f = true ->
  sat (owns attrs) f = true ->
  gen_shares_policy (lmsk_alpha1 msk) (tree f) None tk ik = Ok (sh, j) ->
  calc_coefficients (tree f) 1%F [] None = Ok (Some co) ->
  carry co sh 0%F (chosen (owns attrs) f) = lmsk_alpha1 msk -> lsw_decrypt sk ct = Ok data.
Proof. exact @lsw_decrypt_carry. Qed.
Print Assumptions C88_lsw_decrypt_carry_partial.

Example C88_example_carry :
  exists (pk : lsw_pk ZC) msk sk ct t i1 i2 i3 p q,
  lsw_setup t 0 = Ok (pk, msk, i1) /\
  lsw_keygen pk msk """!B"" or ""A""" HumanPolicy t i1 = Ok (sk, i2) /\
  lsw_encrypt nc pk ["A"] "hello" t i2 = Ok (ct, i3) /\
  parse """!B"" or ""A""" HumanPolicy = Ok (tree (FOr [FLeaf "!B" p; FLeaf "A" q])) /\
  chosen (owns ["A"]) (FOr [FLeaf "!B" p; FLeaf "A" q]) = [("A", q)] /\
  lsw_decrypt sk ct = Ok "hello".
Proof. by_run (lsw_session (C := ZC) nc """!B"" or ""A""" HumanPolicy ["A"] "hello") (Ok "hello"). Qed.

(** C88. With negated names only, the key has no influence. *)
Theorem C88_lsw_all_negated :
  forall C : crypto,
  laws C ->
  forall (nonce : string) (pk : lsw_pk C) (msk : lsw_msk C) (attrs : list string)
    (sk : lsw_sk C) (pol : string) (lang : language) (data : string) 
    (ct : lsw_ct C) (f : formula) (ts : nat -> F C) (is js : nat) 
    (tk : nat -> F C) (ik jk : nat) (te : nat -> F C) (ie je : nat),
  lsw_setup ts is = Ok (pk, msk, js) ->
  lsw_keygen pk msk pol lang tk ik = Ok (sk, jk) ->
  lsw_encrypt nonce pk attrs data te ie = Ok (ct, je) ->
  parse pol lang = Ok (tree f) ->
  arity2 f = true ->
  NoDup (names f) ->
  plain_names f = true ->
  forallb negated (names f) = true ->
  sat (owns attrs) f = true ->
  lsw_decrypt sk ct = decrypt_symmetric (lct_e1 ct) (lct_ct ct).
Proof. exact @lsw_all_negated. Qed.
Print Assumptions C88_lsw_all_negated.

Example C88_example_all_negated :
  forallb negated (names (FLeaf "!X" 2)) = true /\ sat (owns ["!X"]) (FLeaf "!X" 2) = true /\
  plain_names (FLeaf "!X" 2) = true /\
  exists (pk : lsw_pk ZC) msk sk ct t i1 i2 i3,
  lsw_setup t 0 = Ok (pk, msk, i1) /\
  lsw_keygen pk msk """!X""" HumanPolicy t i1 = Ok (sk, i2) /\
  lsw_encrypt nc pk ["!X"] "hello" t i2 = Ok (ct, i3) /\
  lsw_decrypt sk ct = Err.
Proof.
  do 3 (split; [reflexivity|]).
  by_run (lsw_session (C := ZC) nc """!X""" HumanPolicy ["!X"] "hello") (@Err string).
Qed.

(** C89 for BSW. [place] is the position in the attribute list, [before_us] cuts at the first underscore. *)
Theorem C89_bsw_decrypt :
  forall C : crypto,
  laws C ->
  forall (nonce : string) (pk : bsw_pk C) (msk : bsw_msk C) (attrs : list string)
    (sk : bsw_sk C) (pol : string) (lang : language) (data : string) 
    (ct : bsw_ct C) (f : formula) (ts : nat -> F C) (is js : nat) 
    (tk : nat -> F C) (ik jk : nat) (te : nat -> F C) (ie je : nat),
  bsw_setup ts is = Ok (pk, msk, js) ->
  bsw_keygen pk msk attrs tk ik = Ok (Some sk, jk) ->
  bsw_encrypt nonce pk pol lang data te ie = Ok (ct, je) ->
  parse pol lang = Ok (tree f) ->
  arity2 f = true ->
  sat (owns attrs) f = true ->
  exists (msg : GT C) (sh co : list (string * F C)) (j : nat),
    encrypt_symmetric nonce msg data = Ok (bct_data ct) /\
    gen_shares_policy (te ie) (tree f) None te (ie + 2) = Ok (sh, j) /\
    calc_coefficients (tree f) 1%F [] None = Ok (Some co) /\
    bsw_decrypt sk ct =
    decrypt_symmetric
      (gtmul C msg
         (gtpow C (pairing C (bpk_g1 pk) (bpk_g2 pk))
            (fsum
               (map
                  (fun x : string * nat =>
                   let k := node_index (fst x) (snd x) in
                   weight k co * oval (assoc k sh) *
                   (tk ik +
                    tk (ik + 1 + place (fst x) attrs)%nat *
                    (hval (fst x) - hval (before_us (fst x))))) 
                  (chosen (owns attrs) f)) - tk ik * te ie)%F)) 
      (bct_data ct).
Proof. exact @bsw_decrypt_all. Qed.
Print Assumptions C89_bsw_decrypt.

Example C89_example_bsw : exists pol f attrs t j,
  parse pol HumanPolicy = Ok (tree f) /\ arity2 f = true /\ sat (owns attrs) f = true /\
  names f = ["A_1"; "B"] /\
  bsw_session (C := ZC) nc attrs pol HumanPolicy "hello" t 0 = Ok (Err, j).
Proof. exists PU, fU, ["A_1"; "B"], (ztape 3). eexists. repeat match goal with |- _ /\ _ => split end; ground. Qed.

(** C89 for GHW11. *)
Theorem C89_ghw_decrypt :
  forall C : crypto,
  laws C ->
  forall (nonce : string) (pk : ghw_pk C) (msk : ghw_msk C) (attrs : list string)
    (sk : ghw_sk C) (tk : ghw_tk C) (z : F C) (pol : string) (lang : language)
    (data : string) (ct : ghw_ct C) (f : formula) (ts : nat -> F C) 
    (is js : nat) (tk' : nat -> F C) (ik jk : nat) (tt : nat -> F C) 
    (it jt : nat) (te : nat -> F C) (ie je : nat),
  ghw_setup ts is = Ok (pk, msk, js) ->
  ghw_keygen pk msk attrs tk' ik = Ok (Some sk, jk) ->
  ghw_tkgen sk tt it = Ok (tk, z, jt) ->
  ghw_encrypt nonce pk pol lang data te ie = Ok (ct, je) ->
  parse pol lang = Ok (tree f) ->
  arity2 f = true ->
  sat (owns attrs) f = true ->
  exists (msg : GT C) (sh co : list (string * F C)) (j : nat) 
  (tct : ghw_tct C),
    encrypt_symmetric nonce msg data = Ok (gct_data ct) /\
    gen_shares_policy (te ie) (tree f) None te (ie + 2) = Ok (sh, j) /\
    calc_coefficients (tree f) 1%F [] None = Ok (Some co) /\
    ghw_transform ct tk = Ok tct /\
    ghw_decrypt_out tct z (gct_data ct) =
    decrypt_symmetric
      (gtmul C msg
         (gtpow C (pairing C (gpk_g1 pk) (gpk_g2 pk))
            (tk' ik *
             (fsum
                (map
                   (fun x : string * nat =>
                    let k := node_index (fst x) (snd x) in
                    oval (assoc k co) *
                    (ts (is + 2)%nat * oval (assoc k sh) +
                     te (j + place k (map fst sh))%nat *
                     (hval (fst x) - hval (before_us (fst x))))) 
                   (chosen (owns attrs) f)) - ts (is + 2)%nat * te ie))%F)) 
      (gct_data ct).
Proof. exact @ghw_decrypt_all. Qed.
Print Assumptions C89_ghw_decrypt.

Example C89_example_ghw : exists pol f attrs t j,
  parse pol HumanPolicy = Ok (tree f) /\ arity2 f = true /\ sat (owns attrs) f = true /\
  names f = ["A_1"; "B"] /\
  ghw_session (C := ZC) nc attrs pol HumanPolicy "hello" t 0 = Ok (Err, j).
Proof. exists PU, fU, ["A_1"; "B"], (ztape 3). eexists. repeat match goal with |- _ /\ _ => split end; ground. Qed.

(** C89 for LSW. [follow] is the sum with shares looked up by cut name; negated names repeat the value before. *)
Theorem C89_lsw_decrypt :
  forall C : crypto,
  laws C ->
  forall (nonce : string) (pk : lsw_pk C) (msk : lsw_msk C) (attrs : list string)
    (sk : lsw_sk C) (pol : string) (lang : language) (data : string) 
    (ct : lsw_ct C) (f : formula) (ts : nat -> F C) (is js : nat) 
    (tk : nat -> F C) (ik jk : nat) (te : nat -> F C) (ie je : nat),
  lsw_setup ts is = Ok (pk, msk, js) ->
  lsw_keygen pk msk pol lang tk ik = Ok (sk, jk) ->
  lsw_encrypt nonce pk attrs data te ie = Ok (ct, je) ->
  parse pol lang = Ok (tree f) ->
  arity2 f = true ->
  sat (owns attrs) f = true ->
  exists (msg : GT C) (sh co : list (string * F C)) (j : nat),
    encrypt_symmetric nonce msg data = Ok (lct_ct ct) /\
    lct_e1 ct = gtmul C msg (gtpow C (lpk_egg pk) (te ie)) /\
    gen_shares_policy (lmsk_alpha1 msk) (tree f) None tk ik = Ok (sh, j) /\
    calc_coefficients (tree f) 1%F [] None = Ok (Some co) /\
    lsw_decrypt sk ct =
    match follow co sh 0%F (chosen (owns attrs) f) with
    | Some x =>
        decrypt_symmetric
          (gtmul C (lct_e1 ct)
             (gtinv C
                (gtpow C (pairing C (lpk_g1 pk) (lpk_g2 pk))
                   (te ie * lmsk_alpha2 msk * x)%F))) (lct_ct ct)
    | None => Panic
    end.
Proof. exact @lsw_decrypt_all. Qed.
Print Assumptions C89_lsw_decrypt.

(** A policy with a repeated name: the second branch of the disjunction is right by luck. *)
Example C89_example_lsw : exists pol f attrs t j j',
  parse pol HumanPolicy = Ok (tree f) /\ arity2 f = true /\ sat (owns attrs) f = true /\
  names f = ["A"; "B"; "A"] /\
  lsw_session (C := ZC) nc pol HumanPolicy ["A"] "hello" t 0 = Ok (Err, j) /\
  lsw_session (C := ZC) nc pol HumanPolicy ["A"; "B"] "hello" t 0 = Ok (Ok "hello", j').
Proof. exists PE, fE, ["A"], (ztape 3). do 2 eexists. repeat match goal with |- _ /\ _ => split end; ground. Qed.

(** C89 for YCT14. *)
Theorem C89_yct_decrypt :
  forall C : crypto,
  laws C ->
  forall (nonce : string) (U : list string) (pk : yct_pk C) (msk : yct_msk C)
    (attrs : list string) (sk : yct_sk C) (pol : string) (lang : language) 
    (data : string) (ct : yct_ct C) (f : formula) (ts : nat -> F C) 
    (is js : nat) (tk : nat -> F C) (ik jk : nat) (te : nat -> F C) 
    (ie je : nat),
  yct_setup U ts is = Ok (pk, msk, js) ->
  yct_keygen msk pol lang tk ik = Ok (sk, jk) ->
  yct_encrypt nonce pk attrs data te ie = Ok (ct, je) ->
  parse pol lang = Ok (tree f) ->
  arity2 f = true ->
  sat (owns attrs) f = true ->
  exists (g : GT C) (sh co : list (string * F C)) (j : nat),
    ypk_g pk = gtpow C g (ymsk_s msk) /\
    encrypt_symmetric nonce (gtpow C g (te ie * ymsk_s msk)%F) data = Ok (yct_data ct) /\
    gen_shares_policy (ymsk_s msk) (tree f) None tk ik = Ok (sh, j) /\
    calc_coefficients (tree f) 1%F [] None = Ok (Some co) /\
    yct_decrypt sk ct =
    match gather co sh (chosen (owns attrs) f) with
    | Some x => decrypt_symmetric (gtpow C g (te ie * x)%F) (yct_data ct)
    | None => Panic
    end.
Proof. exact @yct_decrypt_all. Qed.
Print Assumptions C89_yct_decrypt.

Example C89_example_yct : exists pol f attrs t j j',
  parse pol HumanPolicy = Ok (tree f) /\ arity2 f = true /\ sat (owns attrs) f = true /\
  names f = ["A"; "B"; "A"] /\
  yct_session (C := ZC) nc ["A"; "B"] pol HumanPolicy ["A"] "hello" t 0 = Ok (Err, j) /\
  yct_session (C := ZC) nc ["A"; "B"] pol HumanPolicy ["A"; "B"] "hello" t 0 = Ok (Ok "hello", j').
Proof. exists PE, fE, ["A"], (ztape 3). do 2 eexists. repeat match goal with |- _ /\ _ => split end; ground. Qed.

(** C89 for AC17 CP. [cp_rest] sums all rows under the chosen names and subtracts all key entries. *)
Theorem C89_cp_decrypt :
  forall C : crypto,
  laws C ->
  forall (nonce : string) (pk : ac_pk C) (msk : ac_msk C) (a0 a1 b0 b1 k0 k1 k2 : F C)
    (attrs : list string) (sk : ac_cpsk C) (pol : string) (lang : language)
    (data : string) (ct : ac_cpct C) (f : formula) (m : abe_policy) 
    (tk : nat -> F C) (ik jk : nat) (te : nat -> F C) (ie je : nat),
  ac_keys pk msk a0 a1 b0 b1 k0 k1 k2 ->
  cp_keygen msk attrs tk ik = Ok (sk, jk) ->
  cp_encrypt nonce pk pol data lang te ie = Ok (ct, je) ->
  parse pol lang = Ok (tree f) ->
  calculate_msp (tree f) = Ok m ->
  sat (owns attrs) f = true ->
  let x0 := (b0 * tk ik)%F in
  let x1 := (b1 * tk (ik + 1)%nat)%F in
  let x2 := (tk ik + tk (ik + 1)%nat)%F in
  let rest := cp_rest m attrs x0 x1 x2 (map fst (chosen (owns attrs) f)) in
  cp_decrypt sk ct =
  decrypt_symmetric
    (gtmul C (gtpow C (pairing C (g1one C) (g2one C)) (te (ie + 2)))
       (gtpow C (pairing C (amsk_g msk) (amsk_h msk))
          (te ie * rest 0%nat + te (ie + 1)%nat * rest 1%nat)%F)) (act_ct (acp_ct ct)).
Proof. exact @cp_decrypt_all. Qed.
Print Assumptions C89_cp_decrypt.

Example C89_example_cp : exists pol f attrs t j m,
  parse pol HumanPolicy = Ok (tree f) /\ calculate_msp (tree f) = Ok m /\ sat (owns attrs) f = true /\
  names f = ["A"; "B"; "A"] /\
  cp_session (C := ZC) nc attrs pol HumanPolicy "hello" t 0 = Ok (Err, j).
Proof. exists PE, fE, ["A"], (ztape 3). do 2 eexists. repeat match goal with |- _ /\ _ => split end; ground. Qed.

(** C89 for AC17 KP. *)
Theorem C89_kp_decrypt :
  forall C : crypto,
  laws C ->
  forall (nonce : string) (pk : ac_pk C) (msk : ac_msk C) (a0 a1 b0 b1 k0 k1 k2 : F C)
    (attrs : list string) (sk : ac_kpsk C) (pol : string) (lang : language)
    (data : string) (ct : ac_kpct C) (f : formula) (m : abe_policy) 
    (tk : nat -> F C) (ik jk : nat) (te : nat -> F C) (ie je : nat),
  ac_keys pk msk a0 a1 b0 b1 k0 k1 k2 ->
  kp_keygen msk pol lang tk ik = Ok (sk, jk) ->
  kp_encrypt nonce pk attrs data te ie = Ok (ct, je) ->
  parse pol lang = Ok (tree f) ->
  calculate_msp (tree f) = Ok m ->
  sat (owns attrs) f = true ->
  let x0 := (b0 * tk ik)%F in
  let x1 := (b1 * tk (ik + 1)%nat)%F in
  let x2 := (tk ik + tk (ik + 1)%nat)%F in
  let sp := fun c : nat => tk (ik + 1 + c) in
  let ns := map fst (chosen (owns attrs) f) in
  kp_decrypt sk ct =
  decrypt_symmetric
    (gtmul C (gtpow C (pairing C (g1one C) (g2one C)) (te (ie + 2)))
       (gtpow C (pairing C (amsk_g msk) (amsk_h msk))
          (te ie * kp_rest m attrs sp x0 x1 x2 a0 k0 k2 ns 0%nat +
           te (ie + 1)%nat * kp_rest m attrs sp x0 x1 x2 a1 k1 k2 ns 1%nat)%F))
    (act_ct (akp_ct ct)).
Proof. exact @kp_decrypt_all. Qed.
Print Assumptions C89_kp_decrypt.

Example C89_example_kp : exists pol f attrs t j m,
  parse pol HumanPolicy = Ok (tree f) /\ calculate_msp (tree f) = Ok m /\ sat (owns attrs) f = true /\
  names f = ["A"; "B"; "A"] /\
  kp_session (C := ZC) nc pol HumanPolicy attrs "hello" t 0 = Ok (Err, j).
Proof. exists PE, fE, ["A"], (ztape 3). do 2 eexists. repeat match goal with |- _ /\ _ => split end; ground. Qed.

(** C89 for AW11, with any number of authorities. *)
Theorem C89_aw_decrypt :
  forall C : crypto,
  laws C ->
  forall (nonce : string) (gk : aw_gk C) (As : list (list string * (aw_pk C * aw_msk C)))
    (gid : string) (issued : list (aw_msk C * string)) (sk : aw_sk C) 
    (pol : string) (lang : language) (data : string) (ct : aw_ct C) 
    (f : formula) (te : nat -> F C) (ie je : nat),
  Forall
    (fun A : list string * (aw_pk C * aw_msk C) =>
     exists (t : nat -> F C) (i j : nat), aw_authgen gk (fst A) t i = Ok (Some (snd A), j))
    As ->
  (forall (m : aw_msk C) (a : string),
   In (m, a) issued ->
   exists A : list string * (aw_pk C * aw_msk C), In A As /\ m = snd (snd A)) ->
  aw_issue gk gid issued = Ok sk ->
  aw_encrypt nonce gk (map (fun A : list string * (aw_pk C * aw_msk C) => fst (snd A)) As)
    pol lang data te ie = Ok (ct, je) ->
  parse pol lang = Ok (tree f) ->
  sat (owns (map snd issued)) f = true ->
  exists
    (msg : GT C) (sh : list (string * F C)) (i1 : nat) (w : list (string * F C)) 
  (i2 : nat) (co : list (string * F C)),
    encrypt_symmetric nonce msg data = Ok (awct_data ct) /\
    gen_shares_policy (te ie) (tree f) None te (ie + 1) = Ok (sh, i1) /\
    gen_shares_policy 0%F (tree f) None te i1 = Ok (w, i2) /\
    calc_coefficients (tree f) 1%F [] None = Ok (Some co) /\
    aw_decrypt gk sk ct =
    match
      aw_sum As issued co sh w (hval gid) (fun k : nat => te (i2 + 1 + k))
        (chosen (owns (map snd issued)) f)
    with
    | Some x =>
        decrypt_symmetric
          (gtmul C msg (gtpow C (pairing C (agk_g1 gk) (agk_g2 gk)) (te ie - x)%F))
          (awct_data ct)
    | None => Panic
    end.
Proof. exact @aw_decrypt_all. Qed.
Print Assumptions C89_aw_decrypt.

Example C89_example_aw :
  (exists j, aw_session (C := ZC) nc ["A"] "bob" ["A"] PE HumanPolicy "hello" (ztape 3) 0 = Ok (Ok "hello", j)) /\
  (exists j, aw_session (C := ZC) nc ["A_1"; "B"] "bob" ["A_1"; "B"] PU HumanPolicy "hello" (ztape 3) 0 = Ok (Panic, j)).
Proof. split; run. Qed.

(** C41 for a single leaf in BSW: the key is off by the difference of the two hashes. *)
Theorem C41_bsw_one_leaf :
  forall C : crypto,
  laws C ->
  forall (nonce : string) (pk : bsw_pk C) (msk : bsw_msk C) (attrs : list string)
    (sk : bsw_sk C) (pol : string) (lang : language) (data : string) 
    (ct : bsw_ct C) (n : string) (p : nat) (ts : nat -> F C) (is js : nat)
    (tk : nat -> F C) (ik jk : nat) (te : nat -> F C) (ie je : nat),
  bsw_setup ts is = Ok (pk, msk, js) ->
  bsw_keygen pk msk attrs tk ik = Ok (Some sk, jk) ->
  bsw_encrypt nonce pk pol lang data te ie = Ok (ct, je) ->
  parse pol lang = Ok (tree (FLeaf n p)) ->
  In n attrs ->
  exists msg : GT C,
    encrypt_symmetric nonce msg data = Ok (bct_data ct) /\
    bsw_decrypt sk ct =
    decrypt_symmetric
      (gtmul C msg
         (gtpow C (pairing C (bpk_g1 pk) (bpk_g2 pk))
            (te ie * tk (ik + 1 + place n attrs)%nat * (hval n - hval (before_us n)))%F))
      (bct_data ct).
Proof. exact @bsw_one_leaf. Qed.
Print Assumptions C41_bsw_one_leaf.

Example C41_example_one_leaf :
  parse """A_1""" HumanPolicy = Ok (tree (FLeaf "A_1" 2)) /\ In "A_1" ["A_1"] /\
  before_us "A_1" = "A" /\ hval (C := ZC) "A_1" <> hval "A" /\
  (exists j, bsw_session (C := ZC) nc ["A_1"] """A_1""" HumanPolicy "hello" (ztape 3) 0 = Ok (Err, j)) /\
  (exists j, ghw_session (C := ZC) nc ["A_1"] """A_1""" HumanPolicy "hello" (ztape 3) 0 = Ok (Err, j)).
Proof.
  split; [ground|]. split; [now left|]. split; [reflexivity|].
  split. { intros X. apply (f_equal (fun x : zp => zval x)) in X. vm_compute in X. discriminate. }
  split; run.
Qed.

(** C41 for a single leaf in GHW11. *)
Theorem C41_ghw_one_leaf :
  forall C : crypto,
  laws C ->
  forall (nonce : string) (pk : ghw_pk C) (msk : ghw_msk C) (attrs : list string)
    (sk : ghw_sk C) (tk : ghw_tk C) (z : F C) (pol : string) (lang : language)
    (data : string) (ct : ghw_ct C) (n : string) (p : nat) (ts : nat -> F C) 
    (is js : nat) (tk' : nat -> F C) (ik jk : nat) (tt : nat -> F C) 
    (it jt : nat) (te : nat -> F C) (ie je : nat),
  ghw_setup ts is = Ok (pk, msk, js) ->
  ghw_keygen pk msk attrs tk' ik = Ok (Some sk, jk) ->
  ghw_tkgen sk tt it = Ok (tk, z, jt) ->
  ghw_encrypt nonce pk pol lang data te ie = Ok (ct, je) ->
  parse pol lang = Ok (tree (FLeaf n p)) ->
  In n attrs ->
  exists (msg : GT C) (tct : ghw_tct C),
    encrypt_symmetric nonce msg data = Ok (gct_data ct) /\
    ghw_transform ct tk = Ok tct /\
    ghw_decrypt_out tct z (gct_data ct) =
    decrypt_symmetric
      (gtmul C msg
         (gtpow C (pairing C (gpk_g1 pk) (gpk_g2 pk))
            (tk' ik * te (ie + 2)%nat * (hval n - hval (before_us n)))%F)) 
      (gct_data ct).
Proof. exact @ghw_one_leaf. Qed.
Print Assumptions C41_ghw_one_leaf.

(** C42. LSW with a policy over one name: the first share stands for the secret. *)
Theorem C42_lsw_one_name :
  forall C : crypto,
  laws C ->
  forall (nonce : string) (pk : lsw_pk C) (msk : lsw_msk C) (attrs : list string)
    (sk : lsw_sk C) (pol : string) (lang : language) (data : string) 
    (ct : lsw_ct C) (f : formula) (n k : string) (v : F C) (r : list (string * F C))
    (j : nat) (ts : nat -> F C) (is js : nat) (tk : nat -> F C) 
    (ik jk : nat) (te : nat -> F C) (ie je : nat),
  lsw_setup ts is = Ok (pk, msk, js) ->
  lsw_keygen pk msk pol lang tk ik = Ok (sk, jk) ->
  lsw_encrypt nonce pk attrs data te ie = Ok (ct, je) ->
  parse pol lang = Ok (tree f) ->
  arity2 f = true ->
  NoDup (leaves f) ->
  small_ok C (and_width f) ->
  plain_names f = true ->
  Forall (eq n) (names f) ->
  negated n = false ->
  In n attrs ->
  gen_shares_policy (lmsk_alpha1 msk) (tree f) None tk ik = Ok ((k, v) :: r, j) ->
  lsw_decrypt sk ct =
  decrypt_symmetric
    (gtmul C (lct_e1 ct)
       (gtinv C
          (gtpow C (pairing C (lpk_g1 pk) (lpk_g2 pk)) (te ie * lmsk_alpha2 msk * v)%F)))
    (lct_ct ct).
Proof. exact @lsw_one_name. Qed.
Print Assumptions C42_lsw_one_name.

Example C42_example_one_name :
  parse PD HumanPolicy = Ok (tree fD) /\ arity2 fD = true /\ NoDup (leaves fD) /\
  plain_names fD = true /\ Forall (eq "A") (names fD) /\ negated "A" = false /\
  small_ok ZC (and_width fD) /\
  exists sh j, gen_shares_policy (C := ZC) (zmk 5) (tree fD) None (ztape 3) 0 = Ok (sh, j).
Proof.
  do 2 (split; [ground|]). split; [repeat constructor; cbn; intuition discriminate|].
  split; [ground|]. split; [repeat constructor|]. split; [reflexivity|]. split; [ground|].
  eexists _, _. apply (gen_shares_policy_eq ZL).
Qed.

(** C42. The same in YCT14. *)
Theorem C42_yct_one_name :
  forall C : crypto,
  laws C ->
  forall (nonce : string) (U : list string) (pk : yct_pk C) (msk : yct_msk C)
    (attrs : list string) (sk : yct_sk C) (pol : string) (lang : language) 
    (data : string) (ct : yct_ct C) (f : formula) (n k : string) 
    (v : F C) (r : list (string * F C)) (j : nat) (ts : nat -> F C) 
    (is js : nat) (tk : nat -> F C) (ik jk : nat) (te : nat -> F C) 
    (ie je : nat),
  yct_setup U ts is = Ok (pk, msk, js) ->
  yct_keygen msk pol lang tk ik = Ok (sk, jk) ->
  yct_encrypt nonce pk attrs data te ie = Ok (ct, je) ->
  parse pol lang = Ok (tree f) ->
  arity2 f = true ->
  NoDup (leaves f) ->
  small_ok C (and_width f) ->
  plain_names f = true ->
  Forall (eq n) (names f) ->
  In n attrs ->
  gen_shares_policy (ymsk_s msk) (tree f) None tk ik = Ok ((k, v) :: r, j) ->
  exists g : GT C,
    ypk_g pk = gtpow C g (ymsk_s msk) /\
    encrypt_symmetric nonce (gtpow C g (te ie * ymsk_s msk)%F) data = Ok (yct_data ct) /\
    yct_decrypt sk ct = decrypt_symmetric (gtpow C g (te ie * v)%F) (yct_data ct).
Proof. exact @yct_one_name. Qed.
Print Assumptions C42_yct_one_name.

(** C42. That share, for a conjunction of two leaves, is the secret plus a random value. *)
Theorem C42_two_leaf_shares :
  forall C : crypto,
  laws C ->
  forall (n : string) (p : nat) (m : string) (q : nat) (s : F C) 
    (t : nat -> F C) (i : nat),
  gen_shares_policy s (tree (FAnd [FLeaf n p; FLeaf m q])) None t i =
  Ok ([(node_index n p, (s + t i)%F); (node_index m q, (s + (1 + 1) * t i)%F)], S i).
Proof. exact @two_leaf_shares. Qed.
Print Assumptions C42_two_leaf_shares.

(** C90. With distinct names in the policy only the repeated attributes are left over. *)
Theorem C90_cp_rest_distinct :
  forall C : crypto,
  laws C ->
  forall (m : abe_policy) (attrs : list string) (x0 x1 x2 : F C) (f : formula) (t : nat),
  calculate_msp (tree f) = Ok m ->
  NoDup (names f) ->
  sat (owns attrs) f = true ->
  cp_rest m attrs x0 x1 x2 (map fst (chosen (owns attrs) f)) t =
  fsum
    (map (fun n : string => (W n x0 x1 x2 t - among n (W n x0 x1 x2 t) attrs)%F)
       (map fst (chosen (owns attrs) f))).
Proof. exact @cp_rest_distinct. Qed.
Print Assumptions C90_cp_rest_distinct.

Example C90_example_rest : among (C := ZC) "A" (zmk 5) ["A"; "B"; "A"] = zmk 10.
Proof. reflexivity. Qed.

(** C43: the upper-case mapping of AW11, letter by letter. *)
Theorem C43_upper_letters :
  forall (C : crypto) (L : laws C),
  (forall i : nat, upper C (substring i 1 "abcdefghijklmnopqrstuvwxyz") = substring i 1 "ABCDEFGHIJKLMNOPQRSTUVWXYZ") /\
  (forall c : ascii, (N_of_ascii c < 128)%N -> index 0 (String c "") "abcdefghijklmnopqrstuvwxyz" = None ->
     upper C (String c "") = String c "") /\
  (forall (x y : string) (c : ascii), (N_of_ascii c < 128)%N ->
     upper C (x ++ String c y)%string = (upper C x ++ upper C (String c "") ++ upper C y)%string).
Proof. exact @aw_upper_letters. Qed.
Print Assumptions C43_upper_letters.

Example C43_example_upper : upper ZC "Zeta_9z" = "ZETA_9Z" /\ upper ZC "straße_é" = "STRASSE_É".
Proof. split; reflexivity. Qed.

(** C90. The same for AC17 KP. *)
Theorem C90_kp_rest_distinct :
  forall C : crypto,
  laws C ->
  forall (m : abe_policy) (attrs : list string) (sp : nat -> F C) 
    (x0 x1 x2 a k k2 : F C) (f : formula) (t : nat),
  calculate_msp (tree f) = Ok m ->
  NoDup (names f) ->
  sat (owns attrs) f = true ->
  kp_rest m attrs sp x0 x1 x2 a k k2 (map fst (chosen (owns attrs) f)) t =
  fsum
    (map (fun n : string => (among n (W n x0 x1 x2 t) attrs - W n x0 x1 x2 t)%F)
       (map fst (chosen (owns attrs) f))).
Proof. exact @kp_rest_distinct. Qed.
Print Assumptions C90_kp_rest_distinct.

(** C90. A key with one attribute twice. *)
Theorem C90_cp_attribute_twice :
  forall C : crypto,
  laws C ->
  forall (nonce : string) (pk : ac_pk C) (msk : ac_msk C) (a0 a1 b0 b1 k0 k1 k2 : F C)
    (n : string) (p : nat) (sk : ac_cpsk C) (pol : string) (lang : language)
    (data : string) (ct : ac_cpct C) (tk : nat -> F C) (ik jk : nat) 
    (te : nat -> F C) (ie je : nat),
  ac_keys pk msk a0 a1 b0 b1 k0 k1 k2 ->
  cp_keygen msk [n; n] tk ik = Ok (sk, jk) ->
  cp_encrypt nonce pk pol data lang te ie = Ok (ct, je) ->
  parse pol lang = Ok (tree (FLeaf n p)) ->
  let w := W n (b0 * tk ik)%F (b1 * tk (ik + 1)%nat)%F (tk ik + tk (ik + 1)%nat)%F in
  cp_decrypt sk ct =
  decrypt_symmetric
    (gtmul C (gtpow C (pairing C (g1one C) (g2one C)) (te (ie + 2)))
       (gtpow C (pairing C (amsk_g msk) (amsk_h msk))
          (- (te ie * w 0%nat + te (ie + 1)%nat * w 1%nat))%F)) (act_ct (acp_ct ct)).
Proof. exact @cp_attribute_twice. Qed.
Print Assumptions C90_cp_attribute_twice.

(** C90 is false for AC17 CP: the key lists the attribute twice, decryption is refused. *)
Theorem C90_cp_repeated_refuted : exists pol f t j j',
  parse pol HumanPolicy = Ok (tree f) /\ binary_and f = true /\ NoDup (names f) /\
  cp_session (C := ZC) nc ["A"] pol HumanPolicy "hello" t 0 = Ok (Ok "hello", j) /\
  cp_session (C := ZC) nc ["A"; "A"] pol HumanPolicy "hello" t 0 = Ok (Err, j').
Proof.
  exists """A""", (FLeaf "A" 2), (ztape 3). do 2 eexists. split; [ground|]. split; [reflexivity|].
  split; [repeat constructor; intros []|]. split; ground.
Qed.
Print Assumptions C90_cp_repeated_refuted.

(** C90. A ciphertext with one attribute twice. *)
Theorem C90_kp_attribute_twice :
  forall C : crypto,
  laws C ->
  forall (nonce : string) (pk : ac_pk C) (msk : ac_msk C) (a0 a1 b0 b1 k0 k1 k2 : F C)
    (n : string) (p : nat) (sk : ac_kpsk C) (pol : string) (lang : language)
    (data : string) (ct : ac_kpct C) (tk : nat -> F C) (ik jk : nat) 
    (te : nat -> F C) (ie je : nat),
  ac_keys pk msk a0 a1 b0 b1 k0 k1 k2 ->
  kp_keygen msk pol lang tk ik = Ok (sk, jk) ->
  kp_encrypt nonce pk [n; n] data te ie = Ok (ct, je) ->
  parse pol lang = Ok (tree (FLeaf n p)) ->
  let w := W n (b0 * tk ik)%F (b1 * tk (ik + 1)%nat)%F (tk ik + tk (ik + 1)%nat)%F in
  kp_decrypt sk ct =
  decrypt_symmetric
    (gtmul C (gtpow C (pairing C (g1one C) (g2one C)) (te (ie + 2)))
       (gtpow C (pairing C (amsk_g msk) (amsk_h msk))
          (te ie * w 0%nat + te (ie + 1)%nat * w 1%nat)%F)) (act_ct (akp_ct ct)).
Proof. exact @kp_attribute_twice. Qed.
Print Assumptions C90_kp_attribute_twice.

(** C90 is false for AC17 KP: the ciphertext lists the attribute twice. *)
Theorem C90_kp_repeated_refuted : exists pol f t j j',
  parse pol HumanPolicy = Ok (tree f) /\ binary_and f = true /\ NoDup (names f) /\
  kp_session (C := ZC) nc pol HumanPolicy ["A"] "hello" t 0 = Ok (Ok "hello", j) /\
  kp_session (C := ZC) nc pol HumanPolicy ["A"; "A"] "hello" t 0 = Ok (Err, j').
Proof.
  exists """A""", (FLeaf "A" 2), (ztape 3). do 2 eexists. split; [ground|]. split; [reflexivity|].
  split; [repeat constructor; intros []|]. split; ground.
Qed.
Print Assumptions C90_kp_repeated_refuted.

(** The other schemes accept repeated attributes. *)
Example C90_example_others :
  (exists j, bsw_session (C := ZC) nc ["A"; "A"] """A""" HumanPolicy "hello" (ztape 3) 0 = Ok (Ok "hello", j)) /\
  (exists j, ghw_session (C := ZC) nc ["A"; "A"] """A""" HumanPolicy "hello" (ztape 3) 0 = Ok (Ok "hello", j)) /\
  (exists j, lsw_session (C := ZC) nc """A""" HumanPolicy ["A"; "A"] "hello" (ztape 3) 0 = Ok (Ok "hello", j)) /\
  (exists j, yct_session (C := ZC) nc ["A"] """A""" HumanPolicy ["A"; "A"] "hello" (ztape 3) 0 = Ok (Ok "hello", j)) /\
  (exists j, aw_session (C := ZC) nc ["A"] "bob" ["A"; "A"] """A""" HumanPolicy "hello" (ztape 3) 0 = Ok (Ok "hello", j)).
Proof. repeat match goal with |- _ /\ _ => split end; run. Qed.

