(** * PropertiesSharing: C15 to C28: secret sharing, span programs and DNF

    Every statement is written out in full; the proofs are in the *Proofs files. *)
From Coq Require Import String Ascii List Bool Arith ZArith Lia.
From Verif Require Import Base Crypto Policy Tools Sharing Spec PolicyProofs Poly SharingProofs
  Msp MspProofs Dnf Symmetric Peg Grammar Parse PegProofs ParseProofs ParseText ParseHuman
  SchemeLib CoreProofs Files FilesProofs DnfProofs Bdabe BdabeProofs Mke08 Mke08Proofs
  Bsw BswProofs Ghw11 Ghw11Proofs Lsw LswProofs Yct14 Yct14Proofs Ac17 Ac17Proofs
  Aw11 Aw11Proofs EdgeProofs TruncationProofs Instance Sessions SessionProofs Witnesses.
Import ListNotations.
Local Open Scope string_scope.
Local Open Scope rand_scope.
Local Open Scope nat_scope.

(** C15. *)
Theorem C15_share_reconstruct :
  (forall C : crypto,
  laws C ->
  forall (f : formula) (attrs : list string) (s : F C) (t : nat -> F C) 
    (i : nat) (sh : list (string * F C)) (j : nat) (co : list (string * F C))
    (sel : list (string * string)),
  arity2 f = true ->
  NoDup (leaves f) ->
  small_ok C (and_width f) ->
  gen_shares_policy s (tree f) None t i = Ok (sh, j) ->
  calc_coefficients (tree f) 1 [] None = Ok (Some co) ->
  calc_pruned attrs (tree f) None = Ok (true, sel) ->
  fsum (map (fun x : string * string => value_at (snd x) co * value_at (snd x) sh) sel) =
  s)%F.
Proof. exact @share_reconstruct. Qed.
Print Assumptions C15_share_reconstruct.

Example C15_example : arity2 fP = true /\ NoDup (leaves fP) /\ small_ok ZC (and_width fP) /\
  exists co sh j sel,
    gen_shares_policy (C := ZC) (ztape 9 7) (tree fP) None (ztape 3) 0 = Ok (sh, j) /\
    calc_coefficients (C := ZC) (tree fP) 1%F [] None = Ok (Some co) /\
    calc_pruned ["A"; "C"] (tree fP) None = Ok (true, sel).
Proof.
  split; [ground|]. split; [ground|]. split; [ground|].
  destruct (share_leaves ZL fP (ztape 9 7) None (ztape 3) 0) as (sh & j & E & _).
  destruct (coefficient_leaves ZL fP 1%F None) as (co & Ec & _).
  exists co, sh, j. eexists. repeat split; try eassumption; ground.
Qed.

(** C16. *)
Theorem C16_threshold_reconstruct :
  (forall C : crypto,
  laws C ->
  forall (s : F C) (k n : nat) (t : nat -> F C) (i : nat) (shares : list (F C)) 
    (j : nat) (idx : list nat) (cs : list (F C)),
  1 <= k ->
  k <= n ->
  small_ok C n ->
  NoDup idx ->
  Datatypes.length idx = k ->
  (forall m : nat, In m idx -> m <= n) ->
  gen_shares s k n t i = Ok (shares, j) ->
  recover_coefficients (map usize_to_fr idx) = Ok cs ->
  fsum (map (fun x : F C * nat => fst x * share_at shares (snd x)) (combine cs idx)) = s)%F.
Proof. exact @threshold_reconstruct. Qed.
Print Assumptions C16_threshold_reconstruct.

Example C16_example : small_ok ZC 5 /\ NoDup [5; 2; 4] /\ (forall m, In m [5; 2; 4] -> m <= 5) /\
  exists shares j cs, gen_shares (C := ZC) (ztape 9 7) 3 5 (ztape 3) 0 = Ok (shares, j) /\
    recover_coefficients (C := ZC) (map usize_to_fr [5; 2; 4]) = Ok cs.
Proof.
  split; [apply Zsmall; lia|].
  split; [repeat constructor; cbn; lia|]. split; [cbn; lia|].
  eexists _, _, _. split; [apply (gen_shares_eq ZL); lia | apply (recover_coefficients_eq ZL)].
Qed.

(** C17. *)
Theorem C17_share_secrecy :
  (forall C : crypto,
  laws C ->
  forall (f : formula) (attrs : list string) (s s' : F C) (ty : option ptype) (i : nat),
  small_ok C (and_width f) ->
  sat (owns attrs) f = false ->
  exists (d : nat -> F C) (n : nat),
    (forall k : nat, ~ i <= k < i + n -> d k = 0) /\
    (forall t : nat -> F C,
     exists sh sh' : list (string * F C),
       gen_shares_policy s (tree f) ty t i = Ok (sh, (i + n)%nat) /\
       gen_shares_policy s' (tree f) ty (shift d t) i = Ok (sh', (i + n)%nat) /\
       (forall (k : nat) (nm : string) (p : nat) (x x' : string * F C),
        nth_error (leaves f) k = Some (nm, p) ->
        In nm attrs -> nth_error sh k = Some x -> nth_error sh' k = Some x' -> x = x')))%F.
Proof. exact @share_secrecy. Qed.
Print Assumptions C17_share_secrecy.

Example C17_example : small_ok ZC (and_width fP) /\ sat (owns ["B"; "C"]) fP = false.
Proof. split; ground. Qed.

(** C17: the shift is a bijection of the tapes. *)
Theorem C17_shift_inverse :
  (forall C : crypto,
  laws C ->
  forall (d t : nat -> F C) (k : nat), shift (fun n : nat => - d n) (shift d t) k = t k)%F.
Proof. exact @shift_inverse. Qed.
Print Assumptions C17_shift_inverse.

(** C18. *)
Theorem C18_threshold_secrecy :
  (forall C : crypto,
  laws C ->
  forall (s s' : F C) (k n i : nat) (idx : list nat),
  1 <= k ->
  k <= n ->
  small_ok C n ->
  NoDup idx ->
  Datatypes.length idx < k ->
  (forall m : nat, In m idx -> 1 <= m <= n) ->
  exists d : nat -> F C,
    (forall m : nat, ~ i <= m < i + (k - 1) -> d m = 0) /\
    (forall t : nat -> F C,
     exists (sh sh' : list (F C)) (j : nat),
       gen_shares s k n t i = Ok (sh, j) /\
       gen_shares s' k n (shift d t) i = Ok (sh', j) /\
       (forall m : nat, In m idx -> share_at sh m = share_at sh' m)))%F.
Proof. exact @threshold_secrecy. Qed.
Print Assumptions C18_threshold_secrecy.

Example C18_example : small_ok ZC 5 /\ NoDup [5; 2] /\ (forall m, In m [5; 2] -> 1 <= m <= 5).
Proof. split; [apply Zsmall; lia|]. split; [repeat constructor; cbn; lia | cbn; lia]. Qed.

(** C19, shares. *)
Theorem C19_share_leaves :
  (forall C : crypto,
  laws C ->
  forall (f : formula) (s : F C) (ty : option ptype) (t : nat -> F C) (i : nat),
  exists (sh : list (string * F C)) (j : nat),
    gen_shares_policy s (tree f) ty t i = Ok (sh, j) /\
    map fst sh = map (fun x : string * nat => node_index (fst x) (snd x)) (leaves f))%F.
Proof. exact @share_leaves. Qed.
Print Assumptions C19_share_leaves.

Example C19_example : map (fun x : string * nat => node_index (fst x) (snd x)) (leaves fP) = ["A_2"; "B_11"; "C_18"].
Proof. ground. Qed.

(** C19, coefficients. *)
Theorem C19_coefficient_leaves :
  (forall C : crypto,
  laws C ->
  forall (f : formula) (c : F C) (ty : option ptype),
  exists co : list (string * F C),
    calc_coefficients (tree f) c [] ty = Ok (Some co) /\
    map fst co = map (fun x : string * nat => node_index (fst x) (snd x)) (leaves f))%F.
Proof. exact @coefficient_leaves. Qed.
Print Assumptions C19_coefficient_leaves.

(** C20. *)
Theorem C20_msp_shape :
  forall (f : formula) (m : abe_policy),
  calculate_msp (tree f) = Ok m ->
  Datatypes.length (msp_pi m) = Datatypes.length (msp_m m) /\
  Permutation.Permutation (msp_pi m) (names f) /\
  Sorted.Sorted (fun a b : string => (a <=? b)%string = true) (msp_pi m) /\
  Forall (fun r : list Z => Datatypes.length r = msp_c m) (msp_m m) /\
  Forall (Forall (fun z : Z => z = (-1)%Z \/ z = 0%Z \/ z = 1%Z)) (msp_m m).
Proof. exact @msp_shape. Qed.
Print Assumptions C20_msp_shape.

Example C20_example : calculate_msp (tree fP) =
  Ok {| msp_m := [[1; 1]; [0; -1]; [0; -1]]%Z; msp_pi := ["A"; "B"; "C"]; msp_c := 2 |}.
Proof. ground. Qed.

(** C21. *)
Theorem C21_msp_spans :
  forall (f : formula) (m : abe_policy) (attrs : list string) 
    (l : list (string * string)) (t : option ptype),
  calculate_msp (tree f) = Ok m ->
  calc_pruned attrs (tree f) t = Ok (true, l) ->
  exists rows rest : list (string * list Z),
    Permutation.Permutation (combine (msp_pi m) (msp_m m)) (rows ++ rest) /\
    map fst rows = map fst l /\
    (forall k : nat,
     zsum (map (fun r : string * list Z => nth k (snd r) 0%Z) rows) =
     (if k =? 0 then 1%Z else 0%Z)).
Proof. exact @msp_spans. Qed.
Print Assumptions C21_msp_spans.

Example C21_example : (exists m, calculate_msp (tree fP) = Ok m) /\
  exists l, calc_pruned ["C"; "A"] (tree fP) None = Ok (true, l).
Proof. split; eexists; ground. Qed.

(** C22. *)
Theorem C22_msp_unsound_none :
  (forall C : crypto,
  laws C ->
  forall (f : formula) (attrs : list string) (m : abe_policy) (cs : list (F C)),
  calculate_msp (tree f) = Ok m ->
  sat (owns attrs) f = false ->
  Datatypes.length cs = Datatypes.length (msp_m m) ->
  (forall (c : F C) (nm : string),
   In (c, nm) (combine cs (msp_pi m)) -> ~ In nm attrs -> c = 0) ->
  ~ (forall k : nat, k < msp_c m -> lincomb cs (msp_m m) k = (if k =? 0 then 1 else 0)))%F.
Proof. exact @msp_unsound_none. Qed.
Print Assumptions C22_msp_unsound_none.

Example C22_example : (exists m, calculate_msp (tree fP) = Ok m) /\ sat (owns ["A"]) fP = false.
Proof. split; [eexists|]; ground. Qed.

(** C23. *)
Theorem C23_msp_accepts :
  forall f : formula,
  (binary_and f = true -> exists m : abe_policy, calculate_msp (tree f) = Ok m) /\
  (binary_and f = false -> calculate_msp (tree f) = Panic).
Proof. exact @msp_accepts. Qed.
Print Assumptions C23_msp_accepts.

Example C23_example : binary_and fP = true /\ binary_and (FAnd [FLeaf "A" 1; FLeaf "B" 2; FLeaf "C" 3]) = false /\
  calculate_msp (tree (FAnd [FLeaf "A" 1; FLeaf "B" 2; FLeaf "C" 3])) = Panic /\
  parse """A"" and ""B"" and ""C""" HumanPolicy = Ok (tree (FAnd [FLeaf "A" 2; FLeaf "B" 10; FLeaf "C" 18])).
Proof. repeat split; ground. Qed.

(** C23, AC17 encryption. *)
Theorem C23_cp_encrypt_wide_and :
  (forall (C : crypto) (nonce : string) (pk : ac_pk C) (pol : string) 
    (lang : language) (data : string) (f : formula) (t : nat -> F C) 
    (i : nat),
  parse pol lang = Ok (tree f) ->
  binary_and f = false -> cp_encrypt nonce pk pol data lang t i = Panic)%F.
Proof. exact @cp_encrypt_wide_and. Qed.
Print Assumptions C23_cp_encrypt_wide_and.

(** C23, AC17 key generation. *)
Theorem C23_kp_keygen_wide_and :
  (forall (C : crypto) (msk : ac_msk C) (pol : string) (lang : language) 
    (f : formula) (t : nat -> F C) (i : nat),
  parse pol lang = Ok (tree f) ->
  binary_and f = false -> kp_keygen msk pol lang t i = Panic)%F.
Proof. exact @kp_keygen_wide_and. Qed.
Print Assumptions C23_kp_keygen_wide_and.

(** C23, AW11 encryption. *)
Theorem C23_aw_encrypt_wide_and :
  (forall (C : crypto) (nonce : string) (gk : aw_gk C) (pks : list (aw_pk C))
    (pol : string) (lang : language) (data : string) (f : formula) 
    (t : nat -> F C) (i : nat),
  parse pol lang = Ok (tree f) ->
  binary_and f = false -> aw_encrypt nonce gk pks pol lang data t i = Panic)%F.
Proof. exact @aw_encrypt_wide_and. Qed.
Print Assumptions C23_aw_encrypt_wide_and.

(** C24. *)
Theorem C24_policy_in_dnf_iff :
  forall f : formula, policy_in_dnf (tree f) false None = true <-> no_or_below_and f.
Proof. exact @policy_in_dnf_iff. Qed.
Print Assumptions C24_policy_in_dnf_iff.

Example C24_example : policy_in_dnf (tree fX) false None = true /\ policy_in_dnf (tree fP) false None = false.
Proof. repeat split; ground. Qed.

(** C25 holds exactly when no later conjunction has two attributes. *)
Theorem C25_dnf_faithful_iff :
  (forall (C : crypto) (pks : list (pak C)) (f : formula) (T : list (term C)),
  flat f = true ->
  Forall (fun c : list string => c <> []) (conjs f) ->
  one_key pks f ->
  json_to_dnf (tree f) pks = Ok T ->
  Permutation.Permutation (map tm_attrs T) (conjs f) <->
  Forall (fun c : list string => Datatypes.length c = 1%nat) (tl (conjs f)))%F.
Proof. exact @dnf_faithful_iff. Qed.
Print Assumptions C25_dnf_faithful_iff.

(** C25 is false: a later conjunction is split. *)
Theorem C25_dnf_splits_conjunction :
  (forall (C : crypto) (pks : list (pak C)) (f : formula) (T : list (term C)) 
    (x : formula) (l : list formula) (c : formula) (a b : string) 
    (r : list string),
  f = FOr (x :: l) ->
  flat f = true ->
  one_key pks f ->
  names x <> [] ->
  In c l ->
  names c = a :: b :: r -> json_to_dnf (tree f) pks = Ok T -> In [a] (map tm_attrs T))%F.
Proof. exact @dnf_splits_conjunction. Qed.
Print Assumptions C25_dnf_splits_conjunction.

(** Public keys for the examples: one per name. *)
Definition pkeys (ns : list string) : list (pak ZC) := map (fun n => Pak (C := ZC) n (g1one ZC) (g2one ZC) (gtone ZC) (gtone ZC)) ns.

Ltac find_key :=
  eexists; unfold pkeys; cbn [map filter pak_attr];
  repeat match goal with |- context [seqb ?a ?b] =>
    let v := eval vm_compute in (seqb a b) in change (seqb a b) with v end;
  cbv iota; reflexivity.

Example C25_example : flat fX = true /\ one_key (pkeys ["x::A"; "x::B"; "x::C"]) fX.
Proof. split; [ground|]. intros n I. cbn in I. destruct I as [<-|[<-|[<-|[]]]]; find_key. Qed.

(** C25 is false: the conjunction of B and C is stored as two terms. *)
Theorem C25_dnf_split_refuted : exists f (pks : list (pak ZC)) ts,
  policy_in_dnf (tree f) false None = true /\
  (forall n, In n (names f) -> In n (map pak_attr pks)) /\
  json_to_dnf (tree f) pks = Ok ts /\
  In ["x::B"; "x::C"] (conjs f) /\ In ["x::B"] (map tm_attrs ts).
Proof.
  exists fX, (pkeys ["x::A"; "x::B"; "x::C"]).
  destruct (json_to_dnf_flat (pkeys ["x::A"; "x::B"; "x::C"]) fX eq_refl) as (T & E & _).
  exists T. split; [ground|]. split; [intros n I; exact I|]. split; [exact E|].
  split; [right; now left|].
  apply (dnf_splits_conjunction (pkeys ["x::A"; "x::B"; "x::C"]) fX T (FLeaf "x::A" 2) [FAnd [FLeaf "x::B" 13; FLeaf "x::C" 24]]
           (FAnd [FLeaf "x::B" 13; FLeaf "x::C" 24]) "x::B" "x::C" []); auto.
  - apply C25_example.
  - discriminate.
  - now left.
Qed.
Print Assumptions C25_dnf_split_refuted.

(** C26 is false for nested policies. *)
Theorem C26_json_to_dnf_nested :
  (forall (C : crypto) (pks : list (pak C)) (f : formula),
  flat f = false -> json_to_dnf (tree f) pks = Err)%F.
Proof. exact @json_to_dnf_nested. Qed.
Print Assumptions C26_json_to_dnf_nested.

(** C26, BDABE. *)
Theorem C26_bd_encrypt_nested :
  (forall (C : crypto) (nonce : string) (pk : bd_pk C) (apks : list (bd_apk C))
    (pol : string) (lang : language) (data : string) (f : formula) 
    (t : nat -> F C) (i : nat),
  parse pol lang = Ok (tree f) ->
  no_or_below_and f ->
  flat f = false -> bd_encrypt nonce pk apks pol lang data t i = Panic)%F.
Proof. exact @bd_encrypt_nested. Qed.
Print Assumptions C26_bd_encrypt_nested.

(** C26, MKE08. *)
Theorem C26_mk_encrypt_nested :
  (forall (C : crypto) (nonce : string) (pk : mk_pk C) (apks : list (mk_apk C))
    (pol : string) (lang : language) (data : string) (f : formula) 
    (t : nat -> F C) (i : nat),
  parse pol lang = Ok (tree f) ->
  no_or_below_and f ->
  flat f = false -> mk_encrypt nonce pk apks pol lang data t i = Panic)%F.
Proof. exact @mk_encrypt_nested. Qed.
Print Assumptions C26_mk_encrypt_nested.

(** C26 is false: a conjunction inside a conjunction passes the test and aborts. *)
Example C26_example : parse """x::A"" and (""x::B"" and ""x::C"")" HumanPolicy =
    Ok (tree (FAnd [FLeaf "x::A" 2; FAnd [FLeaf "x::B" 14; FLeaf "x::C" 25]])) /\
  policy_in_dnf (tree (FAnd [FLeaf "x::A" 2; FAnd [FLeaf "x::B" 14; FLeaf "x::C" 25]])) false None = true /\
  flat (FAnd [FLeaf "x::A" 2; FAnd [FLeaf "x::B" 14; FLeaf "x::C" 25]]) = false.
Proof. repeat split; ground. Qed.

Theorem C26_nested_refuted : exists pol f, parse pol HumanPolicy = Ok (tree f) /\
  policy_in_dnf (tree f) false None = true /\
  forall C (L : laws C) nonce (pk : bd_pk C) apks data t i,
    bd_encrypt nonce pk apks pol HumanPolicy data t i = Panic.
Proof.
  eexists _, _. split; [exact (proj1 C26_example)|]. split; [ground|].
  intros. eapply bd_encrypt_nested; [exact (proj1 C26_example)| |ground].
  apply policy_in_dnf_iff. ground.
Qed.
Print Assumptions C26_nested_refuted.

Theorem C26_nested_mke08_refuted : exists pol f, parse pol HumanPolicy = Ok (tree f) /\
  policy_in_dnf (tree f) false None = true /\
  forall C (L : laws C) nonce (pk : mk_pk C) apks data t i,
    mk_encrypt nonce pk apks pol HumanPolicy data t i = Panic.
Proof.
  eexists _, _. split; [exact (proj1 C26_example)|]. split; [ground|].
  intros. eapply mk_encrypt_nested; [exact (proj1 C26_example)| |ground].
  apply policy_in_dnf_iff. ground.
Qed.
Print Assumptions C26_nested_mke08_refuted.

(** C26 holds for BDABE on flat policies. *)
Theorem C26_bd_encrypt_runs_partial :
  (forall (C : crypto) (nonce : string) (pk : bd_pk C) (apks : list (bd_apk C))
    (pol : string) (lang : language) (data : string) (f : formula) 
    (t : nat -> F C) (i : nat),
  parse pol lang = Ok (tree f) ->
  flat f = true ->
  exists (ct : bd_ct C) (j : nat), bd_encrypt nonce pk apks pol lang data t i = Ok (ct, j))%F.
Proof. exact @bd_encrypt_runs. Qed.
Print Assumptions C26_bd_encrypt_runs_partial.

Example C26_flat_example : parse PX HumanPolicy = Ok (tree fX) /\ flat fX = true.
Proof. repeat split; ground. Qed.

(** C26 holds for MKE08 on flat policies. *)
Theorem C26_mk_encrypt_runs_partial :
  (forall (C : crypto) (nonce : string) (pk : mk_pk C) (apks : list (mk_apk C))
    (pol : string) (lang : language) (data : string) (f : formula) 
    (t : nat -> F C) (i : nat),
  parse pol lang = Ok (tree f) ->
  flat f = true ->
  exists (ct : mk_ct C) (j : nat), mk_encrypt nonce pk apks pol lang data t i = Ok (ct, j))%F.
Proof. exact @mk_encrypt_runs. Qed.
Print Assumptions C26_mk_encrypt_runs_partial.

(** C27 is false: only the supplied keys are used. *)
Theorem C27_dnf_drops_missing :
  (forall (C : crypto) (pks : list (pak C)) (l : list formula) (T : list (term C)),
  forallb is_leaf l = true ->
  keys pks (names (FAnd l)) <> [] ->
  json_to_dnf (tree (FAnd l)) pks = Ok T ->
  map tm_attrs T = [map pak_attr (keys pks (names (FAnd l)))])%F.
Proof. exact @dnf_drops_missing. Qed.
Print Assumptions C27_dnf_drops_missing.

(** C27, BDABE: holders of the supplied attributes open the ciphertext. *)
Theorem C27_bd_missing_opens :
  (forall C : crypto,
  laws C ->
  forall (pk : bd_pk C) (msk : bd_msk C) (As : list (bd_auth C)) 
    (ts : nat -> F C) (is js : nat),
  bd_setup ts is = Ok (pk, msk, js) ->
  Forall (bd_authority pk msk) As ->
  bd_unique As ->
  forall (nonce pol data : string) (lang : language) (apks : list (bd_apk C))
    (ct : bd_ct C) (te : nat -> F C) (ie je : nat) (f : formula),
  Forall (bd_pk_issued pk As) apks ->
  bd_encrypt nonce pk apks pol lang data te ie = Ok (ct, je) ->
  parse pol lang = Ok (tree f) ->
  String.length nonce = 12 ->
  forall (uk : bd_uk C) (l : list formula) (pol' : string) (lang' : language)
    (f' : formula),
  bd_user pk As uk ->
  f = FAnd l ->
  keys (map bd_pak apks) (names f) <> [] ->
  (forall n : string,
   In n (names f) -> In n (map bapk_attr apks) -> In n (map bask_attr (buk_ska uk))) ->
  parse pol' lang' = Ok (tree f') ->
  sat (owns (map bask_attr (buk_ska uk))) f' = true ->
  bd_decrypt uk
    {|
      Bdabe.bct_policy := (pol', lang');
      bct_j := bct_j ct;
      Bdabe.bct_data := Bdabe.bct_data ct
    |} = Ok data)%F.
Proof. exact @bd_missing_opens. Qed.
Print Assumptions C27_bd_missing_opens.

(** C27, MKE08. *)
Theorem C27_mk_missing_opens :
  (forall C : crypto,
  laws C ->
  forall (pk : mk_pk C) (msk : mk_msk C) (As : list (mk_auth C)) 
    (ts : nat -> F C) (is js : nat),
  mk_setup ts is = Ok (pk, msk, js) ->
  mk_unique As ->
  forall (nonce pol data : string) (lang : language) (apks : list (mk_apk C))
    (ct : mk_ct C) (te : nat -> F C) (ie je : nat) (f : formula),
  Forall (mk_pk_issued pk As) apks ->
  mk_encrypt nonce pk apks pol lang data te ie = Ok (ct, je) ->
  parse pol lang = Ok (tree f) ->
  String.length nonce = 12 ->
  forall (uk : mk_uk C) (l : list formula) (pol' : string) (lang' : language)
    (f' : formula),
  mk_user pk msk As uk ->
  f = FAnd l ->
  keys (map mk_pak apks) (names f) <> [] ->
  (forall n : string,
   In n (names f) -> In n (map mapk_attr apks) -> In n (map mask_attr (muk_ska uk))) ->
  parse pol' lang' = Ok (tree f') ->
  sat (owns (map mask_attr (muk_ska uk))) f' = true ->
  mk_decrypt uk
    {| mct_policy := (pol', lang'); mct_e := mct_e ct; mct_data := mct_data ct |} =
  Ok data)%F.
Proof. exact @mk_missing_opens. Qed.
Print Assumptions C27_mk_missing_opens.

(** C27 is false: B has no public key, encryption succeeds, and a user with A alone opens the
    ciphertext after editing the stored policy text. *)
Theorem C27_missing_key_refuted : exists (pk : bd_pk ZC) msk au uk a s ct t i1 i2 i3 i4,
  bd_setup t 0 = Ok (pk, msk, i1) /\
  bd_authgen pk msk "x" t i1 = Ok (au, i2) /\
  bd_keygen pk au "bob" t i2 = Ok (uk, i3) /\
  bd_request_pk pk au "x::A" = Ok a /\
  bd_request_sk (buk_pk uk) au "x::A" = Ok s /\
  bd_encrypt nc pk [a] """x::A"" and ""x::B""" HumanPolicy "hello" t i3 = Ok (ct, i4) /\
  bd_decrypt (bd_add uk s)
    (BdCt (C := ZC) ("""x::A""", HumanPolicy) (bct_j ct) (Bdabe.bct_data ct)) = Ok "hello".
Proof.
  by_run (' (pk, msk) <- bd_setup (C := ZC) ;; au <- bd_authgen pk msk "x" ;; uk <- bd_keygen pk au "bob" ;;
    a <- rlift (bd_request_pk pk au "x::A") ;; s <- rlift (bd_request_sk (buk_pk uk) au "x::A") ;;
    ct <- bd_encrypt nc pk [a] """x::A"" and ""x::B""" HumanPolicy "hello" ;;
    rret (bd_decrypt (bd_add uk s) (BdCt (C := ZC) ("""x::A""", HumanPolicy) (bct_j ct) (Bdabe.bct_data ct))))
    (Ok "hello").
Qed.
Print Assumptions C27_missing_key_refuted.

Theorem C27_missing_key_mke08_refuted : exists (pk : mk_pk ZC) msk au uk a s ct t i1 i2 i3 i4,
  mk_setup t 0 = Ok (pk, msk, i1) /\
  mk_authgen "x" t i1 = Ok (au, i2) /\
  mk_keygen pk msk "bob" t i2 = Ok (uk, i3) /\
  mk_request_pk pk "x::A" au = Ok a /\
  mk_request_sk (muk_pk uk) "x::A" au = Ok s /\
  mk_encrypt nc pk [a] """x::A"" and ""x::B""" HumanPolicy "hello" t i3 = Ok (ct, i4) /\
  mk_decrypt (mk_add uk s) (MkCt ("""x::A""", HumanPolicy) (mct_e ct) (mct_data ct)) = Ok "hello".
Proof.
  by_run (' (pk, msk) <- mk_setup (C := ZC) ;; au <- mk_authgen "x" ;; uk <- mk_keygen pk msk "bob" ;;
    a <- rlift (mk_request_pk pk "x::A" au) ;; s <- rlift (mk_request_sk (muk_pk uk) "x::A" au) ;;
    ct <- mk_encrypt nc pk [a] """x::A"" and ""x::B""" HumanPolicy "hello" ;;
    rret (mk_decrypt (mk_add uk s) (MkCt ("""x::A""", HumanPolicy) (mct_e ct) (mct_data ct))))
    (Ok "hello").
Qed.
Print Assumptions C27_missing_key_mke08_refuted.

(** C28. *)
Theorem C28_dnf_flat_faithful :
  (forall (C : crypto) (pks : list (pak C)) (f : formula),
  one_key pks f ->
  (exists (n : string) (p : nat), f = FLeaf n p) \/
  (exists l : list formula, f = FAnd l /\ l <> [] /\ forallb is_leaf l = true) \/
  (exists l : list formula, f = FOr l /\ forallb is_leaf l = true) ->
  exists T : list (term C),
    json_to_dnf (tree f) pks = Ok T /\ Permutation.Permutation (map tm_attrs T) (conjs f))%F.
Proof. exact @dnf_flat_faithful. Qed.
Print Assumptions C28_dnf_flat_faithful.

Example C28_example : one_key (pkeys ["A"; "B"; "C"]) (FAnd [FLeaf "B" 1; FLeaf "C" 5; FLeaf "A" 9]).
Proof. intros n I. cbn in I. destruct I as [<-|[<-|[<-|[]]]]; find_key. Qed.

