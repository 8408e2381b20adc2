(** * PropertiesGeneric: outsiders and helpers (C109, C110)

    Generic.v says what can be computed from seen group elements, Views.v what is seen.  The theorems
    with a twin run say: two runs that look the same except for the master secret and the payload are
    not both opened by the same combination.  The twin is free, so among all twins of a run at most
    one is opened.  The proofs are in GenericProofs.v and GenericDnfProofs.v. *)
From Coq Require Import String List Bool Arith ZArith Lia.
From Verif Require Import Base Crypto Policy Parse Spec PolicyProofs Poly SchemeLib Msp Dnf DnfProofs Bdabe Mke08
  Bsw Ghw11 Lsw Yct14 Ac17 Aw11 Instance Sessions SessionProofs Witnesses Generic Views GenericProofs
  GenericDnfProofs GenericWitnesses.
Import ListNotations.
Local Open Scope F_scope.

(** BSW: a combination that opens a ciphertext of one system does not open the twin ciphertext of the system with master secret [a]. *)
Theorem C109_bsw :
  forall C : crypto, laws C -> forall nonce pol lang data f (e : combT C),
  parse pol lang = Ok (tree f) ->
  exists x : F C, forall (ts te : nat -> F C) a pk msk i ct j pk' msk' i' ct' j',
  let m := te 1%nat in
  let m' := te 1%nat + (ts 3%nat - a) * te 0%nat * (ts 0%nat * ts 1%nat) in
  bsw_setup ts 0%nat = Ok (pk, msk, i) -> bsw_encrypt nonce pk pol lang data te 0%nat = Ok (ct, j) ->
  bsw_setup (put ts 3%nat a) 0%nat = Ok (pk', msk', i') ->
  bsw_encrypt nonce pk' pol lang data (put te 1%nat m') 0%nat = Ok (ct', j') ->
  ts 0%nat <> 0 -> ts 1%nat <> 0 -> a <> ts 3%nat -> te 0%nat <> x ->
  evalT (bsw_view pk ct) e = payload m -> evalT (bsw_view pk' ct') e <> payload m'.
Proof. intros C L. exact (bsw_outsider L). Qed.
Print Assumptions C109_bsw.

Example C109_example_bsw : parse P HumanPolicy = Ok (tree fP) /\ f1 ZC <> f0 ZC /\
  exists pk msk i ct j pk' msk' i' ct' j',
  bsw_setup one 0%nat = Ok (pk, msk, i) /\ bsw_encrypt nc pk P HumanPolicy "m" one 0%nat = Ok (ct, j) /\
  bsw_setup (put one 3%nat (f0 ZC)) 0%nat = Ok (pk', msk', i') /\
  bsw_encrypt nc pk' P HumanPolicy "m" (put one 1%nat (f0 ZC)) 0%nat = Ok (ct', j').
Proof. exact (conj Ptree (conj Zone bsw_twins)). Qed.

(** No combination opens every BSW ciphertext for a policy. *)
Theorem C109_bsw_none :
  forall C : crypto, laws C -> forall nonce pol lang data f (e : combT C),
  parse pol lang = Ok (tree f) -> hash_total (C := C) ->
  exists (ts te : nat -> F C) pk msk i ct j, ts 0%nat <> 0 /\ ts 1%nat <> 0 /\
    bsw_setup ts 0%nat = Ok (pk, msk, i) /\ bsw_encrypt nonce pk pol lang data te 0%nat = Ok (ct, j) /\
    evalT (bsw_view pk ct) e <> payload (te 1%nat).
Proof. intros C L. exact (bsw_no_outsider L). Qed.
Print Assumptions C109_bsw_none.

Example C109_example_bsw_none : parse P HumanPolicy = Ok (tree fP) /\ hash_total (C := ZC).
Proof. exact (conj Ptree Zhash). Qed.

(** LSW. *)
Theorem C109_lsw :
  forall C : crypto, laws C -> forall nonce attrs data (e : combT C),
  exists x : F C, forall (ts te : nat -> F C) a pk msk i ct j pk' msk' i' ct' j',
  let n := S (length attrs) in
  let m := te n in
  let m' := te n + ts 0%nat * (ts 1%nat - a) * te 0%nat * (ts 3%nat * ts 4%nat) in
  lsw_setup ts 0%nat = Ok (pk, msk, i) -> lsw_encrypt nonce pk attrs data te 0%nat = Ok (ct, j) ->
  lsw_setup (put ts 1%nat a) 0%nat = Ok (pk', msk', i') ->
  lsw_encrypt nonce pk' attrs data (put te n m') 0%nat = Ok (ct', j') ->
  ts 0%nat <> 0 -> ts 3%nat <> 0 -> ts 4%nat <> 0 -> a <> ts 1%nat -> te 0%nat <> x ->
  evalT (lsw_view pk ct) e = payload m -> evalT (lsw_view pk' ct') e <> payload m'.
Proof. intros C L. exact (lsw_outsider L). Qed.
Print Assumptions C109_lsw.

Example C109_example_lsw : exists pk msk i ct j pk' msk' i' ct' j',
  lsw_setup one 0%nat = Ok (pk, msk, i) /\ lsw_encrypt nc pk ["A"; "B"]%string "m" one 0%nat = Ok (ct, j) /\
  lsw_setup (put one 1%nat (f0 ZC)) 0%nat = Ok (pk', msk', i') /\
  lsw_encrypt nc pk' ["A"; "B"]%string "m" (put one 3%nat (f0 ZC)) 0%nat = Ok (ct', j').
Proof. exact lsw_twins. Qed.

(** No combination opens every LSW ciphertext for a list of attributes. *)
Theorem C109_lsw_none :
  forall C : crypto, laws C -> forall nonce attrs data (e : combT C),
  attrs <> [] -> data <> EmptyString -> hash_total (C := C) ->
  exists (ts te : nat -> F C) pk msk i ct j, ts 3%nat <> 0 /\ ts 4%nat <> 0 /\
    lsw_setup ts 0%nat = Ok (pk, msk, i) /\ lsw_encrypt nonce pk attrs data te 0%nat = Ok (ct, j) /\
    evalT (lsw_view pk ct) e <> payload (te (S (length attrs))).
Proof. intros C L. exact (lsw_no_outsider L). Qed.
Print Assumptions C109_lsw_none.

(** AC17, ciphertext-policy. *)
Theorem C109_ac17_cp :
  forall C : crypto, laws C -> forall nonce pol lang data f (e : combT C),
  parse pol lang = Ok (tree f) -> binary_and f = true ->
  exists x : F C, forall (ts te : nat -> F C) a pk msk i ct j pk' msk' i' ct' j',
  let m := te 2%nat in
  let m' := te 2%nat + (ts 6%nat - a) * ts 2%nat * te 0%nat * (ts 0%nat * ts 1%nat) in
  ac_setup ts 0%nat = Ok (pk, msk, i) -> cp_encrypt nonce pk pol data lang te 0%nat = Ok (ct, j) ->
  ac_setup (put ts 6%nat a) 0%nat = Ok (pk', msk', i') ->
  cp_encrypt nonce pk' pol data lang (put te 2%nat m') 0%nat = Ok (ct', j') ->
  ts 0%nat <> 0 -> ts 1%nat <> 0 -> ts 2%nat <> 0 -> a <> ts 6%nat -> te 0%nat <> x ->
  evalT (ac_view pk (acp_ct ct)) e = payload m -> evalT (ac_view pk' (acp_ct ct')) e <> payload m'.
Proof. intros C L. exact (cp_outsider L). Qed.
Print Assumptions C109_ac17_cp.

(** AC17, key-policy. *)
Theorem C109_ac17_kp :
  forall C : crypto, laws C -> forall nonce attrs data (e : combT C),
  exists x : F C, forall (ts te : nat -> F C) a pk msk i ct j pk' msk' i' ct' j',
  let m := te 2%nat in
  let m' := te 2%nat + (ts 6%nat - a) * ts 2%nat * te 0%nat * (ts 0%nat * ts 1%nat) in
  ac_setup ts 0%nat = Ok (pk, msk, i) -> kp_encrypt nonce pk attrs data te 0%nat = Ok (ct, j) ->
  ac_setup (put ts 6%nat a) 0%nat = Ok (pk', msk', i') ->
  kp_encrypt nonce pk' attrs data (put te 2%nat m') 0%nat = Ok (ct', j') ->
  ts 0%nat <> 0 -> ts 1%nat <> 0 -> ts 2%nat <> 0 -> a <> ts 6%nat -> te 0%nat <> x ->
  evalT (ac_view pk (akp_ct ct)) e = payload m -> evalT (ac_view pk' (akp_ct ct')) e <> payload m'.
Proof. intros C L. exact (kp_outsider L). Qed.
Print Assumptions C109_ac17_kp.

Example C109_example_ac17 : parse P HumanPolicy = Ok (tree fP) /\ binary_and fP = true /\
  exists pk msk i ct j kt k pk' msk' i' ct' j' kt' k',
  ac_setup one 0%nat = Ok (pk, msk, i) /\ cp_encrypt nc pk P "m" HumanPolicy one 0%nat = Ok (ct, j) /\
  kp_encrypt nc pk ["A"; "B"]%string "m" one 0%nat = Ok (kt, k) /\
  ac_setup (put one 6%nat (f0 ZC)) 0%nat = Ok (pk', msk', i') /\
  cp_encrypt nc pk' P "m" HumanPolicy (put one 2%nat (f0 ZC)) 0%nat = Ok (ct', j') /\
  kp_encrypt nc pk' ["A"; "B"]%string "m" (put one 2%nat (f0 ZC)) 0%nat = Ok (kt', k').
Proof. exact (conj Ptree (conj eq_refl ac_twins)). Qed.

(** No combination opens every AC17 ciphertext for a policy. *)
Theorem C109_ac17_cp_none :
  forall C : crypto, laws C -> forall nonce pol lang data f (e : combT C),
  parse pol lang = Ok (tree f) -> binary_and f = true -> hash_total (C := C) ->
  exists (ts te : nat -> F C) pk msk i ct j, ts 0%nat <> 0 /\ ts 1%nat <> 0 /\
    ac_setup ts 0%nat = Ok (pk, msk, i) /\ cp_encrypt nonce pk pol data lang te 0%nat = Ok (ct, j) /\
    evalT (ac_view pk (acp_ct ct)) e <> payload (te 2%nat).
Proof. intros C L. exact (cp_no_outsider L). Qed.
Print Assumptions C109_ac17_cp_none.

(** No combination opens every AC17 ciphertext for a list of attributes. *)
Theorem C109_ac17_kp_none :
  forall C : crypto, laws C -> forall nonce attrs data (e : combT C),
  hash_total (C := C) ->
  exists (ts te : nat -> F C) pk msk i ct j, ts 0%nat <> 0 /\ ts 1%nat <> 0 /\
    ac_setup ts 0%nat = Ok (pk, msk, i) /\ kp_encrypt nonce pk attrs data te 0%nat = Ok (ct, j) /\
    evalT (ac_view pk (akp_ct ct)) e <> payload (te 2%nat).
Proof. intros C L. exact (kp_no_outsider L). Qed.
Print Assumptions C109_ac17_kp_none.

(** YCT14: the twin system has another exponent behind [g ^ s]. *)
Theorem C109_yct :
  forall C : crypto, laws C -> forall nonce U attrs data (e : combT C) (ts : nat -> F C) a pk msk i pk' msk' i',
  yct_setup U ts 0%nat = Ok (pk, msk, i) -> yct_setup U (put ts 0%nat a) 0%nat = Ok (pk', msk', i') ->
  ts 1%nat <> 0 -> a <> ts 0%nat ->
  exists x : F C, forall (te : nat -> F C) ct j ct' j',
  yct_encrypt nonce pk attrs data te 0%nat = Ok (ct, j) ->
  yct_encrypt nonce pk' attrs data te 0%nat = Ok (ct', j') ->
  te 0%nat <> x ->
  evalT (yct_view pk ct) e = gtpow C (ypk_g pk) (te 0%nat) -> evalT (yct_view pk' ct') e <> gtpow C (ypk_g pk') (te 0%nat).
Proof. intros C L. exact (yct_outsider L). Qed.
Print Assumptions C109_yct.

Example C109_example_yct : exists pk msk i ct j pk' msk' i' ct' j',
  yct_setup ["A"; "B"; "C"]%string one 0%nat = Ok (pk, msk, i) /\
  yct_setup ["A"; "B"; "C"]%string (put one 0%nat (f0 ZC)) 0%nat = Ok (pk', msk', i') /\
  yct_encrypt nc pk ["A"; "B"]%string "m" one 0%nat = Ok (ct, j) /\ yct_encrypt nc pk' ["A"; "B"]%string "m" one 0%nat = Ok (ct', j').
Proof. exact yct_twins. Qed.

(** No combination opens every YCT14 ciphertext for a list of attributes. *)
Theorem C109_yct_none :
  forall C : crypto, laws C -> forall nonce U attrs data (e : combT C),
  attrs <> [] -> data <> EmptyString -> incl attrs U ->
  exists (ts te : nat -> F C) pk msk i ct j, ts 1%nat <> 0 /\
    yct_setup U ts 0%nat = Ok (pk, msk, i) /\ yct_encrypt nonce pk attrs data te 0%nat = Ok (ct, j) /\
    evalT (yct_view pk ct) e <> gtpow C (ypk_g pk) (te 0%nat).
Proof. intros C L. exact (yct_no_outsider L). Qed.
Print Assumptions C109_yct_none.

(** AW11: with the public keys of any number of authorities.  In the twin the share of every leaf is [D] larger and the secret exponents of the attributes make up for it. *)
Theorem C109_aw :
  forall C : crypto, laws C -> forall nonce pol lang data f (Us : list (list string)) (e : combT C),
  parse pol lang = Ok (tree f) ->
  exists (q : nat) (c : string -> F C), (0 < q)%nat /\
  forall (ts te : nat -> F C) auths (rho : string -> F C) (D : F C) gk i pks ct j pks' ct' j',
  let ns := nodup string_dec (map (aw_key C) (names f)) in
  let m := te q in
  let m' := te q - D * (ts 0%nat * ts 1%nat) in
  let d := fun n => if smem n ns then - D * finv C (rho n) else 0 in
  map fst auths = Us -> aw_setup ts 0%nat = Ok (gk, i) -> authorities gk auths pks ->
  aw_encrypt nonce gk pks pol lang data te 0%nat = Ok (ct, j) ->
  authorities gk (moved d auths) pks' ->
  aw_encrypt nonce gk pks' pol lang data (put (put te 0%nat (te 0%nat + D)) q m') 0%nat = Ok (ct', j') ->
  ts 0%nat <> 0 -> ts 1%nat <> 0 -> D <> 0 ->
  (forall k n, nth_error (names f) k = Some n -> te (q + 1 + k)%nat = rho (aw_key C n) /\ rho (aw_key C n) <> 0) ->
  fsum (map (fun n => c n * finv C (rho n)) ns) <> 1 ->
  awct_c0 ct = gtmul C (payload m) (gtpow C (pairing C (agk_g1 gk) (agk_g2 gk)) (te 0%nat)) /\
  awct_c0 ct' = gtmul C (payload m') (gtpow C (pairing C (agk_g1 gk) (agk_g2 gk)) (te 0%nat + D)) /\
  (evalT (aw_view gk pks ct) e = payload m -> evalT (aw_view gk pks' ct') e <> payload m').
Proof. intros C L. exact (aw_outsider L). Qed.
Print Assumptions C109_aw.

Example C109_example_aw : forall (te' : nat -> F ZC) (d : string -> F ZC),
  parse P HumanPolicy = Ok (tree fP) /\ f1 ZC <> f0 ZC /\ exists gk i pks ct j pks' ct' j',
  aw_setup one 0%nat = Ok (gk, i) /\ authorities gk two_auths pks /\
  aw_encrypt nc gk pks P HumanPolicy "m" one 0%nat = Ok (ct, j) /\
  authorities gk (moved d two_auths) pks' /\
  aw_encrypt nc gk pks' P HumanPolicy "m" te' 0%nat = Ok (ct', j').
Proof. exact (fun te' d => conj Ptree (conj Zone (aw_twins te' d))). Qed.

(** No combination opens every AW11 ciphertext for a policy, whatever lists of attributes the authorities have. *)
Theorem C109_aw_none :
  forall C : crypto, laws C -> forall nonce pol lang data f (Us : list (list string)) (e : combT C),
  parse pol lang = Ok (tree f) -> binary_and f = true -> Forall (fun U => U <> []) Us -> small_ok C 2%nat ->
  exists (ts te : nat -> F C) auths gk i pks ct j M, map fst auths = Us /\ ts 0%nat <> 0 /\ ts 1%nat <> 0 /\
    aw_setup ts 0%nat = Ok (gk, i) /\ authorities gk auths pks /\
    aw_encrypt nonce gk pks pol lang data te 0%nat = Ok (ct, j) /\
    awct_c0 ct = gtmul C M (gtpow C (pairing C (agk_g1 gk) (agk_g2 gk)) (te 0%nat)) /\
    evalT (aw_view gk pks ct) e <> M.
Proof. intros C L. exact (aw_no_outsider L). Qed.
Print Assumptions C109_aw_none.

Example C109_example_aw_none : parse P HumanPolicy = Ok (tree fP) /\ binary_and fP = true /\
  Forall (fun U => U <> []) [["a"]; ["B"; "C"]]%string /\ small_ok ZC 2.
Proof. split; [exact Ptree|]. split; [reflexivity|]. split; [repeat (constructor; [discriminate|]); constructor|ground]. Qed.

(** BDABE: with published attribute keys of any number of authorities.  The twin is for ciphertexts whose tuples have the same exponent in their fourth element. *)
Theorem C109_bdabe :
  forall C : crypto, laws C -> forall nonce pol lang data reqs (e : combT C),
  exists x : F C, forall (ts te : nat -> F C) (y' rho : F C) pk msk i apks ct j pk' msk' i' apks' ct' j',
  let te' := put te 1%nat (te 1%nat - (y' - ts 4%nat) * (ts 0%nat * ts 1%nat) * rho * finv C (te 0%nat)) in
  bd_setup ts 0%nat = Ok (pk, msk, i) -> bd_published pk msk reqs apks ->
  bd_encrypt nonce pk apks pol lang data te 0%nat = Ok (ct, j) ->
  bd_setup (put ts 4%nat y') 0%nat = Ok (pk', msk', i') -> bd_published pk' msk' reqs apks' ->
  bd_encrypt nonce pk' apks' pol lang data te' 0%nat = Ok (ct', j') ->
  ts 0%nat <> 0 -> ts 1%nat <> 0 -> te 0%nat <> 0 -> y' <> ts 4%nat ->
  (forall t, In t (bct_j ct) -> bt_e4 t = g1mul C (Bdabe.bpk_g1 pk) rho) -> rho <> x ->
  evalT (bd_view pk apks ct) e = payload (te 0%nat * te 1%nat) ->
  evalT (bd_view pk' apks' ct') e <> payload (te' 0%nat * te' 1%nat).
Proof. intros C L. exact (bd_outsider L). Qed.
Print Assumptions C109_bdabe.

(** No combination opens every BDABE ciphertext for a policy and published keys in which no conjunction cancels out. *)
Theorem C109_bdabe_none :
  forall C : crypto, laws C -> forall nonce pol lang data f reqs (e : combT C) (ts0 te0 : nat -> F C) pk0 msk0 i0 apks0 ct0 j0,
  parse pol lang = Ok (tree f) -> flat f = true ->
  bd_setup ts0 0%nat = Ok (pk0, msk0, i0) -> bd_published pk0 msk0 reqs apks0 ->
  bd_encrypt nonce pk0 apks0 pol lang data te0 0%nat = Ok (ct0, j0) ->
  ts0 0%nat <> 0 -> ts0 1%nat <> 0 -> (forall t, In t (bct_j ct0) -> bt_e4 t <> g1zero C) ->
  exists (ts te : nat -> F C) pk msk i apks ct j, ts 0%nat <> 0 /\ ts 1%nat <> 0 /\
    bd_setup ts 0%nat = Ok (pk, msk, i) /\ bd_published pk msk reqs apks /\
    bd_encrypt nonce pk apks pol lang data te 0%nat = Ok (ct, j) /\
    evalT (bd_view pk apks ct) e <> payload (te 0%nat * te 1%nat).
Proof. intros C L. exact (bd_no_outsider L). Qed.
Print Assumptions C109_bdabe_none.

Example C109_example_bdabe : parse PX HumanPolicy = Ok (tree fX) /\ flat fX = true /\ exists pk msk i apks ct j,
  bd_setup (C := ZC) (ztape 3) 0%nat = Ok (pk, msk, i) /\ bd_published pk msk three_keys apks /\
  bd_encrypt nc pk apks PX HumanPolicy "m" one 0%nat = Ok (ct, j) /\ length (Bdabe.bct_j ct) = 3%nat /\
  (forall t, In t (Bdabe.bct_j ct) -> bt_e4 t <> g1zero ZC).
Proof. split; [vm_compute; reflexivity|]. split; [reflexivity|]. exact bd_example. Qed.

(** MKE08, likewise. *)
Theorem C109_mke :
  forall C : crypto, laws C -> forall nonce pol lang data reqs (e : combT C),
  exists x : F C, forall (ts te : nat -> F C) (y' rho : F C) pk msk i apks ct j pk' msk' i' apks' ct' j',
  let te' := put te 2%nat (te 2%nat - (y' - ts 5%nat) * (ts 0%nat * ts 1%nat) * rho * finv C (te 0%nat * te 1%nat)) in
  mk_setup ts 0%nat = Ok (pk, msk, i) -> mk_published pk reqs apks ->
  mk_encrypt nonce pk apks pol lang data te 0%nat = Ok (ct, j) ->
  mk_setup (put ts 5%nat y') 0%nat = Ok (pk', msk', i') -> mk_published pk' reqs apks' ->
  mk_encrypt nonce pk' apks' pol lang data te' 0%nat = Ok (ct', j') ->
  ts 0%nat <> 0 -> ts 1%nat <> 0 -> te 0%nat <> 0 -> te 1%nat <> 0 -> y' <> ts 5%nat ->
  (forall t, In t (mct_e ct) -> mj_5 t = g1mul C (mpk_g1 pk) rho) -> rho <> x ->
  evalT (mk_view pk apks ct) e = payload (te 0%nat * te 1%nat * (1 + te 2%nat)) ->
  evalT (mk_view pk' apks' ct') e <> payload (te' 0%nat * te' 1%nat * (1 + te' 2%nat)).
Proof. intros C L. exact (mk_outsider L). Qed.
Print Assumptions C109_mke.

(** No combination opens every MKE08 ciphertext for a policy and published keys in which no conjunction cancels out. *)
Theorem C109_mke_none :
  forall C : crypto, laws C -> forall nonce pol lang data f reqs (e : combT C) (ts0 te0 : nat -> F C) pk0 msk0 i0 apks0 ct0 j0,
  parse pol lang = Ok (tree f) -> flat f = true ->
  mk_setup ts0 0%nat = Ok (pk0, msk0, i0) -> mk_published pk0 reqs apks0 ->
  mk_encrypt nonce pk0 apks0 pol lang data te0 0%nat = Ok (ct0, j0) ->
  ts0 0%nat <> 0 -> ts0 1%nat <> 0 -> (forall t, In t (mct_e ct0) -> mj_5 t <> g1zero C) ->
  exists (ts te : nat -> F C) pk msk i apks ct j, ts 0%nat <> 0 /\ ts 1%nat <> 0 /\
    mk_setup ts 0%nat = Ok (pk, msk, i) /\ mk_published pk reqs apks /\
    mk_encrypt nonce pk apks pol lang data te 0%nat = Ok (ct, j) /\
    evalT (mk_view pk apks ct) e <> payload (te 0%nat * te 1%nat * (1 + te 2%nat)).
Proof. intros C L. exact (mk_no_outsider L). Qed.
Print Assumptions C109_mke_none.

Example C109_example_mke : parse PX HumanPolicy = Ok (tree fX) /\ flat fX = true /\ exists pk msk i apks ct j,
  mk_setup (C := ZC) (ztape 3) 0%nat = Ok (pk, msk, i) /\ mk_published pk three_keys apks /\
  mk_encrypt nc pk apks PX HumanPolicy "m" one 0%nat = Ok (ct, j) /\ length (mct_e ct) = 3%nat /\
  (forall t, In t (mct_e ct) -> mj_5 t <> g1zero ZC).
Proof. split; [vm_compute; reflexivity|]. split; [reflexivity|]. exact mk_example. Qed.

(** GHW11: also the transform keys of any number of users, whatever their attributes, do not help. *)
Theorem C110_cloud :
  forall C : crypto, laws C -> forall nonce pol lang data f (e : combT C),
  parse pol lang = Ok (tree f) ->
  exists x : F C, forall (ts te : nat -> F C) a users pk msk i ct j tks pk' msk' i' ct' j' tks',
  let m := te 1%nat in
  let m' := te 1%nat + (ts 3%nat - a) * te 0%nat * (ts 0%nat * ts 1%nat) in
  ghw_setup ts 0%nat = Ok (pk, msk, i) -> outsourced pk msk users tks ->
  ghw_encrypt nonce pk pol lang data te 0%nat = Ok (ct, j) ->
  ghw_setup (put ts 3%nat a) 0%nat = Ok (pk', msk', i') ->
  outsourced pk' msk' (scaled (a * finv C (ts 3%nat)) users) tks' ->
  ghw_encrypt nonce pk' pol lang data (put te 1%nat m') 0%nat = Ok (ct', j') ->
  ts 0%nat <> 0 -> ts 1%nat <> 0 -> ts 3%nat <> 0 -> a <> 0 -> a <> ts 3%nat -> te 0%nat <> x ->
  evalT (ghw_view pk ct tks) e = payload m -> evalT (ghw_view pk' ct' tks') e <> payload m'.
Proof. intros C L. exact (ghw_cloud L). Qed.
Print Assumptions C110_cloud.

Example C110_example_cloud : parse P HumanPolicy = Ok (tree fP) /\
  let two := fadd ZC (f1 ZC) (f1 ZC) in
  exists pk msk i ct j tks pk' msk' i' ct' j' tks' m',
  ghw_setup one 0%nat = Ok (pk, msk, i) /\ outsourced pk msk two_users tks /\
  ghw_encrypt nc pk P HumanPolicy "m" one 0%nat = Ok (ct, j) /\
  ghw_setup (put one 3%nat two) 0%nat = Ok (pk', msk', i') /\
  outsourced pk' msk' (scaled (fmul ZC two (finv ZC (f1 ZC))) two_users) tks' /\
  ghw_encrypt nc pk' P HumanPolicy "m" (put one 1%nat m') 0%nat = Ok (ct', j') /\
  m' = fadd ZC (f1 ZC) (fmul ZC (fmul ZC (fsub ZC (f1 ZC) two) (f1 ZC)) (fmul ZC (f1 ZC) (f1 ZC))) /\
  two <> f0 ZC /\ two <> f1 ZC.
Proof. exact (conj Ptree ghw_twins). Qed.

(** No combination of public key, ciphertext and transform keys opens every ciphertext. *)
Theorem C110_cloud_none :
  forall C : crypto, laws C -> forall nonce pol lang data f (e : combT C) (attrs : list (list string)),
  parse pol lang = Ok (tree f) -> hash_total (C := C) -> (1 + 1 : F C) <> 0 -> ~ In [] attrs ->
  exists (ts te : nat -> F C) users pk msk i ct j tks, ts 0%nat <> 0 /\ ts 1%nat <> 0 /\ map fst users = attrs /\
    ghw_setup ts 0%nat = Ok (pk, msk, i) /\ outsourced pk msk users tks /\
    ghw_encrypt nonce pk pol lang data te 0%nat = Ok (ct, j) /\
    evalT (ghw_view pk ct tks) e <> payload (te 1%nat).
Proof. intros C L. exact (ghw_no_cloud L). Qed.
Print Assumptions C110_cloud_none.

(** YCT14: a key that does not fit arises in the same way in a system with another [g ^ s] that agrees on all attributes of the ciphertext. *)
Theorem C110_one_key_twin :
  forall C : crypto, laws C -> forall U pol lang f attrs (ts tk : nat -> F C) pk msk i sk j,
  parse pol lang = Ok (tree f) -> plain_names f = true -> NoDup (names f) ->
  small_ok C (and_width f) -> small_ok C (S (length (names f))) -> sat (owns attrs) f = false ->
  yct_setup U ts 0%nat = Ok (pk, msk, i) -> yct_keygen msk pol lang tk 0%nat = Ok (sk, j) ->
  ts 1%nat <> 0 -> (forall n, ~ In (YAttr n (Some (YPriv 0))) (ysk_du sk)) ->
  exists (ts' tk' : nat -> F C) pk' msk',
    yct_setup U ts' 0%nat = Ok (pk', msk', i) /\ yct_keygen msk' pol lang tk' 0%nat = Ok (sk, j) /\
    ts' 1%nat = ts 1%nat /\ ypk_g pk' <> ypk_g pk /\
    (forall n, In n attrs -> find (fun a => seqb (y_name a) n) (ypk_attrs pk') = find (fun a => seqb (y_name a) n) (ypk_attrs pk)).
Proof. intros C L. exact (yct_twin L). Qed.
Print Assumptions C110_one_key_twin.

(** So nothing that is computed with the help of one key that does not fit, not even a combination chosen after seeing the key, opens in both systems. *)
Theorem C110_one_key :
  forall C : crypto, laws C -> forall nonce U pol lang f attrs data (ts tk : nat -> F C) pk msk i sk j,
  parse pol lang = Ok (tree f) -> plain_names f = true -> NoDup (names f) ->
  small_ok C (and_width f) -> small_ok C (S (length (names f))) -> sat (owns attrs) f = false ->
  yct_setup U ts 0%nat = Ok (pk, msk, i) -> yct_keygen msk pol lang tk 0%nat = Ok (sk, j) ->
  ts 1%nat <> 0 -> (forall n, ~ In (YAttr n (Some (YPriv 0))) (ysk_du sk)) ->
  exists (ts' tk' : nat -> F C) pk' msk',
    ts' 1%nat = ts 1%nat /\ yct_setup U ts' 0%nat = Ok (pk', msk', i) /\ yct_keygen msk' pol lang tk' 0%nat = Ok (sk, j) /\
    forall e : combT C, exists x : F C, forall (te : nat -> F C) ct jc ct' jc',
    yct_encrypt nonce pk attrs data te 0%nat = Ok (ct, jc) -> yct_encrypt nonce pk' attrs data te 0%nat = Ok (ct', jc') ->
    te 0%nat <> x ->
    evalT (yct_view pk ct) e = gtpow C (ypk_g pk) (te 0%nat) -> evalT (yct_view pk' ct') e <> gtpow C (ypk_g pk') (te 0%nat).
Proof. intros C L. exact (yct_one_key L). Qed.
Print Assumptions C110_one_key.

Example C110_example_key : parse P HumanPolicy = Ok (tree fP) /\ plain_names fP = true /\ NoDup (names fP) /\
  small_ok ZC (and_width fP) /\ small_ok ZC 4 /\ sat (owns ["A"]%string) fP = false /\ exists pk msk i sk j,
  yct_setup (C := ZC) ["A"; "B"; "C"]%string (ztape 3) 0%nat = Ok (pk, msk, i) /\
  yct_keygen msk P HumanPolicy one 0%nat = Ok (sk, j) /\
  ztape 3 1%nat <> f0 ZC /\ (forall n, ~ In (@YAttr ZC n (Some (@YPriv ZC (f0 ZC)))) (ysk_du sk)) /\ length (ysk_du sk) = 3%nat.
Proof. exact yct_key_example. Qed.
