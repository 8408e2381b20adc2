(** * PropertiesInsider: a fitting key opens by one fixed combination (C111)

    The counterpart of PropertiesGeneric.v.  Insiders.v says what the holder of a key sees; [e] is
    chosen before the tapes, so it depends on the policy and the names alone.  The proofs are in
    InsiderProofs.v and InsiderDnfProofs.v. *)
From Coq Require Import String List Bool Arith ZArith Lia.
From Verif Require Import Base Crypto Policy Parse Spec PolicyProofs Poly SchemeLib Symmetric Msp Dnf DnfProofs Bdabe BdabeProofs Mke08 Mke08Proofs
  Bsw Ghw11 Lsw Yct14 Ac17 Aw11 Aw11Proofs Instance Sessions SessionProofs Witnesses Generic Views Insiders InsiderProofs
  InsiderDnfProofs InsiderWitnesses.
Import ListNotations.
Local Open Scope string_scope.
Local Open Scope F_scope.

(** BSW. *)
Theorem C111_bsw :
  forall C : crypto, laws C -> forall nonce pol lang data f attrs,
  parse pol lang = Ok (tree f) -> arity2 f = true -> plain_names f = true -> small_ok C (and_width f) ->
  sat (owns attrs) f = true ->
  exists e : combT C, forall (ts tk te : nat -> F C) (pk : bsw_pk C) msk i sk j ct k,
  bsw_setup ts 0%nat = Ok (pk, msk, i) -> bsw_keygen pk msk attrs tk 0%nat = Ok (Some sk, j) ->
  bsw_encrypt nonce pk pol lang data te 0%nat = Ok (ct, k) ->
  evalT (both (bsw_view pk ct) (bsw_held sk)) e = payload (te 1%nat).
Proof. intros C L. exact (bsw_insider L). Qed.
Print Assumptions C111_bsw.

Lemma fP_fits : parse P HumanPolicy = Ok (tree fP) /\ arity2 fP = true /\ plain_names fP = true /\
  small_ok ZC (and_width fP) /\ sat (owns ["C"; "A"]) fP = true.
Proof. repeat (split; [ground|]). ground. Qed.

Example C111_example_bsw : (parse P HumanPolicy = Ok (tree fP) /\ arity2 fP = true /\ plain_names fP = true /\
  small_ok ZC (and_width fP) /\ sat (owns ["C"; "A"]) fP = true) /\ exists pk msk i sk j ct k,
  bsw_setup (C := ZC) (ztape 3) 0%nat = Ok (pk, msk, i) /\ bsw_keygen pk msk ["C"; "A"] (ztape 5) 0%nat = Ok (Some sk, j) /\
  bsw_encrypt nc pk P HumanPolicy "m" (ztape 7) 0%nat = Ok (ct, k).
Proof. exact (conj fP_fits bsw_run). Qed.

(** GHW11. *)
Theorem C111_ghw :
  forall C : crypto, laws C -> forall nonce pol lang data f attrs,
  parse pol lang = Ok (tree f) -> arity2 f = true -> plain_names f = true -> small_ok C (and_width f) ->
  sat (owns attrs) f = true ->
  exists e : combT C, forall (ts tk te : nat -> F C) (pk : ghw_pk C) msk i sk j ct k,
  ghw_setup ts 0%nat = Ok (pk, msk, i) -> ghw_keygen pk msk attrs tk 0%nat = Ok (Some sk, j) ->
  ghw_encrypt nonce pk pol lang data te 0%nat = Ok (ct, k) ->
  evalT (both (ghw_view pk ct []) (ghw_held sk)) e = payload (te 1%nat).
Proof. intros C L. exact (ghw_insider L). Qed.
Print Assumptions C111_ghw.

Example C111_example_ghw : (parse P HumanPolicy = Ok (tree fP) /\ arity2 fP = true /\ plain_names fP = true /\
  small_ok ZC (and_width fP) /\ sat (owns ["C"; "A"]) fP = true) /\ exists pk msk i sk j ct k,
  ghw_setup (C := ZC) (ztape 3) 0%nat = Ok (pk, msk, i) /\ ghw_keygen pk msk ["C"; "A"] (ztape 5) 0%nat = Ok (Some sk, j) /\
  ghw_encrypt nc pk P HumanPolicy "m" (ztape 7) 0%nat = Ok (ct, k).
Proof. exact (conj fP_fits ghw_run). Qed.

(** LSW; names that start with an exclamation mark do not count. *)
Theorem C111_lsw :
  forall C : crypto, laws C -> forall nonce pol lang data f attrs,
  parse pol lang = Ok (tree f) -> arity2 f = true -> plain_names f = true -> small_ok C (and_width f) ->
  sat (fun n => owns attrs n && negb (String.prefix "!" n)) f = true ->
  exists e : combT C, forall (ts tk te : nat -> F C) (pk : lsw_pk C) msk i sk j ct k,
  lsw_setup ts 0%nat = Ok (pk, msk, i) -> lsw_keygen pk msk pol lang tk 0%nat = Ok (sk, j) ->
  lsw_encrypt nonce pk attrs data te 0%nat = Ok (ct, k) ->
  evalT (both (lsw_view pk ct) (lsw_held sk)) e = payload (te (S (length attrs))).
Proof. intros C L. exact (lsw_insider L). Qed.
Print Assumptions C111_lsw.

Example C111_example_lsw : (parse P HumanPolicy = Ok (tree fP) /\ arity2 fP = true /\ plain_names fP = true /\
  small_ok ZC (and_width fP) /\ sat (owns ["C"; "A"]) fP = true) /\
  sat (fun n => owns ["C"; "A"] n && negb (String.prefix "!" n)) fP = true /\ exists pk msk i sk j ct k,
  lsw_setup (C := ZC) (ztape 3) 0%nat = Ok (pk, msk, i) /\ lsw_keygen pk msk P HumanPolicy (ztape 5) 0%nat = Ok (sk, j) /\
  lsw_encrypt nc pk ["C"; "A"] "m" (ztape 7) 0%nat = Ok (ct, k).
Proof. split; [exact fP_fits|]. split; [vm_compute; reflexivity|]. exact lsw_run. Qed.

(** YCT14: the key consists of scalars, which may be exponents in the combination. *)
Theorem C111_yct :
  forall C : crypto, laws C -> forall nonce U pol lang data f attrs,
  parse pol lang = Ok (tree f) -> arity2 f = true -> plain_names f = true -> small_ok C (and_width f) ->
  NoDup (names f) -> sat (owns attrs) f = true ->
  exists e : yct_sk C -> combT C, forall (ts tk te : nat -> F C) (pk : yct_pk C) msk i sk j ct k,
  yct_setup U ts 0%nat = Ok (pk, msk, i) -> yct_keygen msk pol lang tk 0%nat = Ok (sk, j) ->
  yct_encrypt nonce pk attrs data te 0%nat = Ok (ct, k) ->
  evalT (yct_view pk ct) (e sk) = gtpow C (ypk_g pk) (te 0%nat).
Proof. intros C L. exact (yct_insider L). Qed.
Print Assumptions C111_yct.

Example C111_example_yct : (parse P HumanPolicy = Ok (tree fP) /\ arity2 fP = true /\ plain_names fP = true /\
  small_ok ZC (and_width fP) /\ sat (owns ["C"; "A"]) fP = true) /\ NoDup (names fP) /\ exists pk msk i sk j ct k,
  yct_setup (C := ZC) ["A"; "B"; "C"] (ztape 3) 0%nat = Ok (pk, msk, i) /\ yct_keygen msk P HumanPolicy (ztape 5) 0%nat = Ok (sk, j) /\
  yct_encrypt nc pk ["C"; "A"] "m" (ztape 7) 0%nat = Ok (ct, k).
Proof. split; [exact fP_fits|]. split; [ground|]. exact yct_run. Qed.

(** AC17, CP and KP. *)
Theorem C111_ac17_cp :
  forall C : crypto, laws C -> forall nonce pol lang data f attrs,
  parse pol lang = Ok (tree f) -> binary_and f = true -> NoDup (names f) -> NoDup attrs -> sat (owns attrs) f = true ->
  exists e : combT C, forall (ts tk te : nat -> F C) (pk : ac_pk C) msk i sk j ct k,
  ac_setup ts 0%nat = Ok (pk, msk, i) -> cp_keygen msk attrs tk 0%nat = Ok (sk, j) ->
  cp_encrypt nonce pk pol data lang te 0%nat = Ok (ct, k) ->
  evalT (both (ac_view pk (acp_ct ct)) (ac_held (acps_sk sk))) e = payload (te 2%nat).
Proof. intros C L. exact (cp_insider L). Qed.
Print Assumptions C111_ac17_cp.

Theorem C111_ac17_kp :
  forall C : crypto, laws C -> forall nonce pol lang data f attrs,
  parse pol lang = Ok (tree f) -> binary_and f = true -> NoDup (names f) -> NoDup attrs -> sat (owns attrs) f = true ->
  exists e : combT C, forall (ts tk te : nat -> F C) (pk : ac_pk C) msk i sk j ct k,
  ac_setup ts 0%nat = Ok (pk, msk, i) -> kp_keygen msk pol lang tk 0%nat = Ok (sk, j) ->
  kp_encrypt nonce pk attrs data te 0%nat = Ok (ct, k) ->
  evalT (both (ac_view pk (akp_ct ct)) (ac_held (akps_sk sk))) e = payload (te 2%nat).
Proof. intros C L. exact (kp_insider L). Qed.
Print Assumptions C111_ac17_kp.

Example C111_example_ac17 : parse P HumanPolicy = Ok (tree fP) /\ binary_and fP = true /\ NoDup (names fP) /\
  NoDup ["C"; "A"] /\ sat (owns ["C"; "A"]) fP = true /\ (exists pk msk i sk j ct k,
  ac_setup (C := ZC) (ztape 3) 0%nat = Ok (pk, msk, i) /\ cp_keygen msk ["C"; "A"] (ztape 5) 0%nat = Ok (sk, j) /\
  cp_encrypt nc pk P "m" HumanPolicy (ztape 7) 0%nat = Ok (ct, k)) /\ exists pk msk i sk j ct k,
  ac_setup (C := ZC) (ztape 3) 0%nat = Ok (pk, msk, i) /\ kp_keygen msk P HumanPolicy (ztape 5) 0%nat = Ok (sk, j) /\
  kp_encrypt nc pk ["C"; "A"] "m" (ztape 7) 0%nat = Ok (ct, k).
Proof. do 5 (split; [ground|]). exact (conj cp_run kp_run). Qed.

(** AW11: [al] are the attributes of the authorities; the payload is on tape position [q], and it is
    the key of the data. *)
Theorem C111_aw :
  forall C : crypto, laws C -> forall nonce pol lang data f (al : list (list string)) gid h attrs,
  parse pol lang = Ok (tree f) -> arity2 f = true -> plain_names f = true -> upper_names C f -> small_ok C (and_width f) ->
  hash C gid = Some h -> sat (owns attrs) f = true -> incl (names f) (map (upper C) (concat al)) ->
  exists (q : nat) (e : combT C), forall (te : nat -> F C) (gk : aw_gk C) As issued sk ct k,
  map fst As = al -> Forall (fun A => exists t i j, aw_authgen gk (fst A) t i = Ok (Some (snd A), j)) As -> separate As ->
  (forall m a, In (m, a) issued -> exists A, In A As /\ m = snd (snd A)) -> map snd issued = attrs ->
  aw_issue gk gid issued = Ok sk ->
  aw_encrypt nonce gk (map (fun A => fst (snd A)) As) pol lang data te 0%nat = Ok (ct, k) ->
  evalT (both (aw_view gk (map (fun A => fst (snd A)) As) ct) (aw_held sk)) e = payload (te q) /\
  encrypt_symmetric nonce (payload (te q)) data = Ok (awct_data ct).
Proof. intros C L. exact (aw_insider L). Qed.
Print Assumptions C111_aw.

Example C111_example_aw : (parse P HumanPolicy = Ok (tree fP) /\ arity2 fP = true /\ plain_names fP = true /\
  small_ok ZC (and_width fP) /\ sat (owns ["C"; "A"]) fP = true) /\ upper_names ZC fP /\ hash ZC "bob" <> None /\
  incl (names fP) (map (upper ZC) (concat [["A"; "D"]; ["b"; "C"]])) /\
  exists (gk : aw_gk ZC) As issued sk ct k,
  map fst As = [["A"; "D"]; ["b"; "C"]] /\
  Forall (fun A => exists t i j, aw_authgen gk (fst A) t i = Ok (Some (snd A), j)) As /\ separate As /\
  (forall m a, In (m, a) issued -> exists A, In A As /\ m = snd (snd A)) /\ map snd issued = ["C"; "A"] /\
  aw_issue gk "bob" issued = Ok sk /\
  aw_encrypt nc gk (map (fun A => fst (snd A)) As) P HumanPolicy "m" (ztape 7) 0%nat = Ok (ct, k).
Proof.
  split; [exact fP_fits|]. split; [intros n [<-|[<-|[<-|[]]]]; vm_compute; reflexivity|]. split; [apply Zhash|].
  split; [intros n [<-|[<-|[<-|[]]]]; vm_compute; auto 6|]. exact aw_run.
Qed.

(** BDABE; [e] sees the number of published keys, the names in the ciphertext and those in the key. *)
Theorem C111_bdabe :
  forall C : crypto, laws C -> exists e : nat -> list (list string) -> list string -> combT C,
  forall nonce pol lang data f (pk : bd_pk C) msk As (ts : nat -> F C) i apks te ct j uk,
  bd_setup ts 0%nat = Ok (pk, msk, i) -> Forall (bd_authority pk msk) As -> bd_unique As ->
  Forall (bd_pk_issued pk As) apks -> bd_user pk As uk ->
  bd_encrypt nonce pk apks pol lang data te 0%nat = Ok (ct, j) -> parse pol lang = Ok (tree f) ->
  (forall c, In c (conjs f) -> exists n, In n c /\ In n (map bapk_attr apks)) ->
  sat (owns (map bask_attr (buk_ska uk))) f = true ->
  evalT (both (bd_view pk apks ct) (bd_held uk))
    (e (length apks) (map bt_attr (bct_j ct)) (map bask_attr (buk_ska uk))) = payload (te 0%nat * te 1%nat).
Proof. intros C L. exact (bd_insider L). Qed.
Print Assumptions C111_bdabe.

Example C111_example_bdabe : parse PX HumanPolicy = Ok (tree fX) /\
  (forall c, In c (conjs fX) -> exists n, In n c /\ In n ["x::A"; "x::B"; "x::C"]) /\ sat (owns ["x::B"; "x::C"]) fX = true /\
  exists (pk : bd_pk ZC) msk As i apks ct j uk,
  bd_setup (C := ZC) (ztape 3) 0%nat = Ok (pk, msk, i) /\ Forall (bd_authority pk msk) As /\ bd_unique As /\
  Forall (bd_pk_issued pk As) apks /\ bd_user pk As uk /\
  bd_encrypt nc pk apks PX HumanPolicy "m" (ztape 7) 0%nat = Ok (ct, j) /\
  map bapk_attr apks = ["x::A"; "x::B"; "x::C"] /\ map bask_attr (buk_ska uk) = ["x::B"; "x::C"].
Proof.
  split; [ground|]. split; [|split; [ground|exact bd_run]].
  vm_compute. intros c [<-|[<-|[]]]; eexists; (split; [left; reflexivity|]); auto.
Qed.

(** MKE08; as BDABE. *)
Theorem C111_mke :
  forall C : crypto, laws C -> exists e : nat -> list (list string) -> list string -> combT C,
  forall nonce pol lang data f (pk : mk_pk C) msk As (ts : nat -> F C) i apks te ct j uk,
  mk_setup ts 0%nat = Ok (pk, msk, i) -> mk_unique As ->
  Forall (mk_pk_issued pk As) apks -> mk_user pk msk As uk ->
  mk_encrypt nonce pk apks pol lang data te 0%nat = Ok (ct, j) -> parse pol lang = Ok (tree f) ->
  (forall c, In c (conjs f) -> exists n, In n c /\ In n (map mapk_attr apks)) ->
  sat (owns (map mask_attr (muk_ska uk))) f = true ->
  evalT (both (mk_view pk apks ct) (mk_held uk))
    (e (length apks) (map mj_str (mct_e ct)) (map mask_attr (muk_ska uk))) =
  payload (te 0%nat * te 1%nat * (1 + te 2%nat)).
Proof. intros C L. exact (mk_insider L). Qed.
Print Assumptions C111_mke.

Example C111_example_mke : parse PX HumanPolicy = Ok (tree fX) /\
  (forall c, In c (conjs fX) -> exists n, In n c /\ In n ["x::A"; "x::B"; "x::C"]) /\ sat (owns ["x::B"; "x::C"]) fX = true /\
  exists (pk : mk_pk ZC) msk As i apks ct j uk,
  mk_setup (C := ZC) (ztape 3) 0%nat = Ok (pk, msk, i) /\ mk_unique As /\
  Forall (mk_pk_issued pk As) apks /\ mk_user pk msk As uk /\
  mk_encrypt nc pk apks PX HumanPolicy "m" (ztape 7) 0%nat = Ok (ct, j) /\
  map mapk_attr apks = ["x::A"; "x::B"; "x::C"] /\ map mask_attr (muk_ska uk) = ["x::B"; "x::C"].
Proof.
  split; [ground|]. split; [|split; [ground|exact mk_run]].
  vm_compute. intros c [<-|[<-|[]]]; eexists; (split; [left; reflexivity|]); auto.
Qed.
