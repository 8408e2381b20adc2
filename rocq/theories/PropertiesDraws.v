(** * PropertiesDraws: C129 and C130: the random values of each operation

    [takes m n]: [m] draws [n] values and what it does is a function of these.  [coins f]: one less than
    the parts of each conjunction of [f].  [shows m n]: from different values [m] makes different
    results.  All three are in Draws.v. *)
From Coq Require Import String List Bool Arith ZArith Lia.
From Verif Require Import Base Crypto Policy Tools Sharing Spec Poly SharingProofs Parse Symmetric Msp MspProofs Dnf
  Bdabe Mke08 Bsw Ghw11 Lsw Yct14 Ac17 Ac17Proofs Aw11 Instance Sessions Witnesses Draws DrawsProofs ShowsProofs.
Import ListNotations.
Local Open Scope string_scope.
Local Open Scope F_scope.

(** C129: BSW setup takes four values. *)
Theorem C129_bsw_setup :
  forall C : crypto, takes (bsw_setup (C := C)) 4.
Proof. exact @bsw_setup_takes. Qed.
Print Assumptions C129_bsw_setup.

(** C129: BSW key generation takes one value and one more for each attribute. *)
Theorem C129_bsw_keygen :
  forall (C : crypto) (pk : bsw_pk C) (msk : bsw_msk C) (a : string) (l : list string),
  takes (bsw_keygen pk msk (a :: l)) (1 + Datatypes.length (a :: l)).
Proof. exact @bsw_keygen_takes. Qed.
Print Assumptions C129_bsw_keygen.

(** C129: so does BSW delegation. *)
Theorem C129_bsw_delegate :
  forall (C : crypto) (pk : bsw_pk C) (sk : bsw_sk C) (a : string) (l : list string),
  is_subset (a :: l) (map b_string (bsk_dj sk)) = true ->
  takes (bsw_delegate pk sk (a :: l)) (1 + Datatypes.length (a :: l)).
Proof. exact @bsw_delegate_takes. Qed.
Print Assumptions C129_bsw_delegate.

(** C129: BSW encryption takes two, and those of the sharing. *)
Theorem C129_bsw_encrypt :
  forall C : crypto,
  laws C ->
  forall (nonce : string) (pk : bsw_pk C) (pol : string) (lang : language) (data : string) (f : formula),
  parse pol lang = Ok (tree f) -> takes (bsw_encrypt nonce pk pol lang data) (2 + coins f).
Proof. exact @bsw_encrypt_takes. Qed.
Print Assumptions C129_bsw_encrypt.

(** C129: GHW11 setup takes four. *)
Theorem C129_ghw_setup :
  forall C : crypto, takes (ghw_setup (C := C)) 4.
Proof. exact @ghw_setup_takes. Qed.
Print Assumptions C129_ghw_setup.

(** C129: GHW11 key generation takes one, however many attributes there are. *)
Theorem C129_ghw_keygen :
  forall (C : crypto) (pk : ghw_pk C) (msk : ghw_msk C) (a : string) (l : list string),
  takes (ghw_keygen pk msk (a :: l)) 1.
Proof. exact @ghw_keygen_takes. Qed.
Print Assumptions C129_ghw_keygen.

(** C129: GHW11 transformation keys take one. *)
Theorem C129_ghw_tkgen :
  forall (C : crypto) (sk : ghw_sk C), takes (ghw_tkgen sk) 1.
Proof. exact @ghw_tkgen_takes. Qed.
Print Assumptions C129_ghw_tkgen.

(** C129: GHW11 encryption takes two, those of the sharing and one for each leaf. *)
Theorem C129_ghw_encrypt :
  forall C : crypto,
  laws C ->
  forall (nonce : string) (pk : ghw_pk C) (pol : string) (lang : language) (data : string) (f : formula),
  parse pol lang = Ok (tree f) ->
  takes (ghw_encrypt nonce pk pol lang data) (2 + coins f + Datatypes.length (leaves f)).
Proof. exact @ghw_encrypt_takes. Qed.
Print Assumptions C129_ghw_encrypt.

(** C129: LSW setup takes seven. *)
Theorem C129_lsw_setup :
  forall C : crypto, takes (lsw_setup (C := C)) 7.
Proof. exact @lsw_setup_takes. Qed.
Print Assumptions C129_lsw_setup.

(** C129: LSW key generation takes those of the sharing and one for each leaf. *)
Theorem C129_lsw_keygen :
  forall C : crypto,
  laws C ->
  forall (pk : lsw_pk C) (msk : lsw_msk C) (pol : string) (lang : language) (f : formula),
  parse pol lang = Ok (tree f) -> takes (lsw_keygen pk msk pol lang) (coins f + Datatypes.length (leaves f)).
Proof. exact @lsw_keygen_takes. Qed.
Print Assumptions C129_lsw_keygen.

(** C129: LSW encryption takes two and one for each attribute. *)
Theorem C129_lsw_encrypt :
  forall (C : crypto) (nonce : string) (pk : lsw_pk C) (a : string) (l : list string) (data : string),
  data <> "" -> takes (lsw_encrypt nonce pk (a :: l) data) (2 + Datatypes.length (a :: l)).
Proof. exact @lsw_encrypt_takes. Qed.
Print Assumptions C129_lsw_encrypt.

(** C129: YCT14 setup takes two and one for each attribute. *)
Theorem C129_yct_setup :
  forall (C : crypto) (l : list string), takes (yct_setup (C := C) l) (2 + Datatypes.length l).
Proof. exact @yct_setup_takes. Qed.
Print Assumptions C129_yct_setup.

(** C129: YCT14 key generation takes only those of the sharing. *)
Theorem C129_yct_keygen :
  forall C : crypto,
  laws C ->
  forall (msk : yct_msk C) (pol : string) (lang : language) (f : formula),
  parse pol lang = Ok (tree f) -> takes (yct_keygen msk pol lang) (coins f).
Proof. exact @yct_keygen_takes. Qed.
Print Assumptions C129_yct_keygen.

(** C129: YCT14 encryption takes one. *)
Theorem C129_yct_encrypt :
  forall (C : crypto) (nonce : string) (pk : yct_pk C) (a : string) (l : list string) (data : string),
  data <> "" -> takes (yct_encrypt nonce pk (a :: l) data) 1.
Proof. exact @yct_encrypt_takes. Qed.
Print Assumptions C129_yct_encrypt.

(** C129: AC17 setup takes nine. *)
Theorem C129_ac_setup :
  forall C : crypto, takes (ac_setup (C := C)) 9.
Proof. exact @ac_setup_takes. Qed.
Print Assumptions C129_ac_setup.

(** C129: AC17 CP key generation takes three and one for each attribute. *)
Theorem C129_cp_keygen :
  forall (C : crypto) (msk : ac_msk C) (a : string) (l : list string),
  takes (cp_keygen msk (a :: l)) (3 + Datatypes.length (a :: l)).
Proof. exact @cp_keygen_takes. Qed.
Print Assumptions C129_cp_keygen.

(** C129: AC17 CP encryption takes three, whatever the policy. *)
Theorem C129_cp_encrypt :
  forall (C : crypto) (nonce : string) (pk : ac_pk C) (pol : string) (lang : language) (data : string),
  takes (cp_encrypt nonce pk pol data lang) 3.
Proof. exact @cp_encrypt_takes. Qed.
Print Assumptions C129_cp_encrypt.

(** C129: AC17 KP key generation takes two, one for each column but the first, and one for each leaf. *)
Theorem C129_kp_keygen :
  forall (C : crypto) (msk : ac_msk C) (pol : string) (lang : language) (f : formula),
  parse pol lang = Ok (tree f) -> takes (kp_keygen msk pol lang) (2 + coins f + Datatypes.length (leaves f)).
Proof. exact @kp_keygen_takes. Qed.
Print Assumptions C129_kp_keygen.

(** C129: AC17 KP encryption takes three. *)
Theorem C129_kp_encrypt :
  forall (C : crypto) (nonce : string) (pk : ac_pk C) (l : list string) (data : string),
  takes (kp_encrypt nonce pk l data) 3.
Proof. exact @kp_encrypt_takes. Qed.
Print Assumptions C129_kp_encrypt.

(** C129: AW11 setup takes two. *)
Theorem C129_aw_setup :
  forall C : crypto, takes (aw_setup (C := C)) 2.
Proof. exact @aw_setup_takes. Qed.
Print Assumptions C129_aw_setup.

(** C129: AW11 authorities take two for each attribute. *)
Theorem C129_aw_authgen :
  forall (C : crypto) (gk : aw_gk C) (l : list string), takes (aw_authgen gk l) (2 * Datatypes.length l).
Proof. exact @aw_authgen_takes. Qed.
Print Assumptions C129_aw_authgen.

(** C129: AW11 encryption takes two, twice those of the sharing and one for each leaf. *)
Theorem C129_aw_encrypt :
  forall C : crypto,
  laws C ->
  forall (nonce : string) (gk : aw_gk C) (pks : list (aw_pk C)) (pol : string) (lang : language) 
    (data : string) (f : formula),
  parse pol lang = Ok (tree f) ->
  takes (aw_encrypt nonce gk pks pol lang data) (2 + 2 * coins f + Datatypes.length (leaves f)).
Proof. exact @aw_encrypt_takes. Qed.
Print Assumptions C129_aw_encrypt.

(** C129: BDABE setup takes five. *)
Theorem C129_bd_setup :
  forall C : crypto, takes (bd_setup (C := C)) 5.
Proof. exact @bd_setup_takes. Qed.
Print Assumptions C129_bd_setup.

(** C129: BDABE authorities take two. *)
Theorem C129_bd_authgen :
  forall (C : crypto) (pk : bd_pk C) (msk : bd_msk C) (n : string), takes (bd_authgen pk msk n) 2.
Proof. exact @bd_authgen_takes. Qed.
Print Assumptions C129_bd_authgen.

(** C129: BDABE users take one. *)
Theorem C129_bd_keygen :
  forall (C : crypto) (pk : bd_pk C) (au : bd_auth C) (n : string), takes (bd_keygen pk au n) 1.
Proof. exact @bd_keygen_takes. Qed.
Print Assumptions C129_bd_keygen.

(** C129: BDABE encryption takes two and one for each conjunction. *)
Theorem C129_bd_encrypt :
  forall (C : crypto) (nonce : string) (pk : bd_pk C) (pks : list (bd_apk C)) (pol : string) 
    (lang : language) (data : string) (v : pvalue) (T : list (term C)),
  parse pol lang = Ok v ->
  json_to_dnf v (map bd_pak pks) = Ok T ->
  takes (bd_encrypt nonce pk pks pol lang data) (2 + Datatypes.length T).
Proof. exact @bd_encrypt_takes. Qed.
Print Assumptions C129_bd_encrypt.

(** C129: MKE08 setup takes six. *)
Theorem C129_mk_setup :
  forall C : crypto, takes (mk_setup (C := C)) 6.
Proof. exact @mk_setup_takes. Qed.
Print Assumptions C129_mk_setup.

(** C129: MKE08 authorities take one. *)
Theorem C129_mk_authgen :
  forall (C : crypto) (n : string), takes (mk_authgen (C := C) n) 1.
Proof. exact @mk_authgen_takes. Qed.
Print Assumptions C129_mk_authgen.

(** C129: MKE08 users take one. *)
Theorem C129_mk_keygen :
  forall (C : crypto) (pk : mk_pk C) (msk : mk_msk C) (n : string), takes (mk_keygen pk msk n) 1.
Proof. exact @mk_keygen_takes. Qed.
Print Assumptions C129_mk_keygen.

(** C129: MKE08 encryption takes three and one for each conjunction. *)
Theorem C129_mk_encrypt :
  forall (C : crypto) (nonce : string) (pk : mk_pk C) (pks : list (mk_apk C)) (pol : string) 
    (lang : language) (data : string) (v : pvalue) (T : list (term C)),
  parse pol lang = Ok v ->
  json_to_dnf v (map mk_pak pks) = Ok T ->
  takes (mk_encrypt nonce pk pks pol lang data) (3 + Datatypes.length T).
Proof. exact @mk_encrypt_takes. Qed.
Print Assumptions C129_mk_encrypt.

(** C129: what this means: the values come from one stretch of the tape, and the rest of the tape is of no account. *)
Theorem C129_apart :
  forall (C : crypto) (A : Type) (m : rand (F C) A) (n : nat) (t : nat -> F C) (i : nat) (x : A) (j : nat),
  takes m n ->
  m t i = Ok (x, j) ->
  j = (i + n)%nat /\
  m (fun k : nat => t (i + k)%nat) 0%nat = Ok (x, n) /\
  (forall t' : nat -> F C, (forall k : nat, i <= k < i + n -> t' k = t k) -> m t' i = Ok (x, j)).
Proof. exact @takes_apart. Qed.
Print Assumptions C129_apart.

(** C129: what is refused at once takes nothing. *)
Theorem C129_refused :
  forall (C : crypto) (t : nat -> F C) i nonce data,
  (forall pk msk, bsw_keygen (C := C) pk msk [] t i = Ok (None, i)) /\
  (forall pk sk l, is_subset l (map b_string (bsk_dj sk)) = false -> bsw_delegate (C := C) pk sk l t i = Ok (None, i)) /\
  (forall pk msk, ghw_keygen (C := C) pk msk [] t i = Ok (None, i)) /\
  (forall gk, aw_authgen (C := C) gk [] t i = Ok (None, i)) /\
  (forall pk, lsw_encrypt (C := C) nonce pk [] data t i = Err) /\
  (forall pk, yct_encrypt (C := C) nonce pk [] data t i = Err) /\
  (forall msk, cp_keygen (C := C) msk [] t i = Err).
Proof. exact @refused_take. Qed.
Print Assumptions C129_refused.

(** Where a run ends that began at place 5 of the tape. *)
Definition ends {A} (m : rand (F ZC) A) : option nat :=
  match m (ztape 3%Z) 5%nat with Ok (_, j) => Some j | _ => None end.

Example C129_example :
  coins fP = 1%nat /\ length (leaves fP) = 3%nat /\
  ends (bsw_setup (C := ZC)) = Some 9%nat /\
  ends (' (pk, msk) <- bsw_setup (C := ZC) ;; bsw_keygen pk msk ["A"; "B"])%rand = Some 12%nat /\
  ends (' (pk, msk) <- bsw_setup (C := ZC) ;; bsw_encrypt nc pk P HumanPolicy "hello")%rand = Some 12%nat /\
  ends (' (pk, msk) <- ghw_setup (C := ZC) ;; ghw_encrypt nc pk P HumanPolicy "hello")%rand = Some 15%nat /\
  ends (' (pk, msk) <- lsw_setup (C := ZC) ;; lsw_encrypt nc pk ["A"; "B"] "hello")%rand = Some 16%nat /\
  ends (' (pk, msk) <- yct_setup (C := ZC) ["A"; "B"; "C"] ;; yct_keygen msk P HumanPolicy)%rand = Some 11%nat /\
  ends (' (pk, msk) <- ac_setup (C := ZC) ;; kp_keygen msk P HumanPolicy)%rand = Some 20%nat /\
  ends (gk <- aw_setup (C := ZC) ;; aw_encrypt nc gk [] P HumanPolicy "hello")%rand = Some 14%nat.
Proof. repeat apply conj; vm_compute; reflexivity. Qed.

(** C130: BSW setup, unless the second generator is zero. *)
Theorem C130_bsw_setup :
  forall C : crypto,
  laws C ->
  forall (t : nat -> F C) (i : nat) (x : bsw_pk C * bsw_msk C) (j : nat) (t' : nat -> F C) (i' j' : nat),
  bsw_setup t i = Ok (x, j) ->
  bsw_setup t' i' = Ok (x, j') -> t (i + 1)%nat <> 0 -> forall k : nat, k < 4 -> t' (i' + k)%nat = t (i + k)%nat.
Proof. exact @bsw_setup_shows. Qed.
Print Assumptions C130_bsw_setup.

(** C130: BSW keys show all values. *)
Theorem C130_bsw_keygen :
  forall C : crypto,
  laws C ->
  forall (pk : bsw_pk C) (msk : bsw_msk C) (a : string) (l : list string),
  bpk_g1 pk <> g1zero C ->
  bpk_g2 pk <> g2zero C -> shows (bsw_keygen pk msk (a :: l)) (1 + Datatypes.length (a :: l)).
Proof. exact @bsw_keygen_shows. Qed.
Print Assumptions C130_bsw_keygen.

(** C130: so do delegated ones. *)
Theorem C130_bsw_delegate :
  forall C : crypto,
  laws C ->
  forall (pk : bsw_pk C) (sk : bsw_sk C) (a : string) (l : list string),
  bpk_g1 pk <> g1zero C ->
  bpk_f pk <> g2zero C ->
  NoDup (map b_string (bsk_dj sk)) ->
  is_subset (a :: l) (map b_string (bsk_dj sk)) = true ->
  shows (bsw_delegate pk sk (a :: l)) (1 + Datatypes.length (a :: l)).
Proof. exact @bsw_delegate_shows. Qed.
Print Assumptions C130_bsw_delegate.

(** C130: BSW ciphertexts. *)
Theorem C130_bsw_encrypt :
  forall C : crypto,
  laws C ->
  forall (nonce : string) (pk : bsw_pk C) (pol : string) (lang : language) (data : string) (f : formula),
  bpk_g1 pk <> g1zero C ->
  parse pol lang = Ok (tree f) ->
  arity2 f = true -> small_ok C (and_width f) -> shows (bsw_encrypt nonce pk pol lang data) (2 + coins f).
Proof. exact @bsw_encrypt_shows. Qed.
Print Assumptions C130_bsw_encrypt.

(** C130: GHW11 setup. *)
Theorem C130_ghw_setup :
  forall C : crypto,
  laws C ->
  forall (t : nat -> F C) (i : nat) (x : ghw_pk C * ghw_msk C) (j : nat) (t' : nat -> F C) (i' j' : nat),
  ghw_setup t i = Ok (x, j) ->
  ghw_setup t' i' = Ok (x, j') -> t (i + 1)%nat <> 0 -> forall k : nat, k < 4 -> t' (i' + k)%nat = t (i + k)%nat.
Proof. exact @ghw_setup_shows. Qed.
Print Assumptions C130_ghw_setup.

(** C130: GHW11 keys. *)
Theorem C130_ghw_keygen :
  forall C : crypto,
  laws C ->
  forall (pk : ghw_pk C) (msk : ghw_msk C) (a : string) (l : list string),
  gpk_g2 pk <> g2zero C -> shows (ghw_keygen pk msk (a :: l)) 1.
Proof. exact @ghw_keygen_shows. Qed.
Print Assumptions C130_ghw_keygen.

(** C130: GHW11 transformation keys. *)
Theorem C130_ghw_tkgen :
  forall C : crypto, laws C -> forall sk : ghw_sk C, shows (ghw_tkgen sk) 1.
Proof. exact @ghw_tkgen_shows. Qed.
Print Assumptions C130_ghw_tkgen.

(** C130: GHW11 ciphertexts. *)
Theorem C130_ghw_encrypt :
  forall C : crypto,
  laws C ->
  forall (nonce : string) (pk : ghw_pk C) (pol : string) (lang : language) (data : string) (f : formula),
  gpk_g1 pk <> g1zero C ->
  gpk_g1a pk <> g1zero C ->
  parse pol lang = Ok (tree f) ->
  arity2 f = true ->
  small_ok C (and_width f) ->
  shows (ghw_encrypt nonce pk pol lang data) (2 + coins f + Datatypes.length (leaves f)).
Proof. exact @ghw_encrypt_shows. Qed.
Print Assumptions C130_ghw_encrypt.

(** C130: LSW setup. *)
Theorem C130_lsw_setup :
  forall C : crypto, laws C -> shows (lsw_setup (C := C)) 7.
Proof. exact @lsw_setup_shows. Qed.
Print Assumptions C130_lsw_setup.

(** C130: LSW keys. *)
Theorem C130_lsw_keygen :
  forall C : crypto,
  laws C ->
  forall (pk : lsw_pk C) (msk : lsw_msk C) (pol : string) (lang : language) (f : formula),
  lpk_g1 pk <> g1zero C ->
  lpk_g2 pk <> g2zero C ->
  lmsk_alpha2 msk <> 0 ->
  parse pol lang = Ok (tree f) ->
  arity2 f = true ->
  small_ok C (and_width f) -> shows (lsw_keygen pk msk pol lang) (coins f + Datatypes.length (leaves f)).
Proof. exact @lsw_keygen_shows. Qed.
Print Assumptions C130_lsw_keygen.

(** C130: LSW ciphertexts show all values but one. *)
Theorem C130_lsw_encrypt :
  forall C : crypto,
  laws C ->
  forall (nonce : string) (pk : lsw_pk C) (l : list string) (data : string) (t : nat -> F C) 
    (i : nat) (x : lsw_ct C) (j : nat) (t' : nat -> F C) (i' j' : nat),
  lpk_g2 pk <> g2zero C ->
  lpk_g1b pk <> g1zero C ->
  lsw_encrypt nonce pk l data t i = Ok (x, j) ->
  lsw_encrypt nonce pk l data t' i' = Ok (x, j') ->
  forall k : nat, k < 2 + Datatypes.length l -> k <> Datatypes.length l -> t' (i' + k)%nat = t (i + k)%nat.
Proof. exact @lsw_encrypt_shows. Qed.
Print Assumptions C130_lsw_encrypt.

(** C130: on this one nothing depends. *)
Theorem C130_lsw_encrypt_hides :
  forall C : crypto,
  laws C ->
  forall (nonce : string) (pk : lsw_pk C) (l : list string) (data : string) (t t' : nat -> F C) (i : nat),
  (forall k : nat, k <> (i + Datatypes.length l)%nat -> t' k = t k) ->
  lsw_encrypt nonce pk l data t' i = lsw_encrypt nonce pk l data t i.
Proof. exact @lsw_encrypt_hides. Qed.
Print Assumptions C130_lsw_encrypt_hides.

(** C130: so that they do not show all. *)
Theorem C130_lsw_encrypt_refuted :
  forall C : crypto,
  laws C ->
  forall (nonce : string) (pk : lsw_pk C) (l : list string) (data : string) (t : nat -> F C) 
    (i : nat) (x : lsw_ct C) (j : nat),
  lsw_encrypt nonce pk l data t i = Ok (x, j) -> ~ shows (lsw_encrypt nonce pk l data) (2 + Datatypes.length l).
Proof. exact @lsw_not_shows. Qed.
Print Assumptions C130_lsw_encrypt_refuted.

(** C130: YCT14 setup. *)
Theorem C130_yct_setup :
  forall C : crypto,
  laws C ->
  forall (attrs : list string) (t : nat -> F C) (i : nat) (x : yct_pk C * yct_msk C) 
    (j : nat) (t' : nat -> F C) (i' j' : nat),
  yct_setup attrs t i = Ok (x, j) ->
  yct_setup attrs t' i' = Ok (x, j') ->
  t i <> 0 -> forall k : nat, k < 2 + Datatypes.length attrs -> t' (i' + k)%nat = t (i + k)%nat.
Proof. exact @yct_setup_shows. Qed.
Print Assumptions C130_yct_setup.

(** C130: YCT14 keys, if the master key has all attributes. *)
Theorem C130_yct_keygen :
  forall C : crypto,
  laws C ->
  forall (msk : yct_msk C) (pol : string) (lang : language) (f : formula),
  parse pol lang = Ok (tree f) ->
  arity2 f = true ->
  plain_names f = true ->
  small_ok C (and_width f) ->
  (forall n : string, In n (names f) -> msk_get_private msk n <> Err) ->
  shows (yct_keygen msk pol lang) (coins f).
Proof. exact @yct_keygen_shows_all. Qed.
Print Assumptions C130_yct_keygen.

(** C130: YCT14 ciphertexts. *)
Theorem C130_yct_encrypt :
  forall C : crypto,
  laws C ->
  forall (nonce : string) (pk : yct_pk C) (attrs : list string) (data a : string),
  In a attrs ->
  NoDup (map y_name (ypk_attrs pk)) ->
  (forall g : GT C, In {| y_name := a; y_node := Some (YPub g) |} (ypk_attrs pk) -> g <> gtone C) ->
  shows (yct_encrypt nonce pk attrs data) 1.
Proof. exact @yct_encrypt_shows. Qed.
Print Assumptions C130_yct_encrypt.

(** C130: AC17 setup. *)
Theorem C130_ac_setup :
  forall C : crypto,
  laws C ->
  forall (t : nat -> F C) (i : nat) (x : ac_pk C * ac_msk C) (j : nat) (t' : nat -> F C) (i' j' : nat),
  ac_setup t i = Ok (x, j) ->
  ac_setup t' i' = Ok (x, j') -> t i <> 0 -> forall k : nat, k < 9 -> t' (i' + k)%nat = t (i + k)%nat.
Proof. exact @ac_setup_shows. Qed.
Print Assumptions C130_ac_setup.

(** C130: AC17 CP keys. *)
Theorem C130_cp_keygen :
  forall C : crypto,
  laws C ->
  forall (pk : ac_pk C) (msk : ac_msk C) (a0 a1 b0 b1 k0 k1 k2 : F C) (attrs : list string),
  ac_keys pk msk a0 a1 b0 b1 k0 k1 k2 ->
  amsk_g msk <> g1zero C ->
  amsk_h msk <> g2zero C -> b0 <> 0 -> b1 <> 0 -> shows (cp_keygen msk attrs) (3 + Datatypes.length attrs).
Proof. exact @cp_keygen_shows. Qed.
Print Assumptions C130_cp_keygen.

(** C130: AC17 CP ciphertexts. *)
Theorem C130_cp_encrypt :
  forall C : crypto,
  laws C ->
  forall (nonce : string) (pk : ac_pk C) (msk : ac_msk C) (a0 a1 b0 b1 k0 k1 k2 : F C) 
    (pol : string) (lang : language) (data : string) (f : formula),
  ac_keys pk msk a0 a1 b0 b1 k0 k1 k2 ->
  parse pol lang = Ok (tree f) ->
  binary_and f = true ->
  amsk_h msk <> g2zero C -> a0 <> 0 -> a1 <> 0 -> shows (cp_encrypt nonce pk pol data lang) 3.
Proof. exact @cp_encrypt_shows. Qed.
Print Assumptions C130_cp_encrypt.

(** C130: AC17 KP keys. *)
Theorem C130_kp_keygen :
  forall C : crypto,
  laws C ->
  forall (pk : ac_pk C) (msk : ac_msk C) (a0 a1 b0 b1 k0 k1 k2 : F C) (pol : string) 
    (lang : language) (f : formula),
  ac_keys pk msk a0 a1 b0 b1 k0 k1 k2 ->
  parse pol lang = Ok (tree f) ->
  binary_and f = true ->
  amsk_g msk <> g1zero C ->
  amsk_h msk <> g2zero C ->
  b0 <> 0 ->
  b1 <> 0 -> 1 + a0 <> 0 -> shows (kp_keygen msk pol lang) (2 + coins f + Datatypes.length (leaves f)).
Proof. exact @kp_keygen_shows_all. Qed.
Print Assumptions C130_kp_keygen.

(** C130: AC17 KP ciphertexts. *)
Theorem C130_kp_encrypt :
  forall C : crypto,
  laws C ->
  forall (nonce : string) (pk : ac_pk C) (msk : ac_msk C) (a0 a1 b0 b1 k0 k1 k2 : F C) 
    (attrs : list string) (data : string),
  ac_keys pk msk a0 a1 b0 b1 k0 k1 k2 ->
  amsk_h msk <> g2zero C -> a0 <> 0 -> a1 <> 0 -> shows (kp_encrypt nonce pk attrs data) 3.
Proof. exact @kp_encrypt_shows. Qed.
Print Assumptions C130_kp_encrypt.

(** C130: AW11 setup. *)
Theorem C130_aw_setup :
  forall C : crypto, laws C -> shows (aw_setup (C := C)) 2.
Proof. exact @aw_setup_shows. Qed.
Print Assumptions C130_aw_setup.

(** C130: AW11 authorities. *)
Theorem C130_aw_authgen :
  forall (C : crypto) (gk : aw_gk C) (a : string) (l : list string),
  shows (aw_authgen gk (a :: l)) (2 * Datatypes.length (a :: l)).
Proof. exact @aw_authgen_shows. Qed.
Print Assumptions C130_aw_authgen.

(** C130: AW11 ciphertexts, if there is a public key for each leaf. *)
Theorem C130_aw_encrypt :
  forall C : crypto,
  laws C ->
  forall (nonce : string) (gk : aw_gk C) (pks : list (aw_pk C)) (pol : string) (lang : language) 
    (data : string) (f : formula),
  agk_g1 gk <> g1zero C ->
  agk_g2 gk <> g2zero C ->
  parse pol lang = Ok (tree f) ->
  arity2 f = true ->
  small_ok C (and_width f) ->
  (forall n : string, In n (idents f) -> find_pk_attr pks (remove_index (upper C n)) <> None) ->
  shows (aw_encrypt nonce gk pks pol lang data) (2 + 2 * coins f + Datatypes.length (leaves f)).
Proof. exact @aw_encrypt_shows. Qed.
Print Assumptions C130_aw_encrypt.

(** C130: without one the value of the leaf is lost. *)
Theorem C130_aw_encrypt_hides :
  forall C : crypto,
  laws C ->
  forall (nonce : string) (gk : aw_gk C) (pks : list (aw_pk C)) (pol : string) (lang : language) 
    (data : string) (f : formula) (k : nat) (n : string) (t t' : nat -> F C) (i : nat),
  parse pol lang = Ok (tree f) ->
  nth_error (idents f) k = Some n ->
  find_pk_attr pks (remove_index (upper C n)) = None ->
  (forall q : nat, q <> (i + (2 + 2 * coins f + k))%nat -> t' q = t q) ->
  aw_encrypt nonce gk pks pol lang data t' i = aw_encrypt nonce gk pks pol lang data t i.
Proof. exact @aw_encrypt_hides. Qed.
Print Assumptions C130_aw_encrypt_hides.

(** C130: so that not all values show. *)
Theorem C130_aw_encrypt_refuted :
  forall C : crypto,
  laws C ->
  forall (nonce : string) (gk : aw_gk C) (pks : list (aw_pk C)) (pol : string) (lang : language) 
    (data : string) (f : formula) (k : nat) (n : string) (t : nat -> F C) (i : nat) 
    (x : aw_ct C) (j : nat),
  parse pol lang = Ok (tree f) ->
  nth_error (idents f) k = Some n ->
  find_pk_attr pks (remove_index (upper C n)) = None ->
  aw_encrypt nonce gk pks pol lang data t i = Ok (x, j) ->
  ~ shows (aw_encrypt nonce gk pks pol lang data) (2 + 2 * coins f + Datatypes.length (leaves f)).
Proof. exact @aw_not_shows. Qed.
Print Assumptions C130_aw_encrypt_refuted.

(** C130: BDABE setup. *)
Theorem C130_bd_setup :
  forall C : crypto, laws C -> shows (bd_setup (C := C)) 5.
Proof. exact @bd_setup_shows. Qed.
Print Assumptions C130_bd_setup.

(** C130: BDABE authorities. *)
Theorem C130_bd_authgen :
  forall C : crypto,
  laws C ->
  forall (pk : bd_pk C) (msk : bd_msk C) (name : string),
  Bdabe.bpk_g1 pk <> g1zero C -> shows (bd_authgen pk msk name) 2.
Proof. exact @bd_authgen_shows. Qed.
Print Assumptions C130_bd_authgen.

(** C130: BDABE users. *)
Theorem C130_bd_keygen :
  forall C : crypto,
  laws C ->
  forall (pk : bd_pk C) (au : bd_auth C) (name : string),
  Bdabe.bpk_g1 pk <> g1zero C -> shows (bd_keygen pk au name) 1.
Proof. exact @bd_keygen_shows. Qed.
Print Assumptions C130_bd_keygen.

(** C130: BDABE ciphertexts show the product of the first two values, and the others. *)
Theorem C130_bd_encrypt :
  forall C : crypto,
  laws C ->
  forall (nonce : string) (pk : bd_pk C) (apks : list (bd_apk C)) (pol : string) (lang : language)
    (data : string) (t : nat -> F C) (i : nat) (x : bd_ct C) (j : nat) (t' : nat -> F C) 
    (i' j' : nat) (v : pvalue) (terms : list (term C)),
  bpk_p1 pk <> g1zero C ->
  parse pol lang = Ok v ->
  json_to_dnf v (map bd_pak apks) = Ok terms ->
  terms <> [] ->
  bd_encrypt nonce pk apks pol lang data t i = Ok (x, j) ->
  bd_encrypt nonce pk apks pol lang data t' i' = Ok (x, j') ->
  t' i' * t' (i' + 1)%nat = t i * t (i + 1)%nat /\
  (forall k : nat, 2 <= k < 2 + Datatypes.length terms -> t' (i' + k)%nat = t (i + k)%nat).
Proof. exact @bd_encrypt_shows. Qed.
Print Assumptions C130_bd_encrypt.

(** C130: and nothing else of the first two. *)
Theorem C130_bd_encrypt_hides :
  forall C : crypto,
  laws C ->
  forall (nonce : string) (pk : bd_pk C) (apks : list (bd_apk C)) (pol : string) (lang : language)
    (data : string) (t t' : nat -> F C) (i : nat),
  t' i * t' (S i) = t i * t (S i) ->
  (forall k : nat, 2 <= k -> t' (i + k)%nat = t (i + k)%nat) ->
  bd_encrypt nonce pk apks pol lang data t' i = bd_encrypt nonce pk apks pol lang data t i.
Proof. exact @bd_encrypt_hides. Qed.
Print Assumptions C130_bd_encrypt_hides.

(** C130: so that not all values show. *)
Theorem C130_bd_encrypt_refuted :
  forall C : crypto,
  laws C ->
  forall (nonce : string) (pk : bd_pk C) (apks : list (bd_apk C)) (pol : string) (lang : language)
    (data : string) (t : nat -> F C) (i : nat) (x : bd_ct C) (j n : nat),
  1 <= n ->
  bd_encrypt nonce pk apks pol lang data t i = Ok (x, j) ->
  t i <> t (S i) -> ~ shows (bd_encrypt nonce pk apks pol lang data) n.
Proof. exact @bd_not_shows. Qed.
Print Assumptions C130_bd_encrypt_refuted.

(** C130: MKE08 setup. *)
Theorem C130_mk_setup :
  forall C : crypto,
  laws C ->
  forall (t : nat -> F C) (i : nat) (x : mk_pk C * mk_msk C) (j : nat) (t' : nat -> F C) (i' j' : nat),
  mk_setup t i = Ok (x, j) ->
  mk_setup t' i' = Ok (x, j') ->
  t i <> 0 -> t (i + 1)%nat <> 0 -> forall k : nat, k < 6 -> t' (i' + k)%nat = t (i + k)%nat.
Proof. exact @mk_setup_shows. Qed.
Print Assumptions C130_mk_setup.

(** C130: MKE08 authorities. *)
Theorem C130_mk_authgen :
  forall (C : crypto) (name : string), shows (mk_authgen (C := C) name) 1.
Proof. exact @mk_authgen_shows. Qed.
Print Assumptions C130_mk_authgen.

(** C130: MKE08 users. *)
Theorem C130_mk_keygen :
  forall C : crypto,
  laws C ->
  forall (pk : mk_pk C) (msk : mk_msk C) (name : string),
  mpk_g1 pk <> g1zero C -> shows (mk_keygen pk msk name) 1.
Proof. exact @mk_keygen_shows. Qed.
Print Assumptions C130_mk_keygen.

(** C130: MKE08 ciphertexts, as those of BDABE. *)
Theorem C130_mk_encrypt :
  forall C : crypto,
  laws C ->
  forall (nonce : string) (pk : mk_pk C) (apks : list (mk_apk C)) (pol : string) (lang : language)
    (data : string) (t : nat -> F C) (i : nat) (x : mk_ct C) (j : nat) (t' : nat -> F C) 
    (i' j' : nat) (v : pvalue) (terms : list (term C)),
  mpk_p1 pk <> g1zero C ->
  parse pol lang = Ok v ->
  json_to_dnf v (map mk_pak apks) = Ok terms ->
  terms <> [] ->
  mk_encrypt nonce pk apks pol lang data t i = Ok (x, j) ->
  mk_encrypt nonce pk apks pol lang data t' i' = Ok (x, j') ->
  t' i' * t' (i' + 1)%nat = t i * t (i + 1)%nat /\
  (t i * t (i + 1)%nat <> 0 -> t' (i' + 2)%nat = t (i + 2)%nat) /\
  (forall k : nat, 3 <= k < 3 + Datatypes.length terms -> t' (i' + k)%nat = t (i + k)%nat).
Proof. exact @mk_encrypt_shows. Qed.
Print Assumptions C130_mk_encrypt.

(** C130: nothing else of the first two values shows. *)
Theorem C130_mk_encrypt_hides :
  forall C : crypto,
  laws C ->
  forall (nonce : string) (pk : mk_pk C) (apks : list (mk_apk C)) (pol : string) (lang : language)
    (data : string) (t t' : nat -> F C) (i : nat),
  t' i * t' (S i) = t i * t (S i) ->
  (forall k : nat, 2 <= k -> t' (i + k)%nat = t (i + k)%nat) ->
  mk_encrypt nonce pk apks pol lang data t' i = mk_encrypt nonce pk apks pol lang data t i.
Proof. exact @mk_encrypt_hides. Qed.
Print Assumptions C130_mk_encrypt_hides.

(** C130: so that not all values show. *)
Theorem C130_mk_encrypt_refuted :
  forall C : crypto,
  laws C ->
  forall (nonce : string) (pk : mk_pk C) (apks : list (mk_apk C)) (pol : string) (lang : language)
    (data : string) (t : nat -> F C) (i : nat) (x : mk_ct C) (j n : nat),
  1 <= n ->
  mk_encrypt nonce pk apks pol lang data t i = Ok (x, j) ->
  t i <> t (S i) -> ~ shows (mk_encrypt nonce pk apks pol lang data) n.
Proof. exact @mk_not_shows. Qed.
Print Assumptions C130_mk_encrypt_refuted.

(** A value of the instance that is not zero. *)
Definition nz (x : zp) : bool := negb (zval x =? 0)%Z.
Lemma nz_ok x : nz x = true -> x <> zmk 0.
Proof. intros H ->. discriminate. Qed.

(** The conditions hold after a setup on this tape, and the operations succeed. *)
Example C130_example_bsw :
  match bsw_setup (C := ZC) (ztape 3%Z) 0%nat with
  | Ok ((pk, msk), j) =>
      nz (Bsw.bpk_g1 pk) && nz (Bsw.bpk_g2 pk) && nz (bpk_f pk) &&
      match bsw_encrypt nc pk P HumanPolicy "hello" (ztape 3%Z) j with Ok _ => true | _ => false end
  | _ => false
  end = true.
Proof. vm_compute. reflexivity. Qed.

Example C130_example_zero : g1zero ZC = zmk 0 /\ g2zero ZC = zmk 0 /\ gtone ZC = zmk 0 /\ f0 ZC = zmk 0.
Proof. repeat apply conj; reflexivity. Qed.

Example C130_example_conditions :
  parse P HumanPolicy = Ok (tree fP) /\ arity2 fP = true /\ binary_and fP = true /\ plain_names fP = true /\
  small_ok ZC (and_width fP) /\
  match ghw_setup (C := ZC) (ztape 3%Z) 0%nat with
  | Ok ((pk, _), _) => nz (gpk_g1 pk) && nz (gpk_g1a pk) && nz (gpk_g2 pk) | _ => false end = true /\
  match lsw_setup (C := ZC) (ztape 3%Z) 0%nat with
  | Ok ((pk, msk), _) => nz (lpk_g1 pk) && nz (lpk_g2 pk) && nz (lpk_g1b pk) && nz (lmsk_alpha2 msk) | _ => false end = true /\
  match ac_setup (C := ZC) (ztape 3%Z) 0%nat with
  | Ok ((_, msk), _) => nz (amsk_g msk) && nz (amsk_h msk) && forallb nz (amsk_a msk) && forallb nz (amsk_b msk) &&
                        forallb (fun a => nz (fadd ZC (f1 ZC) a)) (amsk_a msk) | _ => false end = true /\
  match aw_setup (C := ZC) (ztape 3%Z) 0%nat with
  | Ok (gk, _) => nz (agk_g1 gk) && nz (agk_g2 gk) | _ => false end = true /\
  match bd_setup (C := ZC) (ztape 3%Z) 0%nat with
  | Ok ((pk, _), _) => nz (Bdabe.bpk_g1 pk) && nz (bpk_p1 pk) | _ => false end = true /\
  match mk_setup (C := ZC) (ztape 3%Z) 0%nat with
  | Ok ((pk, _), _) => nz (mpk_g1 pk) && nz (mpk_g2 pk) && nz (mpk_p1 pk) | _ => false end = true.
Proof. repeat apply conj; first [apply Zsmall; cbn; lia|vm_compute; reflexivity]. Qed.

(** Encryptions that succeed, so that the refutations apply to them. *)
Example C130_example_refuted :
  match (' (pk, _) <- lsw_setup (C := ZC) ;; lsw_encrypt nc pk ["A"; "B"] "hello")%rand (ztape 3%Z) 0%nat with
  | Ok _ => true | _ => false end = true /\
  match (gk <- aw_setup (C := ZC) ;; aw_encrypt nc gk [] P HumanPolicy "hello")%rand (ztape 3%Z) 0%nat with
  | Ok _ => true | _ => false end = true /\
  match (' (pk, msk) <- bd_setup (C := ZC) ;; au <- bd_authgen pk msk "aa" ;; apk <- rlift (bd_request_pk pk au "aa::A") ;;
         bd_encrypt nc pk [apk] """aa::A""" HumanPolicy "hello")%rand (ztape 3%Z) 0%nat with
  | Ok _ => true | _ => false end = true /\
  match (' (pk, msk) <- mk_setup (C := ZC) ;; au <- mk_authgen "aa" ;; apk <- rlift (mk_request_pk pk "aa::A" au) ;;
         mk_encrypt nc pk [apk] """aa::A""" HumanPolicy "hello")%rand (ztape 3%Z) 0%nat with
  | Ok _ => true | _ => false end = true.
Proof. repeat apply conj; vm_compute; reflexivity. Qed.
