(** * PropertiesWorking: C138: how often a session works

    The sessions of C29 to C39 are run on [n] values drawn from a field of [p] elements.  [works s a k p n] says that
    the runs in which the session [s] gives [a] are exactly the share [((p - 1) / p) ^ k] of all, and that it
    ends in a panic in all others; [a] is the plaintext if the policy is satisfied, and an error otherwise.  The
    proofs are in WorkingProofs.v. *)
From Coq Require Import String List Bool Arith ZArith Lia.
From Verif Require Import Base Crypto Policy Tools Parse Spec Poly PolicyProofs SchemeLib Dnf DnfProofs Bdabe BdabeProofs Mke08 Mke08Proofs Bsw Ghw11 Lsw Yct14 Ac17 Aw11 Aw11Proofs Instance
  Sessions SessionProofs Witnesses GenericWitnesses Chances ChancesWitnesses Working WorkingProofs.
Import ListNotations.
Local Open Scope nat_scope.
Local Open Scope string_scope.

(** C138: BSW: one value must not be zero. *)
Theorem C138_bsw :
  forall C : crypto, laws C -> forall p, field_size C p ->
  forall nonce attrs pol lang data f n,
  hash_total (C := C) -> parse pol lang = Ok (tree f) -> String.length nonce = 12 ->
  arity2 f = true -> NoDup (leaves f) -> plain_names f = true -> small_ok C (and_width f) ->
  attrs <> [] -> 3 <= n ->
  works (bsw_session (C := C) nonce attrs pol lang data) (if sat (owns attrs) f then Ok data else Err) 1 p n.
Proof. intros C L p SZ nonce attrs pol lang data f n. exact (bsw_works L p nonce attrs pol lang data f n SZ). Qed.
Print Assumptions C138_bsw.

Example C138_example_bsw : works (bsw_session (C := ZC) nc ["A"; "C"] P HumanPolicy "m") (Ok "m") 1 1009 20 /\ sat (owns ["A"; "C"]) fP = true.
Proof.
  split; [|reflexivity].
  apply (C138_bsw ZC ZL 1009 Zsize nc ["A"; "C"] P HumanPolicy "m" fP 20 Zhash Ptree eq_refl); first [ground|discriminate|lia].
Qed.

(** C138: BSW with a delegated key. *)
Theorem C138_bsw_delegated :
  forall C : crypto, laws C -> forall p, field_size C p ->
  forall nonce attrs subset pol lang data f n,
  hash_total (C := C) -> parse pol lang = Ok (tree f) -> String.length nonce = 12 ->
  arity2 f = true -> NoDup (leaves f) -> plain_names f = true -> small_ok C (and_width f) ->
  incl subset attrs -> subset <> [] -> 3 <= n ->
  works (bsw_delegated_session (C := C) nonce attrs subset pol lang data) (if sat (owns subset) f then Ok data else Err) 1 p n.
Proof. intros C L p SZ nonce attrs subset pol lang data f n. exact (bsw_delegated_works L p nonce attrs subset pol lang data f n SZ). Qed.
Print Assumptions C138_bsw_delegated.

Example C138_example_bsw_delegated : works (bsw_delegated_session (C := ZC) nc ["A"; "B"; "C"] ["A"; "C"] P HumanPolicy "m") (Ok "m") 1 1009 20.
Proof.
  apply (C138_bsw_delegated ZC ZL 1009 Zsize nc ["A"; "B"; "C"] ["A"; "C"] P HumanPolicy "m" fP 20 Zhash Ptree eq_refl); try first [ground|discriminate|lia].
  intros a [<-|[<-|[]]]; cbn; auto.
Qed.

(** C138: GHW11, with an outsourced decryption: one value must not be zero. *)
Theorem C138_ghw :
  forall C : crypto, laws C -> forall p, field_size C p ->
  forall nonce attrs pol lang data f n,
  hash_total (C := C) -> parse pol lang = Ok (tree f) -> String.length nonce = 12 ->
  arity2 f = true -> NoDup (leaves f) -> plain_names f = true -> small_ok C (and_width f) ->
  attrs <> [] -> 6 <= n ->
  works (ghw_session (C := C) nonce attrs pol lang data) (if sat (owns attrs) f then Ok data else Err) 1 p n.
Proof. intros C L p SZ nonce attrs pol lang data f n. exact (ghw_works L p nonce attrs pol lang data f n SZ). Qed.
Print Assumptions C138_ghw.

Example C138_example_ghw : works (ghw_session (C := ZC) nc ["A"; "C"] P HumanPolicy "m") (Ok "m") 1 1009 20.
Proof.
  apply (C138_ghw ZC ZL 1009 Zsize nc ["A"; "C"] P HumanPolicy "m" fP 20 Zhash Ptree eq_refl); first [ground|discriminate|lia].
Qed.

(** C138: AC17, policies in the ciphertext: two values must not be zero. *)
Theorem C138_ac17_cp :
  forall C : crypto, laws C -> forall p, field_size C p ->
  forall nonce attrs pol lang data f n,
  hash_total (C := C) -> parse pol lang = Ok (tree f) -> String.length nonce = 12 ->
  binary_and f = true -> NoDup (names f) -> NoDup attrs -> attrs <> [] -> 5 <= n ->
  works (cp_session (C := C) nonce attrs pol lang data) (if sat (owns attrs) f then Ok data else Err) 2 p n.
Proof. intros C L p SZ nonce attrs pol lang data f n. exact (cp_works L p nonce attrs pol lang data f n SZ). Qed.
Print Assumptions C138_ac17_cp.

Example C138_example_ac17_cp : works (cp_session (C := ZC) nc ["A"; "C"] P HumanPolicy "m") (Ok "m") 2 1009 20.
Proof.
  apply (C138_ac17_cp ZC ZL 1009 Zsize nc ["A"; "C"] P HumanPolicy "m" fP 20 Zhash Ptree eq_refl); first [ground|discriminate|lia].
Qed.

(** C138: AC17, policies in the key: two values must not be zero. *)
Theorem C138_ac17_kp :
  forall C : crypto, laws C -> forall p, field_size C p ->
  forall nonce pol lang attrs data f n,
  hash_total (C := C) -> parse pol lang = Ok (tree f) -> String.length nonce = 12 ->
  binary_and f = true -> NoDup (names f) -> NoDup attrs -> 5 <= n ->
  works (kp_session (C := C) nonce pol lang attrs data) (if sat (owns attrs) f then Ok data else Err) 2 p n.
Proof. intros C L p SZ nonce pol lang attrs data f n. exact (kp_works L p nonce pol lang attrs data f n SZ). Qed.
Print Assumptions C138_ac17_kp.

Example C138_example_ac17_kp : works (kp_session (C := ZC) nc P HumanPolicy ["A"; "C"] "m") (Ok "m") 2 1009 20.
Proof.
  apply (C138_ac17_kp ZC ZL 1009 Zsize nc P HumanPolicy ["A"; "C"] "m" fP 20 Zhash Ptree eq_refl); first [ground|discriminate|lia].
Qed.

(** C138: YCT14: the secret of every attribute of the policy that the system has must not be zero. *)
Theorem C138_yct :
  forall C : crypto, laws C -> forall p, field_size C p ->
  forall nonce U pol lang attrs data f n,
  parse pol lang = Ok (tree f) -> String.length nonce = 12 ->
  data <> "" -> arity2 f = true -> NoDup (names f) -> plain_names f = true -> small_ok C (and_width f) ->
  incl attrs U -> attrs <> [] -> 2 + length U <= n ->
  works (yct_session (C := C) nonce U pol lang attrs data) (if sat (owns attrs) f then Ok data else Err) (length (filter (owns U) (names f))) p n.
Proof. intros C L p SZ nonce U pol lang attrs data f n. exact (yct_works L p nonce U pol lang attrs data f n SZ). Qed.
Print Assumptions C138_yct.

Example C138_example_yct : works (yct_session (C := ZC) nc ["D"; "C"; "A"] P HumanPolicy ["A"; "C"] "m") (Ok "m") 2 1009 20 /\ names fP = ["A"; "B"; "C"].
Proof.
  split; [|reflexivity].
  apply (C138_yct ZC ZL 1009 Zsize nc ["D"; "C"; "A"] P HumanPolicy ["A"; "C"] "m" fP 20 Ptree eq_refl); try first [ground|discriminate|cbn; lia].
  intros a [<-|[<-|[]]]; cbn; auto.
Qed.

(** C138: LSW always works. *)
Theorem C138_lsw :
  forall C : crypto, laws C -> forall p, field_size C p ->
  forall nonce pol lang attrs data f n,
  hash_total (C := C) -> parse pol lang = Ok (tree f) -> String.length nonce = 12 ->
  data <> "" -> arity2 f = true -> NoDup (names f) -> plain_names f = true ->
  (forall m, In m (names f) -> is_negative m = Ok false) -> small_ok C (and_width f) -> attrs <> [] ->
  works (lsw_session (C := C) nonce pol lang attrs data) (if sat (owns attrs) f then Ok data else Err) 0 p n.
Proof. intros C L p SZ nonce pol lang attrs data f n HT P HN NE A ND PN NG SO NA. apply (always L p _ _ n SZ). intros t. now apply (lsw_session_exact L). Qed.
Print Assumptions C138_lsw.

Example C138_example_lsw : works (lsw_session (C := ZC) nc P HumanPolicy ["A"; "C"] "m") (Ok "m") 0 1009 20.
Proof.
  apply (C138_lsw ZC ZL 1009 Zsize nc P HumanPolicy ["A"; "C"] "m" fP 20 Zhash Ptree eq_refl); try first [ground|discriminate].
  intros m [<-|[<-|[<-|[]]]]; reflexivity.
Qed.

(** C138: AW11 always works. *)
Theorem C138_aw :
  forall C : crypto, laws C -> forall p, field_size C p ->
  forall nonce U gid attrs pol lang data f n,
  hash_total (C := C) -> parse pol lang = Ok (tree f) -> String.length nonce = 12 ->
  gid <> "" -> (forall a, In a attrs -> a <> "" /\ In a (map (upper C) U)) ->
  binary_and f = true -> NoDup (leaves f) -> plain_names f = true -> upper_names C f -> small_ok C (and_width f) -> attrs <> [] ->
  works (aw_session (C := C) nonce U gid attrs pol lang data) (if sat (owns attrs) f then Ok data else Err) 0 p n.
Proof. intros C L p SZ nonce U gid attrs pol lang data f n HT P HN NG HA B ND PN UP SO NE. apply (always L p _ _ n SZ). intros t. now apply (aw_session_exact L). Qed.
Print Assumptions C138_aw.

Example C138_example_aw : works (aw_session (C := ZC) nc ["a"; "b"; "c"] "bob" ["A"; "C"] P HumanPolicy "m") (Ok "m") 0 1009 20.
Proof.
  apply (C138_aw ZC ZL 1009 Zsize nc ["a"; "b"; "c"] "bob" ["A"; "C"] P HumanPolicy "m" fP 20 Zhash Ptree eq_refl); try first [ground|discriminate].
  - intros a [<-|[<-|[]]]; (split; [discriminate|vm_compute; auto]).
  - intros m [<-|[<-|[<-|[]]]]; reflexivity.
Qed.

(** C138: BDABE always works. *)
Theorem C138_bdabe :
  forall C : crypto, laws C -> forall p, field_size C p ->
  forall nonce auth user pubs attrs pol lang data f n,
  hash_total (C := C) -> parse pol lang = Ok (tree f) -> String.length nonce = 12 ->
  flat f = true -> served auth pubs -> served auth attrs ->
  (forall c, In c (conjs f) -> exists m, In m c /\ In m pubs) ->
  works (bd_session (C := C) nonce auth user pubs attrs pol lang data) (if sat (owns attrs) f then Ok data else Err) 0 p n.
Proof. intros C L p SZ nonce auth user pubs attrs pol lang data f n HT P HN FL SP SA CO. apply (always L p _ _ n SZ). intros t. now apply (bd_session_exact L). Qed.
Print Assumptions C138_bdabe.

Example C138_example_bdabe : works (bd_session (C := ZC) nc "x" "bob" ["x::A"; "x::B"; "x::C"] ["x::A"] PX HumanPolicy "m") (Ok "m") 0 1009 20.
Proof.
  apply (C138_bdabe ZC ZL 1009 Zsize nc "x" "bob" ["x::A"; "x::B"; "x::C"] ["x::A"] PX HumanPolicy "m" fX 20 Zhash); try first [ground|reflexivity].
  - intros a [<-|[<-|[<-|[]]]]; reflexivity.
  - intros a [<-|[]]; reflexivity.
  - intros c [<-|[<-|[]]]; [exists "x::A"|exists "x::B"]; cbn; auto.
Qed.

(** C138: MKE08 always works. *)
Theorem C138_mke :
  forall C : crypto, laws C -> forall p, field_size C p ->
  forall nonce auth user pubs attrs pol lang data f n,
  hash_total (C := C) -> parse pol lang = Ok (tree f) -> String.length nonce = 12 ->
  flat f = true -> served auth pubs -> served auth attrs ->
  (forall c, In c (conjs f) -> exists m, In m c /\ In m pubs) ->
  works (mk_session (C := C) nonce auth user pubs attrs pol lang data) (if sat (owns attrs) f then Ok data else Err) 0 p n.
Proof. intros C L p SZ nonce auth user pubs attrs pol lang data f n HT P HN FL SP SA CO. apply (always L p _ _ n SZ). intros t. now apply (mk_session_exact L). Qed.
Print Assumptions C138_mke.

Example C138_example_mke : works (mk_session (C := ZC) nc "x" "bob" ["x::A"; "x::B"; "x::C"] ["x::A"] PX HumanPolicy "m") (Ok "m") 0 1009 20.
Proof.
  apply (C138_mke ZC ZL 1009 Zsize nc "x" "bob" ["x::A"; "x::B"; "x::C"] ["x::A"] PX HumanPolicy "m" fX 20 Zhash); try first [ground|reflexivity].
  - intros a [<-|[<-|[<-|[]]]]; reflexivity.
  - intros a [<-|[]]; reflexivity.
  - intros c [<-|[<-|[]]]; [exists "x::A"|exists "x::B"]; cbn; auto.
Qed.

