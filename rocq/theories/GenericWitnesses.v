(** * GenericWitnesses: runs that meet the hypotheses of PropertiesGeneric.v

    Nothing here models rabe code. *)
From Coq Require Import String List Bool Arith ZArith Lia.
From Verif Require Import Base Crypto Policy Parse Spec PolicyProofs Poly SchemeLib Msp Dnf DnfProofs Bdabe BdabeProofs Mke08 Mke08Proofs
  Bsw BswProofs Ghw11 Ghw11Proofs Lsw LswProofs Yct14 Yct14Proofs Ac17 Ac17Proofs Aw11 Aw11Proofs
  EquationProofs AcEquationProofs Instance Sessions SessionProofs Witnesses Generic Views GenericProofs GenericDnfProofs.
Import ListNotations.
Local Open Scope string_scope.

Notation one := (fun _ : nat => f1 ZC).

Lemma Zone : f1 ZC <> f0 ZC.
Proof. exact (one_neq_zero ZL). Qed.

Lemma Ptree : parse P HumanPolicy = Ok (tree fP).
Proof. vm_compute. reflexivity. Qed.

(** Twins for BSW, LSW and AC17. *)
Lemma bsw_twins : exists pk msk i ct j pk' msk' i' ct' j',
  bsw_setup one 0 = Ok (pk, msk, i) /\ bsw_encrypt nc pk P HumanPolicy "m" one 0 = Ok (ct, j) /\
  bsw_setup (put one 3 (f0 ZC)) 0 = Ok (pk', msk', i') /\
  bsw_encrypt nc pk' P HumanPolicy "m" (put one 1 (f0 ZC)) 0 = Ok (ct', j').
Proof.
  destruct (bsw_setup_runs ZL one 0 Zone) as (pk & msk & Hs).
  destruct (bsw_encrypt_runs ZL nc pk P HumanPolicy "m" fP one 0 Ptree Zhash) as (ct & j & He).
  destruct (bsw_setup_runs ZL (put one 3 (f0 ZC)) 0 Zone) as (pk' & msk' & Hs').
  destruct (bsw_encrypt_runs ZL nc pk' P HumanPolicy "m" fP (put one 1 (f0 ZC)) 0 Ptree Zhash) as (ct' & j' & He').
  exists pk, msk, 4, ct, j, pk', msk', 4, ct', j'. auto.
Qed.

Lemma lsw_twins : exists pk msk i ct j pk' msk' i' ct' j',
  lsw_setup one 0 = Ok (pk, msk, i) /\ lsw_encrypt nc pk ["A"; "B"] "m" one 0 = Ok (ct, j) /\
  lsw_setup (put one 1 (f0 ZC)) 0 = Ok (pk', msk', i') /\
  lsw_encrypt nc pk' ["A"; "B"] "m" (put one 3 (f0 ZC)) 0 = Ok (ct', j').
Proof.
  assert (NA : ["A"; "B"] <> []) by discriminate. assert (ND : "m" <> EmptyString) by discriminate.
  destruct (lsw_setup_runs (C := ZC) one 0) as (pk & msk & i & Hs).
  destruct (lsw_encrypt_runs nc pk ["A"; "B"] "m" one 0 NA ND (fun a _ => Zhash a)) as (ct & j & He).
  destruct (lsw_setup_runs (C := ZC) (put one 1 (f0 ZC)) 0) as (pk' & msk' & i' & Hs').
  destruct (lsw_encrypt_runs nc pk' ["A"; "B"] "m" (put one 3 (f0 ZC)) 0 NA ND (fun a _ => Zhash a)) as (ct' & j' & He').
  exists pk, msk, i, ct, j, pk', msk', i', ct', j'. auto.
Qed.

Lemma ac_twins : exists pk msk i ct j kt k pk' msk' i' ct' j' kt' k',
  ac_setup one 0 = Ok (pk, msk, i) /\ cp_encrypt nc pk P "m" HumanPolicy one 0 = Ok (ct, j) /\
  kp_encrypt nc pk ["A"; "B"] "m" one 0 = Ok (kt, k) /\
  ac_setup (put one 6 (f0 ZC)) 0 = Ok (pk', msk', i') /\
  cp_encrypt nc pk' P "m" HumanPolicy (put one 2 (f0 ZC)) 0 = Ok (ct', j') /\
  kp_encrypt nc pk' ["A"; "B"] "m" (put one 2 (f0 ZC)) 0 = Ok (kt', k').
Proof.
  destruct (ac_setup_runs (C := ZC) one 0) as (pk & msk & i & Hs).
  destruct (ac_setup_runs (C := ZC) (put one 6 (f0 ZC)) 0) as (pk' & msk' & i' & Hs').
  destruct (ac_setup_explicit _ _ _ _ Hs) as (K & _). destruct (ac_setup_explicit _ _ _ _ Hs') as (K' & _).
  destruct (cp_encrypt_runs ZL nc pk msk _ _ _ _ _ _ _ P HumanPolicy "m" fP one 0 K Ptree eq_refl Zhash) as (ct & j & He).
  destruct (cp_encrypt_runs ZL nc pk' msk' _ _ _ _ _ _ _ P HumanPolicy "m" fP (put one 2 (f0 ZC)) 0 K' Ptree eq_refl Zhash) as (ct' & j' & He').
  destruct (kp_encrypt_runs nc pk msk _ _ _ _ _ _ _ ["A"; "B"] "m" one 0 K Zhash) as (kt & k & Hk).
  destruct (kp_encrypt_runs nc pk' msk' _ _ _ _ _ _ _ ["A"; "B"] "m" (put one 2 (f0 ZC)) 0 K' Zhash) as (kt' & k' & Hk').
  exists pk, msk, i, ct, j, kt, k, pk', msk', i', ct', j', kt', k'. auto 10.
Qed.

(** Two users of GHW11 with transform keys, and their twins. *)
Definition two_users : list (list string * (nat -> F ZC)) := [(["A"], one); (["B"; "C"], one)].

Lemma ghw_twins : let two := fadd ZC (f1 ZC) (f1 ZC) in
  exists pk msk i ct j tks pk' msk' i' ct' j' tks' m',
  ghw_setup one 0 = Ok (pk, msk, i) /\ outsourced pk msk two_users tks /\
  ghw_encrypt nc pk P HumanPolicy "m" one 0 = Ok (ct, j) /\
  ghw_setup (put one 3 two) 0 = Ok (pk', msk', i') /\
  outsourced pk' msk' (scaled (fmul ZC two (finv ZC (f1 ZC))) two_users) tks' /\
  ghw_encrypt nc pk' P HumanPolicy "m" (put one 1 m') 0 = Ok (ct', j') /\
  m' = fadd ZC (f1 ZC) (fmul ZC (fmul ZC (fsub ZC (f1 ZC) two) (f1 ZC)) (fmul ZC (f1 ZC) (f1 ZC))) /\
  two <> f0 ZC /\ two <> f1 ZC.
Proof.
  intros two.
  assert (N2 : two <> f0 ZC) by (intros X; apply (f_equal zval) in X; vm_compute in X; discriminate).
  assert (N1 : two <> f1 ZC) by (intros X; apply (f_equal zval) in X; vm_compute in X; discriminate).
  set (c := fmul ZC two (finv ZC (f1 ZC))).
  assert (Nc : fmul ZC c (f1 ZC) <> f0 ZC) by (intros X; apply (f_equal zval) in X; vm_compute in X; discriminate).
  destruct (ghw_setup_runs (C := ZC) one 0) as (pk & msk & i & Hs).
  destruct (outsourced_runs ZL pk msk two_users Zhash) as (tks & Ho).
  { repeat (constructor; [split; [discriminate|exact Zone]|]). constructor. }
  destruct (ghw_encrypt_runs ZL nc pk P HumanPolicy "m" fP one 0 Ptree Zhash) as (ct & j & He).
  destruct (ghw_setup_runs (C := ZC) (put one 3 two) 0) as (pk' & msk' & i' & Hs').
  destruct (outsourced_runs ZL pk' msk' (scaled c two_users) Zhash) as (tks' & Ho').
  { repeat (constructor; [split; [discriminate|exact Nc]|]). constructor. }
  set (m' := fadd ZC (f1 ZC) (fmul ZC (fmul ZC (fsub ZC (f1 ZC) two) (f1 ZC)) (fmul ZC (f1 ZC) (f1 ZC)))).
  destruct (ghw_encrypt_runs ZL nc pk' P HumanPolicy "m" fP (put one 1 m') 0 Ptree Zhash) as (ct' & j' & He').
  exists pk, msk, i, ct, j, tks, pk', msk', i', ct', j', tks', m'. do 6 (split; [assumption|]). auto.
Qed.

(** Two systems of YCT14 with different [g ^ s]. *)
Lemma yct_twins : exists pk msk i ct j pk' msk' i' ct' j',
  yct_setup ["A"; "B"; "C"] one 0 = Ok (pk, msk, i) /\ yct_setup ["A"; "B"; "C"] (put one 0 (f0 ZC)) 0 = Ok (pk', msk', i') /\
  yct_encrypt nc pk ["A"; "B"] "m" one 0 = Ok (ct, j) /\ yct_encrypt nc pk' ["A"; "B"] "m" one 0 = Ok (ct', j').
Proof.
  assert (NA : ["A"; "B"] <> []) by discriminate. assert (ND : "m" <> EmptyString) by discriminate.
  assert (I : incl ["A"; "B"] ["A"; "B"; "C"]) by (intros x [<-|[<-|[]]]; cbn; auto).
  destruct (yct_setup_runs (C := ZC) ["A"; "B"; "C"] one 0) as (pk & msk & i & Hs).
  destruct (yct_setup_runs (C := ZC) ["A"; "B"; "C"] (put one 0 (f0 ZC)) 0) as (pk' & msk' & i' & Hs').
  destruct (yct_setup_keys ZL _ _ _ _ _ _ Hs) as (G & K). destruct (yct_setup_keys ZL _ _ _ _ _ _ Hs') as (G' & K').
  destruct (yct_encrypt_runs ZL nc G _ pk msk _ "m" one 0 K NA ND I) as (ct & j & He).
  destruct (yct_encrypt_runs ZL nc G' _ pk' msk' _ "m" one 0 K' NA ND I) as (ct' & j' & He').
  exists pk, msk, i, ct, j, pk', msk', i', ct', j'. auto.
Qed.

(** Two authorities of AW11. *)
Definition two_auths : list (list string * (nat -> F ZC)) := [(["a"], one); (["B"; "C"], one)].

Lemma aw_twins (te' : nat -> F ZC) (d : string -> F ZC) : exists gk i pks ct j pks' ct' j',
  aw_setup one 0 = Ok (gk, i) /\ authorities gk two_auths pks /\
  aw_encrypt nc gk pks P HumanPolicy "m" one 0 = Ok (ct, j) /\
  authorities gk (moved d two_auths) pks' /\
  aw_encrypt nc gk pks' P HumanPolicy "m" te' 0 = Ok (ct', j').
Proof.
  assert (Hs : exists gk i, aw_setup (C := ZC) one 0 = Ok (gk, i)) by (eexists _, _; reflexivity).
  destruct Hs as (gk & i & Hs).
  destruct (authorities_run gk two_auths) as (pks & HA); [repeat (constructor; [discriminate|]); constructor|].
  destruct (authorities_run gk (moved d two_auths)) as (pks' & HA'); [repeat (constructor; [discriminate|]); constructor|].
  destruct (aw_encrypt_runs ZL nc gk pks P HumanPolicy "m" fP one 0 Ptree eq_refl) as (ct & j & He).
  destruct (aw_encrypt_runs ZL nc gk pks' P HumanPolicy "m" fP te' 0 Ptree eq_refl) as (ct' & j' & He').
  exists gk, i, pks, ct, j, pks', ct', j'. do 4 (split; [assumption|]). exact He'.
Qed.

(** One authority of BDABE or MKE08 with three attributes. *)
Definition three_keys : list (string * (nat -> F ZC) * string) := [("x", one, "x::A"); ("x", one, "x::B"); ("x", one, "x::C")].

Lemma bd_example : exists pk msk i apks ct j,
  bd_setup (C := ZC) (ztape 3) 0 = Ok (pk, msk, i) /\ bd_published pk msk three_keys apks /\
  bd_encrypt nc pk apks PX HumanPolicy "m" one 0 = Ok (ct, j) /\ length (Bdabe.bct_j ct) = 3 /\
  (forall t, In t (Bdabe.bct_j ct) -> bt_e4 t <> g1zero ZC).
Proof.
  destruct (bd_setup (C := ZC) (ztape 3) 0) as [[[pk msk] i]| |] eqn:Hs; try discriminate.
  destruct (bd_authgen pk msk "x" one 0) as [[au j0]| |] eqn:Ha; try discriminate.
  destruct (bd_request_pk pk au "x::A") as [k1| |] eqn:H1; [|exfalso|exfalso].
  destruct (bd_request_pk pk au "x::B") as [k2| |] eqn:H2; [|exfalso|exfalso].
  destruct (bd_request_pk pk au "x::C") as [k3| |] eqn:H3; [|exfalso|exfalso].
  destruct (bd_encrypt_runs nc pk [k1; k2; k3] PX HumanPolicy "m" fX one 0) as (ct & j & He);
    [vm_compute; reflexivity|reflexivity|].
  exists pk, msk, i, [k1; k2; k3], ct, j. split; [reflexivity|]. split.
  { unfold bd_published, three_keys. repeat (constructor; [exists au, j0; cbn [fst snd]; auto|]). constructor. }
  split; [exact He|].
  assert (X : match bd_setup (C := ZC) (ztape 3) 0 with Ok (pk, msk, _) =>
    match bd_authgen pk msk "x" one 0 with Ok (au, _) =>
    match bd_request_pk pk au "x::A", bd_request_pk pk au "x::B", bd_request_pk pk au "x::C" with
    | Ok k1, Ok k2, Ok k3 => match bd_encrypt nc pk [k1; k2; k3] PX HumanPolicy "m" one 0 with
      | Ok (ct, _) => (length (Bdabe.bct_j ct) =? 3)%nat && forallb (fun t : bd_tuple ZC => negb (zeqb (bt_e4 t) (g1zero ZC))) (Bdabe.bct_j ct)
      | _ => false end | _, _, _ => false end | _ => false end | _ => false end = true) by (vm_compute; reflexivity).
  rewrite Hs, Ha, H1, H2, H3, He in X. apply andb_prop in X as (X1 & X2). split; [now apply Nat.eqb_eq|].
  rewrite forallb_forall in X2. intros t I E. specialize (X2 t I). apply negb_true_iff in X2. apply (f_equal negb) in X2.
  rewrite E in X2. vm_compute in X2. discriminate.
  all: assert (Y : match bd_setup (C := ZC) (ztape 3) 0 with Ok (pk, msk, _) =>
    match bd_authgen pk msk "x" one 0 with Ok (au, _) =>
    match bd_request_pk pk au "x::A", bd_request_pk pk au "x::B", bd_request_pk pk au "x::C" with
    | Ok _, Ok _, Ok _ => true | _, _, _ => false end | _ => false end | _ => false end = true) by (vm_compute; reflexivity);
    rewrite Hs, Ha in Y; first [rewrite H1 in Y|idtac]; first [rewrite H2 in Y|idtac]; first [rewrite H3 in Y|idtac]; discriminate.
Qed.

Lemma mk_example : exists pk msk i apks ct j,
  mk_setup (C := ZC) (ztape 3) 0 = Ok (pk, msk, i) /\ mk_published pk three_keys apks /\
  mk_encrypt nc pk apks PX HumanPolicy "m" one 0 = Ok (ct, j) /\ length (mct_e ct) = 3 /\
  (forall t, In t (mct_e ct) -> mj_5 t <> g1zero ZC).
Proof.
  destruct (mk_setup (C := ZC) (ztape 3) 0) as [[[pk msk] i]| |] eqn:Hs; try discriminate.
  destruct (mk_authgen (C := ZC) "x" one 0) as [[au j0]| |] eqn:Ha; try discriminate.
  destruct (mk_request_pk pk "x::A" au) as [k1| |] eqn:H1; [|exfalso|exfalso].
  destruct (mk_request_pk pk "x::B" au) as [k2| |] eqn:H2; [|exfalso|exfalso].
  destruct (mk_request_pk pk "x::C" au) as [k3| |] eqn:H3; [|exfalso|exfalso].
  destruct (mk_encrypt_runs nc pk [k1; k2; k3] PX HumanPolicy "m" fX one 0) as (ct & j & He);
    [vm_compute; reflexivity|reflexivity|].
  exists pk, msk, i, [k1; k2; k3], ct, j. split; [reflexivity|]. split.
  { unfold mk_published, three_keys. repeat (constructor; [exists au, j0; cbn [fst snd]; auto|]). constructor. }
  split; [exact He|].
  assert (X : match mk_setup (C := ZC) (ztape 3) 0 with Ok (pk, msk, _) =>
    match mk_authgen (C := ZC) "x" one 0 with Ok (au, _) =>
    match mk_request_pk pk "x::A" au, mk_request_pk pk "x::B" au, mk_request_pk pk "x::C" au with
    | Ok k1, Ok k2, Ok k3 => match mk_encrypt nc pk [k1; k2; k3] PX HumanPolicy "m" one 0 with
      | Ok (ct, _) => (length (mct_e ct) =? 3)%nat && forallb (fun t : mk_conj ZC => negb (zeqb (mj_5 t) (g1zero ZC))) (mct_e ct)
      | _ => false end | _, _, _ => false end | _ => false end | _ => false end = true) by (vm_compute; reflexivity).
  rewrite Hs, Ha, H1, H2, H3, He in X. apply andb_prop in X as (X1 & X2). split; [now apply Nat.eqb_eq|].
  rewrite forallb_forall in X2. intros t I E. specialize (X2 t I). apply negb_true_iff in X2. apply (f_equal negb) in X2.
  rewrite E in X2. vm_compute in X2. discriminate.
  all: assert (Y : match mk_setup (C := ZC) (ztape 3) 0 with Ok (pk, msk, _) =>
    match mk_authgen (C := ZC) "x" one 0 with Ok (au, _) =>
    match mk_request_pk pk "x::A" au, mk_request_pk pk "x::B" au, mk_request_pk pk "x::C" au with
    | Ok _, Ok _, Ok _ => true | _, _, _ => false end | _ => false end | _ => false end = true) by (vm_compute; reflexivity);
    rewrite Hs, Ha in Y; first [rewrite H1 in Y|idtac]; first [rewrite H2 in Y|idtac]; first [rewrite H3 in Y|idtac]; discriminate.
Qed.

(** A key of YCT14 for [P], which the attribute "A" alone does not fit. *)
Lemma yct_key_example : parse P HumanPolicy = Ok (tree fP) /\ plain_names fP = true /\ NoDup (names fP) /\
  small_ok ZC (and_width fP) /\ small_ok ZC 4 /\ sat (owns ["A"]) fP = false /\ exists pk msk i sk j,
  yct_setup (C := ZC) ["A"; "B"; "C"] (ztape 3) 0 = Ok (pk, msk, i) /\
  yct_keygen msk P HumanPolicy one 0 = Ok (sk, j) /\
  ztape 3 1 <> f0 ZC /\ (forall n, ~ In (@YAttr ZC n (Some (@YPriv ZC (f0 ZC)))) (ysk_du sk)) /\ length (ysk_du sk) = 3.
Proof.
  split; [exact Ptree|]. split; [reflexivity|]. split; [ground|]. split; [ground|]. split; [ground|]. split; [reflexivity|].
  assert (X : match yct_setup (C := ZC) ["A"; "B"; "C"] (ztape 3) 0 with Ok (pk, msk, _) =>
    match yct_keygen msk P HumanPolicy one 0 with Ok (sk, _) => (length (ysk_du sk) =? 3)%nat &&
      forallb (fun a : yct_attr ZC => match y_node a with Some (YPriv x) => negb (zeqb x (zmk 0)) | _ => false end) (ysk_du sk)
    | _ => false end | _ => false end = true) by (vm_compute; reflexivity).
  destruct (yct_setup (C := ZC) ["A"; "B"; "C"] (ztape 3) 0) as [[[pk msk] i]| |]; try discriminate.
  destruct (yct_keygen msk P HumanPolicy one 0) as [[sk j]| |] eqn:Hk; try discriminate.
  apply andb_prop in X as (X1 & X2). exists pk, msk, i, sk, j. split; [reflexivity|]. split; [exact Hk|].
  split; [intros Z; apply (f_equal zval) in Z; vm_compute in Z; discriminate|]. split; [|now apply Nat.eqb_eq].
  intros n I. rewrite forallb_forall in X2. specialize (X2 _ I). cbn [y_node] in X2. vm_compute in X2. discriminate.
Qed.
