(** * ChancesWitnesses: fields with finitely many elements, and runs that a combination opens

    Nothing here models rabe code. *)
From Coq Require Import String List Bool Arith ZArith Znumtheory Lia.
From Verif Require Import Base Crypto Policy Parse Spec PolicyProofs Poly SchemeLib Msp
  Dnf DnfProofs Bdabe BdabeProofs Mke08 Mke08Proofs Bsw BswProofs Ghw11 Ghw11Proofs Lsw LswProofs Yct14 Yct14Proofs Ac17 Ac17Proofs Aw11 Aw11Proofs
  EquationProofs AcEquationProofs Instance BnInstance RealInstance Sessions SessionProofs Witnesses Generic Views GenericProofs
  GenericWitnesses Draws Chances ChancesProofs.
Import ListNotations.
Local Open Scope nat_scope.
Local Open Scope string_scope.

Lemma Zsize : field_size ZC 1009.
Proof.
  exists (map (fun k => zmk (Z.of_nat k)) (seq 0 1009)). split; [|split].
  - apply NoDup_map_on; [apply seq_NoDup|]. intros a b Ia Ib E. apply in_seq in Ia, Ib.
    apply (f_equal zval) in E. cbn [zmk zval] in E. change p0 with 1009%Z in E. rewrite !Z.mod_small in E by lia. lia.
  - now rewrite map_length, seq_length.
  - intros x. apply in_map_iff. exists (Z.to_nat (zval x)). pose proof (zval_range x) as R. change p0 with 1009%Z in R. split.
    + rewrite Z2Nat.id by lia. apply zmk_val.
    + apply in_seq. lia.
Qed.

Lemma real_size gt_bytes up : field_size (real gt_bytes up) (Z.to_nat bn_order).
Proof.
  assert (Pos : (1 < bn_order)%Z) by reflexivity.
  exists (map (fun k => qmk bn_order bn_prime (Z.of_nat k)) (seq 0 (Z.to_nat bn_order))). split; [|split].
  - apply NoDup_map_on; [apply seq_NoDup|]. intros a b Ia Ib E. apply in_seq in Ia, Ib.
    apply (f_equal (qval bn_order)) in E. cbn [qmk qval] in E. rewrite !Z.mod_small in E by lia. lia.
  - now rewrite map_length, seq_length.
  - intros x. apply in_map_iff. exists (Z.to_nat (qval bn_order x)).
    assert (R : (0 <= qval bn_order x < bn_order)%Z) by (rewrite <- qval_mod; apply Z.mod_pos_bound; lia). split.
    + rewrite Z2Nat.id by lia. apply zq_eq. cbn [qmk qval]. apply qval_mod.
    + apply in_seq. lia.
Qed.

(** The combination that guesses the value 1 for the payload. *)
Definition guess1 : combT ZC := PowT (Pair One1 One2) (f1 ZC).

Lemma one_run n (Q : (nat -> F ZC) -> Prop) : Q (from (repeat (f1 ZC) n)) -> runs n Q [repeat (f1 ZC) n].
Proof.
  intros H. split; [repeat constructor; intros []|]. intros r [<-|[]]. now rewrite repeat_length.
Qed.

Lemma bsw_opened : runs (6 + coins fP) (fun t => exists pk msk i ct j,
    bsw_setup t 0 = Ok (pk, msk, i) /\ bsw_encrypt nc pk P HumanPolicy "m" t i = Ok (ct, j) /\
    evalT (bsw_view pk ct) guess1 = payload (t 5)) [repeat (f1 ZC) (6 + coins fP)].
Proof.
  apply one_run. set (t := from _).
  destruct (bsw_setup_runs ZL t 0 Zone) as (pk & msk & Hs).
  destruct (bsw_encrypt_runs ZL nc pk P HumanPolicy "m" fP t 4 Ptree Zhash) as (ct & j & He).
  exists pk, msk, 4, ct, j. split; [exact Hs|]. split; [exact He|reflexivity].
Qed.

Lemma lsw_opened : runs 11 (fun t => exists pk msk i ct j,
    lsw_setup t 0 = Ok (pk, msk, i) /\ lsw_encrypt nc pk ["A"; "B"] "m" t i = Ok (ct, j) /\
    evalT (lsw_view pk ct) guess1 = payload (t 10)) [repeat (f1 ZC) 11].
Proof.
  assert (NA : ["A"; "B"] <> []) by discriminate. assert (ND : "m" <> EmptyString) by discriminate.
  apply one_run. set (t := from _).
  destruct (lsw_setup_runs (C := ZC) t 0) as (pk & msk & i & Hs).
  destruct (lsw_encrypt_runs nc pk ["A"; "B"] "m" t i NA ND (fun a _ => Zhash a)) as (ct & j & He).
  exists pk, msk, i, ct, j. split; [exact Hs|]. split; [exact He|reflexivity].
Qed.

Lemma ac_opened : runs 12 (fun t => exists pk msk i ct j kt k,
    ac_setup t 0 = Ok (pk, msk, i) /\ cp_encrypt nc pk P "m" HumanPolicy t i = Ok (ct, j) /\
    kp_encrypt nc pk ["A"; "B"] "m" t i = Ok (kt, k) /\
    evalT (ac_view pk (acp_ct ct)) guess1 = payload (t 11) /\ evalT (ac_view pk (akp_ct kt)) guess1 = payload (t 11)) [repeat (f1 ZC) 12].
Proof.
  apply one_run. set (t := from _).
  destruct (ac_setup_runs (C := ZC) t 0) as (pk & msk & i & Hs). destruct (ac_setup_explicit _ _ _ _ Hs) as (K & _).
  destruct (cp_encrypt_runs ZL nc pk msk _ _ _ _ _ _ _ P HumanPolicy "m" fP t i K Ptree eq_refl Zhash) as (ct & j & He).
  destruct (kp_encrypt_runs nc pk msk _ _ _ _ _ _ _ ["A"; "B"] "m" t i K Zhash) as (kt & k & Hk).
  exists pk, msk, i, ct, j, kt, k. do 3 (split; [assumption|]). split; reflexivity.
Qed.

Lemma ghw_opened : let n := 6 + coins fP + length (leaves fP) in
  runs (n + 4) (fun t => exists pk msk i ct j tks,
    ghw_setup t 0 = Ok (pk, msk, i) /\ ghw_encrypt nc pk P HumanPolicy "m" t i = Ok (ct, j) /\
    outsourced pk msk (cloud [["A"]; ["B"; "C"]] n t) tks /\ evalT (ghw_view pk ct tks) guess1 = payload (t 5)) [repeat (f1 ZC) (n + 4)].
Proof.
  intros n. apply one_run. set (t := from _).
  destruct (ghw_setup_runs (C := ZC) t 0) as (pk & msk & i & Hs).
  destruct (ghw_encrypt_runs ZL nc pk P HumanPolicy "m" fP t i Ptree Zhash) as (ct & j & He).
  destruct (outsourced_runs ZL pk msk (cloud [["A"]; ["B"; "C"]] n t) Zhash) as (tks & Ho).
  { repeat (constructor; [split; [discriminate|exact Zone]|]). constructor. }
  exists pk, msk, i, ct, j, tks. do 3 (split; [assumption|]). reflexivity.
Qed.

(** One authority of BDABE or MKE08 with three attributes (GenericWitnesses.v). *)
Definition guess2 : combT ZC := PowT (Pair One1 One2) (fadd ZC (f1 ZC) (f1 ZC)).

Lemma bd_opened : runs (7 + 3) (fun t => exists pk msk i apks ct j,
    bd_setup t 0 = Ok (pk, msk, i) /\ bd_published pk msk three_keys apks /\
    bd_encrypt nc pk apks PX HumanPolicy "m" t i = Ok (ct, j) /\ length (Bdabe.bct_j ct) = 3 /\
    (forall u, In u (Bdabe.bct_j ct) -> bt_e4 u <> g1zero ZC) /\
    evalT (bd_view pk apks ct) guess1 = payload (fmul ZC (t 5) (t 6))) [repeat (f1 ZC) (7 + 3)].
Proof.
  apply one_run. cbn [Nat.add].
  destruct (bd_setup (C := ZC) (from (repeat (f1 ZC) 10)) 0) as [[[pk msk] i]| |] eqn:Hs; try discriminate.
  destruct (bd_authgen pk msk "x" one 0) as [[au j0]| |] eqn:Ha; try discriminate.
  destruct (bd_request_pk pk au "x::A") as [k1| |] eqn:H1; [|exfalso|exfalso].
  destruct (bd_request_pk pk au "x::B") as [k2| |] eqn:H2; [|exfalso|exfalso].
  destruct (bd_request_pk pk au "x::C") as [k3| |] eqn:H3; [|exfalso|exfalso].
  destruct (bd_encrypt_runs nc pk [k1; k2; k3] PX HumanPolicy "m" fX (from (repeat (f1 ZC) 10)) i) as (ct & j & He);
    [vm_compute; reflexivity|reflexivity|].
  exists pk, msk, i, [k1; k2; k3], ct, j. split; [reflexivity|]. split.
  { unfold bd_published, three_keys. repeat (constructor; [exists au, j0; cbn [fst snd]; auto|]). constructor. }
  split; [exact He|].
  assert (X : match bd_setup (C := ZC) (from (repeat (f1 ZC) 10)) 0 with Ok (pk, msk, i) =>
    match bd_authgen pk msk "x" one 0 with Ok (au, _) =>
    match bd_request_pk pk au "x::A", bd_request_pk pk au "x::B", bd_request_pk pk au "x::C" with
    | Ok k1, Ok k2, Ok k3 => match bd_encrypt nc pk [k1; k2; k3] PX HumanPolicy "m" (from (repeat (f1 ZC) 10)) i with
      | Ok (ct, _) => (length (Bdabe.bct_j ct) =? 3)%nat && forallb (fun t : bd_tuple ZC => negb (zeqb (bt_e4 t) (g1zero ZC))) (Bdabe.bct_j ct)
      | _ => false end | _, _, _ => false end | _ => false end | _ => false end = true) by (vm_compute; reflexivity).
  rewrite Hs, Ha, H1, H2, H3, He in X. apply andb_prop in X as (X1 & X2). split; [now apply Nat.eqb_eq|]. split; [|reflexivity].
  rewrite forallb_forall in X2. intros t I E. specialize (X2 t I). apply negb_true_iff in X2. apply (f_equal negb) in X2.
  rewrite E in X2. vm_compute in X2. discriminate.
  all: assert (Y : match bd_setup (C := ZC) (from (repeat (f1 ZC) 10)) 0 with Ok (pk, msk, i) =>
    match bd_authgen pk msk "x" one 0 with Ok (au, _) =>
    match bd_request_pk pk au "x::A", bd_request_pk pk au "x::B", bd_request_pk pk au "x::C" with
    | Ok _, Ok _, Ok _ => true | _, _, _ => false end | _ => false end | _ => false end = true) by (vm_compute; reflexivity);
    rewrite Hs, Ha in Y; first [rewrite H1 in Y|idtac]; first [rewrite H2 in Y|idtac]; first [rewrite H3 in Y|idtac]; discriminate.
Qed.

Lemma mk_opened : runs (9 + 3) (fun t => exists pk msk i apks ct j,
    mk_setup t 0 = Ok (pk, msk, i) /\ mk_published pk three_keys apks /\
    mk_encrypt nc pk apks PX HumanPolicy "m" t i = Ok (ct, j) /\ length (mct_e ct) = 3 /\
    (forall u, In u (mct_e ct) -> mj_5 u <> g1zero ZC) /\
    evalT (mk_view pk apks ct) guess2 = payload (fmul ZC (fmul ZC (t 6) (t 7)) (fadd ZC (f1 ZC) (t 8)))) [repeat (f1 ZC) (9 + 3)].
Proof.
  apply one_run. cbn [Nat.add].
  destruct (mk_setup (C := ZC) (from (repeat (f1 ZC) 12)) 0) as [[[pk msk] i]| |] eqn:Hs; try discriminate.
  destruct (mk_authgen (C := ZC) "x" one 0) as [[au j0]| |] eqn:Ha; try discriminate.
  destruct (mk_request_pk pk "x::A" au) as [k1| |] eqn:H1; [|exfalso|exfalso].
  destruct (mk_request_pk pk "x::B" au) as [k2| |] eqn:H2; [|exfalso|exfalso].
  destruct (mk_request_pk pk "x::C" au) as [k3| |] eqn:H3; [|exfalso|exfalso].
  destruct (mk_encrypt_runs nc pk [k1; k2; k3] PX HumanPolicy "m" fX (from (repeat (f1 ZC) 12)) i) as (ct & j & He);
    [vm_compute; reflexivity|reflexivity|].
  exists pk, msk, i, [k1; k2; k3], ct, j. split; [reflexivity|]. split.
  { unfold mk_published, three_keys. repeat (constructor; [exists au, j0; cbn [fst snd]; auto|]). constructor. }
  split; [exact He|].
  assert (X : match mk_setup (C := ZC) (from (repeat (f1 ZC) 12)) 0 with Ok (pk, msk, i) =>
    match mk_authgen (C := ZC) "x" one 0 with Ok (au, _) =>
    match mk_request_pk pk "x::A" au, mk_request_pk pk "x::B" au, mk_request_pk pk "x::C" au with
    | Ok k1, Ok k2, Ok k3 => match mk_encrypt nc pk [k1; k2; k3] PX HumanPolicy "m" (from (repeat (f1 ZC) 12)) i with
      | Ok (ct, _) => (length (mct_e ct) =? 3)%nat && forallb (fun t : mk_conj ZC => negb (zeqb (mj_5 t) (g1zero ZC))) (mct_e ct)
      | _ => false end | _, _, _ => false end | _ => false end | _ => false end = true) by (vm_compute; reflexivity).
  rewrite Hs, Ha, H1, H2, H3, He in X. apply andb_prop in X as (X1 & X2). split; [now apply Nat.eqb_eq|]. split; [|reflexivity].
  rewrite forallb_forall in X2. intros t I E. specialize (X2 t I). apply negb_true_iff in X2. apply (f_equal negb) in X2.
  rewrite E in X2. vm_compute in X2. discriminate.
  all: assert (Y : match mk_setup (C := ZC) (from (repeat (f1 ZC) 12)) 0 with Ok (pk, msk, i) =>
    match mk_authgen (C := ZC) "x" one 0 with Ok (au, _) =>
    match mk_request_pk pk "x::A" au, mk_request_pk pk "x::B" au, mk_request_pk pk "x::C" au with
    | Ok _, Ok _, Ok _ => true | _, _, _ => false end | _ => false end | _ => false end = true) by (vm_compute; reflexivity);
    rewrite Hs, Ha in Y; first [rewrite H1 in Y|idtac]; first [rewrite H2 in Y|idtac]; first [rewrite H3 in Y|idtac]; discriminate.
Qed.

Lemma aw_opened : let n := 2 + 2 * length (concat [["A"; "B"]; ["C"]]) + 2 + 2 * coins fP + length (leaves fP) in
  runs n (fun t => exists gk i pks ct j,
    aw_setup t 0 = Ok (gk, i) /\ authorities gk (offices [["A"; "B"]; ["C"]] 2 t) pks /\
    aw_encrypt nc gk pks P HumanPolicy "m" t (2 + 2 * length (concat [["A"; "B"]; ["C"]])) = Ok (ct, j) /\
    length (awct_c ct) = 3 /\
    evalT (aw_view gk pks ct) guess1 = payload (t (2 + 2 * length (concat [["A"; "B"]; ["C"]]) + 1 + 2 * coins fP))) [repeat (f1 ZC) n].
Proof.
  intros n. apply one_run. set (t := from _).
  assert (Hs : exists gk i, aw_setup (C := ZC) t 0 = Ok (gk, i)) by (eexists _, _; reflexivity). destruct Hs as (gk & i & Hs).
  destruct (authorities_run gk (offices [["A"; "B"]; ["C"]] 2 t)) as (pks & HA); [repeat (constructor; [discriminate|]); constructor|].
  destruct (aw_encrypt_runs ZL nc gk pks P HumanPolicy "m" fP t (2 + 2 * length (concat [["A"; "B"]; ["C"]])) Ptree eq_refl) as (ct & j & He).
  exists gk, i, pks, ct, j. split; [exact Hs|]. split; [exact HA|]. split; [exact He|]. split; [|reflexivity].
  assert (X : match aw_setup (C := ZC) t 0 with Ok (gk, _) =>
    match aw_authgen gk ["A"; "B"] (fun n => t (2 + n)) 0, aw_authgen gk ["C"] (fun n => t (6 + n)) 0 with
    | Ok (Some (k1, _), _), Ok (Some (k2, _), _) => match aw_encrypt nc gk [k1; k2] P HumanPolicy "m" t 8 with
      | Ok (ct, _) => (length (awct_c ct) =? 3)%nat | _ => false end | _, _ => false end | _ => false end = true) by (vm_compute; reflexivity).
  inversion HA as [|? k1 ? l1 (m1 & j1 & E1) HA2]; subst. inversion HA2 as [|? k2 ? l2 (m2 & j2 & E2) HA3]; subst. inversion HA3; subst.
  cbn [fst snd] in E1, E2. rewrite Hs in X. cbn iota beta in X.
  rewrite (E1 : aw_authgen gk ["A"; "B"] (fun n => t (2 + n)) 0 = _), (E2 : aw_authgen gk ["C"] (fun n => t (6 + n)) 0 = _) in X. cbn iota beta in X. change 8 with (2 + 2 * length (concat [["A"; "B"]; ["C"]])) in X. rewrite He in X.
  now apply Nat.eqb_eq.
Qed.
