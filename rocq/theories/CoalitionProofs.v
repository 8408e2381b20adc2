(** * CoalitionProofs: AW11 authorities and users whose attributes together do not satisfy the policy *)
From Coq Require Import String Ascii List Bool Arith Lia Field.
From Verif Require Import Base Crypto Policy Tools Sharing Spec PolicyProofs Poly SharingProofs
  Symmetric Parse SchemeLib Msp Aw11 EquationProofs RobustProofs Aw11Proofs TruncationProofs SessionProofs
  Generic Views GenericProofs Insiders Coalition.
Import ListNotations.

Section CoalitionProofs.
Context {C : crypto} (L : laws C).
Local Open Scope F_scope.
Add Field coalition_field : (f_theory L).
Notation F := (F C).
Ltac logs := log_simpl L.

(** ** What the coalition holds is the same in both systems *)

Theorem together_same bad (gk : aw_gk C) auths auths' n a a' pk msk j pk' msk' j' :
  together bad auths auths' -> nth_error auths n = Some a -> nth_error auths' n = Some a' ->
  aw_authgen gk (fst a) (snd a) 0%nat = Ok (Some (pk, msk), j) ->
  aw_authgen gk (fst a') (snd a') 0%nat = Ok (Some (pk', msk'), j') ->
  (forall gid attrs, Forall (fun x => bad x = true) attrs -> aw_keygen gk msk' gid attrs = aw_keygen gk msk gid attrs) /\
  (Forall (fun x => bad (upper C x) = true) (fst a) -> msk' = msk /\ pk' = pk).
Proof.
  intros T Ha Ha' E E'. destruct (Forall2_nth_error _ _ _ T n a a' Ha Ha') as (U & V).
  apply aw_authgen_eq in E as (_ & Lp & Lm & N). apply aw_authgen_eq in E' as (_ & Lp' & Lm' & N'). rewrite U in *.
  assert (M : forall k a0, nth_error (fst a) k = Some a0 ->
    nth_error (amsk_attr msk) k = Some (upper C a0, snd a (2 * k)%nat, snd a (2 * k + 1)%nat) /\
    nth_error (apk_attr pk) k = Some (upper C a0, gtpow C (pairing C (agk_g1 gk) (agk_g2 gk)) (snd a (2 * k)%nat),
      g2mul C (agk_g2 gk) (snd a (2 * k + 1)%nat))) by exact N.
  assert (M' : forall k a0, nth_error (fst a) k = Some a0 ->
    nth_error (amsk_attr msk') k = Some (upper C a0, snd a' (2 * k)%nat, snd a' (2 * k + 1)%nat) /\
    nth_error (apk_attr pk') k = Some (upper C a0, gtpow C (pairing C (agk_g1 gk) (agk_g2 gk)) (snd a' (2 * k)%nat),
      g2mul C (agk_g2 gk) (snd a' (2 * k + 1)%nat))) by exact N'.
  clear N N'. rename M into N, M' into N'. split.
  - intros gid attrs B.
    assert (Fd : forall x, bad x = true -> find (fun e => seqb (n3 e) x) (amsk_attr msk') = find (fun e => seqb (n3 e) x) (amsk_attr msk)).
    { intros x Bx.
      assert (W : Forall2 (fun e' e => n3 e' = n3 e /\ (bad (n3 e) = true -> e' = e)) (amsk_attr msk') (amsk_attr msk)).
      { apply Forall2_at; [congruence|]. intros k e' e He' He.
        destruct (nth_error_len _ _ _ _ Lm He) as (s & Hs). destruct (N k s Hs) as (A & _). destruct (N' k s Hs) as (A' & _).
        specialize (V k s Hs). remember (2 * k)%nat as k2. rewrite A in He. rewrite A' in He'. injection He as <-. injection He' as <-. split; [reflexivity|].
        cbn [n3 fst]. intros Bs. destruct (V Bs) as (-> & ->). reflexivity. }
      clear - W Bx. induction W as [|e' e l' l (En & Ee) _ IH]; [reflexivity|]. cbn [find]. rewrite En.
      destruct (seqb (n3 e) x) eqn:Eq; [|exact IH]. apply seqb_eq in Eq. rewrite Ee by congruence. reflexivity. }
    unfold aw_keygen. destruct attrs as [|b l]; [reflexivity|]. destruct (seqb gid ""); [reflexivity|].
    generalize (AwSk (C := C) gid []). remember (b :: l) as al eqn:Eal. clear Eal b l.
    induction B as [|b l Hb _ IH]; intros sk; [reflexivity|]. cbn [ofold].
    assert (A : aw_add gk msk' b sk = aw_add gk msk b sk) by (unfold aw_add; rewrite (Fd b Hb); reflexivity).
    rewrite A. destruct (aw_add gk msk b sk); [cbn [obind]; apply IH|reflexivity|reflexivity].
  - intros B. rewrite Forall_forall in B.
    assert (Em : amsk_attr msk' = amsk_attr msk).
    { apply nth_ext_error; [congruence|]. intros k e He. destruct (nth_error_len _ _ _ _ Lm He) as (s & Hs).
      destruct (N k s Hs) as (A & _). destruct (N' k s Hs) as (A' & _). rewrite A' , <- He, A.
      destruct (V k s Hs (B _ (nth_error_In _ _ Hs))) as (-> & ->). reflexivity. }
    assert (Ep : apk_attr pk' = apk_attr pk).
    { apply nth_ext_error; [congruence|]. intros k e He. destruct (nth_error_len _ _ _ _ Lp He) as (s & Hs).
      destruct (N k s Hs) as (_ & A). destruct (N' k s Hs) as (_ & A'). rewrite A', <- He, A.
      destruct (V k s Hs (B _ (nth_error_In _ _ Hs))) as (-> & ->). reflexivity. }
    destruct msk, msk', pk, pk'. cbn in *. split; congruence.
Qed.

(** ** Two systems *)

(** Adding a sharing [d] of one, times [D], moves each share by the share of one. *)
Lemma gsh_move f (s D : F) t t' d i k n x vn v : (forall k, i <= k < i + nd f -> t' k = t k + D * d k) ->
  nth_error (gsh f s t i) k = Some (n, x) -> nth_error (gsh f 1 d i) k = Some (vn, v) ->
  nth_error (gsh f (s + D) t' i) k = Some (n, x + D * v).
Proof.
  intros T H Hv. rewrite (gsh_ext f _ t' (fun k => t k + D * d k)) by exact T.
  replace (s + D) with (s + D * 1) by ring.
  pose proof (gsh_linear L f s 1 D t d i) as X.
  set (sh' := gsh f (s + D * 1) (fun k0 => t k0 + D * d k0) i) in *. set (vs := gsh f 1 d i) in *. set (sh := gsh f s t i) in *.
  destruct (nth_error_len sh sh' k (n, x)) as ([n' x'] & Hx'); [unfold sh, sh'; now rewrite !gsh_length|exact H|].
  assert (Id : map fst sh' = map fst sh) by (unfold sh, sh'; now rewrite !gsh_idents).
  pose proof (map_nth_error fst _ _ Hx') as A. rewrite Id, (map_nth_error fst _ _ H) in A. injection A as A. cbn in A. subst n'.
  pose proof (map_nth_error snd _ _ Hx') as A. rewrite X in A. unfold ladd2 in A.
  assert (A2 : nth_error (combine (map snd sh) (map snd vs)) k = Some (x, v)).
  { apply nth_error_combine'; [exact (map_nth_error snd _ _ H)|exact (map_nth_error snd _ _ Hv)]. }
  rewrite (map_nth_error _ _ _ A2) in A. injection A as A. cbn [fst snd] in A. rewrite Hx', <- A. reflexivity.
Qed.

Lemma find_at {A} : forall (ns : list string) (l : list A) k n v, NoDup ns -> nth_error ns k = Some n -> nth_error l k = Some v ->
  find (fun x => seqb (fst x) n) (combine ns l) = Some (n, v).
Proof.
  induction ns as [|m ns IH]; intros [|x l] [|k] n v ND Hn Hv; try discriminate; cbn in *.
  - injection Hn as ->. injection Hv as ->. now rewrite seqb_refl.
  - inversion ND as [|? ? N1 N2]; subst. destruct (seqb m n) eqn:E; [|eauto].
    apply seqb_eq in E. subst. exfalso. apply N1. eapply nth_error_In, Hn.
Qed.

Theorem aw_coalition_twin nonce pol lang data f (bad : string -> bool) (Us : list (list string)) (e : combT C) :
  parse pol lang = Ok (tree f) -> NoDup (map (aw_key C) (names f)) ->
  sat (fun n => bad (aw_key C n)) f = false -> small_ok C (and_width f) ->
  exists (q : nat) (c w : string -> F) (v : nat -> F), (0 < q)%nat /\ v 0%nat = 1 /\ (forall n, bad n = true -> w n = 0) /\
  forall (ts te : nat -> F) auths (rho : string -> F) (D : F) gk i pks ct j pks' ct' j' v0,
  let ns := map (aw_key C) (names f) in
  let m := te q in
  let m' := te q - D * (ts 0%nat * ts 1%nat) in
  let d := fun n => - D * w n * finv C (rho n) in
  map fst auths = Us -> aw_setup ts 0%nat = Ok (gk, i) -> authorities gk auths pks ->
  aw_encrypt nonce gk pks pol lang data te 0%nat = Ok (ct, j) ->
  authorities gk (moved d auths) pks' ->
  aw_encrypt nonce gk pks' pol lang data (put (fun n => te n + D * v n) q m') 0%nat = Ok (ct', j') ->
  ts 0%nat <> 0 -> ts 1%nat <> 0 -> D <> 0 ->
  (forall k n, nth_error (names f) k = Some n -> te (q + 1 + k)%nat = rho (aw_key C n) /\ rho (aw_key C n) <> 0) ->
  fsum (map (fun n => c n * w n * finv C (rho n)) ns) <> 1 ->
  together bad auths (moved d auths) /\
  awct_c0 ct = gtmul C (payload m) (gtpow C (pairing C (agk_g1 gk) (agk_g2 gk)) (te 0%nat)) /\
  awct_c0 ct' = gtmul C (payload m') (gtpow C (pairing C (agk_g1 gk) (agk_g2 gk)) (te 0%nat + D)) /\
  (evalT (both (aw_view gk pks ct) v0) e = payload m -> evalT (both (aw_view gk pks' ct') v0) e <> payload m').
Proof.
  intros P NN Sat SO. set (NL := flat_map (fun U => map (upper C) U) Us).
  set (ind := fun (a : string) (n : nat) => match nth_error NL n with Some b => if seqb b a then 1 else 0 | None => 0 : F end).
  destruct (secret_direction L (fun n => bad (aw_key C n)) f (and_width f) 1 1%nat (le_n _) SO Sat) as (dd & Dz & Bl).
  set (vs := gsh f 1 dd 1) in *. set (ns0 := map (aw_key C) (names f)) in *.
  set (w := fun a => match find (fun x => seqb (fst x) a) (combine ns0 (map snd vs)) with Some (_, x) => x | None => 0 : F end).
  set (q := (1 + nd f + nd f)%nat). exists q, (fun a => drift e (ind a)), w, (put dd 0%nat 1). split; [unfold q; lia|].
  split; [apply put_same|].
  assert (Wz : forall n, bad n = true -> w n = 0).
  { intros n Bn. unfold w. destruct (find _ _) as [[a x]|] eqn:Ef; [|reflexivity].
    apply find_some in Ef as (I & En). cbn [fst] in En. apply seqb_eq in En. subst a.
    apply In_nth_error in I as (k & Hc). apply nth_error_combine_inv in Hc as (Hn & Hx).
    destruct (nth_error_len ns0 (leaves f) k n) as ([nm p] & Hl); [unfold ns0, names; now rewrite !map_length|exact Hn|].
    destruct (nth_error_len (leaves f) vs k (nm, p)) as (y & Hy); [unfold vs; now rewrite gsh_length|exact Hl|].
    rewrite (map_nth_error snd _ _ Hy) in Hx. injection Hx as <-.
    unfold blind in Bl. apply (Forall2_nth_error _ _ _ Bl k _ _ Hl Hy). cbn [fst].
    unfold ns0, names in Hn. rewrite (map_nth_error _ _ _ (map_nth_error fst _ _ Hl)) in Hn. injection Hn as Hn. cbn in Hn. now rewrite Hn. }
  split; [exact Wz|].
  intros ts te auths rho D gk i pks ct j pks' ct' j' v0 ns m m' d EU Hs HA He HA' He' N0 N1 ND Hr Ns.
  assert (TG : together bad auths (moved d auths)).
  { clear - Wz L. unfold together, moved. induction auths as [|[U t] l IH]; [constructor|]. cbn [map]. constructor; [|exact IH].
    cbn [fst snd]. split; [reflexivity|]. intros k x Hx Bx.
    assert (Ev : Nat.even (2 * k) = true) by (rewrite Nat.even_mul; reflexivity).
    assert (Od : Nat.even (2 * k + 1) = false) by (rewrite Nat.add_1_r, Nat.even_succ, <- Nat.negb_even, Ev; reflexivity).
    assert (Dv : (2 * k / 2)%nat = k) by (rewrite Nat.mul_comm; apply Nat.div_mul; discriminate).
    rewrite Ev, Od, Dv, Hx. unfold d. rewrite (Wz _ Bx). split; ring. }
  split; [exact TG|].
  set (te' := put (fun n => te n + D * put dd 0%nat 1 n) q m') in *.
  apply aw_setup_eq in Hs as (_ & Eg1 & Eg2). cbn [Nat.add] in Eg1, Eg2.
  set (g := ts 0%nat * ts 1%nat) in *.
  assert (G : logT L (pairing C (agk_g1 gk) (agk_g2 gk)) = g) by (rewrite Eg1, Eg2; logs; unfold g; ring).
  destruct (moved_amove L gk d g auths pks pks' G HA HA') as (AM & NM).
  replace (flat_map (fun a => map (upper C) (fst a)) auths) with NL in NM.
  2:{ unfold NL. rewrite <- EU. clear. induction auths as [|a l IH]; [reflexivity|]. cbn. now rewrite IH. }
  assert (Al2 : map snd (flat_map (@apk_attr C) pks') = map snd (flat_map (@apk_attr C) pks)).
  { clear - AM. induction AM as [|x' x l' l (_ & Es & _) _ IH]; [reflexivity|]. cbn. congruence. }
  destruct (aw_encrypt_eq L _ _ _ _ _ _ _ _ _ _ _ P He) as (sh & i1 & wsh & i2 & mm & es & -> & Dl & Dw & _ & _ & Ec0 & _ & Ec & Le & N).
  destruct (aw_encrypt_eq L _ _ _ _ _ _ _ _ _ _ _ P He') as (sh' & i1' & wsh' & i2' & mm & es' & -> & Dl' & Dw' & _ & _ & Ec0' & _ & Ec' & Le' & N').
  apply (dealt_unique (C := C)) in Dl as [-> ->]. apply (dealt_unique (C := C)) in Dl' as [-> ->].
  apply (dealt_unique (C := C)) in Dw as [-> ->]. apply (dealt_unique (C := C)) in Dw' as [-> ->].
  cbn [Nat.add] in Ec0, Ec0', Ec, Ec', N, N', Le, Le'. change (S (nd f + nd f)) with q in Ec0, Ec0', N, N'.
  assert (T0 : te' 0%nat = te 0%nat + D).
  { unfold te'. rewrite put_other by (unfold q; lia). rewrite put_same. ring. }
  assert (Tq : te' q = m') by (unfold te'; apply put_same).
  assert (Td : forall n, (1 <= n < 1 + nd f)%nat -> te' n = te n + D * dd n).
  { intros n Hn. unfold te'. rewrite put_other by (unfold q; lia). rewrite put_other by lia. reflexivity. }
  assert (To : forall n, n <> 0%nat -> n <> q -> ~ (1 <= n < 1 + nd f)%nat -> te' n = te n).
  { intros n A B X. unfold te'. rewrite put_other by assumption. rewrite put_other by assumption. rewrite Dz by exact X. ring. }
  rewrite T0 in *. rewrite Tq in *.
  assert (Qw : gsh f 0 te' (S (nd f)) = gsh f 0 te (S (nd f))).
  { apply gsh_ext. intros k Hk. apply To; [lia|unfold q; lia|lia]. }
  assert (Q0 : awct_c0 ct' = awct_c0 ct).
  { apply (logT_inj L). rewrite Ec0, Ec0'. rewrite !(logT_mul L), !(logT_pow L), G.
    unfold m'. logs. ring. }
  assert (Qc : awct_c ct' = awct_c ct).
  { rewrite Ec, Ec'. f_equal. rewrite gsh_length in Le, Le'. apply nth_ext_error; [congruence|]. intros k x Hx.
    destruct (nth_error_len es (gsh f (te 0%nat) te 1%nat) k x) as ([n y] & Hy); [now rewrite gsh_length|exact Hx|].
    destruct (nth_error_len (gsh f (te 0%nat) te 1%nat) vs k (n, y)) as ([vn v] & Hv); [unfold vs; now rewrite !gsh_length|exact Hy|].
    assert (Hy' : nth_error (gsh f (te 0%nat + D) te' 1%nat) k = Some (n, y + D * v)).
    { apply (gsh_move f (te 0%nat) D te te' dd 1%nat k n y vn v); [exact Td|exact Hy|exact Hv]. }
    destruct (nth_error_len (gsh f (te 0%nat) te 1%nat) (leaves f) k (n, y)) as ([nm p] & Hl); [apply gsh_length|exact Hy|].
    assert (En : n = node_index nm p).
    { pose proof (map_nth_error fst _ _ Hy) as A. rewrite gsh_idents in A. unfold idents in A.
      rewrite (map_nth_error _ _ _ Hl) in A. injection A as A. symmetry. exact A. }
    assert (Hn : nth_error (names f) k = Some nm) by (unfold names; exact (map_nth_error fst _ _ Hl)).
    assert (Key : remove_index (upper C n) = aw_key C nm).
    { unfold aw_key. rewrite (remove_index_upper L), En, remove_index_node. reflexivity. }
    assert (Wv : w (aw_key C nm) = v).
    { unfold w. rewrite (find_at ns0 (map snd vs) k (aw_key C nm) v NN); [reflexivity| |].
      - exact (map_nth_error (aw_key C) _ _ Hn).
      - exact (map_nth_error snd _ _ Hv). }
    destruct (Hr k nm Hn) as (R1 & R2). replace (q + 1 + k)%nat with (S (nd f + nd f + 1 + k)) in R1 by (unfold q; lia).
    pose proof (find_amove L g d (aw_key C nm) _ _ AM) as FA. rewrite <- !find_pk_flat in FA.
    specialize (N k n y Hy). specialize (N' k n (y + D * v) Hy'). rewrite Key in N, N'.
    destruct N as [(F0 & X0)|(a & ee & yy & ww & F0 & W0 & X0)], N' as [(F1 & X1)|(a' & ee' & yy' & ww' & F1 & W1 & X1)];
      rewrite F0, F1 in FA; try contradiction; [congruence|].
    destruct FA as (Ea & Eb & Ey & El). cbn [n3 fst snd] in Ea, Eb, Ey, El. rewrite Ea in El. subst yy'.
    rewrite Qw in W1. rewrite W0 in W1. injection W1 as <-.
    rewrite To in X1 by (unfold q; lia).
    rewrite X1, <- Hx, X0. do 5 f_equal. apply (logT_inj L). rewrite !(logT_mul L), !(logT_pow L), G, El, R1. unfold d. rewrite Wv. field. exact R2. }
  split; [exact Ec0|]. split; [exact Ec0'|]. intros E E'.
  assert (S2 : seen2 (both (aw_view gk pks' ct') v0) = seen2 (both (aw_view gk pks ct) v0)).
  { cbn [both aw_view seen2]. now rewrite Al2, Qc. }
  pose proof (eval_drift L (both (aw_view gk pks ct) v0) (both (aw_view gk pks' ct') v0) e eq_refl S2) as X.
  rewrite (drift_ext e _ (fun n => fsum (map (fun a => (- D * g * w a * finv C (rho a)) * ind a n) ns))) in X.
  - rewrite (drift_sum L), E, E', !(log_payload L) in X.
    assert (Y : fsum (map (fun k => - D * g * w k * finv C (rho k) * drift e (ind k)) ns) =
      - D * g * fsum (map (fun n => drift e (ind n) * w n * finv C (rho n)) ns)).
    { clear - L. induction ns as [|a l IH]; cbn [map fsum]; [ring|]. rewrite IH. ring. }
    rewrite Y in X. apply Ns. set (S0 := fsum _) in *.
    assert (Z : (D * g) * (S0 - 1) = 0).
    { transitivity (m' - (m + - D * g * S0)); [unfold m, m', g; ring|]. rewrite X. ring. }
    apply (mul_zero L) in Z; [transitivity (S0 - 1 + 1); [ring|rewrite Z; ring]|]. apply (mul_neq L); [exact ND|unfold g; now apply (mul_neq L)].
  - intros n. cbn [both aw_view seenT]. rewrite Q0, Qc.
    set (ap := map (fun x => snd (fst x)) (flat_map (@apk_attr C) pks)). set (ap' := map (fun x => snd (fst x)) (flat_map (@apk_attr C) pks')).
    assert (La : length ap' = length ap) by (unfold ap, ap'; rewrite !map_length; exact (Forall2_long _ _ _ AM)).
    assert (Ln : length ap = length NL) by (rewrite <- NM; unfold ap; now rewrite !map_length).
    rewrite <- !app_assoc.
    destruct (Nat.lt_ge_cases n (length ap)) as [Hn|Hn].
    + rewrite !app_nth1 by lia.
      destruct (nth_error (flat_map (@apk_attr C) pks) n) as [x|] eqn:Hx.
      2:{ apply nth_error_None in Hx. unfold ap in Hn. rewrite map_length in Hn. lia. }
      destruct (nth_error_len (flat_map (@apk_attr C) pks) (flat_map (@apk_attr C) pks') n x) as (x' & Hx'); [symmetry; exact (Forall2_long _ _ _ AM)|exact Hx|].
      pose proof (Forall2_nth_error _ _ _ AM n x' x Hx' Hx) as (_ & _ & El).
      unfold ap, ap'. rewrite (nth_error_nth _ _ _ (map_nth_error (fun x => snd (fst x)) _ _ Hx)), (nth_error_nth _ _ _ (map_nth_error (fun x => snd (fst x)) _ _ Hx')).
      rewrite El. unfold ind. assert (HN : nth_error NL n = Some (n3 x)) by (rewrite <- NM; exact (map_nth_error n3 _ _ Hx)). rewrite HN.
      destruct (in_dec string_dec (n3 x) ns) as [Em|Em].
      * rewrite (fsum_pick L (fun a => - D * g * w a * finv C (rho a)) (n3 x) ns NN Em). unfold d. ring.
      * rewrite (fsum_none L (fun a => - D * g * w a * finv C (rho a)) (n3 x) ns Em). unfold d.
        assert (w (n3 x) = 0) as ->; [|ring]. unfold w. destruct (find _ _) as [[a y]|] eqn:Ef; [|reflexivity].
        exfalso. apply find_some in Ef as (I & En). cbn [fst] in En. apply seqb_eq in En. subst a. apply Em. exact (in_combine_l _ _ _ _ I).
    + rewrite (app_nth2 ap') by lia. rewrite (app_nth2 ap) by lia. rewrite La. unfold ind. rewrite (proj2 (nth_error_None NL n)) by lia.
      transitivity (0 : F); [ring|]. clear - L. induction ns as [|a l IH]; [reflexivity|]. cbn [map fsum]. rewrite <- IH. ring.
Qed.

(** ** Five systems *)

(** The entries of a ciphertext, leaf by leaf. *)
Lemma aw_c_closed nonce (gk : aw_gk C) pks pol lang data te ct j f :
  parse pol lang = Ok (tree f) -> aw_encrypt nonce gk pks pol lang data te 0%nat = Ok (ct, j) ->
  let q := (1 + nd f + nd f)%nat in
  awct_c0 ct = gtmul C (payload (te q)) (gtpow C (pairing C (agk_g1 gk) (agk_g2 gk)) (te 0%nat)) /\
  awct_c ct = flat_map (fun k => match find_pk_attr pks (aw_key C (nth k (names f) ""%string)) with
    | None => []
    | Some a => [(upper C (nth k (idents f) ""%string),
        gtmul C (gtpow C (pairing C (agk_g1 gk) (agk_g2 gk)) (nth k (map snd (gsh f (te 0%nat) te 1)) 0)) (gtpow C (snd (fst a)) (te (q + 1 + k)%nat)),
        g2mul C (agk_g2 gk) (te (q + 1 + k)%nat),
        g2add C (g2mul C (snd a) (te (q + 1 + k)%nat)) (g2mul C (agk_g2 gk) (nth k (map snd (gsh f 0 te (S (nd f)))) 0)))]
    end) (seq 0 (length (leaves f))).
Proof.
  intros P He q.
  destruct (aw_encrypt_eq L _ _ _ _ _ _ _ _ _ _ _ P He) as (sh & i1 & wsh & i2 & mm & es & -> & Dl & Dw & _ & _ & Ec0 & _ & Ec & Le & N).
  apply (dealt_unique (C := C)) in Dl as [-> ->]. apply (dealt_unique (C := C)) in Dw as [-> ->].
  cbn [Nat.add] in Ec0, N, Le. change (S (nd f + nd f)) with q in Ec0. split; [exact Ec0|].
  rewrite Ec, flat_map_concat_map. f_equal. rewrite gsh_length in Le.
  symmetry. apply nth_ext_error; [now rewrite map_length, seq_length|]. intros k x Hx.
  destruct (nth_error_len es (leaves f) k x Le Hx) as ([nm p] & Hl).
  destruct (nth_error_len (leaves f) (gsh f (te 0%nat) te 1) k (nm, p)) as ([n y] & Hy); [now rewrite gsh_length|exact Hl|].
  assert (En : n = node_index nm p).
  { pose proof (map_nth_error fst _ _ Hy) as A. rewrite gsh_idents in A. unfold idents in A.
    rewrite (map_nth_error _ _ _ Hl) in A. injection A as A. symmetry. exact A. }
  assert (Key : remove_index (upper C n) = aw_key C nm).
  { unfold aw_key. rewrite (remove_index_upper L), En, remove_index_node. reflexivity. }
  assert (Kn : nth k (names f) ""%string = nm) by (unfold names; exact (nth_error_nth _ _ _ (map_nth_error fst _ _ Hl))).
  assert (Ki : nth k (idents f) ""%string = n).
  { rewrite <- (gsh_idents f (te 0%nat) te 1). exact (nth_error_nth _ _ _ (map_nth_error fst _ _ Hy)). }
  assert (Ky : nth k (map snd (gsh f (te 0%nat) te 1)) 0 = y) by exact (nth_error_nth _ _ _ (map_nth_error snd _ _ Hy)).
  assert (Hk : nth_error (seq 0 (length (leaves f))) k = Some k).
  { assert (k < length (leaves f))%nat by (apply nth_error_Some; congruence).
    rewrite (nth_error_nth' _ 0%nat) by (now rewrite seq_length). rewrite seq_nth by assumption. reflexivity. }
  rewrite (map_nth_error _ _ _ Hk), Kn, Ki, Ky. rewrite <- Hx. specialize (N k n y Hy). rewrite Key in N.
  change (S (nd f + nd f + 1 + k)) with (q + 1 + k)%nat in N.
  destruct N as [(F0 & X0)|(a & ee & yy & ww & F0 & W0 & X0)]; rewrite F0, X0; [reflexivity|].
  rewrite (nth_error_nth _ _ _ (map_nth_error snd _ _ W0)). reflexivity.
Qed.

(** What a combination gives depends on the elements of [Gt] through [drift] alone. *)
Lemma eval_parts v e : logT L (evalT v e) =
  logT L (evalT (View (seen1 v) (seen2 v) []) e) + drift e (fun n => logT L (nth n (seenT v) (gtone C))).
Proof.
  rewrite (eval_drift L (View (seen1 v) (seen2 v) []) v e eq_refl eq_refl). f_equal. apply drift_ext.
  intros n. cbn [seenT]. destruct n; cbn [nth]; rewrite (logT_one L); ring.
Qed.

(** Five rows of elements of [Gt]: the last differs from the first by what the others show. *)
Definition cross (a b c d x : list (GT C)) : Prop :=
  length b = length a /\ length c = length a /\ length d = length a /\ length x = length a /\
  forall n, logT L (nth n x (gtone C)) - logT L (nth n a (gtone C)) =
    logT L (nth n d (gtone C)) - logT L (nth n b (gtone C)) - logT L (nth n c (gtone C)) + logT L (nth n a (gtone C)).

Lemma cross_pair a b : length b = length a -> cross a b a b a.
Proof. intros E. repeat split; auto. intros n. ring. Qed.

Lemma cross_app a b c d x a' b' c' d' x' : cross a b c d x -> cross a' b' c' d' x' ->
  cross (a ++ a') (b ++ b') (c ++ c') (d ++ d') (x ++ x').
Proof.
  intros (A1 & A2 & A3 & A4 & A) (B1 & B2 & B3 & B4 & B). unfold cross. rewrite !app_length.
  repeat (apply conj; [lia|]). intros n. destruct (Nat.lt_ge_cases n (length a)) as [Hn|Hn].
  - rewrite !app_nth1 by lia. apply A.
  - rewrite (app_nth2 a), (app_nth2 b), (app_nth2 c), (app_nth2 d), (app_nth2 x) by lia. rewrite A1, A2, A3, A4. apply B.
Qed.

Lemma cross_flat {A} (a b c d x : A -> list (GT C)) l : (forall k, In k l -> cross (a k) (b k) (c k) (d k) (x k)) ->
  cross (flat_map a l) (flat_map b l) (flat_map c l) (flat_map d l) (flat_map x l).
Proof.
  induction l as [|k l IH]; intros H; [apply cross_pair; reflexivity|]. cbn [flat_map]. apply cross_app; [apply H; now left|].
  apply IH. intros k' I. apply H. now right.
Qed.

(** [nonbad] moves the secret exponent of every attribute the coalition does not control. *)
Theorem aw_coalition_five f (bad : string -> bool) :
  sat (fun n => bad (aw_key C n)) f = false -> small_ok C (and_width f) ->
  exists (q : nat) (u v : nat -> F), (0 < q)%nat /\ v 0%nat = 1 /\
  forall nonce pol lang data (e : combT C) v0 (ts te : nat -> F) auths gk i pks pks'
    ct0 j0 ct1 j1 ct2 j2 ct3 j3 ct4 j4,
  let others := fun n => if bad n then 0 else 1 in
  let g := ts 0%nat * ts 1%nat in
  let te1 := fun n => te n + u n in
  let te2 := put (fun n => te n + v n) q (te q - g) in
  parse pol lang = Ok (tree f) ->
  aw_setup ts 0%nat = Ok (gk, i) -> ts 0%nat <> 0 -> ts 1%nat <> 0 ->
  authorities gk auths pks -> authorities gk (moved others auths) pks' ->
  aw_encrypt nonce gk pks pol lang data te 0%nat = Ok (ct0, j0) ->
  aw_encrypt nonce gk pks' pol lang data te 0%nat = Ok (ct1, j1) ->
  aw_encrypt nonce gk pks pol lang data te1 0%nat = Ok (ct2, j2) ->
  aw_encrypt nonce gk pks' pol lang data te1 0%nat = Ok (ct3, j3) ->
  aw_encrypt nonce gk pks pol lang data te2 0%nat = Ok (ct4, j4) ->
  together bad auths (moved others auths) /\
  Forall2 (fun ct t => awct_c0 ct = gtmul C (payload (t q)) (gtpow C (pairing C (agk_g1 gk) (agk_g2 gk)) (t 0%nat)))
    [ct0; ct1; ct2; ct3; ct4] [te; te; te1; te1; te2] /\
  ~ (evalT (both (aw_view gk pks ct0) v0) e = payload (te q) /\
     evalT (both (aw_view gk pks' ct1) v0) e = payload (te q) /\
     evalT (both (aw_view gk pks ct2) v0) e = payload (te1 q) /\
     evalT (both (aw_view gk pks' ct3) v0) e = payload (te1 q) /\
     evalT (both (aw_view gk pks ct4) v0) e = payload (te2 q)).
Proof.
  intros Sat SO.
  destruct (secret_direction L (fun n => bad (aw_key C n)) f (and_width f) 1 1%nat (le_n _) SO Sat) as (dd & Dz & Bl).
  set (vs := gsh f 1 dd 1) in *. set (q := (1 + nd f + nd f)%nat).
  set (u := fun n => if (n <=? q)%nat then 0 else nth (n - (q + 1)) (map snd vs) 0).
  exists q, u, (put dd 0%nat 1). split; [unfold q; lia|]. split; [apply put_same|].
  intros nonce pol lang data e v0 ts te auths gk i pks pks' ct0 j0 ct1 j1 ct2 j2 ct3 j3 ct4 j4 others g te1 te2
    P Hs N0 N1 HA HA' H0 H1 H2 H3 H4.
  assert (TG : together bad auths (moved others auths)).
  { clear - L. unfold together, moved. induction auths as [|[U t] l IH]; [constructor|]. cbn [map]. constructor; [|exact IH].
    cbn [fst snd]. split; [reflexivity|]. intros k x Hx Bx.
    assert (Ev : Nat.even (2 * k) = true) by (rewrite Nat.even_mul; reflexivity).
    assert (Od : Nat.even (2 * k + 1) = false) by (rewrite Nat.add_1_r, Nat.even_succ, <- Nat.negb_even, Ev; reflexivity).
    assert (Dv : (2 * k / 2)%nat = k) by (rewrite Nat.mul_comm; apply Nat.div_mul; discriminate).
    rewrite Ev, Od, Dv, Hx. unfold others. rewrite Bx. split; ring. }
  split; [exact TG|].
  apply aw_setup_eq in Hs as (_ & Eg1 & Eg2). cbn [Nat.add] in Eg1, Eg2.
  assert (G : logT L (pairing C (agk_g1 gk) (agk_g2 gk)) = g) by (rewrite Eg1, Eg2; logs; unfold g; ring).
  destruct (moved_amove L gk others g auths pks pks' G HA HA') as (AM & _).
  assert (Al2 : map snd (flat_map (@apk_attr C) pks') = map snd (flat_map (@apk_attr C) pks)).
  { clear - AM. induction AM as [|x' x l' l (_ & Es & _) _ IH]; [reflexivity|]. cbn. congruence. }
  destruct (aw_c_closed _ _ _ _ _ _ _ _ _ _ P H0) as (E0 & K0). destruct (aw_c_closed _ _ _ _ _ _ _ _ _ _ P H1) as (E1 & K1).
  destruct (aw_c_closed _ _ _ _ _ _ _ _ _ _ P H2) as (E2 & K2). destruct (aw_c_closed _ _ _ _ _ _ _ _ _ _ P H3) as (E3 & K3).
  destruct (aw_c_closed _ _ _ _ _ _ _ _ _ _ P H4) as (E4 & K4). clear H0 H1 H2 H3 H4.
  fold q in E0, E1, E2, E3, E4, K0, K1, K2, K3, K4.
  split; [repeat (constructor; [assumption|]); constructor|].
  (* the tapes *)
  assert (Ul : forall n, (n <= q)%nat -> te1 n = te n).
  { intros n Hn. unfold te1, u. rewrite (proj2 (Nat.leb_le n q) Hn). ring. }
  assert (Uh : forall k, te1 (q + 1 + k)%nat = te (q + 1 + k)%nat + nth k (map snd vs) 0).
  { intros k. unfold te1, u. rewrite (proj2 (Nat.leb_gt (q + 1 + k) q)) by lia. now replace (q + 1 + k - (q + 1))%nat with k by lia. }
  assert (T0 : te2 0%nat = te 0%nat + 1).
  { unfold te2. rewrite put_other by (unfold q; lia). rewrite put_same. reflexivity. }
  assert (Tq : te2 q = te q - g) by (unfold te2; apply put_same).
  assert (Td : forall n, (1 <= n < 1 + nd f)%nat -> te2 n = te n + 1 * dd n).
  { intros n Hn. unfold te2. rewrite put_other by (unfold q; lia). rewrite put_other by lia. ring. }
  assert (To : forall n, n <> 0%nat -> n <> q -> ~ (1 <= n < 1 + nd f)%nat -> te2 n = te n).
  { intros n A B X. unfold te2. rewrite put_other by assumption. rewrite put_other by assumption. rewrite Dz by exact X. ring. }
  assert (Th : forall k, te2 (q + 1 + k)%nat = te (q + 1 + k)%nat) by (intros k; apply To; unfold q; lia).
  assert (S1 : gsh f (te1 0%nat) te1 1 = gsh f (te 0%nat) te 1).
  { rewrite Ul by lia. apply gsh_ext. intros k Hk. apply Ul. unfold q. lia. }
  assert (W1 : gsh f 0 te1 (S (nd f)) = gsh f 0 te (S (nd f))).
  { apply gsh_ext. intros k Hk. apply Ul. unfold q. lia. }
  assert (W2 : gsh f 0 te2 (S (nd f)) = gsh f 0 te (S (nd f))).
  { apply gsh_ext. intros k Hk. apply To; unfold q; lia. }
  assert (S2 : forall k, nth k (map snd (gsh f (te2 0%nat) te2 1)) 0 =
    nth k (map snd (gsh f (te 0%nat) te 1)) 0 + nth k (map snd vs) 0).
  { intros k. rewrite T0. destruct (nth_error (gsh f (te 0%nat) te 1) k) as [[n y]|] eqn:Hy.
    - destruct (nth_error_len (gsh f (te 0%nat) te 1) vs k (n, y)) as ([vn w] & Hv); [unfold vs; now rewrite !gsh_length|exact Hy|].
      pose proof (gsh_move f (te 0%nat) 1 te te2 dd 1%nat k n y vn w Td Hy Hv) as Hz.
      rewrite (nth_error_nth _ _ _ (map_nth_error snd _ _ Hy)), (nth_error_nth _ _ _ (map_nth_error snd _ _ Hz)),
        (nth_error_nth _ _ _ (map_nth_error snd _ _ Hv)). cbn [snd]. ring.
    - apply nth_error_None in Hy. rewrite gsh_length in Hy.
      rewrite !nth_overflow by (rewrite map_length; unfold vs; rewrite gsh_length; exact Hy). ring. }
  assert (Vz : forall k, In k (seq 0 (length (leaves f))) -> bad (aw_key C (nth k (names f) ""%string)) = true -> nth k (map snd vs) 0 = 0).
  { intros k Ik Bk. apply in_seq in Ik. destruct (nth_error (leaves f) k) as [[nm p]|] eqn:Hl; [|apply nth_error_None in Hl; lia].
    destruct (nth_error_len (leaves f) vs k (nm, p)) as (y & Hy); [unfold vs; now rewrite gsh_length|exact Hl|].
    rewrite (nth_error_nth _ _ _ (map_nth_error snd _ _ Hy)). unfold blind in Bl. apply (Forall2_nth_error _ _ _ Bl k _ _ Hl Hy). cbn [fst].
    unfold names in Bk. rewrite (nth_error_nth _ _ _ (map_nth_error fst _ _ Hl)) in Bk. exact Bk. }
  rewrite S1, W1 in K2, K3. rewrite W2 in K4.
  intros (X0 & X1 & X2 & X3 & X4). rewrite Ul in X2, X3 by lia.
  (* elements of G2 *)
  set (R := fun (t : nat -> F) (ct : aw_ct C) => flat_map (fun x => [snd (fst x); snd x]) (awct_c ct)).
  assert (R1 : R te ct1 = R te ct0).
  { unfold R. rewrite K0, K1. clear - AM. induction (seq 0 (length (leaves f))) as [|k l IH]; [reflexivity|]. cbn [flat_map].
    rewrite !flat_map_app, IH. f_equal. pose proof (find_amove L g others (aw_key C (nth k (names f) ""%string)) _ _ AM) as FA.
    rewrite <- !find_pk_flat in FA. destruct (find_pk_attr pks _) as [a|], (find_pk_attr pks' _) as [a'|]; try contradiction; [|reflexivity].
    destruct FA as (_ & _ & Ey & _). cbn. now rewrite Ey. }
  assert (R3 : R te ct3 = R te ct2).
  { unfold R. rewrite K2, K3. clear - AM. induction (seq 0 (length (leaves f))) as [|k l IH]; [reflexivity|]. cbn [flat_map].
    rewrite !flat_map_app, IH. f_equal. pose proof (find_amove L g others (aw_key C (nth k (names f) ""%string)) _ _ AM) as FA.
    rewrite <- !find_pk_flat in FA. destruct (find_pk_attr pks _) as [a|], (find_pk_attr pks' _) as [a'|]; try contradiction; [|reflexivity].
    destruct FA as (_ & _ & Ey & _). cbn. now rewrite Ey. }
  assert (R4 : R te ct4 = R te ct0).
  { unfold R. rewrite K0, K4. clear - Th. induction (seq 0 (length (leaves f))) as [|k l IH]; [reflexivity|]. cbn [flat_map].
    rewrite !flat_map_app, IH. f_equal. destruct (find_pk_attr pks _) as [a|]; [|reflexivity]. now rewrite Th. }
  unfold R in R1, R3, R4.
  (* elements of Gt *)
  assert (CR : cross (seenT (both (aw_view gk pks ct0) v0)) (seenT (both (aw_view gk pks' ct1) v0)) (seenT (both (aw_view gk pks ct2) v0))
    (seenT (both (aw_view gk pks' ct3) v0)) (seenT (both (aw_view gk pks ct4) v0))).
  { cbn [both aw_view seenT]. apply cross_app; [|now apply cross_pair].
    apply cross_app; [apply cross_pair; rewrite !map_length; exact (Forall2_long _ _ _ AM)|].
    change (?x :: ?y) with ([x] ++ y).
    assert (Q2 : awct_c0 ct2 = awct_c0 ct0) by (rewrite E2, E0, !Ul by lia; reflexivity).
    assert (Q3 : awct_c0 ct3 = awct_c0 ct0) by (rewrite E3, E0, !Ul by lia; reflexivity).
    assert (Q1 : awct_c0 ct1 = awct_c0 ct0) by (rewrite E1, E0; reflexivity).
    assert (Q4 : awct_c0 ct4 = awct_c0 ct0).
    { rewrite E4, E0, T0, Tq. apply (logT_inj L). rewrite !(logT_mul L), !(logT_pow L), !(log_payload L), G. ring. }
    rewrite Q1, Q2, Q3, Q4.
    change (awct_c0 ct0 :: ?y) with ([awct_c0 ct0] ++ y).
    apply cross_app; [now apply cross_pair|].
    rewrite K0, K1, K2, K3, K4, !flat_map_concat_map, !concat_map, !map_map, <- !flat_map_concat_map.
    apply cross_flat. intros k Ik. specialize (Vz k Ik).
    pose proof (find_amove L g others (aw_key C (nth k (names f) ""%string)) _ _ AM) as FA.
    rewrite <- !find_pk_flat in FA. destruct (find_pk_attr pks _) as [a|], (find_pk_attr pks' _) as [a'|]; try contradiction;
      [|now apply cross_pair].
    destruct FA as (Ea & _ & _ & El). rewrite Ea in El. cbn [map fst snd]. unfold cross. repeat (apply conj; [reflexivity|]).
    intros [|n]; [|destruct n; cbn [nth]; ring]. cbn [nth]. rewrite !(logT_mul L), !(logT_pow L), S2. rewrite Th, Uh, El, G.
    unfold others. destruct (bad (aw_key C (nth k (names f) ""%string))) eqn:Eb; [rewrite Vz by reflexivity; ring|ring]. }
  destruct CR as (_ & _ & _ & _ & CR).
  pose proof (eval_parts (both (aw_view gk pks ct0) v0) e) as Y0. pose proof (eval_parts (both (aw_view gk pks' ct1) v0) e) as Y1.
  pose proof (eval_parts (both (aw_view gk pks ct2) v0) e) as Y2. pose proof (eval_parts (both (aw_view gk pks' ct3) v0) e) as Y3.
  pose proof (eval_parts (both (aw_view gk pks ct4) v0) e) as Y4.
  assert (B1 : seen2 (both (aw_view gk pks' ct1) v0) = seen2 (both (aw_view gk pks ct0) v0)) by (cbn [both aw_view seen2]; now rewrite Al2, R1).
  assert (B3 : seen2 (both (aw_view gk pks' ct3) v0) = seen2 (both (aw_view gk pks ct2) v0)) by (cbn [both aw_view seen2]; now rewrite Al2, R3).
  assert (B4 : seen2 (both (aw_view gk pks ct4) v0) = seen2 (both (aw_view gk pks ct0) v0)) by (cbn [both aw_view seen2]; now rewrite R4).
  rewrite B1 in Y1. rewrite B3 in Y3. rewrite B4 in Y4. rewrite X0 in Y0. rewrite X1 in Y1. rewrite X2 in Y2. rewrite X3 in Y3. rewrite X4 in Y4.
  rewrite (log_payload L) in Y0, Y1, Y2, Y3, Y4. rewrite Tq in Y4.
  pose proof (f_equal (fun h => h) (drift_ext e _ _ CR)) as Z. cbv beta in Z.
  rewrite (drift_ext e _ (fun n => logT L (nth n (seenT (both (aw_view gk pks ct4) v0)) (gtone C)) + - (1) * logT L (nth n (seenT (both (aw_view gk pks ct0) v0)) (gtone C)))) in Z by (intros n; ring).
  symmetry in Z.
  rewrite (drift_ext e _ (fun n => (logT L (nth n (seenT (both (aw_view gk pks' ct3) v0)) (gtone C)) + - (1) * logT L (nth n (seenT (both (aw_view gk pks' ct1) v0)) (gtone C)))
    + (- (1) * logT L (nth n (seenT (both (aw_view gk pks ct2) v0)) (gtone C)) + logT L (nth n (seenT (both (aw_view gk pks ct0) v0)) (gtone C))))) in Z by (intros n; ring).
  rewrite !(drift_add L), !(drift_scale L) in Z.
  cbn [both aw_view seen1 seen2] in Y0, Y1, Y2, Y3, Y4.
  match type of Y0 with _ = ?A + ?B => set (A0 := A) in *; set (B0 := B) in * end.
  match type of Y1 with _ = _ + ?B => set (D1 := B) in * end.
  match type of Y2 with _ = ?A + ?B => set (A2 := A) in *; set (D2 := B) in * end.
  match type of Y3 with _ = _ + ?B => set (D3 := B) in * end.
  match type of Y4 with _ = _ + ?B => set (D4 := B) in * end.
  assert (Zg : g = 0).
  { transitivity ((A0 + B0) - (te q - g)); [rewrite <- Y0; ring|]. rewrite Y4.
    transitivity (- ((D4 + - (1) * B0))); [ring|]. rewrite <- Z.
    transitivity (- ((A2 + D3) - (A0 + D1) - (A2 + D2) + (A0 + B0))); [ring|]. rewrite <- Y0, <- Y1, <- Y2, <- Y3. ring. }
  exact (mul_neq L _ _ N0 N1 Zg).
Qed.

(** ** No combination opens all *)

Lemma binary_width f : binary_and f = true -> (and_width f <= 2)%nat.
Proof.
  assert (M : forall l, Forall (fun g => binary_and g = true -> (and_width g <= 2)%nat) l -> forallb binary_and l = true ->
    (fold_right (fun g m => Nat.max (and_width g) m) 0 l <= 2)%nat).
  { induction 1 as [|g l H _ IH]; cbn [fold_right forallb]; intros B; [lia|]. apply andb_true_iff in B as [B1 B2].
    specialize (H B1). specialize (IH B2). lia. }
  induction f as [n p|l IH|l IH] using formula_ind'; cbn [and_width binary_and]; intros B; [lia| |].
  - apply andb_true_iff in B as [B1 B2]. apply Nat.eqb_eq in B1. specialize (M l IH B2). lia.
  - apply andb_true_iff in B as [_ B2]. exact (M l IH B2).
Qed.

Theorem aw_coalition nonce pol lang data f (bad : string -> bool) (e : combT C) (ts : nat -> F) gk i auths0 v0 :
  parse pol lang = Ok (tree f) -> binary_and f = true ->
  sat (fun n => bad (aw_key C n)) f = false -> small_ok C 2%nat ->
  aw_setup ts 0%nat = Ok (gk, i) -> ts 0%nat <> 0 -> ts 1%nat <> 0 -> Forall (fun a => fst a <> []) auths0 ->
  exists (te : nat -> F) auths pks ct j M, together bad auths0 auths /\ authorities gk auths pks /\
    aw_encrypt nonce gk pks pol lang data te 0%nat = Ok (ct, j) /\
    awct_c0 ct = gtmul C M (gtpow C (pairing C (agk_g1 gk) (agk_g2 gk)) (te 0%nat)) /\
    evalT (both (aw_view gk pks ct) v0) e <> M.
Proof.
  intros P B Sat SO Hs T0 T1 NA.
  assert (SW : small_ok C (and_width f)) by (intros k Hk; apply SO; pose proof (binary_width f B); lia).
  destruct (aw_coalition_five f bad Sat SW) as (q & u & v & Pq & V0 & X).
  set (te := fun _ : nat => 0 : F). set (others := fun n => if bad n then 0 else 1 : F).
  set (te1 := fun n => te n + u n). set (te2 := put (fun n => te n + v n) q (te q - ts 0%nat * ts 1%nat)).
  assert (NM : Forall (fun a => fst a <> []) (moved others auths0)).
  { apply Forall_forall. intros a Ia. apply (in_map fst) in Ia. rewrite moved_fst in Ia. apply in_map_iff in Ia as (b & <- & Ib).
    rewrite Forall_forall in NA. exact (NA b Ib). }
  destruct (authorities_run gk auths0 NA) as (pks & HA). destruct (authorities_run gk _ NM) as (pks' & HA').
  destruct (aw_encrypt_runs L nonce gk pks pol lang data f te 0%nat P B) as (ct0 & j0 & H0).
  destruct (aw_encrypt_runs L nonce gk pks' pol lang data f te 0%nat P B) as (ct1 & j1 & H1).
  destruct (aw_encrypt_runs L nonce gk pks pol lang data f te1 0%nat P B) as (ct2 & j2 & H2).
  destruct (aw_encrypt_runs L nonce gk pks' pol lang data f te1 0%nat P B) as (ct3 & j3 & H3).
  destruct (aw_encrypt_runs L nonce gk pks pol lang data f te2 0%nat P B) as (ct4 & j4 & H4).
  destruct (X nonce pol lang data e v0 ts te auths0 gk i pks pks' ct0 j0 ct1 j1 ct2 j2 ct3 j3 ct4 j4 P Hs T0 T1 HA HA' H0 H1 H2 H3 H4)
    as (TG & E & Y).
  assert (TS : together bad auths0 auths0).
  { unfold together. clear. induction auths0 as [|a l IH]; [constructor|]. constructor; [|exact IH]. auto. }
  inversion E as [|? ? ? ? E0 F0]; subst. inversion F0 as [|? ? ? ? E1 F1]; subst. inversion F1 as [|? ? ? ? E2 F2]; subst.
  inversion F2 as [|? ? ? ? E3 F3]; subst. inversion F3 as [|? ? ? ? E4 F4]; subst. clear E F0 F1 F2 F3 F4.
  destruct (gt_dec L (evalT (both (aw_view gk pks ct0) v0) e) (payload (te q))) as [D0|D0];
    [|exists te, auths0, pks, ct0, j0, (payload (te q)); auto].
  destruct (gt_dec L (evalT (both (aw_view gk pks' ct1) v0) e) (payload (te q))) as [D1|D1];
    [|exists te, (moved others auths0), pks', ct1, j1, (payload (te q)); auto].
  destruct (gt_dec L (evalT (both (aw_view gk pks ct2) v0) e) (payload (te1 q))) as [D2|D2];
    [|exists te1, auths0, pks, ct2, j2, (payload (te1 q)); auto].
  destruct (gt_dec L (evalT (both (aw_view gk pks' ct3) v0) e) (payload (te1 q))) as [D3|D3];
    [|exists te1, (moved others auths0), pks', ct3, j3, (payload (te1 q)); auto].
  destruct (gt_dec L (evalT (both (aw_view gk pks ct4) v0) e) (payload (te2 q))) as [D4|D4];
    [|exists te2, auths0, pks, ct4, j4, (payload (te2 q)); auto].
  exfalso. apply Y. repeat (split; [assumption|]). exact D4.
Qed.

End CoalitionProofs.
