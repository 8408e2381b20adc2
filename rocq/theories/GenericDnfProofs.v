(** * GenericDnfProofs: an outsider's combinations do not give the payload key, BDABE and MKE08 *)
From Coq Require Import String Ascii List Bool Arith Lia Field.
From Verif Require Import Base Crypto Policy Tools Spec PolicyProofs Poly
  Symmetric Parse SchemeLib Dnf DnfProofs Bdabe BdabeProofs Mke08 Mke08Proofs EquationProofs RobustProofs Generic Views GenericProofs.
Import ListNotations.

Section GenericDnfProofs.
Context {C : crypto} (L : laws C).
Local Open Scope F_scope.
Add Field generic_dnf_field : (f_theory L).
Notation F := (F C).
Ltac logs := log_simpl L.

(** ** Keys whose elements of [Gt] move along with their elements of [G1] *)

Definition pmove (a b : F) (p' p : pak C) : Prop :=
  pak_attr p' = pak_attr p /\ pak_g1 p' = pak_g1 p /\ pak_g2 p' = pak_g2 p /\
  logT L (pak_gt1 p') = logT L (pak_gt1 p) + a * log1 L (pak_g1 p) /\
  logT L (pak_gt2 p') = logT L (pak_gt2 p) + b * log1 L (pak_g1 p).

Definition tmove (a b : F) (p' p : term C) : Prop :=
  tm_attrs p' = tm_attrs p /\ tm_g1 p' = tm_g1 p /\ tm_g2 p' = tm_g2 p /\
  logT L (tm_gt1 p') = logT L (tm_gt1 p) + a * log1 L (tm_g1 p) /\
  logT L (tm_gt2 p') = logT L (tm_gt2 p) + b * log1 L (tm_g1 p).

Section Moves.
Variables a b : F.

Lemma merge_tmove t' t p' p : tmove a b t' t -> pmove a b p' p -> tmove a b (merge_term t' p') (merge_term t p).
Proof.
  intros (A1 & A2 & A3 & A4 & A5) (B1 & B2 & B3 & B4 & B5). unfold tmove, merge_term. cbn [tm_attrs tm_g1 tm_g2 tm_gt1 tm_gt2].
  rewrite A1, A2, A3, B1, B2, B3. logs. rewrite A4, A5, B4, B5. repeat apply conj; try reflexivity; ring.
Qed.

Lemma update_tmove p' p : pmove a b p' p -> forall T' T, Forall2 (tmove a b) T' T -> forall i,
  Forall2 (tmove a b) (update_nth i (fun t => merge_term t p') T') (update_nth i (fun t => merge_term t p) T).
Proof.
  intros Hp T' T H. induction H as [|t' t T' T Ht H IH]; intros i; [destruct i; constructor|].
  destruct i as [|i]; cbn [update_nth]; constructor; auto. now apply merge_tmove.
Qed.

Lemma leaf_tmove n i pks' pks : Forall2 (pmove a b) pks' pks -> forall T' T, Forall2 (tmove a b) T' T ->
  Forall2 (tmove a b) (dnf_leaf pks' n i T') (dnf_leaf pks n i T).
Proof.
  unfold dnf_leaf. induction 1 as [|p' p pks' pks Hp _ IH]; intros T' T H; [exact H|]. cbn [fold_left]. apply IH.
  destruct Hp as (B1 & B2 & B3 & B4 & B5). rewrite B1. destruct (seqb (pak_attr p) n); [|exact H].
  rewrite (Forall2_long _ _ _ H). destruct (i <? length T).
  - apply update_tmove; [repeat split; assumption|exact H].
  - apply Forall2_app; [exact H|]. constructor; [|constructor]. unfold tmove, new_term. cbn. rewrite B1. auto.
Qed.

Lemma dnf_tmove pks' pks : Forall2 (pmove a b) pks' pks -> forall v i t T' T, Forall2 (tmove a b) T' T ->
  fst (dnf pks' v i t T') = fst (dnf pks v i t T) /\ Forall2 (tmove a b) (snd (dnf pks' v i t T')) (snd (dnf pks v i t T)).
Proof.
  intros P. induction v as [n p|ty w IH|l IH] using pvalue_ind'; intros i t T' T H; cbn [dnf].
  - split; [reflexivity|]. cbn [snd]. now apply leaf_tmove.
  - destruct t as [[| |]|]; try (apply IH; exact H); destruct ty; try (apply IH; exact H); split; auto.
  - destruct t as [[| |]|]; try (split; [reflexivity|exact H]).
    + revert T' T H. generalize true. induction IH as [|x l E _ IHl]; intros r T' T H; [split; [reflexivity|exact H]|].
      cbv zeta. destruct (E i (Some And) T' T H) as (E1 & E2). destruct r; [rewrite E1|]; apply IHl; assumption.
    + revert T' T H. generalize true. generalize 0%nat. induction IH as [|x l E _ IHl]; intros k r T' T H; [split; [reflexivity|exact H]|].
      cbv zeta. destruct (E (k + k)%nat (Some Or) T' T H) as (E1 & E2). destruct r; [rewrite E1|]; apply IHl; assumption.
Qed.

Lemma insert_tmove x' x : tmove a b x' x -> forall T' T, Forall2 (tmove a b) T' T ->
  Forall2 (tmove a b) (insert_term x' T') (insert_term x T).
Proof.
  intros Hx T' T H. induction H as [|t' t T' T Ht H IH]; cbn [insert_term]; [constructor; [exact Hx|constructor]|].
  destruct Hx as (X & Hx), Ht as (Y & Ht). rewrite X, Y. destruct (_ <=? _).
  - constructor; [split; assumption|]. constructor; [split; assumption|exact H].
  - constructor; [split; assumption|exact IH].
Qed.

Lemma sort_tmove T' T : Forall2 (tmove a b) T' T -> Forall2 (tmove a b) (sort_terms T') (sort_terms T).
Proof. unfold sort_terms. induction 1 as [|t' t T' T Ht _ IH]; [constructor|]. cbn [fold_right]. now apply insert_tmove. Qed.

Lemma json_tmove v pks' pks T' T : Forall2 (pmove a b) pks' pks -> json_to_dnf v pks' = Ok T' -> json_to_dnf v pks = Ok T ->
  Forall2 (tmove a b) T' T.
Proof.
  intros P. unfold json_to_dnf. destruct (dnf_tmove pks' pks P v 0%nat None [] [] (Forall2_nil _)) as (E1 & E2).
  rewrite E1. destruct (fst (dnf pks v 0%nat None [])); [|discriminate]. intros X Y. injection X as <-. injection Y as <-. now apply sort_tmove.
Qed.
End Moves.

(** ** BDABE *)

(** The exponent of a published attribute key. *)
Definition exponent (at_ : nat) (r : string * (nat -> F) * string) : F :=
  match hash C (snd r), hash C (fst (fst r)) with
  | Some h1, Some h2 => h1 * h2 * snd (fst r) at_
  | _, _ => 0
  end.

Lemma bd_published_at (pk : bd_pk C) msk reqs apks : bd_published pk msk reqs apks ->
  Forall2 (fun r k => k = BdApk (snd r) (g1mul C (bpk_g1 pk) (exponent 1%nat r)) (g2mul C (bpk_g2 pk) (exponent 1%nat r))
    (gtpow C (bpk_egg pk) (exponent 1%nat r))) reqs apks.
Proof.
  apply Forall2_impl. intros [[n t] a] k (au & j & Ha & Hk). cbn [fst snd] in *.
  apply bd_authgen_eq in Ha as (_ & En & _ & _ & E3). unfold bd_request_pk, sha3_hash_fr in Hk. rewrite En, E3 in Hk.
  unfold exponent. cbn [fst snd]. destruct (from_authority a n); [|discriminate].
  destruct (hash C a); [|discriminate]. destruct (hash C n); [|discriminate]. cbn in Hk. injection Hk as <-. reflexivity.
Qed.

(** The change of the elements of [Gt] of the keys when the master secret grows by one. *)
Definition key_change (at_ : nat) (reqs : list (string * (nat -> F) * string)) (n : nat) : F :=
  nth n (1 :: map (exponent at_) reqs) 0.

Theorem bd_outsider nonce pol lang data reqs (e : combT C) :
  exists x : F, forall (ts te : nat -> F) (y' rho : F) pk msk i apks ct j pk' msk' i' apks' ct' j',
  let te' := put te 1%nat (te 1%nat - (y' - ts 4%nat) * (ts 0%nat * ts 1%nat) * rho * finv C (te 0%nat)) in
  bd_setup ts 0%nat = Ok (pk, msk, i) -> bd_published pk msk reqs apks ->
  bd_encrypt nonce pk apks pol lang data te 0%nat = Ok (ct, j) ->
  bd_setup (put ts 4%nat y') 0%nat = Ok (pk', msk', i') -> bd_published pk' msk' reqs apks' ->
  bd_encrypt nonce pk' apks' pol lang data te' 0%nat = Ok (ct', j') ->
  ts 0%nat <> 0 -> ts 1%nat <> 0 -> te 0%nat <> 0 -> y' <> ts 4%nat ->
  (forall t, In t (bct_j ct) -> bt_e4 t = g1mul C (bpk_g1 pk) rho) -> rho <> x ->
  evalT (bd_view pk apks ct) e = payload (te 0%nat * te 1%nat) ->
  evalT (bd_view pk' apks' ct') e <> payload (te' 0%nat * te' 1%nat).
Proof.
  exists (- drift e (key_change 1%nat reqs)).
  intros ts te y' rho pk msk i apks ct j pk' msk' i' apks' ct' j' te' Hs Hp He Hs' Hp' He' N0 N1 Nt Ny Hr Nx E E'.
  apply bd_setup_eq in Hs as (_ & Ey & G1 & G2 & P1 & P2 & Eg).
  apply bd_setup_eq in Hs' as (_ & Ey' & G1' & G2' & P1' & P2' & Eg').
  assert (Q1 : bpk_g1 pk' = bpk_g1 pk) by (rewrite G1, G1'; reflexivity).
  assert (Q2 : bpk_g2 pk' = bpk_g2 pk) by (rewrite G2, G2'; reflexivity).
  assert (Q3 : bpk_p1 pk' = bpk_p1 pk) by (rewrite P1, P1'; reflexivity).
  assert (Q4 : bpk_p2 pk' = bpk_p2 pk) by (rewrite P2, P2'; reflexivity).
  set (D := y' - ts 4%nat) in *. set (g := ts 0%nat * ts 1%nat) in *.
  assert (Lg : logT L (bpk_egg pk) = g * ts 4%nat) by (rewrite Eg, Ey, G1, G2; logs; cbn [Nat.add]; unfold g; ring).
  assert (Lg' : logT L (bpk_egg pk') = g * y').
  { rewrite Eg', Ey', G1', G2'. cbn [Nat.add]. rewrite put_same, !put_other by lia. logs. unfold g. ring. }
  apply bd_published_at in Hp, Hp'.
  assert (AM : Forall2 (pmove (D * ts 1%nat) 0) (map bd_pak apks') (map bd_pak apks) /\
     map (@bapk_a1 C) apks' = map (@bapk_a1 C) apks /\ map (@bapk_a2 C) apks' = map (@bapk_a2 C) apks /\
     forall n, logT L (nth n (map (@bapk_a3 C) apks') (gtone C)) - logT L (nth n (map (@bapk_a3 C) apks) (gtone C)) =
       D * g * nth n (map (exponent 1%nat) reqs) 0).
  { clear - Hp Hp' Q1 Q2 Lg Lg' G1. revert apks' Hp'. induction Hp as [|r k reqs apks -> _ IH]; intros apks' Hp'.
    - inversion Hp'. repeat apply conj; try constructor. intros n. destruct n; cbn [map nth]; logs; ring.
    - inversion Hp' as [|? k' ? apks2 -> H2]; subst. destruct (IH _ H2) as (I1 & I2 & I3 & I4). cbn [map].
      rewrite Q1, Q2, I2, I3. cbn [bapk_a1 bapk_a2]. repeat apply conj; try reflexivity.
      + constructor; [|exact I1]. unfold pmove, bd_pak. cbn [pak_attr pak_g1 pak_g2 pak_gt1 pak_gt2 bapk_attr bapk_a1 bapk_a2 bapk_a3].
        repeat apply conj; try reflexivity; logs; rewrite ?Lg, ?Lg', ?G1; logs; cbn [Nat.add]; unfold D, g; ring.
      + intros [|n]; cbn [nth]; [|apply I4]. cbn [bapk_a3]. logs. rewrite Lg, Lg'. unfold D. ring. }
  destruct AM as (AM & A1 & A2 & A3).
  destruct (bd_encrypt_eq _ _ _ _ _ _ _ _ _ _ He) as (v & T & m & Pv & _ & HT & -> & _ & _ & _ & Ll & N).
  destruct (bd_encrypt_eq _ _ _ _ _ _ _ _ _ _ He') as (v' & T' & m & Pv' & _ & HT' & -> & _ & _ & _ & Ll' & N').
  rewrite Pv in Pv'. injection Pv' as <-. pose proof (json_tmove _ _ v _ _ _ _ AM HT' HT) as TM.
  assert (T0 : te' 0%nat = te 0%nat) by (unfold te'; apply put_other; lia).
  assert (T1 : te' 1%nat = te 1%nat - D * g * rho * finv C (te 0%nat)) by (unfold te'; apply put_same).
  assert (QJ : bct_j ct' = bct_j ct).
  { apply nth_ext_error; [rewrite Ll, Ll'; symmetry; exact (Forall2_long _ _ _ TM)|]. intros k t Hk.
    destruct (nth_error_len (bct_j ct) T k t Ll Hk) as (tm & Htm).
    destruct (nth_error_len T T' k tm) as (tm' & Htm'); [symmetry; exact (Forall2_long _ _ _ TM)|exact Htm|].
    destruct (Forall2_nth_error _ _ _ TM k tm' tm Htm' Htm) as (M1 & M2 & M3 & M4 & _).
    pose proof (Hr t (nth_error_In _ _ Hk)) as R. pose proof (N k tm Htm) as X. rewrite Hk in X. injection X as ->. cbn [bt_e4] in R.
    apply (f_equal (log1 L)) in R. rewrite G1 in R. revert R. logs. cbn [Nat.add]. intros R.
    rewrite (N' k tm' Htm'), M1, M2, M3, Q3, Q4. cbn [Nat.add].
    assert (Tk : te' (S (S k)) = te (S (S k))) by (unfold te'; apply put_other; lia). rewrite Tk. do 2 f_equal.
    apply (logT_inj L). logs. cbn [Nat.add]. rewrite M4, T0, T1.
    transitivity (logT L (tm_gt1 tm) * te (S (S k)) + D * ts 1%nat * (log1 L (tm_g1 tm) * te (S (S k))) + te 0%nat * te 1%nat - D * g * rho);
      [field; exact Nt|]. rewrite R. unfold g. ring. }
  pose proof (eval_drift L (bd_view pk apks ct) (bd_view pk' apks' ct') e) as X. unfold bd_view in X at 1 2 3 4. cbn [seen1 seen2] in X.
  rewrite Q1, Q2, Q3, Q4, A1, A2, QJ in X. specialize (X eq_refl eq_refl).
  rewrite (drift_ext e _ (fun n => (D * g) * key_change 1%nat reqs n)) in X.
  - rewrite (drift_scale L), E, E', !(log_payload L), T0, T1 in X. apply Nx.
    assert (Z : (D * g) * (rho + drift e (key_change 1%nat reqs)) = 0).
    { transitivity (te 0%nat * te 1%nat + D * g * drift e (key_change 1%nat reqs) - te 0%nat * (te 1%nat - D * g * rho * finv C (te 0%nat))).
      - field. exact Nt.
      - rewrite X. ring. }
    apply (mul_zero L) in Z.
    + transitivity (rho + drift e (key_change 1%nat reqs) - drift e (key_change 1%nat reqs)); [ring|rewrite Z; ring].
    + apply (mul_neq L); [apply (minus_neq L); exact Ny|now apply (mul_neq L)].
  - intros n. cbn [bd_view seenT]. rewrite QJ. unfold key_change. destruct n as [|n]; cbn [nth].
    + rewrite Lg, Lg'. unfold D. ring.
    + pose proof (A3 n) as X3.
      assert (La : length (map (@bapk_a3 C) apks') = length (map (@bapk_a3 C) apks)).
      { rewrite !map_length. pose proof (f_equal (@length _) A1) as Y. now rewrite !map_length in Y. }
      assert (Lb : length (map (@bapk_a3 C) apks) = length (map (exponent 1%nat) reqs)).
      { rewrite !map_length. symmetry. exact (Forall2_long _ _ _ Hp). }
      destruct (Nat.lt_ge_cases n (length (map (@bapk_a3 C) apks))) as [Hn|Hn].
      * rewrite !app_nth1 by lia. exact X3.
      * rewrite !app_nth2 by lia. rewrite La, (nth_overflow (map (exponent 1%nat) reqs)) by lia. ring.
Qed.

Lemma bd_published_again (pk pk' : bd_pk C) msk msk' reqs apks : bd_published pk msk reqs apks ->
  exists apks', bd_published pk' msk' reqs apks'.
Proof.
  induction 1 as [|[[n t] a] k reqs apks (au & j & Ha & Hk) _ (apks' & IH)]; [exists []; constructor|]. cbn [fst snd] in *.
  destruct (bd_authgen pk' msk' n t 0%nat) as [[au' j']| |] eqn:Ha'; try discriminate.
  pose proof Ha' as En'. apply bd_authgen_eq in En' as (_ & En' & _). apply bd_authgen_eq in Ha as (_ & En & _).
  assert (Hk' : exists k', bd_request_pk pk' au' a = Ok k').
  { unfold bd_request_pk, sha3_hash_fr in *. rewrite En in Hk. rewrite En'. destruct (from_authority a n); [|discriminate].
    destruct (hash C a); [|discriminate]. destruct (hash C n); [|discriminate]. cbn. eauto. }
  destruct Hk' as (k' & Hk'). exists (k' :: apks'). constructor; [|exact IH]. exists au', j'. auto.
Qed.

(** When no conjunction cancels out, every combination fails in some run with the same authorities. *)
Theorem bd_no_outsider nonce pol lang data f reqs (e : combT C) (ts0 te0 : nat -> F) pk0 msk0 i0 apks0 ct0 j0 :
  parse pol lang = Ok (tree f) -> flat f = true ->
  bd_setup ts0 0%nat = Ok (pk0, msk0, i0) -> bd_published pk0 msk0 reqs apks0 ->
  bd_encrypt nonce pk0 apks0 pol lang data te0 0%nat = Ok (ct0, j0) ->
  ts0 0%nat <> 0 -> ts0 1%nat <> 0 -> (forall t, In t (bct_j ct0) -> bt_e4 t <> g1zero C) ->
  exists (ts te : nat -> F) pk msk i apks ct j, ts 0%nat <> 0 /\ ts 1%nat <> 0 /\
    bd_setup ts 0%nat = Ok (pk, msk, i) /\ bd_published pk msk reqs apks /\
    bd_encrypt nonce pk apks pol lang data te 0%nat = Ok (ct, j) /\
    evalT (bd_view pk apks ct) e <> payload (te 0%nat * te 1%nat).
Proof.
  intros P Fl Hs Hp He N0 N1 NZ. destruct (bd_outsider nonce pol lang data reqs e) as (x & X).
  destruct (two_values L x) as (rho & Nr).
  set (te := fun n : nat => match n with
    | S (S k) => match nth_error (bct_j ct0) k with Some t => ts0 0%nat * rho * te0 (S (S k)) * finv C (log1 L (bt_e4 t)) | None => 0 end
    | _ => 1 end).
  destruct (bd_encrypt_runs nonce pk0 apks0 pol lang data f te 0%nat P Fl) as (ct & j & Hc).
  destruct (two_values L (ts0 4%nat)) as (y' & Ny).
  destruct (bd_setup (put ts0 4%nat y') 0%nat) as [[[pk' msk'] i']| |] eqn:Hs'; try discriminate.
  destruct (bd_published_again pk0 pk' msk0 msk' reqs apks0 Hp) as (apks' & Hp').
  set (te' := put te 1%nat (te 1%nat - (y' - ts0 4%nat) * (ts0 0%nat * ts0 1%nat) * rho * finv C (te 0%nat))).
  destruct (bd_encrypt_runs nonce pk' apks' pol lang data f te' 0%nat P Fl) as (ct' & j' & Hc').
  assert (O : (1 : F) <> 0) by exact (one_neq_zero L).
  assert (R : forall t, In t (bct_j ct) -> bt_e4 t = g1mul C (bpk_g1 pk0) rho).
  { intros t I. apply In_nth_error in I as (k & Hk).
    apply bd_setup_eq in Hs as (_ & _ & G1 & _).
    destruct (bd_encrypt_eq _ _ _ _ _ _ _ _ _ _ He) as (v & T & m & Pv & _ & HT & _ & _ & _ & _ & Ll & N).
    destruct (bd_encrypt_eq _ _ _ _ _ _ _ _ _ _ Hc) as (v' & T' & m' & Pv' & _ & HT' & _ & _ & _ & _ & Ll' & N').
    rewrite Pv in Pv'. injection Pv' as <-. rewrite HT in HT'. injection HT' as <-.
    destruct (nth_error_len (bct_j ct) T k t Ll' Hk) as (tm & Htm). rewrite (N' k tm Htm) in Hk. injection Hk as <-.
    pose proof (N k tm Htm) as H0. apply (log1_inj L). cbn [bt_e4].
    cbn [Nat.add] in *. try unfold te. cbn [Nat.add]. rewrite H0, G1. cbn [bt_e4]. logs.
    assert (Z : log1 L (tm_g1 tm) * te0 (S (S k)) <> 0).
    { intros Z. apply (NZ _ (nth_error_In _ _ H0)). cbn [bt_e4]. apply (log1_inj L). logs. exact Z. }
    field. split; intros Y; apply Z; rewrite Y; ring. }
  destruct (gt_dec L (evalT (bd_view pk0 apks0 ct) e) (payload (te 0%nat * te 1%nat))) as [E|E].
  - exists (put ts0 4%nat y'), te', pk', msk', i', apks', ct', j'. do 5 (split; [assumption|]).
    exact (X ts0 te y' rho _ _ _ _ _ _ _ _ _ _ _ _ Hs Hp Hc Hs' Hp' Hc' N0 N1 O Ny R Nr E).
  - exists ts0, te, pk0, msk0, i0, apks0, ct, j. do 5 (split; [assumption|]). exact E.
Qed.

(** ** MKE08 *)

Lemma mk_published_at (pk : mk_pk C) reqs apks : mk_published pk reqs apks ->
  Forall2 (fun r k => k = MkApk (snd r) (g1mul C (mpk_g1 pk) (exponent 0%nat r)) (g2mul C (mpk_g2 pk) (exponent 0%nat r))
    (gtpow C (mpk_egg1 pk) (exponent 0%nat r)) (gtpow C (mpk_egg2 pk) (exponent 0%nat r))) reqs apks.
Proof.
  apply Forall2_impl. intros [[n t] a] k (au & j & Ha & Hk). cbn [fst snd] in *.
  apply mk_authgen_eq in Ha as (_ & En & E3). unfold mk_request_pk, sha3_hash_fr in Hk. rewrite En, E3 in Hk.
  unfold exponent. cbn [fst snd]. destruct (from_authority a n); [|discriminate].
  destruct (hash C a); [|discriminate]. destruct (hash C n); [|discriminate]. cbn in Hk. injection Hk as <-. reflexivity.
Qed.

Theorem mk_outsider nonce pol lang data reqs (e : combT C) :
  exists x : F, forall (ts te : nat -> F) (y' rho : F) pk msk i apks ct j pk' msk' i' apks' ct' j',
  let te' := put te 2%nat (te 2%nat - (y' - ts 5%nat) * (ts 0%nat * ts 1%nat) * rho * finv C (te 0%nat * te 1%nat)) in
  mk_setup ts 0%nat = Ok (pk, msk, i) -> mk_published pk reqs apks ->
  mk_encrypt nonce pk apks pol lang data te 0%nat = Ok (ct, j) ->
  mk_setup (put ts 5%nat y') 0%nat = Ok (pk', msk', i') -> mk_published pk' reqs apks' ->
  mk_encrypt nonce pk' apks' pol lang data te' 0%nat = Ok (ct', j') ->
  ts 0%nat <> 0 -> ts 1%nat <> 0 -> te 0%nat <> 0 -> te 1%nat <> 0 -> y' <> ts 5%nat ->
  (forall t, In t (mct_e ct) -> mj_5 t = g1mul C (mpk_g1 pk) rho) -> rho <> x ->
  evalT (mk_view pk apks ct) e = payload (te 0%nat * te 1%nat * (1 + te 2%nat)) ->
  evalT (mk_view pk' apks' ct') e <> payload (te' 0%nat * te' 1%nat * (1 + te' 2%nat)).
Proof.
  exists (- drift e (key_change 0%nat reqs)).
  intros ts te y' rho pk msk i apks ct j pk' msk' i' apks' ct' j' te' Hs Hp He Hs' Hp' He' N0 N1 Nt Nt1 Ny Hr Nx E E'.
  apply mk_setup_eq in Hs as (_ & G1 & G2 & P1 & P2 & Ef & Eg & _).
  apply mk_setup_eq in Hs' as (_ & G1' & G2' & P1' & P2' & Ef' & Eg' & _).
  assert (Q1 : mpk_g1 pk' = mpk_g1 pk) by (rewrite G1, G1'; reflexivity).
  assert (Q2 : mpk_g2 pk' = mpk_g2 pk) by (rewrite G2, G2'; reflexivity).
  assert (Q3 : mpk_p1 pk' = mpk_p1 pk) by (rewrite P1, P1'; reflexivity).
  assert (Q4 : mpk_p2 pk' = mpk_p2 pk) by (rewrite P2, P2'; reflexivity).
  assert (Q5 : mpk_egg1 pk' = mpk_egg1 pk) by (rewrite Ef, Ef', Q1, Q2; reflexivity).
  set (D := y' - ts 5%nat) in *. set (g := ts 0%nat * ts 1%nat) in *.
  assert (Lg : logT L (mpk_egg2 pk) = g * ts 5%nat) by (rewrite Eg, G1, G2; logs; cbn [Nat.add]; unfold g; ring).
  assert (Lg' : logT L (mpk_egg2 pk') = g * y').
  { rewrite Eg', G1', G2'. cbn [Nat.add]. rewrite put_same, !put_other by lia. logs. unfold g. ring. }
  apply mk_published_at in Hp, Hp'.
  assert (AM : Forall2 (pmove 0 (D * ts 1%nat)) (map mk_pak apks') (map mk_pak apks) /\
     map (@mapk_g1 C) apks' = map (@mapk_g1 C) apks /\ map (@mapk_g2 C) apks' = map (@mapk_g2 C) apks /\
     map (@mapk_gt1 C) apks' = map (@mapk_gt1 C) apks /\
     forall n, logT L (nth n (map (@mapk_gt2 C) apks') (gtone C)) - logT L (nth n (map (@mapk_gt2 C) apks) (gtone C)) =
       D * g * nth n (map (exponent 0%nat) reqs) 0).
  { clear - Hp Hp' Q1 Q2 Q5 Lg Lg' G1. revert apks' Hp'. induction Hp as [|r k reqs apks -> _ IH]; intros apks' Hp'.
    - inversion Hp'. repeat apply conj; try constructor. intros n. destruct n; cbn [map nth]; logs; ring.
    - inversion Hp' as [|? k' ? apks2 -> H2]; subst. destruct (IH _ H2) as (I1 & I2 & I3 & I5 & I4). cbn [map].
      rewrite Q1, Q2, Q5, I2, I3, I5. cbn [mapk_g1 mapk_g2 mapk_gt1]. repeat apply conj; try reflexivity.
      + constructor; [|exact I1]. unfold pmove, mk_pak. cbn [pak_attr pak_g1 pak_g2 pak_gt1 pak_gt2 mapk_attr mapk_g1 mapk_g2 mapk_gt1 mapk_gt2].
        repeat apply conj; try reflexivity; logs; rewrite ?Lg, ?Lg', ?G1; logs; cbn [Nat.add]; unfold D, g; ring.
      + intros [|n]; cbn [nth]; [|apply I4]. cbn [mapk_gt2]. logs. rewrite Lg, Lg'. unfold D. ring. }
  destruct AM as (AM & A1 & A2 & A4 & A3).
  destruct (mk_encrypt_eq _ _ _ _ _ _ _ _ _ _ He) as (v & T & m & m2 & Pv & _ & HT & -> & -> & _ & _ & _ & Ll & N).
  destruct (mk_encrypt_eq _ _ _ _ _ _ _ _ _ _ He') as (v' & T' & m & m2 & Pv' & _ & HT' & -> & -> & _ & _ & _ & Ll' & N').
  rewrite Pv in Pv'. injection Pv' as <-. pose proof (json_tmove _ _ v _ _ _ _ AM HT' HT) as TM.
  assert (T0 : te' 0%nat = te 0%nat) by (unfold te'; apply put_other; lia).
  assert (T1 : te' 1%nat = te 1%nat) by (unfold te'; apply put_other; lia).
  assert (T2 : te' 2%nat = te 2%nat - D * g * rho * finv C (te 0%nat * te 1%nat)) by (unfold te'; apply put_same).
  assert (QJ : mct_e ct' = mct_e ct).
  { apply nth_ext_error; [rewrite Ll, Ll'; symmetry; exact (Forall2_long _ _ _ TM)|]. intros k t Hk.
    destruct (nth_error_len (mct_e ct) T k t Ll Hk) as (tm & Htm).
    destruct (nth_error_len T T' k tm) as (tm' & Htm'); [symmetry; exact (Forall2_long _ _ _ TM)|exact Htm|].
    destruct (Forall2_nth_error _ _ _ TM k tm' tm Htm' Htm) as (M1 & M2 & M3 & M4 & M5).
    pose proof (Hr t (nth_error_In _ _ Hk)) as R. pose proof (N k tm Htm) as X. rewrite Hk in X. injection X as ->. cbn [mj_5] in R.
    apply (f_equal (log1 L)) in R. rewrite G1 in R. revert R. logs. cbn [Nat.add]. intros R.
    rewrite (N' k tm' Htm'), M1, M2, M3, Q3, Q4. cbn [Nat.add].
    assert (Tk : te' (S (S (S k))) = te (S (S (S k)))) by (unfold te'; apply put_other; lia). rewrite Tk, T0, T1, T2.
    assert (E4 : tm_gt1 tm' = tm_gt1 tm) by (apply (logT_inj L); rewrite M4; ring). rewrite E4. do 2 f_equal.
    apply (logT_inj L). logs. cbn [Nat.add]. rewrite M5.
    transitivity (logT L (tm_gt2 tm) * te (S (S (S k))) + D * ts 1%nat * (log1 L (tm_g1 tm) * te (S (S (S k)))) + te 0%nat * te 1%nat * te 2%nat - D * g * rho);
      [field; split; assumption|]. rewrite R. unfold g. ring. }
  pose proof (eval_drift L (mk_view pk apks ct) (mk_view pk' apks' ct') e) as X. unfold mk_view in X at 1 2 3 4. cbn [seen1 seen2] in X.
  rewrite Q1, Q2, Q3, Q4, A1, A2, QJ in X. specialize (X eq_refl eq_refl).
  rewrite (drift_ext e _ (fun n => (D * g) * key_change 0%nat reqs n)) in X.
  - rewrite (drift_scale L), E, E', !(log_payload L), T0, T1, T2 in X. apply Nx.
    assert (Z : (D * g) * (rho + drift e (key_change 0%nat reqs)) = 0).
    { transitivity (te 0%nat * te 1%nat * (1 + te 2%nat) + D * g * drift e (key_change 0%nat reqs)
        - te 0%nat * te 1%nat * (1 + (te 2%nat - D * g * rho * finv C (te 0%nat * te 1%nat)))).
      - field. split; assumption.
      - rewrite X. ring. }
    apply (mul_zero L) in Z.
    + transitivity (rho + drift e (key_change 0%nat reqs) - drift e (key_change 0%nat reqs)); [ring|rewrite Z; ring].
    + apply (mul_neq L); [apply (minus_neq L); exact Ny|now apply (mul_neq L)].
  - intros n. cbn [mk_view seenT]. rewrite QJ, Q5, A4. unfold key_change. destruct n as [|n]; cbn [nth].
    + rewrite Lg, Lg'. unfold D. ring.
    + pose proof (A3 n) as X3.
      assert (La : length (map (@mapk_gt2 C) apks') = length (map (@mapk_gt2 C) apks)).
      { rewrite !map_length. pose proof (f_equal (@length _) A1) as Y. now rewrite !map_length in Y. }
      assert (Lb : length (map (@mapk_gt2 C) apks) = length (map (exponent 0%nat) reqs)).
      { rewrite !map_length. symmetry. exact (Forall2_long _ _ _ Hp). }
      destruct (Nat.lt_ge_cases n (length (map (@mapk_gt2 C) apks))) as [Hn|Hn].
      * rewrite !app_nth1 by lia. exact X3.
      * rewrite !app_nth2 by lia. rewrite La, (nth_overflow (map (exponent 0%nat) reqs)) by lia. ring.
Qed.

Lemma mk_published_again (pk pk' : mk_pk C) reqs apks : mk_published pk reqs apks ->
  exists apks', mk_published pk' reqs apks'.
Proof.
  induction 1 as [|[[n t] a] k reqs apks (au & j & Ha & Hk) _ (apks' & IH)]; [exists []; constructor|]. cbn [fst snd] in *.
  assert (Hk' : exists k', mk_request_pk pk' a au = Ok k').
  { unfold mk_request_pk, sha3_hash_fr in *. destruct (from_authority a (mau_name au)); [|discriminate].
    destruct (hash C a); [|discriminate]. destruct (hash C (mau_name au)); [|discriminate]. cbn. eauto. }
  destruct Hk' as (k' & Hk'). exists (k' :: apks'). constructor; [|exact IH]. exists au, j. auto.
Qed.

Theorem mk_no_outsider nonce pol lang data f reqs (e : combT C) (ts0 te0 : nat -> F) pk0 msk0 i0 apks0 ct0 j0 :
  parse pol lang = Ok (tree f) -> flat f = true ->
  mk_setup ts0 0%nat = Ok (pk0, msk0, i0) -> mk_published pk0 reqs apks0 ->
  mk_encrypt nonce pk0 apks0 pol lang data te0 0%nat = Ok (ct0, j0) ->
  ts0 0%nat <> 0 -> ts0 1%nat <> 0 -> (forall t, In t (mct_e ct0) -> mj_5 t <> g1zero C) ->
  exists (ts te : nat -> F) pk msk i apks ct j, ts 0%nat <> 0 /\ ts 1%nat <> 0 /\
    mk_setup ts 0%nat = Ok (pk, msk, i) /\ mk_published pk reqs apks /\
    mk_encrypt nonce pk apks pol lang data te 0%nat = Ok (ct, j) /\
    evalT (mk_view pk apks ct) e <> payload (te 0%nat * te 1%nat * (1 + te 2%nat)).
Proof.
  intros P Fl Hs Hp He N0 N1 NZ. destruct (mk_outsider nonce pol lang data reqs e) as (x & X).
  destruct (two_values L x) as (rho & Nr).
  set (te := fun n : nat => match n with
    | S (S (S k)) => match nth_error (mct_e ct0) k with Some t => ts0 0%nat * rho * te0 (S (S (S k))) * finv C (log1 L (mj_5 t)) | None => 0 end
    | _ => 1 end).
  destruct (mk_encrypt_runs nonce pk0 apks0 pol lang data f te 0%nat P Fl) as (ct & j & Hc).
  destruct (two_values L (ts0 5%nat)) as (y' & Ny).
  destruct (mk_setup (put ts0 5%nat y') 0%nat) as [[[pk' msk'] i']| |] eqn:Hs'; try discriminate.
  destruct (mk_published_again pk0 pk' reqs apks0 Hp) as (apks' & Hp').
  set (te' := put te 2%nat (te 2%nat - (y' - ts0 5%nat) * (ts0 0%nat * ts0 1%nat) * rho * finv C (te 0%nat * te 1%nat))).
  destruct (mk_encrypt_runs nonce pk' apks' pol lang data f te' 0%nat P Fl) as (ct' & j' & Hc').
  assert (O : (1 : F) <> 0) by exact (one_neq_zero L).
  assert (R : forall t, In t (mct_e ct) -> mj_5 t = g1mul C (mpk_g1 pk0) rho).
  { intros t I. apply In_nth_error in I as (k & Hk).
    apply mk_setup_eq in Hs as (_ & G1 & _).
    destruct (mk_encrypt_eq _ _ _ _ _ _ _ _ _ _ He) as (v & T & m & m2 & Pv & _ & HT & _ & _ & _ & _ & _ & Ll & N).
    destruct (mk_encrypt_eq _ _ _ _ _ _ _ _ _ _ Hc) as (v' & T' & m' & m2' & Pv' & _ & HT' & _ & _ & _ & _ & _ & Ll' & N').
    rewrite Pv in Pv'. injection Pv' as <-. rewrite HT in HT'. injection HT' as <-.
    destruct (nth_error_len (mct_e ct) T k t Ll' Hk) as (tm & Htm). rewrite (N' k tm Htm) in Hk. injection Hk as <-.
    pose proof (N k tm Htm) as H0. apply (log1_inj L). cbn [mj_5].
    cbn [Nat.add] in *. try unfold te. cbn [Nat.add]. rewrite H0, G1. cbn [mj_5]. logs.
    assert (Z : log1 L (tm_g1 tm) * te0 (S (S (S k))) <> 0).
    { intros Z. apply (NZ _ (nth_error_In _ _ H0)). cbn [mj_5]. apply (log1_inj L). logs. exact Z. }
    field. split; intros Y; apply Z; rewrite Y; ring. }
  destruct (gt_dec L (evalT (mk_view pk0 apks0 ct) e) (payload (te 0%nat * te 1%nat * (1 + te 2%nat)))) as [E|E].
  - exists (put ts0 5%nat y'), te', pk', msk', i', apks', ct', j'. do 5 (split; [assumption|]).
    exact (X ts0 te y' rho _ _ _ _ _ _ _ _ _ _ _ _ Hs Hp Hc Hs' Hp' Hc' N0 N1 O O Ny R Nr E).
  - exists ts0, te, pk0, msk0, i0, apks0, ct, j. do 5 (split; [assumption|]). exact E.
Qed.

End GenericDnfProofs.
