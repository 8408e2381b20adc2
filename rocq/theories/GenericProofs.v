(** * GenericProofs: an outsider's combinations do not give the payload key *)
From Coq Require Import String Ascii List Bool Arith Lia Field.
From Verif Require Import Base Crypto Policy Tools Sharing Spec PolicyProofs Poly SharingProofs
  Symmetric Parse SchemeLib Dnf Bdabe Mke08 Bsw BswProofs Ghw11 Ghw11Proofs Lsw LswProofs Yct14 Yct14Proofs Msp Ac17 Ac17Proofs Aw11
  EquationProofs AcEquationProofs RobustProofs Aw11Proofs TruncationProofs SessionProofs Generic Views.
Import ListNotations.

Section GenericProofs.
Context {C : crypto} (L : laws C).
Local Open Scope F_scope.
Add Field generic_field : (f_theory L).
Notation F := (F C).
Ltac logs := log_simpl L.

(** ** Moving elements of [Gt] *)

(** How the value of a combination changes when the seen elements of [Gt] change by [d]. *)
Fixpoint drift (e : combT C) (d : nat -> F) : F :=
  match e with
  | SeenT n => d n
  | Pair _ _ => 0
  | MulT a b => drift a d + drift b d
  | InvT a => - drift a d
  | PowT a x => drift a d * x
  end.

Lemma eval1_same v v' e : seen1 v' = seen1 v -> eval1 (C := C) v' e = eval1 v e.
Proof. intros H. induction e; cbn; congruence. Qed.
Lemma eval2_same v v' e : seen2 v' = seen2 v -> eval2 (C := C) v' e = eval2 v e.
Proof. intros H. induction e; cbn; congruence. Qed.

Lemma drift_ext e d d' : (forall n, d n = d' n) -> drift e d = drift e d'.
Proof. intros H. induction e; cbn; congruence. Qed.
Lemma drift_scale e x d : drift e (fun n => x * d n) = x * drift e d.
Proof. induction e; cbn; rewrite ?IHe, ?IHe1, ?IHe2; ring. Qed.
Lemma drift_add e d d' : drift e (fun n => d n + d' n) = drift e d + drift e d'.
Proof. induction e; cbn; rewrite ?IHe, ?IHe1, ?IHe2; ring. Qed.

Lemma eval_drift v v' e : seen1 v' = seen1 v -> seen2 v' = seen2 v ->
  logT L (evalT v' e) = logT L (evalT v e) +
    drift e (fun n => logT L (nth n (seenT v') (gtone C)) - logT L (nth n (seenT v) (gtone C))).
Proof.
  intros H1 H2. induction e; cbn [evalT drift]; logs; rewrite ?IHe, ?IHe1, ?IHe2;
    rewrite ?(eval1_same v v' _ H1), ?(eval2_same v v' _ H2); ring.
Qed.

(** One seen element moves. *)
Definition unit_at (n k : nat) : F := if (k =? n)%nat then 1 else 0.

Lemma one_moves v v' e a x x' b : seen1 v' = seen1 v -> seen2 v' = seen2 v ->
  seenT v = a ++ x :: b -> seenT v' = a ++ x' :: b ->
  logT L (evalT v' e) = logT L (evalT v e) + (logT L x' - logT L x) * drift e (unit_at (length a)).
Proof.
  intros H1 H2 HT HT'. rewrite (eval_drift v v' e H1 H2), HT, HT', <- drift_scale. f_equal.
  apply drift_ext. intros n. unfold unit_at. destruct (Nat.eqb_spec n (length a)) as [->|N].
  - rewrite !app_nth2, Nat.sub_diag by lia. cbn. ring.
  - destruct (Nat.lt_ge_cases n (length a)) as [Hl|Hl].
    + rewrite !app_nth1 by lia. ring.
    + rewrite !app_nth2 by lia. destruct (n - length a)%nat eqn:Q; [lia|]. cbn. ring.
Qed.

Lemma put_same t n (x : F) : put t n x n = x.
Proof. unfold put. now rewrite Nat.eqb_refl. Qed.
Lemma put_other t n (x : F) k : k <> n -> put t n x k = t k.
Proof. intros H. unfold put. now rewrite (proj2 (Nat.eqb_neq k n) H). Qed.

Lemma gsh_put f : forall s t i n (x : F), n < i -> gsh f s (put t n x) i = gsh f s t i.
Proof.
  assert (S1 : forall (t : nat -> F) m i n x, n < i -> map (put t n x) (seq i m) = map t (seq i m)).
  { intros t m i n x Hn. apply map_ext_in. intros k Hk. apply in_seq in Hk. apply put_other. lia. }
  induction f as [a p|l IH|l IH] using formula_ind'; intros s t i n x Hn.
  - reflexivity.
  - rewrite !gsh_FAnd, S1 by exact Hn. generalize (s :: map t (seq i (length l - 1))). intros c.
    assert (Hk : n < i + (length l - 1)) by lia. revert Hk. generalize (i + (length l - 1))%nat. generalize 1%nat.
    clear i Hn. induction IH as [|g l H _ IHl]; intros y i Hn; [reflexivity|].
    cbn [gsh_and]. rewrite H by exact Hn. f_equal. apply IHl. lia.
  - rewrite !gsh_FOr. revert i Hn.
    induction IH as [|g l H _ IHl]; intros i Hn; [reflexivity|].
    cbn [gsh_or]. rewrite H by exact Hn. f_equal. apply IHl. lia.
Qed.

Lemma dealt_put (t : nat -> F) n x f s i sh j sh' j' : n < i -> dealt t f s i sh j -> dealt (put t n x) f s i sh' j' ->
  sh' = sh /\ j' = j.
Proof.
  intros Hn H H'. apply (dealt_unique (C := C)) in H as [-> ->]. apply (dealt_unique (C := C)) in H' as [-> ->].
  split; [apply gsh_put; exact Hn|reflexivity].
Qed.

Lemma nth_ext_error {A} (l l' : list A) : length l = length l' ->
  (forall k x, nth_error l k = Some x -> nth_error l' k = Some x) -> l' = l.
Proof.
  revert l'. induction l as [|a l IH]; intros [|b l'] E H; try discriminate; [reflexivity|].
  f_equal.
  - specialize (H 0%nat a eq_refl). cbn in H. congruence.
  - apply IH; [cbn in E; lia|]. intros k x Hk. exact (H (S k) x Hk).
Qed.

Lemma nth_error_len {A B} (l : list A) (l' : list B) k x : length l = length l' -> nth_error l k = Some x ->
  exists y, nth_error l' k = Some y.
Proof.
  intros E H. assert (H' : (k < length l')%nat) by (rewrite <- E; apply nth_error_Some; congruence).
  destruct (nth_error l' k) as [y|] eqn:Q; [eauto|]. apply nth_error_None in Q. lia.
Qed.

Lemma Forall2_at {A B} (R : A -> B -> Prop) : forall l l', length l = length l' ->
  (forall k x y, nth_error l k = Some x -> nth_error l' k = Some y -> R x y) -> Forall2 R l l'.
Proof.
  induction l as [|a l IH]; intros [|b l'] E H; try discriminate; constructor.
  - exact (H 0%nat a b eq_refl eq_refl).
  - apply IH; [cbn in E; lia|]. intros k x y Hx Hy. exact (H (S k) x y Hx Hy).
Qed.

Lemma nth_error_combine' {A B} : forall (l : list A) (m : list B) k x y, nth_error l k = Some x -> nth_error m k = Some y ->
  nth_error (combine l m) k = Some (x, y).
Proof. induction l as [|a l IH]; intros [|b m] [|k] x y Hx Hy; try discriminate; cbn in *; [congruence|auto]. Qed.

Lemma nth_error_combine_inv {A B} : forall (l : list A) (m : list B) k x y, nth_error (combine l m) k = Some (x, y) ->
  nth_error l k = Some x /\ nth_error m k = Some y.
Proof. induction l as [|a l IH]; intros [|b m] [|k] x y H; try discriminate; cbn in *; [injection H as -> ->; auto|auto]. Qed.

Lemma Forall2_nth_error {A B} (R : A -> B -> Prop) l l' : Forall2 R l l' ->
  forall k x y, nth_error l k = Some x -> nth_error l' k = Some y -> R x y.
Proof. induction 1 as [|a b l l' H _ IH]; intros [|k] x y Hx Hy; try discriminate; cbn in *; [congruence|eauto]. Qed.

Lemma log_payload x : logT L (payload x) = x.
Proof. unfold payload. logs. ring. Qed.

Lemma mul_zero (a b : F) : a * b = 0 -> a <> 0 -> b = 0.
Proof. intros H N. transitivity (finv C a * (a * b)); [field; exact N|rewrite H; ring]. Qed.

Lemma minus_neq (a b : F) : a <> b -> a - b <> 0.
Proof. intros N H. apply N. transitivity (a - b + b); [ring|rewrite H; ring]. Qed.

(** If the one element of the public key that moves is [e(g,g)^alpha] and the payload key moves by the
    same amount times [- s], then [s] is a value fixed by the combination. *)
Lemma masked e (v v' : view C) a x x' b (s m m' : F) :
  seen1 v' = seen1 v -> seen2 v' = seen2 v -> seenT v = a ++ x :: b -> seenT v' = a ++ x' :: b ->
  x' <> x -> m' = m - (logT L x' - logT L x) * s ->
  evalT v e = payload m -> evalT v' e = payload m' -> s = - drift e (unit_at (length a)).
Proof.
  intros H1 H2 HT HT' N Em E E'. pose proof (one_moves v v' e a x x' b H1 H2 HT HT') as X.
  rewrite E, E', !log_payload, Em in X.
  assert (Z : (logT L x' - logT L x) * (s + drift e (unit_at (length a))) = 0).
  { transitivity (m - (m - (logT L x' - logT L x) * s) + (logT L x' - logT L x) * drift e (unit_at (length a))); [ring|rewrite X; ring]. }
  apply mul_zero in Z; [transitivity (s + drift e (unit_at (length a)) - drift e (unit_at (length a))); [ring|rewrite Z; ring]|].
  apply minus_neq. intros Q. apply N. now apply (logT_inj L).
Qed.

Lemma pow_neq g (a b : F) : logT L g <> 0 -> a <> b -> gtpow C g a <> gtpow C g b.
Proof.
  intros Ng N H. apply (f_equal (logT L)) in H. revert H. logs. intros H. apply N.
  assert (Z : logT L g * (a - b) = 0) by (transitivity (logT L g * a - logT L g * b); [ring|rewrite H; ring]).
  apply mul_zero in Z; [|exact Ng]. transitivity (a - b + b); [ring|rewrite Z; ring].
Qed.

Lemma mul_neq (a b : F) : a <> 0 -> b <> 0 -> a * b <> 0.
Proof. intros Na Nb H. apply Nb, (mul_zero a); auto. Qed.

(** ** BSW *)

Theorem bsw_outsider nonce pol lang data f (e : combT C) : parse pol lang = Ok (tree f) ->
  exists x : F, forall (ts te : nat -> F) a pk msk i ct j pk' msk' i' ct' j',
  let m := te 1%nat in
  let m' := te 1%nat + (ts 3%nat - a) * te 0%nat * (ts 0%nat * ts 1%nat) in
  bsw_setup ts 0%nat = Ok (pk, msk, i) -> bsw_encrypt nonce pk pol lang data te 0%nat = Ok (ct, j) ->
  bsw_setup (put ts 3%nat a) 0%nat = Ok (pk', msk', i') ->
  bsw_encrypt nonce pk' pol lang data (put te 1%nat m') 0%nat = Ok (ct', j') ->
  ts 0%nat <> 0 -> ts 1%nat <> 0 -> a <> ts 3%nat -> te 0%nat <> x ->
  evalT (bsw_view pk ct) e = payload m -> evalT (bsw_view pk' ct') e <> payload m'.
Proof.
  intros P. exists (- drift e (unit_at 0%nat)). intros ts te a pk msk i ct j pk' msk' i' ct' j' m m' Hs He Hs' He' N1 N2 Na Nx E E'.
  apply (bsw_setup_eq L) in Hs as (Nb & _ & Eg1 & Eg2 & Eb & Eh & Ef & _ & Egg).
  apply (bsw_setup_eq L) in Hs' as (_ & _ & Eg1' & Eg2' & Eb' & Eh' & Ef' & _ & Egg').
  destruct (bsw_encrypt_eq L _ _ _ _ _ _ _ _ _ _ P He) as (sh & mm & -> & D & _ & Ec & Ep & _ & Ln & N).
  destruct (bsw_encrypt_eq L _ _ _ _ _ _ _ _ _ _ P He') as (sh' & mm & -> & D' & _ & Ec' & Ep' & _ & Ln' & N').
  cbn [Nat.add] in *. rewrite put_other in Eg1', Eg2', Eb', Ec', Ep', D' by discriminate. rewrite put_same in Egg', Ep'.
  destruct (dealt_put _ _ _ _ _ _ _ _ _ _ (le_n 2) D D') as [-> _].
  assert (Q1 : bpk_g1 pk' = bpk_g1 pk) by congruence.
  assert (Q2 : bpk_g2 pk' = bpk_g2 pk) by congruence.
  assert (Q3 : bpk_h pk' = bpk_h pk) by congruence.
  assert (Q4 : bpk_f pk' = bpk_f pk).
  { apply (log2_inj L). rewrite Q2, <- Ef, Eb, Eb' in Ef'. apply (f_equal (log2 L)) in Ef'. revert Ef'. logs. intros X.
    transitivity (log2 L (bpk_f pk') * ts 2%nat * finv C (ts 2%nat)); [field; exact Nb|]. rewrite X. field. exact Nb. }
  assert (Q5 : bct_c ct' = bct_c ct) by congruence.
  assert (Q6 : bct_cy ct' = bct_cy ct).
  { apply nth_ext_error; [congruence|]. intros k x Hk. destruct (nth_error_len _ _ _ _ Ln Hk) as ([n y] & Hy).
    destruct (N _ _ _ Hy) as (h & Hh & K). destruct (N' _ _ _ Hy) as (h' & Hh' & K'). rewrite K', Q1, Q2. congruence. }
  assert (Z : logT L (pairing C (bpk_g1 pk) (bpk_g2 pk)) = ts 0%nat * ts 1%nat) by (rewrite Eg1, Eg2; logs; ring).
  assert (Q7 : bct_cp ct' = bct_cp ct).
  { apply (logT_inj L). rewrite Ep, Ep', Egg, Egg', Q1, Q2. unfold m'. logs. rewrite (logT_pairing L) in Z. rewrite Z. ring. }
  apply Nx. apply (masked e (bsw_view pk ct) (bsw_view pk' ct') [] (bpk_egg pk) (bpk_egg pk') [bct_cp ct] (te 0%nat) m m').
  - cbn. congruence.
  - cbn. congruence.
  - reflexivity.
  - cbn. congruence.
  - rewrite Egg, Egg', Q1, Q2. apply pow_neq; [rewrite Z; now apply mul_neq|exact Na].
  - rewrite Egg, Egg', Q1, Q2, !(logT_pow L), Z. unfold m, m'. ring.
  - exact E.
  - exact E'.
Qed.

Lemma gt_dec (a b : GT C) : a = b \/ a <> b.
Proof.
  destruct (feqb C (logT L a) (logT L b)) eqn:E.
  - left. apply (logT_inj L). now apply (feqb_eq L).
  - right. intros ->. rewrite (proj2 (feqb_eq L _ _) eq_refl) in E. discriminate.
Qed.

Lemma two_values (x : F) : exists y, y <> x.
Proof.
  destruct (feqb C x 0) eqn:E.
  - exists 1. apply (feqb_eq L) in E as ->. exact (F_1_neq_0 (f_theory L)).
  - exists 0. intros <-. rewrite (proj2 (feqb_eq L 0 0) eq_refl) in E. discriminate.
Qed.

Lemma one_neq_zero : (1 : F) <> 0.
Proof. exact (F_1_neq_0 (f_theory L)). Qed.

(** No combination gives the payload key on all runs. *)
Theorem bsw_no_outsider nonce pol lang data f (e : combT C) : parse pol lang = Ok (tree f) -> hash_total (C := C) ->
  exists (ts te : nat -> F) pk msk i ct j, ts 0%nat <> 0 /\ ts 1%nat <> 0 /\
    bsw_setup ts 0%nat = Ok (pk, msk, i) /\ bsw_encrypt nonce pk pol lang data te 0%nat = Ok (ct, j) /\
    evalT (bsw_view pk ct) e <> payload (te 1%nat).
Proof.
  intros P HT. destruct (bsw_outsider nonce pol lang data f e P) as (x & X).
  destruct (two_values x) as (s & Ns).
  set (ts := fun _ : nat => 1 : F). set (te := fun _ : nat => s).
  assert (N : forall n, ts n <> 0) by (intros n; exact one_neq_zero).
  destruct (bsw_setup_runs L ts 0%nat (N _)) as (pk & msk & Hs).
  destruct (bsw_encrypt_runs L nonce pk pol lang data f te 0%nat P HT) as (ct & j & He).
  destruct (bsw_setup_runs L (put ts 3%nat 0) 0%nat (N _)) as (pk' & msk' & Hs').
  set (te' := put te 1%nat (te 1%nat + (ts 3%nat - 0) * te 0%nat * (ts 0%nat * ts 1%nat))).
  destruct (bsw_encrypt_runs L nonce pk' pol lang data f te' 0%nat P HT) as (ct' & j' & He').
  destruct (gt_dec (evalT (bsw_view pk ct) e) (payload (te 1%nat))) as [E|E].
  - exists (put ts 3%nat 0), te', pk', msk', 4%nat, ct', j'. do 2 (split; [exact (N 0%nat)|]).
    split; [exact Hs'|]. split; [exact He'|]. unfold te' at 1. rewrite put_same.
    refine (X ts te 0 _ _ _ _ _ _ _ _ _ _ Hs He Hs' He' (N _) (N _) _ Ns E). apply not_eq_sym, one_neq_zero.
  - exists ts, te, pk, msk, 4%nat, ct, j. do 2 (split; [exact (N 0%nat)|]). auto.
Qed.

(** ** GHW11 *)

Lemma g2mul_cancel a b (z : F) : z <> 0 -> g2mul C a z = g2mul C b z -> a = b.
Proof.
  intros N H. apply (f_equal (log2 L)) in H. revert H. logs. intros H. apply (log2_inj L).
  transitivity (log2 L a * z * finv C z); [field; exact N|]. rewrite H. field. exact N.
Qed.

Lemma attrs_cancel : forall (l l' : list (string * G2 C)) (z z' c : F), z <> 0 -> c <> 0 -> z' = c * z ->
  Forall2 (fun x y => fst x = fst y /\ g2mul C (snd x) z' = g2mul C (g2mul C (snd y) z) c) l' l -> l' = l.
Proof.
  intros l l' z z' c Nz Nc ->. induction 1 as [|[n x] [n' y] l' l (En & Ex) _ IH]; [reflexivity|].
  cbn in En, Ex. subst n'. rewrite IH. do 2 f_equal. apply (g2mul_cancel _ _ (c * z)); [now apply mul_neq|].
  rewrite Ex. apply (log2_inj L). logs. ring.
Qed.

Lemma outsourced_same ts a pk msk i pk' msk' i' users tks tks' :
  ghw_setup ts 0%nat = Ok (pk, msk, i) -> ghw_setup (put ts 3%nat a) 0%nat = Ok (pk', msk', i') ->
  ts 3%nat <> 0 -> a <> 0 ->
  outsourced pk msk users tks -> outsourced pk' msk' (scaled (a * finv C (ts 3%nat)) users) tks' -> tks' = tks.
Proof.
  intros Hs Hs' N0 Na O O'. set (c := a * finv C (ts 3%nat)) in *.
  assert (Nc : c <> 0).
  { intros X. apply Na. transitivity (c * ts 3%nat); [unfold c; field; exact N0|rewrite X; ring]. }
  apply ghw_setup_eq in Hs as (_ & _ & Eg1 & Eg2 & _ & Ea & El & _).
  apply ghw_setup_eq in Hs' as (_ & _ & Eg1' & Eg2' & _ & Ea' & El' & _).
  cbn [Nat.add] in *. rewrite put_other in Eg1', Eg2', Ea' by discriminate. rewrite put_same in El'.
  assert (Q2 : gpk_g2 pk' = gpk_g2 pk) by congruence.
  assert (Q3 : gpk_g2a pk' = gpk_g2a pk) by congruence.
  revert tks' O'. induction O as [|[at_ u] tk users tks (sk & z & Hk & Ht) _ IH]; intros tks' O'.
  - inversion O'. reflexivity.
  - inversion O' as [|? tk' ? tks2 (sk' & z' & Hk' & Ht') O2]; subst. cbn [fst snd] in *. f_equal; [|exact (IH _ O2)].
    apply ghw_keygen_eq in Hk as (_ & Kk & Kl & Ln & KN). apply ghw_keygen_eq in Hk' as (_ & Kk' & Kl' & Ln' & KN').
    apply (ghw_tkgen_eq L) in Ht as (Ez & Nz & _ & Tk & Tl & Tx). apply (ghw_tkgen_eq L) in Ht' as (Ez' & Nz' & _ & Tk' & Tl' & Tx').
    assert (A : gsk_k sk' = g2mul C (gsk_k sk) c).
    { apply (log2_inj L). rewrite Kk, Kk', El, El', Q2, Q3. logs. unfold c. field. exact N0. }
    assert (B : gsk_l sk' = g2mul C (gsk_l sk) c).
    { apply (log2_inj L). rewrite Kl, Kl', Q2. logs. ring. }
    assert (Zc : z' = c * z) by congruence.
    assert (Nz2 : c * z <> 0) by now apply mul_neq.
    destruct tk as [k l x], tk' as [k' l' x']. cbn [gtk_k gtk_l gtk_attr] in *. f_equal.
    + apply (g2mul_cancel _ _ (c * z)); [exact Nz2|]. rewrite <- Zc, Tk', A, <- Tk. apply (log2_inj L). logs. rewrite Zc. ring.
    + apply (g2mul_cancel _ _ (c * z)); [exact Nz2|]. rewrite <- Zc, Tl', B, <- Tl. apply (log2_inj L). logs. rewrite Zc. ring.
    + apply (attrs_cancel _ _ z z' c); [exact Nz|exact Nc|exact Zc|].
      assert (G : Forall2 (fun (x y : string * G2 C) => fst x = fst y /\ snd x = g2mul C (snd y) c) (gsk_attr sk') (gsk_attr sk)).
      { apply Forall2_at; [congruence|]. intros q w y Hw Hy. destruct (nth_error_len _ _ _ _ Ln' Hw) as (nm & Hn).
        destruct (KN _ _ Hn) as (h & Hh & W). destruct (KN' _ _ Hn) as (h' & Hh' & W').
        assert (h' = h) by congruence. subst h'. rewrite W in Hy. rewrite W' in Hw. injection Hy as <-. injection Hw as <-.
        cbn [fst snd]. split; [reflexivity|]. apply (log2_inj L). rewrite Q2. logs. ring. }
      rewrite <- Tx, <- Tx' in G. clear - G. revert x' G. induction x as [|p x IH]; intros [|p' x'] G; inversion G; subst; constructor; auto.
Qed.

Theorem ghw_cloud nonce pol lang data f (e : combT C) : parse pol lang = Ok (tree f) ->
  exists x : F, forall (ts te : nat -> F) a users pk msk i ct j tks pk' msk' i' ct' j' tks',
  let m := te 1%nat in
  let m' := te 1%nat + (ts 3%nat - a) * te 0%nat * (ts 0%nat * ts 1%nat) in
  ghw_setup ts 0%nat = Ok (pk, msk, i) -> outsourced pk msk users tks ->
  ghw_encrypt nonce pk pol lang data te 0%nat = Ok (ct, j) ->
  ghw_setup (put ts 3%nat a) 0%nat = Ok (pk', msk', i') ->
  outsourced pk' msk' (scaled (a * finv C (ts 3%nat)) users) tks' ->
  ghw_encrypt nonce pk' pol lang data (put te 1%nat m') 0%nat = Ok (ct', j') ->
  ts 0%nat <> 0 -> ts 1%nat <> 0 -> ts 3%nat <> 0 -> a <> 0 -> a <> ts 3%nat -> te 0%nat <> x ->
  evalT (ghw_view pk ct tks) e = payload m -> evalT (ghw_view pk' ct' tks') e <> payload m'.
Proof.
  intros P. exists (- drift e (unit_at 0%nat)).
  intros ts te a users pk msk i ct j tks pk' msk' i' ct' j' tks' m m' Hs Ho He Hs' Ho' He' N1 N2 N3 N4 Na Nx E E'.
  pose proof (outsourced_same _ _ _ _ _ _ _ _ _ _ _ Hs Hs' N3 N4 Ho Ho') as ->.
  apply ghw_setup_eq in Hs as (_ & _ & Eg1 & Eg2 & Ea1 & Ea2 & _ & Egg).
  apply ghw_setup_eq in Hs' as (_ & _ & Eg1' & Eg2' & Ea1' & Ea2' & _ & Egg').
  destruct (ghw_encrypt_eq L _ _ _ _ _ _ _ _ _ _ P He) as (sh & i2 & mm & -> & D & _ & _ & Ec & Ep & _ & Ln & N).
  destruct (ghw_encrypt_eq L _ _ _ _ _ _ _ _ _ _ P He') as (sh' & i2' & mm & -> & D' & _ & _ & Ec' & Ep' & _ & Ln' & N').
  cbn [Nat.add] in *. rewrite put_other in Eg1', Eg2', Ea1', Ea2', Ec', Ep', D' by discriminate. rewrite put_same in Egg', Ep'.
  destruct (dealt_put _ _ _ _ _ _ _ _ _ _ (le_n 2) D D') as [-> ->].
  assert (I2 : (2 <= i2)%nat) by (apply (dealt_unique (C := C)) in D as [_ ->]; lia).
  assert (Q1 : gpk_g1 pk' = gpk_g1 pk) by congruence.
  assert (Q2 : gpk_g2 pk' = gpk_g2 pk) by congruence.
  assert (Q3 : gpk_g1a pk' = gpk_g1a pk) by congruence.
  assert (Q4 : gpk_g2a pk' = gpk_g2a pk) by congruence.
  assert (Q5 : gct_c1 ct' = gct_c1 ct) by congruence.
  assert (Q6 : gct_cidi ct' = gct_cidi ct).
  { apply nth_ext_error; [congruence|]. intros k x Hk. destruct (nth_error_len _ _ _ _ Ln Hk) as ([n y] & Hy).
    destruct (N _ _ _ Hy) as (h & Hh & K). destruct (N' _ _ _ Hy) as (h' & Hh' & K'). rewrite K', Q1, Q3.
    rewrite put_other by lia. congruence. }
  assert (Z : logT L (pairing C (gpk_g1 pk) (gpk_g2 pk)) = ts 0%nat * ts 1%nat) by (rewrite Eg1, Eg2; logs; ring).
  assert (Q7 : gct_c ct' = gct_c ct).
  { apply (logT_inj L). rewrite Ep, Ep', Egg, Egg', Q1, Q2. unfold m'. logs. rewrite (logT_pairing L) in Z. rewrite Z. ring. }
  apply Nx. apply (masked e (ghw_view pk ct tks) (ghw_view pk' ct' tks) [] (gpk_egg pk) (gpk_egg pk') [gct_c ct] (te 0%nat) m m').
  - cbn. congruence.
  - cbn. congruence.
  - reflexivity.
  - cbn. congruence.
  - rewrite Egg, Egg', Q1, Q2. apply pow_neq; [rewrite Z; now apply mul_neq|exact Na].
  - rewrite Egg, Egg', Q1, Q2, !(logT_pow L), Z. unfold m, m'. ring.
  - exact E.
  - exact E'.
Qed.

Lemma outsourced_runs (pk : ghw_pk C) msk users : hash_total (C := C) ->
  Forall (fun u : list string * (nat -> F) => fst u <> [] /\ snd u 1%nat <> 0) users ->
  exists tks, outsourced pk msk users tks.
Proof.
  intros HT. induction 1 as [|[at_ u] users (Na & Nz) _ (tks & IH)]; [exists []; constructor|]. cbn [fst snd] in *.
  destruct (ghw_keygen_runs pk msk at_ u 0%nat Na (fun a _ => HT a)) as (sk & j & Hk).
  pose proof (ghw_keygen_eq _ _ _ _ _ _ _ Hk) as (-> & _).
  destruct (ghw_tkgen_runs L sk u 1%nat Nz) as (tk & z & j & Ht).
  pose proof (proj1 (ghw_tkgen_eq L _ _ _ _ _ _) Ht) as (_ & _ & -> & _).
  exists (tk :: tks). constructor; [|exact IH]. exists sk, z. auto.
Qed.

Theorem ghw_no_cloud nonce pol lang data f (e : combT C) (attrs : list (list string)) :
  parse pol lang = Ok (tree f) -> hash_total (C := C) -> (1 + 1 : F) <> 0 -> ~ In [] attrs ->
  exists (ts te : nat -> F) users pk msk i ct j tks, ts 0%nat <> 0 /\ ts 1%nat <> 0 /\ map fst users = attrs /\
    ghw_setup ts 0%nat = Ok (pk, msk, i) /\ outsourced pk msk users tks /\
    ghw_encrypt nonce pk pol lang data te 0%nat = Ok (ct, j) /\
    evalT (ghw_view pk ct tks) e <> payload (te 1%nat).
Proof.
  intros P HT N2 NA. destruct (ghw_cloud nonce pol lang data f e P) as (x & X).
  destruct (two_values x) as (s & Ns).
  set (ts := fun _ : nat => 1 : F). set (te := fun _ : nat => s).
  set (users := map (fun a => (a, fun _ : nat => 1 : F)) attrs).
  assert (N : forall n, ts n <> 0) by (intros n; exact one_neq_zero).
  set (c := (1 + 1) * finv C (ts 3%nat)).
  assert (Nc : c <> 0).
  { intros Y. apply N2. transitivity (c * ts 3%nat); [unfold c; field; apply N|rewrite Y; ring]. }
  assert (FU : Forall (fun u : list string * (nat -> F) => fst u <> [] /\ snd u 1%nat <> 0) users).
  { apply Forall_forall. intros u Iu. apply in_map_iff in Iu as (a & <- & Ia). cbn. split; [|exact one_neq_zero].
    intros ->. contradiction. }
  assert (FU' : Forall (fun u : list string * (nat -> F) => fst u <> [] /\ snd u 1%nat <> 0) (scaled c users)).
  { apply Forall_forall. intros u Iu. apply in_map_iff in Iu as (w & <- & Iw). cbn.
    destruct (proj1 (Forall_forall _ _) FU w Iw). split; [assumption|now apply mul_neq]. }
  assert (M : map fst users = attrs) by (unfold users; rewrite map_map; cbn; apply map_id).
  destruct (ghw_setup_runs ts 0%nat) as (pk & msk & i & Hs).
  destruct (outsourced_runs pk msk users HT FU) as (tks & Ho).
  destruct (ghw_encrypt_runs L nonce pk pol lang data f te 0%nat P HT) as (ct & j & He).
  destruct (ghw_setup_runs (put ts 3%nat (1 + 1)) 0%nat) as (pk' & msk' & i' & Hs').
  destruct (outsourced_runs pk' msk' (scaled c users) HT FU') as (tks' & Ho').
  set (te' := put te 1%nat (te 1%nat + (ts 3%nat - (1 + 1)) * te 0%nat * (ts 0%nat * ts 1%nat))).
  destruct (ghw_encrypt_runs L nonce pk' pol lang data f te' 0%nat P HT) as (ct' & j' & He').
  destruct (gt_dec (evalT (ghw_view pk ct tks) e) (payload (te 1%nat))) as [E|E].
  - exists (put ts 3%nat (1 + 1)), te', (scaled c users), pk', msk', i', ct', j', tks'. do 2 (split; [exact (N 0%nat)|]).
    split; [unfold scaled; rewrite map_map; cbn; exact M|].
    split; [exact Hs'|]. split; [exact Ho'|]. split; [exact He'|]. unfold te' at 1. rewrite put_same.
    refine (X ts te (1 + 1) users _ _ _ _ _ _ _ _ _ _ _ _ Hs Ho He Hs' Ho' He' (N _) (N _) (N _) N2 _ Ns E).
    intros Y. apply one_neq_zero. transitivity ((1 + 1) - ts 3%nat); [unfold ts; ring|rewrite Y; ring].
  - exists ts, te, users, pk, msk, i, ct, j, tks. do 2 (split; [exact (N 0%nat)|]). repeat (split; [assumption|]). exact E.
Qed.

(** ** LSW *)

Theorem lsw_outsider nonce attrs data (e : combT C) :
  exists x : F, forall (ts te : nat -> F) a pk msk i ct j pk' msk' i' ct' j',
  let n := S (length attrs) in
  let m := te n in
  let m' := te n + ts 0%nat * (ts 1%nat - a) * te 0%nat * (ts 3%nat * ts 4%nat) in
  lsw_setup ts 0%nat = Ok (pk, msk, i) -> lsw_encrypt nonce pk attrs data te 0%nat = Ok (ct, j) ->
  lsw_setup (put ts 1%nat a) 0%nat = Ok (pk', msk', i') ->
  lsw_encrypt nonce pk' attrs data (put te n m') 0%nat = Ok (ct', j') ->
  ts 0%nat <> 0 -> ts 3%nat <> 0 -> ts 4%nat <> 0 -> a <> ts 1%nat -> te 0%nat <> x ->
  evalT (lsw_view pk ct) e = payload m -> evalT (lsw_view pk' ct') e <> payload m'.
Proof.
  exists (- drift e (unit_at 0%nat)). intros ts te a pk msk i ct j pk' msk' i' ct' j' n m m' Hs He Hs' He' N0 N1 N2 Na Nx E E'.
  apply (lsw_setup_eq L) in Hs as (_ & E0 & E1 & Eb & Eg1 & Eg2 & Eh1 & Eh2 & Egb & Egb2 & Ehb & Egg).
  apply (lsw_setup_eq L) in Hs' as (_ & E0' & E1' & Eb' & Eg1' & Eg2' & Eh1' & Eh2' & Egb' & Egb2' & Ehb' & Egg').
  destruct (lsw_encrypt_eq L _ _ _ _ _ _ _ _ He) as (mm & -> & _ & Ec & Ep & _ & Ln & N).
  destruct (lsw_encrypt_eq L _ _ _ _ _ _ _ _ He') as (mm & -> & _ & Ec' & Ep' & _ & Ln' & N').
  cbn [Nat.add] in *. fold n in Ep, Ep', N'.
  rewrite put_other in E0', Eb', Eg1', Eg2', Eh1', Eh2' by discriminate. rewrite put_same in E1', Ep'.
  rewrite put_other in Ec', Ep' by discriminate.
  assert (Q1 : lpk_g1 pk' = lpk_g1 pk) by congruence.
  assert (Q2 : lpk_g2 pk' = lpk_g2 pk) by congruence.
  assert (Q3 : lpk_g1b pk' = lpk_g1b pk) by congruence.
  assert (Q4 : lpk_g1b2 pk' = lpk_g1b2 pk) by congruence.
  assert (Q5 : lpk_hb pk' = lpk_hb pk) by congruence.
  assert (Q8 : lct_e2 ct' = lct_e2 ct) by congruence.
  assert (SH : forall k, (k < length attrs)%nat ->
    lsw_share (put te n m') 0%nat (length attrs) k = lsw_share te 0%nat (length attrs) k).
  { intros [|k] Hk; cbn [lsw_share Nat.add].
    - f_equal. f_equal. apply map_ext_in. intros q Hq. apply in_seq in Hq. apply put_other. unfold n. lia.
    - apply put_other. unfold n. lia. }
  assert (Q6 : lct_ej ct' = lct_ej ct).
  { apply nth_ext_error; [congruence|]. intros k x Hk. destruct (nth_error_len _ _ _ _ Ln Hk) as (y & Hy).
    assert (Hl : (k < length attrs)%nat) by (apply nth_error_Some; congruence).
    destruct (N _ _ Hy) as (h & Hh & K). destruct (N' _ _ Hy) as (h' & Hh' & K').
    rewrite K', Q1, Q3, Q4, Q5, (SH k Hl). rewrite put_other by discriminate. congruence. }
  assert (Z : logT L (pairing C (lpk_g1 pk) (lpk_g2 pk)) = ts 3%nat * ts 4%nat) by (rewrite Eg1, Eg2; logs; ring).
  assert (Q7 : lct_e1 ct' = lct_e1 ct).
  { apply (logT_inj L). rewrite Ep, Ep', Egg, Egg', Q1, Q2, E0, E0', E1, E1'. unfold m'. logs. rewrite (logT_pairing L) in Z. rewrite Z. ring. }
  apply Nx. apply (masked e (lsw_view pk ct) (lsw_view pk' ct') [] (lpk_egg pk) (lpk_egg pk') [lct_e1 ct] (te 0%nat) m m').
  - cbn. congruence.
  - cbn. congruence.
  - reflexivity.
  - cbn. congruence.
  - rewrite Egg, Egg', Q1, Q2, E0, E0', E1, E1'. apply pow_neq; [rewrite Z; now apply mul_neq|].
    intros Y. apply Na.
    assert (W : ts 0%nat * (a - ts 1%nat) = 0) by (transitivity (ts 0%nat * a - ts 0%nat * ts 1%nat); [ring|rewrite Y; ring]).
    apply mul_zero in W; [|exact N0]. transitivity (a - ts 1%nat + ts 1%nat); [ring|rewrite W; ring].
  - rewrite Egg, Egg', Q1, Q2, E0, E0', E1, E1', !(logT_pow L), Z. unfold m, m'. ring.
  - exact E.
  - exact E'.
Qed.

Theorem lsw_no_outsider nonce attrs data (e : combT C) : attrs <> [] -> data <> EmptyString -> hash_total (C := C) ->
  exists (ts te : nat -> F) pk msk i ct j, ts 3%nat <> 0 /\ ts 4%nat <> 0 /\
    lsw_setup ts 0%nat = Ok (pk, msk, i) /\ lsw_encrypt nonce pk attrs data te 0%nat = Ok (ct, j) /\
    evalT (lsw_view pk ct) e <> payload (te (S (length attrs))).
Proof.
  intros NA ND HT. destruct (lsw_outsider nonce attrs data e) as (x & X).
  destruct (two_values x) as (s & Ns).
  set (ts := fun _ : nat => 1 : F). set (te := fun _ : nat => s). set (n := S (length attrs)) in *.
  assert (N : forall n, ts n <> 0) by (intros k; exact one_neq_zero).
  destruct (lsw_setup_runs ts 0%nat) as (pk & msk & i & Hs).
  destruct (lsw_encrypt_runs nonce pk attrs data te 0%nat NA ND (fun a _ => HT a)) as (ct & j & He).
  destruct (lsw_setup_runs (put ts 1%nat 0) 0%nat) as (pk' & msk' & i' & Hs').
  set (te' := put te n (te n + ts 0%nat * (ts 1%nat - 0) * te 0%nat * (ts 3%nat * ts 4%nat))).
  destruct (lsw_encrypt_runs nonce pk' attrs data te' 0%nat NA ND (fun a _ => HT a)) as (ct' & j' & He').
  destruct (gt_dec (evalT (lsw_view pk ct) e) (payload (te n))) as [E|E].
  - exists (put ts 1%nat 0), te', pk', msk', i', ct', j'. do 2 (split; [exact (N 0%nat)|]).
    split; [exact Hs'|]. split; [exact He'|]. unfold te' at 1. rewrite put_same.
    refine (X ts te 0 _ _ _ _ _ _ _ _ _ _ Hs He Hs' He' (N _) (N _) (N _) _ Ns E). apply not_eq_sym, one_neq_zero.
  - exists ts, te, pk, msk, i, ct, j. do 2 (split; [exact (N 0%nat)|]). auto.
Qed.

(** ** AC17 *)

Lemma ac_setup_explicit ts (pk : ac_pk C) msk i : ac_setup ts 0%nat = Ok (pk, msk, i) ->
  ac_keys pk msk (ts 2%nat) (ts 4%nat) (ts 3%nat) (ts 5%nat) (ts 6%nat) (ts 7%nat) (ts 8%nat) /\
  amsk_g msk = g1mul C (g1one C) (ts 0%nat) /\ amsk_h msk = g2mul C (g2one C) (ts 1%nat).
Proof. intros H. apply ac_setup_eq in H as (_ & -> & ->). split; [|split; reflexivity]. do 2 eexists. split; reflexivity. Qed.

Lemma ac_masked (e : combT C) (ts : nat -> F) a s0 s1 m m' pk msk pk' msk' (ct ct' : ac_ct C) i i' :
  ac_setup ts 0%nat = Ok (pk, msk, i) -> ac_setup (put ts 6%nat a) 0%nat = Ok (pk', msk', i') ->
  m' = m + (ts 6%nat - a) * ts 2%nat * s0 * (ts 0%nat * ts 1%nat) ->
  act_c ct' = act_c ct -> act_c0 ct' = act_c0 ct ->
  act_cp ct = gtmul C (gtpow C (pairing C (amsk_g msk) (amsk_h msk)) ((ts 6%nat * ts 2%nat + ts 8%nat) * s0 + (ts 7%nat * ts 4%nat + ts 8%nat) * s1)) (payload m) ->
  act_cp ct' = gtmul C (gtpow C (pairing C (amsk_g msk) (amsk_h msk)) ((a * ts 2%nat + ts 8%nat) * s0 + (ts 7%nat * ts 4%nat + ts 8%nat) * s1)) (payload m') ->
  ts 0%nat <> 0 -> ts 1%nat <> 0 -> ts 2%nat <> 0 -> a <> ts 6%nat -> s0 <> - drift e (unit_at 0%nat) ->
  evalT (ac_view pk ct) e = payload m -> evalT (ac_view pk' ct') e <> payload m'.
Proof.
  intros Hs Hs' Em Ec Ec0 Ep Ep' N0 N1 N2 Na Ns E E'.
  apply ac_setup_eq in Hs as (_ & -> & ->). apply ac_setup_eq in Hs' as (_ & -> & ->).
  cbn [Nat.add amsk_g amsk_h] in *. rewrite !put_same in E'. rewrite !put_other in E' by discriminate.
  set (g := g1mul C (g1one C) (ts 0%nat)) in *. set (h := g2mul C (g2one C) (ts 1%nat)) in *.
  assert (Z : logT L (pairing C g h) = ts 0%nat * ts 1%nat) by (unfold g, h; logs; ring).
  assert (Q7 : act_cp ct' = act_cp ct).
  { apply (logT_inj L). rewrite Ep, Ep', !(logT_mul L), !(logT_pow L), Z, !log_payload, Em. ring. }
  eapply Ns, (masked e _ _ []); [| | | | | |exact E|exact E']; cbn [ac_view seen1 seen2 seenT apk_g apk_ha apk_egh app].
  - now rewrite Ec.
  - now rewrite Ec0.
  - reflexivity.
  - rewrite Q7. reflexivity.
  - apply pow_neq; [rewrite Z; now apply mul_neq|]. intros Y. apply Na.
    assert (W : ts 2%nat * (a - ts 6%nat) = 0)
      by (transitivity (a * ts 2%nat + ts 8%nat - (ts 6%nat * ts 2%nat + ts 8%nat)); [ring|rewrite Y; ring]).
    apply mul_zero in W; [|exact N2]. transitivity (a - ts 6%nat + ts 6%nat); [ring|rewrite W; ring].
  - rewrite !(logT_pow L), Z, Em. ring.
Qed.

Lemma ac_parts_same (pk pk' : ac_pk C) msk msk' ts a i i' :
  ac_setup ts 0%nat = Ok (pk, msk, i) -> ac_setup (put ts 6%nat a) 0%nat = Ok (pk', msk', i') ->
  amsk_g msk' = amsk_g msk /\ amsk_h msk' = amsk_h msk.
Proof.
  intros Hs Hs'. apply ac_setup_eq in Hs as (_ & -> & ->). apply ac_setup_eq in Hs' as (_ & -> & ->).
  cbn [Nat.add amsk_g amsk_h]. rewrite !put_other by discriminate. split; reflexivity.
Qed.

Theorem cp_outsider nonce pol lang data f (e : combT C) : parse pol lang = Ok (tree f) -> binary_and f = true ->
  exists x : F, forall (ts te : nat -> F) a pk msk i ct j pk' msk' i' ct' j',
  let m := te 2%nat in
  let m' := te 2%nat + (ts 6%nat - a) * ts 2%nat * te 0%nat * (ts 0%nat * ts 1%nat) in
  ac_setup ts 0%nat = Ok (pk, msk, i) -> cp_encrypt nonce pk pol data lang te 0%nat = Ok (ct, j) ->
  ac_setup (put ts 6%nat a) 0%nat = Ok (pk', msk', i') ->
  cp_encrypt nonce pk' pol data lang (put te 2%nat m') 0%nat = Ok (ct', j') ->
  ts 0%nat <> 0 -> ts 1%nat <> 0 -> ts 2%nat <> 0 -> a <> ts 6%nat -> te 0%nat <> x ->
  evalT (ac_view pk (acp_ct ct)) e = payload m -> evalT (ac_view pk' (acp_ct ct')) e <> payload m'.
Proof.
  intros P B. exists (- drift e (unit_at 0%nat)). intros ts te a pk msk i ct j pk' msk' i' ct' j' m m' Hs He Hs' He' N0 N1 N2 Na Nx.
  destruct (ac_parts_same _ _ _ _ _ _ _ _ Hs Hs') as (Qg & Qh).
  destruct (ac_setup_explicit _ _ _ _ Hs) as (K & _). destruct (ac_setup_explicit _ _ _ _ Hs') as (K' & _).
  rewrite put_same in K'. rewrite !put_other in K' by discriminate.
  destruct (cp_encrypt_eq L _ _ _ _ _ _ _ _ _ _ _ _ _ _ _ _ _ _ K P B He) as (mm & -> & X).
  destruct (cp_encrypt_eq L _ _ _ _ _ _ _ _ _ _ _ _ _ _ _ _ _ _ K' P B He') as (mm & -> & X').
  cbv zeta in X, X'. cbn [Nat.add] in X, X'. rewrite put_same in X'. rewrite !put_other in X' by discriminate.
  destruct X as (_ & _ & Ec0 & Ep & _ & Ec). destruct X' as (_ & _ & Ec0' & Ep' & _ & Ec'). rewrite Qg, Qh in *.
  apply (ac_masked e ts a (te 0%nat) (te 1%nat) m m' pk msk pk' msk' (acp_ct ct) (acp_ct ct') i i' Hs Hs' eq_refl); auto; congruence.
Qed.

Theorem kp_outsider nonce attrs data (e : combT C) :
  exists x : F, forall (ts te : nat -> F) a pk msk i ct j pk' msk' i' ct' j',
  let m := te 2%nat in
  let m' := te 2%nat + (ts 6%nat - a) * ts 2%nat * te 0%nat * (ts 0%nat * ts 1%nat) in
  ac_setup ts 0%nat = Ok (pk, msk, i) -> kp_encrypt nonce pk attrs data te 0%nat = Ok (ct, j) ->
  ac_setup (put ts 6%nat a) 0%nat = Ok (pk', msk', i') ->
  kp_encrypt nonce pk' attrs data (put te 2%nat m') 0%nat = Ok (ct', j') ->
  ts 0%nat <> 0 -> ts 1%nat <> 0 -> ts 2%nat <> 0 -> a <> ts 6%nat -> te 0%nat <> x ->
  evalT (ac_view pk (akp_ct ct)) e = payload m -> evalT (ac_view pk' (akp_ct ct')) e <> payload m'.
Proof.
  exists (- drift e (unit_at 0%nat)). intros ts te a pk msk i ct j pk' msk' i' ct' j' m m' Hs He Hs' He' N0 N1 N2 Na Nx.
  destruct (ac_parts_same _ _ _ _ _ _ _ _ Hs Hs') as (Qg & Qh).
  destruct (ac_setup_explicit _ _ _ _ Hs) as (K & _). destruct (ac_setup_explicit _ _ _ _ Hs') as (K' & _).
  rewrite put_same in K'. rewrite !put_other in K' by discriminate.
  destruct (kp_encrypt_eq L _ _ _ _ _ _ _ _ _ _ _ _ _ _ _ _ K He) as (mm & -> & X).
  destruct (kp_encrypt_eq L _ _ _ _ _ _ _ _ _ _ _ _ _ _ _ _ K' He') as (mm & -> & X').
  cbv zeta in X, X'. cbn [Nat.add] in X, X'. rewrite put_same in X'. rewrite !put_other in X' by discriminate.
  destruct X as (_ & _ & Ec0 & Ep & _ & Ec). destruct X' as (_ & _ & Ec0' & Ep' & _ & Ec'). rewrite Qg, Qh in *.
  apply (ac_masked e ts a (te 0%nat) (te 1%nat) m m' pk msk pk' msk' (akp_ct ct) (akp_ct ct') i i' Hs Hs' eq_refl); auto; congruence.
Qed.

Theorem cp_no_outsider nonce pol lang data f (e : combT C) :
  parse pol lang = Ok (tree f) -> binary_and f = true -> hash_total (C := C) ->
  exists (ts te : nat -> F) pk msk i ct j, ts 0%nat <> 0 /\ ts 1%nat <> 0 /\
    ac_setup ts 0%nat = Ok (pk, msk, i) /\ cp_encrypt nonce pk pol data lang te 0%nat = Ok (ct, j) /\
    evalT (ac_view pk (acp_ct ct)) e <> payload (te 2%nat).
Proof.
  intros P B HT. destruct (cp_outsider nonce pol lang data f e P B) as (x & X).
  destruct (two_values x) as (s & Ns).
  set (ts := fun _ : nat => 1 : F). set (te := fun _ : nat => s).
  assert (N : forall n, ts n <> 0) by (intros k; exact one_neq_zero).
  destruct (ac_setup_runs ts 0%nat) as (pk & msk & i & Hs).
  destruct (ac_setup_runs (put ts 6%nat 0) 0%nat) as (pk' & msk' & i' & Hs').
  destruct (ac_setup_explicit _ _ _ _ Hs) as (K & _). destruct (ac_setup_explicit _ _ _ _ Hs') as (K' & _).
  destruct (cp_encrypt_runs L nonce pk msk _ _ _ _ _ _ _ pol lang data f te 0%nat K P B HT) as (ct & j & He).
  set (te' := put te 2%nat (te 2%nat + (ts 6%nat - 0) * ts 2%nat * te 0%nat * (ts 0%nat * ts 1%nat))).
  destruct (cp_encrypt_runs L nonce pk' msk' _ _ _ _ _ _ _ pol lang data f te' 0%nat K' P B HT) as (ct' & j' & He').
  destruct (gt_dec (evalT (ac_view pk (acp_ct ct)) e) (payload (te 2%nat))) as [E|E].
  - exists (put ts 6%nat 0), te', pk', msk', i', ct', j'. do 2 (split; [exact (N 0%nat)|]).
    split; [exact Hs'|]. split; [exact He'|]. unfold te' at 1. rewrite put_same.
    refine (X ts te 0 _ _ _ _ _ _ _ _ _ _ Hs He Hs' He' (N _) (N _) (N _) _ Ns E). apply not_eq_sym, one_neq_zero.
  - exists ts, te, pk, msk, i, ct, j. do 2 (split; [exact (N 0%nat)|]). auto.
Qed.

Theorem kp_no_outsider nonce attrs data (e : combT C) : hash_total (C := C) ->
  exists (ts te : nat -> F) pk msk i ct j, ts 0%nat <> 0 /\ ts 1%nat <> 0 /\
    ac_setup ts 0%nat = Ok (pk, msk, i) /\ kp_encrypt nonce pk attrs data te 0%nat = Ok (ct, j) /\
    evalT (ac_view pk (akp_ct ct)) e <> payload (te 2%nat).
Proof.
  intros HT. destruct (kp_outsider nonce attrs data e) as (x & X).
  destruct (two_values x) as (s & Ns).
  set (ts := fun _ : nat => 1 : F). set (te := fun _ : nat => s).
  assert (N : forall n, ts n <> 0) by (intros k; exact one_neq_zero).
  destruct (ac_setup_runs ts 0%nat) as (pk & msk & i & Hs).
  destruct (ac_setup_runs (put ts 6%nat 0) 0%nat) as (pk' & msk' & i' & Hs').
  destruct (ac_setup_explicit _ _ _ _ Hs) as (K & _). destruct (ac_setup_explicit _ _ _ _ Hs') as (K' & _).
  destruct (kp_encrypt_runs nonce pk msk _ _ _ _ _ _ _ attrs data te 0%nat K HT) as (ct & j & He).
  set (te' := put te 2%nat (te 2%nat + (ts 6%nat - 0) * ts 2%nat * te 0%nat * (ts 0%nat * ts 1%nat))).
  destruct (kp_encrypt_runs nonce pk' msk' _ _ _ _ _ _ _ attrs data te' 0%nat K' HT) as (ct' & j' & He').
  destruct (gt_dec (evalT (ac_view pk (akp_ct ct)) e) (payload (te 2%nat))) as [E|E].
  - exists (put ts 6%nat 0), te', pk', msk', i', ct', j'. do 2 (split; [exact (N 0%nat)|]).
    split; [exact Hs'|]. split; [exact He'|]. unfold te' at 1. rewrite put_same.
    refine (X ts te 0 _ _ _ _ _ _ _ _ _ _ Hs He Hs' He' (N _) (N _) (N _) _ Ns E). apply not_eq_sym, one_neq_zero.
  - exists ts, te, pk, msk, i, ct, j. do 2 (split; [exact (N 0%nat)|]). auto.
Qed.

(** ** YCT14 *)

Fixpoint pubs (g : GT C) (t : nat -> F) (i : nat) (U : list string) : list (yct_attr C) :=
  match U with [] => [] | a :: r => YAttr a (Some (YPub (gtpow C g (t i)))) :: pubs g t (S i) r end.
Fixpoint privs (t : nat -> F) (i : nat) (U : list string) : list (yct_attr C) :=
  match U with [] => [] | a :: r => YAttr a (Some (YPriv (t i))) :: privs t (S i) r end.

Lemma yct_setup_closed U t : yct_setup U t 0%nat =
  Ok (YctPk (gtpow C (payload (t 1%nat)) (t 0%nat)) (pubs (payload (t 1%nat)) t 2%nat U),
      YctMsk (t 0%nat) (privs t 2%nat U), (2 + length U)%nat).
Proof.
  unfold yct_setup. erewrite rbind_run by reflexivity.
  erewrite rbind_run by (unfold draw_gt; erewrite rbind_run by reflexivity; reflexivity).
  fold (payload (t 1%nat)). generalize (payload (t 1%nat)). intros g.
  assert (X : forall i, exists r, rmap (yct_new g) U t i = Ok (r, (i + length U)%nat) /\
    map fst r = pubs g t i U /\ map snd r = privs t i U).
  { induction U as [|a U IH]; intros i; cbn [rmap].
    - exists []. rewrite Nat.add_0_r. auto.
    - destruct (IH (S i)) as (r & E & Ea & Eb). eexists.
      erewrite rbind_run by (unfold yct_new; erewrite rbind_run by reflexivity; reflexivity).
      erewrite rbind_run by exact E. unfold rret. cbn [length]. rewrite <- Nat.add_succ_comm. split; [reflexivity|].
      cbn. rewrite Ea, Eb. auto. }
  destruct (X 2%nat) as (r & E & Ea & Eb). erewrite rbind_run by exact E. unfold rret. now rewrite Ea, Eb.
Qed.

(** A tape whose value for attribute [a] is multiplied by [r a]. *)
Definition times (U : list string) (r : string -> F) (t t' : nat -> F) : Prop :=
  forall k a, nth_error U k = Some a -> t' (2 + k)%nat = t (2 + k)%nat * r a.

Lemma privs_times r n s s' : forall U (t t' : nat -> F) i,
  (forall k a, nth_error U k = Some a -> t' (i + k)%nat = t (i + k)%nat * r a) ->
  msk_get_private (YctMsk s' (privs t' i U)) n =
    match msk_get_private (YctMsk s (privs t i U)) n with Ok x => Ok (x * r n) | Err => Err | Panic => Panic end.
Proof.
  unfold msk_get_private. cbn [ymsk_attrs]. induction U as [|a U IH]; intros t t' i H; [reflexivity|].
  cbn [privs find y_name y_node]. destruct (seqb a n) eqn:E; cbn [andb].
  - apply seqb_eq in E as <-. cbn. pose proof (H 0%nat a eq_refl) as X. rewrite Nat.add_0_r in X. now rewrite X.
  - apply IH. intros k b Hb. specialize (H (S k) b Hb). rewrite <- Nat.add_succ_comm in H. exact H.
Qed.

Lemma pubs_times r n g : r n = 1 -> forall U (t t' : nat -> F) i,
  (forall k a, nth_error U k = Some a -> t' (i + k)%nat = t (i + k)%nat * r a) ->
  find (fun a => seqb (y_name a) n) (pubs g t' i U) = find (fun a => seqb (y_name a) n) (pubs g t i U).
Proof.
  intros R. induction U as [|a U IH]; intros t t' i H; [reflexivity|]. cbn [pubs find y_name].
  destruct (seqb a n) eqn:E.
  - apply seqb_eq in E as <-. pose proof (H 0%nat a eq_refl) as X. rewrite Nat.add_0_r, R in X.
    replace (t' i) with (t i) by (rewrite X; ring). reflexivity.
  - apply IH. intros k b Hb. specialize (H (S k) b Hb). rewrite <- Nat.add_succ_comm in H. exact H.
Qed.

Lemma yct_encrypt_same nonce (pk pk' : yct_pk C) attrs data t i ct j ct' j' :
  (forall n, In n attrs -> find (fun a => seqb (y_name a) n) (ypk_attrs pk') = find (fun a => seqb (y_name a) n) (ypk_attrs pk)) ->
  yct_encrypt nonce pk attrs data t i = Ok (ct, j) -> yct_encrypt nonce pk' attrs data t i = Ok (ct', j') ->
  yct_attrs ct' = yct_attrs ct.
Proof.
  intros H. unfold yct_encrypt. destruct attrs as [|a0 at0]; [discriminate|]. destruct data as [|c0 d0]; [discriminate|].
  set (attrs := a0 :: at0) in *. clearbody attrs. intros E E'.
  apply rbind_Ok in E as (k & i1 & Hk & E). injection Hk as <- <-. apply rbind_Ok in E' as (k & i1 & Hk & E'). injection Hk as <- <-.
  apply rbind_Ok in E as (l & i2 & Hl & E). apply rlift_Ok in Hl as [Hl <-]. apply rbind_Ok in E' as (l' & i2 & Hl' & E'). apply rlift_Ok in Hl' as [Hl' <-].
  apply rbind_Ok in E as (d & i3 & _ & E). apply rret_Ok in E as [<- _]. apply rbind_Ok in E' as (d' & i4 & _ & E'). apply rret_Ok in E' as [<- _].
  cbn [yct_attrs]. assert (X : omap (public_from pk' (t i)) attrs = omap (public_from pk (t i)) attrs); [|congruence].
  clear Hl Hl'. induction attrs as [|a at1 IH]; [reflexivity|]. cbn [omap]. rewrite IH by (intros; apply H; now right).
  unfold public_from. now rewrite (H a (or_introl eq_refl)).
Qed.

(** Two systems in which the ciphertexts look the same and [g^s] is different. *)
Lemma yct_two (pk pk' : yct_pk C) (e : combT C) :
  length (ypk_attrs pk') = length (ypk_attrs pk) -> ypk_g pk' <> ypk_g pk ->
  exists x : F, forall (k : F) ct ct', yct_attrs ct' = yct_attrs ct -> k <> x ->
  evalT (yct_view pk ct) e = gtpow C (ypk_g pk) k -> evalT (yct_view pk' ct') e <> gtpow C (ypk_g pk') k.
Proof.
  intros Ln N.
  set (d := fun n => if (n <? S (length (ypk_attrs pk)))%nat then
    logT L (nth n (ypk_g pk' :: map y_gt (ypk_attrs pk')) (gtone C)) - logT L (nth n (ypk_g pk :: map y_gt (ypk_attrs pk)) (gtone C)) else 0).
  exists (drift e d * finv C (logT L (ypk_g pk') - logT L (ypk_g pk))). intros k ct ct' Ec Nk E E'.
  assert (Nd : logT L (ypk_g pk') - logT L (ypk_g pk) <> 0).
  { apply minus_neq. intros X. apply N. now apply (logT_inj L). }
  apply Nk. pose proof (eval_drift (yct_view pk ct) (yct_view pk' ct') e eq_refl eq_refl) as X.
  rewrite (drift_ext e _ d) in X.
  - rewrite E, E', !(logT_pow L) in X.
    transitivity ((logT L (ypk_g pk') * k - logT L (ypk_g pk) * k) * finv C (logT L (ypk_g pk') - logT L (ypk_g pk))); [field; exact Nd|].
    rewrite X. field. exact Nd.
  - intros n. unfold d. cbn [yct_view seenT]. rewrite !app_comm_cons.
    destruct (Nat.ltb_spec n (S (length (ypk_attrs pk)))) as [Hn|Hn].
    + rewrite !app_nth1 by (cbn; rewrite map_length; lia). reflexivity.
    + rewrite !app_nth2 by (cbn; rewrite map_length; lia). cbn [length]. rewrite !map_length, Ln, Ec. ring.
Qed.

Lemma pubs_length g t : forall U i, length (pubs g t i U) = length U.
Proof. induction U; intros i; cbn; auto. Qed.

Theorem yct_outsider nonce U attrs data (e : combT C) (ts : nat -> F) a pk msk i pk' msk' i' :
  yct_setup U ts 0%nat = Ok (pk, msk, i) -> yct_setup U (put ts 0%nat a) 0%nat = Ok (pk', msk', i') ->
  ts 1%nat <> 0 -> a <> ts 0%nat ->
  exists x : F, forall (te : nat -> F) ct j ct' j',
  yct_encrypt nonce pk attrs data te 0%nat = Ok (ct, j) ->
  yct_encrypt nonce pk' attrs data te 0%nat = Ok (ct', j') ->
  te 0%nat <> x ->
  evalT (yct_view pk ct) e = gtpow C (ypk_g pk) (te 0%nat) -> evalT (yct_view pk' ct') e <> gtpow C (ypk_g pk') (te 0%nat).
Proof.
  intros Hs Hs' N1 Na. rewrite yct_setup_closed in Hs, Hs'. rewrite put_same, put_other in Hs' by discriminate.
  injection Hs as <- <- <-. injection Hs' as <- <- <-.
  match goal with |- context [yct_view ?p _] => set (pk := p) end.
  match goal with |- context [gtpow C (ypk_g ?p)] => lazymatch p with pk => fail | _ => set (pk' := p) end end.
  destruct (yct_two pk pk' e) as (x & X).
  - unfold pk, pk'. cbn [ypk_attrs]. now rewrite !pubs_length.
  - unfold pk, pk'. cbn [ypk_g]. apply pow_neq; [rewrite log_payload; exact N1|exact Na].
  - exists x. intros te ct j ct' j' He He' Nx. apply X; [|exact Nx].
    refine (yct_encrypt_same nonce pk pk' attrs data te 0%nat ct j ct' j' _ He He').
    intros n _. unfold pk, pk'. cbn [ypk_attrs]. apply (pubs_times (fun _ => 1)); [reflexivity|].
    intros k b _. rewrite put_other by discriminate. ring.
Qed.

Theorem yct_no_outsider nonce U attrs data (e : combT C) : attrs <> [] -> data <> EmptyString -> incl attrs U ->
  exists (ts te : nat -> F) pk msk i ct j, ts 1%nat <> 0 /\
    yct_setup U ts 0%nat = Ok (pk, msk, i) /\ yct_encrypt nonce pk attrs data te 0%nat = Ok (ct, j) /\
    evalT (yct_view pk ct) e <> gtpow C (ypk_g pk) (te 0%nat).
Proof.
  intros NA ND I. set (ts := fun _ : nat => 1 : F).
  destruct (yct_setup_runs U ts 0%nat) as (pk & msk & i & Hs).
  destruct (yct_setup_runs U (put ts 0%nat 0) 0%nat) as (pk' & msk' & i' & Hs').
  destruct (yct_outsider nonce U attrs data e ts 0 pk msk i pk' msk' i' Hs Hs' one_neq_zero (not_eq_sym one_neq_zero)) as (x & X).
  destruct (two_values x) as (s & Ns). set (te := fun _ : nat => s).
  destruct (yct_setup_keys L _ _ _ _ _ _ Hs) as (G & K). destruct (yct_setup_keys L _ _ _ _ _ _ Hs') as (G' & K').
  destruct (yct_encrypt_runs L nonce G U pk msk attrs data te 0%nat K NA ND I) as (ct & j & He).
  destruct (yct_encrypt_runs L nonce G' U pk' msk' attrs data te 0%nat K' NA ND I) as (ct' & j' & He').
  destruct (gt_dec (evalT (yct_view pk ct) e) (gtpow C (ypk_g pk) (te 0%nat))) as [E|E].
  - exists (put ts 0%nat 0), te, pk', msk', i', ct', j'. split; [exact one_neq_zero|].
    split; [exact Hs'|]. split; [exact He'|]. exact (X te ct j ct' j' He He' Ns E).
  - exists ts, te, pk, msk, i, ct, j. split; [exact one_neq_zero|]. auto.
Qed.

(** *** One key that does not fit *)

Lemma feq_dec (a b : F) : {a = b} + {a <> b}.
Proof.
  destruct (feqb C a b) eqn:E; [left; now apply (feqb_eq L)|right].
  intros ->. rewrite (proj2 (feqb_eq L _ _) eq_refl) in E. discriminate.
Qed.

Lemma avoid (bad : list F) : small_ok C (S (length bad)) -> exists x : F, x <> 0 /\ ~ In x bad.
Proof.
  intros SO. set (cands := map (fun k => usize_to_fr k : F) (seq 1 (S (length bad)))).
  assert (ND : NoDup cands).
  { unfold cands.
    assert (G : forall l, NoDup l -> (forall k, In k l -> k <= S (length bad)) -> NoDup (map (fun k => usize_to_fr k : F) l)).
    { induction l as [|a l IH]; intros N B; cbn; constructor.
      - intros X. apply in_map_iff in X as (b & E & Ib). inversion N; subst.
        apply (usize_to_fr_inj L _ _ _ SO) in E; [subst; contradiction| |]; apply B; cbn; auto.
      - inversion N; subst. apply IH; auto. intros k Hk. apply B. now right. }
    apply G; [apply seq_NoDup|]. intros k Hk. apply in_seq in Hk. lia. }
  assert (X : (exists x, In x cands /\ ~ In x bad) \/ incl cands bad).
  { clear ND. induction cands as [|c cs IH]; [right; intros x []|].
    destruct (in_dec feq_dec c bad) as [Hc|Hc]; [|left; exists c; split; [now left|exact Hc]].
    destruct IH as [(x & Ix & Nx)|I]; [left; exists x; split; [now right|exact Nx]|right].
    intros y [<-|Hy]; auto. }
  destruct X as [(x & Ix & Nx)|I].
  - exists x. split; [|exact Nx]. unfold cands in Ix. apply in_map_iff in Ix as (k & <- & Hk). apply in_seq in Hk. apply SO. lia.
  - exfalso. apply NoDup_incl_length in I; [|exact ND]. unfold cands in I. rewrite map_length, seq_length in I. lia.
Qed.

(** Both shares of a name, in two sharings. *)
Lemma shares_pair_find : forall (sh : list (string * F)) (vs : list (string * F)) k n x y,
  NoDup (map (fun a => remove_index (fst a)) sh) -> nth_error sh k = Some (n, x) -> nth_error vs k = Some y ->
  find (fun q => seqb (remove_index (fst (fst q))) (remove_index n)) (combine sh vs) = Some ((n, x), y).
Proof.
  induction sh as [|[m z] sh IH]; intros [|w vs] [|k] n x y ND Hx Hy; try discriminate; cbn in *.
  - injection Hx as -> ->. injection Hy as ->. now rewrite seqb_refl.
  - inversion ND as [|? ? N1 N2]; subst. destruct (seqb (remove_index m) (remove_index n)) eqn:E; [|eauto].
    exfalso. apply N1. apply seqb_eq in E. rewrite E. apply in_map_iff. exists (n, x). split; [reflexivity|].
    eapply nth_error_In, Hx.
Qed.

Lemma gsh_names f : plain_names f = true -> forall s t i, map (fun a => remove_index (fst a)) (gsh (C := C) f s t i) = names f.
Proof.
  intros PN s t i. rewrite <- (map_map fst remove_index), gsh_idents. unfold idents, names, plain_names, names in *.
  rewrite map_map. rewrite forallb_forall in PN. apply map_ext_in. intros [n p] I. cbn [fst snd]. apply remove_index_leaf.
  apply PN. apply in_map_iff. exists (n, p). auto.
Qed.

(** The key of one user does not tell the system it was made for from another system, in which the
    published values of the attributes in [attrs] are the same and [g^s] is different. *)
Theorem yct_twin U pol lang f attrs (ts tk : nat -> F) pk msk i sk j :
  parse pol lang = Ok (tree f) -> plain_names f = true -> NoDup (names f) ->
  small_ok C (and_width f) -> small_ok C (S (length (names f))) -> sat (owns attrs) f = false ->
  yct_setup U ts 0%nat = Ok (pk, msk, i) -> yct_keygen msk pol lang tk 0%nat = Ok (sk, j) ->
  ts 1%nat <> 0 -> (forall n, ~ In (YAttr n (Some (YPriv 0))) (ysk_du sk)) ->
  exists (ts' tk' : nat -> F) pk' msk',
    yct_setup U ts' 0%nat = Ok (pk', msk', i) /\ yct_keygen msk' pol lang tk' 0%nat = Ok (sk, j) /\
    ts' 1%nat = ts 1%nat /\ ypk_g pk' <> ypk_g pk /\
    (forall n, In n attrs -> find (fun a => seqb (y_name a) n) (ypk_attrs pk') = find (fun a => seqb (y_name a) n) (ypk_attrs pk)).
Proof.
  intros P PN ND SO SN Sat Hs Hk N1 NZ. rewrite yct_setup_closed in Hs. injection Hs as <- <- <-.
  set (msk := YctMsk (ts 0%nat) (privs ts 2%nat U)) in *.
  destruct (secret_direction L (owns attrs) f (and_width f) 1 0%nat (le_n _) SO Sat) as (d & _ & Bl).
  unfold yct_keygen in Hk. rewrite P in Hk.
  erewrite rbind_run in Hk by reflexivity. erewrite rbind_run in Hk by apply (gen_shares_policy_eq L).
  set (sh := gsh f (ymsk_s msk) tk 0) in *. set (vs := gsh f 1 d 0) in *.
  apply rbind_Ok in Hk as (du & i5 & Hd & Hk). apply rlift_Ok in Hd as [Hd <-]. apply rret_Ok in Hk as [<- <-].
  cbn [ysk_du] in NZ.
  assert (Lsh : length sh = length (names f)) by (unfold sh, names; rewrite map_length; apply gsh_length).
  assert (Lvs : length vs = length (names f)) by (unfold vs, names; rewrite map_length; apply gsh_length).
  assert (NDs : NoDup (map (fun a => remove_index (fst a)) sh)) by (unfold sh; rewrite gsh_names by exact PN; exact ND).
  destruct (avoid (map (fun q => - snd (fst q) * finv C (snd (snd q))) (combine sh vs))) as (D & D0 & Dn).
  { rewrite map_length, combine_length, Lsh, Lvs, Nat.min_id. exact SN. }
  set (r := fun a => match find (fun q => seqb (remove_index (fst (fst q))) a) (combine sh vs) with
    | Some ((_, x), (_, v)) => if feq_dec v 0 then 1 else (x + D * v) * finv C x | None => 1 end).
  set (ts' := fun n => match n with O => ts 0%nat + D * 1 | S O => ts 1%nat
    | S (S k) => ts n * match nth_error U k with Some a => r a | None => 1 end end).
  set (tk' := fun n => tk n + D * d n).
  assert (TT : forall k a, nth_error U k = Some a -> ts' (2 + k)%nat = ts (2 + k)%nat * r a).
  { intros k a Ha. cbn. now rewrite Ha. }
  set (msk' := YctMsk (ts 0%nat + D * 1) (privs ts' 2%nat U)).
  exists ts', tk'. do 2 eexists. split; [apply yct_setup_closed|]. cbn [ymsk_s]. change (ts' 0%nat) with (ts 0%nat + D * 1). change (ts' 1%nat) with (ts 1%nat).
  fold msk'. split; [|split; [reflexivity|split]].
  - unfold yct_keygen. rewrite P. erewrite rbind_run by reflexivity. erewrite rbind_run by apply (gen_shares_policy_eq L).
    set (sh' := gsh f (ymsk_s msk') tk' 0).
    enough (X : yct_du msk' sh' = Ok du) by (rewrite X; reflexivity).
    assert (Sh' : map snd sh' = ladd2 D (map snd sh) (map snd vs)) by exact (gsh_linear L f (ts 0%nat) 1 D tk d 0%nat).
    assert (Id : map fst sh' = map fst sh) by (unfold sh, sh'; now rewrite !gsh_idents).
    assert (Q : forall k n x, nth_error sh k = Some (n, x) -> exists v, nth_error vs k = Some v /\
      nth_error sh' k = Some (n, x + D * snd v) /\ r (remove_index n) = if feq_dec (snd v) 0 then 1 else (x + D * snd v) * finv C x).
    { intros k n x Hx. destruct (nth_error_len sh vs k (n, x)) as ([vn v] & Hv); [congruence|exact Hx|]. exists (vn, v).
      split; [exact Hv|]. split.
      - destruct (nth_error_len sh sh' k (n, x)) as ([n' x'] & Hx'); [unfold sh, sh'; now rewrite !gsh_length|exact Hx|].
        rewrite Hx'. pose proof (map_nth_error fst _ _ Hx') as A. rewrite Id, (map_nth_error fst _ _ Hx) in A. injection A as A. cbn in A. subst n'.
        pose proof (map_nth_error snd _ _ Hx') as A. rewrite Sh' in A. unfold ladd2 in A.
        assert (A2 : nth_error (combine (map snd sh) (map snd vs)) k = Some (x, v)).
        { apply nth_error_combine'; [exact (map_nth_error snd _ _ Hx)|exact (map_nth_error snd _ _ Hv)]. }
        rewrite (map_nth_error _ _ _ A2) in A. injection A as A. cbn [fst snd] in *. rewrite A. reflexivity.
      - unfold r. rewrite (shares_pair_find sh vs k n x (vn, v) NDs Hx Hv). reflexivity. }
    assert (Dn' : forall k n x v, nth_error sh k = Some (n, x) -> nth_error vs k = Some v -> snd v <> 0 -> x + D * snd v <> 0).
    { intros k n x v Hx Hv Nv Z. apply Dn. apply in_map_iff. exists ((n, x), v). split; [|apply (nth_error_In _ k), nth_error_combine'; assumption].
      cbn [fst snd]. transitivity ((x + D * snd v) * finv C (snd v) - x * finv C (snd v)); [rewrite Z; ring|field; exact Nv]. }
    assert (Lsh' : length sh' = length sh) by (unfold sh, sh'; now rewrite !gsh_length).
    clearbody sh sh'. clear Sh' Id Bl Dn NDs Lsh SN.
    assert (Q2 : forall k n x, nth_error sh k = Some (n, x) -> exists x' , nth_error sh' k = Some (n, x') /\
      (r (remove_index n) = 1 /\ x' = x \/ x' <> 0 /\ r (remove_index n) = x' * finv C x)).
    { intros k n x Hx. destruct (Q k n x Hx) as (v & Hv & Hx' & Hr). exists (x + D * snd v). split; [exact Hx'|].
      destruct (feq_dec (snd v) 0) as [Z|Z]; [left; split; [exact Hr|rewrite Z; ring]|right; eauto]. }
    clear Q Dn' Lvs. revert sh' Lsh' Q2 du Hd NZ. clearbody r vs. clear - TT L. 
    assert (GP : forall n, msk_get_private msk' n = match msk_get_private msk n with Ok x => Ok (x * r n) | Err => Err | Panic => Panic end).
    { intros n. apply (privs_times r n). exact TT. }
    clearbody msk msk'. induction sh as [|[n x] sh IH]; intros [|[n' x'] sh'] Lsh' Q2 du Hd NZ; try discriminate; [exact Hd|].
    destruct (Q2 0%nat n x eq_refl) as (x2 & Hx2 & Cs). cbn in Hx2. injection Hx2 as <- <-.
    cbn [yct_du fst snd] in *. unfold private_from in *. cbn [fst snd] in *. rewrite GP.
    assert (Q3 : forall k n x, nth_error sh k = Some (n, x) -> exists x' , nth_error sh' k = Some (n, x') /\
      (r (remove_index n) = 1 /\ x' = x \/ x' <> 0 /\ r (remove_index n) = x' * finv C x)) by (intros k; exact (Q2 (S k))).
    destruct (msk_get_private msk (remove_index n')) as [si| |]; cbn [obind] in *; [| |discriminate].
    + destruct (finv_opt si) as [q|] eqn:Eq; cbn [unwrap obind] in *; [|discriminate].
      apply (finv_opt_Some L) in Eq as [Nsi ->]. apply obind_Ok in Hd as (l & Hl & Hd). injection Hd as <-.
      assert (NZ' : forall n, ~ In (YAttr n (Some (YPriv 0))) l) by (intros n Hn; apply (NZ n); now right).
      rewrite (IH sh' (f_equal pred Lsh') Q3 l Hl NZ').
      assert (Nx : x <> 0).
      { intros ->. apply (NZ (remove_index n')). left. do 3 f_equal. ring. }
      destruct Cs as [(R & ->)|(Nx' & R)]; rewrite R.
      * rewrite (finv_opt_neq L); [cbn [unwrap obind]; replace (x * finv C (si * 1)) with (x * finv C si) by (field; repeat split; first [exact Nsi|exact one_neq_zero]); reflexivity|].
        apply mul_neq; [exact Nsi|exact one_neq_zero].
      * rewrite (finv_opt_neq L).
        -- cbn [unwrap obind]. replace (x' * finv C (si * (x' * finv C x))) with (x * finv C si) by (field; auto). reflexivity.
        -- apply mul_neq; [exact Nsi|]. intros Z. apply Nx'. transitivity (x' * finv C x * x); [field; exact Nx|rewrite Z; ring].
    + exact (IH sh' (f_equal pred Lsh') Q3 du Hd NZ).
  - cbn [ypk_g]. apply pow_neq; [rewrite log_payload; exact N1|]. intros X. apply D0.
    transitivity (ts 0%nat + D * 1 - ts 0%nat); [ring|rewrite X; ring].
  - intros n In_. cbn [ypk_attrs]. apply (pubs_times r); [|exact TT].
    unfold r. destruct (find _ _) as [[[m x] [m' v]]|] eqn:Ef; [|reflexivity].
    apply find_some in Ef as (I & En). cbn [fst] in En. apply seqb_eq in En.
    apply In_nth_error in I as (k & Hc). apply nth_error_combine_inv in Hc as (Hx & Hv).
    destruct (nth_error_len sh (leaves f) k (m, x)) as ([nm p] & Hl); [unfold sh; apply gsh_length|exact Hx|].
    assert (Z : owns attrs nm = true -> v = 0).
    { intros O. unfold blind in Bl. exact (Forall2_nth_error _ _ _ Bl k _ _ Hl Hv O). }
    assert (A : nm = n).
    { pose proof (map_nth_error (fun a => remove_index (fst a)) _ _ Hx) as B. unfold sh in B. rewrite gsh_names in B by exact PN.
      unfold names in B. rewrite (map_nth_error fst _ _ Hl) in B. cbn in B. congruence. }
    subst nm. rewrite Z by (apply smem_In; exact In_). destruct (feq_dec 0 0) as [_|X]; [reflexivity|congruence].
Qed.

(** Whatever is computed with the help of the key: the combination [e] may depend on the key. *)
Theorem yct_one_key nonce U pol lang f attrs data (ts tk : nat -> F) pk msk i sk j :
  parse pol lang = Ok (tree f) -> plain_names f = true -> NoDup (names f) ->
  small_ok C (and_width f) -> small_ok C (S (length (names f))) -> sat (owns attrs) f = false ->
  yct_setup U ts 0%nat = Ok (pk, msk, i) -> yct_keygen msk pol lang tk 0%nat = Ok (sk, j) ->
  ts 1%nat <> 0 -> (forall n, ~ In (YAttr n (Some (YPriv 0))) (ysk_du sk)) ->
  exists (ts' tk' : nat -> F) pk' msk',
    ts' 1%nat = ts 1%nat /\ yct_setup U ts' 0%nat = Ok (pk', msk', i) /\ yct_keygen msk' pol lang tk' 0%nat = Ok (sk, j) /\
    forall e : combT C, exists x : F, forall (te : nat -> F) ct jc ct' jc',
    yct_encrypt nonce pk attrs data te 0%nat = Ok (ct, jc) -> yct_encrypt nonce pk' attrs data te 0%nat = Ok (ct', jc') ->
    te 0%nat <> x ->
    evalT (yct_view pk ct) e = gtpow C (ypk_g pk) (te 0%nat) -> evalT (yct_view pk' ct') e <> gtpow C (ypk_g pk') (te 0%nat).
Proof.
  intros P PN ND SO SN Sat Hs Hk N1 NZ.
  destruct (yct_twin U pol lang f attrs ts tk pk msk i sk j P PN ND SO SN Sat Hs Hk N1 NZ)
    as (ts' & tk' & pk' & msk' & Hs' & Hk' & E1 & Ng & Fd).
  exists ts', tk', pk', msk'. split; [exact E1|]. split; [exact Hs'|]. split; [exact Hk'|]. intros e.
  destruct (yct_two pk pk' e) as (x & X).
  - rewrite yct_setup_closed in Hs, Hs'. injection Hs as <- _ _. injection Hs' as <- _ _. cbn [ypk_attrs]. now rewrite !pubs_length.
  - exact Ng.
  - exists x. intros te ct jc ct' jc' He He' Nx. apply X; [|exact Nx].
    exact (yct_encrypt_same nonce pk pk' attrs data te 0%nat ct jc ct' jc' Fd He He').
Qed.

(** ** AW11 *)

Lemma drift_sum {A} e (a : A -> F) (b : A -> nat -> F) l :
  drift e (fun n => fsum (map (fun k => a k * b k n) l)) = fsum (map (fun k => a k * drift e (b k)) l).
Proof.
  induction l as [|k l IH]; cbn [map fsum].
  - induction e; cbn; rewrite ?IHe, ?IHe1, ?IHe2; ring.
  - rewrite drift_add, drift_scale, IH. reflexivity.
Qed.

Definition amove (g : F) (d : string -> F) (x' x : string * GT C * G2 C) : Prop :=
  n3 x' = n3 x /\ snd x' = snd x /\ logT L (snd (fst x')) = logT L (snd (fst x)) + g * d (n3 x).

Lemma find_pk_flat (pks : list (aw_pk C)) a : find_pk_attr pks a = find (fun x => seqb (n3 x) a) (flat_map (@apk_attr C) pks).
Proof.
  induction pks as [|pk pks IH]; [reflexivity|]. cbn [find_pk_attr flat_map]. rewrite IH.
  induction (apk_attr pk) as [|x l IHl]; [reflexivity|]. cbn [find app]. destruct (seqb (n3 x) a); [reflexivity|exact IHl].
Qed.

Lemma find_amove g d a : forall l' l, Forall2 (amove g d) l' l ->
  match find (fun x => seqb (n3 x) a) l, find (fun x => seqb (n3 x) a) l' with
  | None, None => True
  | Some x, Some x' => n3 x = a /\ amove g d x' x
  | _, _ => False
  end.
Proof.
  induction 1 as [|x' x l' l (En & Es & El) _ IH]; [exact I|]. cbn [find]. rewrite En. destruct (seqb (n3 x) a) eqn:E; [|exact IH].
  apply seqb_eq in E. split; [exact E|]. repeat split; assumption.
Qed.

Lemma moved_amove (gk : aw_gk C) d g auths pks pks' : logT L (pairing C (agk_g1 gk) (agk_g2 gk)) = g ->
  authorities gk auths pks -> authorities gk (moved d auths) pks' ->
  Forall2 (amove g d) (flat_map (@apk_attr C) pks') (flat_map (@apk_attr C) pks) /\
  map n3 (flat_map (@apk_attr C) pks) = flat_map (fun a => map (upper C) (fst a)) auths.
Proof.
  intros G H. revert pks'. induction H as [|[U t] pk auths pks (msk & j & E) _ IH]; intros pks' H'.
  - inversion H'. split; [constructor|reflexivity].
  - inversion H' as [|? pk' ? pks2 (msk' & j' & E') H2]; subst. cbn [fst snd] in *. destruct (IH _ H2) as (I1 & I2).
    apply aw_authgen_eq in E as (_ & Lp & _ & N). apply aw_authgen_eq in E' as (_ & Lp' & _ & N'). cbn [flat_map]. split.
    + apply Forall2_app; [|exact I1]. apply Forall2_at; [congruence|]. intros k x' x Hx' Hx.
      destruct (nth_error_len _ _ _ _ Lp Hx) as (a & Ha). destruct (N k a Ha) as (_ & A). destruct (N' k a Ha) as (_ & A').
      rewrite !(Nat.add_0_l (2 * k)) in A, A'. remember (2 * k)%nat as k2 eqn:Ek.
      rewrite A in Hx. rewrite A' in Hx'. injection Hx as <-. injection Hx' as <-.
      rewrite !Nat.add_1_r. assert (Ev : Nat.even k2 = true) by (rewrite Ek, Nat.even_mul; reflexivity).
      assert (Od : Nat.even (S k2) = false) by (rewrite Nat.even_succ, <- Nat.negb_even, Ev; reflexivity).
      assert (Dv : (k2 / 2)%nat = k) by (rewrite Ek, Nat.mul_comm; apply Nat.div_mul; discriminate).
      change (fst (Nat.divmod k2 1 0 1)) with (k2 / 2)%nat. rewrite Ev, Od, Dv, Ha. unfold amove, n3. cbn [fst snd]. split; [reflexivity|].
      split; [f_equal; ring|]. rewrite !(logT_pow L). ring.
    + rewrite map_app, I2. f_equal. symmetry. apply nth_ext_error; [now rewrite !map_length|].
      intros k x Hx. destruct (nth_error_len (map n3 (apk_attr pk)) U k x) as (a & Ha); [now rewrite map_length|exact Hx|].
      destruct (N k a Ha) as (_ & A). rewrite (map_nth_error n3 _ _ A) in Hx. etransitivity; [exact (map_nth_error (upper C) _ _ Ha)|exact Hx].
Qed.

Lemma gsh_const f : forall (c : F) t i, (forall k, t k = 0) -> Forall (fun x => snd x = c) (gsh f c t i).
Proof.
  induction f as [n p|l IH|l IH] using formula_ind'; intros c t i Z.
  - repeat constructor.
  - rewrite gsh_FAnd. set (a := c :: map t (seq i (length l - 1))).
    assert (Ea : forall x, ev a x = c).
    { intros x. unfold a. cbn. replace (map t (seq i (length l - 1))) with (repeat (0 : F) (length l - 1)).
      - rewrite (ev_zeros L). ring.
      - clear - Z. revert i. induction (length l - 1)%nat as [|m IHm]; intros i; [reflexivity|]. cbn. now rewrite Z, (IHm (S i)). }
    clearbody a. generalize (i + (length l - 1))%nat. generalize 1%nat. clear i.
    induction IH as [|g l H _ IHl]; intros x i; [constructor|]. cbn [gsh_and]. rewrite Ea. apply Forall_app. auto.
  - rewrite gsh_FOr. revert i. induction IH as [|g l H _ IHl]; intros i; [constructor|].
    cbn [gsh_or]. apply Forall_app. auto.
Qed.

(** Adding [D] to the secret adds [D] to all shares. *)
Lemma gsh_plus f (s D : F) t t' i k n x : (forall k, i <= k < i + nd f -> t' k = t k) ->
  nth_error (gsh f s t i) k = Some (n, x) -> nth_error (gsh f (s + D) t' i) k = Some (n, x + D).
Proof.
  intros T H. rewrite (gsh_ext f _ t' (fun k => t k + D * 0)) by (intros q Hq; rewrite T by exact Hq; ring).
  replace (s + D) with (s + D * 1) by ring.
  pose proof (gsh_linear L f s 1 D t (fun _ => 0) i) as X. pose proof (gsh_const f 1 (fun _ => 0) i (fun _ => eq_refl)) as W.
  set (sh' := gsh f (s + D * 1) (fun k0 => t k0 + D * 0) i) in *. set (vs := gsh f 1 (fun _ => 0) i) in *. set (sh := gsh f s t i) in *.
  destruct (nth_error_len sh sh' k (n, x)) as ([n' x'] & Hx'); [unfold sh, sh'; now rewrite !gsh_length|exact H|].
  destruct (nth_error_len sh vs k (n, x)) as ([vn v] & Hv); [unfold sh, vs; now rewrite !gsh_length|exact H|].
  assert (v = 1) as -> by (rewrite Forall_forall in W; exact (W _ (nth_error_In _ _ Hv))).
  assert (Id : map fst sh' = map fst sh) by (unfold sh, sh'; now rewrite !gsh_idents).
  pose proof (map_nth_error fst _ _ Hx') as A. rewrite Id, (map_nth_error fst _ _ H) in A. injection A as A. cbn in A. subst n'.
  pose proof (map_nth_error snd _ _ Hx') as A. rewrite X in A. unfold ladd2 in A.
  assert (A2 : nth_error (combine (map snd sh) (map snd vs)) k = Some (x, 1)).
  { apply nth_error_combine'; [exact (map_nth_error snd _ _ H)|exact (map_nth_error snd _ _ Hv)]. }
  rewrite (map_nth_error _ _ _ A2) in A. injection A as A. cbn [fst snd] in A. rewrite Hx', <- A. do 2 f_equal. ring.
Qed.

Lemma Forall2_long {A B} (R : A -> B -> Prop) l l' : Forall2 R l l' -> length l = length l'.
Proof. induction 1; cbn; congruence. Qed.

Lemma fsum_pick (c : string -> F) (n : string) : forall l, NoDup l -> In n l ->
  fsum (map (fun k => c k * (if seqb n k then 1 else 0)) l) = c n.
Proof.
  assert (Z : forall l, ~ In n l -> fsum (map (fun k => c k * (if seqb n k then 1 else 0)) l) = 0).
  { induction l as [|k l IH]; intros N; [reflexivity|]. cbn [map fsum]. rewrite IH by (intros X; apply N; now right).
    destruct (seqb n k) eqn:E; [apply seqb_eq in E; subst; exfalso; apply N; now left|ring]. }
  induction l as [|k l IH]; intros ND I; [destruct I|]. inversion ND; subst. cbn [map fsum].
  destruct (seqb n k) eqn:E.
  - apply seqb_eq in E as <-. rewrite Z by assumption. ring.
  - apply seqb_neq in E. rewrite IH; [ring|assumption|]. destruct I as [->|I]; [congruence|exact I].
Qed.

Lemma fsum_none (c : string -> F) (n : string) : forall l, ~ In n l ->
  fsum (map (fun k => c k * (if seqb n k then 1 else 0)) l) = 0.
Proof.
  induction l as [|k l IH]; intros N; [reflexivity|]. cbn [map fsum]. rewrite IH by (intros X; apply N; now right).
  destruct (seqb n k) eqn:E; [apply seqb_eq in E; subst; exfalso; apply N; now left|ring].
Qed.

Theorem aw_outsider nonce pol lang data f (Us : list (list string)) (e : combT C) : parse pol lang = Ok (tree f) ->
  exists (q : nat) (c : string -> F), (0 < q)%nat /\
  forall (ts te : nat -> F) auths (rho : string -> F) (D : F) gk i pks ct j pks' ct' j',
  let ns := nodup string_dec (map (aw_key C) (names f)) in
  let m := te q in
  let m' := te q - D * (ts 0%nat * ts 1%nat) in
  let d := fun n => if smem n ns then - D * finv C (rho n) else 0 in
  map fst auths = Us -> aw_setup ts 0%nat = Ok (gk, i) -> authorities gk auths pks ->
  aw_encrypt nonce gk pks pol lang data te 0%nat = Ok (ct, j) ->
  authorities gk (moved d auths) pks' ->
  aw_encrypt nonce gk pks' pol lang data (put (put te 0%nat (te 0%nat + D)) q m') 0%nat = Ok (ct', j') ->
  ts 0%nat <> 0 -> ts 1%nat <> 0 -> D <> 0 ->
  (forall k n, nth_error (names f) k = Some n -> te (q + 1 + k)%nat = rho (aw_key C n) /\ rho (aw_key C n) <> 0) ->
  fsum (map (fun n => c n * finv C (rho n)) ns) <> 1 ->
  awct_c0 ct = gtmul C (payload m) (gtpow C (pairing C (agk_g1 gk) (agk_g2 gk)) (te 0%nat)) /\
  awct_c0 ct' = gtmul C (payload m') (gtpow C (pairing C (agk_g1 gk) (agk_g2 gk)) (te 0%nat + D)) /\
  (evalT (aw_view gk pks ct) e = payload m -> evalT (aw_view gk pks' ct') e <> payload m').
Proof.
  intros P. set (NL := flat_map (fun U => map (upper C) U) Us).
  set (ind := fun (a : string) (n : nat) => match nth_error NL n with Some b => if seqb b a then 1 else 0 | None => 0 : F end).
  set (q := (1 + nd f + nd f)%nat). exists q, (fun a => drift e (ind a)). split; [unfold q; lia|].
  intros ts te auths rho D gk i pks ct j pks' ct' j' ns m m' d EU Hs HA He HA' He' N0 N1 ND Hr Ns.
  set (te' := put (put te 0%nat (te 0%nat + D)) q m') in *.
  apply aw_setup_eq in Hs as (_ & Eg1 & Eg2). cbn [Nat.add] in Eg1, Eg2.
  set (g := ts 0%nat * ts 1%nat) in *.
  assert (G : logT L (pairing C (agk_g1 gk) (agk_g2 gk)) = g) by (rewrite Eg1, Eg2; logs; unfold g; ring).
  destruct (moved_amove gk d g auths pks pks' G HA HA') as (AM & NM).
  replace (flat_map (fun a => map (upper C) (fst a)) auths) with NL in NM.
  2:{ unfold NL. rewrite <- EU. clear. induction auths as [|a l IH]; [reflexivity|]. cbn. now rewrite IH. }
  assert (Al2 : map snd (flat_map (@apk_attr C) pks') = map snd (flat_map (@apk_attr C) pks)).
  { clear - AM. induction AM as [|x' x l' l (_ & Es & _) _ IH]; [reflexivity|]. cbn. congruence. }
  destruct (aw_encrypt_eq L _ _ _ _ _ _ _ _ _ _ _ P He) as (sh & i1 & wsh & i2 & mm & es & -> & Dl & Dw & _ & _ & Ec0 & _ & Ec & Le & N).
  destruct (aw_encrypt_eq L _ _ _ _ _ _ _ _ _ _ _ P He') as (sh' & i1' & wsh' & i2' & mm & es' & -> & Dl' & Dw' & _ & _ & Ec0' & _ & Ec' & Le' & N').
  apply (dealt_unique (C := C)) in Dl as [-> ->]. apply (dealt_unique (C := C)) in Dl' as [-> ->].
  apply (dealt_unique (C := C)) in Dw as [-> ->]. apply (dealt_unique (C := C)) in Dw' as [-> ->].
  cbn [Nat.add] in Ec0, Ec0', Ec, Ec', N, N', Le, Le'. change (S (nd f + nd f)) with q in Ec0, Ec0', N, N'.
  assert (T0 : te' 0%nat = te 0%nat + D) by (unfold te'; rewrite put_other by (unfold q; lia); apply put_same).
  assert (Tq : te' q = m') by (unfold te'; apply put_same).
  assert (To : forall n, n <> 0%nat -> n <> q -> te' n = te n) by (intros n A B; unfold te'; rewrite !put_other by assumption; reflexivity).
  rewrite T0 in *. rewrite Tq in *.
  assert (Qw : gsh f 0 te' (S (nd f)) = gsh f 0 te (S (nd f))).
  { apply gsh_ext. intros k Hk. apply To; [lia|unfold q; lia]. }
  assert (Q0 : awct_c0 ct' = awct_c0 ct).
  { apply (logT_inj L). rewrite Ec0, Ec0'. rewrite !(logT_mul L), !(logT_pow L), G.
    fold (payload m'). fold (payload (te q)).  unfold m'. fold (payload (te q)). logs. unfold payload; logs. ring. }
  assert (Qc : awct_c ct' = awct_c ct).
  { rewrite Ec, Ec'. f_equal. rewrite gsh_length in Le, Le'. apply nth_ext_error; [congruence|]. intros k x Hx.
    destruct (nth_error_len es (gsh f (te 0%nat) te 1%nat) k x) as ([n y] & Hy); [now rewrite gsh_length|exact Hx|].
    assert (Hy' : nth_error (gsh f (te 0%nat + D) te' 1%nat) k = Some (n, y + D)).
    { apply (gsh_plus f (te 0%nat) D te te' 1%nat k n y); [|exact Hy]. intros p Hp. apply To; [lia|unfold q; lia]. }
    destruct (nth_error_len (gsh f (te 0%nat) te 1%nat) (leaves f) k (n, y)) as ([nm p] & Hl); [apply gsh_length|exact Hy|].
    assert (En : n = node_index nm p).
    { pose proof (map_nth_error fst _ _ Hy) as A. rewrite gsh_idents in A. unfold idents in A.
      rewrite (map_nth_error _ _ _ Hl) in A. injection A as A. symmetry. exact A. }
    assert (Hn : nth_error (names f) k = Some nm) by (unfold names; exact (map_nth_error fst _ _ Hl)).
    assert (Key : remove_index (upper C n) = aw_key C nm).
    { unfold aw_key. rewrite (remove_index_upper L), En, remove_index_node. reflexivity. }
    destruct (Hr k nm Hn) as (R1 & R2). replace (q + 1 + k)%nat with (S (nd f + nd f + 1 + k)) in R1 by (unfold q; lia).
    assert (In_ns : smem (aw_key C nm) ns = true).
    { apply smem_In. apply nodup_In. apply in_map. eapply nth_error_In, Hn. }
    pose proof (find_amove g d (aw_key C nm) _ _ AM) as FA. rewrite <- !find_pk_flat in FA.
    specialize (N k n y Hy). specialize (N' k n (y + D) Hy'). rewrite Key in N, N'.
    destruct N as [(F0 & X0)|(a & ee & yy & w & F0 & W0 & X0)], N' as [(F1 & X1)|(a' & ee' & yy' & w' & F1 & W1 & X1)];
      rewrite F0, F1 in FA; try contradiction; [congruence|].
    destruct FA as (Ea & Eb & Ey & El). cbn [n3 fst snd] in Ea, Eb, Ey, El. rewrite Ea in El. subst yy'.
    rewrite Qw in W1. rewrite W0 in W1. injection W1 as <-.
    rewrite To in X1 by (unfold q; lia).
    rewrite X1, <- Hx, X0. do 5 f_equal. apply (logT_inj L). rewrite !(logT_mul L), !(logT_pow L), G, El, R1. unfold d. rewrite In_ns. field. exact R2. }
  split; [exact Ec0|]. split; [exact Ec0'|]. intros E E'.
  pose proof (eval_drift (aw_view gk pks ct) (aw_view gk pks' ct') e eq_refl) as X.
  cbn [aw_view seen2] in X. rewrite Al2, Qc in X. specialize (X eq_refl).
  rewrite (drift_ext e _ (fun n => fsum (map (fun a => (- D * g * finv C (rho a)) * ind a n) ns))) in X.
  - rewrite drift_sum, E, E', !log_payload in X.
    assert (Y : fsum (map (fun k => - D * g * finv C (rho k) * drift e (ind k)) ns) =
      - D * g * fsum (map (fun n => drift e (ind n) * finv C (rho n)) ns)).
    { clear - L. induction ns as [|a l IH]; cbn [map fsum]; [ring|]. rewrite IH. ring. }
    rewrite Y in X. apply Ns. set (S0 := fsum _) in *.
    assert (Z : (D * g) * (S0 - 1) = 0).
    { transitivity (m' - (m + - D * g * S0)); [unfold m, m', g; ring|]. rewrite X. ring. }
    apply mul_zero in Z; [transitivity (S0 - 1 + 1); [ring|rewrite Z; ring]|]. apply mul_neq; [exact ND|unfold g; now apply mul_neq].
  - intros n. cbn [aw_view seenT]. rewrite Q0, Qc.
    set (ap := map (fun x => snd (fst x)) (flat_map (@apk_attr C) pks)). set (ap' := map (fun x => snd (fst x)) (flat_map (@apk_attr C) pks')).
    assert (La : length ap' = length ap) by (unfold ap, ap'; rewrite !map_length; exact (Forall2_long _ _ _ AM)).
    assert (Ln : length ap = length NL) by (rewrite <- NM; unfold ap; now rewrite !map_length).
    destruct (Nat.lt_ge_cases n (length ap)) as [Hn|Hn].
    + rewrite !app_nth1 by lia.
      destruct (nth_error (flat_map (@apk_attr C) pks) n) as [x|] eqn:Hx.
      2:{ apply nth_error_None in Hx. unfold ap in Hn. rewrite map_length in Hn. lia. }
      destruct (nth_error_len (flat_map (@apk_attr C) pks) (flat_map (@apk_attr C) pks') n x) as (x' & Hx'); [symmetry; exact (Forall2_long _ _ _ AM)|exact Hx|].
      pose proof (Forall2_nth_error _ _ _ AM n x' x Hx' Hx) as (_ & _ & El).
      unfold ap, ap'. rewrite (nth_error_nth _ _ _ (map_nth_error (fun x => snd (fst x)) _ _ Hx)), (nth_error_nth _ _ _ (map_nth_error (fun x => snd (fst x)) _ _ Hx')).
      rewrite El. unfold ind. assert (HN : nth_error NL n = Some (n3 x)) by (rewrite <- NM; exact (map_nth_error n3 _ _ Hx)). rewrite HN.
      unfold d. destruct (smem (n3 x) ns) eqn:Em.
      * rewrite (fsum_pick (fun a => - D * g * finv C (rho a)) (n3 x) ns (NoDup_nodup _ _)) by (apply smem_In; exact Em). ring.
      * rewrite (fsum_none (fun a => - D * g * finv C (rho a)) (n3 x) ns) by (intros Y; apply smem_In in Y; congruence). ring.
    + rewrite !app_nth2 by lia. rewrite La. unfold ind. rewrite (proj2 (nth_error_None NL n)) by lia.
      transitivity (0 : F); [ring|]. clear - L. induction ns as [|a l IH]; [reflexivity|]. cbn [map fsum]. rewrite <- IH. ring.
Qed.

Lemma authorities_run (gk : aw_gk C) auths : Forall (fun a => fst a <> []) auths -> exists pks, authorities gk auths pks.
Proof.
  induction 1 as [|[U t] l NE _ (pks & IH)]; [exists []; constructor|]. cbn in NE.
  destruct (aw_authgen_runs gk U t 0%nat NE) as (pk & msk & j & E). exists (pk :: pks). constructor; [eauto|exact IH].
Qed.

Lemma moved_fst (d : string -> F) auths : map fst (moved d auths) = map fst auths.
Proof. unfold moved. rewrite map_map. reflexivity. Qed.

Theorem aw_no_outsider nonce pol lang data f (Us : list (list string)) (e : combT C) :
  parse pol lang = Ok (tree f) -> binary_and f = true -> Forall (fun U => U <> []) Us -> small_ok C 2%nat ->
  exists (ts te : nat -> F) auths gk i pks ct j M, map fst auths = Us /\ ts 0%nat <> 0 /\ ts 1%nat <> 0 /\
    aw_setup ts 0%nat = Ok (gk, i) /\ authorities gk auths pks /\
    aw_encrypt nonce gk pks pol lang data te 0%nat = Ok (ct, j) /\
    awct_c0 ct = gtmul C M (gtpow C (pairing C (agk_g1 gk) (agk_g2 gk)) (te 0%nat)) /\
    evalT (aw_view gk pks ct) e <> M.
Proof.
  intros P B NU SO. destruct (aw_outsider nonce pol lang data f Us e P) as (q & c & Pq & X).
  set (ns := nodup string_dec (map (aw_key C) (names f))) in *.
  destruct (avoid [fsum (map c ns)] SO) as (r & Nr & Ir).
  set (ts := fun _ : nat => 1 : F). set (te := fun _ : nat => r). set (rho := fun _ : string => r).
  set (auths := map (fun U => (U, fun _ : nat => 0 : F)) Us).
  assert (EU : map fst auths = Us) by (unfold auths; rewrite map_map; apply map_id).
  assert (NA : Forall (fun a => fst a <> []) auths).
  { apply Forall_forall. intros a Ia. rewrite Forall_forall in NU. apply NU. rewrite <- EU. now apply in_map. }
  set (d := fun n => if smem n ns then - (1) * finv C (rho n) else 0).
  assert (NM : Forall (fun a => fst a <> []) (moved d auths)).
  { apply Forall_forall. intros a Ia. rewrite Forall_forall in NU. apply NU. rewrite <- EU, <- (moved_fst d). now apply in_map. }
  assert (Hs : exists gk i, aw_setup ts 0%nat = Ok (gk, i)) by (eexists _, _; reflexivity). destruct Hs as (gk & i & Hs).
  destruct (authorities_run gk auths NA) as (pks & HA). destruct (authorities_run gk _ NM) as (pks' & HA').
  destruct (aw_encrypt_runs L nonce gk pks pol lang data f te 0%nat P B) as (ct & j & He).
  set (m' := te q - 1 * (ts 0%nat * ts 1%nat)). set (te' := put (put te 0%nat (te 0%nat + 1)) q m').
  destruct (aw_encrypt_runs L nonce gk pks' pol lang data f te' 0%nat P B) as (ct' & j' & He').
  assert (N1 : (1 : F) <> 0) by exact one_neq_zero.
  destruct (X ts te auths rho 1 gk i pks ct j pks' ct' j' EU Hs HA He HA' He' N1 N1 N1) as (E0 & E0' & Y).
  - intros k n _. split; [reflexivity|exact Nr].
  - intros Z. apply Ir. left. transitivity (r * 1); [|ring]. rewrite <- Z. unfold rho. clear - Nr L.
    induction ns as [|a l IH]; cbn [map fsum]; [ring|]. rewrite IH. field. exact Nr.
  - destruct (gt_dec (evalT (aw_view gk pks ct) e) (payload (te q))) as [E|E].
    + exists ts, te', (moved d auths), gk, i, pks', ct', j', (payload m').
      rewrite moved_fst. do 6 (split; [assumption|]). split; [|exact (Y E)].
      rewrite E0'. unfold te'. rewrite put_other by lia. rewrite put_same. reflexivity.
    + exists ts, te, auths, gk, i, pks, ct, j, (payload (te q)). do 7 (split; [assumption|]). exact E.
Qed.

End GenericProofs.
