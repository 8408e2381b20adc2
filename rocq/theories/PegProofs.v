(** * PegProofs: the interpreter of [Peg] terminates and is deterministic *)
From Coq Require Import String Ascii List Bool Arith Lia.
From Verif Require Import Base Peg.
Import ListNotations.

Lemma strip_len x : forall s s', strip x s = Some s' ->
  String.length (st_rest s) = String.length x + String.length (st_rest s').
Proof.
  induction x as [|c x IH]; intros s s' H; cbn in *.
  - injection H as <-. reflexivity.
  - destruct (st_rest s) as [|b r]; [discriminate|]. destruct (Ascii.eqb c b); [|discriminate].
    apply IH in H. cbn in *. lia.
Qed.

Lemma strip1_len p s s' : strip1 p s = Some s' ->
  String.length (st_rest s) = S (String.length (st_rest s')).
Proof.
  unfold strip1. destruct (st_rest s) as [|b r]; [discriminate|]. destruct (p b); [|discriminate].
  intros H. injection H as <-. reflexivity.
Qed.

Section PegProofs.
Context {R : Type} (g : grammar R).

Definition len (s : st) : nat := String.length (st_rest s).

(** ** More fuel does not change the answer *)

(** One unfolding of [run] over an abstract recursive call. *)
Definition step (rec : atomicity -> expr R -> st -> res R) (a : atomicity) (e : expr R) (s : st) : res R :=
    let skip (s : st) : res R :=
      match a with NonAtomic => rec Atomic (g_skip g) s | _ => Done s [] end in
    match e with
    | EStr x => of_opt (strip x s)
    | EStrI c => of_opt (strip1 (fun b => Ascii.eqb (upper1 b) (upper1 c)) s)
    | EAny => of_opt (strip1 (fun _ => true) s)
    | EClass p => of_opt (strip1 p s)
    | ESoi => Done s []
    | EEoi r => match st_rest s with
                | EmptyString => Done s [Tok r (st_col s) EmptyString []]
                | _ => Fail
                end
    | ESeq e1 e2 =>
        match rec a e1 s with
        | Done s1 t1 =>
            match skip s1 with
            | Done s2 _ =>
                match rec a e2 s2 with
                | Done s3 t3 => Done s3 (t1 ++ t3)
                | r => r
                end
            | r => r
            end
        | r => r
        end
    | EAlt e1 e2 =>
        match rec a e1 s with
        | Fail => rec a e2 s
        | r => r
        end
    | EStar e1 =>
        match rec a e1 s with
        | Done s1 t1 =>
            match rec a (EMore e1) s1 with
            | Done s2 t2 => Done s2 (t1 ++ t2)
            | r => r
            end
        | Fail => Done s []
        | Fuel => Fuel
        end
    | EMore e1 =>
        match skip s with
        | Done s1 _ =>
            match rec a e1 s1 with
            | Done s2 t2 =>
                match rec a (EMore e1) s2 with
                | Done s3 t3 => Done s3 (t2 ++ t3)
                | r => r
                end
            | Fail => Done s []
            | Fuel => Fuel
            end
        | Fail => Done s []
        | Fuel => Fuel
        end
    | EOpt e1 =>
        match rec a e1 s with
        | Fail => Done s []
        | r => r
        end
    | ENot e1 =>
        match rec a e1 s with
        | Fail => Done s []
        | Done _ _ => Fail
        | Fuel => Fuel
        end
    | ERule r =>
        let emit (s' : st) (t : list (tok R)) : list (tok R) :=
          [Tok r (st_col s) (between s s') t] in
        match g_kind g r with
        | KSilent => rec a (g_body g r) s
        | KSilentAtomic => rec Atomic (g_body g r) s
        | KNormal =>
            match rec a (g_body g r) s with
            | Done s' t => Done s' (match a with Atomic => t | _ => emit s' t end)
            | x => x
            end
        | KAtomic =>
            match rec Atomic (g_body g r) s with
            | Done s' t => Done s' (match a with Atomic => t | _ => emit s' t end)
            | x => x
            end
        | KCompound =>
            match rec Compound (g_body g r) s with
            | Done s' t => Done s' (emit s' t)
            | x => x
            end
        end
    end.

Lemma run_step n a e s : run g (S n) a e s = step (run g n) a e s.
Proof. reflexivity. Qed.

Lemma step_mono rec rec' a e s :
  (forall a e s, rec a e s <> Fuel -> rec' a e s = rec a e s) ->
  step rec a e s <> Fuel -> step rec' a e s = step rec a e s.
Proof.
  intros IH H.
  assert (IH' : forall a e s r, rec a e s = r -> r <> Fuel -> rec' a e s = r)
    by (intros; subst; now apply IH).
  unfold step in *. cbv zeta in *. destruct e; try reflexivity; destruct a;
    repeat match goal with
    | H : context [match rec ?a ?e ?s with _ => _ end] |- _ =>
        let E := fresh "E" in
        destruct (rec a e s) eqn:E; try congruence;
        rewrite ?(IH' _ _ _ _ E) by discriminate
    | |- context [match g_kind g ?r with _ => _ end] => destruct (g_kind g r)
    end; try reflexivity; try (apply IH; assumption); try congruence.
Qed.

Lemma run_S n : forall a e s, run g n a e s <> Fuel -> run g (S n) a e s = run g n a e s.
Proof.
  induction n as [|n IH]; intros a e s H; [now cbn in H|].
  rewrite run_step in *. rewrite (run_step n). apply step_mono; assumption.
Qed.

Lemma run_mono n m a e s : n <= m -> run g n a e s <> Fuel -> run g m a e s = run g n a e s.
Proof.
  induction 1 as [|m _ IH]; intros H; [reflexivity|].
  rewrite run_S; [now apply IH|]. rewrite IH by exact H. exact H.
Qed.

(** The answer of a run with enough fuel. *)
Definition Runs (a : atomicity) (e : expr R) (s : st) (r : res R) : Prop :=
  r <> Fuel /\ exists n, run g n a e s = r.

Lemma Runs_det a e s r r' : Runs a e s r -> Runs a e s r' -> r = r'.
Proof.
  intros (N & n & E) (N' & n' & E'). destruct (Nat.le_ge_cases n n') as [Hl|Hl].
  - rewrite <- E, <- E'. symmetry. apply run_mono; [exact Hl|congruence].
  - rewrite <- E, <- E'. apply run_mono; [exact Hl|congruence].
Qed.

Lemma Runs_run a e s r n : Runs a e s r -> run g n a e s <> Fuel -> run g n a e s = r.
Proof. intros H N. apply (Runs_det a e s); [|exact H]. split; [exact N|eauto]. Qed.

(** ** Consumption *)

Variable nullr : R -> bool.

(** May match without consuming. *)
Fixpoint nullable (e : expr R) : bool :=
  match e with
  | EStr x => match x with EmptyString => true | _ => false end
  | EStrI _ | EAny | EClass _ => false
  | ESoi | EEoi _ | EStar _ | EMore _ | EOpt _ | ENot _ => true
  | ESeq a b => nullable a && nullable b
  | EAlt a b => nullable a || nullable b
  | ERule r => nullr r
  end.

Hypothesis null_ok : forall r, nullable (g_body g r) = true -> nullr r = true.

Lemma consume n : forall a e s s' t, run g n a e s = Done s' t ->
  len s' <= len s /\ (nullable e = false -> len s' < len s).
Proof.
  induction n as [|n IH]; intros a e s s' t H; [discriminate|].
  assert (Sk : forall s s' t, match a with NonAtomic => run g n Atomic (g_skip g) s | _ => Done s [] end = Done s' t ->
                 len s' <= len s).
  { intros u u' v Hu. destruct a; [now apply IH in Hu|injection Hu as <- _; lia|injection Hu as <- _; lia]. }
  cbn [run] in H. cbv zeta in H. destruct e as [x|c| |p| |r|e1 e2|e1 e2|e1|e1|e1|e1|r]; cbn [nullable].
  - destruct (strip x s) as [u|] eqn:E; [|discriminate]. injection H as <- _.
    apply strip_len in E. unfold len. destruct x; cbn in *; split; try discriminate; lia.
  - unfold of_opt in H. destruct (strip1 _ s) eqn:E; [|discriminate]. injection H as <- _.
    apply strip1_len in E. unfold len. lia.
  - unfold of_opt in H. destruct (strip1 _ s) eqn:E; [|discriminate]. injection H as <- _.
    apply strip1_len in E. unfold len. lia.
  - unfold of_opt in H. destruct (strip1 _ s) eqn:E; [|discriminate]. injection H as <- _.
    apply strip1_len in E. unfold len. lia.
  - injection H as <- _. split; [lia|discriminate].
  - destruct (st_rest s) eqn:E; [|discriminate]. injection H as <- _. split; [lia|discriminate].
  - destruct (run g n a e1 s) as [|s1 t1|] eqn:E1; try discriminate.
    destruct (match a with NonAtomic => run g n Atomic (g_skip g) s1 | _ => Done s1 [] end) as [|s2 t2|] eqn:E2; try discriminate.
    destruct (run g n a e2 s2) as [|s3 t3|] eqn:E3; try discriminate. injection H as <- _.
    apply IH in E1 as (A1 & A2), E3 as (B1 & B2). apply Sk in E2.
    split; [lia|]. intros N. apply andb_false_iff in N as [N|N]; [apply A2 in N|apply B2 in N]; lia.
  - destruct (run g n a e1 s) as [|s1 t1|] eqn:E1; try discriminate.
    + apply IH in H as (A1 & A2). split; [lia|]. intros N. apply orb_false_iff in N as (_ & N). auto.
    + injection H as <- _. apply IH in E1 as (A1 & A2). split; [lia|]. intros N.
      apply orb_false_iff in N as (N & _). auto.
  - split; [|discriminate]. destruct (run g n a e1 s) as [|s1 t1|] eqn:E1; try discriminate.
    + injection H as <- _. lia.
    + destruct (run g n a (EMore e1) s1) as [|s2 t2|] eqn:E2; try discriminate. injection H as <- _.
      apply IH in E1, E2. lia.
  - split; [|discriminate].
    destruct (match a with NonAtomic => run g n Atomic (g_skip g) s | _ => Done s [] end) as [|s1 t1|] eqn:E1; try discriminate.
    + injection H as <- _. lia.
    + apply Sk in E1. destruct (run g n a e1 s1) as [|s2 t2|] eqn:E2; try discriminate.
      * injection H as <- _. lia.
      * destruct (run g n a (EMore e1) s2) as [|s3 t3|] eqn:E3; try discriminate. injection H as <- _.
        apply IH in E2, E3. lia.
  - split; [|discriminate]. destruct (run g n a e1 s) as [|s1 t1|] eqn:E1; try discriminate;
      injection H as <- _; [lia|]. now apply IH in E1.
  - split; [|discriminate]. destruct (run g n a e1 s) as [|s1 t1|] eqn:E1; try discriminate;
      injection H as <- _; lia.
  - assert (X : exists a' t', run g n a' (g_body g r) s = Done s' t').
    { destruct (g_kind g r).
      - destruct (run g n a (g_body g r) s) eqn:E; try discriminate. injection H as <- _. eauto.
      - eauto.
      - eauto.
      - destruct (run g n Atomic (g_body g r) s) eqn:E; try discriminate. injection H as <- _. eauto.
      - destruct (run g n Compound (g_body g r) s) eqn:E; try discriminate. injection H as <- _. eauto. }
    destruct X as (a' & t' & X). apply IH in X as (A1 & A2). split; [exact A1|].
    intros N. apply A2. destruct (nullable (g_body g r)) eqn:Nb; [|reflexivity]. apply null_ok in Nb. congruence.
Qed.

(** ** Enough fuel *)

Variable rank : R -> nat.       (* rules reachable without consuming have smaller rank *)
Variable K : nat.               (* above all ranks *)
Variables Ma Mn : nat.          (* above the sizes of rule bodies, atomic and not *)
Variable Sk : nat.              (* fuel for implicit whitespace that consumes nothing *)

(** Rules in leftmost positions have rank below [k]. *)
Fixpoint lc (k : nat) (e : expr R) : bool :=
  match e with
  | ESeq a b => lc k a && (if nullable a then lc k b else true)
  | EAlt a b => lc k a && lc k b
  | EStar a | EMore a | EOpt a | ENot a => lc k a
  | ERule r => rank r <? k
  | _ => true
  end.

(** Repeated expressions consume. *)
Fixpoint wfs (e : expr R) : bool :=
  match e with
  | ESeq a b | EAlt a b => wfs a && wfs b
  | EStar a | EMore a => negb (nullable a) && wfs a
  | EOpt a | ENot a => wfs a
  | _ => true
  end.

Definition sk (a : atomicity) : nat := match a with NonAtomic => Sk | _ => 0 end.
Definition M (a : atomicity) : nat := match a with NonAtomic => Mn | _ => Ma end.

Fixpoint size (a : atomicity) (e : expr R) : nat :=
  match e with
  | ESeq x y => S (Nat.max (sk a) (Nat.max (size a x) (size a y)))
  | EAlt x y => S (Nat.max (size a x) (size a y))
  | EStar x => S (S (Nat.max (sk a) (size a x)))
  | EMore x => S (Nat.max (sk a) (size a x))
  | EOpt x | ENot x => S (size a x)
  | _ => 1
  end.

Hypothesis rank_top : forall r, rank r < K.
Hypothesis body_wfs : forall r, wfs (g_body g r) = true.
Hypothesis body_lc : forall r, lc (rank r) (g_body g r) = true.
Hypothesis body_size : forall r a, size a (g_body g r) < M a.
Hypothesis MaMn : Ma <= Mn.
Hypothesis skip_wfs : wfs (g_skip g) = true.
Hypothesis skip_lc : lc 1 (g_skip g) = true.
Hypothesis skip_size : Ma + size Atomic (g_skip g) <= Sk.

Definition B : nat := S (K * Mn).

Lemma lc_top e : lc K e = true.
Proof.
  induction e; cbn; try reflexivity; rewrite ?IHe, ?IHe1, ?IHe2; cbn; try reflexivity.
  - now destruct (nullable e1).
  - apply Nat.ltb_lt, rank_top.
Qed.

Lemma M_le a : M a <= Mn.
Proof. destruct a; cbn; lia. Qed.

(** After consuming, any rule may be used. *)
Lemma budget s s' a : len s' < len s -> len s' * B + K * M a < len s * B.
Proof.
  intros H. pose proof (M_le a). assert (K * M a <= K * Mn) by (apply Nat.mul_le_mono_l; lia).
  assert (S (len s') * B <= len s * B) by (apply Nat.mul_le_mono_r; lia). unfold B in *. cbn in *. lia.
Qed.

Theorem enough n : forall a e k s, lc k e = true -> wfs e = true ->
  len s * B + k * M a + size a e <= n -> run g n a e s <> Fuel.
Proof.
  induction n as [|n IH]; intros a e k s Hl Hw Hn.
  { exfalso. destruct e; cbn in Hn; lia. }
  assert (SK : forall u, len u <= len s -> sk a < size a e ->
            match a with NonAtomic => run g n Atomic (g_skip g) u | _ => Done u [] end <> Fuel).
  { intros u Hu Hs. destruct a; try discriminate. apply (IH Atomic (g_skip g) 1 u skip_lc skip_wfs).
    cbn [sk] in Hs. cbn [M]. assert (len u * B <= len s * B) by (apply Nat.mul_le_mono_r; lia). cbn [M] in Hn. lia. }
  cbn [run]. cbv zeta.
  destruct e as [x|c| |p| |r|e1 e2|e1 e2|e1|e1|e1|e1|r]; cbn [size lc wfs] in Hl, Hw, Hn, SK.
  - destruct (strip x s); discriminate.
  - unfold of_opt. destruct (strip1 _ s); discriminate.
  - unfold of_opt. destruct (strip1 _ s); discriminate.
  - unfold of_opt. destruct (strip1 _ s); discriminate.
  - discriminate.
  - destruct (st_rest s); discriminate.
  - apply andb_prop in Hl as (Hl1 & Hl2), Hw as (Hw1 & Hw2).
    pose proof (IH a e1 k s Hl1 Hw1 ltac:(lia)) as N1.
    destruct (run g n a e1 s) as [|s1 t1|] eqn:E1; try congruence.
    pose proof (consume _ _ _ _ _ _ E1) as (C1 & C2).
    pose proof (SK s1 C1 ltac:(lia)) as N2.
    assert (Cs : forall s2 t2, match a with NonAtomic => run g n Atomic (g_skip g) s1 | _ => Done s1 [] end = Done s2 t2 -> len s2 <= len s1).
    { intros s2 t2 E2. destruct a; [now apply consume in E2|injection E2 as <- _; lia|injection E2 as <- _; lia]. }
    destruct (match a with NonAtomic => run g n Atomic (g_skip g) s1 | _ => Done s1 [] end) as [|s2 t2|] eqn:E2; try congruence.
    specialize (Cs s2 t2 eq_refl).
    assert (N3 : run g n a e2 s2 <> Fuel).
    { destruct (nullable e1) eqn:Nb.
      - apply (IH a e2 k s2 Hl2 Hw2). assert (len s2 * B <= len s * B) by (apply Nat.mul_le_mono_r; lia). lia.
      - apply (IH a e2 K s2 (lc_top e2) Hw2). pose proof (budget s s2 a ltac:(specialize (C2 eq_refl); unfold lt in *; etransitivity; [apply le_n_S; exact Cs|exact C2])). lia. }
    destruct (run g n a e2 s2); congruence.
  - apply andb_prop in Hl as (Hl1 & Hl2), Hw as (Hw1 & Hw2).
    pose proof (IH a e1 k s Hl1 Hw1 ltac:(lia)) as N1.
    destruct (run g n a e1 s) as [|s1 t1|] eqn:E1; try congruence.
    apply (IH a e2 k s Hl2 Hw2). lia.
  - apply andb_prop in Hw as (Nb & Hw). apply negb_true_iff in Nb.
    pose proof (IH a e1 k s Hl Hw ltac:(lia)) as N1.
    destruct (run g n a e1 s) as [|s1 t1|] eqn:E1; try congruence.
    pose proof (consume _ _ _ _ _ _ E1) as (_ & C2). specialize (C2 Nb).
    assert (N2 : run g n a (EMore e1) s1 <> Fuel).
    { apply (IH a (EMore e1) K s1); [apply (lc_top (EMore e1))|cbn; rewrite Nb, Hw; reflexivity|].
      pose proof (budget s s1 a C2). cbn [size]. lia. }
    destruct (run g n a (EMore e1) s1); congruence.
  - apply andb_prop in Hw as (Nb & Hw). apply negb_true_iff in Nb.
    pose proof (SK s (le_n _) ltac:(lia)) as N1.
    assert (Cs : forall s2 t2, match a with NonAtomic => run g n Atomic (g_skip g) s | _ => Done s [] end = Done s2 t2 -> len s2 <= len s).
    { intros s2 t2 E2. destruct a; [now apply consume in E2|injection E2 as <- _; lia|injection E2 as <- _; lia]. }
    destruct (match a with NonAtomic => run g n Atomic (g_skip g) s | _ => Done s [] end) as [|s1 t1|] eqn:E1; try congruence.
    specialize (Cs s1 t1 eq_refl).
    pose proof (IH a e1 k s1 Hl Hw) as N2.
    assert (len s1 * B <= len s * B) by (apply Nat.mul_le_mono_r; lia). specialize (N2 ltac:(lia)).
    destruct (run g n a e1 s1) as [|s2 t2|] eqn:E2; try congruence.
    pose proof (consume _ _ _ _ _ _ E2) as (_ & C2). specialize (C2 Nb).
    assert (N3 : run g n a (EMore e1) s2 <> Fuel).
    { apply (IH a (EMore e1) K s2); [apply (lc_top (EMore e1))|cbn; rewrite Nb, Hw; reflexivity|].
      pose proof (budget s s2 a ltac:(lia)). cbn [size]. lia. }
    destruct (run g n a (EMore e1) s2); congruence.
  - pose proof (IH a e1 k s Hl Hw ltac:(lia)) as N1. destruct (run g n a e1 s); congruence.
  - pose proof (IH a e1 k s Hl Hw ltac:(lia)) as N1. destruct (run g n a e1 s); congruence.
  - apply Nat.ltb_lt in Hl.
    assert (Y : forall a', M a' <= M a -> run g n a' (g_body g r) s <> Fuel).
    { intros a' Ha. apply (IH a' (g_body g r) (rank r) s (body_lc r) (body_wfs r)).
      pose proof (body_size r a') as Bs.
      assert (S (rank r) * M a <= k * M a) by (apply Nat.mul_le_mono_r; lia).
      assert (rank r * M a' <= rank r * M a) by (apply Nat.mul_le_mono_l; lia). cbn in *. lia. }
    assert (MA : M Atomic <= M a) by (destruct a; cbn; lia).
    assert (MC : M Compound <= M a) by (destruct a; cbn; lia).
    pose proof (Y a (le_n _)). pose proof (Y Atomic MA). pose proof (Y Compound MC).
    destruct (g_kind g r); try assumption.
    + destruct (run g n a (g_body g r) s); congruence.
    + destruct (run g n Atomic (g_body g r) s); congruence.
    + destruct (run g n Compound (g_body g r) s); congruence.
Qed.

End PegProofs.

(** ** Where a match ends *)

(** Column after a text. *)
Fixpoint adv (w : string) (c : nat) : nat :=
  match w with
  | EmptyString => c
  | String b r => adv r (adv_col b c)
  end.

(** [s'] is [s] after reading some text. *)
Definition reach (s s' : st) : Prop :=
  exists w, st_rest s = (w ++ st_rest s')%string /\ st_col s' = adv w (st_col s).

Lemma adv_app x : forall y c, adv (x ++ y) c = adv y (adv x c).
Proof. induction x as [|b x IH]; intros; cbn; auto. Qed.

Lemma reach_refl s : reach s s.
Proof. exists EmptyString. auto. Qed.

Lemma reach_trans s1 s2 s3 : reach s1 s2 -> reach s2 s3 -> reach s1 s3.
Proof.
  intros (w & A & B) (v & C & D). exists (w ++ v)%string. split.
  - rewrite A, C. clear. induction w; cbn; congruence.
  - now rewrite adv_app, D, B.
Qed.

Lemma strip_reach x : forall s s', strip x s = Some s' -> st_rest s = (x ++ st_rest s')%string /\ st_col s' = adv x (st_col s).
Proof.
  induction x as [|c x IH]; intros s s' H; cbn in *.
  - injection H as <-. auto.
  - destruct (st_rest s) as [|b r]; [discriminate|]. destruct (Ascii.eqb c b) eqn:E; [|discriminate].
    apply Ascii.eqb_eq in E. subst b. apply IH in H as (A & B). cbn in *. split; congruence.
Qed.

Lemma strip1_reach p s s' : strip1 p s = Some s' ->
  exists b, p b = true /\ st_rest s = String b (st_rest s') /\ st_col s' = adv_col b (st_col s).
Proof.
  unfold strip1. destruct (st_rest s) as [|b r]; [discriminate|]. destruct (p b) eqn:E; [|discriminate].
  intros H. injection H as <-. eauto.
Qed.

(** ** What a successful match emits *)

Section Emits.
Context {R : Type} (g : grammar R).
Variable P : atomicity -> R -> st -> st -> list (tok R) -> Prop.

(** Derivations of successful matches, with rules summarised by [P] and
    implicit whitespace by [reach]. *)
Inductive emits (a : atomicity) : expr R -> st -> st -> list (tok R) -> Prop :=
| m_str x s s' : strip x s = Some s' -> emits a (EStr x) s s' []
| m_stri c s s' : strip1 (fun b => Ascii.eqb (upper1 b) (upper1 c)) s = Some s' -> emits a (EStrI c) s s' []
| m_any s s' : strip1 (fun _ => true) s = Some s' -> emits a EAny s s' []
| m_class p s s' : strip1 p s = Some s' -> emits a (EClass p) s s' []
| m_soi s : emits a ESoi s s []
| m_eoi r s : st_rest s = EmptyString -> emits a (EEoi r) s s [Tok r (st_col s) EmptyString []]
| m_seq e1 e2 s s1 s2 s3 t1 t3 :
    emits a e1 s s1 t1 -> reach s1 s2 -> emits a e2 s2 s3 t3 -> emits a (ESeq e1 e2) s s3 (t1 ++ t3)
| m_left e1 e2 s s' t : emits a e1 s s' t -> emits a (EAlt e1 e2) s s' t
| m_right e1 e2 s s' t : emits a e2 s s' t -> emits a (EAlt e1 e2) s s' t
| m_star0 e s : emits a (EStar e) s s []
| m_star1 e s s1 s2 t1 t2 : emits a e s s1 t1 -> emits a (EMore e) s1 s2 t2 -> emits a (EStar e) s s2 (t1 ++ t2)
| m_more0 e s : emits a (EMore e) s s []
| m_more1 e s s1 s2 s3 t2 t3 :
    reach s s1 -> emits a e s1 s2 t2 -> emits a (EMore e) s2 s3 t3 -> emits a (EMore e) s s3 (t2 ++ t3)
| m_opt0 e s : emits a (EOpt e) s s []
| m_opt1 e s s' t : emits a e s s' t -> emits a (EOpt e) s s' t
| m_not e s : emits a (ENot e) s s []
| m_rule r s s' t : P a r s s' t -> emits a (ERule r) s s' t.

(** The mode in which the body of a rule runs, and the tokens it leaves. *)
Definition mode (a : atomicity) (r : R) : atomicity :=
  match g_kind g r with
  | KNormal | KSilent => a
  | KSilentAtomic | KAtomic => Atomic
  | KCompound => Compound
  end.
Definition wrap (a : atomicity) (r : R) (s s' : st) (t : list (tok R)) : list (tok R) :=
  match g_kind g r with
  | KSilent | KSilentAtomic => t
  | KNormal | KAtomic => match a with Atomic => t | _ => [Tok r (st_col s) (between s s') t] end
  | KCompound => [Tok r (st_col s) (between s s') t]
  end.

Hypothesis P_reach : forall a r s s' t, P a r s s' t -> reach s s'.
Hypothesis P_body : forall a r s s' t,
  emits (mode a r) (g_body g r) s s' t -> P a r s s' (wrap a r s s' t).

Lemma emits_reach a e s s' t : emits a e s s' t -> reach s s'.
Proof.
  induction 1; try apply reach_refl; eauto using reach_trans.
  - apply strip_reach in H as (A & B). eexists; eauto.
  - apply strip1_reach in H as (b & _ & A & B). exists (String b EmptyString). auto.
  - apply strip1_reach in H as (b & _ & A & B). exists (String b EmptyString). auto.
  - apply strip1_reach in H as (b & _ & A & B). exists (String b EmptyString). auto.
Qed.

Lemma run_emits n : forall a e s s' t, run g n a e s = Done s' t -> emits a e s s' t.
Proof.
  induction n as [|n IH]; intros a e s s' t H; [discriminate|].
  assert (Sk : forall s s' t, match a with NonAtomic => run g n Atomic (g_skip g) s | _ => Done s [] end = Done s' t ->
                 reach s s').
  { intros u u' v Hu. destruct a.
    - apply IH, emits_reach in Hu. exact Hu.
    - injection Hu as <- _. apply reach_refl.
    - injection Hu as <- _. apply reach_refl. }
  cbn [run] in H. cbv zeta in H. destruct e as [x|c| |p| |r|e1 e2|e1 e2|e1|e1|e1|e1|r].
  - destruct (strip x s) as [u|] eqn:E; [|discriminate]. injection H as <- <-. now constructor.
  - unfold of_opt in H. destruct (strip1 _ s) eqn:E; [|discriminate]. injection H as <- <-. now constructor.
  - unfold of_opt in H. destruct (strip1 _ s) eqn:E; [|discriminate]. injection H as <- <-. now constructor.
  - unfold of_opt in H. destruct (strip1 _ s) eqn:E; [|discriminate]. injection H as <- <-. now constructor.
  - injection H as <- <-. constructor.
  - destruct (st_rest s) eqn:E; [|discriminate]. injection H as <- <-. now constructor.
  - destruct (run g n a e1 s) as [|s1 t1|] eqn:E1; try discriminate.
    destruct (match a with NonAtomic => run g n Atomic (g_skip g) s1 | _ => Done s1 [] end) as [|s2 t2|] eqn:E2; try discriminate.
    destruct (run g n a e2 s2) as [|s3 t3|] eqn:E3; try discriminate. injection H as <- <-.
    econstructor; eauto.
  - destruct (run g n a e1 s) as [|s1 t1|] eqn:E1; try discriminate.
    + apply m_right. eauto.
    + injection H as <- <-. apply m_left. eauto.
  - destruct (run g n a e1 s) as [|s1 t1|] eqn:E1; try discriminate.
    + injection H as <- <-. constructor.
    + destruct (run g n a (EMore e1) s1) as [|s2 t2|] eqn:E2; try discriminate. injection H as <- <-.
      econstructor; eauto.
  - destruct (match a with NonAtomic => run g n Atomic (g_skip g) s | _ => Done s [] end) as [|s1 t1|] eqn:E1; try discriminate.
    + injection H as <- <-. constructor.
    + destruct (run g n a e1 s1) as [|s2 t2|] eqn:E2; try discriminate.
      * injection H as <- <-. constructor.
      * destruct (run g n a (EMore e1) s2) as [|s3 t3|] eqn:E3; try discriminate. injection H as <- <-.
        econstructor; eauto.
  - destruct (run g n a e1 s) as [|s1 t1|] eqn:E1; try discriminate;
      injection H as <- <-; [constructor|]. apply m_opt1. eauto.
  - destruct (run g n a e1 s) as [|s1 t1|] eqn:E1; try discriminate; injection H as <- <-. constructor.
  - constructor. pose proof (P_body a r s s') as PB. unfold mode, wrap in PB. destruct (g_kind g r).
    + destruct (run g n a (g_body g r) s) as [|s1 t1|] eqn:E; try discriminate. injection H as <- <-. eauto.
    + eauto.
    + eauto.
    + destruct (run g n Atomic (g_body g r) s) as [|s1 t1|] eqn:E; try discriminate. injection H as <- <-. eauto.
    + destruct (run g n Compound (g_body g r) s) as [|s1 t1|] eqn:E; try discriminate. injection H as <- <-. eauto.
Qed.

(** Induction over a repetition. *)
Lemma emits_star (Q : st -> st -> list (tok R) -> Prop) a e s s' t :
  (forall s, Q s s []) ->
  (forall s s1 s2 s3 t1 t2, reach s s1 -> emits a e s1 s2 t1 -> Q s2 s3 t2 -> Q s s3 (t1 ++ t2)) ->
  emits a (EStar e) s s' t -> Q s s' t.
Proof.
  intros Q0 Q1.
  assert (X : forall x u u' v, emits a x u u' v -> x = EMore e -> Q u u' v).
  { induction 1; intros E; try discriminate; [apply Q0|]. injection E as ->. eauto. }
  intros H. inversion H; subst; [apply Q0|]. eapply Q1; [apply reach_refl|eauto|eauto].
Qed.

End Emits.
