(** * CostJson: a JSON policy is parsed in polynomial time *)
From Coq Require Import String Ascii List Bool Arith Lia.
From Verif Require Import Base Policy Spec Peg Grammar Parse PegProofs ParseProofs ParseText Cost CostProofs.
Import ListNotations.
Local Open Scope string_scope.
Notation g := json.

Lemma null_ok r : nullable null_json (g_body g r) = true -> null_json r = true.
Proof. destruct r; vm_compute; congruence. Qed.

Lemma run_len n a e s s' t : run g n a e s = Done s' t ->
  len s' <= len s /\ (nullable null_json e = false -> len s' < len s).
Proof. apply consume, null_ok. Qed.

(** ** Expressions without policy nodes *)

(** Bound [k * p ^ d] for the work on a text shorter than [p]; [None] for
    expressions that reach a policy node. *)
Fixpoint flat (n : nat) (a : atomicity) (e : expr rule) : option (nat * nat) :=
  match n with
  | O => None
  | S n =>
    let sk := match a with NonAtomic => flat n Atomic (g_skip g) | _ => Some (0, 0) end in
    match e with
    | EStr _ | EStrI _ | EAny | EClass _ | ESoi | EEoi _ => Some (1, 0)
    | ESeq x y =>
        match flat n a x, sk, flat n a y with
        | Some (k1, d1), Some (k2, d2), Some (k3, d3) => Some (1 + k1 + k2 + k3, Nat.max d1 (Nat.max d2 d3))
        | _, _, _ => None
        end
    | EAlt x y =>
        match flat n a x, flat n a y with
        | Some (k1, d1), Some (k3, d3) => Some (1 + k1 + k3, Nat.max d1 d3)
        | _, _ => None
        end
    | EStar x | EMore x =>
        if nullable null_json x then None else
        match flat n a x, sk with
        | Some (k1, d1), Some (k2, d2) => Some (2 + k1 + k1 + k2, S (Nat.max d1 d2))
        | _, _ => None
        end
    | EOpt x | ENot x => match flat n a x with Some (k, d) => Some (1 + k, d) | None => None end
    | ERule r => match flat n (mode g a r) (g_body g r) with Some (k, d) => Some (1 + k, d) | None => None end
    end
  end.

Section Flat.
Variable p : nat.
Hypothesis p1 : 1 <= p.

Lemma pow_1 d : 1 <= p ^ d.
Proof. induction d; cbn; nia. Qed.
Lemma pow_le d d' : d <= d' -> p ^ d <= p ^ d'.
Proof. intros H. apply Nat.pow_le_mono_r; lia. Qed.
Lemma raise k d d' : d <= d' -> k * p ^ d <= k * p ^ d'.
Proof. intros H. apply Nat.mul_le_mono_l, pow_le, H. Qed.

Lemma more_work a e Y Z : nullable null_json e = false -> forall n,
  (forall m s, m < n -> len s < p -> match a with NonAtomic => cost g m Atomic (g_skip g) s | _ => 0 end <= Y) ->
  (forall m s, m < n -> len s < p -> cost g m a e s <= Z) ->
  forall s, len s < p -> cost g n a (EMore e) s <= (len s + 1) * (1 + Y + Z).
Proof.
  intros Nu n. induction n as [|n IH]; intros HY HZ s Hs; [cbn; lia|].
  cbn [cost]. set (skc := match a with NonAtomic => cost g n Atomic (g_skip g) s | _ => 0 end).
  assert (HS : skc <= Y) by (apply HY; lia).
  assert (IH' : forall s, len s < p -> cost g n a (EMore e) s <= (len s + 1) * (1 + Y + Z)).
  { apply IH; intros; [apply HY|apply HZ]; lia. }
  destruct (match a with NonAtomic => run g n Atomic (g_skip g) s | _ => Done s [] end) as [|s1 t|] eqn:E; [nia| |nia].
  assert (L1 : len s1 <= len s).
  { destruct a; [eapply run_len; exact E|injection E as <- _; lia|injection E as <- _; lia]. }
  specialize (HZ n s1 ltac:(lia) ltac:(lia)).
  destruct (run g n a e s1) as [|s2 t2|] eqn:E2; [nia| |nia].
  apply run_len in E2 as (_ & L2). specialize (L2 Nu). specialize (IH' s2 ltac:(lia)). nia.
Qed.

Lemma flat_bound n : forall a e k d, flat n a e = Some (k, d) ->
  forall m s, len s < p -> cost g m a e s <= k * p ^ d.
Proof.
  induction n as [|n IH]; intros a e k d H m s Hs; [discriminate|].
  destruct m as [|m]; [cbn; lia|]. cbn [flat] in H. cbv zeta in H.
  set (sk := match a with NonAtomic => flat n Atomic (g_skip g) | _ => Some (0, 0) end) in H.
  assert (SK : forall k2 d2, sk = Some (k2, d2) -> forall m s, len s < p ->
     match a with NonAtomic => cost g m Atomic (g_skip g) s | _ => 0 end <= k2 * p ^ d2).
  { subst sk. destruct a; intros k2 d2 E; [now apply IH|..]; intros; lia. }
  assert (SL : forall m s s' t, match a with NonAtomic => run g m Atomic (g_skip g) s | _ => Done s [] end = Done s' t ->
     len s' <= len s).
  { destruct a; intros u v w t E; [now apply run_len in E|..]; injection E as <- _; lia. }
  destruct e as [x|c| |q| |r|e1 e2|e1 e2|e1|e1|e1|e1|r].
  1-6: injection H as <- <-; cbn; lia.
  - destruct (flat n a e1) as [(k1, d1)|] eqn:E1; [|discriminate].
    destruct sk as [(k2, d2)|] eqn:E2; [|discriminate]. destruct (flat n a e2) as [(k3, d3)|] eqn:E3; [|discriminate].
    injection H as <- <-. set (D := Nat.max d1 (Nat.max d2 d3)).
    pose proof (raise k1 d1 D ltac:(lia)). pose proof (raise k2 d2 D ltac:(lia)). pose proof (raise k3 d3 D ltac:(lia)).
    pose proof (pow_1 D). pose proof (IH a e1 k1 d1 E1 m s Hs) as C1. cbn [cost].
    assert (G : forall x y z, x <= k1 * p ^ D -> y <= k2 * p ^ D -> z <= k3 * p ^ D ->
                S (x + (y + z)) <= (1 + k1 + k2 + k3) * p ^ D) by (intros; nia).
    destruct (run g m a e1 s) as [|s1 t1|] eqn:R1; try (specialize (G (cost g m a e1 s) 0 0); lia).
    apply run_len in R1 as (L1 & _). specialize (SK _ _ eq_refl m s1 ltac:(lia)).
    destruct (match a with NonAtomic => run g m Atomic (g_skip g) s1 | _ => Done s1 [] end) as [|s2 t2|] eqn:R2;
      [apply (G _ _ 0); lia| |apply (G _ _ 0); lia].
    apply SL in R2. apply G; [lia|lia|]. pose proof (IH a e2 k3 d3 E3 m s2 ltac:(lia)). lia.
  - destruct (flat n a e1) as [(k1, d1)|] eqn:E1; [|discriminate]. destruct (flat n a e2) as [(k3, d3)|] eqn:E3; [|discriminate].
    injection H as <- <-. set (D := Nat.max d1 d3).
    pose proof (raise k1 d1 D ltac:(lia)). pose proof (raise k3 d3 D ltac:(lia)). pose proof (pow_1 D).
    pose proof (IH a e1 k1 d1 E1 m s Hs) as C1. pose proof (IH a e2 k3 d3 E3 m s Hs) as C3. cbn [cost].
    destruct (run g m a e1 s); nia.
  - destruct (nullable null_json e1) eqn:Nu; [discriminate|].
    destruct (flat n a e1) as [(k1, d1)|] eqn:E1; [|discriminate]. destruct sk as [(k2, d2)|] eqn:E2; [|discriminate].
    injection H as <- <-. set (D := Nat.max d1 d2).
    pose proof (raise k1 d1 D ltac:(lia)). pose proof (raise k2 d2 D ltac:(lia)). pose proof (pow_1 D).
    pose proof (IH a e1 k1 d1 E1 m s Hs) as C1. cbn [cost Nat.pow].
    assert (MW : forall s, len s < p -> cost g m a (EMore e1) s <= (len s + 1) * (1 + k2 * p ^ D + k1 * p ^ D)).
    { apply more_work; [exact Nu|..]; intros u v Hu Hv.
      - specialize (SK _ _ eq_refl u v Hv). lia.
      - pose proof (IH a e1 k1 d1 E1 u v Hv). lia. }
    destruct (run g m a e1 s) as [|s1 t1|] eqn:R1; try nia.
    apply run_len in R1 as (L1 & _). specialize (MW s1 ltac:(lia)).
    assert ((len s1 + 1) * (1 + k2 * p ^ D + k1 * p ^ D) <= p * ((1 + k2 + k1) * p ^ D)) by (apply Nat.mul_le_mono; nia).
    nia.
  - destruct (nullable null_json e1) eqn:Nu; [discriminate|].
    destruct (flat n a e1) as [(k1, d1)|] eqn:E1; [|discriminate]. destruct sk as [(k2, d2)|] eqn:E2; [|discriminate].
    injection H as <- <-. set (D := Nat.max d1 d2).
    pose proof (raise k1 d1 D ltac:(lia)). pose proof (raise k2 d2 D ltac:(lia)). pose proof (pow_1 D).
    assert (MW : cost g (S m) a (EMore e1) s <= (len s + 1) * (1 + k2 * p ^ D + k1 * p ^ D)).
    { apply more_work; [exact Nu|..|exact Hs]; intros u v Hu Hv.
      - specialize (SK _ _ eq_refl u v Hv). lia.
      - pose proof (IH a e1 k1 d1 E1 u v Hv). lia. }
    assert ((len s + 1) * (1 + k2 * p ^ D + k1 * p ^ D) <= p * ((1 + k2 + k1) * p ^ D)) by (apply Nat.mul_le_mono; nia).
    cbn [Nat.pow]. nia.
  - destruct (flat n a e1) as [(k1, d1)|] eqn:E1; [|discriminate]. injection H as <- <-.
    pose proof (IH a e1 k1 d1 E1 m s Hs). pose proof (pow_1 d1). cbn [cost]. nia.
  - destruct (flat n a e1) as [(k1, d1)|] eqn:E1; [|discriminate]. injection H as <- <-.
    pose proof (IH a e1 k1 d1 E1 m s Hs). pose proof (pow_1 d1). cbn [cost]. nia.
  - destruct (flat n (mode g a r) (g_body g r)) as [(k1, d1)|] eqn:E1; [|discriminate]. injection H as <- <-.
    pose proof (IH _ _ k1 d1 E1 m s Hs) as X. pose proof (pow_1 d1). cbn [cost]. unfold mode in X.
    destruct (g_kind g r); nia.
Qed.
End Flat.

(** ** Evaluations: result and work of a run with enough fuel *)

Definition ev (a : atomicity) (e : expr rule) (s : st) (r : res rule) (c : nat) : Prop :=
  r <> Fuel /\ exists n, run g n a e s = r /\ cost g n a e s = c.
Notation Ev := (ev NonAtomic).
Definition sk (s s' : st) (c : nat) : Prop := exists t, ev Atomic e_skip s (Done s' t) c.

Lemma ev_det a e s r c r' c' : ev a e s r c -> ev a e s r' c' -> r = r' /\ c = c'.
Proof.
  intros (N & n & R & Cn) (N' & m & R' & Cm).
  destruct (Nat.le_gt_cases n m) as [H|H].
  - pose proof (run_mono g n m a e s H ltac:(congruence)). pose proof (cost_mono g n m a e s H ltac:(congruence)).
    split; congruence.
  - pose proof (run_mono g m n a e s ltac:(lia) ltac:(congruence)).
    pose proof (cost_mono g m n a e s ltac:(lia) ltac:(congruence)). split; congruence.
Qed.
Lemma sk_det s s1 c1 s2 c2 : sk s s1 c1 -> sk s s2 c2 -> s1 = s2.
Proof. intros (t & A) (u & B). destruct (ev_det _ _ _ _ _ _ _ A B) as (E & _). now injection E. Qed.
Lemma ev_len a e s s' t c : ev a e s (Done s' t) c ->
  len s' <= len s /\ (nullable null_json e = false -> len s' < len s).
Proof. intros (_ & n & R & _). eapply run_len; exact R. Qed.
Lemma sk_len s s' c : sk s s' c -> len s' <= len s.
Proof. intros (t & H). now apply ev_len in H. Qed.

Lemma more_no_fail n e : forall s, run g n Atomic (EMore e) s <> Fail.
Proof.
  induction n as [|n IH]; intros s; [discriminate|]. cbn [run].
  destruct (run g n Atomic e s) as [|s2 t2|]; try discriminate. specialize (IH s2).
  destruct (run g n Atomic (EMore e) s2); [contradiction|discriminate|discriminate].
Qed.
Lemma star_no_fail n e s : run g n Atomic (EStar e) s <> Fail.
Proof.
  destruct n as [|n]; [discriminate|]. cbn [run]. destruct (run g n Atomic e s) as [|s2 t2|]; try discriminate.
  pose proof (more_no_fail n e s2). destruct (run g n Atomic (EMore e) s2); [contradiction|discriminate|discriminate].
Qed.
Lemma skip_no_fail n s : run g n Atomic e_skip s <> Fail.
Proof.
  destruct n as [|n]; [discriminate|]. unfold e_skip. cbn [run].
  pose proof (star_no_fail n (ERule WHITESPACE) s). destruct (run g n Atomic (EStar (ERule WHITESPACE)) s) as [|s1 t1|]; [contradiction| |discriminate].
  pose proof (star_no_fail n (ERule COMMENT ~~ EStar (ERule WHITESPACE)) s1).
  destruct (run g n Atomic (EStar (ERule COMMENT ~~ EStar (ERule WHITESPACE))) s1); [contradiction|discriminate|discriminate].
Qed.

Lemma ev_run a e s r c : ev a e s r c -> exists n, run g (S n) a e s = r /\ cost g (S n) a e s = c /\ r <> Fuel.
Proof. intros (N & [|n] & R & E); [cbn in R; congruence|eauto]. Qed.
Lemma ev_intro a e n s : run g n a e s <> Fuel -> ev a e s (run g n a e s) (cost g n a e s).
Proof. intros H. split; [exact H|eauto]. Qed.
Lemma sk_intro n s s' t : run g n Atomic e_skip s = Done s' t -> sk s s' (cost g n Atomic e_skip s).
Proof. intros H. exists t. split; [discriminate|eauto]. Qed.
Lemma ev_eq a e n s r : run g n a e s = r -> r <> Fuel -> ev a e s r (cost g n a e s).
Proof. intros <-. apply ev_intro. Qed.

Lemma inv_seq e1 e2 s r c : Ev (e1 ~~ e2) s r c ->
  (exists c1, Ev e1 s Fail c1 /\ r = Fail /\ c = S c1) \/
  (exists s1 t1 c1 s2 cs r2 c2, Ev e1 s (Done s1 t1) c1 /\ sk s1 s2 cs /\ Ev e2 s2 r2 c2 /\ c = S (c1 + (cs + c2)) /\
     (r2 = Fail /\ r = Fail \/ exists s3 t2 t3, r2 = Done s3 t2 /\ r = Done s3 t3)).
Proof.
  intros H. apply ev_run in H as (n & R & E & N). cbn [run cost] in R, E. change (g_skip g) with e_skip in *.
  destruct (run g n NonAtomic e1 s) as [|s1 t1|] eqn:R1; [|right|congruence].
  - left. exists (cost g n NonAtomic e1 s). split; [now apply ev_eq|]. split; [congruence|lia].
  - destruct (run g n Atomic e_skip s1) as [|s2 t2|] eqn:RS; [now apply skip_no_fail in RS| |congruence].
    exists s1, t1, (cost g n NonAtomic e1 s), s2, (cost g n Atomic e_skip s1), (run g n NonAtomic e2 s2), (cost g n NonAtomic e2 s2).
    split; [now apply ev_eq|]. split; [now apply sk_intro in RS|].
    destruct (run g n NonAtomic e2 s2) as [|s3 t3|] eqn:R3; [| |congruence].
    + split; [now apply ev_eq|]. split; [lia|]. left. split; congruence.
    + split; [now apply ev_eq|]. split; [lia|]. right. exists s3, t3, (t1 ++ t3)%list. split; congruence.
Qed.

Lemma inv_alt e1 e2 s r c : Ev (e1 // e2) s r c ->
  (exists s' t c1, Ev e1 s (Done s' t) c1 /\ r = Done s' t /\ c = S c1) \/
  (exists c1 c2, Ev e1 s Fail c1 /\ Ev e2 s r c2 /\ c = S (c1 + c2)).
Proof.
  intros H. apply ev_run in H as (n & R & E & N). cbn [run cost] in R, E.
  destruct (run g n NonAtomic e1 s) as [|s1 t1|] eqn:R1; [right|left|congruence].
  - exists (cost g n NonAtomic e1 s), (cost g n NonAtomic e2 s). split; [now apply ev_eq|].
    split; [now apply ev_eq|lia].
  - exists s1, t1, (cost g n NonAtomic e1 s). split; [now apply ev_eq|]. split; [congruence|lia].
Qed.

Lemma inv_star e s r c : Ev (EStar e) s r c ->
  (exists c1, Ev e s Fail c1 /\ r = Done s [] /\ c = S c1) \/
  (exists s1 t1 c1 r2 c2, Ev e s (Done s1 t1) c1 /\ Ev (EMore e) s1 r2 c2 /\ c = S (c1 + c2) /\
     (r2 = Fail /\ r = Fail \/ exists s3 t2 t3, r2 = Done s3 t2 /\ r = Done s3 t3)).
Proof.
  intros H. apply ev_run in H as (n & R & E & N). cbn [run cost] in R, E.
  destruct (run g n NonAtomic e s) as [|s1 t1|] eqn:R1; [left|right|congruence].
  - exists (cost g n NonAtomic e s). split; [now apply ev_eq|]. split; [congruence|lia].
  - exists s1, t1, (cost g n NonAtomic e s), (run g n NonAtomic (EMore e) s1), (cost g n NonAtomic (EMore e) s1).
    split; [now apply ev_eq|]. destruct (run g n NonAtomic (EMore e) s1) as [|s3 t3|] eqn:R3; [| |congruence].
    + split; [now apply ev_eq|]. split; [lia|]. left. split; congruence.
    + split; [now apply ev_eq|]. split; [lia|]. right. exists s3, t3, (t1 ++ t3)%list. split; congruence.
Qed.

Lemma inv_more e s r c : Ev (EMore e) s r c -> exists s1 cs, sk s s1 cs /\
  ((exists c1, Ev e s1 Fail c1 /\ r = Done s [] /\ c = S (cs + c1)) \/
   (exists s2 t2 c1 r3 c3, Ev e s1 (Done s2 t2) c1 /\ Ev (EMore e) s2 r3 c3 /\ c = S (cs + (c1 + c3)) /\
     (r3 = Fail /\ r = Fail \/ exists s3 t3 t4, r3 = Done s3 t3 /\ r = Done s3 t4))).
Proof.
  intros H. apply ev_run in H as (n & R & E & N). cbn [run cost] in R, E. change (g_skip g) with e_skip in *.
  destruct (run g n Atomic e_skip s) as [|s1 t1|] eqn:RS; [now apply skip_no_fail in RS| |congruence].
  exists s1, (cost g n Atomic e_skip s). split; [now apply sk_intro in RS|].
  destruct (run g n NonAtomic e s1) as [|s2 t2|] eqn:R1; [left|right|congruence].
  - exists (cost g n NonAtomic e s1). split; [now apply ev_eq|]. split; [congruence|lia].
  - exists s2, t2, (cost g n NonAtomic e s1), (run g n NonAtomic (EMore e) s2), (cost g n NonAtomic (EMore e) s2).
    split; [now apply ev_eq|]. destruct (run g n NonAtomic (EMore e) s2) as [|s3 t3|] eqn:R3; [| |congruence].
    + split; [now apply ev_eq|]. split; [lia|]. left. split; congruence.
    + split; [now apply ev_eq|]. split; [lia|]. right. exists s3, t3, (t2 ++ t3)%list. split; congruence.
Qed.

Lemma inv_rule x s r c : g_kind g x = KNormal \/ g_kind g x = KSilent -> Ev (ERule x) s r c ->
  exists r' c', Ev (g_body g x) s r' c' /\ c = S c' /\
     (r' = Fail /\ r = Fail \/ exists s3 t2 t3, r' = Done s3 t2 /\ r = Done s3 t3).
Proof.
  intros K H. apply ev_run in H as (n & R & E & N). cbn [run cost] in R, E.
  exists (run g n NonAtomic (g_body g x) s), (cost g n NonAtomic (g_body g x) s).
  destruct K as [K|K]; rewrite K in R, E.
  all: destruct (run g n NonAtomic (g_body g x) s) as [|s3 t3|] eqn:R3; [| |congruence];
    (split; [now apply ev_eq|]; split; [lia|]).
  1,3: left; split; congruence.
  all: right; do 3 eexists; split; [reflexivity|]; symmetry; exact R.
Qed.

Lemma inv_str a x s r c : ev a (EStr x) s r c -> r = of_opt (strip x s) /\ c = 1.
Proof. intros H. apply ev_run in H as (n & R & E & N). cbn in R, E. split; congruence. Qed.

(** ** The operator of a node is not ambiguous *)
Definition starts (c : ascii) (s : st) : Prop := exists x, st_rest s = String c x.
Lemma str_starts x y s s' t c : Ev (EStr (String x y)) s (Done s' t) c -> starts x s.
Proof.
  intros H. apply inv_str in H as (H & _). cbn in H. unfold starts. destruct (st_rest s) as [|b r]; [discriminate|].
  destruct (Ascii.eqb_spec x b) as [->|]; [eauto|discriminate].
Qed.
Lemma starts_one x y s : starts x s -> starts y s -> x = y.
Proof. intros (u & A) (v & B). rewrite A in B. now injection B. Qed.

Definition op_val (t : bool) : rule := if t then andvalue else orvalue.
Lemma val_starts t s s' l c : Ev (ERule (op_val t)) s (Done s' l) c ->
  exists x, starts x s /\ In x (if t then ["a"; "A"; "&"]%char else ["o"; "O"; "|"]%char).
Proof.
  intros H. assert (K : g_kind g (op_val t) = KSilent) by (now destruct t).
  apply inv_rule in H as (r & c' & H & _ & [(_ & B)|(s3 & t2 & t3 & -> & B)]); [discriminate B| |now right].
  assert (X : exists x1 y1 x2 y2 x3 y3, g_body g (op_val t) = (EStr (String x1 y1) // EStr (String x2 y2) // EStr (String x3 y3))
     /\ (if t then ["a"; "A"; "&"]%char else ["o"; "O"; "|"]%char) = [x1; x2; x3]).
  { destruct t; do 6 eexists; (split; reflexivity). }
  destruct X as (x1 & y1 & x2 & y2 & x3 & y3 & X & Y). rewrite X in H. rewrite Y.
  apply inv_alt in H as [(u & v & w & H & _)|(c1 & c2 & _ & H & _)];
    [exists x1; split; [eapply str_starts; exact H|cbn; auto]|].
  apply inv_alt in H as [(u & v & w & H & _)|(c3 & c4 & _ & H & _)];
    [exists x2; split; [eapply str_starts; exact H|cbn; auto]|].
  exists x3; split; [eapply str_starts; exact H|cbn; auto].
Qed.

Lemma op_starts t s s' l c : Ev (ERule (op_rule t)) s (Done s' l) c ->
  (exists s1 l1 c1, Ev (ERule (op_val t)) s (Done s1 l1) c1) \/
  (exists s1 l1 c1 s2 c2 s3 l3 c3, Ev (ERule QUOTE) s (Done s1 l1) c1 /\ sk s1 s2 c2 /\ Ev (ERule (op_val t)) s2 (Done s3 l3) c3).
Proof.
  intros H. assert (K : g_kind g (op_rule t) = KSilent) by (now destruct t).
  apply inv_rule in H as (r & c' & H & _ & [(_ & B)|(s3 & t2 & t3 & -> & B)]); [discriminate B| |now right].
  assert (X : g_body g (op_rule t) = (ERule (op_val t) // ERule QUOTE ~~ ERule (op_val t) ~~ ERule QUOTE)) by (now destruct t).
  rewrite X in H. apply inv_alt in H as [(u & v & w & H & _)|(c1 & c2 & _ & H & _)]; [left; eauto|right].
  apply inv_seq in H as [(c3 & _ & E & _)|(s1 & t1 & c3 & s2 & cs & r2 & c4 & H1 & S1 & H2 & _ & R2)]; [discriminate E|].
  destruct R2 as [(_ & E)|(s4 & t4 & t5 & -> & _)]; [discriminate E|].
  apply inv_seq in H2 as [(c5 & _ & E & _)|(s5 & t6 & c5 & s6 & cs2 & r5 & c6 & H3 & _)]; [discriminate E|].
  exists s1, t1, c3, s2, cs, s5, t6, c5. auto.
Qed.

Lemma quote_starts s s' l c : Ev (ERule QUOTE) s (Done s' l) c -> starts (ascii_of_nat 34) s.
Proof.
  intros H. apply inv_rule in H as (r & c' & H & _ & [(_ & B)|(s3 & t2 & t3 & -> & B)]); [discriminate B| |now right].
  eapply str_starts; exact H.
Qed.

Lemma op_exclusive s s1 l1 c1 s2 l2 c2 :
  Ev (ERule (op_rule true)) s (Done s1 l1) c1 -> Ev (ERule (op_rule false)) s (Done s2 l2) c2 -> False.
Proof.
  assert (V : forall s s1 l1 c1 s2 l2 c2, Ev (ERule (op_val true)) s (Done s1 l1) c1 ->
                Ev (ERule (op_val false)) s (Done s2 l2) c2 -> False).
  { intros u u1 m1 d1 u2 m2 d2 A B. apply val_starts in A as (x & A & A'). apply val_starts in B as (y & B & B').
    rewrite (starts_one _ _ _ A B) in A'. cbn in A', B'. intuition (subst; discriminate). }
  assert (Q : forall t s s1 l1 c1 s2 l2 c2, Ev (ERule (op_val t)) s (Done s1 l1) c1 ->
                Ev (ERule QUOTE) s (Done s2 l2) c2 -> False).
  { intros t u u1 m1 d1 u2 m2 d2 A B. apply val_starts in A as (x & A & A'). apply quote_starts in B.
    rewrite (starts_one _ _ _ A B) in A'. destruct t; cbn in A'; intuition discriminate. }
  intros A B. apply op_starts in A as [(a1 & a2 & a3 & A)|(a1 & a2 & a3 & a4 & a5 & a6 & a7 & a8 & A1 & A2 & A3)];
    apply op_starts in B as [(b1 & b2 & b3 & B)|(b1 & b2 & b3 & b4 & b5 & b6 & b7 & b8 & B1 & B2 & B3)].
  - eapply V; eassumption.
  - eapply (Q true); eassumption.
  - eapply (Q false); eassumption.
  - destruct (ev_det _ _ _ _ _ _ _ A1 B1) as (E & _). injection E as <- _.
    pose proof (sk_det _ _ _ _ _ A2 B2). subst b4. eapply V; eassumption.
Qed.

(** ** The work on a policy node *)
Definition cheap (a : atomicity) (e : expr rule) : bool :=
  match flat 60 a e with Some (k, d) => ((k <=? 1028) && (d <=? 2))%nat | None => false end.

Lemma cheap_work p a e s r c : cheap a e = true -> len s < p -> ev a e s r c -> c <= 1028 * p ^ 2.
Proof.
  unfold cheap. intros H Hs (_ & n & _ & <-). destruct (flat 60 a e) as [(k, d)|] eqn:E; [|discriminate].
  apply andb_true_iff in H as (H1 & H2). apply Nat.leb_le in H1, H2.
  pose proof (flat_bound p ltac:(lia) 60 a e k d E n s Hs). pose proof (raise p ltac:(lia) k d 2 H2).
  pose proof (Nat.mul_le_mono_r k 1028 (p ^ 2) H1). lia.
Qed.

Section Node.
Variables p G K : nat.
Hypothesis G1 : 1 <= G.
Hypothesis KG : 100 * G <= K.
Hypothesis cheapG : forall a e s r c, cheap a e = true -> ev a e s r c -> len s < p -> c <= G.

Lemma skG s s' c : sk s s' c -> len s < p -> c <= G.
Proof. intros (t & E) H. apply (cheapG Atomic e_skip s (Done s' t) c); [reflexivity|exact E|exact H]. Qed.

Lemma keep a b : a <= b -> K * a <= K * b.
Proof. apply Nat.mul_le_mono_l. Qed.
Lemma drop a b : a < b -> K * a + K <= K * b.
Proof. intros H. assert (E : a + 1 <= b) by lia. apply (Nat.mul_le_mono_l _ _ K) in E. lia. Qed.

(** A match pays [K] for every byte it takes; a failure may pay for all bytes. *)
Definition within (e : expr rule) (s : st) (x y : nat) : Prop :=
  forall r c, Ev e s r c ->
    match r with
    | Done s' _ => c + K * len s' <= K * len s + x
    | Fail => c <= K * len s + y
    | Fuel => True
    end.

Lemma w_weak e s x y x' y' : within e s x y -> x <= x' -> y <= y' -> within e s x' y'.
Proof. intros H A B r c E. specialize (H r c E). destruct r; lia. Qed.

Lemma w_cheap e s : cheap NonAtomic e = true -> len s < p -> within e s G G.
Proof.
  intros H Hs r c E. pose proof (cheapG _ _ _ _ _ H E Hs). destruct r as [|s' t|]; [lia| |exact I].
  apply ev_len in E as (E & _). apply keep in E. lia.
Qed.

Lemma w_seq e1 e2 s x y : cheap NonAtomic e1 = true -> len s < p ->
  (forall s2, len s2 <= len s -> within e2 s2 x y) -> within (e1 ~~ e2) s (x + 3 * G) (y + 3 * G).
Proof.
  intros H Hs W r c E. apply inv_seq in E as [(c1 & E & -> & ->)|(s1 & t1 & c1 & s2 & cs & r2 & c2 & E1 & S1 & E2 & -> & R)].
  - pose proof (cheapG _ _ _ _ _ H E Hs). lia.
  - pose proof (cheapG _ _ _ _ _ H E1 Hs). apply ev_len in E1 as (L1 & _). pose proof (skG _ _ _ S1 ltac:(lia)).
    apply sk_len in S1. assert (L2 : len s2 <= len s) by lia. specialize (W s2 L2 _ _ E2). apply keep in L2.
    destruct R as [(-> & ->)|(s3 & t2 & t3 & -> & ->)]; cbv beta iota in *; lia.
Qed.

(** The same, when the first part takes a byte. *)
Lemma w_seq_take e1 e2 s x y : cheap NonAtomic e1 = true -> nullable null_json e1 = false -> len s < p ->
  (forall s2, len s2 < len s -> within e2 s2 x (y + K)) -> within (e1 ~~ e2) s (x + 3 * G) (y + 3 * G).
Proof.
  intros H Nu Hs W r c E. apply inv_seq in E as [(c1 & E & -> & ->)|(s1 & t1 & c1 & s2 & cs & r2 & c2 & E1 & S1 & E2 & -> & R)].
  - pose proof (cheapG _ _ _ _ _ H E Hs). lia.
  - pose proof (cheapG _ _ _ _ _ H E1 Hs). apply ev_len in E1 as (L1 & L1'). specialize (L1' Nu).
    pose proof (skG _ _ _ S1 ltac:(lia)).
    apply sk_len in S1. assert (L2 : len s2 < len s) by lia. specialize (W s2 L2 _ _ E2). apply drop in L2.
    destruct R as [(-> & ->)|(s3 & t2 & t3 & -> & ->)]; cbv beta iota in *; lia.
Qed.

Lemma w_seq_r e1 e2 s x y : cheap NonAtomic e2 = true -> len s < p ->
  within e1 s x y -> within (e1 ~~ e2) s (x + 3 * G) (Nat.max x y + 3 * G).
Proof.
  intros H Hs W r c E. apply inv_seq in E as [(c1 & E & -> & ->)|(s1 & t1 & c1 & s2 & cs & r2 & c2 & E1 & S1 & E2 & -> & R)].
  - specialize (W _ _ E). cbn in W. lia.
  - pose proof (W _ _ E1) as W1. cbn in W1. apply ev_len in E1 as (L1 & _).
    pose proof (skG _ _ _ S1 ltac:(lia)). apply sk_len in S1.
    pose proof (cheapG _ _ _ _ _ H E2 ltac:(lia)). 
    destruct R as [(-> & ->)|(s3 & t2 & t3 & -> & ->)]; [lia|]. apply ev_len in E2 as (L3 & _).
    assert (L4 : len s3 <= len s1) by lia. apply keep in L4. lia.
Qed.

Lemma w_alt e1 e2 s x y : cheap NonAtomic e1 = true -> len s < p ->
  within e2 s x y -> within (e1 // e2) s (x + 2 * G) (y + 2 * G).
Proof.
  intros H Hs W r c E. apply inv_alt in E as [(s' & t & c1 & E & -> & ->)|(c1 & c2 & E1 & E2 & ->)].
  - pose proof (cheapG _ _ _ _ _ H E Hs). apply ev_len in E as (L & _). apply keep in L. lia.
  - pose proof (cheapG _ _ _ _ _ H E1 Hs). specialize (W _ _ E2). destruct r; lia.
Qed.

Lemma w_rule z s x y : g_kind g z = KNormal \/ g_kind g z = KSilent ->
  within (g_body g z) s x y -> within (ERule z) s (x + G) (y + G).
Proof.
  intros H W r c E. apply inv_rule in E as (r' & c' & E & -> & R); [|exact H]. specialize (W _ _ E).
  destruct R as [(-> & ->)|(s3 & t2 & t3 & -> & ->)]; cbv beta iota in *; lia.
Qed.

Definition item : expr rule := EStr "," ~~ ERule node.

(** Whatever separates here, a comma follows. *)
Definition comma_next (s : st) : Prop := forall s1 c, sk s s1 c -> starts "," s1.

Lemma sk_starts x s s1 c : solid (String x EmptyString) = true -> starts x s -> sk s s1 c -> starts x s1.
Proof.
  intros H (y & E) (t & N & n & R & _).
  destruct (sk_solid JsonPolicy (String x y) ltac:(exact H) (st_col s)) as (c' & S').
  cbn in S'. destruct S' as (t' & S'). destruct s as (col, rest). cbn in E. subst rest. cbn in S'.
  exists y. pose proof (Runs_le g Atomic _ _ _ S') as (m & M). specialize (M (Nat.max n m) ltac:(lia)).
  rewrite (run_mono g n) in M; [|lia|rewrite R; discriminate]. rewrite R in M. now injection M as -> _.
Qed.

Section Below.
Variable s0 : nat.
Hypothesis S0 : s0 < p.
Hypothesis IH : forall s, len s < s0 -> within (ERule node) s 0 K.

Lemma item_work s r c : len s <= s0 -> Ev item s r c ->
  match r with
  | Done s' _ => c + K * len s' + K <= K * len s + 4 * G
  | Fail => c <= 2 * G \/ (starts "," s /\ c <= K * len s + 4 * G)
  | Fuel => True
  end.
Proof.
  intros Hs E. unfold item in E.
  apply inv_seq in E as [(c1 & E & -> & ->)|(s1 & t1 & c1 & s2 & cs & r2 & c2 & E1 & S1 & E2 & -> & R)].
  - apply inv_str in E as (_ & ->). left. lia.
  - pose proof (str_starts _ _ _ _ _ _ E1) as St. pose proof E1 as E1'. apply inv_str in E1' as (_ & ->).
    apply ev_len in E1 as (_ & L1). specialize (L1 eq_refl). pose proof (skG _ _ _ S1 ltac:(lia)). apply sk_len in S1.
    assert (L2 : len s2 < len s) by lia. pose proof (IH s2 ltac:(lia) _ _ E2) as W. apply drop in L2.
    destruct R as [(-> & ->)|(s3 & t2 & t3 & -> & ->)].
    + right. split; [exact St|]. lia.
    + lia.
Qed.

Lemma more_items : forall m s r c, len s <= m -> m <= s0 -> Ev (EMore item) s r c ->
  match r with
  | Done s' _ => c + K * len s' <= K * len s + 5 * G \/ (c <= K * len s + 6 * G /\ comma_next s')
  | _ => False
  end.
Proof.
  induction m as [|m IHm]; intros s r c Hs Hm E;
    apply inv_more in E as (s1 & cs & S1 & [(c1 & E & -> & ->)|(s2 & t2 & c1 & r3 & c3 & E1 & E2 & -> & R)]).
  1,3: pose proof (skG _ _ _ S1 ltac:(lia)); pose proof (sk_len _ _ _ S1) as L1; apply item_work in E; [|lia];
    destruct E as [E|(St & E)]; [left; lia|right]; apply keep in L1; split; [lia|];
    intros u v U; now rewrite (sk_det _ _ _ _ _ U S1).
  - pose proof (sk_len _ _ _ S1). pose proof (ev_len _ _ _ _ _ _ E1) as (_ & L). specialize (L eq_refl). lia.
  - pose proof (skG _ _ _ S1 ltac:(lia)). pose proof (sk_len _ _ _ S1) as L1.
    pose proof (ev_len _ _ _ _ _ _ E1) as (_ & L). specialize (L eq_refl). apply item_work in E1; [|lia]. cbn in E1.
    apply IHm in E2; [|lia|lia]. apply keep in L1.
    destruct R as [(-> & _)|(s3 & t3 & t4 & -> & ->)]; [contradiction|].
    destruct E2 as [E2|(E2 & Q)]; [left; lia|right; split; [lia|exact Q]].
Qed.

Lemma tail_work s : len s <= s0 -> within (EStar item ~~ EStr "]") s (20 * G) (20 * G).
Proof.
  intros Hs r c E.
  apply inv_seq in E as [(c1 & E & -> & ->)|(s1 & t1 & c1 & s2 & cs & r2 & c2 & E1 & S1 & E2 & -> & R)].
  - exfalso. apply inv_star in E as [(c2 & _ & E & _)|(s1 & t1 & c2 & r2 & c3 & E1 & E2 & _ & R)]; [discriminate E|].
    apply ev_len in E1 as (L & _). apply (more_items s0) in E2; [|lia|lia].
    destruct R as [(-> & _)|(s3 & t3 & t4 & _ & R)]; [contradiction|discriminate R].
  - pose proof (ev_len _ _ _ _ _ _ E1) as (L1 & _). pose proof (skG _ _ _ S1 ltac:(lia)). pose proof (sk_len _ _ _ S1) as LS.
    assert (X : c1 + K * len s1 <= K * len s + 10 * G \/ (c1 <= K * len s + 11 * G /\ comma_next s1)).
    { apply inv_star in E1 as [(c3 & E & B & ->)|(u & v & c3 & r3 & c4 & E & M & -> & R3)].
      - injection B as -> ->. apply item_work in E; [|lia]. destruct E as [E|(St & E)]; [left; lia|right].
        split; [lia|]. intros u v U. eapply sk_starts; [reflexivity|exact St|exact U].
      - pose proof (ev_len _ _ _ _ _ _ E) as (L & _). apply item_work in E; [|lia]. cbn in E.
        apply (more_items s0) in M; [|lia|lia].
        destruct R3 as [(-> & _)|(s3 & t3 & t4 & -> & B)]; [contradiction|]. injection B as <- _.
        destruct M as [M|(M & Q)]; [left; lia|right; split; [lia|exact Q]]. }
    pose proof (inv_str _ _ _ _ _ E2) as (E2' & ->).
    destruct R as [(-> & ->)|(s3 & t2 & t3 & -> & ->)].
    + destruct X as [X|(X & _)]; lia.
    + destruct X as [X|(_ & Q)].
      * apply ev_len in E2 as (L3 & _). assert (L4 : len s3 <= len s1) by lia. apply keep in L4. lia.
      * exfalso. apply Q in S1. apply str_starts in E2. pose proof (starts_one _ _ _ S1 E2). discriminate.
Qed.

(** The list of children. *)
Lemma list_work s : len s < s0 -> within list_expr s (22 * G) (K + 22 * G).
Proof.
  intros Hs r c E. unfold list_expr in E. change (EStr "," ~~ ERule node) with item in E.
  apply inv_seq in E as [(c1 & E & -> & ->)|(s1 & t1 & c1 & s2 & cs & r2 & c2 & E1 & S1 & E2 & -> & R)].
  - pose proof (IH s Hs _ _ E) as W. cbn in W. lia.
  - pose proof (IH s Hs _ _ E1) as W. cbn in W. apply ev_len in E1 as (L1 & _).
    pose proof (skG _ _ _ S1 ltac:(lia)). pose proof (sk_len _ _ _ S1) as LS.
    pose proof (tail_work s2 ltac:(lia) _ _ E2) as T. apply keep in LS. 
    destruct R as [(-> & ->)|(s3 & t2 & t3 & -> & ->)]; cbv beta iota in *; lia.
Qed.

Definition brackets (t : bool) (e : expr rule) : expr rule :=
  ERule (op_rule t) ~~ EStr "," ~~ ERule CHILDREN ~~ EStr ":" ~~ EStr "[" ~~ e.
Lemma kids_body t : g_body g (kids_rule t) = (brackets t (EStr "]") // brackets t list_expr).
Proof. now destruct t. Qed.

Lemma kids_work t s : len s < s0 -> within (ERule (kids_rule t)) s (40 * G) (K + 40 * G).
Proof.
  intros Hs. eapply w_weak.
  - apply w_rule; [destruct t; now left|]. rewrite kids_body. apply w_alt; [now destruct t|lia|]. unfold brackets.
    apply w_seq; [now destruct t|lia|]. intros s1 L1. apply w_seq; [reflexivity|lia|]. intros s2 L2.
    apply w_seq; [reflexivity|lia|]. intros s3 L3. apply w_seq; [reflexivity|lia|]. intros s4 L4.
    apply w_seq; [reflexivity|lia|]. intros s5 L5. apply list_work. lia.
  - lia.
  - lia.
Qed.

(** Without the operator there is not much work. *)
Lemma kids_closed t s r c c1 : len s < s0 -> Ev (ERule (op_rule t)) s Fail c1 -> Ev (ERule (kids_rule t)) s r c ->
  r = Fail /\ c <= 10 * G.
Proof.
  intros Hs N E. apply inv_rule in E as (r' & c' & E & -> & R); [|destruct t; now left]. rewrite kids_body in E.
  assert (X : forall e r c, Ev (brackets t e) s r c -> r = Fail /\ c = S c1).
  { intros e r0 c0 E0. apply inv_seq in E0 as [(c2 & E0 & -> & ->)|(s1 & t1 & c2 & s2 & cs & r2 & c3 & E1 & _)].
    - destruct (ev_det _ _ _ _ _ _ _ N E0) as (_ & ->). auto.
    - destruct (ev_det _ _ _ _ _ _ _ N E1) as (B & _). discriminate B. }
  apply cheapG in N; [|now destruct t|lia].
  apply inv_alt in E as [(s' & l & c2 & E & -> & ->)|(c2 & c3 & E1 & E2 & ->)].
  - apply X in E as (B & _). discriminate B.
  - apply X in E1 as (_ & ->). apply X in E2 as (-> & ->).
    destruct R as [(_ & ->)|(s3 & t2 & t3 & B & _)]; [|discriminate B]. split; [reflexivity|lia].
Qed.

(** Where the operator of a node is. *)
Definition reach (s x : st) : Prop :=
  exists s1 l1 c1 s2 c2 s3 l3 c3 s4 c4 s5 l5 c5 c6,
    Ev (EStr "{") s (Done s1 l1) c1 /\ sk s1 s2 c2 /\ Ev (ERule NAME) s2 (Done s3 l3) c3 /\ sk s3 s4 c4 /\
    Ev (EStr ":") s4 (Done s5 l5) c5 /\ sk s5 x c6.
Lemma reach_det s x y : reach s x -> reach s y -> x = y.
Proof.
  intros (s1 & l1 & c1 & s2 & c2 & s3 & l3 & c3 & s4 & c4 & s5 & l5 & c5 & c6 & A1 & A2 & A3 & A4 & A5 & A6).
  intros (u1 & m1 & d1 & u2 & d2 & u3 & m3 & d3 & u4 & d4 & u5 & m5 & d5 & d6 & B1 & B2 & B3 & B4 & B5 & B6).
  destruct (ev_det _ _ _ _ _ _ _ A1 B1) as (E & _). injection E as <- _.
  pose proof (sk_det _ _ _ _ _ A2 B2). subst u2.
  destruct (ev_det _ _ _ _ _ _ _ A3 B3) as (E & _). injection E as <- _.
  pose proof (sk_det _ _ _ _ _ A4 B4). subst u4.
  destruct (ev_det _ _ _ _ _ _ _ A5 B5) as (E & _). injection E as <- _.
  exact (sk_det _ _ _ _ _ A6 B6).
Qed.

Definition alt_kids (t : bool) : expr rule :=
  EStr "{" ~~ ERule NAME ~~ EStr ":" ~~ ERule (kids_rule t) ~~ EStr "}".
Definition alt_leaf : expr rule := EStr "{" ~~ ERule NAME ~~ EStr ":" ~~ ERule value ~~ EStr "}".

Lemma ev_total a e s r c n : ev a e s r c -> run g n a e s <> Fuel -> run g n a e s = r.
Proof. intros H N. destruct (ev_det _ _ _ _ _ _ _ H (ev_intro _ _ _ _ N)) as (-> & _). reflexivity. Qed.

Lemma alt_kids_work t s r c : len s = s0 -> Ev (alt_kids t) s r c ->
  (r = Fail /\ c <= 30 * G) \/
  ((exists x s1 l1 c1, reach s x /\ Ev (ERule (op_rule t)) x (Done s1 l1) c1) /\
   match r with
   | Done s' _ => c + K * len s' + K <= K * len s + 60 * G
   | Fail => c <= K * len s + 60 * G
   | Fuel => True
   end).
Proof.
  intros Hs E. unfold alt_kids in E.
  apply inv_seq in E as [(c1 & E & -> & ->)|(s1 & t1 & c1 & s2 & cs & r2 & c2 & E1 & S1 & E2 & -> & R)].
  { apply inv_str in E as (_ & ->). left. split; [reflexivity|lia]. }
  pose proof E1 as E1'. apply inv_str in E1' as (_ & ->).
  pose proof (ev_len _ _ _ _ _ _ E1) as (_ & L1). specialize (L1 eq_refl).
  pose proof (skG _ _ _ S1 ltac:(lia)). pose proof (sk_len _ _ _ S1) as LS.
  apply inv_seq in E2 as [(c3 & E2 & -> & ->)|(s3 & t3 & c3 & s4 & cs4 & r4 & c4 & E3 & S3 & E4 & -> & R4)].
  { apply cheapG in E2; [|reflexivity|lia]. left. destruct R as [(_ & ->)|(? & ? & ? & B & _)]; [|discriminate B]. split; [reflexivity|lia]. }
  pose proof (cheapG NonAtomic (ERule NAME) _ _ _ eq_refl E3 ltac:(lia) : c3 <= G).
  pose proof (ev_len _ _ _ _ _ _ E3) as (L3 & _).
  pose proof (skG _ _ _ S3 ltac:(lia)). pose proof (sk_len _ _ _ S3) as LS3.
  apply inv_seq in E4 as [(c5 & E4 & -> & ->)|(s5 & t5 & c5 & s6 & cs6 & r6 & c6 & E5 & S5 & E6 & -> & R6)].
  { apply inv_str in E4 as (_ & ->). left. destruct R4 as [(_ & ->)|(? & ? & ? & B & _)]; [|discriminate B].
    destruct R as [(_ & ->)|(? & ? & ? & B & _)]; [|discriminate B]. split; [reflexivity|lia]. }
  pose proof E5 as E5'. apply inv_str in E5' as (_ & ->).
  pose proof (ev_len _ _ _ _ _ _ E5) as (L5 & _).
  pose proof (skG _ _ _ S5 ltac:(lia)). pose proof (sk_len _ _ _ S5) as LS5.
  assert (Rc : reach s s6).
  { exists s1, t1, 1, s2, cs, s3, t3, c3, s4, cs4, s5, t5, 1, cs6. auto 6. }
  assert (L6 : len s6 < len s) by lia.
  assert (O : (exists c, Ev (ERule (op_rule t)) s6 Fail c) \/ exists s1 l1 c1, Ev (ERule (op_rule t)) s6 (Done s1 l1) c1).
  { pose proof E6 as (N6 & n & R6' & _).
    assert (Nf : exists k, run g k NonAtomic (ERule (op_rule t)) s6 <> Fuel).
    { apply inv_seq in E6 as [(d & E6 & _)|(a1 & a2 & d & a3 & a4 & a5 & a6 & E6 & _)];
        (apply inv_rule in E6 as (q & d' & E6 & _); [|destruct t; now left]); rewrite kids_body in E6;
        (apply inv_alt in E6 as [(b1 & b2 & b3 & E6 & _)|(b1 & b2 & E6 & _)]);
        (apply inv_seq in E6 as [(f1 & E6 & _)|(f1 & f2 & f3 & f4 & f5 & f6 & f7 & E6 & _)]);
        destruct E6 as (Q & k & Rk & _); exists k; congruence. }
    destruct Nf as (k & Nf). apply ev_intro in Nf. destruct (run g k NonAtomic (ERule (op_rule t)) s6) as [|a b|]; [left|right|destruct Nf as (Nf & _); congruence]; eauto. }
  destruct O as [(co & O)|(o1 & o2 & o3 & O)].
  - left. assert (X : r6 = Fail /\ c6 <= 11 * G).
    { apply inv_seq in E6 as [(d & E6 & -> & ->)|(a1 & a2 & d & a3 & a4 & a5 & a6 & E6 & _)].
      - apply (kids_closed t s6 _ _ _ ltac:(lia) O) in E6 as (_ & E6). split; [reflexivity|lia].
      - apply (kids_closed t s6 _ _ _ ltac:(lia) O) in E6 as (B & _). discriminate B. }
    destruct X as (-> & X). destruct R6 as [(_ & ->)|(? & ? & ? & B & _)]; [|discriminate B].
    destruct R4 as [(_ & ->)|(? & ? & ? & B & _)]; [|discriminate B].
    destruct R as [(_ & ->)|(? & ? & ? & B & _)]; [|discriminate B]. split; [reflexivity|lia].
  - right. split; [exists s6, o1, o2, o3; auto|].
    pose proof (w_seq_r _ (EStr "}") s6 _ _ eq_refl ltac:(lia) (kids_work t s6 ltac:(lia)) _ _ E6) as W.
    apply drop in L6.
    destruct R6 as [(-> & ->)|(u1 & u2 & u3 & -> & ->)].
    + destruct R4 as [(_ & ->)|(? & ? & ? & B & _)]; [|discriminate B].
      destruct R as [(_ & ->)|(? & ? & ? & B & _)]; [|discriminate B]. lia.
    + destruct R4 as [(B & _)|(? & ? & ? & B & ->)]; [discriminate B|]. injection B as <- <-.
      destruct R as [(B & _)|(? & ? & ? & B & ->)]; [discriminate B|]. injection B as <- <-. lia.
Qed.

Lemma node_body_json : g_body g node = (alt_leaf // alt_kids true // alt_kids false).
Proof. reflexivity. Qed.

Lemma node_work s : len s = s0 -> within (ERule node) s 0 K.
Proof.
  intros Hs r c E. apply inv_rule in E as (r' & c' & E & -> & R); [|now right]. rewrite node_body_json in E.
  assert (X : match r' with Done s' _ => c' + K * len s' + 1 <= K * len s | Fail => c' + 1 <= K * len s + K | Fuel => True end).
  { clear R. apply inv_alt in E as [(s' & l & c1 & E & -> & ->)|(c1 & c2 & E1 & E2 & ->)].
    - pose proof (cheapG NonAtomic alt_leaf _ _ _ eq_refl E ltac:(lia) : c1 <= G). apply ev_len in E as (_ & L). specialize (L eq_refl).
      apply drop in L. lia.
    - pose proof (cheapG NonAtomic alt_leaf _ _ _ eq_refl E1 ltac:(lia) : c1 <= G).
      apply inv_alt in E2 as [(s' & l & c3 & E & -> & ->)|(c3 & c4 & E3 & E4 & ->)].
      + apply (alt_kids_work true _ _ _ Hs) in E as [(B & _)|(_ & E)]; [discriminate B|]. lia.
      + apply (alt_kids_work true _ _ _ Hs) in E3. apply (alt_kids_work false _ _ _ Hs) in E4.
        destruct E3 as [(_ & E3)|((x & a1 & a2 & a3 & Rx & Ox) & E3)].
        * destruct E4 as [(-> & E4)|(_ & E4)]; [lia|]. destruct r'; [lia|lia|exact I].
        * destruct E4 as [(-> & E4)|((y & b1 & b2 & b3 & Ry & Oy) & _)]; [lia|].
          exfalso. rewrite (reach_det _ _ _ Rx Ry) in Ox. eapply op_exclusive; eassumption. }
  destruct R as [(-> & ->)|(s3 & t2 & t3 & -> & ->)]; cbv beta iota in *; lia.
Qed.
End Below.

Lemma node_within : forall m s, len s <= m -> m < p -> within (ERule node) s 0 K.
Proof.
  induction m as [|m IHm]; intros s Hs Hm.
  - apply (node_work (len s)); [lia| |reflexivity]. intros; lia.
  - apply (node_work (len s)); [lia| |reflexivity]. intros s' Hs'. apply IHm; lia.
Qed.

Lemma content_work s r c : len s < p -> Ev (ERule content) s r c -> c <= K * len s + 2 * K.
Proof.
  intros Hs E. assert (W : within (ERule content) s (0 + 3 * G + 3 * G + G) (Nat.max 0 K + 3 * G + 3 * G + G)).
  { apply w_rule; [now right|]. apply w_seq; [reflexivity|exact Hs|]. intros s2 L2.
    apply w_seq_r; [reflexivity|lia|]. apply (node_within (len s2)); lia. }
  specialize (W _ _ E). destruct r; [lia|lia|]. destruct E as (E & _). congruence.
Qed.
End Node.

Lemma cube k p : 200 * k * p ^ 3 = 100 * (k * p ^ 2) * p + 100 * (k * p ^ 2) * p.
Proof. change 200 with (100 + 100). generalize 100. intros h. cbn [Nat.pow]. ring. Qed.

(** Work at most cubic in the length of the text, whatever the text is. *)
Theorem json_cubic pol : parse_cost pol JsonPolicy <= 200 * 1028 * (String.length pol + 1) ^ 3.
Proof.
  destruct (parse_total pol JsonPolicy) as (r & N & E). specialize (E _ (le_n _)).
  set (p := String.length pol + 1). set (G := 1028 * p ^ 2).
  assert (P2 : 1 <= p ^ 2) by (subst p; cbn; nia).
  assert (X : parse_cost pol JsonPolicy <= 100 * G * len (St 1 pol) + 2 * (100 * G)).
  { apply (content_work p G (100 * G) ltac:(lia) (le_n _)) with (r := r).
    - intros a e s r' c' H Hs L. eapply cheap_work; eassumption.
    - subst p. cbn. lia.
    - split; [exact N|]. exists (fuel_of pol). split; [exact E|reflexivity]. }
  eapply Nat.le_trans; [exact X|]. change (len (St 1 pol)) with (String.length pol).
  assert (E3 : 200 * 1028 * p ^ 3 = 100 * G * p + 100 * G * p) by (subst G; apply cube).
  rewrite E3. subst p. nia.
Qed.
