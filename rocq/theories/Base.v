(** * Base: outcomes, small monads and standard-library stand-ins

    Nothing in this file models a particular function of rabe.  It fixes how
    Rust results and panics are represented and gives list loops that the model
    files use in place of Rust iterators. *)
From Coq Require Import String Ascii List Bool Arith Lia.
From Coq Require Import Decimal DecimalNat DecimalString.
Import ListNotations.
Local Open Scope list_scope.

(** A Rust computation: a value, a [RabeError] (text dropped) or a panic;
    [RabeError]: /repo/src/error.rs:18-20; panics: [unwrap], [expect], [panic!] and indexing throughout /repo/src. *)
Inductive outcome (A : Type) : Type :=
| Ok (a : A)
| Err
| Panic.
Arguments Ok {A} a.
Arguments Err {A}.
Arguments Panic {A}.

(** One step after another, [?] and the [match] on a [Result] as in /repo/src/schemes/bsw/mod.rs:244-247; not in /repo itself. *)
Definition obind {A B} (m : outcome A) (k : A -> outcome B) : outcome B :=
  match m with Ok a => k a | Err => Err | Panic => Panic end.

(** [Option::unwrap] / [expect]; used for instance at /repo/src/schemes/lsw/mod.rs:251-264. *)
Definition unwrap {A} (o : option A) : outcome A :=
  match o with Some a => Ok a | None => Panic end.

(** [Result::unwrap] / [expect]: an error becomes a panic; used for instance at /repo/src/schemes/lsw/mod.rs:138. *)
Definition unwrap_res {A} (o : outcome A) : outcome A :=
  match o with Ok a => Ok a | Err => Panic | Panic => Panic end.

Declare Scope outcome_scope.
Delimit Scope outcome_scope with outcome.
Notation "x <- m ;; k" := (obind m (fun x => k))
  (at level 61, m at next level, right associativity) : outcome_scope.
Notation "' p <- m ;; k" := (obind m (fun p => k))
  (at level 61, p pattern, m at next level, right associativity) : outcome_scope.

(** A loop over a list that collects results and stops at the first failure;
    a [for] loop with [push], as at /repo/src/schemes/lsw/mod.rs:201-208. *)
Fixpoint omap {A B} (f : A -> outcome B) (l : list A) : outcome (list B) :=
  match l with
  | [] => Ok []
  | x :: r => obind (f x) (fun y => obind (omap f r) (fun ys => Ok (y :: ys)))
  end.

(** A loop with an accumulator that stops at the first failure;
    a [for] loop, as at /repo/src/schemes/lsw/mod.rs:247-279. *)
Fixpoint ofold {A B} (f : B -> A -> outcome B) (l : list A) (acc : B) : outcome B :=
  match l with
  | [] => Ok acc
  | x :: r => obind (f acc x) (fun acc' => ofold f r acc')
  end.

(** Computations that draw random scalars: a tape (draw number to value), the
    number of draws made so far, and the result with the new number;
    [rand::thread_rng()], as at /repo/src/schemes/lsw/mod.rs:88. *)
Definition rand (F A : Type) : Type := (nat -> F) -> nat -> outcome (A * nat).

(** The steps of such computations; not in /repo. *)
Definition rret {F A} (a : A) : rand F A := fun _ i => Ok (a, i).
Definition rerr {F A} : rand F A := fun _ _ => Err.
Definition rpanic {F A} : rand F A := fun _ _ => Panic.
Definition rlift {F A} (o : outcome A) : rand F A :=
  fun _ i => match o with Ok a => Ok (a, i) | Err => Err | Panic => Panic end.
Definition rbind {F A B} (m : rand F A) (k : A -> rand F B) : rand F B :=
  fun t i => match m t i with
             | Ok (a, j) => k a t j
             | Err => Err
             | Panic => Panic
             end.
(** [rng.gen::<Fr>()]: the next scalar of the tape; as at /repo/src/schemes/lsw/mod.rs:90-92. *)
Definition draw {F} : rand F F := fun t i => Ok (t i, S i).

Declare Scope rand_scope.
Delimit Scope rand_scope with rand.
Notation "x <- m ;; k" := (rbind m (fun x => k))
  (at level 61, m at next level, right associativity) : rand_scope.
Notation "' p <- m ;; k" := (rbind m (fun p => k))
  (at level 61, p pattern, m at next level, right associativity) : rand_scope.

(** A loop that draws, as at /repo/src/schemes/lsw/mod.rs:134-160. *)
Fixpoint rmap {F A B} (f : A -> rand F B) (l : list A) : rand F (list B) :=
  match l with
  | [] => rret []
  | x :: r => rbind (f x) (fun y => rbind (rmap f r) (fun ys => rret (y :: ys)))
  end.

(** [n] random scalars in a row; as in the loop at /repo/src/schemes/ac17/mod.rs:471-474. *)
Fixpoint draws {F} (n : nat) : rand F (list F) :=
  match n with
  | 0 => rret []
  | S k => rbind draw (fun x => rbind (draws k) (fun xs => rret (x :: xs)))
  end.

(** ** Strings *)

(** [String == String]; as at /repo/src/schemes/lsw/mod.rs:251. *)
Definition seqb (a b : string) : bool := String.eqb a b.
Arguments seqb : simpl never.

(** [Vec<String>] membership test; as at /repo/src/utils/tools/mod.rs:15-21. *)
Definition smem (x : string) (l : list string) : bool := existsb (seqb x) l.

(** Decimal rendering, [usize::to_string]; as at /repo/src/utils/secretsharing/mod.rs:75. *)
Definition dec (n : nat) : string := NilEmpty.string_of_uint (Nat.to_uint n).

Lemma seqb_eq a b : seqb a b = true <-> a = b.
Proof. apply String.eqb_eq. Qed.

Lemma seqb_refl a : seqb a a = true.
Proof. apply String.eqb_refl. Qed.

Lemma seqb_neq a b : seqb a b = false <-> a <> b.
Proof. apply String.eqb_neq. Qed.

Lemma smem_In x l : smem x l = true <-> In x l.
Proof.
  unfold smem. rewrite existsb_exists. split.
  - intros (y & Hy & E). apply seqb_eq in E. now subst.
  - intros H. exists x. split; [assumption | apply seqb_refl].
Qed.

Lemma dec_inj a b : dec a = dec b -> a = b.
Proof.
  unfold dec. intros H.
  assert (E : NilEmpty.uint_of_string (NilEmpty.string_of_uint (Nat.to_uint a)) =
              NilEmpty.uint_of_string (NilEmpty.string_of_uint (Nat.to_uint b)))
    by now rewrite H.
  rewrite !NilEmpty.usu in E. injection E as E.
  apply (f_equal Nat.of_uint) in E.
  now rewrite !Unsigned.of_to in E.
Qed.

(** ** Loop inversion lemmas *)

Lemma obind_Ok {A B} (m : outcome A) (k : A -> outcome B) b :
  obind m k = Ok b <-> exists a, m = Ok a /\ k a = Ok b.
Proof.
  destruct m; cbn; split; intros H; try discriminate;
    try (destruct H as (x & E & _); discriminate).
  - eauto.
  - destruct H as (x & E & H). injection E as ->. exact H.
Qed.

Lemma rbind_Ok {F A B} (m : rand F A) (k : A -> rand F B) t i b j :
  rbind m k t i = Ok (b, j) <-> exists a i', m t i = Ok (a, i') /\ k a t i' = Ok (b, j).
Proof.
  unfold rbind. destruct (m t i) as [[a i']| |]; split; intros H; try discriminate;
    try (destruct H as (x & y & E & _); discriminate).
  - eauto.
  - destruct H as (x & y & E & H). injection E as -> ->. exact H.
Qed.

Lemma rret_Ok {F A} (a : A) (t : nat -> F) i b j :
  rret a t i = Ok (b, j) <-> a = b /\ i = j.
Proof. unfold rret. split; [intros H; injection H | intros [-> ->]]; auto. Qed.

Lemma rlift_Ok {F A} (o : outcome A) (t : nat -> F) i b j :
  rlift o t i = Ok (b, j) <-> o = Ok b /\ i = j.
Proof.
  unfold rlift. destruct o; split; intros H; try discriminate.
  - injection H as -> ->. auto.
  - destruct H as [E ->]. injection E as ->. reflexivity.
  - destruct H; discriminate.
  - destruct H; discriminate.
Qed.

Lemma rmap_Forall2 {F A B} (f : A -> rand F B) l :
  forall t i r j, rmap f l t i = Ok (r, j) ->
  Forall2 (fun x y => exists a b, f x t a = Ok (y, b)) l r.
Proof.
  induction l as [|x l IH]; cbn; intros t i r j H.
  - apply rret_Ok in H as [<- _]. constructor.
  - apply rbind_Ok in H as (y & i1 & H1 & H).
    apply rbind_Ok in H as (ys & i2 & H2 & H).
    apply rret_Ok in H as [<- _].
    constructor; eauto.
Qed.

Lemma omap_Forall2 {A B} (f : A -> outcome B) l r :
  omap f l = Ok r <-> Forall2 (fun x y => f x = Ok y) l r.
Proof.
  revert r. induction l as [|x l IH]; cbn; intros r; split; intros H.
  - injection H as <-. constructor.
  - inversion H; subst. reflexivity.
  - apply obind_Ok in H as (y & H1 & H). apply obind_Ok in H as (ys & H2 & H).
    injection H as <-. constructor; [assumption | now apply IH].
  - inversion H as [|? y ? ys H1 H2]; subst. rewrite H1. cbn.
    apply IH in H2. rewrite H2. reflexivity.
Qed.
