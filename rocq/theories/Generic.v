(** * Generic: what an outsider can compute from the elements they see

    An outsider sees the public key and the ciphertext: lists of elements of the three groups.  They
    may combine them with all operations of rabe_bn on group elements: addition, negation and
    multiplication by scalars of their choice in [G1] and [G2], the pairing, and multiplication,
    inversion and powers in [Gt], any number of times.  A combination is fixed before the randomness
    is drawn; it may depend on the policy, the names and their hashes.  These are specifications,
    not models of code. *)
From Coq Require Import List Arith.
From Verif Require Import Base Crypto.
Import ListNotations.

Section Generic.
Context {C : crypto}.
Local Open Scope F_scope.

(** A combination of elements of [G1]. *)
Inductive comb1 : Type :=
| One1 | Seen1 (n : nat) | Add1 (a b : comb1) | Neg1 (a : comb1) | Mul1 (a : comb1) (x : F C).

(** A combination of elements of [G2]. *)
Inductive comb2 : Type :=
| One2 | Seen2 (n : nat) | Add2 (a b : comb2) | Neg2 (a : comb2) | Mul2 (a : comb2) (x : F C).

(** A combination of elements of all groups with a value in [Gt]. *)
Inductive combT : Type :=
| SeenT (n : nat) | Pair (a : comb1) (b : comb2) | MulT (a b : combT) | InvT (a : combT)
| PowT (a : combT) (x : F C).

(** What is seen. *)
Record view : Type := View { seen1 : list (G1 C); seen2 : list (G2 C); seenT : list (GT C) }.

Fixpoint eval1 (v : view) (e : comb1) : G1 C :=
  match e with
  | One1 => g1one C
  | Seen1 n => nth n (seen1 v) (g1zero C)
  | Add1 a b => g1add C (eval1 v a) (eval1 v b)
  | Neg1 a => g1neg C (eval1 v a)
  | Mul1 a x => g1mul C (eval1 v a) x
  end.

Fixpoint eval2 (v : view) (e : comb2) : G2 C :=
  match e with
  | One2 => g2one C
  | Seen2 n => nth n (seen2 v) (g2zero C)
  | Add2 a b => g2add C (eval2 v a) (eval2 v b)
  | Neg2 a => g2neg C (eval2 v a)
  | Mul2 a x => g2mul C (eval2 v a) x
  end.

Fixpoint evalT (v : view) (e : combT) : GT C :=
  match e with
  | SeenT n => nth n (seenT v) (gtone C)
  | Pair a b => pairing C (eval1 v a) (eval2 v b)
  | MulT a b => gtmul C (evalT v a) (evalT v b)
  | InvT a => gtinv C (evalT v a)
  | PowT a x => gtpow C (evalT v a) x
  end.

(** The tape [t] with the value at one position replaced. *)
Definition put (t : nat -> F C) (n : nat) (x : F C) (k : nat) : F C :=
  if k =? n then x else t k.

End Generic.
Arguments comb1 C : clear implicits.
Arguments comb2 C : clear implicits.
Arguments combT C : clear implicits.
Arguments view C : clear implicits.
