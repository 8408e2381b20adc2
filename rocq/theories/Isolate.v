(** * Isolate: YCT14 keys for a conjunction of any length give one for each of its names (C60)

    An adversary: nothing here is code of the crate, but it uses the crate's coefficients. *)
From Coq Require Import String List.
From Verif Require Import Base Crypto Policy Tools Sharing Parse Spec Yct14 Alternative.
Import ListNotations.

(** The conjunction of names, without the places of a text.  Not in /repo. *)
Definition all_of (ns : list string) : formula := FAnd (map (fun n => FLeaf n 0) ns).

Section Isolate.
Context {C : crypto}.

(** The value of an entry of a key; the type is at yct14/mod.rs:48-64. *)
Definition yct_value (a : yct_attr C) : F C :=
  match y_node a with Some (YPriv v) => v | _ => f0 C end.

(** The sum of the products of two lists.  Not in /repo. *)
Fixpoint scalar (a w : list (F C)) : F C :=
  match a, w with
  | x :: a', y :: w' => fadd C (fmul C x y) (scalar a' w')
  | _, _ => f0 C
  end.

(** A key for the policy [policy], which is the name [name], the one with number [k] of [n] names, out
    of the weights [z] with which the entries of each of the keys add up to one.  Not in /repo; the
    coefficients are those of secretsharing/mod.rs:60-72. *)
Definition yct_isolate (n k : nat) (z : list (F C)) (name policy : string) (lang : language) : outcome (yct_sk C) :=
  obind (recover_coefficients (and_points n)) (fun cs =>
  match nth_error cs k, nth_error z k with
  | Some c, Some w => Ok (YctSk (policy, lang) [YAttr name (Some (YPriv (fmul C c (finv C w))))])
  | _, _ => Err
  end).

(** Lists that determine every list of [n] values by the sums of products with it.  Not in /repo. *)
Definition generic (n : nat) (ps : list (list (F C))) : Prop :=
  forall u, length u = n -> Forall (fun p => scalar p u = f0 C) ps -> Forall (eq (f0 C)) u.

(** A key for the conjunction of the names, and the draws of its sharing; yct14/mod.rs:257-284. *)
Definition yct_key_of (msk : yct_msk C) (ns : list string) (k : yct_sk C * list (F C)) : Prop :=
  exists pol lang f t i j, parse pol lang = Ok (tree f) /\ blank f = all_of ns /\
    yct_keygen msk pol lang t i = Ok (fst k, j) /\ snd k = map t (seq i (length ns - 1)).
End Isolate.
