(** * Lessened: alternatives deleted anywhere in a policy (C155)

    Specification only: nothing here is code of the crate. *)
From Coq Require Import List Bool Arith.
From Verif Require Import Base Crypto Spec Draws.
Import ListNotations.

(** The members of a list that a mask keeps; not in /repo. *)
Fixpoint those {A} (m : list bool) (l : list A) : list A :=
  match m, l with
  | b :: m, x :: l => if b then x :: those m l else those m l
  | _, _ => []
  end.

(** [lessened f f' km cm]: the formula [f'] is [f] with some alternatives of its disjunctions
    deleted, wherever they are; a disjunction left with one alternative may be that alternative.
    [km] says which leaves are kept and [cm] which draws of the sharing.  Places of leaves in the
    text are free.  Not in /repo. *)
Inductive lessened : formula -> formula -> list bool -> list bool -> Prop :=
| L_leaf n p p' : lessened (FLeaf n p) (FLeaf n p') [true] []
| L_and l l' km cm : lessened_all l l' km cm -> lessened (FAnd l) (FAnd l') km (repeat true (length l - 1) ++ cm)
| L_or l l' km cm : lessened_some l l' km cm -> lessened (FOr l) (FOr l') km cm
| L_one l g km cm : lessened_some l [g] km cm -> lessened (FOr l) g km cm
with lessened_all : list formula -> list formula -> list bool -> list bool -> Prop :=
| LA_nil : lessened_all [] [] [] []
| LA_cons g g' l l' km cm km' cm' : lessened g g' km cm -> lessened_all l l' km' cm' ->
    lessened_all (g :: l) (g' :: l') (km ++ km') (cm ++ cm')
with lessened_some : list formula -> list formula -> list bool -> list bool -> Prop :=
| LS_nil : lessened_some [] [] [] []
| LS_keep g g' l l' km cm km' cm' : lessened g g' km cm -> lessened_some l l' km' cm' ->
    lessened_some (g :: l) (g' :: l') (km ++ km') (cm ++ cm')
| LS_drop g l l' km cm : lessened_some l l' km cm ->
    lessened_some (g :: l) l' (repeat false (length (leaves g)) ++ km) (repeat false (coins g) ++ cm).

(** A run of draws, and zero afterwards; not in /repo. *)
Definition listed {C : crypto} (l : list (F C)) (n : nat) : F C := nth n l (f0 C).

(** The draws from position [i] that a mask keeps, as a tape; not in /repo. *)
Definition kept {C : crypto} (m : list bool) (t : nat -> F C) (i : nat) : nat -> F C :=
  listed (those m (map t (seq i (length m)))).
