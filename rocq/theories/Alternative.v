(** * Alternative: one alternative of a policy (C150)

    Specification only: nothing here is code of the crate. *)
From Coq Require Import String List Bool Arith.
From Verif Require Import Base Crypto Policy Spec Draws Bsw Ghw11 Yct14.
Import ListNotations.

(** A formula without the places of its leaves in the text; not in /repo. *)
Fixpoint blank (f : formula) : formula :=
  match f with
  | FLeaf n _ => FLeaf n 0
  | FAnd l => FAnd (map blank l)
  | FOr l => FOr (map blank l)
  end.

(** The labels that sharing gives to the leaves;
    [node_index] in /repo/src/utils/secretsharing/mod.rs:74-76. *)
Definition marks (f : formula) : list string := map (fun x => node_index (fst x) (snd x)) (leaves f).

(** The draws for the alternative [g] of [pre], [g], [post]: the first [k], those of its sharing, and
    then one for each of its leaves; not in /repo. *)
Definition drawn_for (k : nat) (pre : list formula) (g : formula) (post : list formula) (n : nat) : nat :=
  if n <? k then n
  else if n <? k + coins g then n + list_sum (map coins pre)
  else n + list_sum (map coins pre) + list_sum (map coins post) + length (flat_map leaves pre).

Section Alternative.
Context {C : crypto}.

(** Entries of a BSW ciphertext under other labels; the type is at bsw/mod.rs:85-89. *)
Definition bsw_marked (ms : list string) (l : list (battr C)) : list (battr C) :=
  map (fun x => BAttr (fst x) (b_g1 (snd x)) (b_g2 (snd x))) (combine ms l).

(** Entries of a GHW11 ciphertext under other labels; the type is at ghw11/mod.rs:77-83. *)
Definition ghw_marked (ms : list string) (l : list (string * (G1 C * G1 C))) : list (string * (G1 C * G1 C)) :=
  map (fun x => (fst x, snd (snd x))) (combine ms l).

(** The names that a YCT14 master key has a value for; yct14/mod.rs:157-168. *)
Definition yct_knows (msk : yct_msk C) (n : string) : bool :=
  existsb (fun a => seqb (y_name a) n && match y_node a with Some _ => true | None => false end) (ymsk_attrs msk).
End Alternative.
