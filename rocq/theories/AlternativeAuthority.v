(** * AlternativeAuthority: one alternative of a policy in AW11 (C150)

    Specification only: nothing here is code of the crate. *)
From Coq Require Import String List Bool Arith.
From Verif Require Import Base Crypto Policy Spec Draws Aw11.
Import ListNotations.

(** The draws for the alternative [g] of [pre], [g], [post] in AW11: the secret, the two sharings, the
    message and then one for each leaf; the order is that of aw11/mod.rs:256-268. *)
Definition aw_drawn (pre : list formula) (g : formula) (post : list formula) (n : nat) : nat :=
  let before := list_sum (map coins pre) in
  let all := before + coins g + list_sum (map coins post) in
  if n <? 1 then n
  else if n <? 1 + coins g then before + n
  else if n <? 1 + 2 * coins g then all + before + (n - coins g)
  else if n =? 1 + 2 * coins g then 1 + 2 * all
  else 2 * all + length (flat_map leaves pre) + (n - 2 * coins g).

Section AlternativeAuthority.
Context {C : crypto}.

(** The number of entries for a leaf: one if a public key names it; aw11/mod.rs:269-281. *)
Definition aw_held (pks : list (aw_pk C)) (n : string) : nat :=
  match find_pk_attr pks (upper C (remove_index n)) with Some _ => 1 | None => 0 end.

(** Entries of an AW11 ciphertext under other labels; the type is at aw11/mod.rs:75-80. *)
Definition aw_marked (ms : list string) (l : list (list (string * GT C * G2 C * G2 C))) : list (list (string * GT C * G2 C * G2 C)) :=
  map (fun x => map (fun e => (upper C (fst x), snd (fst (fst e)), snd (fst e), snd e)) (snd x)) (combine ms l).
End AlternativeAuthority.
