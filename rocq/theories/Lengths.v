(** * Lengths: how many bytes keys and ciphertexts take

    Nothing here is in /repo. *)
From Coq Require Import String List Arith.
From Verif Require Import Base Crypto Borsh.
Import ListNotations.

(** [long c v n]: written with [c], the value [v] has [n] bytes. *)
Definition long {A} (c : codec A) (v : A) (n : nat) : Prop :=
  forall b, enc c v = Some b -> String.length b = n.

(** Every scalar has [f] bytes, every element of the groups [a], [b] and [t]. *)
Definition widths {C : crypto} (W : wire C) (f a b t : nat) : Prop :=
  (forall x, long (w_f W) x f) /\ (forall x, long (w_1 W) x a) /\
  (forall x, long (w_2 W) x b) /\ (forall x, long (w_t W) x t).

(** A text, and a list whose entries have the lengths [n]: four bytes for the count, and the content. *)
Definition text (s : string) : nat := 4 + String.length s.
Definition listing (n : list nat) : nat := 4 + list_sum n.

(** Sealed data: the nonce, what AES-GCM makes of the plaintext (as long as that), and the tag. *)
Definition sealed (data : string) : nat := 4 + (12 + String.length data + 16).
(** The nonce has 12 bytes and the cipher adds the 16 bytes of the tag. *)
Definition seals (C : crypto) (nonce : string) : Prop :=
  String.length nonce = 12 /\
  forall k n p, String.length (aead_enc C k n p) = String.length p + 16.
