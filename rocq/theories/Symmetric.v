(** * Symmetric: /repo/src/utils/aes/mod.rs *)
From Coq Require Import String List Bool Arith.
From Verif Require Import Base Crypto.

Section Symmetric.
Context {C : crypto}.

(** [encrypt_symmetric]; /repo/src/utils/aes/mod.rs:10-26.  The random nonce is
    an argument (12 bytes in the code, line 17).  AES-GCM reports an error only
    for inputs beyond its length limit (2^36 bytes); this branch is left out. *)
Definition encrypt_symmetric (nonce : string) (msg : GT C) (data : string) : outcome string :=
  Ok (nonce ++ aead_enc C (kdf C msg) nonce data)%string.

(** [decrypt_symmetric]; /repo/src/utils/aes/mod.rs:29-44.  [split_off(12)]
    panics when there are fewer than 12 bytes. *)
Definition decrypt_symmetric (msg : GT C) (nonce_ct : string) : outcome string :=
  if String.length nonce_ct <? 12 then Panic
  else match aead_dec C (kdf C msg) (String.substring 0 12 nonce_ct)
               (String.substring 12 (String.length nonce_ct - 12) nonce_ct) with
       | Some data => Ok data
       | None => Err
       end.
End Symmetric.
