(** * Ffi: the C interface of BSW, /repo/src/ffi/bsw.rs

    /repo/src/lib.rs does not include this file, and it was written for an older
    form of the library.  It is read here against the present one: a call that
    gave [None] gives an error, the field [_ct] of a ciphertext is [data], and
    the arguments of [encrypt] are in their present order.

    Simplified: a pointer is the text of all bytes that the caller owns from
    there on; [malloc] always succeeds; freeing (bsw.rs:35-38 and 63-66) has no
    effect that a later call can see. *)
From Coq Require Import String Ascii List Bool Arith NArith.
From Verif Require Import Base Crypto Policy Files Bsw.
Import ListNotations.
Local Open Scope string_scope.

(** What becomes of a call: it returns, it aborts the program, or it reads or
    writes memory that does not belong to it (the pointers of
    /repo/src/ffi/bsw.rs:83-122 and 131-163). *)
Inductive cres (A : Type) : Type := Ret (x : A) | Abort | Beyond.
Arguments Ret {A} _. Arguments Abort {A}. Arguments Beyond {A}.

(** One step after another, as in the functions of /repo/src/ffi/bsw.rs; lines 1-163; not in /repo by itself. *)
Definition cbind {A B} (x : cres A) (f : A -> cres B) : cres B :=
  match x with Ret a => f a | Abort => Abort | Beyond => Beyond end.

(** [CStr::from_ptr]: the bytes up to the first NUL; /repo/src/ffi/bsw.rs:46, 92
    and 140. *)
Fixpoint c_str (m : string) : cres string :=
  match m with
  | EmptyString => Beyond
  | String b r => if Ascii.eqb b zero then Ret "" else cbind (c_str r) (fun s => Ret (String b s))
  end.

(** [split(",")] with [cur] read so far; /repo/src/ffi/bsw.rs:47. *)
Fixpoint comma_from (cur s : string) : list string :=
  match s with
  | EmptyString => [cur]
  | String b r => if Ascii.eqb b "," then cur :: comma_from "" r else comma_from (cur ++ String b "") r
  end.
Definition comma_split (s : string) : list string := comma_from "" s.

(** Numbers of type [u32]: conversion from [usize], and subtraction, which
    aborts in a build with overflow checks and wraps around in one without
    them; /repo/src/ffi/bsw.rs:127, 145 and 155. *)
Definition u32 (n : N) : N := (n mod 4294967296)%N.
Definition u32_sub (checks : bool) (a b : N) : cres N :=
  if (b <=? a)%N then Ret (a - b)%N else if checks then Abort else Ret (a + 4294967296 - b)%N.

(** What [rabe_bsw_encrypt] and [rabe_bsw_decrypt] return: -1, or 0 with a
    buffer and its length; /repo/src/ffi/bsw.rs:83-122 and 131-163. *)
Inductive reply : Type := Failed | Wrote (buf : string) (len : N).

Section Ffi.
Context {C : crypto}.

(** [CpAbeContext]; /repo/src/ffi/bsw.rs:16-20. *)
Record ffi_ctx : Type := Ctx { c_msk : bsw_msk C; c_pk : bsw_pk C }.

(** [serde_json::to_string] and [from_str] for ciphertexts;
    /repo/src/ffi/bsw.rs:107 and 146. *)
Record jwire : Type := JWire { js_enc : bsw_ct C -> string; js_dec : string -> option (bsw_ct C) }.

(** [rabe_bsw_context_create]; /repo/src/ffi/bsw.rs:23-32. *)
Definition ffi_create : rand (F C) ffi_ctx :=
  rbind bsw_setup (fun k => rret (Ctx (snd k) (fst k))).

(** The value of [unwrap] on the result of a call that draws; used at
    /repo/src/ffi/bsw.rs:56 and 78. *)
Definition c_unwrap {A} (x : outcome (option A * nat)) : cres (A * nat) :=
  match x with Ok (Some a, j) => Ret (a, j) | _ => Abort end.

(** [rabe_bsw_keygen]; /repo/src/ffi/bsw.rs:41-60. *)
Definition ffi_keygen (ctx : ffi_ctx) (attributes : string) (t : nat -> F C) (i : nat)
  : cres (bsw_sk C * nat) :=
  cbind (c_str attributes) (fun s =>
  if utf8 s then c_unwrap (bsw_keygen (c_pk ctx) (c_msk ctx) (comma_split s) t i) else Abort).

(** [rabe_bsw_delegate]; /repo/src/ffi/bsw.rs:69-80. *)
Definition ffi_delegate (ctx : ffi_ctx) (sk : bsw_sk C) (attributes : list string)
  (t : nat -> F C) (i : nat) : cres (bsw_sk C * nat) :=
  c_unwrap (bsw_delegate (c_pk ctx) sk attributes t i).

(** [rabe_bsw_encrypt]; /repo/src/ffi/bsw.rs:83-122.  The policy is always read
    as JSON.  The buffer has as many bytes as the number [_size] of type [u32]. *)
Definition ffi_encrypt (J : jwire) (nonce : string) (ctx : ffi_ctx) (policy pt : string) (pt_len : N)
  (t : nat -> F C) (i : nat) : cres reply :=
  cbind (c_str policy) (fun pol =>
  if negb (utf8 pol) then Ret Failed
  else if (N.of_nat (String.length pt) <? pt_len)%N then Beyond
  else match bsw_encrypt nonce (c_pk ctx) pol JsonPolicy (String.substring 0 (N.to_nat pt_len) pt) t i with
       | Ok (ct, _) =>
           let s := js_enc J ct in
           let size := u32 (N.of_nat (String.length s) + 1) in
           if (size <? N.of_nat (String.length s))%N then Beyond
           else Ret (Wrote (s ++ String zero "") size)
       | Err => Ret Failed
       | Panic => Abort
       end).

(** [rabe_bsw_decrypt_get_size]; /repo/src/ffi/bsw.rs:125-128, and again at 155. *)
Definition ffi_size (checks : bool) (ct : bsw_ct C) : cres N :=
  u32_sub checks (u32 (N.of_nat (String.length (bct_data ct)))) 16.

(** [rabe_bsw_decrypt]; /repo/src/ffi/bsw.rs:131-163. *)
Definition ffi_decrypt (checks : bool) (J : jwire) (sk : bsw_sk C) (ct : string) (ct_len : N) : cres reply :=
  cbind (c_str ct) (fun s =>
  if negb (utf8 s) then Ret Failed
  else cbind (u32_sub checks ct_len 1) (fun n =>
  if negb (N.of_nat (String.length s) =? n)%N then Abort
  else match js_dec J s with
       | None => Ret Failed
       | Some c =>
           match bsw_decrypt sk c with
           | Err => Ret Failed
           | Panic => Abort
           | Ok pt =>
               cbind (ffi_size checks c) (fun size =>
               if (String.length pt =? 0)%nat then Abort
               else if (N.of_nat (String.length pt) <? size)%N then Beyond
               else Ret (Wrote (String.substring 0 (N.to_nat size) pt) size))
           end
       end)).
End Ffi.
Arguments ffi_ctx : clear implicits.
Arguments jwire : clear implicits.
