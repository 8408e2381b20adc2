(** * GlobalContext: the type [Aw11GlobalContext] of /repo/src/schemes/aw11/mod.rs

    No function of /repo makes or takes a value of this type.  It is public and
    derives [BorshSerialize], [BorshDeserialize], [Serialize] and [Deserialize]. *)
From Coq Require Import String List.
From Verif Require Import Base Crypto Borsh Serde Aw11.
Import ListNotations.
Local Open Scope string_scope.

Section GlobalContext.
Context {C : crypto}.

(** [Aw11GlobalContext]; /repo/src/schemes/aw11/mod.rs:91-97. *)
Record aw_ctx := AwCtx { actx_key : aw_gk C }.

(** Its borsh form; derived code (/repo/src/schemes/aw11/mod.rs:93). *)
Definition c_aw_ctx (W : wire C) : codec aw_ctx := c_as actx_key AwCtx (c_aw_gk W).
(** Its serde form; derived code (/repo/src/schemes/aw11/mod.rs:94). *)
Definition s_aw_ctx (W : swire C) (M : mode) : sd aw_ctx :=
  s_struct M (f_one "key" (s_aw_gk W M)) actx_key AwCtx.

End GlobalContext.
Arguments aw_ctx C : clear implicits.
