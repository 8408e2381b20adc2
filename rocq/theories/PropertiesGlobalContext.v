(** * PropertiesGlobalContext: the AW11 global context (C147)

    [twins] is in BorshTwins.v, [survives] in BorshProofs.v, [read_as] in
    SerdeExact.v, [written] in SerdeLayout.v. *)
From Coq Require Import String Ascii List Bool Arith NArith ZArith.
From Verif Require Import Base Crypto Policy Files Borsh BorshProofs BorshTwins Serde SerdeProofs SerdeTypes SerdeLayout SerdeExact Aw11 GlobalContext GlobalContextProofs Instance Console ConsoleWitnesses SerdeConsole.
Import ListNotations.
Local Open Scope string_scope.

(** C147. In borsh a context has the bytes of its key, and every file with a global key is one with a context. *)
Theorem C147_borsh :
  forall (C : crypto) (W : wire C),
  twins (c_aw_ctx W) (c_aw_gk W) actx_key AwCtx /\
  (wire_ok W -> forall x : aw_ctx C, survives (c_aw_ctx W) x).
Proof. exact (fun C W => conj (ctx_twin C W) (ctx_survives C W)). Qed.
Print Assumptions C147_borsh.

(** C147. In serde it is a map with the one entry [key]. *)
Theorem C147_layout :
  forall (C : crypto) (W : swire C) (M : mode) (x : aw_ctx C),
  ser (s_aw_ctx W M) x =
  written M [("key", written M [("g1", ser (sw_1 W) (agk_g1 (actx_key x))); ("g2", ser (sw_2 W) (agk_g2 (actx_key x)))])].
Proof. exact @ctx_layout. Qed.
Print Assumptions C147_layout.

(** C147. It is read back, whatever the options of the writer and the reader are. *)
Theorem C147_read :
  forall (C : crypto) (W : swire C) (M M' : mode), swire_ok W ->
  forall x : aw_ctx C, read_as (s_aw_ctx W M) (s_aw_ctx W M') x x.
Proof. exact @ctx_read. Qed.
Print Assumptions C147_read.

(** C147. With the names of the fields a context is not read as a key, nor a key as a context. *)
Theorem C147_apart :
  forall (C : crypto) (W : swire C) (M M' : mode), swire_ok W -> required W -> packed M = false ->
  (forall x : aw_ctx C, from_cbor (s_aw_gk W M') (to_cbor (s_aw_ctx W M) x) = Err) /\
  (forall k : aw_gk C, from_cbor (s_aw_ctx W M') (to_cbor (s_aw_gk W M) k) = Err).
Proof. exact @ctx_apart. Qed.
Print Assumptions C147_apart.

Example C147_example :
  let x : aw_ctx ZC := AwCtx (AwGk (zmk 3 : G1 ZC) (zmk 5 : G2 ZC)) in
  wire_ok zwire /\ swire_ok zswire /\ required zswire /\ packed (Mode false false false) = false /\
  ser (s_aw_ctx zswire (Mode false false false)) x =
    VMap [(VText "key", VMap [(VText "g1", VU 3); (VText "g2", VU 5)])] /\
  option_map to_hex (enc (c_aw_ctx zwire) x) = option_map to_hex (enc (c_aw_gk zwire) (actx_key x)) /\
  option_map to_hex (enc (c_aw_ctx zwire) x) = Some "03000500".
Proof.
  cbv zeta. split; [exact zwire_ok|]. split; [exact zswire_ok|]. split; [exact zswire_required|].
  repeat apply conj; vm_compute; reflexivity.
Qed.
