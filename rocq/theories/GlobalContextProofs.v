(** * GlobalContextProofs: proofs of C147 *)
From Coq Require Import String Ascii List Bool Arith NArith Lia.
From Verif Require Import Base Crypto Policy Files Borsh BorshProofs BorshTwins Serde SerdeProofs SerdeTypes SerdeLayout SerdeExact Aw11 GlobalContext.
Import ListNotations.
Local Open Scope string_scope.

Theorem ctx_twin (C : crypto) (W : wire C) : twins (c_aw_ctx W) (c_aw_gk W) actx_key AwCtx.
Proof.
  repeat apply conj.
  - reflexivity.
  - reflexivity.
  - intros s [x] H. unfold try_from_slice, c_aw_ctx, c_as in *. cbn [dec_ enc] in *.
    destruct (dec_ (c_aw_gk W) s) as [[k r]|] eqn:E; [|discriminate]. cbn in H. destruct r; [|discriminate].
    injection H as ->. reflexivity.
  - intros s y H. unfold try_from_slice, c_aw_ctx, c_as in *. cbn [dec_ enc] in *.
    destruct (dec_ (c_aw_gk W) s) as [[k r]|] eqn:E; [|discriminate]. cbn. destruct r; [|discriminate].
    injection H as ->. reflexivity.
Qed.

Theorem ctx_survives (C : crypto) (W : wire C) : wire_ok W -> forall x : aw_ctx C, survives (c_aw_ctx W) x.
Proof.
  intros OK x. destruct (proj1 (aw11_borsh W OK) (actx_key x)) as (s & E & D). exists s.
  destruct (ctx_twin C W) as (A & _ & _ & B). split; [now rewrite A|]. apply B in D. rewrite D. now destruct x.
Qed.

Lemma aw_ctx_sgood (C : crypto) (W : swire C) (M : mode) : swire_ok W -> sgood (fun _ => True) 66 (s_aw_ctx W M).
Proof.
  intros OK. eapply sgood_mono; [|apply le_n|].
  - eapply struct_sgood; [apply one_fgood; exact (aw_gk_sgood W M OK) | reflexivity | intros v; destruct v; reflexivity].
  - intros v _. exact I.
Qed.

Theorem ctx_read (C : crypto) (W : swire C) (M M' : mode) : swire_ok W ->
  forall x : aw_ctx C, read_as (s_aw_ctx W M) (s_aw_ctx W M') x x.
Proof.
  intros OK x. refine (sgood_read (fun _ => True) 66 (s_aw_ctx W M) (s_aw_ctx W M') x (aw_ctx_sgood C W M OK) (leb_ok 66 max_depth eq_refl) I (same_de _ _ _)).
  sames.
Qed.

Theorem ctx_layout (C : crypto) (W : swire C) (M : mode) (x : aw_ctx C) :
  ser (s_aw_ctx W M) x = written M [("key", written M [("g1", ser (sw_1 W) (agk_g1 (actx_key x))); ("g2", ser (sw_2 W) (agk_g2 (actx_key x)))])].
Proof. unfold written. destruct M as [[] [] []]; destruct x; reflexivity. Qed.

Theorem ctx_apart (C : crypto) (W : swire C) (M M' : mode) : swire_ok W -> required W -> packed M = false ->
  (forall x : aw_ctx C, from_cbor (s_aw_gk W M') (to_cbor (s_aw_ctx W M) x) = Err) /\
  (forall k : aw_gk C, from_cbor (s_aw_ctx W M') (to_cbor (s_aw_gk W M) k) = Err).
Proof.
  intros OK (Rf & R1 & R2 & Rt) PK.
  assert (D : forall d, Nat.leb d 127 = true -> (d <= max_depth)%nat) by (intros d; apply leb_ok).
  split.
  - intros k. unfold to_cbor. rewrite from_put; [|apply (holds_mono 66); [now apply D|apply (aw_ctx_sgood C W M OK k I)]].
    cbn. unfold field_key. rewrite PK. cbn. rewrite ?R1, ?R2. reflexivity.
  - intros k. unfold to_cbor. rewrite from_put; [|apply (holds_mono 65); [now apply D|apply (aw_gk_sgood W M OK k I)]].
    cbn. unfold field_key. rewrite PK. cbn. reflexivity.
Qed.
