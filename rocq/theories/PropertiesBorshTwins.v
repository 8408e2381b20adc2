(** * PropertiesBorshTwins: key files of one scheme under another (C140)

    [twins] and [apart] and the proofs are in BorshTwins.v. *)
From Coq Require Import String Ascii List Bool Arith NArith ZArith Lia.
From Verif Require Import Base Crypto Policy Files Borsh BorshProofs BorshExact Console Lengths BorshTwins Instance ConsoleWitnesses.
From Verif Require Bsw Lsw Aw11 Bdabe Mke08.
Import ListNotations.
Local Open Scope string_scope.

(** C140 is false: a BSW and a BDABE public key, an AW11 global key and an MKE08 master key, and all user and
    attribute keys of BDABE and MKE08 are written in the same way and read as each other. *)
Theorem C140_twins :
  forall (C : crypto) (W : wire C),
  twins (c_bsw_pk W) (c_bd_pk W)
    (fun k => Bdabe.BdPk (Bsw.bpk_g1 k) (Bsw.bpk_g2 k) (Bsw.bpk_h k) (Bsw.bpk_f k) (Bsw.bpk_egg k))
    (fun k => Bsw.BswPk (Bdabe.bpk_g1 k) (Bdabe.bpk_g2 k) (Bdabe.bpk_p1 k) (Bdabe.bpk_p2 k) (Bdabe.bpk_egg k)) /\
  twins (c_aw_gk W) (c_mk_msk W)
    (fun k => Mke08.MkMsk (Aw11.agk_g1 k) (Aw11.agk_g2 k)) (fun k => Aw11.AwGk (Mke08.mmsk_g1 k) (Mke08.mmsk_g2 k)) /\
  twins (c_bd_ask W) (c_mk_ask W)
    (fun k => Mke08.MkAsk (Bdabe.bask_attr k) (Bdabe.bask_au1 k) (Bdabe.bask_au2 k))
    (fun k => Bdabe.BdAsk (Mke08.mask_attr k) (Mke08.mask_g1 k) (Mke08.mask_g2 k)) /\
  twins (c_bd_uk W) (c_mk_uk W)
    (fun k => Mke08.MkUk (Mke08.MkUsk (Bdabe.busk_u1 (Bdabe.buk_sk k)) (Bdabe.busk_u2 (Bdabe.buk_sk k)))
       (Mke08.MkUpk (Bdabe.bupk_u (Bdabe.buk_pk k)) (Bdabe.bupk_u1 (Bdabe.buk_pk k)) (Bdabe.bupk_u2 (Bdabe.buk_pk k)))
       (map (fun a => Mke08.MkAsk (Bdabe.bask_attr a) (Bdabe.bask_au1 a) (Bdabe.bask_au2 a)) (Bdabe.buk_ska k)))
    (fun k => Bdabe.BdUk (Bdabe.BdUsk (Mke08.musk_g1 (Mke08.muk_sk k)) (Mke08.musk_g2 (Mke08.muk_sk k)))
       (Bdabe.BdUpk (Mke08.mupk_name (Mke08.muk_pk k)) (Mke08.mupk_g1 (Mke08.muk_pk k)) (Mke08.mupk_g2 (Mke08.muk_pk k)))
       (map (fun a => Bdabe.BdAsk (Mke08.mask_attr a) (Mke08.mask_g1 a) (Mke08.mask_g2 a)) (Mke08.muk_ska k))).
Proof. exact @all_twins. Qed.
Print Assumptions C140_twins.

(** C140: so the tool takes a key file of one scheme for that of the other. *)
Theorem C140_files :
  forall (C : crypto) (E : env C) (file : string) (d : fs),
  let W := e_wire E in
  ((exists x, snd (ser_dec E (c_bsw_pk W) file d) = Ok x) <-> (exists y, snd (ser_dec E (c_bd_pk W) file d) = Ok y)) /\
  ((exists x, snd (ser_dec E (c_aw_gk W) file d) = Ok x) <-> (exists y, snd (ser_dec E (c_mk_msk W) file d) = Ok y)) /\
  ((exists x, snd (ser_dec E (c_bd_uk W) file d) = Ok x) <-> (exists y, snd (ser_dec E (c_mk_uk W) file d) = Ok y)).
Proof. exact @files_alike. Qed.
Print Assumptions C140_files.

(** C140 refuted: the file that [setup] of BSW writes is read as a BDABE public key. *)
Theorem C140_refuted :
  exists (s : string) (x : Bsw.bsw_pk ZC) (y : Bdabe.bd_pk ZC),
  enc (c_bsw_pk zwire) x = Some s /\
  try_from_slice (c_bsw_pk zwire) s = Ok x /\ try_from_slice (c_bd_pk zwire) s = Ok y.
Proof. exact alike_refuted. Qed.
Print Assumptions C140_refuted.

(** C140: what is kept apart whatever the lengths of the elements are. *)
Theorem C140_apart :
  forall (C : crypto) (W : wire C) (wf wa wb wt : nat),
  wire_ok W -> wire_tight W -> widths W wf wa wb wt ->
  0 < wf -> 0 < wa -> 0 < wb -> 0 < wt ->
  apart (c_bsw_pk W) (c_mk_pk W) /\ apart (c_bd_pk W) (c_mk_pk W) /\
  apart (c_bsw_msk W) (c_lsw_msk W) /\ apart (c_bsw_msk W) (c_bd_msk W) /\
  apart (c_lsw_msk W) (c_bd_msk W) /\ apart (c_lsw_msk W) (c_mk_msk W) /\
  apart (c_lsw_pk W) (c_aw_gk W) /\ apart (c_bsw_pk W) (c_aw_gk W) /\
  apart (c_bd_pk W) (c_mk_msk W) /\ apart (c_mk_pk W) (c_mk_msk W).
Proof. exact @kept_apart. Qed.
Print Assumptions C140_apart.

(** ** A case *)
Example C140_example : widths zwire 2 2 2 2 /\ 0 < 2.
Proof.
  split; [| repeat constructor].
  repeat split; intros x b H; apply zp_two in H; exact H.
Qed.
