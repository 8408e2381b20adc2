(** * Blending: affine combinations of keys

    Specifications for PropertiesBlending.v: of two tapes, and of two keys of one scheme, the combination
    with the weights [x] and [1 - x], element by element.  It needs no master key.  The combination
    keeps the policy and the names of the first key.  Not models of code. *)
From Coq Require Import String List Bool Arith.
From Verif Require Import Base Crypto Policy Tools SchemeLib Dnf Bdabe Mke08 Bsw Ghw11 Lsw Yct14 Ac17 Mixing.
Import ListNotations.

Section Blending.
Context {C : crypto}.

Definition blF (x a b : F C) : F C := fadd C (fmul C x a) (fmul C (fsub C (f1 C) x) b).
Definition bl1 (x : F C) (a b : G1 C) : G1 C := g1add C (g1mul C a x) (g1mul C b (fsub C (f1 C) x)).
Definition bl2 (x : F C) (a b : G2 C) : G2 C := g2add C (g2mul C a x) (g2mul C b (fsub C (f1 C) x)).

(** The tape [t] from [i] on and the tape [t'] from [i'] on. *)
Definition tblend (x : F C) (t : nat -> F C) (i : nat) (t' : nat -> F C) (i' : nat) : nat -> F C :=
  fun k => blF x (t (i + k)) (t' (i' + k)).

Definition bsw_blend (x : F C) (sk sk' : bsw_sk C) : bsw_sk C :=
  BswSk (bl2 x (bsk_d sk) (bsk_d sk'))
    (zip (fun a b => BAttr (b_string a) (bl1 x (b_g1 a) (b_g1 b)) (bl2 x (b_g2 a) (b_g2 b))) (bsk_dj sk) (bsk_dj sk')).

Definition ghw_blend (x : F C) (sk sk' : ghw_sk C) : ghw_sk C :=
  GhwSk (bl2 x (gsk_k sk) (gsk_k sk')) (bl2 x (gsk_l sk) (gsk_l sk'))
    (zip (fun a b => (fst a, bl2 x (snd a) (snd b))) (gsk_attr sk) (gsk_attr sk')).

Definition lsw_blend (x : F C) (sk sk' : lsw_sk C) : lsw_sk C :=
  LswSk (lsk_policy sk)
    (zip (fun a b => LswDj (ld_name a) (bl1 x (ld_1 a) (ld_1 b)) (bl2 x (ld_2 a) (ld_2 b)) (bl1 x (ld_3 a) (ld_3 b))
        (bl1 x (ld_4 a) (ld_4 b)) (bl1 x (ld_5 a) (ld_5 b))) (lsk_dj sk) (lsk_dj sk')).

(** Only private attributes occur in keys. *)
Definition yct_blend (x : F C) (sk sk' : yct_sk C) : yct_sk C :=
  YctSk (ysk_policy sk)
    (zip (fun a b => YAttr (y_name a) (match y_node a, y_node b with
        | Some (YPriv u), Some (YPriv v) => Some (YPriv (blF x u v))
        | n, _ => n end)) (ysk_du sk) (ysk_du sk')).

Definition ac_blend (x : F C) (sk sk' : ac_sk C) : ac_sk C :=
  AcSk (zip (bl2 x) (ask_k0 sk) (ask_k0 sk'))
    (zip (fun a b => (fst a, zip (bl1 x) (snd a) (snd b))) (ask_k sk) (ask_k sk'))
    (zip (bl1 x) (ask_kp sk) (ask_kp sk')).
Definition cp_blend (x : F C) (sk sk' : ac_cpsk C) : ac_cpsk C := AcCpSk (acps_attr sk) (ac_blend x (acps_sk sk) (acps_sk sk')).
Definition kp_blend (x : F C) (sk sk' : ac_kpsk C) : ac_kpsk C := AcKpSk (akps_policy sk) (ac_blend x (akps_sk sk) (akps_sk sk')).

Definition bd_upk_blend (x : F C) (u u' : bd_upk C) : bd_upk C :=
  BdUpk (bupk_u u) (bl1 x (bupk_u1 u) (bupk_u1 u')) (bl2 x (bupk_u2 u) (bupk_u2 u')).
Definition bd_ask_blend (x : F C) (a a' : bd_ask C) : bd_ask C :=
  BdAsk (bask_attr a) (bl1 x (bask_au1 a) (bask_au1 a')) (bl2 x (bask_au2 a) (bask_au2 a')).
Definition bd_blend (x : F C) (uk uk' : bd_uk C) : bd_uk C :=
  BdUk (BdUsk (bl1 x (busk_u1 (buk_sk uk)) (busk_u1 (buk_sk uk'))) (bl2 x (busk_u2 (buk_sk uk)) (busk_u2 (buk_sk uk'))))
    (bd_upk_blend x (buk_pk uk) (buk_pk uk')) (zip (bd_ask_blend x) (buk_ska uk) (buk_ska uk')).

Definition mk_upk_blend (x : F C) (u u' : mk_upk C) : mk_upk C :=
  MkUpk (mupk_name u) (bl1 x (mupk_g1 u) (mupk_g1 u')) (bl2 x (mupk_g2 u) (mupk_g2 u')).
Definition mk_ask_blend (x : F C) (a a' : mk_ask C) : mk_ask C :=
  MkAsk (mask_attr a) (bl1 x (mask_g1 a) (mask_g1 a')) (bl2 x (mask_g2 a) (mask_g2 a')).
Definition mk_blend (x : F C) (uk uk' : mk_uk C) : mk_uk C :=
  MkUk (MkUsk (bl1 x (musk_g1 (muk_sk uk)) (musk_g1 (muk_sk uk'))) (bl2 x (musk_g2 (muk_sk uk)) (musk_g2 (muk_sk uk'))))
    (mk_upk_blend x (muk_pk uk) (muk_pk uk')) (zip (mk_ask_blend x) (muk_ska uk) (muk_ska uk')).

End Blending.
