(** * Insiders: what the holder of a key sees

    Specifications for the counterpart of Views.v: the group elements of the keys of the eight
    schemes.  Not models of code. *)
From Coq Require Import String List Bool Arith.
From Verif Require Import Base Crypto Policy Tools SchemeLib Dnf Bdabe Mke08 Bsw Ghw11 Lsw Yct14 Ac17 Aw11 Generic.
Import ListNotations.

Section Insiders.
Context {C : crypto}.

(** Everything of two views. *)
Definition both (v w : view C) : view C :=
  View (seen1 v ++ seen1 w) (seen2 v ++ seen2 w) (seenT v ++ seenT w).

(** All group elements of a key of each scheme; keys of YCT14 have none, their scalars may occur in
    the combination. *)
Definition bsw_held (sk : bsw_sk C) : view C :=
  View (map b_g1 (bsk_dj sk)) (bsk_d sk :: map b_g2 (bsk_dj sk)) [].

Definition ghw_held (sk : ghw_sk C) : view C :=
  View [] (gsk_k sk :: gsk_l sk :: map snd (gsk_attr sk)) [].

Definition lsw_held (sk : lsw_sk C) : view C :=
  View (map ld_1 (lsk_dj sk) ++ flat_map (fun d => [ld_3 d; ld_4 d; ld_5 d]) (lsk_dj sk)) (map ld_2 (lsk_dj sk)) [].

Definition ac_held (sk : ac_sk C) : view C :=
  View (ask_kp sk ++ concat (map snd (ask_k sk))) (ask_k0 sk) [].

Definition aw_held (sk : aw_sk C) : view C := View (map snd (awsk_attr sk)) [] [].

Definition bd_held (uk : bd_uk C) : view C :=
  View (busk_u1 (buk_sk uk) :: bupk_u1 (buk_pk uk) :: map (@bask_au1 C) (buk_ska uk))
       (busk_u2 (buk_sk uk) :: bupk_u2 (buk_pk uk) :: map (@bask_au2 C) (buk_ska uk)) [].

Definition mk_held (uk : mk_uk C) : view C :=
  View (musk_g1 (muk_sk uk) :: mupk_g1 (muk_pk uk) :: map (@mask_g1 C) (muk_ska uk))
       (musk_g2 (muk_sk uk) :: mupk_g2 (muk_pk uk) :: map (@mask_g2 C) (muk_ska uk)) [].

End Insiders.
