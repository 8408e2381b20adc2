(** * Payloads: ciphertexts with other data

    Specifications for PropertiesPayload.v: a ciphertext of each scheme with its sealed data replaced.
    Not models of code. *)
From Coq Require Import String List Bool Arith.
From Verif Require Import Base Crypto Policy Tools SchemeLib Dnf Bdabe Mke08 Bsw Ghw11 Lsw Yct14 Ac17 Aw11.
Import ListNotations.

Section Payloads.
Context {C : crypto}.

Definition bsw_with (ct : bsw_ct C) (d : string) : bsw_ct C :=
  BswCt (bct_policy ct) (bct_c ct) (bct_cp ct) (bct_cy ct) d.
Definition ghw_with (ct : ghw_ct C) (d : string) : ghw_ct C :=
  GhwCt (gct_policy ct) (gct_c ct) (gct_c1 ct) (gct_cidi ct) d.
Definition lsw_with (ct : lsw_ct C) (d : string) : lsw_ct C :=
  LswCt (lct_e1 ct) (lct_e2 ct) (lct_ej ct) d.
Definition yct_with (ct : yct_ct C) (d : string) : yct_ct C := YctCt (yct_attrs ct) d.
Definition ac_with (ct : ac_ct C) (d : string) : ac_ct C := AcCt (act_c0 ct) (act_c ct) (act_cp ct) d.
Definition cp_with (ct : ac_cpct C) (d : string) : ac_cpct C := AcCpCt (acp_policy ct) (ac_with (acp_ct ct) d).
Definition kp_with (ct : ac_kpct C) (d : string) : ac_kpct C := AcKpCt (akp_attr ct) (ac_with (akp_ct ct) d).
Definition aw_with (ct : aw_ct C) (d : string) : aw_ct C := AwCt (awct_policy ct) (awct_c0 ct) (awct_c ct) d.
Definition bd_with (ct : bd_ct C) (d : string) : bd_ct C := BdCt (Bdabe.bct_policy ct) (Bdabe.bct_j ct) d.
Definition mk_with (ct : mk_ct C) (d : string) : mk_ct C := MkCt (mct_policy ct) (mct_e ct) d.

(** Two texts sealed with the same key. *)
Definition sealed_alike (n n' data data' d d' : string) : Prop := exists m : GT C,
  d = (n ++ aead_enc C (kdf C m) n data)%string /\ d' = (n' ++ aead_enc C (kdf C m) n' data')%string.

End Payloads.
Arguments sealed_alike C : clear implicits.
