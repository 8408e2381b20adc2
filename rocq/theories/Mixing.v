(** * Mixing: products of ciphertexts

    Specifications for PropertiesMixing.v: the sum of two tapes, and two ciphertexts of one scheme
    multiplied element by element.  The product keeps the policy, the names and the sealed data of the
    first.  Not models of code. *)
From Coq Require Import String List Bool Arith.
From Verif Require Import Base Crypto Policy Tools SchemeLib Dnf Bdabe Mke08 Bsw Ghw11 Lsw Yct14 Ac17 Aw11.
Import ListNotations.

Definition zip {A} (f : A -> A -> A) (l l' : list A) : list A := map (fun p => f (fst p) (snd p)) (combine l l').

Section Mixing.
Context {C : crypto}.

Definition tadd (t t' : nat -> F C) : nat -> F C := fun k => fadd C (t k) (t' k).

Definition bsw_mix (ct ct' : bsw_ct C) : bsw_ct C :=
  BswCt (bct_policy ct) (g1add C (bct_c ct) (bct_c ct')) (gtmul C (bct_cp ct) (bct_cp ct'))
    (zip (fun x x' => BAttr (b_string x) (g1add C (b_g1 x) (b_g1 x')) (g2add C (b_g2 x) (b_g2 x'))) (bct_cy ct) (bct_cy ct'))
    (bct_data ct).

Definition ghw_mix (ct ct' : ghw_ct C) : ghw_ct C :=
  GhwCt (gct_policy ct) (gtmul C (gct_c ct) (gct_c ct')) (g1add C (gct_c1 ct) (gct_c1 ct'))
    (zip (fun x x' => (fst x, (g1add C (fst (snd x)) (fst (snd x')), g1add C (snd (snd x)) (snd (snd x'))))) (gct_cidi ct) (gct_cidi ct'))
    (gct_data ct).

Definition lsw_mix (ct ct' : lsw_ct C) : lsw_ct C :=
  LswCt (gtmul C (lct_e1 ct) (lct_e1 ct')) (g2add C (lct_e2 ct) (lct_e2 ct'))
    (zip (fun x x' => LswEj (le_name x) (g1add C (le_1 x) (le_1 x')) (g1add C (le_2 x) (le_2 x')) (g1add C (le_3 x) (le_3 x')))
      (lct_ej ct) (lct_ej ct'))
    (lct_ct ct).

(** Only public attributes occur in ciphertexts. *)
Definition yct_mix (ct ct' : yct_ct C) : yct_ct C :=
  YctCt (zip (fun x x' => YAttr (y_name x) (match y_node x, y_node x' with
      | Some (YPub g), Some (YPub g') => Some (YPub (gtmul C g g'))
      | n, _ => n end)) (yct_attrs ct) (yct_attrs ct'))
    (yct_data ct).

Definition ac_mix (ct ct' : ac_ct C) : ac_ct C :=
  AcCt (zip (g2add C) (act_c0 ct) (act_c0 ct'))
    (zip (fun x x' => (fst x, zip (g1add C) (snd x) (snd x'))) (act_c ct) (act_c ct'))
    (gtmul C (act_cp ct) (act_cp ct')) (act_ct ct).
Definition cp_mix (ct ct' : ac_cpct C) : ac_cpct C := AcCpCt (acp_policy ct) (ac_mix (acp_ct ct) (acp_ct ct')).
Definition kp_mix (ct ct' : ac_kpct C) : ac_kpct C := AcKpCt (akp_attr ct) (ac_mix (akp_ct ct) (akp_ct ct')).

Definition aw_mix (ct ct' : aw_ct C) : aw_ct C :=
  AwCt (awct_policy ct) (gtmul C (awct_c0 ct) (awct_c0 ct'))
    (zip (fun x x' => (n4 x, gtmul C (snd (fst (fst x))) (snd (fst (fst x'))), g2add C (snd (fst x)) (snd (fst x')),
                       g2add C (snd x) (snd x'))) (awct_c ct) (awct_c ct'))
    (awct_data ct).

Definition bd_mix (ct ct' : bd_ct C) : bd_ct C :=
  BdCt (Bdabe.bct_policy ct)
    (zip (fun x x' => BdTuple (bt_attr x) (gtmul C (bt_e1 x) (bt_e1 x')) (g1add C (bt_e2 x) (bt_e2 x'))
        (g2add C (bt_e3 x) (bt_e3 x')) (g1add C (bt_e4 x) (bt_e4 x')) (g2add C (bt_e5 x) (bt_e5 x')))
      (Bdabe.bct_j ct) (Bdabe.bct_j ct'))
    (Bdabe.bct_data ct).

Definition mk_mix (ct ct' : mk_ct C) : mk_ct C :=
  MkCt (mct_policy ct)
    (zip (fun x x' => MkConj (mj_str x) (gtmul C (mj_1 x) (mj_1 x')) (gtmul C (mj_2 x) (mj_2 x')) (g1add C (mj_3 x) (mj_3 x'))
        (g2add C (mj_4 x) (mj_4 x')) (g1add C (mj_5 x) (mj_5 x')) (g2add C (mj_6 x) (mj_6 x')))
      (mct_e ct) (mct_e ct'))
    (mct_data ct).

End Mixing.
