(** * Agree: ciphertexts with one entry changed, for the schemes not in Selected.v (C151)

    What anyone can do to a ciphertext; nothing here is in /repo. *)
From Coq Require Import String List.
From Verif Require Import Base Crypto Policy Tools Ghw11 Yct14 Ac17 Aw11.
Import ListNotations.

Section Agree.
Context {C : crypto}.

(** GHW11: the entries of leaves with one name are changed; not in /repo. *)
Definition ghw_spoilt (n : string) (ct : ghw_ct C) : ghw_ct C :=
  GhwCt (gct_policy ct) (gct_c ct) (gct_c1 ct)
    (map (fun x => if seqb (remove_index (fst x)) n then (fst x, (g1add C (fst (snd x)) (g1one C), snd (snd x))) else x) (gct_cidi ct))
    (gct_data ct).

(** YCT14; not in /repo. *)
Definition yct_spoilt (n : string) (ct : yct_ct C) : yct_ct C :=
  YctCt (map (fun x => if seqb (y_name x) n then YAttr (y_name x) (option_map (fun y => match y with YPub g => YPub (gtmul C g g) | YPriv x => YPriv x end) (y_node x)) else x)
    (yct_attrs ct)) (yct_data ct).

(** AW11; not in /repo. *)
Definition aw_spoilt (n : string) (ct : aw_ct C) : aw_ct C :=
  AwCt (awct_policy ct) (awct_c0 ct)
    (map (fun '(l, a, b, c) => if seqb (remove_index l) n then (l, a, b, g2add C c (g2one C)) else (l, a, b, c)) (awct_c ct)) (awct_data ct).

(** AC17, both kinds; not in /repo. *)
Definition ac_spoilt (n : string) (ct : ac_ct C) : ac_ct C :=
  AcCt (act_c0 ct) (map (fun x => if seqb (remove_index (fst x)) n then (fst x, map (fun g => g1add C g (g1one C)) (snd x)) else x) (act_c ct))
    (act_cp ct) (act_ct ct).
Definition cp_spoilt (n : string) (ct : ac_cpct C) : ac_cpct C := AcCpCt (acp_policy ct) (ac_spoilt n (acp_ct ct)).
Definition kp_spoilt (n : string) (ct : ac_kpct C) : ac_kpct C := AcKpCt (akp_attr ct) (ac_spoilt n (akp_ct ct)).
End Agree.
