(** * Selected: what decryption reads of a key and a ciphertext (C151)

    Specification only: nothing here is code of the crate. *)
From Coq Require Import String List Bool.
From Verif Require Import Base Crypto Policy Parse Sharing Bdabe Mke08 Bsw Ghw11 Lsw Yct14.
Import ListNotations.
Local Open Scope string_scope.

(** The leaf with name [n] and label [l] is among those that pruning selects for the policy [p] and the
    names [attrs]; [calc_pruned] is at /repo/src/utils/secretsharing/mod.rs:143-201. *)
Definition selected (attrs : list string) (p : string * language) (n l : string) : Prop :=
  exists v sel, parse (fst p) (snd p) = Ok v /\ calc_pruned attrs v None = Ok (true, sel) /\ In (n, l) sel.

(** The first entry with a name; the searches of the decryptions, for example bsw/mod.rs:283-295. *)
Definition entry_of {A} (name : A -> string) (l : list A) (n : string) : option A :=
  find (fun x => seqb (name x) n) l.

(** All entries with a name, in their order; the searches at ac17/mod.rs:403-414. *)
Definition entries_of {A} (name : A -> string) (l : list A) (n : string) : list A :=
  filter (fun x => seqb (name x) n) l.

Section Spoilt.
Context {C : crypto}.

(** A BSW ciphertext whose entries with one label are changed; what anyone can do to it, not in /repo. *)
Definition bsw_spoilt (l : string) (ct : bsw_ct C) : bsw_ct C :=
  BswCt (bct_policy ct) (bct_c ct) (bct_cp ct)
    (map (fun x => if seqb (b_string x) l then BAttr (b_string x) (g1add C (b_g1 x) (g1one C)) (b_g2 x) else x) (bct_cy ct))
    (bct_data ct).

(** An LSW ciphertext whose entries with one name are changed; not in /repo. *)
Definition lsw_spoilt (n : string) (ct : lsw_ct C) : lsw_ct C :=
  LswCt (lct_e1 ct) (lct_e2 ct)
    (map (fun x => if seqb (le_name x) n then LswEj n (g1add C (le_1 x) (g1one C)) (le_2 x) (le_3 x) else x) (lct_ej ct))
    (lct_ct ct).

(** A BDABE ciphertext whose blocks that begin with a name are changed; not in /repo. *)
Definition bd_spoilt (n : string) (ct : bd_ct C) : bd_ct C :=
  BdCt (Bdabe.bct_policy ct)
    (map (fun x => if seqb (hd "" (bt_attr x)) n
       then BdTuple (bt_attr x) (gtmul C (bt_e1 x) (pairing C (g1one C) (g2one C))) (bt_e2 x) (bt_e3 x) (bt_e4 x) (bt_e5 x) else x) (bct_j ct))
    (Bdabe.bct_data ct).

(** An MKE08 ciphertext whose blocks that begin with a name are changed; not in /repo. *)
Definition mk_spoilt (n : string) (ct : mk_ct C) : mk_ct C :=
  MkCt (mct_policy ct)
    (map (fun x => if seqb (hd "" (mj_str x)) n
       then MkConj (mj_str x) (gtmul C (mj_1 x) (pairing C (g1one C) (g2one C))) (mj_2 x) (mj_3 x) (mj_4 x) (mj_5 x) (mj_6 x) else x) (mct_e ct))
    (mct_data ct).
End Spoilt.
