(** * Thinning: keys and ciphertexts of which parts have been dropped (C149)

    Nothing here is code of the crate: it is what a holder of a key, or anyone with a ciphertext,
    can do with the fields of the structures. *)
From Coq Require Import String List Bool Arith.
From Verif Require Import Base Crypto Bsw Ghw11 Lsw Yct14 Ac17 Aw11.
Import ListNotations.

(** The place in [l] of the element that is the [n]-th of those kept; behind the last of
    them the count goes on behind the end of [l].  Specification, not in /repo. *)
Fixpoint kept_at (keep : string -> bool) (l : list string) (n : nat) : nat :=
  match l with
  | [] => n
  | a :: r => if keep a then match n with 0 => 0 | S m => S (kept_at keep r m) end
              else S (kept_at keep r n)
  end.

(** Which draws are used again if [k] values are drawn before those of the attributes;
    specification, not in /repo. *)
Definition places (k : nat) (keep : string -> bool) (l : list string) (n : nat) : nat :=
  if n <? k then n else k + kept_at keep l (n - k).

Section Thinning.
Context {C : crypto}.

(** [CpAbeSecretKey] with fewer entries of [d_j]; bsw/mod.rs:76-79. *)
Definition bsw_thin (keep : string -> bool) (sk : bsw_sk C) : bsw_sk C :=
  BswSk (bsk_d sk) (filter (fun x => keep (b_string x)) (bsk_dj sk)).

(** [Ghw11SecretKey] with fewer entries of [attr]; ghw11/mod.rs:41-56. *)
Definition ghw_thin (keep : string -> bool) (sk : ghw_sk C) : ghw_sk C :=
  GhwSk (gsk_k sk) (gsk_l sk) (filter (fun x => keep (fst x)) (gsk_attr sk)).

(** [Aw11SecretKey] with fewer entries of [attr]; aw11/mod.rs:83-89. *)
Definition aw_thin (keep : string -> bool) (sk : aw_sk C) : aw_sk C :=
  AwSk (awsk_gid sk) (filter (fun x => keep (fst x)) (awsk_attr sk)).

(** [Ac17CpSecretKey] with fewer attributes and entries of [k]; ac17/mod.rs:113-135. *)
Definition cp_thin (keep : string -> bool) (sk : ac_cpsk C) : ac_cpsk C :=
  AcCpSk (filter keep (acps_attr sk))
    (AcSk (ask_k0 (acps_sk sk)) (filter (fun x => keep (fst x)) (ask_k (acps_sk sk))) (ask_kp (acps_sk sk))).

(** [Ac17KpCiphertext] with fewer attributes and entries of [c]; ac17/mod.rs:84-107. *)
Definition kp_thin (keep : string -> bool) (ct : ac_kpct C) : ac_kpct C :=
  AcKpCt (filter keep (akp_attr ct))
    (AcCt (act_c0 (akp_ct ct)) (filter (fun x => keep (fst x)) (act_c (akp_ct ct))) (act_cp (akp_ct ct)) (act_ct (akp_ct ct))).

(** [Yct14AbeCiphertext] with fewer entries; yct14/mod.rs:199-202. *)
Definition yct_thin (keep : string -> bool) (ct : yct_ct C) : yct_ct C :=
  YctCt (filter (fun x => keep (y_name x)) (yct_attrs ct)) (yct_data ct).

(** [KpAbeCiphertext] with fewer entries of [ej]; lsw/mod.rs:78-83. *)
Definition lsw_thin (keep : string -> bool) (ct : lsw_ct C) : lsw_ct C :=
  LswCt (lct_e1 ct) (lct_e2 ct) (filter (fun x => keep (le_name x)) (lct_ej ct)) (lct_ct ct).
End Thinning.
