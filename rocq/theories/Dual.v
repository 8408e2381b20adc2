(** * Dual: a second YCT14 system in which keys for a conjunction arise as well (C160)

    Specification only: nothing here is code of the crate. *)
From Coq Require Import String List.
From Verif Require Import Base Crypto Policy Tools Sharing Parse Yct14 Isolate.
Import ListNotations.

(** A master key with [d] added to its secret and [d] times [v] to the secrets of the names.  Not in
    /repo; the type is at yct14/mod.rs:147-154. *)
Definition yct_shift {C : crypto} (msk : yct_msk C) (d : F C) (v : string -> F C) : yct_msk C :=
  YctMsk (fadd C (ymsk_s msk) d) (map (fun a =>
    match y_node a with
    | Some (YPriv c) => YAttr (y_name a) (Some (YPriv (fadd C c (fmul C d (v (y_name a))))))
    | _ => a
    end) (ymsk_attrs msk)).

(** The value of a key for a name.  Not in /repo; keys are read by yct14/mod.rs:181-192. *)
Definition yct_entry {C : crypto} (sk : yct_sk C) (n : string) : F C :=
  match sk_get_private sk n with Ok v => v | _ => f0 C end.

(** The sum of keys for the names [ns] with the weights [w].  Not in /repo; the type is at
    yct14/mod.rs:171-178. *)
Definition yct_mix {C : crypto} (ns : list string) (w : list (F C)) (keys : list (yct_sk C)) : outcome (yct_sk C) :=
  match keys with
  | k :: _ => Ok (YctSk (ysk_policy k) (map (fun n => YAttr n (Some (YPriv (scalar (map (fun k => yct_entry k n) keys) w)))) ns))
  | [] => Err
  end.
