(** * Pad: YCT14 keys for one policy open what lacks a name (C159)

    An adversary: nothing here is code of the crate, but it opens with the crate's decryption. *)
From Coq Require Import String List.
From Verif Require Import Base Crypto Policy Tools Sharing Parse Yct14 Blending.
Import ListNotations.

Section Pad.
Context {C : crypto}.

(** A ciphertext with further entries for the names [miss], all of them the neutral element.  Not in
    /repo; the type is at yct14/mod.rs:195-202. *)
Definition yct_pad (miss : list string) (ct : yct_ct C) : yct_ct C :=
  YctCt (map (fun n => YAttr n (Some (YPub (gtone C)))) miss ++ yct_attrs ct) (yct_data ct).

(** The weight with which two keys combine to one whose entry for the name [n] is zero.  Not in /repo;
    keys are read by yct14/mod.rs:181-192. *)
Definition yct_cancel (sk1 sk2 : yct_sk C) (n : string) : outcome (F C) :=
  obind (sk_get_private sk1 n) (fun a1 =>
  obind (sk_get_private sk2 n) (fun a2 =>
  Ok (fmul C a2 (finv C (fsub C a2 a1))))).

(** Opening with two keys a ciphertext without the name [n].  Not in /repo. *)
Definition yct_open_without (sk1 sk2 : yct_sk C) (n : string) (ct : yct_ct C) : outcome string :=
  obind (yct_cancel sk1 sk2 n) (fun x => yct_decrypt (yct_blend x sk1 sk2) (yct_pad [n] ct)).

(** Each two neighbours of a list of keys combined to one whose entry for the name [n] is zero.  Not in
    /repo. *)
Fixpoint yct_without (n : string) (keys : list (yct_sk C)) : outcome (list (yct_sk C)) :=
  match keys with
  | k :: r =>
      match r with
      | k' :: _ =>
          obind (sk_get_private k n) (fun a =>
          obind (sk_get_private k' n) (fun a' =>
          if feqb C a a' then Err
          else obind (yct_without n r) (fun l => Ok (yct_blend (fmul C a' (finv C (fsub C a' a))) k k' :: l))))
      | [] => Ok []
      end
  | [] => Ok []
  end.

(** One name after the other; one key more than there are names is needed.  Not in /repo. *)
Fixpoint yct_eliminate (miss : list string) (keys : list (yct_sk C)) : outcome (yct_sk C) :=
  match miss with
  | n :: r => obind (yct_without n keys) (yct_eliminate r)
  | [] => match keys with k :: _ => Ok k | [] => Err end
  end.
End Pad.
