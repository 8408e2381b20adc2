(** * Sever: YCT14 keys for "A" and for "A and B" give one for "B" (C158)

    An adversary: nothing here is code of the crate, but it reads keys as the crate does. *)
From Coq Require Import String List.
From Verif Require Import Base Crypto Policy Tools Sharing Parse Yct14.
Import ListNotations.

Section Sever.
Context {C : crypto}.

(** A key for the policy [policy], which is the name [B], out of a key [sk1] for the name [A] and a key
    [sk2] for both.  Not in /repo; keys are read by yct14/mod.rs:181-192. *)
Definition yct_sever (sk1 sk2 : yct_sk C) (A B : string) (policy : string) (lang : language) : outcome (yct_sk C) :=
  obind (sk_get_private sk1 A) (fun x =>
  obind (sk_get_private sk2 A) (fun y =>
  obind (sk_get_private sk2 B) (fun z =>
  Ok (YctSk (policy, lang) [YAttr B (Some (YPriv (fmul C (fmul C z x) (finv C (fsub C (fadd C y y) x)))))])))).

(** An entry of a key times a scalar.  Not in /repo; the type is at yct14/mod.rs:48-56. *)
Definition yct_times (r : F C) (a : yct_attr C) : yct_attr C :=
  match y_node a with
  | Some (YPriv v) => YAttr (y_name a) (Some (YPriv (fmul C r v)))
  | _ => a
  end.

(** The same for any policy in the place of the second name: a key for [policy] out of a key [sk1] for
    the name [A] and a key [sk2] for [A] and [policy].  Not in /repo. *)
Definition yct_sever_any (sk1 sk2 : yct_sk C) (A : string) (policy : string) (lang : language) : outcome (yct_sk C) :=
  obind (sk_get_private sk1 A) (fun x =>
  obind (sk_get_private sk2 A) (fun y =>
  Ok (YctSk (policy, lang) (map (yct_times (fmul C x (finv C (fsub C (fadd C y y) x)))) (tl (ysk_du sk2)))))).

(** The same with one key [sk] for [A] or both [A] and [policy], which holds the two in its parts.  Not
    in /repo. *)
Definition yct_sever_one (sk : yct_sk C) (A : string) (policy : string) (lang : language) : outcome (yct_sk C) :=
  yct_sever_any sk (YctSk (ysk_policy sk) (tl (ysk_du sk))) A policy lang.
End Sever.
