(** * Coalition: authorities and users of AW11 who put together what they hold

    Specifications.  Nothing here is in /repo. *)
From Coq Require Import String List Bool Arith.
From Verif Require Import Base Crypto Policy Tools SchemeLib Aw11 Generic Views.
Import ListNotations.

(** Two rows of authorities that agree in the names of the attributes, and in the secret exponents of those
    attributes that the coalition controls.  Each authority has a list of attributes and a tape. *)
Definition together {C : crypto} (bad : string -> bool) (auths auths' : list (list string * (nat -> F C))) : Prop :=
  Forall2 (fun a a' => fst a' = fst a /\
    forall k x, nth_error (fst a) k = Some x -> bad (upper C x) = true ->
    snd a' (2 * k) = snd a (2 * k) /\ snd a' (2 * k + 1) = snd a (2 * k + 1)) auths auths'.
