(** * UniformWitnesses: BDABE and MKE08 encryptions with a zero draw

    Nothing here models rabe code. *)
From Coq Require Import String List Bool Arith ZArith Lia.
From Verif Require Import Base Crypto Policy Parse Spec SchemeLib Symmetric Dnf DnfProofs Bdabe BdabeProofs Mke08 Mke08Proofs
  Instance Sessions Witnesses Generic Views GenericProofs UniformProofs InsiderWitnesses.
Import ListNotations.
Local Open Scope string_scope.

Definition zero_then (x : F ZC) (n : nat) : F ZC := match n with 0 => f0 ZC | _ => x end.

Lemma zero_differ : zero_then (zmk 5) 1 <> zero_then (zmk 6) 1.
Proof. intros H. apply (f_equal zval) in H. vm_compute in H. discriminate. Qed.

Lemma bd_same_key : exists (pk : bd_pk ZC) apks (t t' : nat -> F ZC) ct j ct' j',
  bd_encrypt nc pk apks PX HumanPolicy "m" t 0 = Ok (ct, j) /\ bd_encrypt nc pk apks PX HumanPolicy "m" t' 0 = Ok (ct', j') /\
  t 1 <> t' 1 /\ encrypt_symmetric nc (gtone ZC) "m" = Ok (Bdabe.bct_data ct) /\
  encrypt_symmetric nc (gtone ZC) "m" = Ok (Bdabe.bct_data ct').
Proof.
  destruct bd_run as (pk & _ & _ & _ & apks & _).
  assert (Q : parse PX HumanPolicy = Ok (tree fX)) by (vm_compute; reflexivity).
  destruct (bd_encrypt_runs nc pk apks PX HumanPolicy "m" fX (zero_then (zmk 5)) 0 Q eq_refl) as (ct & j & He).
  destruct (bd_encrypt_runs nc pk apks PX HumanPolicy "m" fX (zero_then (zmk 6)) 0 Q eq_refl) as (ct' & j' & He').
  exists pk, apks, (zero_then (zmk 5)), (zero_then (zmk 6)), ct, j, ct', j'.
  split; [exact He|]. split; [exact He'|]. split; [exact zero_differ|].
  apply (bd_key ZL) in He, He'. cbn [zero_then Nat.add] in He, He'. rewrite (product_zero ZL) in He, He'. auto.
Qed.

Lemma mk_same_key : exists (pk : mk_pk ZC) apks (t t' : nat -> F ZC) ct j ct' j',
  mk_encrypt nc pk apks PX HumanPolicy "m" t 0 = Ok (ct, j) /\ mk_encrypt nc pk apks PX HumanPolicy "m" t' 0 = Ok (ct', j') /\
  t 1 <> t' 1 /\ encrypt_symmetric nc (gtone ZC) "m" = Ok (mct_data ct) /\
  encrypt_symmetric nc (gtone ZC) "m" = Ok (mct_data ct').
Proof.
  destruct mk_run as (pk & _ & _ & _ & apks & _).
  assert (Q : parse PX HumanPolicy = Ok (tree fX)) by (vm_compute; reflexivity).
  destruct (mk_encrypt_runs nc pk apks PX HumanPolicy "m" fX (zero_then (zmk 5)) 0 Q eq_refl) as (ct & j & He).
  destruct (mk_encrypt_runs nc pk apks PX HumanPolicy "m" fX (zero_then (zmk 6)) 0 Q eq_refl) as (ct' & j' & He').
  exists pk, apks, (zero_then (zmk 5)), (zero_then (zmk 6)), ct, j, ct', j'.
  split; [exact He|]. split; [exact He'|]. split; [exact zero_differ|].
  assert (Z : forall x y : F ZC, payload (fmul ZC (fmul ZC (f0 ZC) x) y) = gtone ZC).
  { intros x y. rewrite <- (product_zero ZL (fmul ZC x y)). f_equal. }
  apply (mk_key ZL) in He, He'. cbn [zero_then Nat.add] in He, He'. rewrite Z in He, He'. auto.
Qed.
