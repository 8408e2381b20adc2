(** * PropertiesRetarget: a ciphertext made into one for another policy (C156)

    Every BSW and GHW11 ciphertext can be made, by anyone and with the public key only, into one for
    any policy.  The proofs are in RetargetProofs.v. *)
From Coq Require Import String Ascii List Bool Arith ZArith Lia.
From Verif Require Import Base Crypto Policy Tools Sharing Spec PolicyProofs Poly SharingProofs
  Symmetric Parse ParseProofs SchemeLib Bsw BswProofs Ghw11 Ghw11Proofs
  Instance Sessions Witnesses Retarget RetargetProofs.
Import ListNotations.
Local Open Scope string_scope.
Local Open Scope rand_scope.
Local Open Scope nat_scope.

(** The weights depend on the policy of the ciphertext alone.  The result is what encryption gives for
    the other policy with the same secret and payload key and the draws [d]; if that fails, so does
    the adversary. *)
Theorem C156_bsw_retarget : forall (C : crypto), laws C -> forall pol lang f,
  parse pol lang = Ok (tree f) -> arity2 f = true -> small_ok C (and_width f) ->
  Forall (fun n => hash C (remove_index n) <> Some (f0 C)) (map fst (leaves f)) ->
  exists w1 w2 : list (F C), forall nonce (pk : bsw_pk C) pt t i ct j,
    bsw_encrypt nonce pk pol lang pt t i = Ok (ct, j) -> forall pol' lang' d,
    bsw_encrypt nonce pk pol' lang' pt (after (t i) (t (S i)) d) 0 =
      match bsw_retarget w1 w2 pk ct pol' lang' d 0 with Ok (c, k) => Ok (c, 2 + k) | Err => Err | Panic => Panic end.
Proof. exact @bsw_retargets. Qed.
Print Assumptions C156_bsw_retarget.

(** In GHW11 no condition on hash values is needed. *)
Theorem C156_ghw_retarget : forall (C : crypto), laws C -> forall pol lang f,
  parse pol lang = Ok (tree f) -> arity2 f = true -> small_ok C (and_width f) ->
  exists w1 w2 : list (F C), forall nonce (pk : ghw_pk C) pt t i ct j,
    ghw_encrypt nonce pk pol lang pt t i = Ok (ct, j) -> forall pol' lang' d,
    ghw_encrypt nonce pk pol' lang' pt (after (t i) (t (S i)) d) 0 =
      match ghw_retarget w1 w2 pk ct pol' lang' d 0 with Ok (c, k) => Ok (c, 2 + k) | Err => Err | Panic => Panic end.
Proof. exact @ghw_retargets. Qed.
Print Assumptions C156_ghw_retarget.

(** So every key opens every ciphertext, whatever its policy: the holder chooses a policy that the key
    satisfies. *)
Theorem C156_bsw_opens : forall (C : crypto), laws C -> forall pol lang f,
  parse pol lang = Ok (tree f) -> arity2 f = true -> small_ok C (and_width f) ->
  Forall (fun n => hash C (remove_index n) <> Some (f0 C)) (map fst (leaves f)) ->
  exists w1 w2 : list (F C), forall nonce (pk : bsw_pk C) msk attrs sk pt ct ts is js tk ik jk te ie je pol' lang' f' d,
    bsw_setup ts is = Ok (pk, msk, js) -> bsw_keygen pk msk attrs tk ik = Ok (Some sk, jk) ->
    bsw_encrypt nonce pk pol lang pt te ie = Ok (ct, je) ->
    parse pol' lang' = Ok (tree f') -> String.length nonce = 12 -> (forall s, hash C s <> None) ->
    arity2 f' = true -> NoDup (leaves f') -> plain_names f' = true -> small_ok C (and_width f') -> sat (owns attrs) f' = true ->
    exists ct' k, bsw_retarget w1 w2 pk ct pol' lang' d 0 = Ok (ct', k) /\ bsw_decrypt sk ct' = Ok pt.
Proof. exact @bsw_retarget_opens. Qed.
Print Assumptions C156_bsw_opens.

Theorem C156_ghw_opens : forall (C : crypto), laws C -> forall pol lang f,
  parse pol lang = Ok (tree f) -> arity2 f = true -> small_ok C (and_width f) ->
  exists w1 w2 : list (F C), forall nonce (pk : ghw_pk C) msk attrs sk tk z pt ct ts is js tg ik jk tt it jt te ie je pol' lang' f' d,
    ghw_setup ts is = Ok (pk, msk, js) -> ghw_keygen pk msk attrs tg ik = Ok (Some sk, jk) -> ghw_tkgen sk tt it = Ok ((tk, z), jt) ->
    ghw_encrypt nonce pk pol lang pt te ie = Ok (ct, je) ->
    parse pol' lang' = Ok (tree f') -> String.length nonce = 12 -> (forall s, hash C s <> None) ->
    arity2 f' = true -> NoDup (leaves f') -> plain_names f' = true -> small_ok C (and_width f') -> sat (owns attrs) f' = true ->
    exists ct' k tct, ghw_retarget w1 w2 pk ct pol' lang' d 0 = Ok (ct', k) /\
      ghw_transform ct' tk = Ok tct /\ ghw_decrypt_out tct z (gct_data ct') = Ok pt.
Proof. exact @ghw_retarget_opens. Qed.
Print Assumptions C156_ghw_opens.

(** The weights of a conjunction of two names; not in /repo. *)
Definition QW : string := """A"" and ""B""".
Definition fW : formula := FAnd [FLeaf "A" 2; FLeaf "B" 10].
Definition hA : zp := zmk (toy_hash "A" 1).
Definition hB : zp := zmk (toy_hash "B" 1).
Definition wW : list (F ZC) := [zmk 2; zmk (-1)].
Definition wB : list (F ZC) := [zmul (zmk 2) (zinv hA); zmul (zmk (-1)) (zinv hB)].
Definition wG : list (F ZC) := [zmul (zmk 2) hA; zmul (zmk (-1)) hB].

(** A user whose key has nothing of the policy opens what was made of the ciphertext. *)
Theorem C156_bsw_refuted : exists (pk : bsw_pk ZC) msk sk ct ct' ts i1 i2 i3 i4,
  bsw_setup ts 0 = Ok (pk, msk, i1) /\
  bsw_keygen pk msk ["X"] ts i1 = Ok (Some sk, i2) /\
  bsw_encrypt nc pk QW HumanPolicy "hello" ts i2 = Ok (ct, i3) /\
  bsw_decrypt sk ct = Err /\
  bsw_retarget wW wB pk ct """X""" HumanPolicy ts i3 = Ok (ct', i4) /\
  bsw_decrypt sk ct' = Ok "hello".
Proof.
  by_run (' (pk, msk) <- bsw_setup (C := ZC) ;; ko <- bsw_keygen pk msk ["X"] ;; sk <- rlift (unwrap ko) ;;
          ct <- bsw_encrypt nc pk QW HumanPolicy "hello" ;;
          ct' <- bsw_retarget wW wB pk ct """X""" HumanPolicy ;;
          rret (bsw_decrypt sk ct, bsw_decrypt sk ct')) (@Err string, Ok "hello").
Qed.
Print Assumptions C156_bsw_refuted.

Theorem C156_ghw_refuted : exists (pk : ghw_pk ZC) msk sk tk z ct ct' ts i1 i2 i3 i4 i5,
  ghw_setup ts 0 = Ok (pk, msk, i1) /\
  ghw_keygen pk msk ["X"] ts i1 = Ok (Some sk, i2) /\
  ghw_encrypt nc pk QW HumanPolicy "hello" ts i2 = Ok (ct, i3) /\
  ghw_tkgen sk ts i3 = Ok (tk, z, i4) /\
  obind (ghw_transform ct tk) (fun tct => ghw_decrypt_out tct z (gct_data ct)) = Err /\
  ghw_retarget wW wG pk ct """X""" HumanPolicy ts i4 = Ok (ct', i5) /\
  obind (ghw_transform ct' tk) (fun tct => ghw_decrypt_out tct z (gct_data ct')) = Ok "hello".
Proof.
  by_run (' (pk, msk) <- ghw_setup (C := ZC) ;; ko <- ghw_keygen pk msk ["X"] ;; sk <- rlift (unwrap ko) ;;
          ct <- ghw_encrypt nc pk QW HumanPolicy "hello" ;;
          ' (tk, z) <- ghw_tkgen sk ;;
          ct' <- ghw_retarget wW wG pk ct """X""" HumanPolicy ;;
          rret (obind (ghw_transform ct tk) (fun tct => ghw_decrypt_out tct z (gct_data ct)),
                obind (ghw_transform ct' tk) (fun tct => ghw_decrypt_out tct z (gct_data ct'))))
    (@Err string, Ok "hello").
Qed.
Print Assumptions C156_ghw_refuted.

(** The hypotheses of the theorems hold for this policy. *)
Example C156_example :
  parse QW HumanPolicy = Ok (tree fW) /\ arity2 fW = true /\ small_ok ZC (and_width fW) /\
  Forall (fun n => hash ZC (remove_index n) <> Some (f0 ZC)) (map fst (leaves fW)).
Proof.
  split; [vm_compute; reflexivity|]. split; [reflexivity|]. split; [ground|].
  repeat constructor; intros E; apply (f_equal (fun o => match o with Some x => zval x | None => 0%Z end)) in E; vm_compute in E; discriminate E.
Qed.
