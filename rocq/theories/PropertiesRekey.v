(** * PropertiesRekey: an LSW key made into one for another policy (C157)

    Every LSW key without negated names can be made, by its holder and with the public key only, into
    a key for any name.  The proofs are in RekeyProofs.v. *)
From Coq Require Import String Ascii List Bool Arith ZArith Lia.
From Verif Require Import Base Crypto Policy Tools Sharing Spec PolicyProofs Poly SharingProofs
  Symmetric Parse ParseProofs SchemeLib Lsw LswProofs
  Instance Sessions Witnesses Retarget PropertiesRetarget Rekey RekeyProofs.
Import ListNotations.
Local Open Scope string_scope.
Local Open Scope rand_scope.
Local Open Scope nat_scope.

(** The weights depend on the policy of the key alone.  The result is what key generation gives for
    the name; a key that key generation issues on any draw arises in this way, as [R] is the same for
    all of them. *)
Theorem C157_lsw_rekey : forall (C : crypto), laws C -> forall pol lang f,
  parse pol lang = Ok (tree f) -> arity2 f = true -> small_ok C (and_width f) ->
  Forall (fun n => is_negative (remove_index n) = Ok false) (names f) ->
  exists w1 w2 : list (F C), forall (pk : lsw_pk C) msk t i sk j, lsw_keygen pk msk pol lang t i = Ok (sk, j) ->
  forall pol' lang' n p h, parse pol' lang' = Ok (tree (FLeaf n p)) ->
    is_negative (remove_index n) = Ok false -> hash C (remove_index n) = Some h -> h <> f0 C ->
  exists R, forall d k,
    lsw_keygen pk msk pol' lang' (fun m => fadd C R (d m)) k = lsw_rekey w1 w2 pk sk (remove_index n) pol' lang' d k.
Proof. exact @lsw_rekeys. Qed.
Print Assumptions C157_lsw_rekey.

(** The same for any policy without negated names and names whose hash is zero: every choice of draws
    gives what key generation gives on some draws, and every key that key generation gives arises. *)
Theorem C157_lsw_rekey_any : forall (C : crypto), laws C -> forall pol lang f,
  parse pol lang = Ok (tree f) -> arity2 f = true -> small_ok C (and_width f) ->
  Forall (fun n => is_negative (remove_index n) = Ok false) (names f) ->
  exists w1 w2 : list (F C), forall (pk : lsw_pk C) msk t i sk j, lsw_keygen pk msk pol lang t i = Ok (sk, j) ->
  forall pol' lang' f', parse pol' lang' = Ok (tree f') ->
    Forall (fun n => is_negative (remove_index n) = Ok false /\ exists h, hash C (remove_index n) = Some h /\ h <> f0 C) (names f') -> forall k,
    (lmsk_alpha2 msk <> f0 C -> forall d, exists t', lsw_keygen pk msk pol' lang' t' k = lsw_rekey_any w1 w2 pk sk pol' lang' d k) /\
    (forall t', exists d, lsw_keygen pk msk pol' lang' t' k = lsw_rekey_any w1 w2 pk sk pol' lang' d k).
Proof. exact @lsw_rekeys_any. Qed.
Print Assumptions C157_lsw_rekey_any.

(** So every key opens every ciphertext, whatever its attributes: the holder chooses one of them. *)
Theorem C157_lsw_opens : forall (C : crypto), laws C -> forall pol lang f,
  parse pol lang = Ok (tree f) -> arity2 f = true -> small_ok C (and_width f) ->
  Forall (fun n => is_negative (remove_index n) = Ok false) (names f) ->
  exists w1 w2 : list (F C), forall nonce (pk : lsw_pk C) msk attrs sk pt ct ts is js tk ik jk te ie je pol' lang' n p h d,
    lsw_setup ts is = Ok (pk, msk, js) -> lsw_keygen pk msk pol lang tk ik = Ok (sk, jk) ->
    lsw_encrypt nonce pk attrs pt te ie = Ok (ct, je) ->
    parse pol' lang' = Ok (tree (FLeaf n p)) -> String.length nonce = 12 -> In n attrs ->
    no_us n = true -> is_negative n = Ok false -> hash C n = Some h -> h <> f0 C ->
    exists sk' k, lsw_rekey w1 w2 pk sk n pol' lang' d 0 = Ok (sk', k) /\ lsw_decrypt sk' ct = Ok pt.
Proof. exact @lsw_rekey_opens. Qed.
Print Assumptions C157_lsw_opens.

(** A user whose policy the ciphertext does not satisfy opens it with what was made of the key. *)
Theorem C157_lsw_refuted : exists (pk : lsw_pk ZC) msk sk sk' ct ts i1 i2 i3 i4,
  lsw_setup ts 0 = Ok (pk, msk, i1) /\
  lsw_keygen pk msk QW HumanPolicy ts i1 = Ok (sk, i2) /\
  lsw_encrypt nc pk ["X"] "hello" ts i2 = Ok (ct, i3) /\
  lsw_decrypt sk ct = Err /\
  lsw_rekey wW wG pk sk "X" """X""" HumanPolicy ts i3 = Ok (sk', i4) /\
  lsw_decrypt sk' ct = Ok "hello".
Proof.
  by_run (' (pk, msk) <- lsw_setup (C := ZC) ;; sk <- lsw_keygen pk msk QW HumanPolicy ;;
          ct <- lsw_encrypt nc pk ["X"] "hello" ;;
          sk' <- lsw_rekey wW wG pk sk "X" """X""" HumanPolicy ;;
          rret (lsw_decrypt sk ct, lsw_decrypt sk' ct)) (@Err string, Ok "hello").
Qed.
Print Assumptions C157_lsw_refuted.

(** The same with a conjunction of two other names. *)
Example C157_example_any : exists (pk : lsw_pk ZC) msk sk sk' ct ts i1 i2 i3 i4,
  lsw_setup ts 0 = Ok (pk, msk, i1) /\
  lsw_keygen pk msk QW HumanPolicy ts i1 = Ok (sk, i2) /\
  lsw_encrypt nc pk ["X"; "Y"] "hello" ts i2 = Ok (ct, i3) /\
  lsw_decrypt sk ct = Err /\
  lsw_rekey_any wW wG pk sk """X"" and ""Y""" HumanPolicy ts i3 = Ok (sk', i4) /\
  lsw_decrypt sk' ct = Ok "hello".
Proof.
  by_run (' (pk, msk) <- lsw_setup (C := ZC) ;; sk <- lsw_keygen pk msk QW HumanPolicy ;;
          ct <- lsw_encrypt nc pk ["X"; "Y"] "hello" ;;
          sk' <- lsw_rekey_any wW wG pk sk """X"" and ""Y""" HumanPolicy ;;
          rret (lsw_decrypt sk ct, lsw_decrypt sk' ct)) (@Err string, Ok "hello").
Qed.

(** The hypotheses of the theorems hold for this policy and this name. *)
Example C157_example :
  parse QW HumanPolicy = Ok (tree fW) /\ arity2 fW = true /\ small_ok ZC (and_width fW) /\
  Forall (fun n => is_negative (remove_index n) = Ok false) (names fW) /\
  parse """X""" HumanPolicy = Ok (tree (FLeaf "X" 2)) /\ no_us "X" = true /\ is_negative "X" = Ok false /\
  exists h, hash ZC "X" = Some h /\ h <> f0 ZC.
Proof.
  split; [vm_compute; reflexivity|]. split; [reflexivity|]. split; [ground|].
  split; [repeat constructor|]. split; [vm_compute; reflexivity|]. split; [reflexivity|]. split; [reflexivity|].
  exists (zmk (toy_hash "X" 1)). split; [reflexivity|].
  intros E. apply (f_equal zval) in E. vm_compute in E. discriminate E.
Qed.
