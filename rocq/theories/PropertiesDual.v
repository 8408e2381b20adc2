(** * PropertiesDual: YCT14 keys for a conjunction open, or say nothing (C160)

    The proofs are in DualProofs.v. *)
From Coq Require Import String Ascii List Bool Arith ZArith Lia.
From Verif Require Import Base Crypto Policy Tools Sharing Spec PolicyProofs Poly SharingProofs
  Symmetric Parse ParseProofs SchemeLib Yct14 Yct14Proofs
  Instance Sessions Witnesses Alternative Isolate IsolateProofs Pad Dual DualProofs.
Import ListNotations.
Local Open Scope string_scope.
Local Open Scope rand_scope.
Local Open Scope nat_scope.

(** Any number of keys for the conjunction of the names ns, and numbers v for the names that solve one
    linear equation for each key.  The keys arise, for other draws, in every system whose secret is moved
    by d and whose secrets for the names are moved by d times v, too. *)
Theorem C160_yct_twin : forall (C : crypto), laws C ->
  forall (msk : yct_msk C) ns keys cs d v,
  ns <> [] -> Forall (fun n => no_us n = true) ns -> small_ok C (length ns) ->
  recover_coefficients (and_points (length ns)) = Ok cs ->
  Forall (fun n => exists c, msk_get_private msk n = Ok c /\ fadd C c (fmul C d (v n)) <> f0 C) ns ->
  Forall (yct_key_of msk ns) keys ->
  Forall (fun k => scalar (map yct_value (ysk_du (fst k))) (map (fun p => fmul C (fst p) (v (snd p))) (combine cs ns)) = f1 C) keys ->
  forall k, In k keys -> exists pol lang t j, yct_keygen (yct_shift msk d v) pol lang t 0 = Ok (fst k, j).
Proof. exact @yct_shift_keeps. Qed.
Print Assumptions C160_yct_twin.

(** The secrets of the moved system; where v is zero they are the same. *)
Theorem C160_yct_moved : forall (C : crypto) (msk : yct_msk C) d v,
  ymsk_s (yct_shift msk d v) = fadd C (ymsk_s msk) d /\
  forall n c, msk_get_private msk n = Ok c -> msk_get_private (yct_shift msk d v) n = Ok (fadd C c (fmul C d (v n))).
Proof. exact @shifted. Qed.
Print Assumptions C160_yct_moved.

(** There is nothing in between: the keys, added up with some weights, open the ciphertext by the crate's
    own decryption, or they all arise in systems with other secrets that agree on the names of the
    ciphertext. *)
Theorem C160_yct_either : forall (C : crypto), laws C ->
  forall nonce U (pk : yct_pk C) msk ns attrs keys data ct ts is js te ie je,
  yct_setup U ts is = Ok ((pk, msk), js) ->
  yct_encrypt nonce pk attrs data te ie = Ok (ct, je) -> String.length nonce = 12 ->
  2 <= length ns -> keys <> [] -> NoDup ns -> incl ns U ->
  Forall (fun n => no_us n = true) ns -> small_ok C (length ns) ->
  Forall (yct_key_of msk ns) keys ->
  (exists w sk, yct_mix ns w (map fst keys) = Ok sk /\
    yct_decrypt sk (yct_pad (filter (fun n => negb (smem n attrs)) ns) ct) = Ok data) \/
  (exists v : string -> F C, (forall n, In n attrs -> v n = f0 C) /\
    forall d, Forall (fun n => exists c, msk_get_private msk n = Ok c /\ fadd C c (fmul C d (v n)) <> f0 C) ns ->
    forall k, In k keys -> exists pol lang t j, yct_keygen (yct_shift msk d v) pol lang t 0 = Ok (fst k, j)).
Proof. exact @yct_either_opens. Qed.
Print Assumptions C160_yct_either.

(** Whatever v is, the secret can be moved by a number that is not zero and makes no secret zero. *)
Theorem C160_yct_room : forall (C : crypto), laws C ->
  forall (msk : yct_msk C) ns k (v : string -> F C),
  ns <> [] -> Forall (fun n => no_us n = true) ns -> small_ok C (S (length ns)) ->
  Forall (fun n => exists c, msk_get_private msk n = Ok c) ns -> yct_key_of msk ns k ->
  exists d, d <> f0 C /\ Forall (fun n => exists c, msk_get_private msk n = Ok c /\ fadd C c (fmul C d (v n)) <> f0 C) ns.
Proof. exact @yct_room. Qed.
Print Assumptions C160_yct_room.

(** A conjunction and its formula; not in /repo. *)
Definition QD : string := """A"" and ""B""".
Definition fD : formula := FAnd [FLeaf "A" 2; FLeaf "B" 10].

(** A key for two names, and a solution that is zero for the first one. *)
Example C160_example : exists (pk : yct_pk ZC) msk sk js jk cs (v : string -> F ZC),
  yct_setup (C := ZC) ["A"; "B"] (ztape 3%Z) 0 = Ok ((pk, msk), js) /\
  yct_keygen msk QD HumanPolicy (ztape 3%Z) 7 = Ok (sk, jk) /\
  recover_coefficients (and_points 2) = Ok cs /\
  Forall (yct_key_of msk ["A"; "B"]) [(sk, [ztape 3%Z 7])] /\
  NoDup ["A"; "B"] /\ Forall (fun n => no_us n = true) ["A"; "B"] /\ small_ok ZC 3 /\
  Forall (fun n => exists c, msk_get_private msk n = Ok c /\ fadd ZC c (fmul ZC (f1 ZC) (v n)) <> f0 ZC) ["A"; "B"] /\
  v "A" = f0 ZC /\
  scalar (map yct_value (ysk_du sk)) (map (fun p => fmul ZC (fst p) (v (snd p))) (combine cs ["A"; "B"])) = f1 ZC.
Proof.
  assert (P : parse QD HumanPolicy = Ok (tree fD)) by (vm_compute; reflexivity).
  do 6 eexists. exists (fun n => if seqb n "B" then zmk 540%Z else f0 ZC).
  split; [reflexivity|]. split; [reflexivity|]. split; [reflexivity|]. split.
  { constructor; [|constructor]. exists QD, HumanPolicy, fD, (ztape 3%Z), 7. eexists. split; [exact P|]. split; [reflexivity|]. split; reflexivity. }
  split; [ground|]. split; [repeat constructor|]. split; [ground|].
  split; [|split; [reflexivity|]].
  - constructor; [|constructor; [|constructor]]; eexists; (split; [reflexivity|]);
      intros E; apply (f_equal zval) in E; vm_compute in E; discriminate E.
  - apply zp_eq. vm_compute. reflexivity.
Qed.

(** A ciphertext with the first of the two names. *)
Example C160_example_either : exists (pk : yct_pk ZC) msk sk ct t i1 i2 i3,
  yct_setup ["A"; "B"] t 0 = Ok (pk, msk, i1) /\
  yct_keygen msk QD HumanPolicy t i1 = Ok (sk, i2) /\
  yct_encrypt nc pk ["A"] "hello" t i2 = Ok (ct, i3) /\
  yct_decrypt sk ct = Err.
Proof.
  by_run (' (pk, msk) <- yct_setup (C := ZC) ["A"; "B"] ;;
    sk <- yct_keygen msk QD HumanPolicy ;;
    ct <- yct_encrypt nc pk ["A"] "hello" ;;
    rret (yct_decrypt sk ct)) (@Err string).
Qed.
