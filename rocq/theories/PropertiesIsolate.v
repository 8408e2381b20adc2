(** * PropertiesIsolate: YCT14 keys for a conjunction of any length give one for each of its names (C60)

    The proofs are in IsolateProofs.v. *)
From Coq Require Import String Ascii List Bool Arith ZArith Lia.
From Verif Require Import Base Crypto Policy Tools Sharing Spec PolicyProofs Poly SharingProofs
  Symmetric Parse ParseProofs SchemeLib Yct14 Yct14Proofs
  Instance Sessions Witnesses Alternative Isolate IsolateProofs.
Import ListNotations.
Local Open Scope string_scope.
Local Open Scope rand_scope.
Local Open Scope nat_scope.

(** Keys for the same conjunction, whose polynomials determine every list of as many values as there are
    names, which takes as many keys as names.  There are weights with which the entries of each key add up
    to one; whoever finds such weights, by solving linear equations in the values of the keys, has the key
    for each of the names. *)
Theorem C60_yct_many : forall (C : crypto), laws C -> forall U (pk : yct_pk C) msk ns keys ts is js,
  yct_setup U ts is = Ok ((pk, msk), js) -> incl ns U -> ns <> [] -> Forall (fun n => no_us n = true) ns ->
  small_ok C (length ns) -> Forall (yct_key_of msk ns) keys ->
  generic (length ns) (map (fun k => ymsk_s msk :: snd k) keys) ->
  (exists z, length z = length ns /\ Forall (fun k => scalar (map yct_value (ysk_du (fst k))) z = f1 C) keys) /\
  forall z, length z = length ns -> Forall (fun k => scalar (map yct_value (ysk_du (fst k))) z = f1 C) keys ->
  forall k name p pol lang, nth_error ns k = Some name -> parse pol lang = Ok (tree (FLeaf name p)) ->
  exists sk, yct_isolate (length ns) k z name pol lang = Ok sk /\ forall t i, yct_keygen msk pol lang t i = Ok (sk, i).
Proof. exact @yct_isolates. Qed.
Print Assumptions C60_yct_many.

(** Three keys for a conjunction of three names; not in /repo. *)
Definition Q3 : string := """A"" and ""B"" and ""C""".
Definition f3 : formula := FAnd [FLeaf "A" 2; FLeaf "B" 10; FLeaf "C" 18].
(** Draws that are zero but for the one with number [k]; not in /repo. *)
Definition only (k n : nat) : F ZC := if (n =? k)%nat then f1 ZC else f0 ZC.

Example C60_example_many : exists (pk : yct_pk ZC) msk sk1 sk2 sk3 js j1 j2 j3,
  yct_setup (C := ZC) ["A"; "B"; "C"] (ztape 3%Z) 0 = Ok ((pk, msk), js) /\
  yct_keygen msk Q3 HumanPolicy (only 2) 0 = Ok (sk1, j1) /\
  yct_keygen msk Q3 HumanPolicy (only 0) 0 = Ok (sk2, j2) /\
  yct_keygen msk Q3 HumanPolicy (only 1) 0 = Ok (sk3, j3) /\
  incl ["A"; "B"; "C"] ["A"; "B"; "C"] /\ Forall (fun n => no_us n = true) ["A"; "B"; "C"] /\ small_ok ZC 3 /\
  Forall (yct_key_of msk ["A"; "B"; "C"])
    [(sk1, [f0 ZC; f0 ZC]); (sk2, [f1 ZC; f0 ZC]); (sk3, [f0 ZC; f1 ZC])] /\
  generic 3 [[ymsk_s msk; f0 ZC; f0 ZC]; [ymsk_s msk; f1 ZC; f0 ZC]; [ymsk_s msk; f0 ZC; f1 ZC]].
Proof.
  do 9 eexists. split; [reflexivity|]. split; [reflexivity|]. split; [reflexivity|]. split; [reflexivity|].
  split; [apply incl_refl|]. split; [repeat constructor|]. split; [ground|]. split.
  - assert (P : parse Q3 HumanPolicy = Ok (tree f3)) by (vm_compute; reflexivity).
    constructor; [|constructor; [|constructor; [|constructor]]].
    + exists Q3, HumanPolicy, f3, (only 2), 0. eexists. split; [exact P|]. split; [reflexivity|]. split; reflexivity.
    + exists Q3, HumanPolicy, f3, (only 0), 0. eexists. split; [exact P|]. split; [reflexivity|]. split; reflexivity.
    + exists Q3, HumanPolicy, f3, (only 1), 0. eexists. split; [exact P|]. split; [reflexivity|]. split; reflexivity.
  - apply three_generic; [exact ZL|]. intros E. apply (f_equal zval) in E. vm_compute in E. discriminate E.
Qed.

(** The three keys and weights found from them give the key for "B". *)
Theorem C60_yct_many_refuted : exists (pk : yct_pk ZC) msk sk1 sk2 sk3 sk z js j1 j2 j3,
  yct_setup (C := ZC) ["A"; "B"; "C"] (ztape 3%Z) 0 = Ok ((pk, msk), js) /\
  yct_keygen msk Q3 HumanPolicy (only 2) 0 = Ok (sk1, j1) /\
  yct_keygen msk Q3 HumanPolicy (only 0) 0 = Ok (sk2, j2) /\
  yct_keygen msk Q3 HumanPolicy (only 1) 0 = Ok (sk3, j3) /\
  Forall (fun k => scalar (map yct_value (ysk_du k)) z = f1 ZC) [sk1; sk2; sk3] /\
  yct_isolate 3 1 z "B" """B""" HumanPolicy = Ok sk /\
  yct_keygen msk """B""" HumanPolicy (ztape 3%Z) 0 = Ok (sk, 0).
Proof.
  destruct C60_example_many as (pk & msk & sk1 & sk2 & sk3 & js & j1 & j2 & j3 & Hs & H1 & H2 & H3 & I & U & Sm & K & G).
  destruct (C60_yct_many ZC ZL _ pk msk ["A"; "B"; "C"] _ _ _ _ Hs I ltac:(discriminate) U Sm K G) as ((z & Lz & Hz) & X).
  destruct (X z Lz Hz 1 "B" 2 """B""" HumanPolicy eq_refl) as (sk & E & Hk); [vm_compute; reflexivity|].
  exists pk, msk, sk1, sk2, sk3, sk, z, js, j1, j2, j3. do 4 (split; [assumption|]). split; [|split; [exact E|apply Hk]].
  inversion Hz as [|? ? Z1 Hz']; subst. inversion Hz' as [|? ? Z2 Hz'']; subst. inversion Hz'' as [|? ? Z3 _]; subst.
  constructor; [exact Z1|]. constructor; [exact Z2|]. constructor; [exact Z3|constructor].
Qed.
Print Assumptions C60_yct_many_refuted.
