(** * PropertiesField: the scalar field of BN254 (C108)

    The theorems on secret sharing ask that the numbers up to the width of the
    policy are not zero in the field ([small_ok]).  Here the condition is
    discharged for the field that the code uses.  The proofs are in Primes.v,
    BnInstance.v and SizeProofs.v. *)
From Coq Require Import String Ascii List Bool Arith ZArith Znumtheory Lia.
From Verif Require Import Base Crypto Policy Tools Sharing Spec PolicyProofs Poly SharingProofs
  Msp MspProofs Dnf Symmetric Peg Grammar Parse PegProofs ParseProofs ParseText ParseHuman
  SchemeLib CoreProofs Files FilesProofs DnfProofs Bdabe BdabeProofs Mke08 Mke08Proofs
  Bsw BswProofs Ghw11 Ghw11Proofs Lsw LswProofs Yct14 Yct14Proofs Ac17 Ac17Proofs
  Aw11 Aw11Proofs EdgeProofs TruncationProofs Instance Sessions SessionProofs Witnesses
  Primes BnInstance SizeProofs BnWitnesses.
Import ListNotations.
Local Open Scope string_scope.
Local Open Scope rand_scope.
Local Open Scope nat_scope.

(** The order of the groups is a prime. *)
Theorem C108_order_prime :
  prime 21888242871839275222246405745257275088548364400416034343698204186575808495617%Z.
Proof. exact bn_prime. Qed.
Print Assumptions C108_order_prime.

(** There are groups of this order that keep the laws. *)
Theorem C108_laws :
  exists C : crypto, inhabited (laws C) /\ scalar_order C bn_order /\ @hash_total C.
Proof. exact bn_groups. Qed.
Print Assumptions C108_laws.

(** Leaves, characters of names and branches of a policy together are fewer than the bytes of its text. *)
Theorem C108_text_bound :
  forall (pol : string) (lang : language) (f : formula),
  parse pol lang = Ok (tree f) ->
  and_width f < String.length pol /\
  length (leaves f) + list_sum (map String.length (names f)) < String.length pol.
Proof. exact text_bound. Qed.
Print Assumptions C108_text_bound.

Example C108_example_text : parse P HumanPolicy = Ok (tree fP) /\ and_width fP = 2 /\
  length (leaves fP) = 3 /\ list_sum (map String.length (names fP)) = 3 /\ String.length P = 20.
Proof. repeat match goal with |- _ /\ _ => split end; ground. Qed.

(** No policy text of at most [bn_order] bytes is too wide; texts of the program have less than [2 ^ 64] bytes. *)
Theorem C108_width :
  forall (C : crypto) (pol : string) (lang : language) (f : formula),
  scalar_order C bn_order ->
  (Z.of_nat (String.length pol) < 2 ^ 64)%Z ->
  parse pol lang = Ok (tree f) ->
  forall k : nat, 0 < k <= and_width f -> (usize_to_fr k : F C) <> f0 C.
Proof. exact bn_width. Qed.
Print Assumptions C108_width.

Example C108_example : scalar_order BN bn_order /\ (Z.of_nat (String.length P) < 2 ^ 64)%Z /\
  parse P HumanPolicy = Ok (tree fP) /\ 0 < 2 <= and_width fP /\ @hash_total BN /\
  live (C := BN) (fun _ => f1 BN).
Proof. exact bn_example. Qed.

(** The sessions of C29 to C37 without a condition on the width. *)
Theorem C108_bsw :
  (forall C : crypto,
  laws C ->
  scalar_order C bn_order ->
  forall (nonce : string) (attrs : list string) (pol : string) 
    (lang : language) (data : string) (f : formula) (t : nat -> F C) 
    (i : nat),
  @hash_total C ->
  live t ->
  (Z.of_nat (String.length pol) <= bn_order)%Z ->
  parse pol lang = Ok (tree f) ->
  String.length nonce = 12 ->
  arity2 f = true ->
  NoDup (leaves f) ->
  plain_names f = true ->
  attrs <> [] ->
  exists j : nat,
    bsw_session nonce attrs pol lang data t i =
    Ok (if sat (owns attrs) f then Ok data else Err, j))%F.
Proof.
  intros. apply @bsw_session_exact; auto. now apply (wide_enough C bn_order pol lang f).
Qed.
Print Assumptions C108_bsw.

Theorem C108_bsw_delegated :
  (forall C : crypto,
  laws C ->
  scalar_order C bn_order ->
  forall (nonce : string) (attrs subset : list string) (pol : string) 
    (lang : language) (data : string) (f : formula) (t : nat -> F C) 
    (i : nat),
  @hash_total C ->
  live t ->
  (Z.of_nat (String.length pol) <= bn_order)%Z ->
  parse pol lang = Ok (tree f) ->
  String.length nonce = 12 ->
  arity2 f = true ->
  NoDup (leaves f) ->
  plain_names f = true ->
  incl subset attrs ->
  subset <> [] ->
  exists j : nat,
    bsw_delegated_session nonce attrs subset pol lang data t i =
    Ok (if sat (owns subset) f then Ok data else Err, j))%F.
Proof.
  intros. apply @bsw_delegated_session_exact; auto. now apply (wide_enough C bn_order pol lang f).
Qed.
Print Assumptions C108_bsw_delegated.

Theorem C108_ghw :
  (forall C : crypto,
  laws C ->
  scalar_order C bn_order ->
  forall (nonce : string) (attrs : list string) (pol : string) 
    (lang : language) (data : string) (f : formula) (t : nat -> F C) 
    (i : nat),
  @hash_total C ->
  live t ->
  (Z.of_nat (String.length pol) <= bn_order)%Z ->
  parse pol lang = Ok (tree f) ->
  String.length nonce = 12 ->
  arity2 f = true ->
  NoDup (leaves f) ->
  plain_names f = true ->
  attrs <> [] ->
  exists j : nat,
    ghw_session nonce attrs pol lang data t i =
    Ok (if sat (owns attrs) f then Ok data else Err, j))%F.
Proof.
  intros. apply @ghw_session_exact; auto. now apply (wide_enough C bn_order pol lang f).
Qed.
Print Assumptions C108_ghw.

Theorem C108_lsw :
  (forall C : crypto,
  laws C ->
  scalar_order C bn_order ->
  forall (nonce pol : string) (lang : language) (attrs : list string) 
    (data : string) (f : formula) (t : nat -> F C) (i : nat),
  @hash_total C ->
  (Z.of_nat (String.length pol) <= bn_order)%Z ->
  parse pol lang = Ok (tree f) ->
  String.length nonce = 12 ->
  data <> ""%string ->
  arity2 f = true ->
  NoDup (names f) ->
  plain_names f = true ->
  (forall n : string, In n (names f) -> is_negative n = Ok false) ->
  attrs <> [] ->
  exists j : nat,
    lsw_session nonce pol lang attrs data t i =
    Ok (if sat (owns attrs) f then Ok data else Err, j))%F.
Proof.
  intros. apply @lsw_session_exact; auto. now apply (wide_enough C bn_order pol lang f).
Qed.
Print Assumptions C108_lsw.

Theorem C108_yct :
  (forall C : crypto,
  laws C ->
  scalar_order C bn_order ->
  forall (nonce : string) (U : list string) (pol : string) (lang : language)
    (attrs : list string) (data : string) (f : formula) (t : nat -> F C) 
    (i : nat),
  live t ->
  (Z.of_nat (String.length pol) <= bn_order)%Z ->
  parse pol lang = Ok (tree f) ->
  String.length nonce = 12 ->
  data <> ""%string ->
  arity2 f = true ->
  NoDup (names f) ->
  plain_names f = true ->
  incl attrs U ->
  attrs <> [] ->
  exists j : nat,
    yct_session nonce U pol lang attrs data t i =
    Ok (if sat (owns attrs) f then Ok data else Err, j))%F.
Proof.
  intros. apply @yct_session_exact; auto. now apply (wide_enough C bn_order pol lang f).
Qed.
Print Assumptions C108_yct.

Theorem C108_aw :
  (forall C : crypto,
  laws C ->
  scalar_order C bn_order ->
  forall (nonce : string) (U : list string) (gid : string) (attrs : list string)
    (pol : string) (lang : language) (data : string) (f : formula) 
    (t : nat -> F C) (i : nat),
  @hash_total C ->
  (Z.of_nat (String.length pol) <= bn_order)%Z ->
  parse pol lang = Ok (tree f) ->
  String.length nonce = 12 ->
  gid <> ""%string ->
  (forall a : string, In a attrs -> a <> ""%string /\ In a (map (upper C) U)) ->
  binary_and f = true ->
  NoDup (leaves f) ->
  plain_names f = true ->
  upper_names C f ->
  attrs <> [] ->
  exists j : nat,
    aw_session nonce U gid attrs pol lang data t i =
    Ok (if sat (owns attrs) f then Ok data else Err, j))%F.
Proof.
  intros. apply @aw_session_exact; auto. now apply (wide_enough C bn_order pol lang f).
Qed.
Print Assumptions C108_aw.

(** In a small field the sessions do break: six branches in the field of three elements,
    where the third and the sixth share both are the secret. *)
Definition pol_wide : string := """A"" and ""B"" and ""C"" and ""D"" and ""E"" and ""F""".
Definition f_wide : formula :=
  FAnd [FLeaf "A" 2; FLeaf "B" 10; FLeaf "C" 18; FLeaf "D" 26; FLeaf "E" 34; FLeaf "F" 42].
Example C108_example_small_field :
  parse pol_wide HumanPolicy = Ok (tree f_wide) /\
  sat (owns ["A"; "B"; "C"; "D"; "E"; "F"]) f_wide = true /\
  exists j, bsw_session (C := prime_crypto 3 prime_3) nc ["A"; "B"; "C"; "D"; "E"; "F"]
    pol_wide HumanPolicy "hello" (fun _ => f1 (prime_crypto 3 prime_3)) 0 = Ok (Err, j).
Proof.
  split; [ground|]. split; [ground|]. eexists. vm_compute. reflexivity.
Qed.
