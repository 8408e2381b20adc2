(** * PropertiesLessenedAuthority: alternatives deleted anywhere in a policy, AW11 (C155)

    The proofs are in LessenedAuthorityProofs.v. *)
From Coq Require Import String List Bool Arith ZArith Lia.
From Verif Require Import Base Crypto Policy Parse Spec SchemeLib Symmetric Draws Aw11
  Instance Sessions Witnesses InsiderWitnesses Alternative AlternativeAuthority Lessened LessenedAuthorityProofs PropertiesLessened.
Import ListNotations.
Local Open Scope string_scope.
Local Open Scope rand_scope.
Local Open Scope list_scope.

(** A leaf has an entry if a public key names it.  The masks are those of the secret, the two
    sharings, the payload key and the leaves. *)
Theorem C155_aw : forall (C : crypto), laws C -> forall nonce (gk : aw_gk C) pks pol lang pol' lang' data f f' km cm t i ct j,
  parse pol lang = Ok (tree f) -> parse pol' lang' = Ok (tree f') -> lessened f f' km cm -> binary_and f' = true ->
  aw_encrypt nonce gk pks pol lang data t i = Ok (ct, j) ->
  exists G, awct_c ct = concat G /\ map (@length _) G = map (aw_held pks) (names f) /\
    aw_encrypt nonce gk pks pol' lang' data (kept ([true] ++ cm ++ cm ++ [true] ++ km) t i) 0 =
      Ok (AwCt (pol', lang') (awct_c0 ct) (concat (aw_marked (marks f') (those km G))) (awct_data ct), 2 + 2 * coins f' + length (leaves f')).
Proof. exact @aw_lessened. Qed.
Print Assumptions C155_aw.

(** Four of the five names have a public key; the deletions are those of [C155_example]. *)
Example C155_aw_example :
  parse QD HumanPolicy = Ok (tree fD) /\ parse QD1 HumanPolicy = Ok (tree fD1) /\ binary_and fD1 = true /\
  exists gk gi pk msk ai ct j,
  aw_setup (C := ZC) (ztape 3) 0 = Ok (gk, gi) /\ aw_authgen gk ["A"; "B"; "C"; "E"] (ztape 7) 0 = Ok (Some (pk, msk), ai) /\
  aw_encrypt nc gk [pk] QD HumanPolicy "m" (ztape 5) 0 = Ok (ct, j).
Proof.
  split; [vm_compute; reflexivity|]. split; [vm_compute; reflexivity|]. split; [reflexivity|].
  anew_steps (gk <- anew (ztape 3) (aw_setup (C := ZC)) ;;
    ao <- anew (ztape 7) (aw_authgen gk ["A"; "B"; "C"; "E"]) ;; ' (pk, msk) <- rlift (unwrap ao) ;;
    ct <- anew (ztape 5) (aw_encrypt nc gk [pk] QD HumanPolicy "m") ;; rret tt) tt.
  give.
Qed.
