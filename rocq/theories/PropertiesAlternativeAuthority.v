(** * PropertiesAlternativeAuthority: one alternative of a policy in AW11 (C150)

    Of an AW11 ciphertext for a disjunction anyone can make one for a single alternative.  Leaves that
    no public key names have no entry; labels are in upper case.  The proofs are in
    AlternativeAuthorityProofs.v. *)
From Coq Require Import String List Bool Arith ZArith Lia.
From Verif Require Import Base Crypto Policy Parse Spec SchemeLib Symmetric Draws Aw11
  Instance Sessions Witnesses InsiderWitnesses Alternative AlternativeAuthority AlternativeAuthorityProofs PropertiesAlternative.
Import ListNotations.
Local Open Scope string_scope.
Local Open Scope rand_scope.
Local Open Scope list_scope.

(** No draw is used twice, and their order is kept. *)
Theorem C150_aw_draws : forall pre g post m n, m < n -> aw_drawn pre g post m < aw_drawn pre g post n.
Proof. exact aw_drawn_lt. Qed.
Print Assumptions C150_aw_draws.

Theorem C150_aw : forall (C : crypto), laws C -> forall nonce (gk : aw_gk C) pks pol lang pol' lang' data pre g post g' t i ct j,
  parse pol lang = Ok (tree (FOr (pre ++ g :: post))) -> parse pol' lang' = Ok (tree g') -> blank g' = blank g ->
  aw_encrypt nonce gk pks pol lang data t i = Ok (ct, j) ->
  exists A B D, awct_c ct = concat A ++ concat B ++ concat D /\
    map (@length _) A = map (aw_held pks) (flat_map names pre) /\
    map (@length _) B = map (aw_held pks) (names g) /\
    map (@length _) D = map (aw_held pks) (flat_map names post) /\
    aw_encrypt nonce gk pks pol' lang' data (fun n => t (i + aw_drawn pre g post n)) 0 =
      Ok (AwCt (pol', lang') (awct_c0 ct) (concat (aw_marked (marks g') B)) (awct_data ct), 2 + 2 * coins g + length (leaves g)).
Proof. exact @aw_alternative. Qed.
Print Assumptions C150_aw.

(** Three of the four names have a public key. *)
Example C150_aw_example :
  parse QO HumanPolicy = Ok (tree (FOr ([FLeaf "A" 2] ++ gB :: [FLeaf "D" 26]))) /\
  parse QA HumanPolicy = Ok (tree gB') /\ blank gB' = blank gB /\
  exists gk gi pk msk ai ct j,
  aw_setup (C := ZC) (ztape 3) 0 = Ok (gk, gi) /\ aw_authgen gk ["A"; "B"; "C"] (ztape 7) 0 = Ok (Some (pk, msk), ai) /\
  aw_encrypt nc gk [pk] QO HumanPolicy "m" (ztape 5) 0 = Ok (ct, j).
Proof.
  split; [vm_compute; reflexivity|]. split; [vm_compute; reflexivity|]. split; [reflexivity|].
  anew_steps (gk <- anew (ztape 3) (aw_setup (C := ZC)) ;;
    ao <- anew (ztape 7) (aw_authgen gk ["A"; "B"; "C"]) ;; ' (pk, msk) <- rlift (unwrap ao) ;;
    ct <- anew (ztape 5) (aw_encrypt nc gk [pk] QO HumanPolicy "m") ;; rret tt) tt.
  give.
Qed.
