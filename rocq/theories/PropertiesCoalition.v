(** * PropertiesCoalition: C132: AW11 authorities and users who put together what they hold

    [bad] are the names of the attributes the coalition controls: those of its authorities, whose secret
    exponents it knows, and those for which its users hold keys, under any identities.  [together bad a a']:
    two rows of authorities that agree on those.  The combination [e] is chosen knowing these exponents, [v0]
    is whatever group elements the coalition holds besides the public keys and the ciphertext.  The proofs
    are in CoalitionProofs.v. *)
From Coq Require Import String Ascii List Bool Arith ZArith Lia.
From Verif Require Import Base Crypto Policy Tools Sharing Spec Poly SharingProofs Parse Symmetric SchemeLib Aw11 Generic Views
  Insiders Coalition CoalitionProofs Instance Witnesses GenericWitnesses.
Import ListNotations.
Local Open Scope F_scope.

(** C132: two systems that agree on [bad] give the coalition the same keys, and the same master keys of its
    own authorities. *)
Theorem C132_same :
  forall (C : crypto) (bad : string -> bool) (gk : aw_gk C) auths auths' n a a' pk msk j pk' msk' j',
  together bad auths auths' -> nth_error auths n = Some a -> nth_error auths' n = Some a' ->
  aw_authgen gk (fst a) (snd a) 0%nat = Ok (Some (pk, msk), j) ->
  aw_authgen gk (fst a') (snd a') 0%nat = Ok (Some (pk', msk'), j') ->
  (forall gid attrs, Forall (fun x => bad x = true) attrs -> aw_keygen gk msk' gid attrs = aw_keygen gk msk gid attrs) /\
  (Forall (fun x => bad (upper C x) = true) (fst a) -> msk' = msk /\ pk' = pk).
Proof. exact @together_same. Qed.
Print Assumptions C132_same.

(** C132: if no attribute occurs twice in the policy, for every system and ciphertext there is a twin that
    agrees on [bad], in which the same combination fails if it succeeds in the first; [c] depends on the combination, [w] and [v] on the policy. *)
Theorem C132_twin :
  forall C : crypto, laws C -> forall nonce pol lang data f (bad : string -> bool) (Us : list (list string)) (e : combT C),
  parse pol lang = Ok (tree f) -> NoDup (map (aw_key C) (names f)) ->
  sat (fun n => bad (aw_key C n)) f = false -> small_ok C (and_width f) ->
  exists (q : nat) (c w : string -> F C) (v : nat -> F C), (0 < q)%nat /\ v 0%nat = 1 /\ (forall n, bad n = true -> w n = 0) /\
  forall (ts te : nat -> F C) auths (rho : string -> F C) (D : F C) gk i pks ct j pks' ct' j' v0,
  let ns := map (aw_key C) (names f) in
  let m := te q in
  let m' := te q - D * (ts 0%nat * ts 1%nat) in
  let d := fun n => - D * w n * finv C (rho n) in
  map fst auths = Us -> aw_setup ts 0%nat = Ok (gk, i) -> authorities gk auths pks ->
  aw_encrypt nonce gk pks pol lang data te 0%nat = Ok (ct, j) ->
  authorities gk (moved d auths) pks' ->
  aw_encrypt nonce gk pks' pol lang data (put (fun n => te n + D * v n) q m') 0%nat = Ok (ct', j') ->
  ts 0%nat <> 0 -> ts 1%nat <> 0 -> D <> 0 ->
  (forall k n, nth_error (names f) k = Some n -> te (q + 1 + k)%nat = rho (aw_key C n) /\ rho (aw_key C n) <> 0) ->
  fsum (map (fun n => c n * w n * finv C (rho n)) ns) <> 1 ->
  together bad auths (moved d auths) /\
  awct_c0 ct = gtmul C (payload m) (gtpow C (pairing C (agk_g1 gk) (agk_g2 gk)) (te 0%nat)) /\
  awct_c0 ct' = gtmul C (payload m') (gtpow C (pairing C (agk_g1 gk) (agk_g2 gk)) (te 0%nat + D)) /\
  (evalT (both (aw_view gk pks ct) v0) e = payload m -> evalT (both (aw_view gk pks' ct') v0) e <> payload m').
Proof. intros C L. exact (aw_coalition_twin L). Qed.
Print Assumptions C132_twin.

(** C132: five systems and ciphertexts that agree on [bad]; whatever the combination, it fails in one of them.
    [u] moves the values drawn for the leaves, [v] the sharing of the secret. *)
Theorem C132_five :
  forall C : crypto, laws C -> forall f (bad : string -> bool),
  sat (fun n => bad (aw_key C n)) f = false -> small_ok C (and_width f) ->
  exists (q : nat) (u v : nat -> F C), (0 < q)%nat /\ v 0%nat = 1 /\
  forall nonce pol lang data (e : combT C) v0 (ts te : nat -> F C) auths gk i pks pks'
    ct0 j0 ct1 j1 ct2 j2 ct3 j3 ct4 j4,
  let others := fun n => if bad n then 0 else 1 in
  let g := ts 0%nat * ts 1%nat in
  let te1 := fun n => te n + u n in
  let te2 := put (fun n => te n + v n) q (te q - g) in
  parse pol lang = Ok (tree f) ->
  aw_setup ts 0%nat = Ok (gk, i) -> ts 0%nat <> 0 -> ts 1%nat <> 0 ->
  authorities gk auths pks -> authorities gk (moved others auths) pks' ->
  aw_encrypt nonce gk pks pol lang data te 0%nat = Ok (ct0, j0) ->
  aw_encrypt nonce gk pks' pol lang data te 0%nat = Ok (ct1, j1) ->
  aw_encrypt nonce gk pks pol lang data te1 0%nat = Ok (ct2, j2) ->
  aw_encrypt nonce gk pks' pol lang data te1 0%nat = Ok (ct3, j3) ->
  aw_encrypt nonce gk pks pol lang data te2 0%nat = Ok (ct4, j4) ->
  together bad auths (moved others auths) /\
  Forall2 (fun ct t => awct_c0 ct = gtmul C (payload (t q)) (gtpow C (pairing C (agk_g1 gk) (agk_g2 gk)) (t 0%nat)))
    [ct0; ct1; ct2; ct3; ct4] [te; te; te1; te1; te2] /\
  ~ (evalT (both (aw_view gk pks ct0) v0) e = payload (te q) /\
     evalT (both (aw_view gk pks' ct1) v0) e = payload (te q) /\
     evalT (both (aw_view gk pks ct2) v0) e = payload (te1 q) /\
     evalT (both (aw_view gk pks' ct3) v0) e = payload (te1 q) /\
     evalT (both (aw_view gk pks ct4) v0) e = payload (te2 q)).
Proof. intros C L. exact (aw_coalition_five L). Qed.
Print Assumptions C132_five.

(** C132: so no combination opens the ciphertexts of all systems that agree on [bad], if the attributes of the
    coalition do not satisfy the policy. *)
Theorem C132_none :
  forall C : crypto, laws C ->
  forall nonce pol lang data f (bad : string -> bool) (e : combT C) (ts : nat -> F C) gk i auths0 (v0 : view C),
  parse pol lang = Ok (tree f) -> binary_and f = true ->
  sat (fun n => bad (aw_key C n)) f = false -> small_ok C 2%nat ->
  aw_setup ts 0%nat = Ok (gk, i) -> ts 0%nat <> 0 -> ts 1%nat <> 0 -> Forall (fun a => fst a <> []) auths0 ->
  exists (te : nat -> F C) auths pks ct j M, together bad auths0 auths /\ authorities gk auths pks /\
    aw_encrypt nonce gk pks pol lang data te 0%nat = Ok (ct, j) /\
    awct_c0 ct = gtmul C M (gtpow C (pairing C (agk_g1 gk) (agk_g2 gk)) (te 0%nat)) /\
    evalT (both (aw_view gk pks ct) v0) e <> M.
Proof. intros C L. exact (aw_coalition L). Qed.
Print Assumptions C132_none.

(** The authority for B and C, and any holders of keys for them, against a policy that asks for A: the
    hypotheses hold, while with A and C the policy is met (C111). *)
Example C132_example :
  parse P HumanPolicy = Ok (tree fP) /\ binary_and fP = true /\ NoDup (map (aw_key ZC) (names fP)) /\
  sat (fun n => owns ["B"; "C"]%string (aw_key ZC n)) fP = false /\ sat (fun n => owns ["A"; "C"]%string (aw_key ZC n)) fP = true /\
  small_ok ZC 2 /\ small_ok ZC (and_width fP) /\
  (exists gk i, aw_setup (C := ZC) (ztape 3) 0%nat = Ok (gk, i)) /\ ztape 3 0%nat <> f0 ZC /\ ztape 3 1%nat <> f0 ZC /\
  Forall (fun a => fst a <> []) [(["A"], ztape 7); (["b"; "C"], ztape 20)]%string /\
  together (C := ZC) (owns ["B"; "C"]%string) [(["A"], ztape 7); (["b"; "C"], ztape 20)]%string [(["A"], ztape 8); (["b"; "C"], ztape 20)]%string.
Proof.
  split; [exact Ptree|]. split; [reflexivity|].
  split; [vm_compute; repeat (constructor; [intros H; repeat destruct H as [H|H]; try discriminate H; destruct H|]); constructor|].
  split; [vm_compute; reflexivity|]. split; [vm_compute; reflexivity|]. split; [ground|]. split; [ground|].
  split; [eexists _, _; reflexivity|].
  split; [intros E; apply (f_equal zval) in E; vm_compute in E; discriminate E|].
  split; [intros E; apply (f_equal zval) in E; vm_compute in E; discriminate E|].
  split; [repeat (constructor; [discriminate|]); constructor|].
  constructor; [|constructor; [split; [reflexivity|auto]|constructor]].
  split; [reflexivity|]. intros [|k] x Hx B; [injection Hx as <-; vm_compute in B; discriminate B|destruct k; discriminate Hx].
Qed.
