(** * Rekey: an LSW key made into one for another policy (C157)

    An adversary with public operations only: nothing here is code of the crate, but it calls the
    crate's hash as anyone can. *)
From Coq Require Import String List.
From Verif Require Import Base Crypto Policy Tools Sharing Parse Lsw Retarget.
Import ListNotations.
Local Open Scope rand_scope.

Section Rekey.
Context {C : crypto}.

(** A key for the policy [pol'], which is the name [n], out of a key whose policy has the weights [w1]
    and [w2].  Not in /repo; the entry is that of lsw/mod.rs:148-157. *)
Definition lsw_rekey (w1 w2 : list (F C)) (pk : lsw_pk C) (sk : lsw_sk C) (n pol' : string) (lang' : language) : rand (F C) (lsw_sk C) :=
  let u := total1 (map ld_1 (lsk_dj sk)) w1 in
  let v := total2 (map ld_2 (lsk_dj sk)) w2 in
  r <- draw ;;
  h <- rlift (unwrap_res (sha3_hash_fr n)) ;;
  rret (LswSk (pol', lang')
    [LswDj n (g1add C u (g1mul C (lpk_g1 pk) (fmul C h r))) (g2add C (g2mul C v (finv C h)) (g2mul C (lpk_g2 pk) r)) (g1zero C) (g1zero C) (g1zero C)]).

(** The same for any policy [pol'] without negated names; the sharing is that of zero.  Not in /repo;
    the entries are those of lsw/mod.rs:148-157. *)
Definition lsw_rekey_any (w1 w2 : list (F C)) (pk : lsw_pk C) (sk : lsw_sk C) (pol' : string) (lang' : language) : rand (F C) (lsw_sk C) :=
  let u := total1 (map ld_1 (lsk_dj sk)) w1 in
  let v := total2 (map ld_2 (lsk_dj sk)) w2 in
  p <- rlift (parse pol' lang') ;;
  shares <- gen_shares_policy (f0 C) p None ;;
  dj <- rmap (fun x =>
    r <- draw ;;
    h <- rlift (unwrap_res (sha3_hash_fr (remove_index (fst x)))) ;;
    rret (LswDj (remove_index (fst x)) (g1add C (g1add C u (g1mul C (lpk_g1 pk) (snd x))) (g1mul C (lpk_g1 pk) (fmul C h r)))
            (g2add C (g2mul C v (finv C h)) (g2mul C (lpk_g2 pk) r)) (g1zero C) (g1zero C) (g1zero C))) shares ;;
  rret (LswSk (pol', lang') dj).
End Rekey.
