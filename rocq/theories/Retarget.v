(** * Retarget: a ciphertext made into one for another policy (C156)

    Adversaries, with public operations only: nothing here is code of the crate, but they call the
    crate's parser, sharing and hash as anyone can. *)
From Coq Require Import String List.
From Verif Require Import Base Crypto Policy Tools Sharing Parse Bsw Ghw11.
Import ListNotations.
Local Open Scope rand_scope.

Section Retarget.
Context {C : crypto}.

(** Two values and then a tape; not in /repo. *)
Definition after (a b : F C) (d : nat -> F C) (n : nat) : F C :=
  match n with 0 => a | 1 => b | S (S k) => d k end.

(** Weighted sums of group elements; not in /repo. *)
Definition total1 (l : list (G1 C)) (w : list (F C)) : G1 C :=
  fold_right (fun p a => g1add C (g1mul C (fst p) (snd p)) a) (g1zero C) (combine l w).
Definition total2 (l : list (G2 C)) (w : list (F C)) : G2 C :=
  fold_right (fun p a => g2add C (g2mul C (fst p) (snd p)) a) (g2zero C) (combine l w).

(** BSW: entries for the policy [pol'] out of those of [ct], whose policy has the weights [w1] and
    [w2]; the sharing is that of zero.  Not in /repo; the entries are those of bsw/mod.rs:235-242. *)
Definition bsw_retarget (w1 w2 : list (F C)) (pk : bsw_pk C) (ct : bsw_ct C) (pol' : string) (lang' : language) : rand (F C) (bsw_ct C) :=
  let u := total1 (map b_g1 (bct_cy ct)) w1 in
  let v := total2 (map b_g2 (bct_cy ct)) w2 in
  p <- rlift (parse pol' lang') ;;
  shares <- gen_shares_policy (f0 C) p None ;;
  c_y <- rlift (omap (fun x =>
    obind (unwrap_res (sha3_hash_fr (remove_index (fst x)))) (fun h =>
    Ok (BAttr (fst x) (g1add C u (g1mul C (bpk_g1 pk) (snd x))) (g2mul C (g2add C v (g2mul C (bpk_g2 pk) (snd x))) h)))) shares) ;;
  rret (BswCt (pol', lang') (bct_c ct) (bct_cp ct) c_y (bct_data ct)).

(** GHW11, with weights for the two parts of an entry.  Not in /repo; the entries are those of
    ghw11/mod.rs:211-216. *)
Definition ghw_retarget (w1 w2 : list (F C)) (pk : ghw_pk C) (ct : ghw_ct C) (pol' : string) (lang' : language) : rand (F C) (ghw_ct C) :=
  let u := g1add C (total1 (map (fun x => fst (snd x)) (gct_cidi ct)) w1) (total1 (map (fun x => snd (snd x)) (gct_cidi ct)) w2) in
  p <- rlift (parse pol' lang') ;;
  shares <- gen_shares_policy (f0 C) p None ;;
  ci_di <- rmap (fun x =>
    t_i <- draw ;;
    h <- rlift (unwrap_res (sha3_hash_fr (remove_index (fst x)))) ;;
    rret (fst x, (g1add C (g1add C u (g1mul C (gpk_g1a pk) (snd x))) (g1mul C (gpk_g1 pk) (fopp C (fmul C h t_i))),
                  g1mul C (gpk_g1 pk) t_i))) shares ;;
  rret (GhwCt (pol', lang') (gct_c ct) (gct_c1 ct) ci_di (gct_data ct)).
End Retarget.
