(** * Renewal: keys that the holder of a key makes (C152)

    Nothing here is code of the crate, which has no delegation for these schemes: it is what the
    holder of a key can do with the public key and the functions of the crate. *)
From Coq Require Import String List Bool Arith.
From Verif Require Import Base Crypto Policy Tools Sharing Parse Ghw11 Lsw.
Import ListNotations.
Local Open Scope rand_scope.

Section Renewal.
Context {C : crypto}.

(** [r] more of the randomness in all parts of a [Ghw11SecretKey]; the structure is at ghw11/mod.rs:41-56. *)
Definition ghw_renew (pk : ghw_pk C) (sk : ghw_sk C) (r : F C) : outcome (ghw_sk C) :=
  obind (omap (fun x => obind (unwrap_res (sha3_hash_g2 (gpk_g2 pk) (fst x))) (fun h =>
    Ok (fst x, g2add C (snd x) (g2mul C h r)))) (gsk_attr sk)) (fun l =>
  Ok (GhwSk (g2add C (gsk_k sk) (g2mul C (gpk_g2a pk) r)) (g2add C (gsk_l sk) (g2mul C (gpk_g2 pk) r)) l)).

(** Shares of zero and more randomness in all entries of a [KpAbeSecretKey] without negated names; the
    structure is at lsw/mod.rs:69-72. *)
Definition lsw_renew (pk : lsw_pk C) (sk : lsw_sk C) : rand (F C) (lsw_sk C) :=
  v <- rlift (parse (fst (lsk_policy sk)) (snd (lsk_policy sk))) ;;
  zeros <- gen_shares_policy (f0 C) v None ;;
  dj <- rmap (fun x : lsw_dj C * (string * F C) =>
    random <- draw ;;
    h <- rlift (unwrap_res (sha3_hash_g1 (lpk_g1 pk) (ld_name (fst x)))) ;;
    rret (LswDj (ld_name (fst x))
      (g1add C (g1add C (ld_1 (fst x)) (g1mul C (lpk_g1 pk) (snd (snd x)))) (g1mul C h random))
      (g2add C (ld_2 (fst x)) (g2mul C (lpk_g2 pk) random)) (g1zero C) (g1zero C) (g1zero C)))
    (combine (lsk_dj sk) zeros) ;;
  rret (LswSk (lsk_policy sk) dj).

(** The draws of a key and those of its renewal: what belongs to the sharing, the first [n] from [i] on,
    is divided by [a]; not in /repo. *)
Definition both (a : F C) (i n : nat) (t tr : nat -> F C) (k : nat) : F C :=
  fadd C (t k) (if k <? i + n then fmul C (finv C a) (tr k) else tr k).
End Renewal.
