(** * RenewalPartsProofs: keys for less, made by the holder (C153) *)
From Coq Require Import String List Bool Arith Lia.
From Verif Require Import Base Crypto Policy Parse Spec SchemeLib Draws DrawsProofs Symmetric Ghw11 Lsw
  Thinning ThinningProofs Alternative AlternativeProofs Renewal RenewalProofs.
Import ListNotations.

Section RenewalPartsProofs.
Context {C : crypto} (L : laws C).

Lemma ghw_renewed_part (pk : ghw_pk C) msk attrs keep t i sk j t' i' :
  ghw_keygen pk msk attrs t i = Ok (Some sk, j) -> filter keep attrs <> [] ->
  exists sk', ghw_renew pk (ghw_thin keep sk) (fsub C (t' i') (t i)) = Ok sk' /\
    ghw_keygen pk msk (filter keep attrs) t' i' = Ok (Some sk', S i').
Proof. intros H N. apply (ghw_renewed L pk msk _ t i _ j). exact (ghw_thinned pk msk attrs keep t i sk j H N). Qed.

Lemma lsw_renewed_alternative (pk : lsw_pk C) msk pol lang pol' lang' pre g post g' t i sk j :
  parse pol lang = Ok (tree (FOr (pre ++ g :: post))) -> parse pol' lang' = Ok (tree g') -> blank g' = blank g ->
  lsw_keygen pk msk pol lang t i = Ok (sk, j) -> lmsk_alpha2 msk <> f0 C ->
  exists A B D, lsk_dj sk = A ++ B ++ D /\ length A = length (flat_map leaves pre) /\ length D = length (flat_map leaves post) /\
    (Forall (fun d => String.prefix "!" (ld_name d) = false) B -> forall t' i',
     exists tr k sk', lsw_renew pk (LswSk (pol', lang') B) tr 0 = Ok (sk', k) /\
       lsw_keygen pk msk pol' lang' t' i' = Ok (sk', i' + (coins g + length (leaves g)))).
Proof.
  intros P P' Bl H Na. destruct (lsw_alternative L pk msk pol lang pol' lang' pre g post g' t i sk j P P' Bl H) as (A & B & D & E & LA & LD & K).
  exists A, B, D. split; [exact E|]. split; [exact LA|]. split; [exact LD|]. intros NB t' i'.
  set (u := fun n => t (i + drawn_for 0 pre g post n)) in *.
  set (v := fun n => t' (i' + n)).
  set (tr := fun k => if (k <? 0 + coins g')%nat then fmul C (lmsk_alpha2 msk) (fsub C (v k) (u k)) else fsub C (v k) (u k)).
  destruct (lsw_renewed L pk msk pol' lang' g' u 0 _ _ tr P' Na K NB) as (sk' & R & R').
  exists tr, (coins g + length (leaves g)), sk'. split; [exact R|].
  pose proof (lsw_keygen_takes L pk msk pol' lang' g' P' (both (lmsk_alpha2 msk) 0 (coins g') u tr) 0 t' i') as T.
  rewrite R' in T. destruct T as [T1 T2].
  - intros k _. symmetry. exact (both_all L (lmsk_alpha2 msk) 0 (coins g') u v Na k).
  - rewrite T2. f_equal. f_equal. lia.
Qed.
End RenewalPartsProofs.
