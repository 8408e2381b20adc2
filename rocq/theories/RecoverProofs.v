(** * RecoverProofs: the function [recover_secret] *)
From Coq Require Import String List Bool Arith Lia Field.
From Verif Require Import Base Crypto Policy Tools Sharing Spec PolicyProofs Poly SharingProofs.
Import ListNotations.

(** No disjunction. *)
Fixpoint conjunctive (f : formula) : bool :=
  match f with FLeaf _ _ => true | FAnd l => forallb conjunctive l | FOr _ => false end.

Section Recover.
Context {C : crypto} (L : laws C).
Local Open Scope F_scope.
Add Field rec_field : (f_theory L).
Notation F := (F C).

(** Sum of the products of the entries at the same place. *)
Fixpoint dot (a b : list F) : F :=
  match a, b with x :: a', y :: b' => x * y + dot a' b' | _, _ => 0 end.

(** Every call on the tree of a formula: one coefficient for each leaf, panic
    when there are more shares than leaves. *)
Theorem recover_exact f (sh : list F) co :
  calc_coefficients (tree f) 1 [] None = Ok (Some co) ->
  recover_secret sh (tree f) =
  if (length sh <=? length (leaves f))%nat then Ok (dot sh (map snd co)) else Panic.
Proof.
  intros H. rewrite (calc_coefficients_eq L) in H. injection H as <-. cbn [app].
  unfold recover_secret. rewrite (calc_coefficients_eq L). cbn [obind unwrap app].
  rewrite <- (gco_length (C := C) f 1). generalize (gco (C := C) f 1). intros cl.
  set (loop := fix loop (sh : list F) (cl : list (string * F)) (acc : F) {struct sh} : outcome F :=
     match sh with
     | [] => Ok acc
     | s :: sr => match cl with [] => Panic | c :: cr => loop sr cr (acc + snd c * s) end
     end).
  enough (X : forall sh cl acc, loop sh cl acc =
    if (length sh <=? length cl)%nat then Ok (acc + dot sh (map snd cl)) else Panic).
  { rewrite X. destruct (length sh <=? length cl)%nat; [f_equal; ring|reflexivity]. }
  clear - L. induction sh as [|s sh IH]; intros cl acc; cbn [loop].
  - cbn. f_equal. ring.
  - destruct cl as [|c cl]; [reflexivity|]. rewrite IH. cbn [length Nat.leb map dot].
    destruct (length sh <=? length cl)%nat; [f_equal; ring|reflexivity].
Qed.

Lemma dot_wsum f (a b : list (string * F)) : length a = length (leaves f) -> length b = length (leaves f) ->
  dot (map snd b) (map snd a) = wsum (map (fun _ => true) (leaves f)) a b.
Proof.
  unfold wsum. generalize (leaves f). intros l. revert a b.
  induction l as [|x l IH]; intros [|y a] [|z b] Ha Hb; try discriminate; [reflexivity|].
  cbn [map combine sel dot fsum]. cbn in IH. rewrite IH; [cbn [fst snd]; ring| |]; cbn in *; lia.
Qed.

Lemma conj_mask f : conjunctive f = true ->
  sat (fun _ => true) f = true /\ pmask (fun _ => true) f = map (fun _ => true) (leaves f).
Proof.
  induction f as [n p|l IH|l IH] using formula_ind'; intros K; [split; reflexivity| |discriminate].
  cbn [conjunctive sat pmask leaves] in *. induction IH as [|c l H _ IHl]; [split; reflexivity|].
  cbn [forallb flat_map] in *. apply andb_prop in K as (K1 & K2). destruct (H K1) as (A & B). destruct (IHl K2) as (A' & B').
  split; [now rewrite A, A'|]. now rewrite map_app, B, B'.
Qed.

(** All shares of a conjunction give the secret. *)
Theorem recover_conjunction f (s : F) t i sh j :
  conjunctive f = true -> arity2 f = true -> small_ok C (and_width f) ->
  gen_shares_policy s (tree f) None t i = Ok (sh, j) ->
  recover_secret (map snd sh) (tree f) = Ok s.
Proof.
  intros K A SO H. rewrite (gen_shares_policy_eq L) in H. injection H as <- _.
  rewrite (recover_exact f _ (gco f 1)) by apply (calc_coefficients_eq L).
  rewrite map_length, gsh_length, Nat.leb_refl. f_equal.
  rewrite (dot_wsum f) by (apply gco_length || apply gsh_length).
  destruct (conj_mask f K) as (S & <-). rewrite (reconstruct L f _ 1 s t i (and_width f) A (le_n _) SO S). ring.
Qed.

(** [n] times a value. *)
Fixpoint times (n : nat) (x : F) : F := match n with O => 0 | S k => x + times k x end.

Lemma dot_app a1 a2 b1 b2 : length a1 = length b1 -> dot (a1 ++ a2) (b1 ++ b2) = dot a1 b1 + dot a2 b2.
Proof.
  revert b1. induction a1 as [|x a1 IH]; intros [|y b1] H; try discriminate; cbn; [ring|].
  rewrite IH by (now injection H). ring.
Qed.

(** All shares of a disjunction of conjunctions give a multiple of the secret. *)
Theorem recover_disjunction l (s : F) t i sh j :
  forallb conjunctive l = true -> arity2 (FOr l) = true -> small_ok C (and_width (FOr l)) ->
  gen_shares_policy s (tree (FOr l)) None t i = Ok (sh, j) ->
  recover_secret (map snd sh) (tree (FOr l)) = Ok (times (length l) s).
Proof.
  intros K A SO H. rewrite (gen_shares_policy_eq L) in H.
  assert (E : sh = gsh (FOr l) s t i) by congruence. clear H. subst sh.
  rewrite (recover_exact (FOr l) _ (gco (FOr l) 1)) by apply (calc_coefficients_eq L).
  rewrite map_length, gsh_length, Nat.leb_refl. f_equal. rewrite gsh_FOr.
  cbn [arity2] in A. apply andb_prop in A as (_ & A).
  pose proof (and_width_FOr l _ (le_n _)) as W. set (w := and_width (FOr l)) in *. clearbody w.
  change (gco (FOr l) 1) with (flat_map (fun g => gco g 1) l : list (string * F)).
  revert i. induction W as [|c l Hc _ IHl]; intros i; [reflexivity|].
  cbn [forallb] in K, A. apply andb_prop in K as (K1 & K2). apply andb_prop in A as (A1 & A2).
  cbn [gsh_or flat_map length times]. rewrite !map_app, dot_app by now rewrite !map_length, gsh_length, gco_length.
  rewrite IHl by assumption. f_equal.
  rewrite (dot_wsum c) by (apply gco_length || apply gsh_length).
  destruct (conj_mask c K1) as (S & <-). rewrite (reconstruct L c _ 1 s t i w A1 Hc SO S). ring.
Qed.

(** One share of a disjunction of names gives the secret. *)
Theorem recover_one n p l s :
  recover_secret [s] (tree (FOr (FLeaf n p :: l))) = Ok (s : F).
Proof.
  rewrite (recover_exact _ _ (gco (FOr (FLeaf n p :: l)) 1)) by apply (calc_coefficients_eq L).
  cbn. f_equal. ring.
Qed.

(** All shares of a disjunction of two conjunctions do not give the secret. *)
Theorem recover_both a b (s : F) t i sh j :
  conjunctive a = true -> conjunctive b = true -> arity2 a = true -> arity2 b = true ->
  small_ok C (and_width (FOr [a; b])) -> s <> 0 ->
  gen_shares_policy s (tree (FOr [a; b])) None t i = Ok (sh, j) ->
  recover_secret (map snd sh) (tree (FOr [a; b])) <> Ok s.
Proof.
  intros Ka Kb Aa Ab SO N H. rewrite (recover_disjunction [a; b] s t i sh j).
  - cbn [length times]. intros E. injection E as E. apply N.
    assert (X : s + (s + 0) + - s = s + - s) by now rewrite E. ring_simplify in X. exact X.
  - cbn. now rewrite Ka, Kb.
  - cbn. now rewrite Aa, Ab.
  - exact SO.
  - exact H.
Qed.
End Recover.
