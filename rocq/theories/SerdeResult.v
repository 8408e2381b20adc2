(** * SerdeResult: how results and errors are written and read under the feature "serde" (C120, C121) *)
From Coq Require Import String Ascii List Bool Arith NArith Lia.
From Verif Require Import Base Crypto Policy Files Borsh Console Serde SerdeProofs SerdeTypes SerdeExact SerdeLayout.
Import ListNotations.
Local Open Scope string_scope.

Lemma layout_result (M : mode) :
  (forall e : string, ser (s_error M) e = written M [("details", VText e)]) /\
  (forall (A : Type) (s : sd A) (r : A + string), ser (s_result M s) r = match r with
     | inl v => one_variant M 0 "Ok" (ser s v)
     | inr e => one_variant M 1 "Err" (written M [("details", VText e)]) end).
Proof.
  split.
  - intros e. unfold written. destruct M as [[] [] []]; reflexivity.
  - intros A s [v|e]; unfold one_variant, written; destruct M as [[] [] []]; reflexivity.
Qed.

Lemma error_sgood M : sgood wtext 1 (s_error M).
Proof.
  apply (struct_sgood M wtext 0 (f_one "details" s_text) (fun s => s) (fun s => s)).
  all: first [ apply one_fgood; exact text_sgood | repeat constructor; cbn; tauto | reflexivity | cbn; lia | auto ].
Qed.

Lemma result_sgood {A} M (P : A -> Prop) d (s : sd A) : sgood P (S d) s ->
  sgood (fun r => match r with inl v => P v | inr e => wtext e end) (S (S d)) (s_result M s).
Proof.
  intros G [v|e] H; cbn [s_result ser de]; unfold newtype_variant.
  - destruct (G v H) as [H1 E]. split.
    + apply (holds_map1 (S d)); [|exact H1].
      destruct (var_number M); [reflexivity|split; reflexivity].
    + destruct (var_number M); cbn; rewrite E; reflexivity.
  - destruct (sgood_mono _ wtext 1 (S d) _ (error_sgood M) ltac:(lia) ltac:(auto) e H) as [H1 E]. split.
    + apply (holds_map1 (S d)); [|exact H1].
      destruct (var_number M); [reflexivity|split; reflexivity].
    + destruct (var_number M); cbn [variant variant_no index_of]; [cbn -[ser de s_error]|cbn -[ser de s_error]]; rewrite E; reflexivity.
Qed.

Theorem result_back {A} M (P : A -> Prop) d (s : sd A) : sgood P d s -> (d < max_depth)%nat ->
  (forall v, P v -> back (s_result M s) (inl v)) /\ (forall e, wtext e -> back (s_result M s) (inr e)) /\
  (forall e, wtext e -> back (s_error M) e).
Proof.
  intros G D.
  assert (G' : sgood P (S (Nat.pred max_depth - 1)) s).
  { apply (sgood_mono P P d); [exact G| unfold max_depth in *; lia | auto]. }
  apply (result_sgood M) in G'. repeat apply conj; intros x H.
  - exact (sgood_back _ _ _ (inl x) G' ltac:(unfold max_depth; lia) H).
  - exact (sgood_back _ _ _ (inr x) G' ltac:(unfold max_depth; lia) H).
  - exact (sgood_back _ _ _ x (error_sgood M) ltac:(unfold max_depth; lia) H).
Qed.
