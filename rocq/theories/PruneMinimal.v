(** * PruneMinimal: which leaves pruning selects, and that none is superfluous (C101) *)
From Coq Require Import String Ascii List Bool Arith Lia.
From Verif Require Import Base Policy Tools Sharing Spec PolicyProofs CoreProofs.
Import ListNotations.

(** ** Specification *)

(** Truth of a formula when exactly the leaves in [on] are true. *)
Fixpoint sat_at (on : string * nat -> bool) (f : formula) : bool :=
  match f with
  | FLeaf n p => on (n, p)
  | FAnd l => forallb (sat_at on) l
  | FOr l => existsb (sat_at on) l
  end.

(** The leaves to take: of a conjunction those of all children, of a
    disjunction those of the first child that is true. *)
Inductive chosen (own : string -> bool) : formula -> list (string * nat) -> Prop :=
| chosen_leaf n p : own n = true -> chosen own (FLeaf n p) [(n, p)]
| chosen_and l ks : Forall2 (chosen own) l ks -> chosen own (FAnd l) (concat ks)
| chosen_or before c after k : Forall (fun g => sat own g = false) before -> chosen own c k ->
    chosen own (FOr (before ++ c :: after)) k.

(** ** The selection *)

Section Own.
Variable own : string -> bool.

Lemma chosen_mask f : sat own f = true -> chosen own f (sel (pmask own f) (leaves f)).
Proof.
  induction f as [n p|l IH|l IH] using formula_ind'; intros S.
  - cbn in *. rewrite S. now constructor.
  - cbn [pmask leaves sat] in *.
    assert (K : exists ks, sel (flat_map (pmask own) l) (flat_map leaves l) = concat ks /\ Forall2 (chosen own) l ks).
    { induction IH as [|c l0 H _ IHl]; [exists []; split; [reflexivity|constructor]|].
      cbn [forallb flat_map] in *. apply andb_prop in S as (Sc & S). destruct (IHl S) as (ks & E & F).
      exists (sel (pmask own c) (leaves c) :: ks). rewrite sel_app by apply pmask_length. rewrite E.
      split; [reflexivity|]. constructor; auto. }
    destruct K as (ks & -> & F). now constructor.
  - change (pmask own (FOr l)) with (pmask_or own l). cbn [leaves sat] in *.
    assert (K : forall before, Forall (fun g => sat own g = false) before ->
              chosen own (FOr (before ++ l)) (sel (pmask_or own l) (flat_map leaves l))).
    { induction IH as [|c l0 H _ IHl]; intros before B; [discriminate|].
      cbn [existsb pmask_or flat_map] in *. destruct (sat own c) eqn:Sc.
      - rewrite sel_app by apply pmask_length. rewrite sel_nomask, app_nil_r. constructor; auto.
      - rewrite sel_app by (unfold nomask; now rewrite map_length). rewrite sel_nomask. cbn [app].
        specialize (IHl S (before ++ [c])). rewrite <- app_assoc in IHl. apply IHl. apply Forall_app. split; [exact B|].
        constructor; [exact Sc|constructor]. }
    apply (K []). constructor.
Qed.

Lemma chosen_sat f : forall k, chosen own f k -> sat own f = true.
Proof.
  induction f as [n p|l IH|l IH] using formula_ind'; intros k H; inversion H; subst.
  - assumption.
  - cbn [sat]. clear H. match goal with F : Forall2 _ _ _ |- _ => revert F end. generalize ks.
    induction IH as [|c l0 Hc _ IHl]; intros ks' F; inversion F; subst; [reflexivity|]. cbn [forallb].
    erewrite Hc by eassumption. cbn. eapply IHl; eassumption.
  - cbn [sat]. rewrite existsb_exists. exists c. split; [apply in_elt|]. rewrite Forall_forall in IH.
    eapply IH; [apply in_elt|eassumption].
Qed.

Lemma chosen_fun f : forall k k', chosen own f k -> chosen own f k' -> k = k'.
Proof.
  induction f as [n p|l IH|l IH] using formula_ind'; intros k k' H H'.
  - inversion H; inversion H'; subst; reflexivity.
  - inversion H as [|? ks F|]; inversion H' as [|? ks' F'|]; subst. f_equal. clear H H'. revert ks ks' F F'.
    induction IH as [|c l0 Hc _ IHl]; intros ks ks' F F'; inversion F; inversion F'; subst; [reflexivity|]. f_equal; auto.
  - inversion H as [| |b c a ? B X E]; inversion H' as [| |b' c' a' ? B' X' E']; subst.
    assert (b = b' /\ c = c') as (-> & ->).
    { clear H H' IH. revert b' B' E'. induction b as [|x b IHb]; intros [|x' b'] B' E'; cbn [app] in E'; injection E' as E1 E2.
      - auto.
      - inversion B'; subst. apply chosen_sat in X. congruence.
      - inversion B; subst. apply chosen_sat in X'. congruence.
      - inversion B; inversion B'; subst. destruct (IHb ltac:(assumption) b') as (-> & ->); auto. }
    rewrite Forall_forall in IH. eapply IH; [apply in_elt|eassumption|eassumption].
Qed.

Lemma chosen_leaves f : forall k, chosen own f k -> incl k (leaves f).
Proof.
  induction f as [n p|l IH|l IH] using formula_ind'; intros k H; inversion H; subst; cbn [leaves].
  - apply incl_refl.
  - clear H. match goal with F : Forall2 _ _ _ |- _ => revert F end. generalize ks.
    induction IH as [|c l0 Hc _ IHl]; intros ks' F; inversion F; subst; [apply incl_refl|]. cbn [concat flat_map].
    apply incl_app; [apply incl_appl|apply incl_appr]; auto.
  - rewrite Forall_forall in IH. intros x I. apply in_flat_map. exists c. split; [apply in_elt|].
    eapply IH; [apply in_elt|eassumption|exact I].
Qed.

(** The selected leaves alone make the formula true. *)
Lemma chosen_enough f : forall k (on : string * nat -> bool), chosen own f k -> (forall x, In x k -> on x = true) -> sat_at on f = true.
Proof.
  induction f as [n p|l IH|l IH] using formula_ind'; intros k on H O; inversion H; subst; cbn [sat_at].
  - apply O. now left.
  - clear H. match goal with F : Forall2 _ _ _ |- _ => revert F end. revert O. generalize ks.
    induction IH as [|c l0 Hc _ IHl]; intros ks' O F; inversion F; subst; [reflexivity|]. cbn [forallb concat] in *.
    erewrite Hc; [|eassumption|intros; apply O, in_or_app; auto]. cbn. eapply IHl; [|eassumption]. intros; apply O, in_or_app; auto.
  - rewrite existsb_exists. exists c. split; [apply in_elt|]. rewrite Forall_forall in IH.
    eapply IH; [apply in_elt|eassumption|exact O].
Qed.
End Own.

Lemma sat_at_some on f : arity2 f = true -> sat_at on f = true -> exists x, In x (leaves f) /\ on x = true.
Proof.
  induction f as [n p|l IH|l IH] using formula_ind'; intros A S; cbn [arity2 sat_at leaves] in *.
  - exists (n, p). cbn. auto.
  - apply andb_prop in A as (A & B). destruct IH as [|c l H _]; [discriminate|]. cbn [forallb flat_map] in *.
    apply andb_prop in S as (S & _). apply andb_prop in B as (B & _). destruct (H B S) as (x & I & X).
    exists x. split; [apply in_or_app; auto|exact X].
  - apply andb_prop in A as (_ & B). apply existsb_exists in S as (c & I & S). rewrite forallb_forall in B.
    rewrite Forall_forall in IH. destruct (IH c I (B c I) S) as (x & J & X). exists x. split; [|exact X].
    apply in_flat_map. eauto.
Qed.

Lemma NoDup_app_parts {A} (l m : list A) : NoDup (l ++ m) -> NoDup l /\ NoDup m /\ forall x, In x l -> In x m -> False.
Proof.
  induction l as [|a l IH]; cbn; intros N; [repeat split; [constructor|exact N|intros x []]|].
  inversion N as [|? ? Na Nl]; subst. destruct (IH Nl) as (A1 & A2 & A3). split; [|split; [exact A2|]].
  - constructor; [|exact A1]. intros I. apply Na, in_or_app. auto.
  - intros x [<-|I] J; [apply Na, in_or_app; auto|eauto].
Qed.

(** Every set of selected leaves that makes the formula true is the whole selection. *)
Theorem chosen_minimal own f : forall k on, arity2 f = true -> NoDup (leaves f) -> chosen own f k ->
  (forall x, on x = true -> In x (leaves f) -> In x k) -> sat_at on f = true -> forall x, In x k -> on x = true.
Proof.
  induction f as [n p|l IH|l IH] using formula_ind'; intros k on A N H O S x I; inversion H; subst.
  - destruct I as [<-|[]]. exact S.
  - cbn [arity2 leaves sat_at] in *. apply andb_prop in A as (_ & A). clear H.
    match goal with F : Forall2 _ _ _ |- _ => revert F end. revert I O N A S. generalize ks.
    induction IH as [|c l0 Hc _ IHl]; intros ks' I O N A S F; inversion F as [|? k0 ? ks0 Fc Fl]; subst; [destruct I|].
    cbn [forallb concat flat_map] in *. apply andb_prop in A as (Ac & A). apply andb_prop in S as (Sc & S).
    apply NoDup_app_parts in N as (Nc & Nl & D).
    apply in_app_or in I as [I|I].
    + refine (Hc k0 on Ac Nc Fc _ Sc x I). intros y Y J. specialize (O y Y (in_or_app _ _ _ (or_introl J))).
      apply in_app_or in O as [O|O]; [exact O|]. exfalso. apply (D y J).
      apply (chosen_leaves own (FAnd l0) (concat ks0)); [now constructor|exact O].
    + refine (IHl ks0 I _ Nl A S Fl). intros y Y J. specialize (O y Y (in_or_app _ _ _ (or_intror J))).
      apply in_app_or in O as [O|O]; [|exact O]. exfalso. apply (D y); [|exact J].
      now apply (chosen_leaves own c k0 Fc).
  - cbn [arity2 leaves sat_at] in *. apply andb_prop in A as (_ & A). rewrite forallb_forall in A. rewrite Forall_forall in IH.
    assert (Ic : In c (before ++ c :: after)) by apply in_elt.
    match goal with X : chosen own c k |- _ => rename X into Fc end.
    rewrite flat_map_app in N, O. cbn [flat_map] in N, O. apply NoDup_app_parts in N as (Nb & Nr & D1).
    apply NoDup_app_parts in Nr as (Nc & Na & D2).
    assert (Oc : forall y, on y = true -> In y (leaves c) -> In y k).
    { intros y Y J. apply O; [exact Y|]. apply in_or_app. right. apply in_or_app. now left. }
    apply existsb_exists in S as (c' & I' & S). pose proof (A c' I') as A'.
    apply in_app_or in I' as [I'|[<-|I']].
    + exfalso. destruct (sat_at_some _ _ A' S) as (y & J & Y). apply (D1 y); [apply in_flat_map; eauto|].
      apply in_or_app. left. apply (chosen_leaves own c k Fc). apply O; [exact Y|]. apply in_or_app. left. apply in_flat_map. eauto.
    + exact (IH c Ic k on (A c Ic) Nc Fc Oc S x I).
    + exfalso. destruct (sat_at_some _ _ A' S) as (y & J & Y). apply (D2 y); [|apply in_flat_map; eauto].
      apply (chosen_leaves own c k Fc). apply O; [exact Y|]. apply in_or_app. right. apply in_or_app. right. apply in_flat_map. eauto.
Qed.

(** ** Pruning *)
Theorem pruned_chosen attrs f t l : arity2 f = true ->
  (calc_pruned attrs (tree f) t = Ok (true, l) <->
   exists k, chosen (owns attrs) f k /\ l = map (fun x => (fst x, node_index (fst x) (snd x))) k).
Proof.
  intros A. destruct (prune_agrees attrs f t A) as (l0 & P). destruct (calc_pruned_total attrs f t) as [E|E]; [congruence|].
  destruct (sat (owns attrs) f) eqn:S.
  - split.
    + intros H. rewrite H in E. injection E as ->. eexists. split; [now apply chosen_mask|reflexivity].
    + intros (k & F & ->). rewrite E. do 2 f_equal. rewrite (chosen_fun _ f k _ F (chosen_mask _ f S)). reflexivity.
  - split; [congruence|]. intros (k & F & _). apply chosen_sat in F. congruence.
Qed.

Theorem pruned_minimal attrs f t l : arity2 f = true -> NoDup (leaves f) ->
  calc_pruned attrs (tree f) t = Ok (true, l) ->
  exists k, l = map (fun x => (fst x, node_index (fst x) (snd x))) k /\
    forall on, (forall x, on x = true -> In x k) -> (sat_at on f = true <-> forall x, In x k -> on x = true).
Proof.
  intros A N H. apply (pruned_chosen attrs f t l A) in H as (k & F & ->). exists k. split; [reflexivity|].
  intros on O. split.
  - intros S. apply (chosen_minimal (owns attrs) f k on A N F); auto.
  - now apply chosen_enough with (own := owns attrs).
Qed.
