(** * SchemeLib: facts shared by the scheme proofs *)
From Coq Require Import String List Bool Arith Lia Field.
From Verif Require Import Base Crypto Policy Tools Sharing Spec PolicyProofs Poly
  SharingProofs Symmetric.
Import ListNotations.

(** Push discrete logarithms through the group operations. *)
Ltac log_simpl L := repeat first
  [ rewrite (log1_add L) | rewrite (log1_neg L) | rewrite (log1_mul L)
  | rewrite (log1_one L) | rewrite (log1_zero L)
  | rewrite (log2_add L) | rewrite (log2_neg L) | rewrite (log2_mul L)
  | rewrite (log2_one L) | rewrite (log2_zero L)
  | rewrite (logT_mul L) | rewrite (logT_inv L) | rewrite (logT_pow L)
  | rewrite (logT_pairing L) | rewrite (logT_one L) ].

Lemma Forall2_impl {A B} (P Q : A -> B -> Prop) l m :
  (forall a b, P a b -> Q a b) -> Forall2 P l m -> Forall2 Q l m.
Proof. intros H. induction 1; constructor; auto. Qed.

(** ** Lookups *)

Lemma find_key {A} (nm : A -> string) (P : string -> A -> Prop) attrs ds k :
  Forall2 (fun a d => nm d = a /\ P a d) attrs ds -> In k attrs ->
  exists d, find (fun x => seqb (nm x) k) ds = Some d /\ nm d = k /\ P k d.
Proof.
  induction 1 as [|a d attrs ds [E H] _ IH]; intros I; [contradiction|].
  cbn. destruct (seqb (nm d) k) eqn:B.
  - apply seqb_eq in B. exists d. subst. auto.
  - destruct I as [->|I]; [|auto]. rewrite E, seqb_refl in B. discriminate.
Qed.

Lemma find_assoc {A B} (nm : B -> string) (R : string * A -> B -> Prop) l m k :
  Forall2 (fun x y => nm y = fst x /\ R x y) l m ->
  forall v, assoc k l = Some v ->
  exists y, find (fun x => seqb (nm x) k) m = Some y /\ R (k, v) y.
Proof.
  induction 1 as [|[n a] d l m [E H] _ IH]; intros v I; [discriminate|].
  cbn in *. rewrite E. destruct (seqb n k) eqn:B'.
  - injection I as <-. apply seqb_eq in B'. rewrite <- B'. exists d. auto.
  - auto.
Qed.

Lemma find_assoc_id {A} k (l : list (string * A)) v : assoc k l = Some v ->
  find (fun x => seqb (fst x) k) l = Some (k, v).
Proof.
  induction l as [|[n a] l IH]; cbn; [discriminate|]. destruct (seqb n k) eqn:E; [|exact IH].
  intros H. injection H as <-. apply seqb_eq in E. now subst.
Qed.

Lemma Forall2_map_fst {A B} (nm : B -> string) (P : string -> B -> Prop) (l : list A) (h : A -> string) m :
  Forall2 (fun a d => nm d = h a /\ P (h a) d) l m -> map nm m = map h l.
Proof. induction 1 as [|a d l m [E _] _ IH]; cbn; congruence. Qed.

Lemma NoDup_idents f : NoDup (leaves f) -> NoDup (idents f).
Proof.
  unfold idents. generalize (leaves f). induction l as [|[n p] l IH]; cbn; intros H; [constructor|].
  inversion H as [|? ? N ND]; subst. constructor; [|auto].
  intros I. apply in_map_iff in I as ([n' p'] & E & I). cbn in E.
  apply node_index_inj in E as [-> ->]. contradiction.
Qed.

(** Lookup by a key that is distinct over the list. *)
Lemma find_distinct {A B} (nm : B -> string) (h : A -> string) (R : A -> B -> Prop) l m :
  Forall2 (fun x y => nm y = h x /\ R x y) l m -> NoDup (map h l) ->
  forall x, In x l -> exists y, find (fun z => seqb (nm z) (h x)) m = Some y /\ R x y.
Proof.
  induction 1 as [|a b l m [E H] _ IH]; intros ND x I; [contradiction|].
  inversion ND as [|? ? Nin ND']; subst. cbn [find]. rewrite E.
  destruct I as [->|I].
  - rewrite seqb_refl. eauto.
  - destruct (seqb (h a) (h x)) eqn:B'.
    + apply seqb_eq in B'. exfalso. apply Nin. rewrite B'. now apply in_map.
    + auto.
Qed.

Lemma assoc_In_pair {A} k (l : list (string * A)) v : assoc k l = Some v -> In (k, v) l.
Proof.
  induction l as [|[n a] l IH]; cbn; [discriminate|]. destruct (seqb n k) eqn:E.
  - apply seqb_eq in E. intros H. injection H as <-. subst. now left.
  - intros H. right. auto.
Qed.

Lemma plain_leaf f n p : plain_names f = true -> In (n, p) (leaves f) -> no_us n = true.
Proof.
  unfold plain_names, names. rewrite forallb_forall. intros H I. apply H.
  apply in_map_iff. now exists (n, p).
Qed.

Lemma owns_nonempty attrs f : sat (owns attrs) f = true -> arity2 f = true -> attrs <> [].
Proof.
  intros S A ->. revert S A. induction f as [n p|l IH|l IH] using formula_ind'; cbn.
  - discriminate.
  - intros S A. apply andb_prop in A as [A1 A2]. destruct l as [|g l]; [discriminate|].
    inversion IH; subst. cbn in S, A2. apply andb_prop in S as [S _].
    apply andb_prop in A2 as [A2 _]. auto.
  - intros S A. apply andb_prop in A as [A1 A2]. clear A1.
    induction IH as [|g l H _ IHl]; [discriminate|]. cbn in S, A2.
    apply andb_prop in A2 as [Ag Al]. apply orb_prop in S as [S|S]; auto.
Qed.

Lemma rmap_runs {F A B} (f : A -> rand F B) l :
  (forall x t i, In x l -> exists y j, f x t i = Ok (y, j)) ->
  forall t i, exists r j, rmap f l t i = Ok (r, j).
Proof.
  induction l as [|x l IH]; intros H t i; cbn.
  - eexists _, _. reflexivity.
  - unfold rbind at 1. destruct (H x t i) as (y & j & ->); [now left|].
    unfold rbind. destruct (IH (fun x' t' i' I => H x' t' i' (or_intror I)) t j) as (r & j' & ->).
    eexists _, _. reflexivity.
Qed.

Lemma omap_runs {A B} (f : A -> outcome B) l :
  (forall x, In x l -> exists y, f x = Ok y) -> exists r, omap f l = Ok r.
Proof.
  induction l as [|x l IH]; intros H; cbn; [eauto|].
  destruct (H x) as (y & ->); [now left|]. cbn.
  destruct IH as (r & ->); [intros; apply H; now right|]. cbn. eauto.
Qed.

Lemma rmap_cons_Ok {F A B} (f : A -> rand F B) x l t i y j ys k :
  f x t i = Ok (y, j) -> rmap f l t j = Ok (ys, k) -> rmap f (x :: l) t i = Ok (y :: ys, k).
Proof. intros H1 H2. cbn. unfold rbind. rewrite H1, H2. reflexivity. Qed.

Lemma rbind_run {F A B} (m : rand F A) (k : A -> rand F B) t i a j :
  m t i = Ok (a, j) -> rbind m k t i = k a t j.
Proof. intros H. unfold rbind. now rewrite H. Qed.

Section SchemeLib.
Context {C : crypto} (L : laws C).
Local Open Scope F_scope.
Add Field schemelib_field : (f_theory L).
Notation F := (F C).

(** ** The symmetric layer *)

Lemma substring_app_l a b : String.substring 0 (String.length a) (a ++ b) = a.
Proof. induction a as [|c a IH]; cbn; [now destruct b | now rewrite IH]. Qed.

Lemma substring_all b : String.substring 0 (String.length b) b = b.
Proof. induction b as [|c b IH]; cbn; [reflexivity | now rewrite IH]. Qed.

Lemma substring_app_r a b :
  String.substring (String.length a) (String.length b) (a ++ b) = b.
Proof. induction a as [|c a IH]; cbn; [apply substring_all | exact IH]. Qed.

Lemma string_length_app a b : String.length (a ++ b) = (String.length a + String.length b)%nat.
Proof. induction a as [|c a IH]; cbn; [reflexivity | now rewrite IH]. Qed.

Lemma symmetric_roundtrip nonce (m : GT C) data ct : String.length nonce = 12%nat ->
  encrypt_symmetric nonce m data = Ok ct -> decrypt_symmetric m ct = Ok data.
Proof.
  intros Hn E. injection E as <-. unfold decrypt_symmetric.
  rewrite string_length_app, Hn.
  destruct (12 + String.length (aead_enc C (kdf C m) nonce data) <? 12)%nat eqn:B.
  - apply Nat.ltb_lt in B. lia.
  - replace (12 + String.length (aead_enc C (kdf C m) nonce data) - 12)%nat
      with (String.length (aead_enc C (kdf C m) nonce data)) by lia.
    rewrite <- Hn, substring_app_l, substring_app_r, (aead_ok L). reflexivity.
Qed.

(** ** Products over lists, in the exponent *)

Lemma fold_log {A} (step : GT C -> A -> GT C) (v : A -> F) l :
  (forall x a, In x l -> logT L (step a x) = logT L a + v x) ->
  forall a, logT L (fold_left step l a) = logT L a + fsum (map v l).
Proof.
  induction l as [|x l IH]; intros H a; cbn; [ring|].
  rewrite IH by (intros; apply H; now right). rewrite H by now left. ring.
Qed.

Lemma fold_log1 {A} (step : G1 C -> A -> G1 C) (v : A -> F) l :
  (forall x a, In x l -> log1 L (step a x) = log1 L a + v x) ->
  forall a, log1 L (fold_left step l a) = log1 L a + fsum (map v l).
Proof.
  induction l as [|x l IH]; intros H a; cbn; [ring|].
  rewrite IH by (intros; apply H; now right). rewrite H by now left. ring.
Qed.

Lemma fold_log2 {A} (step : G2 C -> A -> G2 C) (v : A -> F) l :
  (forall x a, In x l -> log2 L (step a x) = log2 L a + v x) ->
  forall a, log2 L (fold_left step l a) = log2 L a + fsum (map v l).
Proof.
  induction l as [|x l IH]; intros H a; cbn; [ring|].
  rewrite IH by (intros; apply H; now right). rewrite H by now left. ring.
Qed.

Lemma fsum_map_ext {A} (u v : A -> F) l :
  (forall x, In x l -> u x = v x) -> fsum (map u l) = fsum (map v l).
Proof.
  intros H. f_equal. apply map_ext_in. exact H.
Qed.

Lemma fsum_scale {A} (u : A -> F) c l : fsum (map (fun x => c * u x) l) = c * fsum (map u l).
Proof. induction l; cbn; [ring|rewrite IHl; ring]. Qed.

(** Matching one identifier in the coefficient list. *)
Lemma fold_match (v : F -> F) j (z : list (string * F)) (step : GT C -> F -> GT C) :
  NoDup (map fst z) -> (forall a c, logT L (step a c) = logT L a + v c) -> v 0 = 0 ->
  forall a, logT L (fold_left (fun a zt => if seqb (fst zt) j then step a (snd zt) else a) z a)
          = logT L a + v (oval (assoc j z)).
Proof.
  intros ND H Z.
  assert (N : forall z', ~ In j (map fst z') -> forall a,
    fold_left (fun a zt => if seqb (fst zt) j then step a (snd zt) else a) z' a = a).
  { induction z' as [|[k c] z' IH]; intros Hn a; [reflexivity|]. cbn in *.
    destruct (seqb k j) eqn:E; [apply seqb_eq in E; tauto|]. apply IH. tauto. }
  induction z as [|[k c] z IH]; intros a; cbn.
  - rewrite Z. ring.
  - inversion ND as [|? ? Nin ND']; subst. destruct (seqb k j) eqn:E.
    + apply seqb_eq in E. subst k. rewrite N by assumption. apply H.
    + apply IH. exact ND'.
Qed.

(** ** Reconstruction through lookups, the form used by the schemes *)

Lemma pruned_leaf own f x : In x (map leaf_pair (sel (pmask own f) (leaves f))) ->
  exists n p, x = (n, node_index n p) /\ In (n, p) (leaves f) /\ own n = true.
Proof.
  intros I. apply in_map_iff in I as ([n p] & <- & I). exists n, p.
  split; [reflexivity|]. split; [now apply sel_incl in I|]. now apply pmask_owned in I.
Qed.

Lemma assoc_In {A} k (l : list (string * A)) : In k (map fst l) -> exists v, assoc k l = Some v.
Proof.
  induction l as [|[x a] l IH]; cbn; [tauto|]. intros [->|I].
  - rewrite seqb_refl. eauto.
  - destruct (seqb x k); eauto.
Qed.

Lemma share_of_leaf f n p (s : F) t i : In (n, p) (leaves f) ->
  exists v, assoc (node_index n p) (gsh f s t i) = Some v.
Proof.
  intros I. apply assoc_In. rewrite gsh_idents. unfold idents. apply in_map_iff.
  now exists (n, p).
Qed.

Lemma coeff_of_leaf f n p (c : F) : In (n, p) (leaves f) ->
  exists v, assoc (node_index n p) (gco f c) = Some v.
Proof.
  intros I. apply assoc_In. rewrite gco_idents. unfold idents. apply in_map_iff.
  now exists (n, p).
Qed.

Lemma gsh_names f (s : F) t i : plain_names f = true ->
  map (fun x => remove_index (fst x)) (gsh f s t i) = names f.
Proof.
  intros PN. rewrite <- (map_map fst remove_index), gsh_idents. unfold idents, names.
  rewrite map_map. apply map_ext_in. intros [n p] I. cbn.
  apply remove_index_leaf. eapply plain_leaf; eauto.
Qed.

Lemma reconstruct_lookup own f (c s : F) t i :
  arity2 f = true -> NoDup (leaves f) -> small_ok C (and_width f) -> sat own f = true ->
  fsum (map (fun x => oval (assoc (snd x) (gco f c)) * oval (assoc (snd x) (gsh f s t i)))
            (map leaf_pair (sel (pmask own f) (leaves f)))) = c * s.
Proof.
  intros A ND SO Sa.
  rewrite <- (reconstruct L f own c s t i (and_width f) A (Nat.le_refl _) SO Sa).
  rewrite <- (wsum_lookup (pmask own f) (gco f c) (gsh f s t i) (idents f)
                (gco_idents f c) (gsh_idents f s t i) (NoDup_idents f ND)).
  unfold idents. rewrite sel_map, !map_map. reflexivity.
Qed.

End SchemeLib.
