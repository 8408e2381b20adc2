(** * Proofs about secret sharing over policies *)
From Coq Require Import String List Bool Arith Lia Field.
From Verif Require Import Base Crypto Policy Tools Sharing Spec PolicyProofs Poly.
Import ListNotations.

(** First value stored under a key. *)
Fixpoint assoc {A} (k : string) (l : list (string * A)) : option A :=
  match l with
  | [] => None
  | (x, a) :: r => if seqb x k then Some a else assoc k r
  end.

(** Leaf identifiers of a formula, left to right. *)
Definition idents (f : formula) : list string :=
  map (fun x => node_index (fst x) (snd x)) (leaves f).

Lemma flat_map_map {A B D} (g : A -> list B) (h : B -> D) l :
  map h (flat_map g l) = flat_map (fun x => map h (g x)) l.
Proof. induction l; cbn; [reflexivity|]. now rewrite map_app, IHl. Qed.

Lemma and_width_FAnd l n : and_width (FAnd l) <= n ->
  length l <= n /\ Forall (fun g => and_width g <= n) l.
Proof.
  cbn [and_width]. intros H. split; [lia|].
  assert (H' : fold_right (fun g m => Nat.max (and_width g) m) 0 l <= n) by lia.
  clear H. induction l; cbn in *; constructor; [lia|apply IHl; lia].
Qed.

Lemma and_width_FOr l n : and_width (FOr l) <= n -> Forall (fun g => and_width g <= n) l.
Proof.
  cbn [and_width]. intros H. induction l; cbn in *; constructor; [lia|apply IHl; lia].
Qed.

Lemma lsum_cons a l : list_sum (a :: l) = a + list_sum l.
Proof. reflexivity. Qed.

Lemma Forall_and' {A} (P Q : A -> Prop) l : Forall P l -> Forall Q l -> Forall (fun x => P x /\ Q x) l.
Proof. induction 1; intros H'; inversion H'; subst; constructor; auto. Qed.

Section SharingProofs.
Context {C : crypto} (L : laws C).
Local Open Scope F_scope.
Add Field sharing_field : (f_theory L).
Notation F := (F C).
Notation "'#' n" := (usize_to_fr n : F) (at level 9).

(** ** Evaluation *)

Lemma poly_from_ev (l : list F) : forall i x acc, poly_from i l x acc = acc + fpow x i * ev l x.
Proof.
  induction l as [|a l IH]; intros i x acc; cbn; [ring|].
  rewrite IH. cbn. ring.
Qed.

Lemma polynomial_ev (l : list F) x : polynomial l x = ev l x.
Proof. unfold polynomial. rewrite poly_from_ev. cbn. ring. Qed.

Lemma draws_eq n : forall (t : nat -> F) i, draws n t i = Ok (map t (seq i n), (i + n)%nat).
Proof.
  induction n as [|n IH]; intros t i; cbn.
  - unfold rret. now rewrite Nat.add_0_r.
  - unfold rbind, draw. rewrite IH. cbn. unfold rret. do 2 f_equal. lia.
Qed.

Lemma gen_shares_eq (s : F) k n (t : nat -> F) i : k <= n ->
  gen_shares s k n t i =
  Ok (map (fun j => ev (s :: map t (seq i (k - 1))) (# j)) (seq 0 (n + 1)), (i + (k - 1))%nat).
Proof.
  intros H. unfold gen_shares. apply Nat.leb_le in H. rewrite H.
  unfold rbind. rewrite draws_eq. unfold rret. do 2 f_equal.
  apply map_ext. intros j. apply polynomial_ev.
Qed.

Lemma lagrange_at_eq (i : F) l : forall acc, lagrange_at i l acc = Ok (acc * lprod i l 0).
Proof.
  induction l as [|j l IH]; intros acc; cbn.
  - f_equal. ring.
  - destruct (feqb C i j) eqn:E; [apply IH|].
    rewrite (finv_opt_neq L).
    + cbn. rewrite IH. f_equal. ring.
    + apply (f_sub_neq_0 L). now apply (feqb_neq L).
Qed.

Lemma recover_coefficients_eq (l : list F) :
  recover_coefficients l = Ok (map (fun i => lprod i l 0) l).
Proof.
  unfold recover_coefficients. apply omap_Forall2.
  assert (H : forall m, Forall2 (fun x y => lagrange_at x l 1 = Ok y) m (map (fun i => lprod i l 0) m)).
  { induction m; constructor; auto. rewrite lagrange_at_eq. f_equal. ring. }
  apply H.
Qed.

Lemma count_from_eq n : forall k, count_from (# (S k)) n = map (fun j => # j) (seq (S k) n).
Proof. induction n as [|n IH]; intros k; cbn [count_from seq map]; [reflexivity|].
  f_equal. apply (IH (S k)). Qed.

Lemma and_points_eq n : 0 < n -> and_points n = map (fun j => # j) (seq 1 n).
Proof.
  intros H. unfold and_points. replace (Nat.max 1 n) with n by lia.
  rewrite <- (count_from_eq n 0). f_equal. cbn. ring.
Qed.

(** ** Pure forms *)

(** Number of random draws made for a formula. *)
Fixpoint nd (f : formula) : nat :=
  match f with
  | FLeaf _ _ => 0
  | FAnd l => (length l - 1) + list_sum (map nd l)
  | FOr l => list_sum (map nd l)
  end.

Fixpoint gsh (f : formula) (s : F) (t : nat -> F) (i : nat) : list (string * F) :=
  match f with
  | FLeaf n p => [(node_index n p, s)]
  | FAnd l =>
      let a := s :: map t (seq i (length l - 1)) in
      (fix go (l : list formula) (x : nat) (i : nat) :=
         match l with
         | [] => []
         | c :: r => gsh c (ev a (# x)) t i ++ go r (S x) (i + nd c)%nat
         end) l 1%nat (i + (length l - 1))%nat
  | FOr l =>
      (fix go (l : list formula) (i : nat) :=
         match l with
         | [] => []
         | c :: r => gsh c s t i ++ go r (i + nd c)%nat
         end) l i
  end.

Definition gsh_and (a : list F) (t : nat -> F) : list formula -> nat -> nat -> list (string * F) :=
  fix go (l : list formula) (x : nat) (i : nat) :=
         match l with
         | [] => []
         | c :: r => gsh c (ev a (# x)) t i ++ go r (S x) (i + nd c)%nat
         end.

Definition gsh_or (s : F) (t : nat -> F) : list formula -> nat -> list (string * F) :=
  fix go (l : list formula) (i : nat) :=
         match l with
         | [] => []
         | c :: r => gsh c s t i ++ go r (i + nd c)%nat
         end.

Lemma gsh_FAnd l s t i : gsh (FAnd l) s t i =
  gsh_and (s :: map t (seq i (length l - 1))) t l 1 (i + (length l - 1)).
Proof. reflexivity. Qed.

Lemma gsh_FOr l s t i : gsh (FOr l) s t i = gsh_or s t l i.
Proof. reflexivity. Qed.

Lemma gen_shares_policy_eq f : forall s ty t i,
  gen_shares_policy s (tree f) ty t i = Ok (gsh f s t i, (i + nd f)%nat).
Proof.
  induction f as [n p|l IH|l IH] using formula_ind'; intros s ty t i.
  - cbn. unfold rret. now rewrite Nat.add_0_r.
  - cbn [tree gen_shares_policy]. rewrite map_length. unfold rbind at 1.
    rewrite gen_shares_eq by lia.
    rewrite gsh_FAnd. set (a := s :: map t (seq i (length l - 1))).
    rewrite Nat.add_1_r. cbn [seq map tl].
    set (loop := fix loop (l : list pvalue) (sh : list F) (acc : list (string * F)) {struct l} :=
             match l with
             | [] => rret acc
             | c :: r =>
                 match sh with
                 | [] => rpanic
                 | s :: sr =>
                     rbind (gen_shares_policy s c None) (fun items =>
                     loop r sr (acc ++ items))
                 end
             end).
    assert (H : forall x j acc,
      loop (map tree l) (map (fun j => ev a (# j)) (seq x (length l))) acc t j =
      Ok (acc ++ gsh_and a t l x j, (j + list_sum (map nd l))%nat)).
    { clearbody a. clear i. induction IH as [|c l H _ IHl]; intros x j acc.
      - cbn. unfold rret. rewrite app_nil_r. f_equal. f_equal. lia.
      - cbn [map length seq]. cbn [loop]. unfold rbind. rewrite H.
        rewrite IHl. cbn [gsh_and]. rewrite app_assoc. f_equal. f_equal. rewrite lsum_cons. lia. }
    rewrite H. cbn [app nd]. f_equal. f_equal. lia.
  - cbn [tree gen_shares_policy]. rewrite map_length. rewrite gsh_FOr.
    destruct l as [|c0 l0].
    { cbn. unfold rbind, gen_shares, rret. cbn. now rewrite Nat.add_0_r. }
    set (l := c0 :: l0) in *. unfold rbind at 1.
    rewrite gen_shares_eq by (cbn; lia).
    rewrite Nat.add_1_r. cbn [seq map tl Nat.sub].
    set (loop := fix loop (l : list pvalue) (sh : list F) (acc : list (string * F)) {struct l} :=
             match l with
             | [] => rret acc
             | c :: r =>
                 match sh with
                 | [] => rpanic
                 | s :: sr =>
                     rbind (gen_shares_policy s c None) (fun items =>
                     loop r sr (acc ++ items))
                 end
             end).
    assert (H : forall x j acc,
      loop (map tree l) (map (fun j => ev [s] (# j)) (seq x (length l))) acc t j =
      Ok (acc ++ gsh_or s t l j, (j + list_sum (map nd l))%nat)).
    { clearbody l. clear i. induction IH as [|c l H _ IHl]; intros x j acc.
      - cbn. unfold rret. rewrite app_nil_r. f_equal. f_equal. lia.
      - cbn [map length seq]. cbn [loop]. unfold rbind. rewrite H.
        rewrite IHl. cbn [gsh_or]. rewrite app_assoc. f_equal.
        replace (ev [s] # x) with s by (cbn; ring).
        f_equal. rewrite lsum_cons. lia. }
    rewrite H. cbn [app nd]. now rewrite Nat.add_0_r.
Qed.

Fixpoint gco (f : formula) (c : F) : list (string * F) :=
  match f with
  | FLeaf n p => [(node_index n p, c)]
  | FAnd l =>
      let pts := and_points (length l) in
      (fix go (l : list formula) (x : nat) :=
         match l with
         | [] => []
         | g :: r => gco g (c * lprod (# x) pts 0) ++ go r (S x)
         end) l 1%nat
  | FOr l => flat_map (fun g => gco g c) l
  end.

Definition gco_and (c : F) (pts : list F) : list formula -> nat -> list (string * F) :=
  fix go (l : list formula) (x : nat) :=
         match l with
         | [] => []
         | g :: r => gco g (c * lprod (# x) pts 0) ++ go r (S x)
         end.

Lemma gco_FAnd l c : gco (FAnd l) c = gco_and c (and_points (length l)) l 1.
Proof. reflexivity. Qed.

Lemma calc_coefficients_eq f : forall c acc ty,
  calc_coefficients (tree f) c acc ty = Ok (Some (acc ++ gco f c)).
Proof.
  induction f as [n p|l IH|l IH] using formula_ind'; intros c acc ty.
  - reflexivity.
  - cbn [tree calc_coefficients]. rewrite recover_coefficients_eq. cbn [obind].
    rewrite map_length. rewrite gco_FAnd.
    set (loop := fix loop (l : list pvalue) (cs : list F) (acc : list (string * F)) {struct l} :=
             match l with
             | [] => Ok (Some acc)
             | x :: r =>
                 match cs with
                 | [] => Panic
                 | k :: ks =>
                     match calc_coefficients x (c * k) acc None with
                     | Ok (Some acc') => loop r ks acc'
                     | Ok None => Ok None
                     | Err => Err
                     | Panic => Panic
                     end
                 end
             end).
    destruct l as [|g0 l0]; [cbn; now rewrite app_nil_r|].
    set (l := g0 :: l0) in *.
    set (pts := and_points (length l)).
    assert (E : map (fun i => lprod i pts 0) pts =
                map (fun j => lprod (# j) pts 0) (seq 1 (length l))).
    { unfold pts at 2. rewrite and_points_eq by (cbn; lia). apply map_map. }
    rewrite E. clear E. clearbody pts.
    assert (H : forall x acc, loop (map tree l) (map (fun j => lprod (# j) pts 0) (seq x (length l))) acc
      = Ok (Some (acc ++ gco_and c pts l x))).
    { clearbody l. clear acc. induction IH as [|g l H _ IHl]; intros x acc.
      - cbn. now rewrite app_nil_r.
      - cbn [map length seq]. cbn [loop]. rewrite H, IHl. cbn [gco_and].
        now rewrite app_assoc. }
    apply H.
  - cbn [tree calc_coefficients]. rewrite recover_coefficients_eq. cbn [obind map].
    assert (E : lprod (1 : F) [1] 0 = 1) by (cbn; now rewrite (feqb_refl L)).
    rewrite E. cbn [gco]. replace (c * 1) with c by ring.
    clear E. revert acc. induction IH as [|g l H _ IHl]; intros acc.
    + cbn. now rewrite app_nil_r.
    + cbn [map flat_map]. rewrite H. rewrite IHl. now rewrite app_assoc.
Qed.

(** ** Alignment with the leaves *)

Lemma gsh_idents f : forall s t i, map fst (gsh f s t i) = idents f.
Proof.
  unfold idents. induction f as [n p|l IH|l IH] using formula_ind'; intros s t i.
  - reflexivity.
  - rewrite gsh_FAnd. cbn [leaves].
    generalize (s :: map t (seq i (length l - 1))). intros a.
    generalize (i + (length l - 1))%nat. generalize 1%nat.
    induction IH as [|g l H _ IHl]; intros x j; [reflexivity|].
    cbn [gsh_and flat_map]. rewrite !map_app, H. f_equal. apply IHl.
  - rewrite gsh_FOr. cbn [leaves]. revert i.
    induction IH as [|g l H _ IHl]; intros j; [reflexivity|].
    cbn [gsh_or flat_map]. rewrite !map_app, H. f_equal. apply IHl.
Qed.

Lemma gco_idents f : forall c, map fst (gco f c) = idents f.
Proof.
  unfold idents. induction f as [n p|l IH|l IH] using formula_ind'; intros c.
  - reflexivity.
  - rewrite gco_FAnd. cbn [leaves].
    generalize (and_points (C := C) (length l)). intros a. generalize 1%nat.
    induction IH as [|g l H _ IHl]; intros x; [reflexivity|].
    cbn [gco_and flat_map]. rewrite !map_app, H. f_equal. apply IHl.
  - cbn [gco leaves]. 
    induction IH as [|g l H _ IHl]; [reflexivity|].
    cbn [flat_map]. rewrite !map_app, H. f_equal. apply IHl.
Qed.

Lemma gsh_length f s t i : length (gsh f s t i) = length (leaves f).
Proof. rewrite <- (map_length fst), gsh_idents. unfold idents. apply map_length. Qed.

Lemma gco_length f c : length (gco f c) = length (leaves f).
Proof. rewrite <- (map_length fst), gco_idents. unfold idents. apply map_length. Qed.

(** ** Reconstruction *)

(** Sum of coefficient times share over the selected leaves. *)
Definition wsum (m : list bool) (co sh : list (string * F)) : F :=
  fsum (map (fun x => snd (fst x) * snd (snd x)) (sel m (combine co sh))).

Lemma combine_app {A B} (a1 a2 : list A) (b1 b2 : list B) : length a1 = length b1 ->
  combine (a1 ++ a2) (b1 ++ b2) = combine a1 b1 ++ combine a2 b2.
Proof.
  revert b1. induction a1 as [|x a1 IH]; intros [|y b1] H; try discriminate; [reflexivity|].
  cbn. f_equal. apply IH. now injection H.
Qed.

Lemma wsum_app m1 m2 c1 c2 s1 s2 :
  length m1 = length c1 -> length c1 = length s1 ->
  wsum (m1 ++ m2) (c1 ++ c2) (s1 ++ s2) = wsum m1 c1 s1 + wsum m2 c2 s2.
Proof.
  intros H1 H2. unfold wsum. rewrite combine_app by exact H2.
  rewrite sel_app by (rewrite combine_length; lia).
  rewrite map_app. apply (fsum_app L).
Qed.

Lemma wsum_nomask {A} (l : list A) c s : wsum (nomask l) c s = 0.
Proof. unfold wsum. now rewrite sel_nomask. Qed.

Lemma reconstruct f : forall own c s t i n,
  arity2 f = true -> and_width f <= n -> small_ok C n -> sat own f = true ->
  wsum (pmask own f) (gco f c) (gsh f s t i) = c * s.
Proof.
  intros own c s t i n A W SO. revert c s t i.
  induction f as [nm p|l IH|l IH] using formula_ind'; intros c s t i S.
  - cbn in S. cbn. rewrite S. cbn. ring.
  - cbn [arity2] in A. apply andb_prop in A as [A1 A2]. apply Nat.leb_le in A1.
    apply and_width_FAnd in W as [W1 W2].
    rewrite gsh_FAnd, gco_FAnd. cbn [pmask sat] in *.
    set (a := s :: map t (seq i (length l - 1))).
    set (pts := and_points (length l)).
    assert (H : forall l', incl l' l -> forall x j,
      wsum (flat_map (pmask own) l') (gco_and c pts l' x) (gsh_and a t l' x j) =
      c * fsum (map (fun y => ev a (# y) * lprod (# y) pts 0) (seq x (length l')))).
    { rewrite forallb_forall in A2, S. rewrite Forall_forall in IH, W2.
      induction l' as [|g l' IHl']; intros Hi x j.
      - cbn. unfold wsum. cbn. ring.
      - cbn [flat_map gco_and gsh_and length seq map fsum].
        assert (Ig : In g l) by (apply Hi; now left).
        rewrite wsum_app by (rewrite ?pmask_length, ?gco_length, ?gsh_length; reflexivity).
        rewrite IH; auto. rewrite IHl' by (intros y Hy; apply Hi; now right). ring. }
    rewrite H by apply incl_refl.
    assert (E : fsum (map (fun y => ev a (# y) * lprod (# y) pts 0) (seq 1 (length l))) = ev a 0).
    { rewrite <- (lagrange_interp L pts (ev a) 0).
      - unfold pts at 3. rewrite and_points_eq by lia. now rewrite map_map.
      - unfold pts. rewrite and_points_eq by lia.
        assert (ND : forall k x, (x + k <= n + 1)%nat -> NoDup (map (fun j => # j) (seq x k))).
        { induction k as [|k IHk]; intros x Hx; cbn; constructor.
          - rewrite in_map_iff. intros (y & E & Hy). apply in_seq in Hy.
            apply (usize_to_fr_inj L n) in E; auto; lia.
          - apply IHk. lia. }
        apply ND. lia.
      - exists a. split; [|reflexivity]. unfold pts, a. rewrite and_points_eq by lia.
        cbn [length]. rewrite !map_length, !seq_length. lia. }
    rewrite E. unfold a. cbn. ring.
  - cbn [arity2] in A. apply andb_prop in A as [_ A2].
    apply and_width_FOr in W. rewrite gsh_FOr.
    change (pmask own (FOr l)) with (pmask_or own l). cbn [gco sat] in *.
    revert i. induction IH as [|g l H _ IHl]; intros i; [discriminate|].
    cbn [forallb] in A2. apply andb_prop in A2 as [Ag Al].
    inversion W as [|? ? Wg Wl]; subst.
    cbn [existsb] in S. cbn [pmask_or flat_map gsh_or].
    destruct (sat own g) eqn:Sg.
    + rewrite wsum_app by (rewrite ?pmask_length, ?gco_length, ?gsh_length; reflexivity).
      rewrite wsum_nomask, H by auto. ring.
    + cbn [orb] in S.
      rewrite wsum_app by (unfold nomask; rewrite ?map_length, ?gco_length, ?gsh_length; reflexivity).
      rewrite wsum_nomask, IHl by auto. ring.
Qed.

(** ** Lookup by identifier *)

Lemma assoc_sel {A} (K : list string) : forall (V : list A) m, NoDup K ->
  length K = length V ->
  map (fun k => assoc k (combine K V)) (sel m K) = map Some (sel m V).
Proof.
  induction K as [|k K IH]; intros [|v V] m ND H; try discriminate.
  - now destruct m.
  - inversion ND as [|? ? Nin ND']; subst. injection H as H.
    assert (T : forall m, map (fun k0 => assoc k0 (combine (k :: K) (v :: V))) (sel m K) = map Some (sel m V)).
    { intros m'. rewrite <- (IH V m' ND' H). apply map_ext_in. intros x Hx. cbn.
      destruct (seqb k x) eqn:E; [|reflexivity]. apply seqb_eq in E. subst x.
      apply sel_incl in Hx. contradiction. }
    destruct m as [|[] m]; cbn [sel]; [reflexivity| |apply T].
    cbn [map]. rewrite T. f_equal. cbn. now rewrite seqb_refl.
Qed.

Lemma combine_fst_snd {A B} (l : list (A * B)) : combine (map fst l) (map snd l) = l.
Proof. induction l as [|[a b] l IH]; cbn; congruence. Qed.

(** Value of an optional scalar, 0 if missing. *)
Definition oval (o : option F) : F := match o with Some x => x | None => 0 end.

Lemma wsum_lookup m co sh (K : list string) : map fst co = K -> map fst sh = K -> NoDup K ->
  fsum (map (fun j => oval (assoc j co) * oval (assoc j sh)) (sel m K)) = wsum m co sh.
Proof.
  intros Hc Hs ND. unfold wsum.
  assert (E1 := assoc_sel (map fst co) (map snd co) m).
  assert (E2 := assoc_sel (map fst sh) (map snd sh) m).
  rewrite combine_fst_snd, !map_length, Hc in E1.
  rewrite combine_fst_snd, !map_length, Hs in E2.
  specialize (E1 ND eq_refl). specialize (E2 ND eq_refl).
  assert (Lc : length co = length K) by (rewrite <- Hc; now rewrite map_length).
  assert (Ls : length sh = length K) by (rewrite <- Hs; now rewrite map_length).
  clear Hc Hs ND.
  assert (E3 : map (fun j => oval (assoc j co)) (sel m K) = sel m (map snd co)).
  { transitivity (map oval (map (fun j => assoc j co) (sel m K))); [now rewrite map_map|].
    rewrite E1, map_map. cbn. apply map_id. }
  assert (E4 : map (fun j => oval (assoc j sh)) (sel m K) = sel m (map snd sh)).
  { transitivity (map oval (map (fun j => assoc j sh) (sel m K))); [now rewrite map_map|].
    rewrite E2, map_map. cbn. apply map_id. }
  transitivity (fsum (map (fun x => fst x * snd x) (combine (sel m (map snd co)) (sel m (map snd sh))))).
  - rewrite <- E3, <- E4. clear. f_equal. induction (sel m K); cbn; congruence.
  - f_equal. clear - Lc Ls. assert (H : length co = length sh) by congruence. clear Lc Ls.
    revert co sh H. induction m as [|b m IH]; intros [|x co] [|y sh] H; try discriminate; cbn; auto.
    injection H as H. destruct b; cbn; [f_equal|]; now apply IH.
Qed.

(** ** Secrecy *)

Lemma gsh_ext f : forall s t t' i,
  (forall k, i <= k < i + nd f -> t k = t' k) -> gsh f s t i = gsh f s t' i.
Proof.
  induction f as [n p|l IH|l IH] using formula_ind'; intros s t t' i E.
  - reflexivity.
  - rewrite !gsh_FAnd. cbn [nd] in E.
    replace (map t' (seq i (length l - 1))) with (map t (seq i (length l - 1))).
    2:{ apply map_ext_in. intros k Hk. apply in_seq in Hk. apply E. lia. }
    generalize (s :: map t (seq i (length l - 1))). intros a.
    assert (E' : forall k, i + (length l - 1) <= k < i + (length l - 1) + list_sum (map nd l) -> t k = t' k)
      by (intros; apply E; lia).
    revert E'. generalize (i + (length l - 1))%nat. generalize 1%nat. clear E i s.
    induction IH as [|g l H _ IHl]; intros x i E; [reflexivity|].
    cbn [gsh_and]. cbn [map] in E. rewrite lsum_cons in E. f_equal.
    + apply H. intros k Hk. apply E. lia.
    + apply IHl. intros k Hk. apply E. lia.
  - rewrite !gsh_FOr. cbn [nd] in E. revert i E.
    induction IH as [|g l H _ IHl]; intros i E; [reflexivity|].
    cbn [gsh_or]. cbn [map] in E. rewrite lsum_cons in E. f_equal.
    + apply H. intros k Hk. apply E. lia.
    + apply IHl. intros k Hk. apply E. lia.
Qed.

(** Linearity of sharing in (secret, tape). *)
Lemma ev_lin (a : list F) : forall b d x, length a = length b ->
  ev (map (fun p => fst p + d * snd p) (combine a b)) x = ev a x + d * ev b x.
Proof.
  induction a as [|u a IH]; intros [|v b] d x H; try discriminate; cbn; [ring|].
  injection H as H. rewrite (IH b d x H). ring.
Qed.

Definition ladd2 (d : F) (a b : list F) : list F :=
  map (fun p => fst p + d * snd p) (combine a b).

Lemma ladd2_app d a1 a2 b1 b2 : length a1 = length b1 ->
  ladd2 d (a1 ++ a2) (b1 ++ b2) = ladd2 d a1 b1 ++ ladd2 d a2 b2.
Proof. intros H. unfold ladd2. rewrite combine_app by exact H. apply map_app. Qed.

Lemma gsh_linear f : forall s s' d t t' i,
  map snd (gsh f (s + d * s') (fun k => t k + d * t' k) i) =
  ladd2 d (map snd (gsh f s t i)) (map snd (gsh f s' t' i)).
Proof.
  induction f as [n p|l IH|l IH] using formula_ind'; intros s s' d t t' i.
  - reflexivity.
  - rewrite !gsh_FAnd.
    set (a := s :: map t (seq i (length l - 1))).
    set (b := s' :: map t' (seq i (length l - 1))).
    set (c := s + d * s' :: map (fun k => t k + d * t' k) (seq i (length l - 1))).
    assert (E : forall x, ev c x = ev a x + d * ev b x).
    { intros x. rewrite <- ev_lin by (unfold a, b; cbn; now rewrite !map_length).
      f_equal. unfold a, b, c. cbn. f_equal. clear.
      induction (seq i (length l - 1)); cbn; congruence. }
    clearbody a b c. generalize (i + (length l - 1))%nat. generalize 1%nat.
    induction IH as [|g l H _ IHl]; intros x j; [reflexivity|].
    cbn [gsh_and]. rewrite !map_app, E, H, IHl.
    now rewrite ladd2_app by (rewrite !map_length, !gsh_length; reflexivity).
  - rewrite !gsh_FOr. revert i.
    induction IH as [|g l H _ IHl]; intros i; [reflexivity|].
    cbn [gsh_or]. rewrite !map_app, H, IHl.
    now rewrite ladd2_app by (rewrite !map_length, !gsh_length; reflexivity).
Qed.

Lemma gsh_zero f : forall t i, (forall k, i <= k < i + nd f -> t k = 0) ->
  Forall (fun x => snd x = 0) (gsh f 0 t i).
Proof.
  induction f as [n p|l IH|l IH] using formula_ind'; intros t i Z.
  - repeat constructor.
  - rewrite gsh_FAnd. cbn [nd] in Z.
    set (a := 0 :: map t (seq i (length l - 1))).
    assert (Ea : forall x, ev a x = 0).
    { intros x. unfold a. cbn.
      replace (map t (seq i (length l - 1))) with (repeat (0 : F) (length l - 1)).
      - rewrite (ev_zeros L). ring.
      - clear - Z. assert (H : forall k, i <= k < i + (length l - 1) -> t k = 0) by (intros; apply Z; lia).
        clear Z. revert i H. induction (length l - 1)%nat as [|m IHm]; intros i H; [reflexivity|].
        cbn. rewrite H by lia. f_equal. apply IHm. intros. apply H. lia. }
    clearbody a.
    assert (Z' : forall k, i + (length l - 1) <= k < i + (length l - 1) + list_sum (map nd l) -> t k = 0)
      by (intros; apply Z; lia).
    revert Z'. generalize (i + (length l - 1))%nat. generalize 1%nat. clear Z i.
    induction IH as [|g l H _ IHl]; intros x i Z; [constructor|].
    cbn [gsh_and]. cbn [map] in Z. rewrite lsum_cons in Z. apply Forall_app. split.
    + rewrite Ea. apply H. intros. apply Z. lia.
    + apply IHl. intros. apply Z. lia.
  - rewrite gsh_FOr. cbn [nd] in Z. revert i Z.
    induction IH as [|g l H _ IHl]; intros i Z; [constructor|].
    cbn [gsh_or]. cbn [map] in Z. rewrite lsum_cons in Z. apply Forall_app. split.
    + apply H. intros. apply Z. lia.
    + apply IHl. intros. apply Z. lia.
Qed.

(** A share list is blind to an owner if it is zero at the owner's leaves. *)
Definition blind (own : string -> bool) (lv : list (string * nat)) (sh : list (string * F)) : Prop :=
  Forall2 (fun a b => own (fst a) = true -> snd b = 0) lv sh.

Lemma blind_zero own lv sh : length lv = length sh ->
  Forall (fun x : string * F => snd x = 0) sh -> blind own lv sh.
Proof.
  intros H Z. revert lv H. induction Z as [|x sh Zx _ IH]; intros [|y lv] H; try discriminate; constructor; auto.
  apply IH. now injection H.
Qed.

(** Coefficients of a polynomial that is [c] at 0 and 0 at given non-zero points. *)
Lemma vanishing_poly c (pts : list F) : (forall x, In x pts -> x <> 0) ->
  exists a, length a = length pts /\ (forall x, In x pts -> ev (c :: a) x = 0).
Proof.
  intros NZ.
  assert (P : polyn (S (length pts)) (fun x => c * lprod 0 pts x)).
  { apply (polyn_scale L). eapply (polyn_mono L); [|apply (lprod_polyn L)].
    apply le_n_S. clear. induction pts; cbn; [lia|]. destruct (feqb C 0 a); cbn; lia. }
  destruct P as (l & Hl & E). destruct l as [|a0 a]; [discriminate|].
  assert (E0 : a0 = c).
  { specialize (E 0). rewrite (lprod_self L) in E. cbn in E.
    transitivity (a0 + 0 * ev a 0); [ring|]. rewrite <- E. ring. }
  exists a. split; [cbn in Hl; lia|].
  intros x Hx. rewrite <- E0, <- E. rewrite (lprod_other L) by auto. ring.
Qed.

Lemma In_split_first {A} (p : A -> bool) l : forallb p l = false ->
  exists l1 x l2, l = l1 ++ x :: l2 /\ p x = false.
Proof.
  induction l as [|a l IH]; cbn; [discriminate|].
  destruct (p a) eqn:E.
  - cbn. intros H. destruct (IH H) as (l1 & x & l2 & -> & Hx).
    exists (a :: l1), x, l2. auto.
  - intros _. exists [], a, l. auto.
Qed.

Lemma gsh_and_app a t l1 : forall l2 x i,
  gsh_and a t (l1 ++ l2) x i =
  gsh_and a t l1 x i ++ gsh_and a t l2 (x + length l1) (i + list_sum (map nd l1)).
Proof.
  induction l1 as [|g l1 IH]; intros l2 x i; cbn [app gsh_and map length].
  - cbn. now rewrite !Nat.add_0_r.
  - rewrite lsum_cons. rewrite IH, <- app_assoc. do 3 f_equal; lia.
Qed.

Lemma gsh_and_zero a t l : forall x i,
  (forall y, x <= y < x + length l -> ev a (# y) = 0) ->
  (forall k, i <= k < i + list_sum (map nd l) -> t k = 0) ->
  Forall (fun x => snd x = 0) (gsh_and a t l x i).
Proof.
  induction l as [|g l IH]; intros x i E Z; [constructor|].
  cbn [gsh_and]. cbn [map length] in E, Z. rewrite lsum_cons in Z. apply Forall_app. split.
  - rewrite E by lia. apply gsh_zero. intros. apply Z. lia.
  - apply IH; intros; [apply E|apply Z]; lia.
Qed.

Lemma gsh_and_length a t l : forall x i, length (gsh_and a t l x i) = length (flat_map leaves l).
Proof.
  induction l as [|g l IH]; intros x i; [reflexivity|].
  cbn [gsh_and flat_map]. now rewrite !app_length, gsh_length, IH.
Qed.

Lemma secret_direction own f n : forall c i,
  and_width f <= n -> small_ok C n -> sat own f = false ->
  exists d, (forall k, ~ (i <= k < i + nd f) -> d k = 0) /\
            blind own (leaves f) (gsh f c d i).
Proof.
  intros c i W SO. revert c i.
  induction f as [nm p|l IH|l IH] using formula_ind'; intros c i Sat.
  - exists (fun _ => 0). split; [reflexivity|]. cbn in *. constructor; [|constructor].
    cbn. congruence.
  - cbn [sat] in Sat. destruct (In_split_first _ _ Sat) as (l1 & g & l2 & -> & Sg).
    apply and_width_FAnd in W as [W1 W2].
    apply Forall_app in IH as [_ IH]. inversion IH as [|? ? IHg _]; subst.
    apply Forall_app in W2 as [_ W2]. inversion W2 as [|? ? Wg _]; subst.
    clear IH W2. set (l := l1 ++ g :: l2) in *.
    assert (Ll : length l = (length l1 + S (length l2))%nat)
      by (unfold l; rewrite app_length; reflexivity).
    set (m := S (length l1)).
    set (pts := map (fun j => # j) (seq 1 (length l1) ++ seq (S m) (length l2))).
    destruct (vanishing_poly c pts) as (a & La & Ea).
    { intros x Hx. unfold pts in Hx. apply in_map_iff in Hx as (y & <- & Hy).
      apply in_app_or in Hy. rewrite !in_seq in Hy. apply SO. unfold m in Hy. lia. }
    assert (La' : length a = (length l - 1)%nat).
    { rewrite La. unfold pts. rewrite map_length, app_length, !seq_length. lia. }
    set (j := (i + (length l - 1) + list_sum (map nd l1))%nat).
    destruct (IHg Wg (ev (c :: a) (# m)) j Sg) as (dg & Zg & Bg).
    exists (fun k => if (i <=? k) && (k <? i + (length l - 1)) then nth (k - i) a 0 else dg k).
    assert (Sum : list_sum (map nd l) = (list_sum (map nd l1) + (nd g + list_sum (map nd l2)))%nat).
    { unfold l. now rewrite map_app, list_sum_app. }
    split.
    + intros k Hk. cbn [nd] in Hk.
      destruct ((i <=? k) && (k <? i + (length l - 1))) eqn:E.
      * apply andb_prop in E as [E1 E2]. apply Nat.leb_le in E1. apply Nat.ltb_lt in E2. lia.
      * apply Zg. unfold j. lia.
    + rewrite gsh_FAnd.
      set (d := fun k => if (i <=? k) && (k <? i + (length l - 1)) then nth (k - i) a 0 else dg k).
      assert (Ed : map d (seq i (length l - 1)) = a).
      { rewrite <- La'. clear - La' L.
        assert (H : forall k, k < length a -> d (i + k)%nat = nth k a 0).
        { intros k Hk. unfold d.
          destruct ((i <=? i + k) && (i + k <? i + (length l - 1))) eqn:E.
          - f_equal. lia.
          - exfalso. apply andb_false_iff in E as [E|E].
            + apply Nat.leb_gt in E. lia. + apply Nat.ltb_ge in E. lia. }
        clearbody d. clear La'. revert i H. induction a as [|u a IHa]; intros i H; [reflexivity|].
        cbn. f_equal.
        - specialize (H 0%nat). cbn in H. rewrite Nat.add_0_r in H. apply H. lia.
        - apply IHa. intros k Hk. replace (S i + k)%nat with (i + S k)%nat by lia.
          rewrite H by (cbn; lia). reflexivity. }
      rewrite Ed.
      assert (Dg : forall k, i + (length l - 1) <= k -> d k = dg k).
      { intros k Hk. unfold d. destruct ((i <=? k) && (k <? i + (length l - 1))) eqn:E; [|reflexivity].
        apply andb_prop in E as [_ E]. apply Nat.ltb_lt in E. lia. }
      unfold l at 1 2. cbn [leaves]. rewrite flat_map_app. cbn [flat_map].
      rewrite gsh_and_app. cbn [gsh_and].
      replace (1 + length l1)%nat with m by reflexivity.
      fold j. apply Forall2_app; [|apply Forall2_app].
      * apply blind_zero; [now rewrite gsh_and_length|].
        apply gsh_and_zero.
        -- intros y Hy. apply Ea. unfold pts. apply in_map_iff. exists y. split; [reflexivity|].
           apply in_or_app. left. apply in_seq. lia.
        -- intros k Hk. rewrite Dg by lia. apply Zg. unfold j. lia.
      * assert (X : gsh g (ev (c :: a) # m) d j = gsh g (ev (c :: a) # m) dg j).
        { apply gsh_ext. intros k Hk. apply Dg. unfold j in Hk. lia. }
        rewrite X. exact Bg.
      * apply blind_zero; [now rewrite gsh_and_length|].
        apply gsh_and_zero.
        -- intros y Hy. apply Ea. unfold pts. apply in_map_iff. exists y. split; [reflexivity|].
           apply in_or_app. right. apply in_seq. lia.
        -- intros k Hk. rewrite Dg by (unfold j in Hk; lia). apply Zg. lia.
  - cbn [sat] in Sat. apply and_width_FOr in W. cbn [leaves nd]. setoid_rewrite gsh_FOr.
    revert i. induction IH as [|g l H _ IHl]; intros i.
    + exists (fun _ => 0). split; [reflexivity|constructor].
    + inversion W as [|? ? Wg Wl]; subst. cbn [existsb] in Sat.
      apply orb_false_elim in Sat as [Sg Sl].
      destruct (H Wg c i Sg) as (dg & Zg & Bg).
      destruct (IHl Wl Sl (i + nd g)%nat) as (dl & Zl & Bl).
      exists (fun k => if (k <? i + nd g) then dg k else dl k). split.
      * cbn [map]. rewrite lsum_cons. intros k Hk. destruct (k <? i + nd g) eqn:E.
        -- apply Nat.ltb_lt in E. apply Zg. lia.
        -- apply Nat.ltb_ge in E. apply Zl. lia.
      * cbn [flat_map gsh_or]. apply Forall2_app.
        -- assert (X : gsh g c (fun k => if k <? i + nd g then dg k else dl k) i = gsh g c dg i).
           { apply gsh_ext. intros k Hk. destruct (k <? i + nd g) eqn:E; [reflexivity|].
             apply Nat.ltb_ge in E. lia. }
           rewrite X. exact Bg.
        -- assert (X : gsh_or c (fun k => if k <? i + nd g then dg k else dl k) l (i + nd g) =
                       gsh_or c dl l (i + nd g)).
           { rewrite <- !gsh_FOr. apply gsh_ext. intros k Hk.
             destruct (k <? i + nd g) eqn:E; [|reflexivity]. apply Nat.ltb_lt in E. lia. }
           rewrite X. exact Bl.
Qed.

End SharingProofs.
