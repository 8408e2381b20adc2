(** * Policy checks, sharing and span programs: statements about the code's own functions *)
From Coq Require Import String List Bool Arith Lia ZArith Permutation Sorted Field.
From Verif Require Import Base Crypto Policy Tools Sharing Spec PolicyProofs Poly
  SharingProofs Msp MspProofs SchemeLib.
Import ListNotations.

(** ** The access check *)

Lemma access_exact attrs f t :
  traverse_policy attrs (tree f) t = true <-> attrs <> [] /\ sat (owns attrs) f = true.
Proof.
  rewrite traverse_tree. destruct attrs as [|a attrs]; cbn [length Nat.ltb Nat.leb andb].
  - split; [discriminate|intros [H _]; congruence].
  - split; [intros H; split; [discriminate|exact H]|intros [_ H]; exact H].
Qed.

Lemma access_mono attrs attrs' f t t' : incl attrs attrs' ->
  traverse_policy attrs (tree f) t = true -> traverse_policy attrs' (tree f) t' = true.
Proof.
  intros I H. apply access_exact in H as [N S]. apply access_exact. split.
  - intros ->. destruct attrs as [|a attrs]; [congruence|]. destruct (I a). now left.
  - eapply sat_mono; [|exact S]. apply owns_incl. exact I.
Qed.

(** ** Pruning *)

(** Whatever the arity, pruning never returns an error, and when it returns a
    result that result is the truth value and the selected leaves. *)
Lemma calc_pruned_total attrs f : forall t,
  calc_pruned attrs (tree f) t = Panic \/
  calc_pruned attrs (tree f) t =
  Ok (sat (owns attrs) f,
      if sat (owns attrs) f
      then map leaf_pair (sel (pmask (owns attrs) f) (leaves f)) else []).
Proof.
  induction f as [n p|l IH|l IH] using formula_ind'; intros t.
  - right. now apply calc_pruned_tree.
  - cbn [tree calc_pruned]. rewrite map_length.
    destruct (2 <=? length l); [|now left].
    set (loop := fix loop (l : list pvalue) (m : bool) (acc : list (string * string)) {struct l} :=
                     match l with
                     | [] => Ok (m, acc)
                     | c :: r =>
                         obind (unwrap_res (calc_pruned attrs c None)) (fun fl =>
                         let m' := m && fst fl in
                         loop r m' (if m' then acc ++ snd fl else acc))
                     end).
    assert (H : forall m acc, loop (map tree l) m acc = Panic \/ exists acc',
      loop (map tree l) m acc = Ok (m && forallb (sat (owns attrs)) l, acc') /\
      (m && forallb (sat (owns attrs)) l = true ->
       acc' = acc ++ map leaf_pair (sel (flat_map (pmask (owns attrs)) l) (flat_map leaves l)))).
    { induction IH as [|c l H _ IHl]; intros m acc.
      - right. exists acc. cbn. split; [now rewrite andb_true_r|]. intros _. now rewrite app_nil_r.
      - cbn [map forallb flat_map]. cbn [loop].
        destruct (H None) as [->| ->]; cbn [unwrap_res obind fst snd]; [now left|].
        destruct (IHl (m && sat (owns attrs) c)
          (if m && sat (owns attrs) c
           then acc ++ (if sat (owns attrs) c then map leaf_pair (sel (pmask (owns attrs) c) (leaves c)) else [])
           else acc)) as [P|(acc' & E & V)]; [now left|].
        right. exists acc'. rewrite andb_assoc. split; [exact E|].
        intros T. rewrite V by exact T. apply andb_prop in T as [T _].
        rewrite T. apply andb_prop in T as [_ T]. rewrite T.
        rewrite sel_app by apply pmask_length. now rewrite map_app, app_assoc. }
    destruct (H true []) as [->|(acc' & E & V)]; [now left|].
    right. rewrite E. cbn [andb sat].
    cbn [andb] in V. f_equal. f_equal.
    destruct (forallb (sat (owns attrs)) l) eqn:S; [|reflexivity].
    now rewrite V.
  - cbn [tree calc_pruned]. rewrite map_length.
    destruct (2 <=? length l); [|now left].
    change (pmask (owns attrs) (FOr l)) with (pmask_or (owns attrs) l).
    cbn [sat leaves].
    induction IH as [|c l H _ IHl]; [now right|].
    cbn [map existsb flat_map pmask_or].
    destruct (H None) as [->| ->]; cbn [unwrap_res obind fst snd]; [now left|].
    destruct (sat (owns attrs) c) eqn:S.
    + right. cbn [orb]. rewrite sel_app by apply pmask_length.
      now rewrite sel_nomask, app_nil_r.
    + cbn [orb]. destruct IHl as [->| ->]; [now left|right].
      rewrite sel_app by (unfold nomask; now rewrite map_length).
      now rewrite sel_nomask.
Qed.

Lemma prune_agrees attrs f t : arity2 f = true ->
  exists l, calc_pruned attrs (tree f) t = Ok (sat (owns attrs) f, l).
Proof. intros A. eexists. now apply calc_pruned_tree. Qed.

(** [l] is [m] with some entries left out. *)
Inductive sublist {A} : list A -> list A -> Prop :=
| sub_nil : sublist [] []
| sub_keep x l m : sublist l m -> sublist (x :: l) (x :: m)
| sub_drop x l m : sublist l m -> sublist l (x :: m).

Lemma sel_sublist {A} (m : list bool) : forall l : list A, sublist (sel m l) l.
Proof.
  induction m as [|b m IH]; intros l.
  - cbn. induction l; constructor; auto.
  - destruct l as [|x l]; cbn; [constructor|]. destruct b; constructor; apply IH.
Qed.

Lemma sublist_NoDup {A} (l m : list A) : sublist l m -> NoDup m -> NoDup l.
Proof.
  induction 1 as [|x l m S IH|x l m S IH]; intros N; inversion N as [|? ? Nx Nm]; subst; auto.
  constructor; auto. intros I. apply Nx. clear - S I. revert I.
  induction S; cbn; intros; intuition auto.
Qed.

Lemma prune_selection attrs f t l :
  calc_pruned attrs (tree f) t = Ok (true, l) ->
  exists sel, l = map (fun x => (fst x, node_index (fst x) (snd x))) sel /\
    sublist sel (leaves f) /\
    (forall x, In x sel -> In (fst x) attrs) /\
    sat (fun n => smem n (map fst sel)) f = true.
Proof.
  intros H. destruct (calc_pruned_total attrs f t) as [E|E]; rewrite H in E; [discriminate|].
  injection E as E1 E2. rewrite <- E1 in E2. symmetry in E1.
  exists (sel (pmask (owns attrs) f) (leaves f)). repeat split.
  - exact E2.
  - apply sel_sublist.
  - intros [n p] I. apply pmask_owned in I. now apply smem_In.
  - apply pmask_sat. exact E1.
Qed.

Lemma prune_selection_distinct attrs f t l : NoDup (leaves f) ->
  calc_pruned attrs (tree f) t = Ok (true, l) -> NoDup (map snd l).
Proof.
  intros N H. destruct (prune_selection _ _ _ _ H) as (sel & -> & S & _).
  rewrite map_map. cbn. pose proof (sublist_NoDup _ _ S N) as N'. clear - N'.
  induction N' as [|[n p] l I N IH]; cbn; constructor; auto.
  intros J. apply in_map_iff in J as ([n' p'] & E & J). cbn in E.
  apply node_index_inj in E as [-> ->]. contradiction.
Qed.

(** A node with fewer than two children aborts pruning. *)
Lemma prune_short attrs l t : length l < 2 ->
  calc_pruned attrs (tree (FAnd l)) t = Panic /\ calc_pruned attrs (tree (FOr l)) t = Panic.
Proof.
  intros H. cbn [tree calc_pruned]. rewrite map_length.
  assert (E : (2 <=? length l) = false) by (apply Nat.leb_gt; lia).
  rewrite E. split; reflexivity.
Qed.

Section Core.
Context {C : crypto} (L : laws C).
Local Open Scope F_scope.
Add Field core_field : (f_theory L).
Notation F := (F C).

(** ** Sharing over a policy *)

Lemma share_leaves f (s : F) ty t i : exists sh j,
  gen_shares_policy s (tree f) ty t i = Ok (sh, j) /\
  map fst sh = map (fun x => node_index (fst x) (snd x)) (leaves f).
Proof.
  rewrite (gen_shares_policy_eq L). eexists _, _. split; [reflexivity|]. apply gsh_idents.
Qed.

Lemma coefficient_leaves f (c : F) ty : exists co,
  calc_coefficients (tree f) c [] ty = Ok (Some co) /\
  map fst co = map (fun x => node_index (fst x) (snd x)) (leaves f).
Proof.
  rewrite (calc_coefficients_eq L). eexists. split; [reflexivity|]. apply gco_idents.
Qed.

(** Value stored under an identifier; the first one, as [find] in the code. *)
Definition value_at (k : string) (l : list (string * F)) : F :=
  match find (fun x => seqb (fst x) k) l with Some x => snd x | None => 0 end.

Lemma value_at_assoc k l : value_at k l = oval (assoc k l).
Proof.
  unfold value_at. induction l as [|[x a] l IH]; cbn; [reflexivity|].
  destruct (seqb x k); [reflexivity|exact IH].
Qed.

Lemma share_reconstruct f attrs (s : F) t i sh j co sel :
  arity2 f = true -> NoDup (leaves f) -> small_ok C (and_width f) ->
  gen_shares_policy s (tree f) None t i = Ok (sh, j) ->
  calc_coefficients (tree f) 1 [] None = Ok (Some co) ->
  calc_pruned attrs (tree f) None = Ok (true, sel) ->
  fsum (map (fun x => value_at (snd x) co * value_at (snd x) sh) sel) = s.
Proof.
  intros A ND SO G Co P.
  rewrite (gen_shares_policy_eq L) in G. injection G as <- _.
  rewrite (calc_coefficients_eq L) in Co. injection Co as <-.
  rewrite calc_pruned_tree in P by exact A. injection P as P1 P2. rewrite P1 in P2. subst sel.
  rewrite map_map.
  transitivity (fsum (map (fun k => oval (assoc k (gco f 1)) * oval (assoc k (gsh f s t i)))
    (sel (pmask (owns attrs) f) (idents f)))).
  - unfold idents. rewrite sel_map, map_map. f_equal. apply map_ext. intros x.
    now rewrite !value_at_assoc.
  - rewrite (wsum_lookup _ _ _ (idents f)).
    + rewrite (reconstruct L f _ _ _ _ _ (and_width f)); auto. ring.
    + apply gco_idents.
    + apply gsh_idents.
    + now apply NoDup_idents.
Qed.

(** ** Threshold sharing *)

Definition share_at (shares : list F) (k : nat) : F := nth k shares 0.

Lemma nth_shares (g : nat -> F) n k : k <= n -> nth k (map g (seq 0 (n + 1))) 0 = g k.
Proof.
  intros H. rewrite (nth_indep _ 0 (g 0%nat)) by (rewrite map_length, seq_length; lia).
  rewrite map_nth, seq_nth by lia. reflexivity.
Qed.

Lemma usize_NoDup n idx : small_ok C n -> NoDup idx -> (forall k, In k idx -> k <= n) ->
  NoDup (map (fun k => usize_to_fr k : F) idx).
Proof.
  intros SO N. induction N as [|k idx I N IH]; intros B; cbn; constructor.
  - intros J. apply in_map_iff in J as (k' & E & J). apply (usize_to_fr_inj L n) in E; auto.
    + subst. contradiction. + apply B. now right. + apply B. now left.
  - apply IH. intros. apply B. now right.
Qed.

Lemma threshold_reconstruct (s : F) k n t i shares j idx cs :
  1 <= k -> k <= n -> small_ok C n -> NoDup idx -> length idx = k -> (forall m, In m idx -> m <= n) ->
  gen_shares s k n t i = Ok (shares, j) ->
  recover_coefficients (map usize_to_fr idx) = Ok cs ->
  fsum (map (fun x => fst x * share_at shares (snd x)) (combine cs idx)) = s.
Proof.
  intros K1 KN SO ND Len B G R.
  rewrite (gen_shares_eq L) in G by exact KN. injection G as <- _.
  rewrite (recover_coefficients_eq L) in R. injection R as <-.
  set (pts := map (fun k => usize_to_fr k : F) idx).
  set (a := s :: map t (seq i (k - 1))).
  transitivity (fsum (map (fun x => ev a x * lprod x pts 0) pts)).
  - change (map usize_to_fr idx) with pts.
    assert (Ep : forall u : F -> F, map u pts = map (fun k => u (usize_to_fr k)) idx)
      by (intros u; unfold pts; apply map_map).
    rewrite !Ep. f_equal.
    assert (E : forall l (w : F -> F), incl l idx ->
      map (fun x => fst x * share_at (map (fun j => ev a (usize_to_fr j)) (seq 0 (n + 1))) (snd x))
        (combine (map (fun x => w (usize_to_fr x)) l) l) =
      map (fun x => ev a (usize_to_fr x) * w (usize_to_fr x)) l).
    { induction l as [|x l IH]; intros w I; cbn; [reflexivity|]. f_equal.
      - unfold share_at. rewrite nth_shares by (apply B, I; now left). ring.
      - apply IH. intros y Hy. apply I. now right. }
    apply (E idx (fun x => lprod x pts 0)). apply incl_refl.
  - rewrite (lagrange_interp L pts (ev a) 0).
    + unfold a. cbn. ring.
    + now apply (usize_NoDup n).
    + exists a. split; [|reflexivity]. unfold pts, a. cbn. rewrite !map_length, seq_length. lia.
Qed.

(** ** What shares reveal *)

(** [t] moved by [d]; adding a fixed tape is a bijection on tapes. *)
Definition shift (d t : nat -> F) : nat -> F := fun k => t k + d k.

Lemma shift_inverse d t k : shift (fun n => - d n) (shift d t) k = t k.
Proof. unfold shift. ring. Qed.

Lemma blind_nth own lv sh k x y : blind own lv sh ->
  nth_error lv k = Some x -> nth_error sh k = Some y -> own (fst x) = true -> snd y = (0 : F).
Proof.
  intros B. revert k. induction B as [|a b lv sh H _ IH]; intros [|k]; cbn; try discriminate.
  - intros E1 E2. injection E1 as <-. injection E2 as <-. exact H.
  - apply IH.
Qed.

Lemma ladd2_nth d (a b : list F) k : length a = length b ->
  nth k (ladd2 d a b) 0 = nth k a 0 + d * nth k b 0.
Proof.
  unfold ladd2. revert b k. induction a as [|x a IH]; intros [|y b] [|k] H; try discriminate; cbn; try ring.
  apply IH. now injection H.
Qed.

Lemma share_secrecy f attrs (s s' : F) ty i :
  small_ok C (and_width f) -> sat (owns attrs) f = false ->
  exists d n, (forall k, ~ (i <= k < i + n) -> d k = 0) /\
    forall t, exists sh sh',
      gen_shares_policy s (tree f) ty t i = Ok (sh, (i + n)%nat) /\
      gen_shares_policy s' (tree f) ty (shift d t) i = Ok (sh', (i + n)%nat) /\
      forall k nm p x x',
        nth_error (leaves f) k = Some (nm, p) -> In nm attrs ->
        nth_error sh k = Some x -> nth_error sh' k = Some x' -> x = x'.
Proof.
  intros SO Sat.
  destruct (secret_direction L (owns attrs) f (and_width f) (s' - s) i) as (d & Z & B); auto.
  exists d, (nd f). split; [exact Z|]. intros t.
  rewrite !(gen_shares_policy_eq L). eexists _, _. split; [reflexivity|]. split; [reflexivity|].
  intros k nm p [x1 x2] [y1 y2] E1 I E2 E3. f_equal.
  - assert (H : map fst (gsh f s t i) = map fst (gsh f s' (shift d t) i)) by now rewrite !gsh_idents.
    apply (f_equal (fun l => nth_error l k)) in H.
    rewrite !(nth_error_map fst k), E2, E3 in H. cbn in H. congruence.
  - assert (H := gsh_linear L f s (s' - s) 1 t d i).
    apply (f_equal (fun l => nth k l 0)) in H.
    rewrite ladd2_nth in H by (rewrite !map_length, !gsh_length; reflexivity).
    assert (Bk : nth k (map snd (gsh f (s' - s) d i)) 0 = 0).
    { destruct (nth_error (gsh f (s' - s) d i) k) as [z|] eqn:Ez.
      - rewrite (nth_error_nth _ _ _ (map_nth_error snd _ _ Ez)).
        eapply blind_nth; [exact B|exact E1|exact Ez|]. cbn. now apply smem_In.
      - apply nth_overflow. rewrite map_length. now apply nth_error_None. }
    rewrite Bk in H.
    assert (X : map snd (gsh f (s + 1 * (s' - s)) (fun k => t k + 1 * d k) i) =
                map snd (gsh f s' (shift d t) i)).
    { f_equal. replace (s + 1 * (s' - s)) with s' by ring. apply gsh_ext.
      intros m _. unfold shift. ring. }
    rewrite X in H.
    rewrite (nth_error_nth _ _ _ (map_nth_error snd _ _ E2)) in H.
    rewrite (nth_error_nth _ _ _ (map_nth_error snd _ _ E3)) in H. cbn in H.
    rewrite H. ring.
Qed.

Lemma threshold_secrecy (s s' : F) k n i idx :
  1 <= k -> k <= n -> small_ok C n -> NoDup idx -> length idx < k ->
  (forall m, In m idx -> 1 <= m <= n) ->
  exists d, (forall m, ~ (i <= m < i + (k - 1)) -> d m = 0) /\
    forall t, exists sh sh' j,
      gen_shares s k n t i = Ok (sh, j) /\
      gen_shares s' k n (shift d t) i = Ok (sh', j) /\
      forall m, In m idx -> share_at sh m = share_at sh' m.
Proof.
  intros K1 KN SO ND Len B.
  destruct (vanishing_poly L (s' - s) (map (fun m => usize_to_fr m : F) idx)) as (a & La & Ea).
  { intros x Hx. apply in_map_iff in Hx as (m & <- & Hm). apply SO. now apply B. }
  rewrite map_length in La.
  set (b := a ++ repeat 0 (k - 1 - length idx)).
  assert (Lb : length b = (k - 1)%nat) by (unfold b; rewrite app_length, repeat_length; lia).
  exists (fun m => if (i <=? m) && (m <? i + (k - 1)) then nth (m - i) b 0 else 0). split.
  - intros m Hm. destruct ((i <=? m) && (m <? i + (k - 1))) eqn:E; [|reflexivity].
    apply andb_prop in E as [E1 E2]. apply Nat.leb_le in E1. apply Nat.ltb_lt in E2. lia.
  - set (d := fun m => if (i <=? m) && (m <? i + (k - 1)) then nth (m - i) b 0 else 0).
    intros t. rewrite !(gen_shares_eq L) by exact KN.
    eexists _, _, _. split; [reflexivity|]. split; [reflexivity|].
    intros m Hm. unfold share_at. rewrite !nth_shares by (apply B; exact Hm).
    assert (Ed : map d (seq i (k - 1)) = b).
    { apply (nth_ext _ _ 0 0); [now rewrite map_length, seq_length|].
      intros q Hq. rewrite map_length, seq_length in Hq.
      rewrite (nth_indep _ 0 (d 0%nat)) by (rewrite map_length, seq_length; lia).
      rewrite map_nth, seq_nth by lia. unfold d.
      replace (i <=? i + q) with true by (symmetry; apply Nat.leb_le; lia).
      replace (i + q <? i + (k - 1)) with true by (symmetry; apply Nat.ltb_lt; lia).
      cbn [andb]. f_equal. lia. }
    assert (E : forall x, ev (s' :: map (shift d t) (seq i (k - 1))) x =
      ev (s :: map t (seq i (k - 1))) x + 1 * ev ((s' - s) :: map d (seq i (k - 1))) x).
    { intros x. rewrite <- (ev_lin L) by (cbn; now rewrite !map_length).
      f_equal. cbn. f_equal; [ring|]. unfold shift. clear - L.
      induction (seq i (k - 1)); cbn; f_equal; auto. ring. }
    rewrite E, Ed.
    assert (Z : ev ((s' - s) :: b) (usize_to_fr m) = 0).
    { unfold b. change ((s' - s) :: a ++ repeat 0 (k - 1 - length idx))
        with (((s' - s) :: a) ++ repeat 0 (k - 1 - length idx)).
      rewrite (ev_app_zeros L). apply Ea. apply in_map_iff. eauto. }
    rewrite Z. ring.
Qed.

(** ** The span program *)

(** Entry of a matrix row as a scalar. *)
Definition entry (r : list Z) (k : nat) : F := zf (C := C) (nth k r 0%Z).

(** Unit vector with a 1 in column [m]. *)
Definition unit_at (m : nat) : nat -> F := fun k => if k =? m then 1 else 0.

Lemma dot_from_unit r : forall k m, (k <= m)%nat -> dot_from k r (unit_at m) = entry r (m - k).
Proof.
  induction r as [|z r IH]; intros k m H; cbn [dot_from].
  - unfold entry. destruct (m - k)%nat; reflexivity.
  - unfold unit_at at 1. destruct (k =? m) eqn:E.
    + apply Nat.eqb_eq in E. subst. rewrite Nat.sub_diag. unfold entry. cbn [nth].
      assert (X : forall r k, (m < k)%nat -> dot_from k r (unit_at m) = 0).
      { clear - L. induction r as [|z r IH]; intros k H; cbn; [reflexivity|].
        rewrite IH by lia. unfold unit_at. destruct (k =? m) eqn:E; [apply Nat.eqb_eq in E; lia|]. ring. }
      rewrite X by lia. ring.
    + apply Nat.eqb_neq in E. rewrite IH by lia.
      replace (m - k)%nat with (S (m - S k)) by lia. unfold entry. cbn [nth]. ring.
Qed.

Lemma dot_unit r m : dot r (unit_at m) = entry r m.
Proof. unfold dot. rewrite dot_from_unit by lia. now rewrite Nat.sub_0_r. Qed.

(** Linear combination of rows, read off at column [k]. *)
Fixpoint lincomb (cs : list F) (rows : list (list Z)) (k : nat) : F :=
  match cs, rows with
  | c :: cs', r :: rows' => c * entry r k + lincomb cs' rows' k
  | _, _ => 0
  end.

(** The same against a vector. *)
Lemma dot_entries r (w : nat -> F) : forall k,
  dot_from k r w = fsum (map (fun j => entry r j * w (k + j)%nat) (seq 0 (length r))).
Proof.
  induction r as [|z r IH]; intros k; [reflexivity|].
  cbn [dot_from length seq map fsum]. unfold entry at 1. cbn [nth].
  rewrite Nat.add_0_r. f_equal. rewrite IH. rewrite <- seq_shift, map_map. f_equal.
  apply map_ext. intros j. unfold entry. cbn [nth]. do 2 f_equal. lia.
Qed.

Lemma lincomb_dot cs rows (w : nat -> F) n : Forall (fun r => length r = n) rows ->
  fsum (map (fun k => lincomb cs rows k * w k) (seq 0 n)) =
  fsum (map (fun x => fst x * dot (snd x) w) (combine cs rows)).
Proof.
  intros H. revert cs. induction H as [|r rows Hr _ IH]; intros [|c cs]; cbn [lincomb combine map fsum].
  - assert (X : forall l : list nat, fsum (map (fun k => 0 * w k) l) = 0)
      by (induction l as [|y l IHl]; cbn; [reflexivity|rewrite IHl; ring]).
    apply X.
  - assert (X : forall l : list nat, fsum (map (fun k => 0 * w k) l) = 0)
      by (induction l as [|y l IHl]; cbn; [reflexivity|rewrite IHl; ring]).
    apply X.
  - assert (X : forall l : list nat, fsum (map (fun k => 0 * w k) l) = 0)
      by (induction l as [|y l IHl]; cbn; [reflexivity|rewrite IHl; ring]).
    apply X.
  - rewrite <- IH. cbn [fst snd]. unfold dot. rewrite dot_entries, Hr.
    generalize (seq 0 n). clear - L. induction l as [|k l IHl]; cbn [map fsum]; [ring|].
    rewrite IHl. cbn. ring.
Qed.

Lemma msp_unsound_none f attrs m cs :
  calculate_msp (tree f) = Ok m -> sat (owns attrs) f = false ->
  length cs = length (msp_m m) ->
  (forall c nm, In (c, nm) (combine cs (msp_pi m)) -> ~ In nm attrs -> c = 0) ->
  ~ (forall k, k < msp_c m -> lincomb cs (msp_m m) k = if k =? 0 then 1 else 0).
Proof.
  intros M Sat Lc Own E.
  destruct (binary_and f) eqn:Bf; [|rewrite calculate_msp_bad in M by exact Bf; discriminate].
  rewrite calculate_msp_eq in M by exact Bf. injection M as <-. cbn [msp_m msp_pi msp_c] in *.
  set (rows := sort_rows (rev (msp_rows f))) in *.
  assert (P : Permutation (msp_rows f) rows) by now apply msp_rows_perm.
  destruct (lwr_sound L (owns attrs) f Bf [1%Z] 1 (fun _ => 1)) as (w & Aw & O); [cbn; lia|exact Sat|].
  assert (Ol : Forall (fun r => owns attrs (fst r) = true -> dot (snd r) w = 0) rows).
  { apply Forall_forall. intros r Hr Ho. apply Permutation_sym in P.
    apply (Permutation_in _ P) in Hr. unfold msp_rows in Hr.
    apply in_map_iff in Hr as (x & <- & Hx). cbn [fst snd] in *.
    rewrite (dot_resize L).
    - unfold orth in O. rewrite Forall_forall in O. now apply O.
    - assert (Len : Forall (fun r => length (snd r) <= snd (lwr f [1%Z] 1)) (fst (lwr f [1%Z] 1)))
        by (apply lwr_row_length; auto).
      rewrite Forall_forall in Len. now apply Len. }
  assert (W : Forall (fun r => length r = msp_width f) (map snd rows)).
  { apply Forall_forall. intros r Hr. apply in_map_iff in Hr as (x & <- & Hx).
    apply msp_rows_length. apply Permutation_sym in P. now apply (Permutation_in _ P). }
  assert (D := lincomb_dot cs (map snd rows) w (msp_width f) W).
  assert (Z : fsum (map (fun x => fst x * dot (snd x) w) (combine cs (map snd rows))) = 0).
  { clear - Own Ol Lc L. rewrite map_length in Lc. revert cs Lc Own.
    induction Ol as [|r rows Hr _ IH]; intros [|c cs] Lc Own; try discriminate; [reflexivity|].
    cbn [map combine fsum fst snd]. rewrite IH.
    - destruct (owns attrs (fst r)) eqn:Eo.
      + rewrite Hr by reflexivity. ring.
      + rewrite (Own c (fst r)).
        * ring. * now left. * intros I. apply smem_In in I. unfold owns in Eo. congruence.
    - now injection Lc.
    - intros c' nm I. apply Own. now right. }
  rewrite Z in D.
  assert (U : fsum (map (fun k => lincomb cs (map snd rows) k * w k) (seq 0 (msp_width f))) = w 0%nat).
  { pose proof (msp_width_pos f Bf) as Hp. destruct (msp_width f) as [|n] eqn:En; [lia|].
    cbn [seq map fsum]. rewrite (E 0%nat) by lia. cbn [Nat.eqb].
    assert (X : forall l : list nat, (forall k, In k l -> 0 < k < S n) ->
      fsum (map (fun k => lincomb cs (map snd rows) k * w k) l) = 0).
    { induction l as [|k l IHl]; intros Hl; cbn; [reflexivity|].
      rewrite IHl by (intros; apply Hl; now right).
      assert (Hk := Hl k (or_introl eq_refl)). rewrite (E k) by lia.
      destruct k; [lia|]. cbn [Nat.eqb]. ring. }
    rewrite X; [ring|]. intros k Hk. apply in_seq in Hk. lia. }
  rewrite U in D. rewrite (Aw 0%nat) in D by lia. now apply (f_one_neq_zero L).
Qed.

End Core.

(** ** Shape of the span program *)

Lemma msp_shape f m : calculate_msp (tree f) = Ok m ->
  length (msp_pi m) = length (msp_m m) /\
  Permutation (msp_pi m) (names f) /\
  Sorted (fun a b => String.leb a b = true) (msp_pi m) /\
  Forall (fun r => length r = msp_c m) (msp_m m) /\
  Forall (Forall (fun z => z = (-1)%Z \/ z = 0%Z \/ z = 1%Z)) (msp_m m).
Proof.
  intros M.
  destruct (binary_and f) eqn:Bf; [|rewrite calculate_msp_bad in M by exact Bf; discriminate].
  rewrite calculate_msp_eq in M by exact Bf. injection M as <-. cbn [msp_m msp_pi msp_c].
  assert (P : Permutation (msp_rows f) (sort_rows (rev (msp_rows f)))) by now apply msp_rows_perm.
  repeat split.
  - now rewrite !map_length.
  - rewrite <- (msp_rows_names f Bf). apply Permutation_map. now apply Permutation_sym.
  - clear P. assert (Hs := sort_rows_sorted (rev (msp_rows f))).
    induction Hs as [|r l Sl IH Hd]; cbn; constructor; auto.
    destruct Hd; cbn; constructor; auto.
  - apply Forall_forall. intros r Hr. apply in_map_iff in Hr as (x & <- & Hx).
    apply msp_rows_length. apply Permutation_sym in P. now apply (Permutation_in _ P).
  - apply Forall_forall. intros r Hr. apply in_map_iff in Hr as (x & <- & Hx).
    apply (msp_rows_small f x Bf). apply Permutation_sym in P. now apply (Permutation_in _ P).
Qed.

(** ** Satisfying sets span the target *)

Lemma sel_perm {A} (m : list bool) : forall l : list A, length m = length l ->
  Permutation l (sel m l ++ sel (map negb m) l).
Proof.
  induction m as [|b m IH]; intros [|x l] H; try discriminate; [constructor|].
  injection H as H. cbn [sel map]. destruct b; cbn [negb app].
  - constructor. now apply IH.
  - etransitivity; [|apply Permutation_middle]. constructor. now apply IH.
Qed.

Lemma msp_spans f m attrs l t :
  calculate_msp (tree f) = Ok m -> calc_pruned attrs (tree f) t = Ok (true, l) ->
  exists (rows rest : list (string * list Z)),
    Permutation (combine (msp_pi m) (msp_m m)) (rows ++ rest) /\
    map fst rows = map fst l /\
    (forall k : nat, zsum (map (fun r => nth k (snd r) 0%Z) rows) = if k =? 0 then 1%Z else 0%Z).
Proof.
  intros M P.
  destruct (binary_and f) eqn:Bf; [|rewrite calculate_msp_bad in M by exact Bf; discriminate].
  rewrite calculate_msp_eq in M by exact Bf. injection M as <-. cbn [msp_m msp_pi].
  rewrite combine_fst_snd.
  destruct (calc_pruned_total attrs f t) as [E|E]; rewrite P in E; [discriminate|].
  injection E as E1 E2. rewrite <- E1 in E2. symmetry in E1.
  set (mask := pmask (owns attrs) f) in *.
  assert (Lm : length mask = length (msp_rows f)).
  { unfold mask. rewrite pmask_length. rewrite <- (map_length fst (msp_rows f)), msp_rows_names by exact Bf.
    unfold names. now rewrite map_length. }
  exists (sel mask (msp_rows f)), (sel (map negb mask) (msp_rows f)). repeat split.
  - rewrite <- (sel_perm mask) by exact Lm. symmetry. now apply msp_rows_perm.
  - rewrite E2. rewrite <- sel_map, msp_rows_names by exact Bf. unfold names.
    rewrite sel_map, map_map. reflexivity.
  - intros k. unfold msp_rows. rewrite sel_map, map_map. cbn [snd].
    assert (Len : Forall (fun r => length (snd r) <= snd (lwr f [1%Z] 1)) (fst (lwr f [1%Z] 1)))
      by (apply lwr_row_length; auto).
    transitivity (zsum (map (fun r => vat (snd r) k) (sel mask (fst (lwr f [1%Z] 1))))).
    + f_equal. apply map_ext_in. intros r Hr. apply sel_incl in Hr. rewrite Forall_forall in Len.
      apply (vat_resize (snd r)). now apply Len.
    + unfold mask. rewrite lwr_complete by auto. destruct k as [|[|k]]; reflexivity.
Qed.

Lemma msp_accepts f :
  (binary_and f = true -> exists m, calculate_msp (tree f) = Ok m) /\
  (binary_and f = false -> calculate_msp (tree f) = Panic).
Proof.
  split; intros B; [eexists; now apply calculate_msp_eq|now apply calculate_msp_bad].
Qed.
