(** * Proofs about the span-program conversion *)
From Coq Require Import String List Bool Arith Lia ZArith Field Sorting.Permutation Sorting.Sorted.
From Verif Require Import Base Crypto Policy Msp Spec PolicyProofs Poly.
Import ListNotations.

(** ** Pure form of the conversion, rows in leaf order *)
Fixpoint lwr (f : formula) (v : list Z) (c : nat) : list (string * list Z) * nat :=
  match f with
  | FLeaf n _ => ([(n, v)], c)
  | FAnd l =>
      match l with
      | [a; b] =>
          let ra := lwr a (resize v c ++ [1%Z]) (S c) in
          let rb := lwr b (repeat 0%Z c ++ [(-1)%Z]) (snd ra) in
          (fst ra ++ fst rb, snd rb)
      | _ => ([], c)
      end
  | FOr l =>
      (fix go (l : list formula) (c : nat) :=
         match l with
         | [] => ([], c)
         | a :: r => let ra := lwr a v c in
                     let rr := go r (snd ra) in (fst ra ++ fst rr, snd rr)
         end) l c
  end.

Definition lwr_or (v : list Z) : list formula -> nat -> list (string * list Z) * nat :=
  fix go (l : list formula) (c : nat) :=
         match l with
         | [] => ([], c)
         | a :: r => let ra := lwr a v c in
                     let rr := go r (snd ra) in (fst ra ++ fst rr, snd rr)
         end.

Lemma lwr_FOr l v c : lwr (FOr l) v c = lwr_or v l c.
Proof. reflexivity. Qed.

Lemma lwr_FAnd a b v c : lwr (FAnd [a; b]) v c =
  let ra := lwr a (resize v c ++ [1%Z]) (S c) in
  let rb := lwr b (repeat 0%Z c ++ [(-1)%Z]) (snd ra) in (fst ra ++ fst rb, snd rb).
Proof. reflexivity. Qed.

(** Case analysis used in all inductions below. *)
Lemma binary_ind (P : formula -> Prop) :
  (forall n p, P (FLeaf n p)) ->
  (forall a b, binary_and a = true -> binary_and b = true -> P a -> P b -> P (FAnd [a; b])) ->
  (forall l, 2 <= length l -> Forall (fun g => binary_and g = true) l -> Forall P l -> P (FOr l)) ->
  forall f, binary_and f = true -> P f.
Proof.
  intros HL HA HO f. induction f as [n p|l IH|l IH] using formula_ind'; intros B.
  - apply HL.
  - cbn [binary_and] in B. apply andb_prop in B as [B1 B2]. apply Nat.eqb_eq in B1.
    destruct l as [|a [|b [|x l]]]; try discriminate. clear B1.
    cbn in B2. apply andb_prop in B2 as [Ba Bb]. apply andb_prop in Bb as [Bb _].
    inversion IH as [|? ? Pa IH']; subst. inversion IH' as [|? ? Pb _]; subst. auto.
  - cbn [binary_and] in B. apply andb_prop in B as [B1 B2]. apply Nat.leb_le in B1.
    rewrite forallb_forall in B2. rewrite Forall_forall in IH.
    apply HO; auto; apply Forall_forall; auto.
Qed.

Definition push_rows (rows : list (string * list Z)) (msp : abe_policy) (c : nat) : abe_policy :=
  AbePolicy (rev (map snd rows) ++ msp_m msp) (rev (map fst rows) ++ msp_pi msp) c.

Lemma push_rows_app r1 r2 msp c1 c2 :
  push_rows r2 (push_rows r1 msp c1) c2 = push_rows (r1 ++ r2) msp c2.
Proof. unfold push_rows. cbn. now rewrite !map_app, !rev_app_distr, !app_assoc. Qed.

Lemma lw_tree f : binary_and f = true -> forall v par msp,
  lw (tree f) v par msp =
  Ok (true, push_rows (fst (lwr f v (msp_c msp))) msp (snd (lwr f v (msp_c msp)))).
Proof.
  intros B. pattern f. apply binary_ind; [..|exact B]; clear f B.
  - reflexivity.
  - intros a b _ _ IHa IHb v par msp. cbn [tree map lw length]. cbn [Nat.ltb Nat.leb].
    rewrite IHa. cbn [obind fst snd]. rewrite IHb. rewrite lwr_FAnd. cbn [msp_c push_rows fst snd].
    f_equal. f_equal.
    unfold push_rows. cbn [msp_m msp_pi msp_c fst snd].
    now rewrite !map_app, !rev_app_distr, !app_assoc.
  - intros l Len _ IH v par msp. cbn [tree lw]. rewrite map_length.
    replace (length l <? 2) with false by (symmetry; apply Nat.ltb_ge; lia).
    rewrite lwr_FOr. clear Len.
    set (loop := fix loop (l : list pvalue) (ret : bool) (msp : abe_policy) {struct l} :=
             match l with
             | [] => Ok (ret, msp)
             | q :: r => obind (lw q v (Some Or) msp) (fun bm =>
                         loop r (ret && fst bm) (snd bm))
             end).
    revert msp. induction IH as [|g l H _ IHl]; intros msp.
    + cbn. destruct msp. reflexivity.
    + cbn [map]. cbn [loop]. rewrite H. cbn [obind fst snd andb].
      rewrite IHl. cbn [lwr_or fst snd]. cbn [push_rows msp_c]. f_equal. f_equal.
      fold (push_rows (fst (lwr g v (msp_c msp))) msp (snd (lwr g v (msp_c msp)))).
      apply push_rows_app.
Qed.

Lemma lw_tree_bad f : binary_and f = false -> forall v par msp, lw (tree f) v par msp = Panic.
Proof.
  induction f as [n p|l IH|l IH] using formula_ind'; intros B v par msp.
  - discriminate.
  - cbn [tree lw]. rewrite map_length.
    destruct (length l <? 2) eqn:E; [reflexivity|]. apply Nat.ltb_ge in E.
    cbn [binary_and] in B. destruct l as [|a [|b [|x l]]]; cbn in E; try lia.
    + cbn in B. cbn [map].
      inversion IH as [|? ? Pa IH']; subst. inversion IH' as [|? ? Pb _]; subst.
      destruct (binary_and a) eqn:Ba.
      * rewrite (lw_tree a Ba). cbn [obind fst snd]. cbn in B. rewrite andb_true_r in B.
        now rewrite Pb.
      * now rewrite Pa.
    + reflexivity.
  - cbn [tree lw]. rewrite map_length.
    destruct (length l <? 2) eqn:E; [reflexivity|]. apply Nat.ltb_ge in E.
    cbn [binary_and] in B.
    replace (2 <=? length l) with true in B by (symmetry; apply Nat.leb_le; lia).
    cbn [andb] in B. clear E. generalize true as ret. revert msp.
    induction IH as [|g l H _ IHl]; intros msp ret; [discriminate|].
    cbn [map]. cbn in B. destruct (binary_and g) eqn:Bg.
    + rewrite (lw_tree g Bg). cbn [obind fst snd]. now apply IHl.
    + now rewrite H.
Qed.

(** ** Shape *)

Lemma resize_length v n : length (resize v n) = n.
Proof.
  unfold resize. rewrite app_length, firstn_length, repeat_length. lia.
Qed.

Lemma lwr_names f : binary_and f = true -> forall v c, map fst (fst (lwr f v c)) = names f.
Proof.
  intros B. unfold names. pattern f. apply binary_ind; [..|exact B]; clear f B.
  - reflexivity.
  - intros a b _ _ IHa IHb v c. rewrite lwr_FAnd. cbn [fst snd leaves flat_map].
    rewrite !map_app, IHa, IHb. cbn. now rewrite app_nil_r.
  - intros l _ _ IH v c. rewrite lwr_FOr. cbn [leaves]. revert c.
    induction IH as [|g l H _ IHl]; intros c; [reflexivity|].
    cbn [lwr_or flat_map fst snd]. now rewrite !map_app, H, IHl.
Qed.

Definition small (z : Z) : Prop := z = (-1)%Z \/ z = 0%Z \/ z = 1%Z.

Lemma Forall_repeat {A} (P : A -> Prop) x n : P x -> Forall P (repeat x n).
Proof. intros H. induction n; constructor; auto. Qed.

Lemma small_resize v n : Forall small v -> Forall small (resize v n).
Proof.
  intros H. unfold resize. apply Forall_app. split.
  - revert v H. induction n; intros [|z v] H; cbn; constructor; inversion H; auto.
  - apply Forall_repeat. unfold small. auto.
Qed.

Lemma lwr_grow f : binary_and f = true -> forall v c, c <= snd (lwr f v c).
Proof.
  intros B. pattern f. apply binary_ind; [..|exact B]; clear f B.
  - reflexivity.
  - intros a b _ _ IHa IHb v c. rewrite lwr_FAnd. cbn [fst snd].
    eapply Nat.le_trans; [|apply IHb]. eapply Nat.le_trans; [|apply IHa]. lia.
  - intros l _ _ IH v c. rewrite lwr_FOr. revert c.
    induction IH as [|g l H _ IHl]; intros c; [reflexivity|].
    cbn [lwr_or fst snd]. eapply Nat.le_trans; [apply H|apply IHl].
Qed.

Lemma lwr_row_length f : binary_and f = true -> forall v c, length v <= c ->
  Forall (fun r => length (snd r) <= snd (lwr f v c)) (fst (lwr f v c)).
Proof.
  intros B. pattern f. apply binary_ind; [..|exact B]; clear f B.
  - intros n p v c H. repeat constructor. exact H.
  - intros a b Ba Bb IHa IHb v c H. rewrite lwr_FAnd. cbn [fst snd].
    apply Forall_app. split.
    + eapply Forall_impl; [|apply IHa; rewrite app_length, resize_length; cbn; lia].
      cbn. intros r Hr. eapply Nat.le_trans; [exact Hr|apply lwr_grow, Bb].
    + apply IHb. rewrite app_length, repeat_length. cbn. rewrite Nat.add_1_r.
      apply lwr_grow, Ba.
  - intros l _ Bl IH v c H. rewrite lwr_FOr. revert c H.
    induction IH as [|g l Hg _ IHl]; intros c H; [constructor|].
    inversion Bl as [|? ? Bg Bl']; subst.
    cbn [lwr_or fst snd]. apply Forall_app.
    assert (G := lwr_grow g Bg v c).
    assert (G' : snd (lwr g v c) <= snd (lwr_or v l (snd (lwr g v c)))).
    { destruct l as [|g' l']; [reflexivity|].
      clear - Bl'. revert Bl'. generalize (g' :: l') as k. generalize (snd (lwr g v c)) as d.
      intros d k Bk. revert d. induction Bk as [|x k Bx _ IHk]; intros d; [reflexivity|].
      cbn. eapply Nat.le_trans; [apply lwr_grow, Bx|apply IHk]. }
    split.
    + eapply Forall_impl; [|apply Hg, H]. cbn. intros; lia.
    + apply IHl; [exact Bl'|lia].
Qed.

Lemma lwr_small f : binary_and f = true -> forall v c, Forall small v ->
  Forall (fun r => Forall small (snd r)) (fst (lwr f v c)).
Proof.
  intros B. pattern f. apply binary_ind; [..|exact B]; clear f B.
  - intros n p v c H. repeat constructor. exact H.
  - intros a b Ba Bb IHa IHb v c H. rewrite lwr_FAnd. cbn [fst snd].
    apply Forall_app. split.
    + apply IHa. apply Forall_app. split; [now apply small_resize|]. constructor; [unfold small; auto|constructor].
    + apply IHb. apply Forall_app. split; [apply Forall_repeat; unfold small; auto|].
      constructor; [unfold small; auto|constructor].
  - intros l _ _ IH v c H. rewrite lwr_FOr. revert c.
    induction IH as [|g l Hg _ IHl]; intros c; [constructor|].
    cbn [lwr_or fst snd]. apply Forall_app. split; auto.
Qed.

(** Sorting only permutes. *)
Lemma insert_row_perm x l : Permutation (x :: l) (insert_row x l).
Proof.
  induction l as [|y l IH]; cbn; [reflexivity|].
  destruct (String.leb (fst x) (fst y)); [reflexivity|].
  rewrite perm_swap. now constructor.
Qed.

Lemma sort_rows_perm l : Permutation l (sort_rows l).
Proof.
  induction l as [|x l IH]; cbn; [reflexivity|].
  rewrite <- insert_row_perm. now constructor.
Qed.

Definition row_le (a b : string * list Z) : Prop := String.leb (fst a) (fst b) = true.

Lemma sort_rows_sorted l : Sorted row_le (sort_rows l).
Proof.
  induction l as [|x l IH]; [constructor|].
  change (sort_rows (x :: l)) with (insert_row x (sort_rows l)).
  induction (sort_rows l) as [|y k IHk]; cbn; [repeat constructor|].
  destruct (String.leb (fst x) (fst y)) eqn:E.
  - constructor; [assumption|]. constructor. exact E.
  - inversion IH as [|? ? IH1 IH2]; subst. constructor; [auto|].
    assert (Y : row_le y x).
    { unfold row_le. destruct (String.leb_total (fst x) (fst y)); congruence. }
    destruct k as [|z k]; cbn; [constructor; exact Y|].
    inversion IH2; subst. destruct (String.leb (fst x) (fst z)); constructor; assumption.
Qed.

(** All rows of a conversion in leaf order, at full width. *)
Definition msp_rows (f : formula) : list (string * list Z) :=
  map (fun r => (fst r, resize (snd r) (snd (lwr f [1%Z] 1)))) (fst (lwr f [1%Z] 1)).
Definition msp_width (f : formula) : nat := snd (lwr f [1%Z] 1).

Lemma calculate_msp_eq f : binary_and f = true ->
  calculate_msp (tree f) =
  Ok (AbePolicy (map snd (sort_rows (rev (msp_rows f))))
                (map fst (sort_rows (rev (msp_rows f)))) (msp_width f)).
Proof.
  intros B. unfold calculate_msp. rewrite (lw_tree f B). unfold push_rows.
  cbn [obind fst snd msp_c msp_m msp_pi]. rewrite !app_nil_r.
  assert (E : combine (rev (map fst (fst (lwr f [1%Z] 1))))
     (map (fun r => resize r (snd (lwr f [1%Z] 1))) (rev (map snd (fst (lwr f [1%Z] 1))))) =
     rev (msp_rows f)).
  { unfold msp_rows. generalize (snd (lwr f [1%Z] 1)) as c. generalize (fst (lwr f [1%Z] 1)) as l.
    intros l c. rewrite <- !map_rev.
    induction (rev l) as [|[n r] k IH]; cbn; [reflexivity|]. now rewrite IH. }
  rewrite E. reflexivity.
Qed.

Lemma calculate_msp_bad f : binary_and f = false -> calculate_msp (tree f) = Panic.
Proof. intros B. unfold calculate_msp. now rewrite (lw_tree_bad f B). Qed.

Lemma msp_rows_perm f l : l = sort_rows (rev (msp_rows f)) -> Permutation (msp_rows f) l.
Proof. intros ->. rewrite <- sort_rows_perm. apply Permutation_rev. Qed.

Lemma msp_rows_names f : binary_and f = true -> map fst (msp_rows f) = names f.
Proof.
  intros B. unfold msp_rows. rewrite map_map. cbn. apply (lwr_names f B).
Qed.

Lemma msp_width_pos f : binary_and f = true -> 1 <= msp_width f.
Proof. intros B. apply (lwr_grow f B). Qed.

(** ** Vectors padded with zeros *)
Definition vat (v : list Z) (k : nat) : Z := nth k v 0%Z.

Lemma vat_resize v n k : length v <= n -> vat (resize v n) k = vat v k.
Proof.
  intros H. unfold vat, resize. rewrite firstn_all2 by exact H.
  destruct (Nat.lt_ge_cases k (length v)) as [K|K].
  - now rewrite app_nth1.
  - rewrite app_nth2 by exact K. rewrite (nth_overflow v) by exact K.
    generalize (k - length v) as j. generalize (n - length v) as m.
    induction m; intros [|j]; cbn; auto.
Qed.

Lemma vat_repeat0 n k : vat (repeat 0%Z n) k = 0%Z.
Proof. unfold vat. revert k. induction n; intros [|k]; cbn; auto. Qed.

Lemma vat_snoc v x k : vat (v ++ [x]) k = if k =? length v then x else vat v k.
Proof.
  unfold vat. destruct (k =? length v) eqn:E.
  - apply Nat.eqb_eq in E. subst. rewrite app_nth2 by lia. now rewrite Nat.sub_diag.
  - apply Nat.eqb_neq in E. destruct (Nat.lt_ge_cases k (length v)).
    + now rewrite app_nth1.
    + rewrite app_nth2 by lia. rewrite (nth_overflow v) by lia.
      destruct (k - length v) as [|j] eqn:D; [lia|]. now destruct j.
Qed.

Fixpoint zsum (l : list Z) : Z :=
  match l with [] => 0%Z | x :: r => (x + zsum r)%Z end.

Lemma zsum_app a b : zsum (a ++ b) = (zsum a + zsum b)%Z.
Proof. induction a; cbn; [reflexivity|]. rewrite IHa. lia. Qed.

(** The selected rows add up to the incoming vector. *)
Lemma lwr_complete own f : binary_and f = true -> forall v c, length v <= c ->
  sat own f = true -> forall k,
  zsum (map (fun r => vat (snd r) k) (sel (pmask own f) (fst (lwr f v c)))) = vat v k.
Proof.
  intros B. pattern f. apply binary_ind; [..|exact B]; clear f B.
  - intros n p v c H S k. cbn in S. cbn [pmask lwr fst sel]. rewrite S.
    cbn [sel map zsum snd]. lia.
  - intros a b Ba Bb IHa IHb v c H S k. rewrite lwr_FAnd.
    cbn [fst snd pmask flat_map sat forallb] in *. rewrite app_nil_r.
    apply andb_prop in S as [Sa Sb]. apply andb_prop in Sb as [Sb _].
    rewrite sel_app.
    2:{ rewrite pmask_length. unfold names in *.
        rewrite <- (map_length fst (fst _)), (lwr_names a Ba). unfold names. now rewrite map_length. }
    rewrite map_app, zsum_app, IHa, IHb; auto.
    2:{ rewrite app_length, repeat_length. cbn. rewrite Nat.add_1_r. apply lwr_grow, Ba. }
    2:{ rewrite app_length, resize_length. cbn. lia. }
    rewrite !vat_snoc, resize_length, repeat_length, vat_repeat0, vat_resize by exact H.
    destruct (k =? c) eqn:E; [|lia].
    apply Nat.eqb_eq in E. subst k. unfold vat. rewrite nth_overflow by exact H. lia.
  - intros l _ Bl IH v c H S k. rewrite lwr_FOr.
    change (pmask own (FOr l)) with (pmask_or own l). cbn [sat] in S. revert c H.
    induction IH as [|g l Hg _ IHl]; intros c H; [discriminate|].
    inversion Bl as [|? ? Bg Bl']; subst.
    cbn [existsb] in S. cbn [pmask_or lwr_or fst snd].
    assert (Len : length (leaves g) = length (fst (lwr g v c))).
    { rewrite <- (map_length fst (fst (lwr g v c))), (lwr_names g Bg). unfold names. now rewrite map_length. }
    destruct (sat own g) eqn:Sg.
    + rewrite sel_app by (now rewrite pmask_length).
      rewrite sel_nomask, app_nil_r. now apply Hg.
    + rewrite sel_app by (unfold nomask; now rewrite map_length).
      rewrite sel_nomask. cbn [app orb] in *. apply IHl; auto.
      assert (G := lwr_grow g Bg v c). lia.
Qed.

(** ** Soundness over a field *)
Section Field.
Context {C : crypto} (L : laws C).
Local Open Scope F_scope.
Add Field msp_field : (f_theory L).
Notation F := (F C).

(** Matrix entries as scalars. *)
Definition zf (z : Z) : F :=
  match z with Zpos _ => 1 | Z0 => 0 | Zneg _ => - (1) end.

Fixpoint dot_from (k : nat) (v : list Z) (w : nat -> F) : F :=
  match v with [] => 0 | z :: r => zf z * w k + dot_from (S k) r w end.
Definition dot (v : list Z) (w : nat -> F) : F := dot_from 0 v w.

Lemma dot_from_app k v1 v2 w : dot_from k (v1 ++ v2) w = dot_from k v1 w + dot_from (k + length v1) v2 w.
Proof.
  revert k. induction v1 as [|z v1 IH]; intros k; cbn.
  - rewrite Nat.add_0_r. ring.
  - rewrite IH. replace (k + S (length v1))%nat with (S k + length v1)%nat by lia. cbn. ring.
Qed.

Lemma dot_from_zeros n : forall k w, dot_from k (repeat 0%Z n) w = 0.
Proof. induction n; intros k w; cbn; [reflexivity|]. rewrite IHn. ring. Qed.

Lemma dot_from_ext v : forall k w w', (forall j, k <= j < k + length v -> w j = w' j) ->
  dot_from k v w = dot_from k v w'.
Proof.
  induction v as [|z v IH]; intros k w w' E; cbn; [reflexivity|].
  rewrite (E k) by (cbn; lia). rewrite (IH (S k) w w'); [reflexivity|].
  intros j Hj. apply E. cbn. lia.
Qed.

Lemma dot_resize v n w : length v <= n -> dot (resize v n) w = dot v w.
Proof.
  intros H. unfold dot, resize. rewrite firstn_all2 by exact H.
  rewrite dot_from_app, dot_from_zeros. ring.
Qed.

Lemma dot_ext v w w' n : length v <= n -> (forall j, j < n -> w j = w' j) -> dot v w = dot v w'.
Proof. intros H E. apply dot_from_ext. intros j Hj. apply E. lia. Qed.

Definition upd (w : nat -> F) (c : nat) (x : F) : nat -> F :=
  fun k => if k =? c then x else if c <? k then 0 else w k.

(** Rows orthogonal to [w]. *)
Definition orth (w : nat -> F) (own : string -> bool) (rows : list (string * list Z)) : Prop :=
  Forall (fun r => own (fst r) = true -> dot (snd r) w = 0) rows.

Lemma dot_right v c w x : length v <= c ->
  dot (resize v c ++ [1%Z]) (upd w c x) = dot v w + x.
Proof.
  intros H. unfold dot at 1. rewrite dot_from_app, resize_length. cbn [dot_from].
  assert (E : dot_from 0 (resize v c) (upd w c x) = dot v w).
  { change (dot (resize v c) (upd w c x) = dot v w). rewrite dot_resize by exact H.
    apply (dot_ext v _ _ c H). intros j Hj. unfold upd.
    destruct (j =? c) eqn:E; [apply Nat.eqb_eq in E; lia|].
    destruct (c <? j) eqn:E'; [apply Nat.ltb_lt in E'; lia|]. reflexivity. }
  rewrite E. unfold upd. rewrite Nat.add_0_l, Nat.eqb_refl. cbn [zf]. ring.
Qed.

Lemma dot_left c w x : dot (repeat 0%Z c ++ [(-1)%Z]) (upd w c x) = - x.
Proof.
  unfold dot. rewrite dot_from_app, repeat_length, dot_from_zeros. cbn [dot_from].
  unfold upd. rewrite Nat.add_0_l, Nat.eqb_refl. cbn [zf]. ring.
Qed.

(** If the incoming vector is orthogonal to [w] and [w] vanishes from [c] on,
    all rows are orthogonal to [w]. *)
Lemma lwr_zero f : binary_and f = true -> forall v c w, length v <= c ->
  (forall k, c <= k -> w k = 0) -> dot v w = 0 ->
  Forall (fun r => dot (snd r) w = 0) (fst (lwr f v c)).
Proof.
  intros B. pattern f. apply binary_ind; [..|exact B]; clear f B.
  - intros n p v c w H Z D. repeat constructor. exact D.
  - intros a b Ba Bb IHa IHb v c w H Z D. rewrite lwr_FAnd. cbn [fst snd].
    assert (E : forall k, w k = upd w c 0 k).
    { intros k. unfold upd. destruct (k =? c) eqn:E1; [apply Z; apply Nat.eqb_eq in E1; lia|].
      destruct (c <? k) eqn:E2; [apply Z; apply Nat.ltb_lt in E2; lia|]. reflexivity. }
    apply Forall_app. split.
    + apply IHa.
      * rewrite app_length, resize_length. cbn. lia.
      * intros. apply Z. lia.
      * transitivity (dot (resize v c ++ [1%Z]) (upd w c 0)).
        { apply (dot_ext _ _ _ (S c)); [rewrite app_length, resize_length; cbn; lia|]. auto. }
        rewrite dot_right by exact H. rewrite D. ring.
    + apply IHb.
      * rewrite app_length, repeat_length. cbn. rewrite Nat.add_1_r. apply lwr_grow, Ba.
      * intros k Hk. apply Z. assert (G := lwr_grow a Ba (resize v c ++ [1%Z]) (S c)). lia.
      * transitivity (dot (repeat 0%Z c ++ [(-1)%Z]) (upd w c 0)).
        { apply (dot_ext _ _ _ (S c)); [rewrite app_length, repeat_length; cbn; lia|]. auto. }
        rewrite dot_left. ring.
  - intros l _ Bl IH v c w H Z D. rewrite lwr_FOr. revert c H Z.
    induction IH as [|g l Hg _ IHl]; intros c H Z; [constructor|].
    inversion Bl as [|? ? Bg Bl']; subst.
    cbn [lwr_or fst snd]. apply Forall_app. split; [now apply Hg|].
    assert (G := lwr_grow g Bg v c).
    apply IHl; auto; [lia|]. intros. apply Z. lia.
Qed.

Definition agree (n : nat) (w w' : nat -> F) : Prop := forall k, k < n -> w k = w' k.

Definition trunc (n : nat) (w : nat -> F) : nat -> F := fun k => if k <? n then w k else 0.

Lemma trunc_agree n w : agree n (trunc n w) w.
Proof. intros k H. unfold trunc. apply Nat.ltb_lt in H. now rewrite H. Qed.

Lemma trunc_zero n w k : n <= k -> trunc n w k = 0.
Proof. intros H. unfold trunc. apply Nat.ltb_ge in H. now rewrite H. Qed.

Lemma orth_agree n w w' own rows : agree n w w' ->
  Forall (fun r : string * list Z => length (snd r) <= n) rows -> orth w own rows -> orth w' own rows.
Proof.
  intros A Hl O. unfold orth in *. rewrite Forall_forall in *. intros r Hr Hown.
  rewrite <- (O r Hr Hown). symmetry. apply (dot_ext _ _ _ n); auto.
Qed.

Lemma upd_agree c x w : agree c (upd w c x) w.
Proof.
  intros k H. unfold upd. destruct (k =? c) eqn:E; [apply Nat.eqb_eq in E; lia|].
  destruct (c <? k) eqn:E'; [apply Nat.ltb_lt in E'; lia|]. reflexivity.
Qed.

Lemma upd_zero c x w k : S c <= k -> upd w c x k = 0.
Proof.
  intros H. unfold upd. destruct (k =? c) eqn:E; [apply Nat.eqb_eq in E; lia|].
  destruct (c <? k) eqn:E'; [reflexivity|apply Nat.ltb_ge in E'; lia].
Qed.

(** An unsatisfied formula leaves a direction that the owned rows miss. *)
Lemma lwr_sound own f : binary_and f = true -> forall v c w0, length v <= c ->
  sat own f = false ->
  exists w, agree c w w0 /\ orth w own (fst (lwr f v c)).
Proof.
  intros B. pattern f. apply binary_ind; [..|exact B]; clear f B.
  - intros n p v c w0 H Sat. exists w0. split; [intros k _; reflexivity|].
    cbn in *. constructor; [|constructor]. cbn. congruence.
  - intros a b Ba Bb IHa IHb v c w0 H Sat. rewrite lwr_FAnd. cbn [fst snd].
    set (right := resize v c ++ [1%Z]). set (left := repeat 0%Z c ++ [(-1)%Z]).
    assert (Lr : length right <= S c) by (unfold right; rewrite app_length, resize_length; cbn; lia).
    assert (Ll : length left <= S c) by (unfold left; rewrite app_length, repeat_length; cbn; lia).
    set (c1 := snd (lwr a right (S c))).
    assert (G : S c <= c1) by apply lwr_grow, Ba.
    assert (Ra : Forall (fun r => length (snd r) <= c1) (fst (lwr a right (S c))))
      by (apply lwr_row_length; auto).
    destruct (sat own b) eqn:Sb.
    + (* b satisfied: a is not *)
      assert (Sa : sat own a = false).
      { cbn in Sat. rewrite Sb in Sat. now rewrite !andb_true_r in Sat. }
      destruct (IHa right (S c) (upd w0 c 0) Lr Sa) as (w & Aw & Ow).
      exists (trunc c1 w). split.
      * intros k Hk. rewrite trunc_agree by lia. rewrite Aw by lia. apply upd_agree, Hk.
      * apply Forall_app. split.
        -- apply (orth_agree c1 w); auto. intros k Hk. symmetry. now apply trunc_agree.
        -- eapply Forall_impl; [|apply (lwr_zero b Bb left c1 (trunc c1 w))].
           ++ cbn. auto.
           ++ lia.
           ++ intros. now apply trunc_zero.
           ++ transitivity (dot left (upd w0 c 0)).
              { apply (dot_ext _ _ _ (S c) Ll). intros j Hj. rewrite trunc_agree by lia. now apply Aw. }
              unfold left. rewrite dot_left. ring.
    + (* b not satisfied: kill a's vector *)
      set (x := - (dot v w0)).
      destruct (IHb left c1 (upd w0 c x) (Nat.le_trans _ _ _ Ll G) eq_refl) as (w & Aw & Ow).
      exists w. split.
      * intros k Hk. rewrite Aw by lia. apply upd_agree, Hk.
      * apply Forall_app. split; [|exact Ow].
        apply (orth_agree c1 (upd w0 c x)); auto.
        { intros k Hk. symmetry. now apply Aw. }
        eapply Forall_impl; [|apply (lwr_zero a Ba right (S c) (upd w0 c x))].
        -- cbn. auto.
        -- exact Lr.
        -- intros. now apply upd_zero.
        -- unfold right. rewrite dot_right by exact H. unfold x. ring.
  - intros l _ Bl IH v c w0 H Sat. rewrite lwr_FOr. cbn [sat] in Sat. revert c w0 H.
    induction IH as [|g l Hg _ IHl]; intros c w0 H.
    + exists w0. split; [intros k _; reflexivity|constructor].
    + inversion Bl as [|? ? Bg Bl']; subst. cbn [existsb] in Sat.
      apply orb_false_elim in Sat as [Sg Sl].
      destruct (Hg v c w0 H Sg) as (w & Aw & Ow).
      assert (G := lwr_grow g Bg v c).
      destruct (IHl Bl' Sl (snd (lwr g v c)) w (Nat.le_trans _ _ _ H G)) as (w' & Aw' & Ow').
      exists w'. split.
      * intros k Hk. rewrite Aw' by lia. apply Aw, Hk.
      * cbn [lwr_or fst snd]. apply Forall_app. split; [|exact Ow'].
        apply (orth_agree (snd (lwr g v c)) w); auto.
        -- intros k Hk. symmetry. now apply Aw'.
        -- now apply lwr_row_length.
Qed.

(** ** Completeness over a field: the selected rows add up to the incoming vector *)

Lemma dot_snoc v x w : dot (v ++ [x]) w = dot v w + zf x * w (length v).
Proof. unfold dot. rewrite dot_from_app. cbn. ring. Qed.

Lemma dot_zeros n w : dot (repeat 0%Z n) w = 0.
Proof. apply dot_from_zeros. Qed.

Lemma lwr_complete_f own w f : binary_and f = true -> forall v c, length v <= c ->
  sat own f = true ->
  fsum (map (fun r => dot (snd r) w) (sel (pmask own f) (fst (lwr f v c)))) = dot v w.
Proof.
  intros B. pattern f. apply binary_ind; [..|exact B]; clear f B.
  - intros n p v c H Sat. cbn in Sat. cbn [pmask lwr fst sel]. rewrite Sat.
    cbn [sel map fsum snd]. ring.
  - intros a b Ba Bb IHa IHb v c H Sat. rewrite lwr_FAnd.
    cbn [fst snd pmask flat_map sat forallb] in *. rewrite app_nil_r.
    apply andb_prop in Sat as [Sa Sb]. apply andb_prop in Sb as [Sb _].
    rewrite sel_app.
    2:{ rewrite pmask_length. unfold names in *.
        rewrite <- (map_length fst (fst _)), (lwr_names a Ba). unfold names. now rewrite map_length. }
    rewrite map_app, (fsum_app L), IHa, IHb; auto.
    2:{ rewrite app_length, repeat_length. cbn. rewrite Nat.add_1_r. apply lwr_grow, Ba. }
    2:{ rewrite app_length, resize_length. cbn. lia. }
    rewrite !dot_snoc, resize_length, repeat_length, dot_zeros, dot_resize by exact H.
    cbn [zf]. ring.
  - intros l _ Bl IH v c H Sat. rewrite lwr_FOr.
    change (pmask own (FOr l)) with (pmask_or own l). cbn [sat] in Sat. revert c H.
    induction IH as [|g l Hg _ IHl]; intros c H; [discriminate|].
    inversion Bl as [|? ? Bg Bl']; subst.
    cbn [existsb] in Sat. cbn [pmask_or lwr_or fst snd].
    assert (Len : length (leaves g) = length (fst (lwr g v c))).
    { rewrite <- (map_length fst (fst (lwr g v c))), (lwr_names g Bg). unfold names. now rewrite map_length. }
    destruct (sat own g) eqn:Sg.
    + rewrite sel_app by (now rewrite pmask_length).
      rewrite sel_nomask, app_nil_r. now apply Hg.
    + rewrite sel_app by (unfold nomask; now rewrite map_length).
      rewrite sel_nomask. cbn [app orb] in *. apply IHl; auto.
      assert (G := lwr_grow g Bg v c). lia.
Qed.

Lemma msp_complete_f own w f : binary_and f = true -> sat own f = true ->
  fsum (map (fun r => dot (snd r) w) (sel (pmask own f) (msp_rows f))) = w 0%nat.
Proof.
  intros B S. unfold msp_rows. rewrite sel_map, map_map. cbn [snd].
  assert (Len : Forall (fun r => length (snd r) <= snd (lwr f [1%Z] 1)) (fst (lwr f [1%Z] 1)))
    by (apply lwr_row_length; auto).
  transitivity (fsum (map (fun r => dot (snd r) w) (sel (pmask own f) (fst (lwr f [1%Z] 1))))).
  - f_equal. apply map_ext_in. intros r I. apply dot_resize.
    rewrite Forall_forall in Len. apply Len. now apply sel_incl in I.
  - rewrite lwr_complete_f by auto. unfold dot. cbn. ring.
Qed.

(** Every row at full width. *)
Lemma msp_rows_length f r : In r (msp_rows f) -> length (snd r) = msp_width f.
Proof.
  intros I. unfold msp_rows in I. apply in_map_iff in I as (x & <- & _). cbn. apply resize_length.
Qed.

Lemma msp_rows_small f r : binary_and f = true -> In r (msp_rows f) -> Forall small (snd r).
Proof.
  intros B I. unfold msp_rows in I. apply in_map_iff in I as (x & <- & I). cbn.
  apply small_resize. assert (H : Forall (fun r => Forall small (snd r)) (fst (lwr f [1%Z] 1))).
  { apply lwr_small; [exact B|]. constructor; [|constructor]. right. now right. }
  rewrite Forall_forall in H. now apply H.
Qed.

End Field.
