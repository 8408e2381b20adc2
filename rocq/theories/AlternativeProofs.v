(** * AlternativeProofs: one alternative of a policy (C150) *)
From Coq Require Import String List Bool Arith Lia.
From Verif Require Import Base Crypto Policy Tools Sharing Parse Spec PolicyProofs Poly SharingProofs Symmetric Draws DrawsProofs
  Bsw Ghw11 Lsw Yct14 Alternative.
Import ListNotations.

(** ** The draws *)

Lemma drawn_for_lt k pre g post m n : m < n -> drawn_for k pre g post m < drawn_for k pre g post n.
Proof.
  intros H. unfold drawn_for. destruct (Nat.ltb_spec m k), (Nat.ltb_spec n k), (Nat.ltb_spec m (k + coins g)), (Nat.ltb_spec n (k + coins g)); lia.
Qed.

Lemma ok_pair {A B} (a a' : A) (b b' : B) : Ok (a, b) = Ok (a', b') -> a = a' /\ b = b'.
Proof. intros H. injection H as -> ->. auto. Qed.

(** ** Loops over a part of a list *)

Lemma omap_app {A B} (f : A -> outcome B) l : forall m r, omap f (l ++ m) = Ok r ->
  exists a b, r = a ++ b /\ omap f l = Ok a /\ omap f m = Ok b.
Proof.
  induction l as [|x l IH]; intros m r H; cbn in H.
  - exists [], r. repeat split; assumption.
  - apply obind_Ok in H as (y & Hy & H). apply obind_Ok in H as (ys & Hys & H). injection H as <-.
    destruct (IH _ _ Hys) as (a & b & -> & Ha & Hb). exists (y :: a), b. repeat split; [|exact Hb].
    cbn. rewrite Hy. cbn. rewrite Ha. reflexivity.
Qed.

Lemma omap_length {A B} (f : A -> outcome B) l : forall r, omap f l = Ok r -> length r = length l.
Proof.
  induction l as [|x l IH]; intros r H; cbn in H; [injection H as <-; reflexivity|].
  apply obind_Ok in H as (y & Hy & H). apply obind_Ok in H as (ys & Hys & H). injection H as <-. cbn. now rewrite (IH _ Hys).
Qed.

Lemma omap_along {A A' B B'} (f : A -> outcome B) (f' : A' -> outcome B') (rel : A' -> B -> B') l l' :
  Forall2 (fun a a' => forall b, f a = Ok b -> f' a' = Ok (rel a' b)) l l' ->
  forall r, omap f l = Ok r -> omap f' l' = Ok (map (fun x => rel (fst x) (snd x)) (combine l' r)).
Proof.
  induction 1 as [|a a' l l' Ha _ IH]; intros r H; cbn in H; [injection H as <-; reflexivity|].
  apply obind_Ok in H as (y & Hy & H). apply obind_Ok in H as (ys & Hys & H). injection H as <-.
  cbn. rewrite (Ha _ Hy). cbn. rewrite (IH _ Hys). reflexivity.
Qed.

Lemma rmap_omap {F A B} (f : A -> rand F B) (h : A -> F -> outcome B) :
  (forall a t i, f a t i = match h a (t i) with Ok b => Ok (b, S i) | Err => Err | Panic => Panic end) ->
  forall l t i, rmap f l t i =
    match omap (fun ax => h (fst ax) (snd ax)) (combine l (map t (seq i (length l)))) with
    | Ok r => Ok (r, i + length l) | Err => Err | Panic => Panic end.
Proof.
  intros Hf. induction l as [|a l IH]; intros t i; cbn.
  - unfold rret. now rewrite Nat.add_0_r.
  - unfold rbind at 1. rewrite Hf. destruct (h a (t i)) as [b| |]; cbn; [|reflexivity|reflexivity].
    unfold rbind. rewrite IH. destruct (omap _ _) as [r| |]; cbn; [|reflexivity|reflexivity].
    unfold rret. f_equal. f_equal. lia.
Qed.

Lemma combine_map_seq_app {A F} (t : nat -> F) (l m : list A) i :
  combine (l ++ m) (map t (seq i (length (l ++ m)))) =
  combine l (map t (seq i (length l))) ++ combine m (map t (seq (i + length l) (length m))).
Proof.
  revert i. induction l as [|a l IH]; intros i; cbn; [now rewrite Nat.add_0_r|]. f_equal. rewrite IH. replace (i + S (length l)) with (S i + length l) by lia. reflexivity.
Qed.

Section Sharing.
Context {C : crypto} (L : laws C).

(** ** Sharing of formulas that differ in the places of leaves *)

Lemma blank_nd f : nd (blank f) = nd f.
Proof.
  induction f as [n p|l IH|l IH] using formula_ind'; cbn [blank nd]; [reflexivity| |].
  - rewrite map_length, map_map. f_equal. f_equal. induction IH as [|g l H _ IHl]; [reflexivity|]. cbn. now rewrite H, IHl.
  - rewrite map_map. f_equal. induction IH as [|g l H _ IHl]; [reflexivity|]. cbn. now rewrite H, IHl.
Qed.

Lemma blank_same g' g : blank g' = blank g -> nd g' = coins g.
Proof. intros B. transitivity (nd (blank g')); [symmetry; apply blank_nd|]. rewrite B. apply blank_nd. Qed.

Lemma blank_names f : map fst (leaves (blank f)) = map fst (leaves f).
Proof.
  induction f as [n p|l IH|l IH] using formula_ind'; cbn [blank leaves]; [reflexivity| |];
    (induction IH as [|g l H _ IHl]; [reflexivity|]; cbn; rewrite !map_app, H, IHl; reflexivity).
Qed.

Lemma blank_gsh f : forall (s : F C) t i, map snd (gsh (blank f) s t i) = map snd (gsh f s t i).
Proof.
  induction f as [n p|l IH|l IH] using formula_ind'; intros s t i; cbn [blank]; [reflexivity| |].
  - rewrite !gsh_FAnd, map_length. generalize (s :: map t (seq i (length l - 1))). intros a.
    generalize (i + (length l - 1)). generalize 1. clear i.
    induction IH as [|g l H _ IHl]; intros x i; [reflexivity|]. cbn [map gsh_and]. rewrite !map_app, H, blank_nd, IHl. reflexivity.
  - rewrite !gsh_FOr. revert i.
    induction IH as [|g l H _ IHl]; intros i; [reflexivity|]. cbn [map gsh_or]. rewrite !map_app, H, blank_nd, IHl. reflexivity.
Qed.

Definition bare (x : string * F C) : string * F C := (remove_index (fst x), snd x).

Lemma bare_split (l l' : list (string * F C)) : map (fun x => remove_index (fst x)) l = map (fun x => remove_index (fst x)) l' ->
  map snd l = map snd l' -> map bare l = map bare l'.
Proof.
  revert l'. induction l as [|x l IH]; intros [|y l'] H G; try discriminate; [reflexivity|].
  cbn in *. injection H as H1 H2. injection G as G1 G2. rewrite (IH _ H2 G2). unfold bare. now rewrite H1, G1.
Qed.

Lemma gsh_removed f (s : F C) t i : map (fun x => remove_index (fst x)) (gsh f s t i) = map remove_index (map fst (leaves f)).
Proof.
  rewrite <- (map_map fst remove_index), gsh_idents. unfold idents. rewrite !map_map. apply map_ext.
  intros [n p]. apply remove_index_node.
Qed.

Lemma gsh_alike f f' (s : F C) t i : blank f = blank f' -> map bare (gsh f s t i) = map bare (gsh f' s t i).
Proof.
  intros B. apply bare_split.
  - rewrite !gsh_removed. f_equal. rewrite <- (blank_names f), B. apply blank_names.
  - rewrite <- (blank_gsh f), B. apply blank_gsh.
Qed.

Lemma gsh_marks f (s : F C) t i : map fst (gsh f s t i) = marks f.
Proof. rewrite gsh_idents. reflexivity. Qed.

Lemma gsh_len f (s : F C) t i : length (gsh f s t i) = length (leaves f).
Proof. rewrite <- (map_length fst), gsh_marks. apply map_length. Qed.

Lemma gsh_or_app (s : F C) t l : forall m i, gsh_or s t (l ++ m) i = gsh_or s t l i ++ gsh_or s t m (i + list_sum (map nd l)).
Proof.
  induction l as [|g l IH]; intros m i.
  - cbn. now rewrite Nat.add_0_r.
  - cbn [List.app gsh_or map]. rewrite IH, app_assoc, lsum_cons, Nat.add_assoc. reflexivity.
Qed.

Lemma gsh_or_len (s : F C) t l : forall i, length (gsh_or s t l i) = length (flat_map leaves l).
Proof.
  induction l as [|g l IH]; intros i; [reflexivity|]. cbn [gsh_or flat_map]. now rewrite !app_length, gsh_len, IH.
Qed.

(** The shares of the alternative among those of the policy. *)
Lemma gsh_alternative pre g post g' (s : F C) t i t' i' : blank g' = blank g ->
  (forall k, k < coins g -> t' (i' + k) = t (i + list_sum (map coins pre) + k)) ->
  exists A B D, gsh (FOr (pre ++ g :: post)) s t i = A ++ B ++ D /\ length A = length (flat_map leaves pre) /\
    length D = length (flat_map leaves post) /\ map bare B = map bare (gsh g' s t' i').
Proof.
  intros Bl T. rewrite gsh_FOr, gsh_or_app. cbn [gsh_or].
  eexists _, _, _. split; [reflexivity|]. rewrite !gsh_or_len. split; [reflexivity|]. split; [reflexivity|].
  rewrite (gsh_alike g' g _ _ _ Bl). f_equal. symmetry. apply (gsh_at g s t t').
  intros k Hk. rewrite <- coins_nd in Hk. rewrite (T k Hk). reflexivity.
Qed.

Lemma bare_Forall2 (l l' : list (string * F C)) : map bare l = map bare l' ->
  Forall2 (fun x y => remove_index (fst x) = remove_index (fst y) /\ snd x = snd y) l l'.
Proof.
  revert l'. induction l as [|x l IH]; intros [|y l'] H; try discriminate; constructor; cbn in H; injection H as H1 H2 H3; auto.
Qed.

Lemma Forall2_weaken {A B} (P Q : A -> B -> Prop) l l' : (forall a b, P a b -> Q a b) -> Forall2 P l l' -> Forall2 Q l l'.
Proof. intros I. induction 1; constructor; auto. Qed.

Local Open Scope rand_scope.

(** ** BSW *)
Lemma bsw_alternative nonce (pk : bsw_pk C) pol lang pol' lang' pt pre g post g' t i ct j :
  parse pol lang = Ok (tree (FOr (pre ++ g :: post))) -> parse pol' lang' = Ok (tree g') -> blank g' = blank g ->
  bsw_encrypt nonce pk pol lang pt t i = Ok (ct, j) ->
  exists A B D, bct_cy ct = A ++ B ++ D /\ length A = length (flat_map leaves pre) /\ length D = length (flat_map leaves post) /\
    bsw_encrypt nonce pk pol' lang' pt (fun n => t (i + drawn_for 2 pre g post n)) 0 =
      Ok (BswCt (pol', lang') (bct_c ct) (bct_cp ct) (bsw_marked (marks g') B) (bct_data ct), 2 + coins g).
Proof.
  intros P P' Bl H. unfold bsw_encrypt in H.
  apply rbind_Ok in H as (sec & i1 & D & H). unfold draw in D. injection D as <- <-.
  apply rbind_Ok in H as (msg & i2 & Dm & H). unfold draw_gt in Dm. apply rbind_Ok in Dm as (x & i3 & D & Dm).
  unfold draw in D. injection D as <- <-. apply rret_Ok in Dm as [<- <-].
  apply rbind_Ok in H as (v & i2 & D & H). apply rlift_Ok in D as [Ev <-]. rewrite P in Ev.
  assert (Ev' : v = tree (FOr (pre ++ g :: post))) by congruence. subst v. clear Ev.
  apply rbind_Ok in H as (sh & i2 & D & H). rewrite (gen_shares_policy_eq L) in D. apply ok_pair in D as [<- <-].
  apply rbind_Ok in H as (cy & i2 & D & H). apply rlift_Ok in D as [Ecy <-].
  apply rbind_Ok in H as (dat & i2 & D & H). apply rlift_Ok in D as [Ed <-]. apply rret_Ok in H as [<- <-].
  set (t' := fun n => t (i + drawn_for 2 pre g post n)).
  destruct (gsh_alternative pre g post g' (t i) t (S (S i)) t' 2 Bl) as (A & B & D & Es & LA & LD & EB).
  { intros k Hk. unfold t', drawn_for. destruct (Nat.ltb_spec (2 + k) 2); [lia|]. destruct (Nat.ltb_spec (2 + k) (2 + coins g)); [|lia].
    f_equal. lia. }
  cbn [snd fst bct_cy bct_c bct_cp bct_data].
  rewrite Es in Ecy. apply omap_app in Ecy as (a & bd & -> & Ea & Ebd). apply omap_app in Ebd as (b & d & -> & Eb & Ed').
  exists a, b, d. split; [reflexivity|]. split; [rewrite (omap_length _ _ _ Ea); exact LA|]. split; [rewrite (omap_length _ _ _ Ed'); exact LD|].
  unfold bsw_encrypt. unfold rbind at 1, draw at 1. unfold rbind at 1, draw_gt at 1. unfold rbind at 1, draw at 1. unfold rret at 1.
  unfold rbind at 1, rlift at 1. rewrite P'. unfold rbind at 1. rewrite (gen_shares_policy_eq L).
  assert (T0 : t' 0 = t i) by (unfold t', drawn_for; cbn; now rewrite Nat.add_0_r).
  assert (T1 : t' 1 = t (S i)) by (unfold t', drawn_for; cbn; f_equal; lia).
  rewrite T0, T1. unfold rbind at 1, rlift at 1.
  rewrite (omap_along _ _ (fun (x : string * F C) (b : battr C) => BAttr (fst x) (b_g1 b) (b_g2 b)) B (gsh g' (t i) t' 2)) with (2 := Eb).
  - unfold rbind, rlift. rewrite Ed. unfold rret. f_equal. f_equal.
    + f_equal. unfold bsw_marked. rewrite <- (gsh_marks g' (t i) t' 2).
      generalize (gsh g' (t i) t' 2) as l. clear. intros l. revert b. induction l as [|x l IH]; intros [|y b]; cbn; [reflexivity..|]. now rewrite IH.
    + now rewrite (blank_same _ _ Bl).
  - apply bare_Forall2 in EB. revert EB. apply Forall2_weaken. intros x y [R S] b0 H. rewrite <- R, <- S.
    apply obind_Ok in H as (h & -> & H). injection H as <-. reflexivity.
Qed.

(** ** Loops that draw for each leaf *)

Lemma nd_or pre g post : nd (FOr (pre ++ g :: post)) = list_sum (map coins pre) + (coins g + list_sum (map coins post)).
Proof.
  cbn [nd]. induction pre as [|p pre IH].
  - cbn [List.app map]. rewrite lsum_cons. reflexivity.
  - cbn [List.app map]. rewrite !lsum_cons, IH. cbn. change coins with nd. lia.
Qed.

Lemma map_at {A} (t t' : nat -> A) n : forall i i', (forall k, k < n -> t' (i' + k) = t (i + k)) -> map t' (seq i' n) = map t (seq i n).
Proof.
  induction n as [|n IH]; intros i i' H; [reflexivity|]. cbn. f_equal.
  - specialize (H 0 ltac:(lia)). now rewrite !Nat.add_0_r in H.
  - apply IH. intros k Hk. specialize (H (S k) ltac:(lia)). now rewrite <- !plus_n_Sm in H.
Qed.

Lemma combine_Forall2 {A B D} (R : A -> B -> Prop) l l' : Forall2 R l l' -> forall m : list D,
  Forall2 (fun p p' => R (fst p) (fst p') /\ snd p = snd p') (combine l m) (combine l' m).
Proof. induction 1 as [|a b l l' H _ IH]; intros [|x m]; cbn; constructor; auto. Qed.

Lemma snd_combine {A B} : forall (l : list A) (m : list B), length m <= length l -> map snd (combine l m) = m.
Proof. induction l as [|a l IH]; intros [|b m] H; cbn in *; [reflexivity|lia|reflexivity|]. now rewrite IH by lia. Qed.

(** A loop over the shares of the policy, and over those of the alternative. *)
Lemma rmap_alternative {B'} (f : string * F C -> rand (F C) B') (h : string * F C -> F C -> outcome B') (rel : string -> B' -> B')
  pre g post g' k (s : F C) t i r j :
  rmap f (gsh (FOr (pre ++ g :: post)) s t (i + k)) t (i + k + nd (FOr (pre ++ g :: post))) = Ok (r, j) ->
  (forall a t i, f a t i = match h a (t i) with Ok b => Ok (b, S i) | Err => Err | Panic => Panic end) ->
  (forall x y d b, remove_index (fst x) = remove_index (fst y) -> snd x = snd y -> h x d = Ok b -> h y d = Ok (rel (fst y) b)) ->
  blank g' = blank g ->
  exists A B D, r = A ++ B ++ D /\ length A = length (flat_map leaves pre) /\ length D = length (flat_map leaves post) /\ length B = length (marks g') /\
    rmap f (gsh g' s (fun n => t (i + drawn_for k pre g post n)) k) (fun n => t (i + drawn_for k pre g post n)) (k + nd g') =
      Ok (map (fun x => rel (fst x) (snd x)) (combine (marks g') B), k + coins g + length (leaves g)).
Proof.
  intros H Hf Hr Bl. set (t' := fun n => t (i + drawn_for k pre g post n)).
  destruct (gsh_alternative pre g post g' s t (i + k) t' k Bl) as (A & B & D & Es & LA & LD & EB).
  { intros q Hq. unfold t', drawn_for. destruct (Nat.ltb_spec (k + q) k); [lia|]. destruct (Nat.ltb_spec (k + q) (k + coins g)); [|lia].
    f_equal. lia. }
  rewrite Es, (rmap_omap _ _ Hf), !combine_map_seq_app in H.
  destruct (omap _ _) as [r'| |] eqn:E; try discriminate. injection H as -> _.
  apply omap_app in E as (a & bd & -> & Ea & Ebd). apply omap_app in Ebd as (b & d & -> & Eb & Ed').
  assert (Lg : length (gsh g' s t' k) = length (leaves g)).
  { rewrite gsh_len. rewrite <- (map_length fst (leaves g')), <- (blank_names g'), Bl, blank_names. apply map_length. }
  assert (LB : length B = length (leaves g)).
  { rewrite <- Lg, <- (map_length bare B), EB. apply map_length. }
  exists a, b, d. split; [reflexivity|].
  split. { rewrite (omap_length _ _ _ Ea), combine_length, map_length, seq_length. lia. }
  split. { rewrite (omap_length _ _ _ Ed'), combine_length, map_length, seq_length. lia. }
  split. { rewrite (omap_length _ _ _ Eb), combine_length, map_length, seq_length, Nat.min_id, LB, <- Lg, gsh_len. unfold marks. now rewrite map_length. }
  rewrite (rmap_omap _ _ Hf).
  assert (M : map t' (seq (k + nd g') (length (gsh g' s t' k))) = map t (seq (i + k + nd (FOr (pre ++ g :: post)) + length A) (length B))).
  { rewrite Lg, LB. apply map_at. intros q Hq. rewrite (blank_same _ _ Bl), nd_or, LA. unfold t', drawn_for.
    destruct (Nat.ltb_spec (k + coins g + q) k); [lia|]. destruct (Nat.ltb_spec (k + coins g + q) (k + coins g)); [lia|]. f_equal. lia. }
  rewrite M. clear M.
  rewrite (omap_along _ _ (fun (p : (string * F C) * F C) (b : B') => rel (fst (fst p)) b)
             (combine B (map t (seq (i + k + nd (FOr (pre ++ g :: post)) + length A) (length B))))
             (combine (gsh g' s t' k) (map t (seq (i + k + nd (FOr (pre ++ g :: post)) + length A) (length B))))) with (2 := Eb).
  - f_equal. f_equal; [|rewrite (blank_same _ _ Bl), Lg; reflexivity].
    rewrite <- (gsh_marks g' s t' k).
    assert (Lm : length (map t (seq (i + k + nd (FOr (pre ++ g :: post)) + length A) (length B))) = length (gsh g' s t' k))
      by (rewrite map_length, seq_length; lia).
    revert Lm. generalize (map t (seq (i + k + nd (FOr (pre ++ g :: post)) + length A) (length B))) as m. generalize (gsh g' s t' k) as l. clear.
    intros l. revert b. induction l as [|x l IH]; intros b [|z m] Lm; try discriminate; [reflexivity|]. destruct b as [|y b]; [reflexivity|].
    cbn in *. f_equal. apply IH. lia.
  - apply bare_Forall2 in EB. eapply Forall2_weaken; [|apply (combine_Forall2 _ _ _ EB)].
    intros [x dx] [y dy] [[R S] E] b0 H. cbn [fst snd] in *. subst dy. exact (Hr _ _ _ _ R S H).
Qed.

(** ** GHW11 *)
Lemma ghw_alternative nonce (pk : ghw_pk C) pol lang pol' lang' pt pre g post g' t i ct j :
  parse pol lang = Ok (tree (FOr (pre ++ g :: post))) -> parse pol' lang' = Ok (tree g') -> blank g' = blank g ->
  ghw_encrypt nonce pk pol lang pt t i = Ok (ct, j) ->
  exists A B D, gct_cidi ct = A ++ B ++ D /\ length A = length (flat_map leaves pre) /\ length D = length (flat_map leaves post) /\
    ghw_encrypt nonce pk pol' lang' pt (fun n => t (i + drawn_for 2 pre g post n)) 0 =
      Ok (GhwCt (pol', lang') (gct_c ct) (gct_c1 ct) (ghw_marked (marks g') B) (gct_data ct), 2 + coins g + length (leaves g)).
Proof.
  intros P P' Bl H. unfold ghw_encrypt in H.
  apply rbind_Ok in H as (sec & i1 & D & H). unfold draw in D. injection D as <- <-.
  apply rbind_Ok in H as (msg & i2 & Dm & H). unfold draw_gt in Dm. apply rbind_Ok in Dm as (x & i3 & D & Dm).
  unfold draw in D. injection D as <- <-. apply rret_Ok in Dm as [<- <-].
  apply rbind_Ok in H as (v & i2 & D & H). apply rlift_Ok in D as [Ev <-]. rewrite P in Ev.
  assert (Ev' : v = tree (FOr (pre ++ g :: post))) by congruence. subst v. clear Ev.
  apply rbind_Ok in H as (sh & i2 & D & H). rewrite (gen_shares_policy_eq L) in D. apply ok_pair in D as [<- <-].
  apply rbind_Ok in H as (cd & i2 & D & H).
  apply rbind_Ok in H as (dat & i4 & Dd & H). apply rlift_Ok in Dd as [Ed <-]. apply rret_Ok in H as [<- <-].
  replace (S (S i)) with (i + 2) in D by lia.
  destruct (rmap_alternative _ (fun (x : string * F C) t_i =>
      obind (unwrap_res (sha3_hash_g1 (gpk_g1 pk) (remove_index (fst x)))) (fun h =>
      Ok (fst x, (g1add C (g1mul C (gpk_g1a pk) (snd x)) (g1mul C h (fopp C t_i)), g1mul C (gpk_g1 pk) t_i))))
      (fun m b => (m, snd b)) _ _ _ g' _ _ _ _ _ _ D) as (A & B & E & Ecd & LA & LD & _ & R).
  - intros a u k. unfold rbind, draw, rlift, rret. destruct (unwrap_res _); reflexivity.
  - intros x y d b Ex Es Hb. rewrite <- Ex, <- Es. apply obind_Ok in Hb as (h & -> & Hb). injection Hb as <-. reflexivity.
  - exact Bl.
  - exists A, B, E. cbn [gct_cidi gct_c gct_c1 gct_data]. split; [exact Ecd|]. split; [exact LA|]. split; [exact LD|].
    set (t' := fun n => t (i + drawn_for 2 pre g post n)) in *.
    assert (T0 : t' 0 = t i) by (unfold t', drawn_for; cbn; now rewrite Nat.add_0_r).
    assert (T1 : t' 1 = t (S i)) by (unfold t', drawn_for; cbn; f_equal; lia).
    unfold ghw_encrypt. unfold rbind at 1, draw at 1. unfold rbind at 1, draw_gt at 1. unfold rbind at 1, draw at 1. unfold rret at 1.
    unfold rbind at 1, rlift at 1. rewrite P'. unfold rbind at 1. rewrite (gen_shares_policy_eq L). rewrite T0, T1.
    unfold rbind at 1. rewrite R. unfold rbind, rlift. rewrite Ed. reflexivity.
Qed.

(** ** LSW *)
Lemma lsw_alternative (pk : lsw_pk C) msk pol lang pol' lang' pre g post g' t i sk j :
  parse pol lang = Ok (tree (FOr (pre ++ g :: post))) -> parse pol' lang' = Ok (tree g') -> blank g' = blank g ->
  lsw_keygen pk msk pol lang t i = Ok (sk, j) ->
  exists A B D, lsk_dj sk = A ++ B ++ D /\ length A = length (flat_map leaves pre) /\ length D = length (flat_map leaves post) /\
    lsw_keygen pk msk pol' lang' (fun n => t (i + drawn_for 0 pre g post n)) 0 = Ok (LswSk (pol', lang') B, coins g + length (leaves g)).
Proof.
  intros P P' Bl H. unfold lsw_keygen in H.
  apply rbind_Ok in H as (v & i2 & D & H). apply rlift_Ok in D as [Ev <-]. rewrite P in Ev.
  assert (Ev' : v = tree (FOr (pre ++ g :: post))) by congruence. subst v. clear Ev.
  apply rbind_Ok in H as (sh & i2 & D & H). rewrite (gen_shares_policy_eq L) in D. apply ok_pair in D as [<- <-].
  apply rbind_Ok in H as (dj & i2 & D & H). apply rret_Ok in H as [<- <-].
  replace (gsh (FOr (pre ++ g :: post)) (lmsk_alpha1 msk) t i) with (gsh (FOr (pre ++ g :: post)) (lmsk_alpha1 msk) t (i + 0)) in D by (f_equal; lia).
  replace (i + nd (FOr (pre ++ g :: post))) with (i + 0 + nd (FOr (pre ++ g :: post))) in D by lia.
  destruct (rmap_alternative _ (fun (x : string * F C) random =>
    let striped := remove_index (fst x) in
    obind (is_negative striped) (fun neg =>
    if neg : bool then
      obind (unwrap_res (sha3_hash_fr striped)) (fun share_hash =>
      Ok (LswDj striped (g1zero C) (g2zero C)
              (g1add C (g1mul C (lpk_g1 pk) (snd x)) (g1mul C (lpk_g1b2 pk) random))
              (g1add C (g1mul C (lpk_g1b pk) (fmul C share_hash random)) (g1mul C (lmsk_hg1 msk) random))
              (g1mul C (lpk_g1 pk) (fopp C random))))
    else
      obind (unwrap_res (sha3_hash_g1 (lpk_g1 pk) striped)) (fun share_hash =>
      Ok (LswDj striped
              (g1add C (g1mul C (lpk_g1 pk) (fmul C (lmsk_alpha2 msk) (snd x))) (g1mul C share_hash random))
              (g2mul C (lpk_g2 pk) random)
              (g1zero C) (g1zero C) (g1zero C)))))
      (fun _ b => b) _ _ _ g' _ _ _ _ _ _ D) as (A & B & E & Edj & LA & LD & LB & R).
  - intros a u k. cbv zeta. unfold rbind at 1, draw at 1. unfold rbind at 1, rlift at 1.
    destruct (is_negative _) as [[|]| |]; cbn [obind]; [| |reflexivity|reflexivity]; unfold rbind, rlift, rret; destruct (unwrap_res _); reflexivity.
  - intros x y d b Ex Es Hb. cbv zeta in *. rewrite <- Ex, <- Es. exact Hb.
  - exact Bl.
  - exists A, B, E. cbn [lsk_dj]. split; [exact Edj|]. split; [exact LA|]. split; [exact LD|].
    set (t' := fun n => t (i + drawn_for 0 pre g post n)) in *.
    unfold lsw_keygen. unfold rbind at 1, rlift at 1. rewrite P'. unfold rbind at 1. rewrite (gen_shares_policy_eq L).
    unfold rbind at 1. cbv zeta in R. rewrite R. unfold rret. f_equal. f_equal. f_equal.
    now rewrite snd_combine by lia.
Qed.

(** ** YCT14 *)
Lemma yct_du_app (msk : yct_msk C) l : forall m r, yct_du msk (l ++ m) = Ok r ->
  exists a b, r = a ++ b /\ yct_du msk l = Ok a /\ yct_du msk m = Ok b.
Proof.
  induction l as [|x l IH]; intros m r H; cbn [List.app yct_du] in H.
  - exists [], r. repeat split; assumption.
  - cbn [yct_du]. destruct (private_from _ msk) as [y| |]; try discriminate.
    + apply obind_Ok in H as (ys & Hys & H). injection H as <-. destruct (IH _ _ Hys) as (a & b & -> & Ha & Hb).
      exists (y :: a), b. rewrite Ha. repeat split. exact Hb.
    + destruct (IH _ _ H) as (a & b & -> & Ha & Hb). exists a, b. repeat split; assumption.
Qed.

Lemma yct_du_bare (msk : yct_msk C) l : forall l', map bare l = map bare l' -> yct_du msk l = yct_du msk l'.
Proof.
  induction l as [|x l IH]; intros [|y l'] H; try discriminate; [reflexivity|]. cbn in H. injection H as H1 H2 H3.
  cbn [yct_du]. rewrite H1, H2, (IH _ H3). reflexivity.
Qed.

Lemma yct_du_names (msk : yct_msk C) l : forall r, yct_du msk l = Ok r ->
  map y_name r = filter (yct_knows msk) (map (fun x => remove_index (fst x)) l).
Proof.
  induction l as [|x l IH]; intros r H; cbn [yct_du] in H; [injection H as <-; reflexivity|]. cbn [map filter].
  unfold private_from, msk_get_private in H. cbn [fst snd] in H. unfold yct_knows at 1.
  destruct (find _ (ymsk_attrs msk)) as [a|] eqn:E.
  - apply find_some in E as [I E]. rewrite (proj2 (existsb_exists _ _)); [|now exists a].
    destruct (node_private a) as [si| |] eqn:Np; cbn [obind] in H; [|unfold node_private in Np; destruct (y_node a) as [[?|?]|]; discriminate|discriminate].
    destruct (unwrap (finv_opt si)) as [d| |] eqn:Ei; cbn [obind] in H; [|unfold unwrap in Ei; destruct (finv_opt si); discriminate|discriminate].
    apply obind_Ok in H as (ys & Hys & H). injection H as <-. cbn [map y_name]. f_equal. exact (IH _ Hys).
  - destruct (existsb _ (ymsk_attrs msk)) eqn:X; [|exact (IH _ H)].
    apply existsb_exists in X as (a & I & X). pose proof (find_none _ _ E a I) as N. cbn beta in N. rewrite X in N. discriminate N.
Qed.

Lemma gsh_or_removed l (s : F C) t : forall i, map (fun x => remove_index (fst x)) (gsh_or s t l i) = map remove_index (map fst (flat_map leaves l)).
Proof.
  induction l as [|g l IH]; intros i; [reflexivity|]. cbn [gsh_or flat_map]. now rewrite !map_app, gsh_removed, IH.
Qed.

Lemma yct_alternative (msk : yct_msk C) pol lang pol' lang' pre g post g' t i sk j :
  parse pol lang = Ok (tree (FOr (pre ++ g :: post))) -> parse pol' lang' = Ok (tree g') -> blank g' = blank g ->
  yct_keygen msk pol lang t i = Ok (sk, j) ->
  exists A B D, ysk_du sk = A ++ B ++ D /\
    map y_name A = filter (yct_knows msk) (map remove_index (map fst (flat_map leaves pre))) /\
    map y_name D = filter (yct_knows msk) (map remove_index (map fst (flat_map leaves post))) /\
    yct_keygen msk pol' lang' (fun n => t (i + drawn_for 0 pre g post n)) 0 = Ok (YctSk (pol', lang') B, coins g).
Proof.
  intros P P' Bl H. unfold yct_keygen in H.
  apply rbind_Ok in H as (v & i2 & D & H). apply rlift_Ok in D as [Ev <-]. rewrite P in Ev.
  assert (Ev' : v = tree (FOr (pre ++ g :: post))) by congruence. subst v. clear Ev.
  apply rbind_Ok in H as (sh & i2 & D & H). rewrite (gen_shares_policy_eq L) in D. apply ok_pair in D as [<- <-].
  apply rbind_Ok in H as (du & i2 & D & H). apply rlift_Ok in D as [Ed <-]. apply rret_Ok in H as [<- <-].
  rewrite gsh_FOr, gsh_or_app in Ed. cbn [gsh_or] in Ed.
  apply yct_du_app in Ed as (A & BD & -> & EA & EBD). apply yct_du_app in EBD as (B & D & -> & EB & ED).
  exists A, B, D. split; [reflexivity|].
  split; [rewrite (yct_du_names _ _ _ EA), gsh_or_removed; reflexivity|].
  split; [rewrite (yct_du_names _ _ _ ED), gsh_or_removed; reflexivity|].
  unfold yct_keygen. unfold rbind at 1, rlift at 1. rewrite P'. unfold rbind at 1. rewrite (gen_shares_policy_eq L).
  unfold rbind, rlift.
  rewrite (yct_du_bare _ _ (gsh g (ymsk_s msk) t (i + list_sum (map nd pre)))).
  - rewrite EB. unfold rret. now rewrite (blank_same _ _ Bl).
  - rewrite (gsh_alike g' g _ _ _ Bl). f_equal. apply gsh_at. intros k Hk. unfold drawn_for.
    destruct (Nat.ltb_spec (0 + k) 0); [lia|]. change (coins g) with (nd g). destruct (Nat.ltb_spec (0 + k) (0 + nd g)); [|lia].
    change coins with nd. f_equal. lia.
Qed.
End Sharing.
