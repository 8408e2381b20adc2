(** * LessenedProofs: alternatives deleted anywhere in a policy (C155) *)
From Coq Require Import String List Bool Arith Lia.
From Verif Require Import Base Crypto Policy Tools Sharing Parse Spec PolicyProofs Poly SharingProofs Symmetric Draws DrawsProofs
  Bsw Ghw11 Lsw Yct14 Alternative AlternativeProofs Lessened.
Import ListNotations.

Scheme lessened_mut := Minimality for lessened Sort Prop
  with lessened_all_mut := Minimality for lessened_all Sort Prop
  with lessened_some_mut := Minimality for lessened_some Sort Prop.
Combined Scheme lessened_ind3 from lessened_mut, lessened_all_mut, lessened_some_mut.

(** ** Masks *)

Lemma those_app {A} m m' : forall l l' : list A, length m = length l -> those (m ++ m') (l ++ l') = those m l ++ those m' l'.
Proof.
  induction m as [|b m IH]; intros [|x l] l' H; try discriminate; [reflexivity|]. cbn in *. rewrite IH by lia. destruct b; reflexivity.
Qed.

Lemma those_true {A} n : forall l : list A, length l = n -> those (repeat true n) l = l.
Proof. induction n as [|n IH]; intros [|x l] H; try discriminate; [reflexivity|]. cbn in *. now rewrite IH by lia. Qed.

Lemma those_false {A} n : forall l : list A, those (repeat false n) l = [].
Proof. induction n as [|n IH]; intros [|x l]; cbn; auto. Qed.

Lemma those_map {A B} (f : A -> B) m : forall l, those m (map f l) = map f (those m l).
Proof. induction m as [|b m IH]; intros [|x l]; cbn; try reflexivity. rewrite IH. destruct b; reflexivity. Qed.

Lemma those_combine {A B} m : forall (l : list A) (l' : list B), length l = length l' ->
  those m (combine l l') = combine (those m l) (those m l').
Proof.
  induction m as [|b m IH]; intros [|x l] [|y l'] H; try discriminate; try reflexivity. cbn in *. rewrite IH by lia. destruct b; reflexivity.
Qed.

Lemma those_len {A B} m : forall (l : list A) (l' : list B), length l = length l' -> length (those m l) = length (those m l').
Proof.
  induction m as [|b m IH]; intros [|x l] [|y l'] H; try discriminate; try reflexivity. cbn in *. injection H as H. destruct b; cbn; rewrite (IH _ _ H); reflexivity.
Qed.

Lemma omap_those {A B} (f : A -> outcome B) m : forall l r, omap f l = Ok r -> omap f (those m l) = Ok (those m r).
Proof.
  induction m as [|b m IH]; intros [|x l] r H; cbn in H.
  - injection H as <-. reflexivity.
  - reflexivity.
  - injection H as <-. reflexivity.
  - apply obind_Ok in H as (y & Hy & H). apply obind_Ok in H as (ys & Hys & H). injection H as <-. cbn.
    destruct b; [cbn; rewrite Hy; cbn; rewrite (IH _ _ Hys); reflexivity|exact (IH _ _ Hys)].
Qed.

(** ** The masks have the lengths of what they select from *)
Lemma lessened_lengths :
  (forall f f' km cm, lessened f f' km cm -> length km = length (leaves f) /\ length cm = nd f) /\
  (forall l l' km cm, lessened_all l l' km cm -> length l' = length l /\ length km = length (flat_map leaves l) /\ length cm = list_sum (map nd l)) /\
  (forall l l' km cm, lessened_some l l' km cm -> length km = length (flat_map leaves l) /\ length cm = list_sum (map nd l)).
Proof.
  apply lessened_ind3.
  - intros. split; reflexivity.
  - intros l l' km cm _ (E & K & M). cbn [leaves nd]. rewrite app_length, repeat_length. split; [exact K|]. now rewrite M.
  - intros l l' km cm _ H. exact H.
  - intros l g km cm _ H. exact H.
  - repeat split.
  - intros g g' l l' km cm km' cm' _ [K M] _ (E & K' & M'). cbn [flat_map map length]. rewrite lsum_cons, !app_length. lia.
  - split; reflexivity.
  - intros g g' l l' km cm km' cm' _ [K M] _ (K' & M'). cbn [flat_map map length]. rewrite lsum_cons, !app_length. lia.
  - intros g l l' km cm _ (K' & M'). cbn [flat_map map length]. rewrite lsum_cons, !app_length, !repeat_length. change coins with nd. lia.
Qed.

(** ** What is left asks for no less *)
Lemma lessened_sat own :
  (forall f f' km cm, lessened f f' km cm -> sat own f' = true -> sat own f = true) /\
  (forall l l' km cm, lessened_all l l' km cm -> forallb (sat own) l' = true -> forallb (sat own) l = true) /\
  (forall l l' km cm, lessened_some l l' km cm -> existsb (sat own) l' = true -> existsb (sat own) l = true).
Proof.
  apply lessened_ind3; cbn [sat forallb existsb].
  - auto.
  - auto.
  - auto.
  - intros l g km cm _ IH H. apply IH. rewrite H. reflexivity.
  - auto.
  - intros g g' l l' km cm km' cm' _ IH _ IHl H. apply andb_true_iff in H as [H H']. rewrite (IH H), (IHl H'). reflexivity.
  - auto.
  - intros g g' l l' km cm km' cm' _ IH _ IHl H. apply orb_true_iff in H as [H|H]; [rewrite (IH H)|rewrite (IHl H), orb_true_r]; reflexivity.
  - intros g l l' km cm _ IHl H. rewrite (IHl H), orb_true_r. reflexivity.
Qed.

Lemma lessened_sat_one own f f' km cm : lessened f f' km cm -> sat own f' = true -> sat own f = true.
Proof. apply lessened_sat. Qed.

(** ** The names left *)
Lemma lessened_names :
  (forall f f' km cm, lessened f f' km cm -> map fst (leaves f') = those km (map fst (leaves f))) /\
  (forall l l' km cm, lessened_all l l' km cm -> map fst (flat_map leaves l') = those km (map fst (flat_map leaves l))) /\
  (forall l l' km cm, lessened_some l l' km cm -> map fst (flat_map leaves l') = those km (map fst (flat_map leaves l))).
Proof.
  apply lessened_ind3; cbn [leaves flat_map map].
  - reflexivity.
  - auto.
  - auto.
  - intros l g km cm _ IH. rewrite app_nil_r in IH. exact IH.
  - reflexivity.
  - intros g g' l l' km cm km' cm' H IH _ IHl. rewrite !map_app, those_app, IH, IHl; [reflexivity|].
    rewrite map_length. apply (proj1 lessened_lengths _ _ _ _ H).
  - reflexivity.
  - intros g g' l l' km cm km' cm' H IH _ IHl. rewrite !map_app, those_app, IH, IHl; [reflexivity|].
    rewrite map_length. apply (proj1 lessened_lengths _ _ _ _ H).
  - intros g l l' km cm _ IHl. rewrite map_app, those_app, those_false by now rewrite repeat_length, map_length. exact IHl.
Qed.

Lemma lessened_names_one f f' km cm : lessened f f' km cm -> map fst (leaves f') = those km (map fst (leaves f)).
Proof. apply lessened_names. Qed.

(** ** The draws left *)
Lemma lessened_coins {A} :
  (forall f f' km cm, lessened f f' km cm -> forall d : list A, length d = nd f -> length (those cm d) = nd f') /\
  (forall l l' km cm, lessened_all l l' km cm -> forall d : list A, length d = list_sum (map nd l) -> length (those cm d) = list_sum (map nd l')) /\
  (forall l l' km cm, lessened_some l l' km cm -> forall d : list A, length d = list_sum (map nd l) -> length (those cm d) = list_sum (map nd l')).
Proof.
  assert (Sp : forall n k (d : list A), length d = n + k -> exists a b, d = a ++ b /\ length a = n /\ length b = k).
  { intros n k d H. exists (firstn n d), (skipn n d). rewrite firstn_skipn, firstn_length, skipn_length. repeat split; lia. }
  apply lessened_ind3; cbn [nd].
  - intros n p p' [|x d] H; [reflexivity|discriminate].
  - intros l l' km cm H IH d Hd. apply Sp in Hd as (a & b & -> & Ha & Hb).
    rewrite those_app by now rewrite repeat_length. rewrite app_length, those_true, IH by assumption.
    destruct (proj1 (proj2 lessened_lengths) _ _ _ _ H) as (-> & _ & _). now rewrite Ha.
  - auto.
  - intros l g km cm _ IH d Hd. rewrite (IH d Hd). cbn [map]. rewrite lsum_cons. cbn. lia.
  - intros [|x d] H; [reflexivity|discriminate].
  - intros g g' l l' km cm km' cm' H IH _ IHl d Hd. cbn [map] in *. rewrite lsum_cons in *.
    apply Sp in Hd as (a & b & -> & Ha & Hb). destruct (proj1 lessened_lengths _ _ _ _ H) as [_ Lc].
    rewrite those_app by lia. rewrite app_length, IH, IHl by assumption. reflexivity.
  - intros [|x d] H; [reflexivity|discriminate].
  - intros g g' l l' km cm km' cm' H IH _ IHl d Hd. cbn [map] in *. rewrite lsum_cons in *.
    apply Sp in Hd as (a & b & -> & Ha & Hb). destruct (proj1 lessened_lengths _ _ _ _ H) as [_ Lc].
    rewrite those_app by lia. rewrite app_length, IH, IHl by assumption. reflexivity.
  - intros g l l' km cm _ IHl d Hd. cbn [map] in Hd. rewrite lsum_cons in Hd.
    apply Sp in Hd as (a & b & -> & Ha & Hb). rewrite those_app by (rewrite repeat_length; change coins with nd; lia).
    rewrite those_false. cbn [List.app]. apply IHl, Hb.
Qed.

Lemma app_split {A} (a a' b b' : list A) : length a = length a' -> a ++ b = a' ++ b' -> a = a' /\ b = b'.
Proof.
  revert a'. induction a as [|x a IH]; intros [|y a'] H E; try discriminate; [split; [reflexivity|exact E]|].
  cbn in *. injection E as -> E. injection H as H. destruct (IH _ H E) as [-> ->]. split; reflexivity.
Qed.

Section Sharing.
Context {C : crypto} (L : laws C).

Lemma gsh_and_len a (t : nat -> F C) l : forall x i, length (gsh_and a t l x i) = length (flat_map leaves l).
Proof. induction l as [|g l IH]; intros x i; [reflexivity|]. cbn [gsh_and flat_map]. now rewrite !app_length, gsh_len, IH. Qed.

Lemma those_draws {f f' km cm} (H : lessened f f' km cm) (t : nat -> F C) i : length (those cm (map t (seq i (nd f)))) = nd f'.
Proof. apply (proj1 lessened_coins _ _ _ _ H). now rewrite map_length, seq_length. Qed.

(** The draws of a member and those of the rest. *)
Lemma draws_split {g g' km cm} (H : lessened g g' km cm) cm' (t t' : nat -> F C) i i' n n' :
  map t' (seq i' (nd g' + n')) = those (cm ++ cm') (map t (seq i (nd g + n))) ->
  map t' (seq i' (nd g')) = those cm (map t (seq i (nd g))) /\
  map t' (seq (i' + nd g') n') = those cm' (map t (seq (i + nd g) n)).
Proof.
  intros E. rewrite !seq_app, !map_app, those_app in E.
  - apply app_split in E; [exact E|]. rewrite map_length, seq_length. symmetry. apply (those_draws H).
  - rewrite map_length, seq_length. apply (proj1 lessened_lengths _ _ _ _ H).
Qed.

(** The shares of what is left are those of its leaves among the shares of the whole. *)
Lemma lessened_gsh :
  (forall f f' km cm, lessened f f' km cm -> forall (s : F C) t i t' i',
     map t' (seq i' (nd f')) = those cm (map t (seq i (nd f))) ->
     map bare (those km (gsh f s t i)) = map bare (gsh f' s t' i')) /\
  (forall l l' km cm, lessened_all l l' km cm -> forall a x t i (t' : nat -> F C) i',
     map t' (seq i' (list_sum (map nd l'))) = those cm (map t (seq i (list_sum (map nd l)))) ->
     map bare (those km (gsh_and a t l x i)) = map bare (gsh_and a t' l' x i')) /\
  (forall l l' km cm, lessened_some l l' km cm -> forall (s : F C) t i t' i',
     map t' (seq i' (list_sum (map nd l'))) = those cm (map t (seq i (list_sum (map nd l)))) ->
     map bare (those km (gsh_or s t l i)) = map bare (gsh_or s t' l' i')).
Proof.
  apply lessened_ind3.
  - intros n p p' s t i t' i' _. cbn [gsh those]. cbn [map]. f_equal. unfold bare. cbn [fst snd]. now rewrite !remove_index_node.
  - intros l l' km cm H IH s t i t' i' E. rewrite !gsh_FAnd. cbn [nd] in E.
    destruct (proj1 (proj2 lessened_lengths) _ _ _ _ H) as (El & _ & _). rewrite El in E |- *.
    rewrite !seq_app, !map_app, those_app in E by now rewrite repeat_length, map_length, seq_length.
    rewrite those_true in E by now rewrite map_length, seq_length.
    apply app_split in E as [E E']; [|now rewrite !map_length, !seq_length]. rewrite E. apply IH, E'.
  - intros l l' km cm _ IH s t i t' i' E. rewrite !gsh_FOr. apply IH, E.
  - intros l g km cm _ IH s t i t' i' E. rewrite gsh_FOr, (IH s t i t' i').
    + cbn [gsh_or]. now rewrite app_nil_r.
    + cbn [map]. rewrite lsum_cons. cbn [list_sum fold_right]. rewrite Nat.add_0_r. exact E.
  - reflexivity.
  - intros g g' l l' km cm km' cm' H IH _ IHl a x t i t' i' E. cbn [map] in E. rewrite !lsum_cons in E.
    apply (draws_split H) in E as [E E']. cbn [gsh_and].
    rewrite those_app by (rewrite gsh_len; apply (proj1 lessened_lengths _ _ _ _ H)).
    rewrite !map_app. rewrite (IH _ _ _ _ _ E), (IHl _ _ _ _ _ _ E'). reflexivity.
  - reflexivity.
  - intros g g' l l' km cm km' cm' H IH _ IHl s t i t' i' E. cbn [map] in E. rewrite !lsum_cons in E.
    apply (draws_split H) in E as [E E']. cbn [gsh_or].
    rewrite those_app by (rewrite gsh_len; apply (proj1 lessened_lengths _ _ _ _ H)).
    rewrite !map_app. rewrite (IH _ _ _ _ _ E), (IHl _ _ _ _ _ E'). reflexivity.
  - intros g l l' km cm _ IHl s t i t' i' E. cbn [map] in E. rewrite lsum_cons in E.
    rewrite seq_app, map_app, those_app in E by now rewrite repeat_length, map_length, seq_length.
    rewrite those_false in E. cbn [List.app] in E. cbn [gsh_or].
    rewrite those_app, those_false by now rewrite repeat_length, gsh_len. cbn [List.app]. apply IHl, E.
Qed.

Lemma map_nth_seq (l : list (F C)) : forall n k, map (listed l) (seq k n) = map (listed (skipn k l)) (seq 0 n).
Proof.
  intros n k. apply map_at. intros q _. unfold listed. cbn. revert l. induction k as [|k IH]; intros l; [reflexivity|].
  destruct l as [|x l]; cbn; [destruct q; reflexivity|apply IH].
Qed.

Lemma listed_all (l : list (F C)) : map (listed l) (seq 0 (length l)) = l.
Proof.
  induction l as [|x l IH]; [reflexivity|]. cbn [length seq map]. unfold listed at 1. cbn [nth]. f_equal.
  transitivity (map (listed l) (seq 0 (length l))); [|exact IH]. apply map_at. reflexivity.
Qed.

(** What a tape of kept draws gives between two positions. *)
Lemma kept_between (a b c : list bool) (t : nat -> F C) i k n :
  length (those a (map t (seq i (length a)))) = k -> length (those b (map t (seq (i + length a) (length b)))) = n ->
  map (kept (a ++ b ++ c) t i) (seq k n) = those b (map t (seq (i + length a) (length b))).
Proof.
  intros K N. unfold kept. rewrite !app_length, !seq_app, !map_app.
  rewrite those_app by now rewrite map_length, seq_length. rewrite those_app by now rewrite map_length, seq_length.
  rewrite map_nth_seq. rewrite <- K, skipn_app, skipn_all, Nat.sub_diag. cbn [List.app skipn].
  rewrite <- N. generalize (those b (map t (seq (i + length a) (length b)))) as d. intros d.
  transitivity (map (listed d) (seq 0 (length d))); [|apply listed_all].
  apply map_at. intros q Hq. unfold listed. cbn [Nat.add]. now rewrite app_nth1.
Qed.

Local Open Scope rand_scope.

(** ** BSW *)
Lemma bsw_lessened nonce (pk : bsw_pk C) pol lang pol' lang' pt f f' km cm t i ct j :
  parse pol lang = Ok (tree f) -> parse pol' lang' = Ok (tree f') -> lessened f f' km cm ->
  bsw_encrypt nonce pk pol lang pt t i = Ok (ct, j) ->
  bsw_encrypt nonce pk pol' lang' pt (kept ([true; true] ++ cm) t i) 0 =
    Ok (BswCt (pol', lang') (bct_c ct) (bct_cp ct) (bsw_marked (marks f') (those km (bct_cy ct))) (bct_data ct), 2 + coins f').
Proof.
  intros P P' Le H. unfold bsw_encrypt in H.
  apply rbind_Ok in H as (sec & i1 & D & H). unfold draw in D. injection D as <- <-.
  apply rbind_Ok in H as (msg & i2 & Dm & H). unfold draw_gt in Dm. apply rbind_Ok in Dm as (x & i3 & D & Dm).
  unfold draw in D. injection D as <- <-. apply rret_Ok in Dm as [<- <-].
  apply rbind_Ok in H as (v & i2 & D & H). apply rlift_Ok in D as [Ev <-]. rewrite P in Ev.
  assert (Ev' : v = tree f) by congruence. subst v. clear Ev.
  apply rbind_Ok in H as (sh & i2 & D & H). rewrite (gen_shares_policy_eq L) in D. apply ok_pair in D as [<- <-].
  apply rbind_Ok in H as (cy & i2 & D & H). apply rlift_Ok in D as [Ecy <-].
  apply rbind_Ok in H as (dat & i2 & D & H). apply rlift_Ok in D as [Ed <-]. apply rret_Ok in H as [<- <-].
  set (t' := kept ([true; true] ++ cm) t i).
  assert (Lc : length cm = nd f) by apply (proj1 lessened_lengths _ _ _ _ Le).
  assert (EB : map bare (those km (gsh f (t i) t (S (S i)))) = map bare (gsh f' (t i) t' 2)).
  { apply (proj1 lessened_gsh _ _ _ _ Le). unfold t'. replace ([true; true] ++ cm) with ([true; true] ++ cm ++ []) by now rewrite app_nil_r.
    replace (S (S i)) with (i + length [true; true]) by (cbn; lia). rewrite <- Lc. apply kept_between; [reflexivity|].
    rewrite Lc. apply (those_draws Le). }
  cbn [snd fst bct_cy bct_c bct_cp bct_data].
  apply (omap_those _ km) in Ecy.
  unfold bsw_encrypt. unfold rbind at 1, draw at 1. unfold rbind at 1, draw_gt at 1. unfold rbind at 1, draw at 1. unfold rret at 1.
  unfold rbind at 1, rlift at 1. rewrite P'. unfold rbind at 1. rewrite (gen_shares_policy_eq L).
  assert (T0 : t' 0 = t i) by reflexivity.
  assert (T1 : t' 1 = t (S i)) by reflexivity.
  rewrite T0, T1. unfold rbind at 1, rlift at 1.
  rewrite (omap_along _ _ (fun (x : string * F C) (b : battr C) => BAttr (fst x) (b_g1 b) (b_g2 b)) (those km (gsh f (t i) t (S (S i)))) (gsh f' (t i) t' 2)) with (2 := Ecy).
  - unfold rbind, rlift. rewrite Ed. unfold rret. f_equal. f_equal.
    f_equal. unfold bsw_marked. rewrite <- (gsh_marks f' (t i) t' 2).
    generalize (gsh f' (t i) t' 2) as l. generalize (those km cy) as b. clear. intros b l. revert b.
    induction l as [|x l IH]; intros [|y b]; cbn; [reflexivity..|]. now rewrite IH.
  - apply bare_Forall2 in EB. revert EB. apply Forall2_weaken. intros x y [R S] b0 H. rewrite <- R, <- S.
    apply obind_Ok in H as (h & -> & H). injection H as <-. reflexivity.
Qed.

(** ** Loops that draw for each leaf *)
Lemma rmap_lessened {B'} (fn : string * F C -> rand (F C) B') (h : string * F C -> F C -> outcome B') (rel : string -> B' -> B')
  f f' km cm k (s : F C) t i r j :
  rmap fn (gsh f s t (i + k)) t (i + k + nd f) = Ok (r, j) ->
  (forall a t i, fn a t i = match h a (t i) with Ok b => Ok (b, S i) | Err => Err | Panic => Panic end) ->
  (forall x y d b, remove_index (fst x) = remove_index (fst y) -> snd x = snd y -> h x d = Ok b -> h y d = Ok (rel (fst y) b)) ->
  lessened f f' km cm ->
  length (those km r) = length (marks f') /\
  rmap fn (gsh f' s (kept (repeat true k ++ cm ++ km) t i) k) (kept (repeat true k ++ cm ++ km) t i) (k + nd f') =
      Ok (map (fun x => rel (fst x) (snd x)) (combine (marks f') (those km r)), k + coins f' + length (leaves f')).
Proof.
  intros H Hf Hr Le. set (t' := kept (repeat true k ++ cm ++ km) t i).
  destruct (proj1 lessened_lengths _ _ _ _ Le) as [Lk Lc].
  assert (K0 : length (those (repeat true k) (map t (seq i (length (repeat true k))))) = k)
    by (rewrite those_true; rewrite map_length, seq_length, repeat_length; reflexivity).
  assert (EB : map bare (those km (gsh f s t (i + k))) = map bare (gsh f' s t' k)).
  { apply (proj1 lessened_gsh _ _ _ _ Le). unfold t'. replace (i + k) with (i + length (repeat true k)) by now rewrite repeat_length.
    rewrite <- Lc. apply kept_between; [exact K0|]. rewrite Lc. apply (those_draws Le). }
  rewrite (rmap_omap _ _ Hf) in H.
  destruct (omap _ _) as [r'| |] eqn:E; try discriminate. injection H as -> _.
  assert (Lr : length r = length (gsh f s t (i + k))) by (rewrite (omap_length _ _ _ E), combine_length, map_length, seq_length; lia).
  assert (Lg : length (those km (gsh f s t (i + k))) = length (leaves f')).
  { rewrite <- (map_length bare), EB, map_length. apply gsh_len. }
  assert (Lt : length (those km r) = length (leaves f')) by (rewrite <- Lg; apply those_len, Lr).
  split. { unfold marks. rewrite map_length. exact Lt. }
  apply (omap_those _ km) in E. rewrite those_combine in E by now rewrite map_length, seq_length.
  rewrite (rmap_omap _ _ Hf).
  assert (M : map t' (seq (k + nd f') (length (gsh f' s t' k))) = those km (map t (seq (i + k + nd f) (length (gsh f s t (i + k)))))).
  { unfold t'. rewrite !gsh_len, <- Lk.
    replace (repeat true k ++ cm ++ km) with ((repeat true k ++ cm) ++ km ++ []) by now rewrite app_nil_r, app_assoc.
    replace (i + k + nd f) with (i + length (repeat true k ++ cm)) by (rewrite app_length, repeat_length, Lc; lia).
    apply kept_between.
    - rewrite app_length, seq_app, map_app, those_app by now rewrite map_length, seq_length.
      rewrite app_length, K0, Lc. f_equal. apply (those_draws Le).
    - rewrite <- Lg. apply those_len. now rewrite map_length, seq_length, gsh_len, Lk. }
  rewrite M. clear M.
  rewrite (omap_along _ _ (fun (p : (string * F C) * F C) (b : B') => rel (fst (fst p)) b)
             (combine (those km (gsh f s t (i + k))) (those km (map t (seq (i + k + nd f) (length (gsh f s t (i + k)))))))
             (combine (gsh f' s t' k) (those km (map t (seq (i + k + nd f) (length (gsh f s t (i + k)))))))) with (2 := E).
  - f_equal. f_equal; [|rewrite gsh_len; reflexivity].
    rewrite <- (gsh_marks f' s t' k).
    assert (Lm : length (those km (map t (seq (i + k + nd f) (length (gsh f s t (i + k)))))) = length (gsh f' s t' k)).
    { rewrite (gsh_len f'), <- Lg. apply those_len. now rewrite map_length, seq_length. }
    revert Lm. generalize (those km (map t (seq (i + k + nd f) (length (gsh f s t (i + k)))))) as m. generalize (gsh f' s t' k) as l.
    generalize (those km r) as b. clear.
    intros b l. revert b. induction l as [|x l IH]; intros b [|z m] Lm; try discriminate; [reflexivity|]. destruct b as [|y b]; [reflexivity|].
    cbn in *. f_equal. apply IH. lia.
  - apply bare_Forall2 in EB. eapply Forall2_weaken; [|apply (combine_Forall2 _ _ _ EB)].
    intros [x dx] [y dy] [[R S] Ee] b0 H. cbn [fst snd] in *. subst dy. exact (Hr _ _ _ _ R S H).
Qed.

(** ** GHW11 *)
Lemma ghw_lessened nonce (pk : ghw_pk C) pol lang pol' lang' pt f f' km cm t i ct j :
  parse pol lang = Ok (tree f) -> parse pol' lang' = Ok (tree f') -> lessened f f' km cm ->
  ghw_encrypt nonce pk pol lang pt t i = Ok (ct, j) ->
  ghw_encrypt nonce pk pol' lang' pt (kept ([true; true] ++ cm ++ km) t i) 0 =
    Ok (GhwCt (pol', lang') (gct_c ct) (gct_c1 ct) (ghw_marked (marks f') (those km (gct_cidi ct))) (gct_data ct), 2 + coins f' + length (leaves f')).
Proof.
  intros P P' Le H. unfold ghw_encrypt in H.
  apply rbind_Ok in H as (sec & i1 & D & H). unfold draw in D. injection D as <- <-.
  apply rbind_Ok in H as (msg & i2 & Dm & H). unfold draw_gt in Dm. apply rbind_Ok in Dm as (x & i3 & D & Dm).
  unfold draw in D. injection D as <- <-. apply rret_Ok in Dm as [<- <-].
  apply rbind_Ok in H as (v & i2 & D & H). apply rlift_Ok in D as [Ev <-]. rewrite P in Ev.
  assert (Ev' : v = tree f) by congruence. subst v. clear Ev.
  apply rbind_Ok in H as (sh & i2 & D & H). rewrite (gen_shares_policy_eq L) in D. apply ok_pair in D as [<- <-].
  apply rbind_Ok in H as (cd & i2 & D & H).
  apply rbind_Ok in H as (dat & i4 & Dd & H). apply rlift_Ok in Dd as [Ed <-]. apply rret_Ok in H as [<- <-].
  replace (S (S i)) with (i + 2) in D by lia.
  destruct (rmap_lessened _ (fun (x : string * F C) t_i =>
      obind (unwrap_res (sha3_hash_g1 (gpk_g1 pk) (remove_index (fst x)))) (fun h =>
      Ok (fst x, (g1add C (g1mul C (gpk_g1a pk) (snd x)) (g1mul C h (fopp C t_i)), g1mul C (gpk_g1 pk) t_i))))
      (fun m b => (m, snd b)) _ f' km cm _ _ _ _ _ _ D) as [_ R].
  - intros a u k. unfold rbind, draw, rlift, rret. destruct (unwrap_res _); reflexivity.
  - intros y z d b Ex Es Hb. rewrite <- Ex, <- Es. apply obind_Ok in Hb as (h & -> & Hb). injection Hb as <-. reflexivity.
  - exact Le.
  - cbn [gct_cidi gct_c gct_c1 gct_data]. change (repeat true 2) with [true; true] in R.
    set (t' := kept ([true; true] ++ cm ++ km) t i) in *.
    assert (T0 : t' 0 = t i) by reflexivity.
    assert (T1 : t' 1 = t (S i)) by reflexivity.
    unfold ghw_encrypt. unfold rbind at 1, draw at 1. unfold rbind at 1, draw_gt at 1. unfold rbind at 1, draw at 1. unfold rret at 1.
    unfold rbind at 1, rlift at 1. rewrite P'. unfold rbind at 1. rewrite (gen_shares_policy_eq L). rewrite T0, T1.
    unfold rbind at 1. rewrite R. unfold rbind, rlift. rewrite Ed. reflexivity.
Qed.

(** ** LSW *)
Lemma lsw_lessened (pk : lsw_pk C) msk pol lang pol' lang' f f' km cm t i sk j :
  parse pol lang = Ok (tree f) -> parse pol' lang' = Ok (tree f') -> lessened f f' km cm ->
  lsw_keygen pk msk pol lang t i = Ok (sk, j) ->
  lsw_keygen pk msk pol' lang' (kept (cm ++ km) t i) 0 = Ok (LswSk (pol', lang') (those km (lsk_dj sk)), coins f' + length (leaves f')).
Proof.
  intros P P' Le H. unfold lsw_keygen in H.
  apply rbind_Ok in H as (v & i2 & D & H). apply rlift_Ok in D as [Ev <-]. rewrite P in Ev.
  assert (Ev' : v = tree f) by congruence. subst v. clear Ev.
  apply rbind_Ok in H as (sh & i2 & D & H). rewrite (gen_shares_policy_eq L) in D. apply ok_pair in D as [<- <-].
  apply rbind_Ok in H as (dj & i2 & D & H). apply rret_Ok in H as [<- <-].
  replace (gsh f (lmsk_alpha1 msk) t i) with (gsh f (lmsk_alpha1 msk) t (i + 0)) in D by (f_equal; lia).
  replace (i + nd f) with (i + 0 + nd f) in D by lia.
  destruct (rmap_lessened _ (fun (x : string * F C) random =>
    let striped := remove_index (fst x) in
    obind (is_negative striped) (fun neg =>
    if neg : bool then
      obind (unwrap_res (sha3_hash_fr striped)) (fun share_hash =>
      Ok (LswDj striped (g1zero C) (g2zero C)
              (g1add C (g1mul C (lpk_g1 pk) (snd x)) (g1mul C (lpk_g1b2 pk) random))
              (g1add C (g1mul C (lpk_g1b pk) (fmul C share_hash random)) (g1mul C (lmsk_hg1 msk) random))
              (g1mul C (lpk_g1 pk) (fopp C random))))
    else
      obind (unwrap_res (sha3_hash_g1 (lpk_g1 pk) striped)) (fun share_hash =>
      Ok (LswDj striped
              (g1add C (g1mul C (lpk_g1 pk) (fmul C (lmsk_alpha2 msk) (snd x))) (g1mul C share_hash random))
              (g2mul C (lpk_g2 pk) random)
              (g1zero C) (g1zero C) (g1zero C)))))
      (fun _ b => b) _ f' km cm _ _ _ _ _ _ D) as [LB R].
  - intros a u k. cbv zeta. unfold rbind at 1, draw at 1. unfold rbind at 1, rlift at 1.
    destruct (is_negative _) as [[|]| |]; cbn [obind]; [| |reflexivity|reflexivity]; unfold rbind, rlift, rret; destruct (unwrap_res _); reflexivity.
  - intros x y d b Ex Es Hb. cbv zeta in *. rewrite <- Ex, <- Es. exact Hb.
  - exact Le.
  - cbn [lsk_dj]. change (repeat true 0 ++ cm ++ km) with (cm ++ km) in R.
    set (t' := kept (cm ++ km) t i) in *.
    unfold lsw_keygen. unfold rbind at 1, rlift at 1. rewrite P'. unfold rbind at 1. rewrite (gen_shares_policy_eq L).
    unfold rbind at 1. cbv zeta in R. rewrite R. unfold rret. f_equal. f_equal. f_equal.
    now rewrite snd_combine by lia.
Qed.

(** ** YCT14 *)
Lemma yct_du_those (msk : yct_msk C) km : forall l r, yct_du msk l = Ok r ->
  yct_du msk (those km l) = Ok (those (those (map (yct_knows msk) (map (fun x => remove_index (fst x)) l)) km) r).
Proof.
  induction km as [|b km IH]; intros [|x l] r H.
  - reflexivity.
  - cbn [those]. destruct (those _ (@nil bool)) eqn:E; [reflexivity|]. exfalso. cbn in E. discriminate.
  - reflexivity.
  - cbn [yct_du] in H. pose proof (yct_du_names msk [x]) as N. cbn [yct_du map filter] in N.
    cbn [map those]. destruct (private_from (remove_index (fst x), snd x) msk) as [y| |] eqn:Ey; [| |discriminate].
    + apply obind_Ok in H as (ys & Hys & H). injection H as <-. cbn [obind] in N. specialize (N _ eq_refl).
      destruct (yct_knows msk (remove_index (fst x))); [|discriminate]. cbn [those].
      destruct b; [cbn [yct_du]; rewrite Ey, (IH _ _ Hys); reflexivity|exact (IH _ _ Hys)].
    + specialize (N _ eq_refl). destruct (yct_knows msk (remove_index (fst x))); [discriminate|].
      destruct b; [cbn [yct_du]; rewrite Ey|]; exact (IH _ _ H).
Qed.

Lemma yct_lessened (msk : yct_msk C) pol lang pol' lang' f f' km cm t i sk j :
  parse pol lang = Ok (tree f) -> parse pol' lang' = Ok (tree f') -> lessened f f' km cm ->
  yct_keygen msk pol lang t i = Ok (sk, j) ->
  yct_keygen msk pol' lang' (kept cm t i) 0 =
    Ok (YctSk (pol', lang') (those (those (map (yct_knows msk) (map remove_index (map fst (leaves f)))) km) (ysk_du sk)), coins f').
Proof.
  intros P P' Le H. unfold yct_keygen in H.
  apply rbind_Ok in H as (v & i2 & D & H). apply rlift_Ok in D as [Ev <-]. rewrite P in Ev.
  assert (Ev' : v = tree f) by congruence. subst v. clear Ev.
  apply rbind_Ok in H as (sh & i2 & D & H). rewrite (gen_shares_policy_eq L) in D. apply ok_pair in D as [<- <-].
  apply rbind_Ok in H as (du & i2 & D & H). apply rlift_Ok in D as [Ed <-]. apply rret_Ok in H as [<- <-].
  unfold yct_keygen. unfold rbind at 1, rlift at 1. rewrite P'. unfold rbind at 1. rewrite (gen_shares_policy_eq L).
  unfold rbind, rlift. cbn [ysk_du].
  assert (Lc : length cm = nd f) by apply (proj1 lessened_lengths _ _ _ _ Le).
  rewrite <- (yct_du_bare _ (those km (gsh f (ymsk_s msk) t i))).
  - apply (yct_du_those _ km) in Ed. rewrite gsh_removed in Ed. rewrite Ed. reflexivity.
  - apply (proj1 lessened_gsh _ _ _ _ Le).
    pose proof (kept_between [] cm [] t i 0 (nd f')) as K. cbn [List.app length] in K. rewrite app_nil_r, Nat.add_0_r, Lc in K.
    apply K; [reflexivity|apply (those_draws Le)].
Qed.
End Sharing.
