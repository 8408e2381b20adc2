(** * BillsProofs: the bills of the payload keys (C127) *)
From Coq Require Import String List Bool Arith Lia.
From Verif Require Import Base Crypto Policy Tools Sharing Msp Dnf Parse Symmetric Bdabe Mke08 Bsw Ghw11 Lsw Yct14 Ac17 Aw11.
From Verif Require Import Spec PolicyProofs SharingProofs CoreProofs SchemeLib BdabeProofs Mke08Proofs BswProofs LswProofs PruneMinimal Bills.
Import ListNotations.

Section BillsProofs.
Context {C : crypto}.
Notation T := (tally C).

(** The pairings and powers of an element of [Gt]. *)
Definition of_bill (g : GT T) (p e : nat) : Prop := snd g = (p, e).

Lemma opened (g : GT T) p e data s : of_bill g p e -> decrypt_symmetric (C := T) g data = Ok s -> s = bill p e.
Proof.
  unfold of_bill, decrypt_symmetric. intros B H. destruct (String.length data <? 12); [discriminate|].
  cbn in H. rewrite B in H. now injection H as <-.
Qed.

Lemma opens_long (g : GT T) p e data : of_bill g p e -> 12 <= String.length data ->
  decrypt_symmetric (C := T) g data = Ok (bill p e).
Proof.
  unfold of_bill, decrypt_symmetric. intros B H. destruct (Nat.ltb_spec (String.length data) 12); [lia|].
  cbn. now rewrite B.
Qed.

Lemma found {A B} (g : A -> B) p l x : find p (map g l) = Some x -> exists y, x = g y /\ In y l.
Proof. intros H. apply find_some in H as (I & _). apply in_map_iff in I as (y & <- & I). eauto. Qed.

(** A loop in which every round adds the same to a count. *)
Lemma ofold_count {A B} (step : B -> A -> outcome B) (m : B -> nat * nat) a b :
  (forall st x st', step st x = Ok st' -> m st' = (fst (m st) + a, snd (m st) + b)) ->
  forall l st st', ofold step l st = Ok st' -> m st' = (fst (m st) + length l * a, snd (m st) + length l * b).
Proof.
  intros K. induction l as [|x l IH]; intros st st' H; cbn [ofold] in H.
  - injection H as <-. cbn. rewrite !Nat.add_0_r. destruct (m st); reflexivity.
  - destruct (step st x) as [st1| |] eqn:E; try discriminate. cbn in H. apply IH in H. apply K in E.
    rewrite H, E. cbn [fst snd length]. f_equal; lia.
Qed.

(** What pruning hands over. *)
Lemma pruned_k attrs f l b : arity2 f = true -> calc_pruned attrs (tree f) None = Ok (b, l) -> b = true ->
  exists k, chosen (owns attrs) f k /\ length l = length k.
Proof.
  intros A H ->. apply pruned_chosen in H as (k & K & ->); [|exact A]. exists k. split; [exact K|]. now rewrite map_length.
Qed.

Lemma chosen_length own f k k' : chosen own f k -> chosen own f k' -> length k = length k'.
Proof. intros H H'. now rewrite (chosen_fun own f k k' H H'). Qed.

(** ** BSW *)

(** The number of leaves of a selection that carry a label of the list. *)
Definition present (labels : list string) (k : list (string * nat)) : nat :=
  length (filter (fun x => smem (node_index (fst x) (snd x)) labels) k).

Lemma found_label {B} (nm : B -> string) n l : (exists y, find (fun x => seqb (nm x) n) l = Some y) <-> smem n (map nm l) = true.
Proof.
  rewrite smem_In. split.
  - intros (y & E). apply find_some in E as (I & E). apply seqb_eq in E. subst n. now apply in_map.
  - intros I. apply in_map_iff in I as (y & E & I). destruct (find _ l) eqn:Ef; [eauto|].
    apply (find_none _ _ Ef) in I. cbn in I. rewrite E, seqb_refl in I. discriminate.
Qed.

Lemma one_round (g : GT T) p e n (z : list (string * F C)) : snd g = (p, e) ->
  forall a : GT T, snd (fold_left (fun a zt => if seqb (fst zt) n then gtmul T a (gtpow T g (snd zt)) else a) z a) =
    (fst (snd a) + length (filter (fun zt => seqb (fst zt) n) z) * p,
     snd (snd a) + length (filter (fun zt => seqb (fst zt) n) z) * S e).
Proof.
  intros G. induction z as [|[m w] z IH]; intros a; cbn [fold_left filter fst snd].
  - cbn [length]. rewrite !Nat.mul_0_l, !Nat.add_0_r. apply surjective_pairing.
  - rewrite IH. destruct (seqb m n); [|reflexivity]. cbn [length gtmul gtpow tally fst snd]. destruct g as [g0 b]. cbn [snd] in G. subst b.
    cbn [fst snd]. f_equal; lia.
Qed.

Lemma once n (z : list (string * F C)) : NoDup (map fst z) -> In n (map fst z) -> length (filter (fun zt => seqb (fst zt) n) z) = 1.
Proof.
  intros N I. induction z as [|[m x] z IH]; [contradiction|]. cbn [map fst] in *. inversion N as [|? ? N1 N2]; subst.
  cbn [filter fst]. destruct (seqb m n) eqn:E.
  - apply seqb_eq in E. subst m. cbn [length]. f_equal.
    clear -N1. induction z as [|[m x] z IH]; [reflexivity|]. cbn [filter fst] in *. destruct (seqb m n) eqn:E.
    + apply seqb_eq in E. subst m. exfalso. apply N1. now left.
    + apply IH. intros J. apply N1. now right.
  - destruct I as [->|I]; [now rewrite seqb_refl in E|]. now apply IH.
Qed.

Lemma chosen_owned own f k : chosen own f k -> forall x, In x k -> own (fst x) = true.
Proof.
  intros K [n p] I. pose proof (chosen_sat _ _ _ K) as S. rewrite (chosen_fun _ _ _ _ K (chosen_mask _ _ S)) in I.
  now apply pmask_owned in I.
Qed.

Theorem bsw_decrypt_bill (L : laws C) (sk : bsw_sk C) (ct : bsw_ct C) f k s :
  parse (fst (Bsw.bct_policy ct)) (snd (Bsw.bct_policy ct)) = Ok (tree f) -> arity2 f = true -> NoDup (leaves f) ->
  chosen (owns (map b_string (bsk_dj sk))) f k ->
  bsw_decrypt (C := T) (t_bsw_sk sk) (t_bsw_ct ct) = Ok s ->
  s = bill (1 + 2 * present (map b_string (bct_cy ct)) k) (present (map b_string (bct_cy ct)) k).
Proof.
  intros P A N K H. unfold bsw_decrypt in H. cbn [Bsw.bct_policy t_bsw_ct bsk_dj t_bsw_sk] in H. rewrite P in H. cbn [obind] in H.
  rewrite map_map in H. cbn [b_string t_battr] in H. destruct (traverse_policy _ _ _); [|discriminate].
  apply obind_Ok in H as ([b l] & HP & H). cbn [fst snd] in H. destruct b; [|discriminate].
  apply obind_Ok in H as (o & Ho & H). apply obind_Ok in H as (z & Hz & H).
  destruct (coefficient_leaves L f (f1 C) None) as (co & Hco & Ids).
  change (@calc_coefficients C (tree f) (f1 C) [] None = Ok o) in Ho. rewrite Hco in Ho. injection Ho as <-. injection Hz as <-.
  assert (NI : NoDup (map fst co)).
  { rewrite Ids. clear -N. induction N as [|[n p] l I N IH]; cbn; constructor; auto.
    intros J. apply in_map_iff in J as ([n' p'] & E & J). cbn in E. apply node_index_inj in E as [-> ->]. contradiction. }
  assert (Q : exists k', chosen (owns (map b_string (bsk_dj sk))) f k' /\ l = map (fun x => (fst x, node_index (fst x) (snd x))) k')
    by now apply pruned_chosen in HP.
  destruct Q as (k' & K' & ->). rewrite (chosen_fun _ _ _ _ K K'). clear K.
  assert (OW : forall x, In x k' -> In x (leaves f) /\ smem (fst x) (map b_string (bsk_dj sk)) = true).
  { intros x I. split; [exact (chosen_leaves _ _ _ K' x I)|]. apply (chosen_owned _ _ _ K' x I). }
  assert (M : forall a : GT T,
    snd (fold_left (bsw_step (C := T) (t_bsw_sk sk) (t_bsw_ct ct) co) (map (fun x => (fst x, node_index (fst x) (snd x))) k') a) =
    (fst (snd a) + 2 * present (map b_string (bct_cy ct)) k', snd (snd a) + present (map b_string (bct_cy ct)) k')).
  { clear -OW NI Ids. induction k' as [|x k' IH]; intros a.
    - cbn. rewrite !Nat.add_0_r. apply surjective_pairing.
    - cbn [map fold_left]. rewrite IH by (intros y I; apply OW; now right). clear IH.
      destruct (OW x (or_introl eq_refl)) as (IL & O). unfold present. cbn [filter].
      set (id := node_index (fst x) (snd x)) in *.
      assert (Io : In id (map fst co)) by (rewrite Ids; apply in_map_iff; exists x; split; [reflexivity|exact IL]).
      unfold bsw_step. cbn [snd fst].
      assert (FD : exists d, find (fun y => seqb (b_string y) (fst x)) (bsk_dj (t_bsw_sk sk)) = Some (t_battr d)).
      { apply found_label in O as (d & E). exists d. cbn [bsk_dj t_bsw_sk]. clear -E.
        induction (bsk_dj sk) as [|y m IH]; [discriminate|]. cbn [map find b_string t_battr] in *. destruct (seqb _ _); [now injection E as ->|auto]. }
      destruct FD as (d & FD). rewrite FD.
      destruct (find (fun y => seqb (b_string y) id) (bct_cy (t_bsw_ct ct))) as [c|] eqn:FC.
      + assert (SM : smem id (map b_string (bct_cy ct)) = true).
        { assert (X : smem id (map b_string (bct_cy (t_bsw_ct ct))) = true) by (apply found_label; exists c; exact FC).
          cbn [bct_cy t_bsw_ct] in X. rewrite map_map in X. exact X. }
        rewrite SM. cbn [length]. cbn [bct_cy t_bsw_ct] in FC. apply found in FC as (y & -> & _).
        rewrite (one_round _ 2 0) by reflexivity. rewrite (once _ _ NI Io). cbn [fst snd]. f_equal; lia.
      + destruct (smem id (map b_string (bct_cy ct))) eqn:SM; [|reflexivity]. exfalso.
        assert (X : smem id (map b_string (bct_cy (t_bsw_ct ct))) = true) by (cbn [bct_cy t_bsw_ct]; rewrite map_map; exact SM).
        apply found_label in X as (y & E). rewrite E in FC. discriminate. }
  eapply opened; [|exact H]. specialize (M (gtone T)). destruct (fold_left _ _ _) as [g pe].
  cbn [snd fst gtone tally] in M. subst pe. unfold of_bill. cbn. f_equal; lia.
Qed.

(** ** GHW11 *)

Lemma ghw_step_bill (tk : ghw_tk C) (ct : ghw_ct C) z st cur st' :
  ghw_step (C := T) (t_ghw_tk tk) (t_ghw_ct ct) z st cur = Ok st' ->
  snd (fst st') = snd (fst st) + 1 /\ snd (snd st') = (fst (snd (snd st)) + 1, snd (snd (snd st)) + 1).
Proof.
  unfold ghw_step. intros H. apply obind_Ok in H as (co & _ & H). apply obind_Ok in H as (ka & Hk & H).
  apply obind_Ok in H as (cd & Hc & H). injection H as <-.
  cbn [gtk_attr t_ghw_tk gct_cidi t_ghw_ct] in *.
  destruct (find _ (map _ (gtk_attr tk))) eqn:Fk in Hk; [|discriminate]. injection Hk as ->.
  destruct (find _ (map _ (gct_cidi ct))) eqn:Fc in Hc; [|discriminate]. injection Hc as ->.
  apply found in Fk as (yk & -> & _). apply found in Fc as (yc & -> & _). cbn. split; [reflexivity|f_equal; lia].
Qed.

Theorem ghw_transform_bill (tk : ghw_tk C) (ct : ghw_ct C) f k r :
  parse (fst (gct_policy ct)) (snd (gct_policy ct)) = Ok (tree f) -> arity2 f = true ->
  chosen (owns (map fst (gtk_attr tk))) f k ->
  ghw_transform (C := T) (t_ghw_ct ct) (t_ghw_tk tk) = Ok r ->
  gtct_c r = eT (gct_c ct) /\ snd (gtct_t r) = (length k + 2, 2 * length k).
Proof.
  intros P A K H. unfold ghw_transform in H. cbn [gct_policy t_ghw_ct gtk_attr t_ghw_tk] in H. rewrite P in H. cbn [obind] in H.
  rewrite map_map in H. cbn [fst] in H.
  destruct (traverse_policy _ _ _); [|discriminate].
  apply obind_Ok in H as ([b l] & HP & H). apply obind_Ok in H as (o & _ & H). apply obind_Ok in H as (z & _ & H).
  cbn [fst snd] in H. destruct b; [|discriminate].
  apply obind_Ok in H as (st & HF & H). injection H as <-.
  apply (pruned_k _ _ _ _ A) in HP as (k' & K' & E); [|reflexivity]. rewrite (chosen_length _ _ _ _ K K'), <- E.
  split; [reflexivity|].
  assert (M : snd (fst st) = length l /\ snd (snd st) = (length l, length l)).
  { pose proof (ofold_count (ghw_step (C := T) (t_ghw_tk tk) (t_ghw_ct ct) z) (fun st : G1 T * GT T => (snd (fst st), snd (snd (snd st)))) 1 1) as M1.
    pose proof (ofold_count (ghw_step (C := T) (t_ghw_tk tk) (t_ghw_ct ct) z) (fun st : G1 T * GT T => (fst (snd (snd st)), 0)) 1 0) as M2.
    destruct st as [[a na] [g [p e]]]. cbn [fst snd] in *.
    assert (X : (na, e) = (0 + length l * 1, 0 + length l * 1)).
    { eapply (M1 ltac:(intros s x s' E'; apply ghw_step_bill in E' as (E1 & E2); cbv beta; rewrite ?E1, E2; reflexivity) l _ _ HF). }
    assert (Y : (p, 0) = (0 + length l * 1, 0 + length l * 0)).
    { eapply (M2 ltac:(intros s x s' E'; apply ghw_step_bill in E' as (E1 & E2); cbv beta; rewrite ?E1, E2; reflexivity) l _ _ HF). }
    injection X as -> ->. injection Y as -> _. split; [lia|f_equal; lia]. }
  destruct st as [[a na] [g pe]]. cbn [fst snd] in M. destruct M as (-> & ->). cbn. f_equal; lia.
Qed.

Theorem ghw_out_bill (c : ghw_tct C) z data s :
  ghw_decrypt_out (C := T) (t_ghw_tct c) z data = Ok s -> s = bill 0 1.
Proof. apply opened. reflexivity. Qed.

(** ** LSW *)

Definition positive (n : string) : bool := negb (negated n).

Theorem lsw_decrypt_bill (sk : lsw_sk C) (ct : lsw_ct C) f k s :
  parse (fst (lsk_policy sk)) (snd (lsk_policy sk)) = Ok (tree f) -> arity2 f = true ->
  forallb positive (names f) = true ->
  chosen (owns (map le_name (lct_ej ct))) f k ->
  lsw_decrypt (C := T) (t_lsw_sk sk) (t_lsw_ct ct) = Ok s ->
  s = bill (2 * length k) (length k).
Proof.
  intros P A N K H. unfold lsw_decrypt in H. cbn [lsk_policy t_lsw_sk lct_ej t_lsw_ct] in H. rewrite P in H. cbn [obind] in H.
  rewrite map_map in H. cbn [le_name t_lsw_ej] in H.
  apply obind_Ok in H as ([b l] & HP & H). cbn [fst snd] in H. destruct b; [|discriminate].
  apply obind_Ok in H as (o & _ & H). apply obind_Ok in H as (z & _ & H). apply obind_Ok in H as (st & HF & H).
  assert (Q : exists k', chosen (owns (map le_name (lct_ej ct))) f k' /\ l = map (fun x => (fst x, node_index (fst x) (snd x))) k')
    by now apply pruned_chosen in HP.
  destruct Q as (k' & K' & ->). rewrite (chosen_fun _ _ _ _ K K').
  assert (NN : Forall (fun x => negated (fst x) = false) k').
  { apply Forall_forall. intros [n p] I. apply (chosen_leaves _ _ _ K') in I. rewrite forallb_forall in N.
    cbn. specialize (N n). unfold positive in N. destruct (negated n); [|reflexivity]. cbn in N. symmetry. apply N.
    unfold names. apply in_map_iff. exists (n, p). split; [reflexivity|exact I]. }
  eapply opened; [|exact H]. assert (M : snd (snd st) = (2 * length k', length k')).
  { clear -HF NN.
    assert (G : forall st0, ofold (lsw_step (C := T) (t_lsw_sk sk) (t_lsw_ct ct) z) (map (fun x => (fst x, node_index (fst x) (snd x))) k') st0 = Ok st ->
      snd (snd st) = (fst (snd (snd st0)) + 2 * length k', snd (snd (snd st0)) + length k')).
    { clear HF. induction NN as [|x l Hx _ IH]; intros st0 H; cbn [map ofold] in H.
      - injection H as <-. cbn. rewrite !Nat.add_0_r. apply surjective_pairing.
      - apply obind_Ok in H as (st1 & E & H). apply IH in H. rewrite H. clear IH H.
        unfold lsw_step in E. cbn [fst snd] in E.
        apply obind_Ok in E as (d & Hd & E). apply obind_Ok in E as (e & He & E). apply obind_Ok in E as (co & _ & E).
        apply obind_Ok in E as (neg & Hn & E). apply is_negative_Ok in Hn. rewrite Hx in Hn. subst neg. injection E as <-.
        cbn [lsk_dj t_lsw_sk lct_ej t_lsw_ct] in *.
        destruct (find _ (map _ (lsk_dj sk))) eqn:Fd in Hd; [|discriminate]. injection Hd as ->.
        destruct (find _ (map _ (lct_ej ct))) eqn:Fe in He; [|discriminate]. injection He as ->.
        apply found in Fd as (yd & -> & _). apply found in Fe as (ye & -> & _). cbn. f_equal; lia. }
    apply G in HF. exact HF. }
  destruct st as [g1 [g pe]]. cbn [snd] in M. rewrite M. reflexivity.
Qed.

(** ** YCT14 *)

Lemma yct_public_given (ct : yct_ct C) n g :
  ct_get_public (C := T) (t_yct_ct ct) n = Ok g -> snd g = (0, 0).
Proof.
  unfold ct_get_public. cbn [yct_attrs t_yct_ct]. destruct (find _ _) eqn:E; [|discriminate].
  apply found in E as (y0 & -> & _). unfold node_public. cbn [y_node t_yct_attr].
  destruct (y_node y0) as [[]|]; cbn; try discriminate. intros H. now injection H as <-.
Qed.

Theorem yct_decrypt_bill (sk : yct_sk C) (ct : yct_ct C) f k s :
  parse (fst (ysk_policy sk)) (snd (ysk_policy sk)) = Ok (tree f) -> arity2 f = true ->
  chosen (owns (map y_name (yct_attrs ct))) f k ->
  yct_decrypt (C := T) (t_yct_sk sk) (t_yct_ct ct) = Ok s ->
  s = bill 0 (2 * length k).
Proof.
  intros P A K H. unfold yct_decrypt in H. cbn [ysk_policy t_yct_sk] in H. rewrite P in H. cbn [obind] in H.
  cbn [yct_attrs t_yct_ct] in H. rewrite map_map in H. cbn [y_name t_yct_attr] in H.
  apply obind_Ok in H as ([b l] & HP & H). cbn [fst snd] in H. destruct b; [|discriminate].
  apply obind_Ok in H as (o & _ & H). apply obind_Ok in H as (z & _ & H). apply obind_Ok in H as (pr & HF & H).
  apply (pruned_k _ _ _ _ A) in HP as (k' & K' & E); [|reflexivity]. rewrite (chosen_length _ _ _ _ K K'), <- E.
  eapply opened; [|exact H].
  pose proof (ofold_count (yct_step (C := T) (t_yct_sk sk) (t_yct_ct ct) z) (fun g : GT T => snd g) 0 2) as M.
  unfold of_bill. rewrite (M ltac:(clear; intros st x st' E; unfold yct_step in E;
    apply obind_Ok in E as (g & Hg & E); apply obind_Ok in E as (x' & _ & E); apply obind_Ok in E as (co & _ & E); injection E as <-;
    destruct (ct_get_public (t_yct_ct ct) (fst x)) eqn:G in Hg; try discriminate; injection Hg as ->;
    apply yct_public_given in G; cbn; rewrite G; cbn; f_equal; lia) l _ _ HF). cbn. f_equal; lia.
Qed.

Theorem yct_encrypt_bill nonce (pk : yct_pk C) attrs data t i ct j :
  yct_encrypt (C := T) nonce (t_yct_pk pk) attrs data t i = Ok (ct, j) ->
  yct_data ct = (nonce ++ bill 0 1)%string /\
  Forall (fun a : yct_attr T => exists g : GT T, y_node a = Some (YPub g) /\ snd g = (0, 1)) (yct_attrs ct).
Proof.
  unfold yct_encrypt. intros H. destruct attrs as [|a0 attrs]; [discriminate|]. destruct data as [|c data]; [discriminate|].
  apply rbind_Ok in H as (k & i1 & H1 & H).
  apply rbind_Ok in H as (l & i2 & H2 & H). apply rbind_Ok in H as (d & i3 & H3 & H).
  apply rret_Ok in H as (<- & _). apply rlift_Ok in H2 as (H2 & _). apply rlift_Ok in H3 as (H3 & _).
  cbn in H3. injection H3 as <-. cbn [yct_data yct_attrs]. split; [reflexivity|].
  apply omap_Forall2 in H2. clear H1. induction H2 as [|x y l1 l2 E _ IH]; constructor; [|exact IH].
  unfold public_from in E. cbn [ypk_attrs t_yct_pk] in E. destruct (find _ _) eqn:G; [|discriminate].
  apply found in G as (y' & -> & _). cbn [y_node t_yct_attr] in E. destruct (y_node y') as [[]|]; cbn in E; try discriminate.
  injection E as <-. eexists. split; [reflexivity|reflexivity].
Qed.

(** ** AC17 *)

Lemma idx_given {A} (g : A -> A * nat) l i x : (forall y, snd (g y) = 0) -> idx (map g l) i = Ok x -> snd x = 0.
Proof.
  intros G H. unfold idx in H. destruct (nth_error (map g l) i) eqn:E; [|discriminate]. injection H as ->.
  apply nth_error_In in E. apply in_map_iff in E as (y & <- & _). apply G.
Qed.

Lemma select_given (es : list (string * list (G1 C))) i sel x :
  select_sum (C := T) (map (fun a => (fst a, map e1 (snd a))) es) i sel = Ok x -> snd x = 0.
Proof.
  unfold select_sum. intros H.
  assert (I : forall (e : string * list (G1 C)) (cur : string * string) (acc acc' : G1 T), snd acc = 0 ->
     (if seqb (fst e) (fst cur) then obind (idx (map (e1 (C := C)) (snd e)) i) (fun x => Ok (g1add T acc x)) else Ok acc) = Ok acc' -> snd acc' = 0).
  { intros e cur acc acc' Z E. destruct (seqb _ _); [|now injection E as <-].
    apply obind_Ok in E as (x0 & E0 & E). injection E as <-. apply (idx_given e1) in E0; [|reflexivity]. cbn. rewrite Z, E0. reflexivity. }
  revert H. change (g1zero T) with (g1zero C, 0). assert (Z : snd (g1zero C, 0) = 0) by reflexivity. revert Z.
  generalize (g1zero C, 0) as acc. induction sel as [|cur sel IH]; intros acc Z H; cbn [ofold] in H; [now injection H as <-|].
  apply obind_Ok in H as (acc1 & E & H). eapply IH; [|exact H]. clear IH H. revert acc Z E.
  induction es as [|e es IHe]; intros acc Z E; cbn [map ofold] in E; [now injection E as <-|].
  apply obind_Ok in E as (acc2 & E2 & E). eapply IHe; [|exact E]. eapply I; [exact Z|exact E2].
Qed.

Theorem ac_open_bill attrs pol (sk : ac_sk C) (ct : ac_ct C) kp s :
  ac_open (C := T) attrs pol (t_ac_sk sk) (t_ac_ct ct) kp = Ok s -> s = bill 6 0.
Proof.
  unfold ac_open. intros H. apply obind_Ok in H as (v & _ & H). destruct (traverse_policy _ _ _); [|discriminate].
  apply obind_Ok in H as (pr & _ & H). destruct (fst pr); [|discriminate]. apply obind_Ok in H as (ps & HP & H).
  eapply opened; [|exact H]. unfold ac_products in HP.
  assert (M : snd (fst ps) = (3, 0) /\ snd (snd ps) = (3, 0)).
  { match type of HP with ofold ?g _ _ = _ =>
      pose proof (ofold_count g (fun st : GT T * GT T => snd (fst st)) 1 0) as M1;
      pose proof (ofold_count g (fun st : GT T * GT T => snd (snd st)) 1 0) as M2;
      assert (S : forall st x st', g st x = Ok st' ->
        snd (fst st') = (fst (snd (fst st)) + 1, snd (snd (fst st)) + 0) /\ snd (snd st') = (fst (snd (snd st)) + 1, snd (snd (snd st)) + 0)) end.
    { clear. intros st x st' E. apply obind_Ok in E as (pg & Hg & E). apply obind_Ok in E as (ph & Hh & E).
      apply obind_Ok in E as (u & Hu & E). apply obind_Ok in E as (c0 & Hc & E). apply obind_Ok in E as (k0 & Hk & E). injection E as <-.
      cbn [act_c t_ac_ct ask_k t_ac_sk act_c0 ask_k0 ask_kp] in *.
      apply select_given in Hg. apply select_given in Hh. apply (idx_given e2) in Hc; [|reflexivity]. apply (idx_given e2) in Hk; [|reflexivity].
      assert (U : snd u = 0).
      { destruct kp; [injection Hu as <-; exact Hh|]. apply obind_Ok in Hu as (x0 & Hx & Hu). injection Hu as <-.
        apply (idx_given e1) in Hx; [|reflexivity]. cbn. rewrite Hx, Hh. reflexivity. }
      cbn. rewrite U, Hg, Hc, Hk. split; f_equal; lia. }
    split.
    - rewrite (M1 (fun st x st' E => proj1 (S st x st' E)) _ _ _ HP). reflexivity.
    - rewrite (M2 (fun st x st' E => proj2 (S st x st' E)) _ _ _ HP). reflexivity. }
  destruct ps as [[g1 p1] [g2 p2]]. cbn [fst snd] in M. destruct M as (-> & ->). reflexivity.
Qed.

Theorem cp_decrypt_bill (sk : ac_cpsk C) (ct : ac_cpct C) s :
  cp_decrypt (C := T) (t_cp_sk sk) (t_cp_ct ct) = Ok s -> s = bill 6 0.
Proof. apply ac_open_bill. Qed.

Theorem kp_decrypt_bill (sk : ac_kpsk C) (ct : ac_kpct C) s :
  kp_decrypt (C := T) (t_kp_sk sk) (t_kp_ct ct) = Ok s -> s = bill 6 0.
Proof. apply ac_open_bill. Qed.

(** ** AW11 *)

Theorem aw_decrypt_bill (gk : aw_gk C) (sk : aw_sk C) (ct : aw_ct C) f k s :
  parse (fst (awct_policy ct)) (snd (awct_policy ct)) = Ok (tree f) -> arity2 f = true ->
  chosen (owns (map fst (awsk_attr sk))) f k ->
  aw_decrypt (C := T) (t_aw_gk gk) (t_aw_sk sk) (t_aw_ct ct) = Ok s ->
  s = bill (2 * length k) (2 * length k).
Proof.
  intros P A K H. unfold aw_decrypt in H. cbn [awct_policy t_aw_ct awsk_attr t_aw_sk] in H. rewrite P in H. cbn [obind] in H.
  rewrite map_map in H. cbn [fst] in H.
  destruct (traverse_policy _ _ _); [|discriminate].
  apply obind_Ok in H as ([b l] & HP & H). apply obind_Ok in H as (o & _ & H). apply obind_Ok in H as (z & _ & H).
  cbn [fst snd] in H. destruct b; [|discriminate]. apply obind_Ok in H as (h & Hh & H). apply obind_Ok in H as (g & HF & H).
  assert (Sh : snd h = 1).
  { unfold sha3_hash_g1 in Hh. destruct (hash T _); [|discriminate]. injection Hh as <-. reflexivity. }
  apply (pruned_k _ _ _ _ A) in HP as (k' & K' & E); [|reflexivity]. rewrite (chosen_length _ _ _ _ K K'), <- E.
  eapply opened; [|exact H].
  pose proof (ofold_count (aw_step (C := T) (t_aw_sk sk) (t_aw_ct ct) z h) (fun g : GT T => snd g) 2 2) as M.
  pose proof (M ltac:(clear -Sh; intros st x st' E; unfold aw_step in E;
    apply obind_Ok in E as (a & Ha & E); apply obind_Ok in E as (c & Hc & E); apply obind_Ok in E as (co & _ & E); injection E as <-;
    cbn [awsk_attr t_aw_sk awct_c t_aw_ct] in *;
    destruct (find _ (map _ (awsk_attr sk))) eqn:Fa in Ha; [|discriminate]; injection Ha as ->;
    destruct (find _ (map _ (awct_c ct))) eqn:Fc in Hc; [|discriminate]; injection Hc as ->;
    apply found in Fa as (ya & -> & _); apply found in Fc as (yc & -> & _); cbn; rewrite Sh; cbn; f_equal; lia) l _ _ HF) as Q.
  destruct g as [g pe]. cbn [snd gtone tally fst] in Q. rewrite Q. unfold of_bill. cbn. f_equal; lia.
Qed.

(** ** BDABE and MKE08 *)

Lemma bd_calc_given (l : list (bd_ask C)) : forall conj i (ret : G1 T * G2 T),
  snd (fst ret) = 0 -> snd (snd ret) = 0 ->
  let r := bd_calc_from (C := T) i conj (map (fun a => BdAsk (bask_attr a) (e1 (bask_au1 a)) (e2 (bask_au2 a))) l) ret in
  snd (fst r) = 0 /\ snd (snd r) = 0.
Proof.
  induction conj as [|a conj IH]; intros i ret H1 H2; cbn [bd_calc_from]; [split; assumption|].
  destruct (find _ _) eqn:E; [|now apply IH]. apply found in E as (y & -> & _).
  destruct ret as [[r1 n1] [r2 n2]]. cbn [fst snd] in H1, H2. subst n1 n2.
  destruct i; cbn [Nat.eqb]; apply IH; reflexivity.
Qed.

Theorem bd_decrypt_bill (sk : bd_uk C) (ct : bd_ct C) s :
  bd_decrypt (C := T) (t_bd_uk sk) (t_bd_ct ct) = Ok s ->
  (exists t, In t (Bdabe.bct_j ct) /\ incl (bt_attr t) (map bask_attr (buk_ska sk))) /\ s = bill 4 0 \/
  (forall t, In t (Bdabe.bct_j ct) -> ~ incl (bt_attr t) (map bask_attr (buk_ska sk))) /\ s = bill 0 0.
Proof.
  unfold bd_decrypt. intros H. apply obind_Ok in H as (v & _ & H). destruct (traverse_policy _ _ _); [|discriminate].
  assert (G : forall l, snd (bd_first (C := T) (t_bd_uk sk) (map t_bd_tuple l)) =
     if existsb (fun t => bd_satisfiable (bt_attr t) (buk_ska sk)) l then (4, 0) else (0, 0)).
  { induction l as [|t l IH]; [reflexivity|]. cbn [map bd_first existsb].
    assert (E : bd_satisfiable (C := T) (bt_attr (t_bd_tuple t)) (buk_ska (t_bd_uk sk)) = bd_satisfiable (bt_attr t) (buk_ska sk)).
    { unfold bd_satisfiable. cbn [bt_attr t_bd_tuple buk_ska t_bd_uk]. clear. induction (bt_attr t) as [|a l IH]; [reflexivity|]. cbn [forallb].
      rewrite IH. f_equal. clear IH. induction (buk_ska sk) as [|x m IH]; [reflexivity|]. cbn [map find bask_attr].
      destruct (seqb _ _); [reflexivity|exact IH]. }
    rewrite E. clear E. destruct (bd_satisfiable (bt_attr t) (buk_ska sk)); cbn [orb]; [|exact IH].
    unfold bd_open, bd_calc. cbn [buk_ska t_bd_uk bt_attr t_bd_tuple].
    pose proof (bd_calc_given (buk_ska sk) (bt_attr t) 0 (g1one T, g2one T) eq_refl eq_refl) as (Z1 & Z2).
    destruct (bd_calc_from _ _ _ _) as [[r1 n1] [r2 n2]]. cbn [fst snd] in Z1, Z2. subst n1 n2. reflexivity. }
  specialize (G (Bdabe.bct_j ct)). cbn [Bdabe.bct_j t_bd_ct] in H.
  destruct (existsb _ _) eqn:E in G.
  - left. split; [|eapply opened; [exact G|exact H]]. apply existsb_exists in E as (t & I & E).
    exists t. split; [exact I|]. now apply bd_satisfiable_attrs.
  - right. split; [|eapply opened; [exact G|exact H]]. intros t I J. apply bd_satisfiable_attrs in J.
    assert (X : existsb (fun t => bd_satisfiable (bt_attr t) (buk_ska sk)) (Bdabe.bct_j ct) = true) by (apply existsb_exists; eauto).
    rewrite X in E. discriminate.
Qed.

Lemma mk_calc_given (l : list (mk_ask C)) : forall conj i (ret : G1 T * G2 T),
  snd (fst ret) = 0 -> snd (snd ret) = 0 ->
  let r := mk_calc_from (C := T) i conj (map (fun a => MkAsk (mask_attr a) (e1 (mask_g1 a)) (e2 (mask_g2 a))) l) ret in
  snd (fst r) = 0 /\ snd (snd r) = 0.
Proof.
  induction conj as [|a conj IH]; intros i ret H1 H2; cbn [mk_calc_from]; [split; assumption|].
  destruct (find _ _) eqn:E; [|now apply IH]. apply found in E as (y & -> & _).
  destruct ret as [[r1 n1] [r2 n2]]. cbn [fst snd] in H1, H2. subst n1 n2.
  destruct i; cbn [Nat.eqb]; apply IH; reflexivity.
Qed.

Theorem mk_decrypt_bill (sk : mk_uk C) (ct : mk_ct C) s :
  mk_decrypt (C := T) (t_mk_uk sk) (t_mk_ct ct) = Ok s ->
  (exists t, In t (mct_e ct) /\ incl (mj_str t) (map mask_attr (muk_ska sk))) /\ s = bill 4 0 \/
  (forall t, In t (mct_e ct) -> ~ incl (mj_str t) (map mask_attr (muk_ska sk))) /\ s = bill 0 0.
Proof.
  unfold mk_decrypt. intros H. apply obind_Ok in H as (v & _ & H). destruct (traverse_policy _ _ _); [|discriminate].
  assert (G : forall l, snd (mk_first (C := T) (t_mk_uk sk) (map t_mk_conj l)) =
     if existsb (fun t => mk_satisfiable (mj_str t) (muk_ska sk)) l then (4, 0) else (0, 0)).
  { induction l as [|t l IH]; [reflexivity|]. cbn [map mk_first existsb].
    assert (E : mk_satisfiable (C := T) (mj_str (t_mk_conj t)) (muk_ska (t_mk_uk sk)) = mk_satisfiable (mj_str t) (muk_ska sk)).
    { unfold mk_satisfiable. cbn [mj_str t_mk_conj muk_ska t_mk_uk]. clear. induction (mj_str t) as [|a l IH]; [reflexivity|]. cbn [forallb].
      rewrite IH. f_equal. clear IH. induction (muk_ska sk) as [|x m IH]; [reflexivity|]. cbn [map find mask_attr].
      destruct (seqb _ _); [reflexivity|exact IH]. }
    rewrite E. clear E. destruct (mk_satisfiable (mj_str t) (muk_ska sk)); cbn [orb]; [|exact IH].
    unfold mk_open, mk_calc. cbn [muk_ska t_mk_uk mj_str t_mk_conj].
    pose proof (mk_calc_given (muk_ska sk) (mj_str t) 0 (g1one T, g2one T) eq_refl eq_refl) as (Z1 & Z2).
    destruct (mk_calc_from _ _ _ _) as [[r1 n1] [r2 n2]]. cbn [fst snd] in Z1, Z2. subst n1 n2. reflexivity. }
  specialize (G (mct_e ct)). cbn [mct_e t_mk_ct] in H.
  destruct (existsb _ _) eqn:E in G.
  - left. split; [|eapply opened; [exact G|exact H]]. apply existsb_exists in E as (t & I & E).
    exists t. split; [exact I|]. now apply mk_satisfiable_attrs.
  - right. split; [|eapply opened; [exact G|exact H]]. intros t I J. apply mk_satisfiable_attrs in J.
    assert (X : existsb (fun t => mk_satisfiable (mj_str t) (muk_ska sk)) (mct_e ct) = true) by (apply existsb_exists; eauto).
    rewrite X in E. discriminate.
Qed.

End BillsProofs.

(** ** Honest BSW ciphertexts *)

Section Honest.
Context {C : crypto} (L : laws C).
Notation T := (tally C).

Theorem bsw_honest_bill nonce (pk : bsw_pk C) msk attrs sk pol lang data ct f tk ik jk te ie je k s :
  bsw_keygen pk msk attrs tk ik = Ok (Some sk, jk) ->
  bsw_encrypt nonce pk pol lang data te ie = Ok (ct, je) ->
  parse pol lang = Ok (tree f) -> arity2 f = true -> NoDup (leaves f) ->
  chosen (owns attrs) f k ->
  bsw_decrypt (C := T) (t_bsw_sk sk) (t_bsw_ct ct) = Ok s ->
  s = bill (1 + 2 * length k) (length k).
Proof.
  intros HK HE P A N K H.
  destruct (bsw_keygen_ok L _ _ _ _ _ _ _ HK) as (_ & _ & FK).
  destruct (bsw_encrypt_inv L _ _ _ _ _ _ _ _ _ _ P HE) as (sc & msg & i' & EP & _ & _ & _ & FE).
  assert (EA : map b_string (bsk_dj sk) = attrs).
  { clear -FK. induction FK as [|a d l m (E & _) _ IH]; [reflexivity|]. cbn. now rewrite E, IH. }
  assert (EL : map b_string (bct_cy ct) = map (fun x => node_index (fst x) (snd x)) (leaves f)).
  { transitivity (map fst (gsh f sc te i')); [|apply gsh_idents]. clear -FE. induction FE as [|a d l m (E & _) _ IH]; [reflexivity|]. cbn. now rewrite E, IH. }
  rewrite <- EA in K.
  apply (bsw_decrypt_bill L sk ct f k) in H; [|rewrite EP; exact P|exact A|exact N|exact K].
  assert (X : present (map b_string (bct_cy ct)) k = length k).
  { unfold present. rewrite EL. pose proof (chosen_leaves _ _ _ K) as I. clear -I. induction k as [|x k IH]; [reflexivity|].
    cbn [filter]. replace (smem _ _) with true; [cbn; f_equal; apply IH; intros y J; apply I; now right|].
    symmetry. apply smem_In. apply in_map_iff. exists x. split; [reflexivity|]. apply I. now left. }
  rewrite X in H. exact H.
Qed.

End Honest.

(** ** How much is selected *)

(** No disjunction anywhere. *)
Fixpoint no_or (f : formula) : bool :=
  match f with FLeaf _ _ => true | FAnd l => forallb no_or l | FOr _ => false end.

Lemma chosen_short own f k : chosen own f k -> length k <= length (leaves f).
Proof.
  revert k. induction f as [n p|l IH|l IH] using formula_ind'; intros k H; inversion H; subst; cbn [leaves].
  - reflexivity.
  - clear H. match goal with X : Forall2 _ _ _ |- _ => revert X end. generalize ks.
    induction IH as [|c l0 Hc _ IHl]; intros ks' X; inversion X; subst; [cbn; lia|]. cbn [concat flat_map].
    rewrite !app_length. apply Nat.add_le_mono; [apply Hc; assumption|apply IHl; assumption].
  - rewrite Forall_forall in IH. rewrite flat_map_app, app_length. cbn [flat_map]. rewrite app_length.
    match goal with X : chosen own ?c k |- _ => pose proof (IH c (in_elt _ _ _) k X) end. lia.
Qed.

Lemma chosen_all own f k : no_or f = true -> chosen own f k -> k = leaves f.
Proof.
  revert k. induction f as [n p|l IH|l IH] using formula_ind'; intros k N H; [| |discriminate]; inversion H; subst; cbn [leaves].
  - reflexivity.
  - clear H. cbn [no_or] in N. match goal with X : Forall2 _ _ _ |- _ => revert X end. generalize ks.
    induction IH as [|c l0 Hc _ IHl]; intros ks' X; inversion X; subst; [reflexivity|]. cbn [concat flat_map forallb] in *.
    apply andb_prop in N as (Nc & N). f_equal; [apply Hc; assumption|apply IHl; assumption].
Qed.
