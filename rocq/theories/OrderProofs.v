(** * OrderProofs: the order of key and ciphertext components (C102, C103) *)
From Coq Require Import String Ascii List Bool Arith Lia Field Permutation.
From Verif Require Import Base Crypto Policy Tools Sharing Spec Parse Symmetric Msp Dnf RobustProofs
  Bdabe Mke08 Bsw Ghw11 Lsw Yct14 Ac17 Aw11 CoreProofs SchemeLib.
Import ListNotations.

(** ** Lists looked up by name *)
Section Lookup.
Context {A : Type} (nm : A -> string).

Lemma filter_none k l : ~ In k (map nm l) -> filter (fun x => seqb (nm x) k) l = [].
Proof.
  induction l as [|a l IH]; intros H; cbn [filter]; [reflexivity|].
  destruct (seqb (nm a) k) eqn:E.
  - exfalso. apply H. left. now apply seqb_eq.
  - apply IH. intros I. apply H. now right.
Qed.

Lemma filter_perm k l l' : NoDup (map nm l) -> Permutation l l' ->
  filter (fun x => seqb (nm x) k) l = filter (fun x => seqb (nm x) k) l'.
Proof.
  intros ND P. revert ND. induction P as [|a l l' P IH|a b l|l l' l'' P1 IH1 P2 IH2]; intros ND.
  - reflexivity.
  - cbn [map] in ND. inversion ND; subst. cbn [filter]. rewrite IH by assumption. reflexivity.
  - cbn [map] in ND. inversion ND as [|? ? N1 N2]; subst. cbn [filter].
    destruct (seqb (nm a) k) eqn:Ea, (seqb (nm b) k) eqn:Eb; try reflexivity.
    apply seqb_eq in Ea, Eb. exfalso. apply N1. left. congruence.
  - rewrite IH1 by exact ND. apply IH2. eapply Permutation_NoDup; [apply Permutation_map, P1|exact ND].
Qed.

Lemma find_filter (p q : A -> bool) l : find (fun x => p x && q x) l = find q (filter p l).
Proof.
  induction l as [|a l IH]; cbn; [reflexivity|].
  destruct (p a); cbn; [|exact IH]. destruct (q a); [reflexivity|exact IH].
Qed.

Lemma find_hd (p : A -> bool) l : find p l = hd_error (filter p l).
Proof. induction l as [|a l IH]; cbn; [reflexivity|]. now destruct (p a). Qed.

Lemma find_perm k l l' : NoDup (map nm l) -> Permutation l l' ->
  find (fun x => seqb (nm x) k) l = find (fun x => seqb (nm x) k) l'.
Proof. intros ND P. rewrite !find_hd. now rewrite (filter_perm k l l'). Qed.

Lemma find_perm_also k (q : A -> bool) l l' : NoDup (map nm l) -> Permutation l l' ->
  find (fun x => seqb (nm x) k && q x) l = find (fun x => seqb (nm x) k && q x) l'.
Proof. intros ND P. rewrite !find_filter. now rewrite (filter_perm k l l'). Qed.
End Lookup.

(** ** Only the set of names counts *)
Definition same_names (a b : list string) : Prop := forall x, In x a <-> In x b.

Lemma perm_names {A} (nm : A -> string) l l' : Permutation l l' -> same_names (map nm l) (map nm l').
Proof.
  intros P x. split; apply Permutation_in; [|apply Permutation_sym]; now apply Permutation_map.
Qed.

Lemma same_nonempty a b : same_names a b -> (0 <? length a) = (0 <? length b).
Proof.
  intros S. destruct a as [|x a], b as [|y b]; try reflexivity.
  - exfalso. apply (S y). now left.
  - exfalso. apply (S x). now left.
Qed.

Lemma existsb_names a b n : same_names a b ->
  existsb (fun x => seqb x n) a = existsb (fun x => seqb x n) b.
Proof.
  intros S. apply eq_true_iff_eq. rewrite !existsb_exists. split; intros (x & I & E); exists x; split; auto; now apply S.
Qed.

Lemma traverse_names a b : same_names a b -> forall v t, traverse_policy a v t = traverse_policy b v t.
Proof.
  intros S. induction v as [n p|ty w IH|l IH] using pvalue_ind'; intros t; cbn [traverse_policy];
    rewrite (same_nonempty a b S); f_equal.
  - now apply existsb_names.
  - destruct ty; auto.
  - destruct t; [| |reflexivity]; induction IH as [|x l E _ IHl]; cbn; try reflexivity; now rewrite E, IHl.
Qed.

Lemma contains_names a b n : same_names a b -> contains a n = contains b n.
Proof.
  intros S. assert (K : forall l, contains l n = existsb (fun x => seqb x n) l).
  { unfold contains. intros l. induction l as [|x l IH]; [reflexivity|]. cbn [filter existsb].
    destruct (seqb x n); [reflexivity|exact IH]. }
  rewrite !K. now apply existsb_names.
Qed.

Lemma pruned_names a b : same_names a b -> forall v t, calc_pruned a v t = calc_pruned b v t.
Proof.
  intros S. induction v as [n p|ty w IH|l IH] using pvalue_ind'; intros t; cbn [calc_pruned].
  - now rewrite (contains_names a b n S).
  - apply IH.
  - destruct t as [[| |]|]; try reflexivity; (destruct (2 <=? length l); [|reflexivity]).
    + match goal with |- match ?x with _ => _ end = match ?y with _ => _ end => enough (x = y) as -> by reflexivity end.
      generalize true, (@nil (string * string)).
      induction IH as [|x l E _ IHl]; intros m acc; [reflexivity|]. rewrite E.
      destruct (unwrap_res (calc_pruned b x None)); cbn [obind]; auto.
    + induction IH as [|x l E _ IHl]; [reflexivity|]. rewrite E.
      destruct (unwrap_res (calc_pruned b x None)) as [fl| |]; cbn [obind]; auto.
      destruct (fst fl); auto.
Qed.

Lemma ofold_eq {A B} (g h : B -> A -> outcome B) l : (forall b a, g b a = h b a) ->
  forall b, ofold g l b = ofold h l b.
Proof.
  intros E. induction l as [|a l IH]; intros b; cbn [ofold]; [reflexivity|].
  rewrite E. destruct (h b a); cbn [obind]; auto.
Qed.

Lemma obind_eq {A B} (o : outcome A) (g h : A -> outcome B) : (forall a, g a = h a) -> obind o g = obind o h.
Proof. intros E. destruct o; cbn [obind]; auto. Qed.

Lemma fold_eq {A B} (g h : B -> A -> B) l : (forall b a, g b a = h b a) ->
  forall b, fold_left g l b = fold_left h l b.
Proof. intros E. induction l as [|a l IH]; intros b; cbn; [reflexivity|]. now rewrite E, IH. Qed.

Lemma rbind_eq {F A B} (m m' : rand F A) (k k' : A -> rand F B) t : (forall i, m t i = m' t i) ->
  (forall a i, k a t i = k' a t i) -> forall i, rbind m k t i = rbind m' k' t i.
Proof. intros E K i. unfold rbind. rewrite E. destruct (m' t i) as [[a j]| |]; auto. Qed.

Lemma rmap_eq {F A B} (g h : A -> rand F B) l t : (forall a i, g a t i = h a t i) ->
  forall i, rmap g l t i = rmap h l t i.
Proof.
  intros E. induction l as [|a l IH]; [reflexivity|]. intros i. cbn [rmap].
  apply rbind_eq; [apply E|]. intros b. apply rbind_eq; [exact IH|reflexivity].
Qed.

Section Schemes.
Context {C : crypto}.

(** ** Decryption *)

Theorem bsw_order (d : G2 C) dj dj' pol (c : G1 C) cp cy cy' data :
  NoDup (map b_string dj) -> Permutation dj dj' ->
  NoDup (map b_string cy) -> Permutation cy cy' ->
  bsw_decrypt (BswSk d dj) (BswCt pol c cp cy data) = bsw_decrypt (BswSk d dj') (BswCt pol c cp cy' data).
Proof.
  intros N1 P1 N2 P2. unfold bsw_decrypt. cbn [bsk_dj bsk_d bct_policy bct_c bct_cp bct_cy bct_data].
  pose proof (perm_names b_string _ _ P1) as S. apply obind_eq. intros v.
  rewrite (traverse_names _ _ S). destruct (traverse_policy _ v Leaf); [|reflexivity].
  rewrite (pruned_names _ _ S). apply obind_eq. intros p. destruct (fst p); [|reflexivity].
  apply obind_eq. intros o. apply obind_eq. intros z.
  match goal with |- context [fold_left ?g (snd p) ?x] => match goal with |- _ = ?r =>
    match r with context [fold_left ?h (snd p) x] => enough (fold_left g (snd p) x = fold_left h (snd p) x) as -> by reflexivity end end end.
  apply fold_eq. intros b a. unfold bsw_step. cbn [bct_cy bsk_dj].
  rewrite (find_perm b_string (snd a) cy cy') by assumption.
  now rewrite (find_perm b_string (fst a) dj dj') by assumption.
Qed.

Theorem bsw_delegate_order pk (d : G2 C) dj dj' subset t i :
  NoDup (map b_string dj) -> Permutation dj dj' ->
  bsw_delegate pk (BswSk d dj) subset t i = bsw_delegate pk (BswSk d dj') subset t i.
Proof.
  intros N P. unfold bsw_delegate. cbn [bsk_dj bsk_d].
  assert (E : is_subset subset (map b_string dj) = is_subset subset (map b_string dj')).
  { unfold is_subset. apply eq_true_iff_eq. rewrite !forallb_forall.
    split; intros H x I; specialize (H x I); rewrite smem_In in *; now apply (perm_names b_string _ _ P). }
  rewrite E. destruct (negb _); [reflexivity|]. destruct subset as [|a l]; [reflexivity|].
  generalize (a :: l). clear a l E. intros l.
  apply rbind_eq; [reflexivity|]. intros r. apply rbind_eq; [|reflexivity].
  apply rmap_eq. intros a. now rewrite (find_perm b_string a dj dj').
Qed.

Theorem ghw_order (k l : G2 C) ka ka' pol c c1 cd cd' data :
  NoDup (map fst ka) -> Permutation ka ka' ->
  NoDup (map fst cd) -> Permutation cd cd' ->
  ghw_transform (GhwCt pol c c1 cd data) (GhwTk k l ka) = ghw_transform (GhwCt pol c c1 cd' data) (GhwTk k l ka').
Proof.
  intros N1 P1 N2 P2. unfold ghw_transform. cbn [gtk_attr gtk_k gtk_l gct_policy gct_c gct_c1].
  pose proof (perm_names fst _ _ P1) as S. apply obind_eq. intros v.
  rewrite (traverse_names _ _ S). destruct (traverse_policy _ v Leaf); [|reflexivity].
  rewrite (pruned_names _ _ S). apply obind_eq. intros p.
  apply obind_eq. intros o. apply obind_eq. intros z. destruct (fst p); [|reflexivity].
  rewrite (ofold_eq (ghw_step (GhwTk k l ka) (GhwCt pol c c1 cd data) z)
                    (ghw_step (GhwTk k l ka') (GhwCt pol c c1 cd' data) z)); [reflexivity|].
  intros b a. unfold ghw_step. cbn [gtk_attr gct_cidi].
  rewrite (find_perm fst (snd a) cd cd') by assumption.
  now rewrite (find_perm fst (fst a) ka ka') by assumption.
Qed.

Theorem lsw_order pol dj dj' (e1 : GT C) e2 ej ej' data :
  NoDup (map ld_name dj) -> Permutation dj dj' ->
  NoDup (map le_name ej) -> Permutation ej ej' ->
  lsw_decrypt (LswSk pol dj) (LswCt e1 e2 ej data) = lsw_decrypt (LswSk pol dj') (LswCt e1 e2 ej' data).
Proof.
  intros N1 P1 N2 P2. unfold lsw_decrypt. cbn [lsk_policy lct_ej lct_e1 lct_ct].
  pose proof (perm_names le_name _ _ P2) as S. apply obind_eq. intros v.
  rewrite (pruned_names _ _ S). apply obind_eq. intros p. destruct (fst p); [|reflexivity].
  apply obind_eq. intros o. apply obind_eq. intros z.
  rewrite (ofold_eq (lsw_step (LswSk pol dj) (LswCt e1 e2 ej data) z)
                    (lsw_step (LswSk pol dj') (LswCt e1 e2 ej' data) z)); [reflexivity|].
  intros b a. unfold lsw_step. cbn [lsk_dj lct_ej lct_e2].
  rewrite (find_perm ld_name (fst a) dj dj') by assumption.
  now rewrite (find_perm le_name (fst a) ej ej') by assumption.
Qed.

Theorem yct_order pol (du du' at1 at2 : list (yct_attr C)) data :
  NoDup (map y_name du) -> Permutation du du' ->
  NoDup (map y_name at1) -> Permutation at1 at2 ->
  yct_decrypt (YctSk pol du) (YctCt at1 data) = yct_decrypt (YctSk pol du') (YctCt at2 data).
Proof.
  intros N1 P1 N2 P2. unfold yct_decrypt. cbn [ysk_policy yct_attrs yct_data].
  pose proof (perm_names y_name _ _ P2) as S. apply obind_eq. intros v.
  rewrite (pruned_names _ _ S). apply obind_eq. intros p. destruct (fst p); [|reflexivity].
  apply obind_eq. intros o. apply obind_eq. intros z.
  rewrite (ofold_eq (yct_step (YctSk pol du) (YctCt at1 data) z)
                    (yct_step (YctSk pol du') (YctCt at2 data) z)); [reflexivity|].
  intros b a. unfold yct_step, ct_get_public, sk_get_private. cbn [ysk_du yct_attrs].
  rewrite (find_perm y_name (fst a) du du') by assumption.
  now rewrite (find_perm y_name (fst a) at1 at2) by assumption.
Qed.

Theorem aw_order (gk : aw_gk C) gid sa sa' pol c0 ca ca' data :
  NoDup (map fst sa) -> Permutation sa sa' ->
  NoDup (map n4 ca) -> Permutation ca ca' ->
  aw_decrypt gk (AwSk gid sa) (AwCt pol c0 ca data) = aw_decrypt gk (AwSk gid sa') (AwCt pol c0 ca' data).
Proof.
  intros N1 P1 N2 P2. unfold aw_decrypt. cbn [awsk_attr awsk_gid awct_policy awct_c0 awct_data].
  pose proof (perm_names fst _ _ P1) as S. apply obind_eq. intros v.
  rewrite (traverse_names _ _ S). destruct (traverse_policy _ v Leaf); [|reflexivity].
  rewrite (pruned_names _ _ S). apply obind_eq. intros p.
  apply obind_eq. intros o. apply obind_eq. intros z. destruct (fst p); [|reflexivity].
  apply obind_eq. intros h.
  rewrite (ofold_eq (aw_step (AwSk gid sa) (AwCt pol c0 ca data) z h)
                    (aw_step (AwSk gid sa') (AwCt pol c0 ca' data) z h)); [reflexivity|].
  intros b a. unfold aw_step. cbn [awsk_attr awct_c].
  rewrite (find_perm fst (fst a) sa sa') by assumption.
  now rewrite (find_perm n4 (snd a) ca ca') by assumption.
Qed.

Theorem bd_order (sk : bd_usk C) pk sa sa' ct :
  NoDup (map bask_attr sa) -> Permutation sa sa' ->
  bd_decrypt (BdUk sk pk sa) ct = bd_decrypt (BdUk sk pk sa') ct.
Proof.
  intros N P. unfold bd_decrypt. cbn [buk_ska].
  apply obind_eq. intros v. rewrite (traverse_names _ _ (perm_names bask_attr _ _ P)).
  destruct (traverse_policy _ v Leaf); [|reflexivity].
  f_equal. generalize (bct_j ct). intros j. induction j as [|t j IH]; [reflexivity|]. cbn [bd_first buk_ska].
  assert (E : bd_satisfiable (bt_attr t) sa = bd_satisfiable (bt_attr t) sa').
  { unfold bd_satisfiable. induction (bt_attr t) as [|a l IHl]; cbn [forallb]; [reflexivity|].
    rewrite IHl. now rewrite (find_perm bask_attr a sa sa'). }
  rewrite E, IH. destruct (bd_satisfiable (bt_attr t) sa'); [|reflexivity].
  unfold bd_open. cbn [buk_ska buk_sk].
  enough (bd_calc (bt_attr t) sa = bd_calc (bt_attr t) sa') as -> by reflexivity.
  clear E. unfold bd_calc. generalize 0%nat, (g1one C, g2one C).
  induction (bt_attr t) as [|a l IHl]; intros i r; cbn [bd_calc_from]; [reflexivity|].
  rewrite (find_perm bask_attr a sa sa') by assumption. destruct (find _ sa'); apply IHl.
Qed.

Theorem mk_order (sk : mk_usk C) pk sa sa' ct :
  NoDup (map mask_attr sa) -> Permutation sa sa' ->
  mk_decrypt (MkUk sk pk sa) ct = mk_decrypt (MkUk sk pk sa') ct.
Proof.
  intros N P. unfold mk_decrypt. cbn [muk_ska].
  apply obind_eq. intros v. rewrite (traverse_names _ _ (perm_names mask_attr _ _ P)).
  destruct (traverse_policy _ v Leaf); [|reflexivity].
  f_equal. generalize (mct_e ct). intros j. induction j as [|t j IH]; [reflexivity|]. cbn [mk_first muk_ska].
  assert (E : mk_satisfiable (mj_str t) sa = mk_satisfiable (mj_str t) sa').
  { unfold mk_satisfiable. induction (mj_str t) as [|a l IHl]; cbn [forallb]; [reflexivity|].
    rewrite IHl. now rewrite (find_perm mask_attr a sa sa'). }
  rewrite E, IH. destruct (mk_satisfiable (mj_str t) sa'); [|reflexivity].
  unfold mk_open. cbn [muk_ska muk_sk].
  enough (mk_calc (mj_str t) sa = mk_calc (mj_str t) sa') as -> by reflexivity.
  clear E. unfold mk_calc. generalize 0%nat, (g1one C, g2one C).
  induction (mj_str t) as [|a l IHl]; intros i r; cbn [mk_calc_from]; [reflexivity|].
  rewrite (find_perm mask_attr a sa sa') by assumption. destruct (find _ sa'); apply IHl.
Qed.

(** ** Public and master keys *)

Lemma dnf_leaf_order (pks pks' : list (pak C)) n i ts : NoDup (map pak_attr pks) -> Permutation pks pks' ->
  dnf_leaf pks n i ts = dnf_leaf pks' n i ts.
Proof.
  intros N P. unfold dnf_leaf.
  assert (K : forall (l : list (pak C)) (ts : list (term C)), fold_left (fun (terms : list (term C)) (p : pak C) =>
      if seqb (pak_attr p) n then
        if i <? length terms then update_nth i (fun t => merge_term t p) terms else terms ++ [new_term p]
      else terms) l ts =
    fold_left (fun terms p =>
        if i <? length terms then update_nth i (fun t => merge_term t p) terms else terms ++ [new_term p])
      (filter (fun p => seqb (pak_attr p) n) l) ts).
  { induction l as [|p l IH]; intros ts0; [reflexivity|]. cbn [fold_left filter].
    destruct (seqb (pak_attr p) n); cbn [fold_left]; apply IH. }
  rewrite !K. now rewrite (filter_perm pak_attr n pks pks') by assumption.
Qed.

Lemma dnf_order (pks pks' : list (pak C)) : NoDup (map pak_attr pks) -> Permutation pks pks' ->
  forall v i t ts, dnf pks v i t ts = dnf pks' v i t ts.
Proof.
  intros N P. induction v as [n p|ty w IH|l IH] using pvalue_ind'; intros i t ts; cbn [dnf].
  - now rewrite (dnf_leaf_order pks pks').
  - destruct t as [[| |]|]; try apply IH; destruct ty; try apply IH; reflexivity.
  - destruct t as [[| |]|]; try reflexivity.
    + revert ts. generalize true. induction IH as [|x l E _ IHl]; intros b ts; [reflexivity|].
      cbv zeta. rewrite E. destruct b; apply IHl.
    + revert ts. generalize true. generalize 0%nat. induction IH as [|x l E _ IHl]; intros k b ts; [reflexivity|].
      cbv zeta. rewrite E. destruct b; apply IHl.
Qed.

Lemma to_dnf_order v (pks pks' : list (pak C)) : NoDup (map pak_attr pks) -> Permutation pks pks' ->
  json_to_dnf v pks = json_to_dnf v pks'.
Proof. intros N P. unfold json_to_dnf. now rewrite (dnf_order pks pks'). Qed.

Theorem bd_encrypt_order nonce (pk : bd_pk C) apks apks' pol lang data t i :
  NoDup (map bapk_attr apks) -> Permutation apks apks' ->
  bd_encrypt nonce pk apks pol lang data t i = bd_encrypt nonce pk apks' pol lang data t i.
Proof.
  intros N P. unfold bd_encrypt. apply rbind_eq; [reflexivity|]. intros v j.
  destruct (policy_in_dnf v false None); [|reflexivity]. apply rbind_eq; [|reflexivity]. intros k.
  unfold rlift. rewrite (obind_eq _ _ (fun p => json_to_dnf p (map bd_pak apks'))); [reflexivity|].
  intros p. apply to_dnf_order; [now rewrite map_map|now apply Permutation_map].
Qed.

Theorem mk_encrypt_order nonce (pk : mk_pk C) apks apks' pol lang data t i :
  NoDup (map mapk_attr apks) -> Permutation apks apks' ->
  mk_encrypt nonce pk apks pol lang data t i = mk_encrypt nonce pk apks' pol lang data t i.
Proof.
  intros N P. unfold mk_encrypt. apply rbind_eq; [reflexivity|]. intros v j.
  destruct (policy_in_dnf v false None); [|reflexivity]. apply rbind_eq; [|reflexivity]. intros k.
  unfold rlift. rewrite (obind_eq _ _ (fun p => json_to_dnf p (map mk_pak apks'))); [reflexivity|].
  intros p. apply to_dnf_order; [now rewrite map_map|now apply Permutation_map].
Qed.

(** All the attributes of all public keys, in the order of the list. *)
Lemma find_pk_concat (pks : list (aw_pk C)) n :
  find_pk_attr pks n = find (fun x => seqb (n3 x) n) (concat (map apk_attr pks)).
Proof.
  induction pks as [|pk pks IH]; [reflexivity|]. cbn [find_pk_attr map concat].
  rewrite IH, !find_hd, filter_app. now destruct (filter _ (apk_attr pk)).
Qed.

Lemma perm_concat {A} (l l' : list (list A)) : Permutation l l' -> Permutation (concat l) (concat l').
Proof.
  induction 1 as [|a l l' P IH|a b l|l l' l'' P1 IH1 P2 IH2]; cbn [concat]; [constructor| | |].
  - now apply Permutation_app_head.
  - rewrite !app_assoc. apply Permutation_app_tail, Permutation_app_comm.
  - now transitivity (concat l').
Qed.

Theorem aw_encrypt_order nonce (gk : aw_gk C) pks pks' pol lang data t i :
  NoDup (map n3 (concat (map apk_attr pks))) -> Permutation pks pks' ->
  aw_encrypt nonce gk pks pol lang data t i = aw_encrypt nonce gk pks' pol lang data t i.
Proof.
  intros N P. assert (E : forall n, find_pk_attr pks n = find_pk_attr pks' n).
  { intros n. rewrite !find_pk_concat. apply find_perm; [exact N|]. apply perm_concat. now apply Permutation_map. }
  unfold aw_encrypt. repeat (apply rbind_eq; [reflexivity|]; intros ? ?).
  apply rbind_eq; [|reflexivity]. intros k. apply rmap_eq. intros x. unfold aw_entry.
  apply rbind_eq; [reflexivity|]. intros r. now rewrite E.
Qed.

(** One public key may hold the attributes of another. *)
Theorem aw_encrypt_merge nonce (gk : aw_gk C) a b pks pol lang data t i :
  aw_encrypt nonce gk (AwPk a :: AwPk b :: pks) pol lang data t i =
  aw_encrypt nonce gk (AwPk (a ++ b) :: pks) pol lang data t i.
Proof.
  assert (E : forall n, find_pk_attr (AwPk a :: AwPk b :: pks) n = find_pk_attr (AwPk (a ++ b) :: pks) n).
  { intros n. rewrite !find_pk_concat. cbn [map apk_attr concat]. now rewrite app_assoc. }
  unfold aw_encrypt. repeat (apply rbind_eq; [reflexivity|]; intros ? ?).
  apply rbind_eq; [|reflexivity]. intros k. apply rmap_eq. intros x. unfold aw_entry.
  apply rbind_eq; [reflexivity|]. intros r. now rewrite E.
Qed.

Theorem aw_keygen_order (gk : aw_gk C) ms ms' name attrs : NoDup (map n3 ms) -> Permutation ms ms' ->
  aw_keygen gk (AwMsk ms) name attrs = aw_keygen gk (AwMsk ms') name attrs.
Proof.
  intros N P. unfold aw_keygen. destruct attrs as [|a l]; [reflexivity|]. destruct (seqb name ""); [reflexivity|].
  apply ofold_eq. intros sk x. unfold aw_add. cbn [amsk_attr]. now rewrite (find_perm n3 x ms ms').
Qed.

Theorem yct_encrypt_order nonce (g : GT C) at1 at2 attrs data t i :
  NoDup (map y_name at1) -> Permutation at1 at2 ->
  yct_encrypt nonce (YctPk g at1) attrs data t i = yct_encrypt nonce (YctPk g at2) attrs data t i.
Proof.
  intros N P. unfold yct_encrypt. destruct attrs as [|a l]; [reflexivity|]. destruct data as [|c data]; [reflexivity|].
  apply rbind_eq; [reflexivity|]. intros k j. apply rbind_eq; [|reflexivity]. intros j'. unfold rlift.
  enough (E : forall l, omap (public_from (YctPk g at1) k) l = omap (public_from (YctPk g at2) k) l) by now rewrite E.
  induction l0 as [|b l0 IH]; [reflexivity|]. cbn [omap]. rewrite IH.
  unfold public_from at 1. unfold public_from at 2. cbn [ypk_attrs]. now rewrite (find_perm y_name b at1 at2) by assumption.
Qed.

Theorem yct_keygen_order (s : F C) at1 at2 pol lang t i :
  NoDup (map y_name at1) -> Permutation at1 at2 ->
  yct_keygen (YctMsk s at1) pol lang t i = yct_keygen (YctMsk s at2) pol lang t i.
Proof.
  intros N P. unfold yct_keygen. repeat (apply rbind_eq; [reflexivity|]; intros ? ?).
  apply rbind_eq; [|reflexivity]. intros k. unfold rlift.
  enough (E : forall l, yct_du (YctMsk s at1) l = yct_du (YctMsk s at2) l) by now rewrite E.
  induction l as [|x l IH]; [reflexivity|]. cbn [yct_du]. rewrite IH.
  unfold private_from, msk_get_private. cbn [ymsk_attrs fst]. now rewrite (find_perm_also y_name _ _ at1 at2) by assumption.
Qed.

End Schemes.

(** ** AC17: sums instead of lookups, so the names need not differ *)
Section Sums.
Context {C : crypto} (L : laws C).
Ltac logs := log_simpl L.
Local Open Scope F_scope.
Add Field order_field : (f_theory L).

Definition pick (i : nat) (k : string) (acc : G1 C) (e : string * list (G1 C)) : outcome (G1 C) :=
  if seqb (fst e) k then obind (idx (snd e) i) (fun x => Ok (g1add C acc x)) else Ok acc.

Lemma pick_swap i k acc a b :
  obind (pick i k acc a) (fun acc => pick i k acc b) = obind (pick i k acc b) (fun acc => pick i k acc a).
Proof.
  unfold pick. destruct (seqb (fst a) k) eqn:Ea, (seqb (fst b) k) eqn:Eb; cbn [obind]; rewrite ?Ea, ?Eb;
    try reflexivity.
  - unfold idx. destruct (nth_error (snd a) i) as [x|], (nth_error (snd b) i) as [y|]; cbn [obind unwrap]; try reflexivity.
    f_equal. apply (log1_inj L). logs. ring.
  - match goal with |- obind ?o _ = ?o => now destruct o | |- ?o = obind ?o _ => now destruct o end.
  - match goal with |- obind ?o _ = ?o => now destruct o | |- ?o = obind ?o _ => now destruct o end.
Qed.

Lemma pick_perm i k l l' : Permutation l l' -> forall acc, ofold (pick i k) l acc = ofold (pick i k) l' acc.
Proof.
  induction 1 as [|a l l' P IH|a b l|l l' l'' P1 IH1 P2 IH2]; intros acc.
  - reflexivity.
  - cbn [ofold]. now apply obind_eq.
  - cbn [ofold].
    assert (A : forall (o : outcome (G1 C)) (g h : G1 C -> outcome (G1 C)), obind (obind o g) h = obind o (fun x => obind (g x) h))
      by (intros o g h; destruct o; reflexivity).
    rewrite <- !A. now rewrite pick_swap.
  - now rewrite IH1, IH2.
Qed.

Lemma select_perm l l' i sel : Permutation l l' -> select_sum (C := C) l i sel = select_sum l' i sel.
Proof. intros P. unfold select_sum. apply ofold_eq. intros acc k. apply (pick_perm i (fst k) l l' P acc). Qed.

Lemma open_order (at1 at2 : list string) pol k0 k k' kp c0 c c' cp data v :
  same_names at1 at2 -> Permutation k k' -> Permutation c c' ->
  ac_open (C := C) at1 pol (AcSk k0 k kp) (AcCt c0 c cp data) v = ac_open at2 pol (AcSk k0 k' kp) (AcCt c0 c' cp data) v.
Proof.
  intros S P1 P2. unfold ac_open. apply obind_eq. intros p. rewrite (traverse_names _ _ S).
  destruct (traverse_policy at2 p Leaf); [|reflexivity]. rewrite (pruned_names _ _ S).
  apply obind_eq. intros pr. destruct (fst pr); [|reflexivity]. cbn [act_cp act_ct].
  enough (ac_products (AcSk k0 k kp) (AcCt c0 c cp data) v (snd pr) =
          ac_products (AcSk k0 k' kp) (AcCt c0 c' cp data) v (snd pr)) as -> by reflexivity.
  unfold ac_products. apply ofold_eq. intros st i. cbn [act_c ask_k act_c0 ask_k0 ask_kp].
  rewrite (select_perm c c') by exact P2. now rewrite (select_perm k k') by exact P1.
Qed.

Theorem cp_order at1 at2 k0 k k' kp pol c0 c c' cp data :
  Permutation at1 at2 -> Permutation k k' -> Permutation c c' ->
  cp_decrypt (C := C) (AcCpSk at1 (AcSk k0 k kp)) (AcCpCt pol (AcCt c0 c cp data)) =
  cp_decrypt (AcCpSk at2 (AcSk k0 k' kp)) (AcCpCt pol (AcCt c0 c' cp data)).
Proof.
  intros P P1 P2. apply open_order; auto. intros x.
  split; apply Permutation_in; [exact P|now apply Permutation_sym].
Qed.

Theorem kp_order at1 at2 k0 k k' kp pol c0 c c' cp data :
  Permutation at1 at2 -> Permutation k k' -> Permutation c c' ->
  kp_decrypt (C := C) (AcKpSk pol (AcSk k0 k kp)) (AcKpCt at1 (AcCt c0 c cp data)) =
  kp_decrypt (AcKpSk pol (AcSk k0 k' kp)) (AcKpCt at2 (AcCt c0 c' cp data)).
Proof.
  intros P P1 P2. apply open_order; auto. intros x.
  split; apply Permutation_in; [exact P|now apply Permutation_sym].
Qed.
End Sums.
