(** * SelectedProofs: decryption reads what pruning selects (C151) *)
From Coq Require Import String List Bool Arith Lia.
From Verif Require Import Base Crypto Policy Tools Sharing Parse ParseProofs Spec PolicyProofs CoreProofs Symmetric Bdabe Mke08 BdabeProofs Mke08Proofs Bsw Ghw11 Lsw Yct14 Ac17 Aw11 SchemeLib Selected.
Import ListNotations.

Lemma fold_left_in {A B} (f g : B -> A -> B) l : (forall b a, In a l -> f b a = g b a) ->
  forall b, fold_left f l b = fold_left g l b.
Proof.
  induction l as [|x r IH]; intros E b; [reflexivity|]. cbn [fold_left].
  rewrite E by (left; reflexivity). apply IH. intros b' a I. apply E. right. exact I.
Qed.

Lemma ofold_in {A B} (f g : B -> A -> outcome B) l : (forall b a, In a l -> f b a = g b a) ->
  forall b, ofold f l b = ofold g l b.
Proof.
  induction l as [|x r IH]; intros E b; [reflexivity|]. cbn [ofold].
  rewrite E by (left; reflexivity). destruct (g b x); cbn [obind]; [|reflexivity|reflexivity].
  apply IH. intros b' a' I. apply E. right. exact I.
Qed.

(** A loop over all entries that passes over those with other names. *)
Lemma ofold_filter {A B} (p : A -> bool) (f : B -> A -> outcome B) l : forall b,
  ofold (fun b a => if p a then f b a else Ok b) l b = ofold f (filter p l) b.
Proof.
  induction l as [|x r IH]; intros b; [reflexivity|]. cbn [ofold filter].
  destruct (p x); cbn [ofold obind]; [|apply IH]. destruct (f b x); cbn [obind]; [apply IH|reflexivity|reflexivity].
Qed.

Lemma sublist_In {A} (l m : list A) : sublist l m -> forall x, In x l -> In x m.
Proof. intros H x. induction H; cbn [In]; intuition. Qed.

(** What is selected is a leaf of the policy whose name is held. *)
Lemma selected_held attrs p n l : selected attrs p n l ->
  exists f c, parse (fst p) (snd p) = Ok (tree f) /\ In (n, c) (leaves f) /\ l = node_index n c /\ In n attrs.
Proof.
  intros (v & sel & P & Pr & I). destruct (parse_shape _ _ _ P) as (f & -> & _).
  destruct (prune_selection attrs f None sel Pr) as (s & -> & Sb & H & _).
  apply in_map_iff in I as ([m c] & E & I). cbn [fst snd] in E. injection E as -> <-.
  exists f, c. split; [exact P|]. split; [exact (sublist_In _ _ Sb _ I)|]. split; [reflexivity|]. exact (H _ I).
Qed.

Section S.
Context {C : crypto}.

Lemma bsw_selected (sk sk' : bsw_sk C) ct ct' :
  bsk_d sk = bsk_d sk' -> map b_string (bsk_dj sk) = map b_string (bsk_dj sk') ->
  bct_policy ct = bct_policy ct' -> bct_c ct = bct_c ct' -> bct_cp ct = bct_cp ct' -> bct_data ct = bct_data ct' ->
  (forall n l, selected (map b_string (bsk_dj sk)) (bct_policy ct) n l ->
     entry_of b_string (bsk_dj sk) n = entry_of b_string (bsk_dj sk') n /\
     entry_of b_string (bct_cy ct) l = entry_of b_string (bct_cy ct') l) ->
  bsw_decrypt sk ct = bsw_decrypt sk' ct'.
Proof.
  intros D N Po Cc Cp Da E. unfold bsw_decrypt. rewrite <- N, <- Po, <- Cc, <- Cp, <- Da, <- D.
  destruct (parse (fst (bct_policy ct)) (snd (bct_policy ct))) as [v| |] eqn:Pv; cbn [obind]; [|reflexivity|reflexivity].
  destruct (traverse_policy _ v Leaf); [|reflexivity].
  destruct (calc_pruned (map b_string (bsk_dj sk)) v None) as [[b sel]| |] eqn:Pr; cbn [obind fst snd]; [|reflexivity|reflexivity].
  destruct b; [|reflexivity].
  destruct (calc_coefficients v (f1 C) [] None) as [o| |]; cbn [obind]; [|reflexivity|reflexivity].
  destruct (unwrap o) as [z| |]; cbn [obind]; [|reflexivity|reflexivity].
  rewrite (fold_left_in (bsw_step sk ct z) (bsw_step sk' ct' z)); [reflexivity|].
  intros a [n l] I. destruct (E n l) as [Ek Ec]; [exists v, sel; auto|].
  unfold bsw_step, entry_of in *. cbn [fst snd]. rewrite Ek, Ec. reflexivity.
Qed.

Lemma ghw_selected (tk tk' : ghw_tk C) ct ct' :
  gtk_k tk = gtk_k tk' -> gtk_l tk = gtk_l tk' -> map fst (gtk_attr tk) = map fst (gtk_attr tk') ->
  gct_policy ct = gct_policy ct' -> gct_c ct = gct_c ct' -> gct_c1 ct = gct_c1 ct' ->
  (forall n l, selected (map fst (gtk_attr tk)) (gct_policy ct) n l ->
     entry_of fst (gtk_attr tk) n = entry_of fst (gtk_attr tk') n /\
     entry_of fst (gct_cidi ct) l = entry_of fst (gct_cidi ct') l) ->
  ghw_transform ct tk = ghw_transform ct' tk'.
Proof.
  intros K Ll N Po Cc C1 E. unfold ghw_transform. rewrite <- N, <- Po, <- Cc, <- C1, <- K, <- Ll.
  destruct (parse (fst (gct_policy ct)) (snd (gct_policy ct))) as [v| |] eqn:Pv; cbn [obind]; [|reflexivity|reflexivity].
  destruct (traverse_policy _ v Leaf); [|reflexivity].
  destruct (calc_pruned (map fst (gtk_attr tk)) v None) as [[b sel]| |] eqn:Pr; cbn [obind fst snd]; [|reflexivity|reflexivity].
  destruct (calc_coefficients v (f1 C) [] None) as [o| |]; cbn [obind]; [|reflexivity|reflexivity].
  destruct (unwrap o) as [z| |]; cbn [obind]; [|reflexivity|reflexivity].
  destruct b; [|reflexivity].
  rewrite (ofold_in (ghw_step tk ct z) (ghw_step tk' ct' z)); [reflexivity|].
  intros a [n l] I. destruct (E n l) as [Ek Ec]; [exists v, sel; auto|].
  unfold ghw_step, entry_of in *. cbn [fst snd]. rewrite Ek, Ec. reflexivity.
Qed.

(** Of the entries of LSW two components of five and one of three are read. *)
Lemma lsw_selected (sk sk' : lsw_sk C) ct ct' :
  lsk_policy sk = lsk_policy sk' -> map le_name (lct_ej ct) = map le_name (lct_ej ct') ->
  lct_e1 ct = lct_e1 ct' -> lct_e2 ct = lct_e2 ct' -> lct_ct ct = lct_ct ct' ->
  (forall n l, selected (map le_name (lct_ej ct)) (lsk_policy sk) n l ->
     option_map (fun d => (ld_1 d, ld_2 d)) (entry_of ld_name (lsk_dj sk) n) =
       option_map (fun d => (ld_1 d, ld_2 d)) (entry_of ld_name (lsk_dj sk') n) /\
     option_map le_1 (entry_of le_name (lct_ej ct) n) = option_map le_1 (entry_of le_name (lct_ej ct') n)) ->
  lsw_decrypt sk ct = lsw_decrypt sk' ct'.
Proof.
  intros Po N E1 E2 Da E. unfold lsw_decrypt. rewrite <- N, <- Po, <- E1, <- Da.
  destruct (parse (fst (lsk_policy sk)) (snd (lsk_policy sk))) as [v| |] eqn:Pv; cbn [obind]; [|reflexivity|reflexivity].
  destruct (calc_pruned (map le_name (lct_ej ct)) v None) as [[b sel]| |] eqn:Pr; cbn [obind fst snd]; [|reflexivity|reflexivity].
  destruct b; [|reflexivity].
  destruct (calc_coefficients v (f1 C) [] None) as [o| |]; cbn [obind]; [|reflexivity|reflexivity].
  destruct (unwrap o) as [z| |]; cbn [obind]; [|reflexivity|reflexivity].
  rewrite (ofold_in (lsw_step sk ct z) (lsw_step sk' ct' z)); [reflexivity|].
  intros a [n l] I. destruct (E n l) as [Ek Ec]; [exists v, sel; auto|].
  unfold lsw_step, entry_of in *. cbn [fst snd]. rewrite <- E2.
  destruct (find (fun x => seqb (ld_name x) n) (lsk_dj sk)) as [d|], (find (fun x => seqb (ld_name x) n) (lsk_dj sk')) as [d'|];
    cbn [option_map] in Ek; try discriminate; cbn [unwrap obind]; [|reflexivity].
  destruct (find (fun x => seqb (le_name x) n) (lct_ej ct)) as [e|], (find (fun x => seqb (le_name x) n) (lct_ej ct')) as [e'|];
    cbn [option_map] in Ec; try discriminate; cbn [unwrap obind]; [|reflexivity].
  assert (ld_1 d = ld_1 d') as -> by congruence. assert (ld_2 d = ld_2 d') as -> by congruence.
  assert (le_1 e = le_1 e') as -> by congruence. reflexivity.
Qed.

Lemma yct_selected (sk sk' : yct_sk C) ct ct' :
  ysk_policy sk = ysk_policy sk' -> map y_name (yct_attrs ct) = map y_name (yct_attrs ct') -> yct_data ct = yct_data ct' ->
  (forall n l, selected (map y_name (yct_attrs ct)) (ysk_policy sk) n l ->
     entry_of y_name (ysk_du sk) n = entry_of y_name (ysk_du sk') n /\
     entry_of y_name (yct_attrs ct) n = entry_of y_name (yct_attrs ct') n) ->
  yct_decrypt sk ct = yct_decrypt sk' ct'.
Proof.
  intros Po N Da E. unfold yct_decrypt. rewrite <- N, <- Po, <- Da.
  destruct (parse (fst (ysk_policy sk)) (snd (ysk_policy sk))) as [v| |] eqn:Pv; cbn [obind]; [|reflexivity|reflexivity].
  destruct (calc_pruned (map y_name (yct_attrs ct)) v None) as [[b sel]| |] eqn:Pr; cbn [obind fst snd]; [|reflexivity|reflexivity].
  destruct b; [|reflexivity].
  destruct (calc_coefficients v (f1 C) [] None) as [o| |]; cbn [obind]; [|reflexivity|reflexivity].
  destruct (unwrap o) as [z| |]; cbn [obind]; [|reflexivity|reflexivity].
  rewrite (ofold_in (yct_step sk ct z) (yct_step sk' ct' z)); [reflexivity|].
  intros a [n l] I. destruct (E n l) as [Ek Ec]; [exists v, sel; auto|].
  unfold yct_step, ct_get_public, sk_get_private, entry_of in *. cbn [fst snd]. rewrite Ek, Ec. reflexivity.
Qed.

Lemma aw_selected gk (sk sk' : aw_sk C) ct ct' :
  awsk_gid sk = awsk_gid sk' -> map fst (awsk_attr sk) = map fst (awsk_attr sk') ->
  awct_policy ct = awct_policy ct' -> awct_c0 ct = awct_c0 ct' -> awct_data ct = awct_data ct' ->
  (forall n l, selected (map fst (awsk_attr sk)) (awct_policy ct) n l ->
     entry_of fst (awsk_attr sk) n = entry_of fst (awsk_attr sk') n /\
     entry_of n4 (awct_c ct) l = entry_of n4 (awct_c ct') l) ->
  aw_decrypt gk sk ct = aw_decrypt gk sk' ct'.
Proof.
  intros G N Po C0 Da E. unfold aw_decrypt. rewrite <- N, <- Po, <- C0, <- Da, <- G.
  destruct (parse (fst (awct_policy ct)) (snd (awct_policy ct))) as [v| |] eqn:Pv; cbn [obind]; [|reflexivity|reflexivity].
  destruct (traverse_policy _ v Leaf); [|reflexivity].
  destruct (calc_pruned (map fst (awsk_attr sk)) v None) as [[b sel]| |] eqn:Pr; cbn [obind fst snd]; [|reflexivity|reflexivity].
  destruct (calc_coefficients v (f1 C) [] None) as [o| |]; cbn [obind]; [|reflexivity|reflexivity].
  destruct (unwrap o) as [z| |]; cbn [obind]; [|reflexivity|reflexivity].
  destruct b; [|reflexivity].
  destruct (sha3_hash_g1 (agk_g1 gk) (awsk_gid sk)) as [h| |]; cbn [obind]; [|reflexivity|reflexivity].
  rewrite (ofold_in (aw_step sk ct z h) (aw_step sk' ct' z h)); [reflexivity|].
  intros a [n l] I. destruct (E n l) as [Ek Ec]; [exists v, sel; auto|].
  unfold aw_step, entry_of in *. cbn [fst snd]. rewrite Ek, Ec. reflexivity.
Qed.

Lemma select_sum_selected (es es' : list (string * list (G1 C))) i sel :
  (forall n l, In (n, l) sel -> entries_of fst es n = entries_of fst es' n) -> select_sum es i sel = select_sum es' i sel.
Proof.
  intros E. unfold select_sum. apply ofold_in. intros b [n l] I. cbn [fst].
  rewrite !(ofold_filter (fun e => seqb (fst e) n)). specialize (E n l I). unfold entries_of in E. rewrite E. reflexivity.
Qed.

Lemma ac_selected attrs p (sk sk' : ac_sk C) ct ct' kp :
  ask_k0 sk = ask_k0 sk' -> (kp = false -> ask_kp sk = ask_kp sk') ->
  act_c0 ct = act_c0 ct' -> act_cp ct = act_cp ct' -> act_ct ct = act_ct ct' ->
  (forall n l, selected attrs p n l ->
     entries_of fst (ask_k sk) n = entries_of fst (ask_k sk') n /\
     entries_of fst (act_c ct) n = entries_of fst (act_c ct') n) ->
  ac_open attrs p sk ct kp = ac_open attrs p sk' ct' kp.
Proof.
  intros K0 Kp C0 Cp Da E. unfold ac_open. rewrite <- Cp, <- Da.
  destruct (parse (fst p) (snd p)) as [v| |] eqn:Pv; cbn [obind]; [|reflexivity|reflexivity].
  destruct (traverse_policy _ v Leaf); [|reflexivity].
  destruct (calc_pruned attrs v None) as [[b sel]| |] eqn:Pr; cbn [obind fst snd]; [|reflexivity|reflexivity].
  destruct b; [|reflexivity].
  replace (ac_products sk' ct' kp sel) with (ac_products sk ct kp sel); [reflexivity|].
  unfold ac_products. apply ofold_in. intros st i _. rewrite <- K0, <- C0.
  rewrite (select_sum_selected (act_c ct) (act_c ct')), (select_sum_selected (ask_k sk) (ask_k sk')).
  - destruct kp; [reflexivity|]. rewrite (Kp eq_refl). reflexivity.
  - intros n l I. apply (E n l). exists v, sel. auto.
  - intros n l I. apply (E n l). exists v, sel. auto.
Qed.

Lemma cp_selected (sk sk' : ac_cpsk C) ct ct' :
  acps_attr sk = acps_attr sk' -> acp_policy ct = acp_policy ct' ->
  ask_k0 (acps_sk sk) = ask_k0 (acps_sk sk') -> ask_kp (acps_sk sk) = ask_kp (acps_sk sk') ->
  act_c0 (acp_ct ct) = act_c0 (acp_ct ct') -> act_cp (acp_ct ct) = act_cp (acp_ct ct') -> act_ct (acp_ct ct) = act_ct (acp_ct ct') ->
  (forall n l, selected (acps_attr sk) (acp_policy ct) n l ->
     entries_of fst (ask_k (acps_sk sk)) n = entries_of fst (ask_k (acps_sk sk')) n /\
     entries_of fst (act_c (acp_ct ct)) n = entries_of fst (act_c (acp_ct ct')) n) ->
  cp_decrypt sk ct = cp_decrypt sk' ct'.
Proof.
  intros A Po K0 Kp C0 Cp Da E. unfold cp_decrypt. rewrite <- A, <- Po. apply ac_selected; auto.
Qed.

Lemma kp_selected (sk sk' : ac_kpsk C) ct ct' :
  akp_attr ct = akp_attr ct' -> akps_policy sk = akps_policy sk' -> ask_k0 (akps_sk sk) = ask_k0 (akps_sk sk') ->
  act_c0 (akp_ct ct) = act_c0 (akp_ct ct') -> act_cp (akp_ct ct) = act_cp (akp_ct ct') -> act_ct (akp_ct ct) = act_ct (akp_ct ct') ->
  (forall n l, selected (akp_attr ct) (akps_policy sk) n l ->
     entries_of fst (ask_k (akps_sk sk)) n = entries_of fst (ask_k (akps_sk sk')) n /\
     entries_of fst (act_c (akp_ct ct)) n = entries_of fst (act_c (akp_ct ct')) n) ->
  kp_decrypt sk ct = kp_decrypt sk' ct'.
Proof.
  intros A Po K0 C0 Cp Da E. unfold kp_decrypt. rewrite <- A, <- Po. apply ac_selected; auto. discriminate.
Qed.

(** BDABE and MKE08: the first block all of whose names are held. *)
Lemma bd_first_at (uk : bd_uk C) pre b post :
  (forall x, In x pre -> ~ incl (bt_attr x) (map bask_attr (buk_ska uk))) -> incl (bt_attr b) (map bask_attr (buk_ska uk)) ->
  bd_first uk (pre ++ b :: post) = bd_open uk b.
Proof.
  intros N I. induction pre as [|x r IH]; cbn [app bd_first].
  - rewrite (proj2 (bd_satisfiable_attrs _ _) I). reflexivity.
  - destruct (bd_satisfiable (bt_attr x) (buk_ska uk)) eqn:Sx.
    + apply bd_satisfiable_attrs in Sx. destruct (N x (or_introl eq_refl) Sx).
    + apply IH. intros y Iy. apply N. right. exact Iy.
Qed.

Lemma bd_calc_selected conj (l l' : list (bd_ask C)) :
  (forall n, In n conj -> entry_of bask_attr l n = entry_of bask_attr l' n) -> bd_calc conj l = bd_calc conj l'.
Proof.
  unfold bd_calc. generalize (g1one C, g2one C). generalize 0. unfold entry_of.
  induction conj as [|a r IH]; intros i ret E; [reflexivity|]. cbn [bd_calc_from].
  rewrite (E a (or_introl eq_refl)). destruct (find _ l'); apply IH; intros n I; apply E; right; exact I.
Qed.

Lemma bd_selected (uk uk' : bd_uk C) ct ct' pre pre' b post post' :
  buk_sk uk = buk_sk uk' -> map bask_attr (buk_ska uk) = map bask_attr (buk_ska uk') ->
  Bdabe.bct_policy ct = Bdabe.bct_policy ct' -> Bdabe.bct_data ct = Bdabe.bct_data ct' ->
  bct_j ct = pre ++ b :: post -> bct_j ct' = pre' ++ b :: post' ->
  (forall x, In x (pre ++ pre') -> ~ incl (bt_attr x) (map bask_attr (buk_ska uk))) ->
  incl (bt_attr b) (map bask_attr (buk_ska uk)) ->
  (forall n, In n (bt_attr b) -> entry_of bask_attr (buk_ska uk) n = entry_of bask_attr (buk_ska uk') n) ->
  bd_decrypt uk ct = bd_decrypt uk' ct'.
Proof.
  intros K N Po Da J J' F I E. unfold bd_decrypt. rewrite <- N, <- Po, <- Da, J, J'.
  rewrite (bd_first_at uk), (bd_first_at uk'); [| |now rewrite <- N| |exact I].
  - unfold bd_open. rewrite (bd_calc_selected (bt_attr b) (buk_ska uk) (buk_ska uk') E), K. reflexivity.
  - intros x Ix. rewrite <- N. apply F. apply in_or_app. right. exact Ix.
  - intros x Ix. apply F. apply in_or_app. left. exact Ix.
Qed.

Lemma mk_first_at (uk : mk_uk C) pre b post :
  (forall x, In x pre -> ~ incl (mj_str x) (map mask_attr (muk_ska uk))) -> incl (mj_str b) (map mask_attr (muk_ska uk)) ->
  mk_first uk (pre ++ b :: post) = mk_open uk b.
Proof.
  intros N I. induction pre as [|x r IH]; cbn [app mk_first].
  - rewrite (proj2 (mk_satisfiable_attrs _ _) I). reflexivity.
  - destruct (mk_satisfiable (mj_str x) (muk_ska uk)) eqn:Sx.
    + apply mk_satisfiable_attrs in Sx. destruct (N x (or_introl eq_refl) Sx).
    + apply IH. intros y Iy. apply N. right. exact Iy.
Qed.

Lemma mk_calc_selected conj (l l' : list (mk_ask C)) :
  (forall n, In n conj -> entry_of mask_attr l n = entry_of mask_attr l' n) -> mk_calc conj l = mk_calc conj l'.
Proof.
  unfold mk_calc. generalize (g1one C, g2one C). generalize 0. unfold entry_of.
  induction conj as [|a r IH]; intros i ret E; [reflexivity|]. cbn [mk_calc_from].
  rewrite (E a (or_introl eq_refl)). destruct (find _ l'); apply IH; intros n I; apply E; right; exact I.
Qed.

Lemma mk_selected (uk uk' : mk_uk C) ct ct' pre pre' b post post' :
  muk_sk uk = muk_sk uk' -> map mask_attr (muk_ska uk) = map mask_attr (muk_ska uk') ->
  mct_policy ct = mct_policy ct' -> mct_data ct = mct_data ct' ->
  mct_e ct = pre ++ b :: post -> mct_e ct' = pre' ++ b :: post' ->
  (forall x, In x (pre ++ pre') -> ~ incl (mj_str x) (map mask_attr (muk_ska uk))) ->
  incl (mj_str b) (map mask_attr (muk_ska uk)) ->
  (forall n, In n (mj_str b) -> entry_of mask_attr (muk_ska uk) n = entry_of mask_attr (muk_ska uk') n) ->
  mk_decrypt uk ct = mk_decrypt uk' ct'.
Proof.
  intros K N Po Da J J' F I E. unfold mk_decrypt. rewrite <- N, <- Po, <- Da, J, J'.
  rewrite (mk_first_at uk), (mk_first_at uk'); [| |now rewrite <- N| |exact I].
  - unfold mk_open. rewrite (mk_calc_selected (mj_str b) (muk_ska uk) (muk_ska uk') E), K. reflexivity.
  - intros x Ix. rewrite <- N. apply F. apply in_or_app. right. exact Ix.
  - intros x Ix. apply F. apply in_or_app. left. exact Ix.
Qed.
End S.
