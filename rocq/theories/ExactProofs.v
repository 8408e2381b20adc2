(** * Decryption for every policy: repeated names, underscores and negated names

    The correctness theorems of the schemes ask for names without underscore and,
    for LSW and YCT14, for distinct names.  Here is the value that decryption
    computes for honest keys and ciphertexts without these conditions. *)
From Coq Require Import String Ascii List Bool Arith Lia Field.
From Verif Require Import Base Crypto Policy Tools Sharing Spec PolicyProofs Poly
  SharingProofs Symmetric Parse SchemeLib Msp MspProofs Bsw BswProofs Ghw11 Ghw11Proofs Lsw LswProofs
  Yct14 Yct14Proofs Aw11 Aw11Proofs TruncationProofs EquationProofs LswNegation.
Import ListNotations.

Section Exact.
Context {C : crypto} (L : laws C).
Local Open Scope F_scope.
Add Field exact_field : (f_theory L).
Notation F := (F C).
Ltac logs := log_simpl L.

(** ** Specification *)

(** The first share whose identifier begins with the name, up to an underscore. *)
Fixpoint share_under (n : string) (sh : list (string * F)) : option F :=
  match sh with
  | [] => None
  | (k, v) :: r => if seqb (before_us k) n then Some v else share_under n r
  end.

(** Sum of coefficient times share, the shares looked up by name. *)
Fixpoint gather (co sh : list (string * F)) (l : list (string * nat)) : option F :=
  match l with
  | [] => Some 0
  | (n, p) :: r =>
      match share_under n sh, gather co sh r with
      | Some v, Some x => Some (oval (assoc (node_index n p) co) * v + x)
      | _, _ => None
      end
  end.

(** The same where a negated name takes the value of the leaf before it. *)
Fixpoint follow (co sh : list (string * F)) (last : F) (l : list (string * nat)) : option F :=
  match l with
  | [] => Some 0
  | (n, p) :: r =>
      match share_under n sh with
      | None => None
      | Some w =>
          let v := if negated n then last else w in
          match follow co sh v r with
          | Some x => Some (oval (assoc (node_index n p) co) * v + x)
          | None => None
          end
      end
  end.

Lemma find_under {B} (nm : B -> string) (R : string * F -> B -> Prop) sh m n :
  Forall2 (fun x y => nm y = remove_index (fst x) /\ R x y) sh m ->
  match share_under n sh with
  | None => find (fun y => seqb (nm y) n) m = None
  | Some v => exists k y, remove_index k = n /\ find (fun y => seqb (nm y) n) m = Some y /\ R (k, v) y
  end.
Proof.
  induction 1 as [|[k v] y sh m [E H] _ IH]; cbn [share_under find]; [reflexivity|].
  cbn [fst] in E. rewrite E. change (remove_index k) with (before_us k). destruct (seqb (before_us k) n) eqn:Q; [|exact IH].
  exists k, y. split; [now apply seqb_eq|auto].
Qed.

(** ** LSW *)

Theorem lsw_decrypt_all nonce (pk : lsw_pk C) msk attrs sk pol lang data ct f
    ts is js tk ik jk te ie je :
  lsw_setup ts is = Ok ((pk, msk), js) ->
  lsw_keygen pk msk pol lang tk ik = Ok (sk, jk) ->
  lsw_encrypt nonce pk attrs data te ie = Ok (ct, je) ->
  parse pol lang = Ok (tree f) ->
  arity2 f = true -> sat (owns attrs) f = true ->
  exists msg sh co j,
    encrypt_symmetric nonce msg data = Ok (lct_ct ct) /\
    lct_e1 ct = gtmul C msg (gtpow C (lpk_egg pk) (te ie)) /\
    gen_shares_policy (lmsk_alpha1 msk) (tree f) None tk ik = Ok (sh, j) /\
    calc_coefficients (tree f) 1 [] None = Ok (Some co) /\
    lsw_decrypt sk ct =
      match follow co sh 0 (chosen (owns attrs) f) with
      | None => Panic
      | Some x =>
          decrypt_symmetric
            (gtmul C (lct_e1 ct)
              (gtinv C (gtpow C (pairing C (lpk_g1 pk) (lpk_g2 pk)) (te ie * lmsk_alpha2 msk * x))))
            (lct_ct ct)
      end.
Proof.
  intros Hs Hk He P A S.
  apply (lsw_setup_keys L) in Hs. destruct (lsw_keygen_inv L _ _ _ _ _ _ _ _ _ P Hk) as (K1 & K2).
  assert (HE : exists msg, log2 L (lct_e2 ct) = log2 L (lpk_g2 pk) * te ie /\
    logT L (lct_e1 ct) = logT L (lpk_egg pk) * te ie + logT L msg /\
    encrypt_symmetric nonce msg data = Ok (lct_ct ct) /\
    Forall2 (fun a e => le_name e = a /\ exists h, hash C a = Some h /\
       log1 L (le_1 e) = log1 L (lpk_g1 pk) * h * te ie) attrs (lct_ej ct)).
  { clear - He L. unfold lsw_encrypt in He. destruct attrs as [|a0 at0]; [discriminate|].
    destruct data as [|c0 d0]; [discriminate|].
    set (attrs := a0 :: at0) in *.
    apply rbind_Ok in He as (s & i1 & Hs & H). injection Hs as <- <-.
    apply rbind_Ok in H as (sx & i2 & Hx & H).
    apply rbind_Ok in H as (ej & i3 & He & H). apply rlift_Ok in He as [He <-].
    apply rbind_Ok in H as (msg & i4 & Hm & H).
    apply rbind_Ok in H as (d & i6 & Hd & H). apply rlift_Ok in Hd as [Hd <-].
    apply rret_Ok in H as [<- _]. cbn [lct_e1 lct_e2 lct_ej lct_ct].
    exists msg. logs. split; [reflexivity|]. split; [reflexivity|]. split; [exact Hd|].
    eapply (lsw_ejs_inv L); eauto. }
  destruct HE as (msg & E2 & E1 & E4 & E5). set (s := te ie) in *.
  assert (Nm : map le_name (lct_ej ct) = attrs).
  { clear - E5. induction E5 as [|a d attrs ds (E & _) _ IH]; cbn; congruence. }
  exists msg, (gsh f (lmsk_alpha1 msk) tk ik), (gco f 1), (ik + nd f)%nat.
  split; [exact E4|]. split; [apply (logT_inj L); logs; rewrite E1; ring|].
  split; [apply (gen_shares_policy_eq L)|]. split; [apply (calc_coefficients_eq L)|].
  unfold lsw_decrypt. rewrite K1. cbn [fst snd]. rewrite P. cbn [obind].
  rewrite Nm. rewrite calc_pruned_tree by exact A. rewrite S. cbn [obind fst snd].
  rewrite (calc_coefficients_eq L). cbn [obind unwrap app].
  pose proof (fun x => @pruned_leaf (owns attrs) f x) as PL.
  rewrite chosen_sel in * by exact S.
  assert (X : forall l, incl l (chosen (owns attrs) f) -> forall st last,
    logT L (fst st) = log1 L (lpk_g1 pk) * log2 L (lpk_g2 pk) * lmsk_alpha2 msk * s * last ->
    match follow (gco f 1) (gsh f (lmsk_alpha1 msk) tk ik) last l with
    | None => ofold (lsw_step sk ct (gco f 1)) (map leaf_pair l) st = Panic
    | Some x => exists st',
      ofold (lsw_step sk ct (gco f 1)) (map leaf_pair l) st = Ok st' /\
      logT L (snd st') = logT L (snd st) +
        log1 L (lpk_g1 pk) * log2 L (lpk_g2 pk) * lmsk_alpha2 msk * s * x
    end).
  { induction l as [|x l IH]; intros Hi st last Hl.
    - exists st. cbn. split; [reflexivity|]. ring.
    - assert (Ix : In (leaf_pair x) (map leaf_pair (chosen (owns attrs) f))) by (apply in_map, Hi; now left).
      destruct (PL _ Ix) as (n & p & E & Il & Io). destruct x as (n', p').
      unfold leaf_pair in E. cbn [fst snd] in E. injection E as -> Ep.
      destruct (coeff_of_leaf (C := C) f n p 1 Il) as (co & Eco).
      unfold owns in Io. apply smem_In in Io.
      destruct (find_key _ _ _ _ _ E5 Io) as (e & Fe & _ & h & Hh & V1).
      pose proof (find_under _ _ _ _ n K2) as FU.
      cbn [map ofold follow]. unfold leaf_pair at 1 3. cbn [fst snd]. rewrite Ep. unfold lsw_step at 1 3. cbn [fst snd].
      destruct (share_under n (gsh f (lmsk_alpha1 msk) tk ik)) as [w|].
      2:{ now rewrite FU. }
      destruct FU as (k & d & Ek & Fd & In1 & V2). cbn [fst snd] in *. rewrite Ek in *.
      rewrite Fd, Fe, (find_assoc_id _ _ _ Eco). cbn [unwrap obind fst snd]. rewrite In1. cbn [obind].
      rewrite Eco. cbn [oval].
      set (v := if negated n then last else w).
      match goal with |- context [ofold _ (map leaf_pair l) ?st0] =>
        pose proof (IH (fun y Hy => Hi y (or_intror Hy)) st0 v) as I1; set (st1 := st0) in * end.
      assert (Z : logT L (fst st1) = log1 L (lpk_g1 pk) * log2 L (lpk_g2 pk) * lmsk_alpha2 msk * s * v).
      { subst st1 v. cbn [fst]. destruct (negated n) eqn:Ng; [exact Hl|].
        destruct (V2 eq_refl) as (h' & r & Hh' & D1 & D2). rewrite Hh in Hh'. injection Hh' as <-.
        logs. rewrite D1, D2, V1, E2. ring. }
      specialize (I1 Z). destruct (follow (gco f 1) (gsh f (lmsk_alpha1 msk) tk ik) v l) as [x|]; [|exact I1].
      destruct I1 as (st' & Es & V). exists st'. split; [exact Es|]. rewrite V.
      assert (Z2 : logT L (snd st1) = logT L (snd st) + logT L (fst st1) * co) by (subst st1; cbn [fst snd]; logs; ring).
      rewrite Z2, Z. ring. }
  specialize (X _ (incl_refl _) (gtone C, gtone C) 0).
  assert (Z : logT L (fst (gtone C, gtone C)) = log1 L (lpk_g1 pk) * log2 L (lpk_g2 pk) * lmsk_alpha2 msk * s * 0)
    by (cbn [fst]; logs; ring).
  specialize (X Z). destruct (follow _ _ _ _) as [x|]; [|now rewrite X].
  destruct X as (st' & Es & V).
  rewrite Es. cbn [obind]. f_equal. apply (logT_inj L). logs. rewrite V. cbn [snd]. logs. ring.
Qed.

(** ** YCT14 *)

Lemma yct_du_under (msk : yct_msk C) n si sh : msk_get_private msk n = Ok si ->
  forall du, yct_du msk sh = Ok du ->
  match share_under n sh with
  | None => find (fun a => seqb (y_name a) n) du = None
  | Some v => si <> 0 /\ find (fun a => seqb (y_name a) n) du = Some (YAttr n (Some (YPriv (v * finv C si))))
  end.
Proof.
  intros Hm. induction sh as [|[k v] sh IH]; intros du H; cbn [yct_du share_under fst snd] in *.
  - injection H as <-. reflexivity.
  - change (remove_index k) with (before_us k) in H.
    destruct (private_from (before_us k, v) msk) as [a| |] eqn:Ea; [| |discriminate].
    + apply obind_Ok in H as (l & Hl & H). injection H as <-. cbn [find].
      rewrite (private_from_name _ _ _ _ Ea). destruct (seqb (before_us k) n) eqn:Q; [|exact (IH _ Hl)].
      apply seqb_eq in Q. rewrite Q in Ea. destruct (private_from_Ok L _ _ _ _ Hm _ Ea) as (Ns & ->). auto.
    + destruct (seqb (before_us k) n) eqn:Q; [|exact (IH _ H)]. apply seqb_eq in Q. rewrite Q in Ea.
      unfold private_from in Ea. cbn [fst snd] in Ea. rewrite Hm in Ea. cbn in Ea.
      destruct (finv_opt si); discriminate.
Qed.

Theorem yct_decrypt_all nonce U (pk : yct_pk C) msk attrs sk pol lang data ct f
    ts is js tk ik jk te ie je :
  yct_setup U ts is = Ok ((pk, msk), js) ->
  yct_keygen msk pol lang tk ik = Ok (sk, jk) ->
  yct_encrypt nonce pk attrs data te ie = Ok (ct, je) ->
  parse pol lang = Ok (tree f) ->
  arity2 f = true -> sat (owns attrs) f = true ->
  exists g sh co j,
    ypk_g pk = gtpow C g (ymsk_s msk) /\
    encrypt_symmetric nonce (gtpow C g (te ie * ymsk_s msk)) data = Ok (yct_data ct) /\
    gen_shares_policy (ymsk_s msk) (tree f) None tk ik = Ok (sh, j) /\
    calc_coefficients (tree f) 1 [] None = Ok (Some co) /\
    yct_decrypt sk ct =
      match gather co sh (chosen (owns attrs) f) with
      | None => Panic
      | Some x => decrypt_symmetric (gtpow C g (te ie * x)) (yct_data ct)
      end.
Proof.
  intros Hs Hk He P A S.
  assert (HG : exists g, ypk_g pk = gtpow C g (ymsk_s msk) /\ yct_keys L (logT L g) U pk msk).
  { destruct (yct_setup_keys L _ _ _ _ _ _ Hs) as (G & K).
    exists (gtpow C (pairing C (g1one C) (g2one C)) G). split.
    - destruct K as [K _]. apply (logT_inj L). rewrite K. logs. ring.
    - assert (E : logT L (gtpow C (pairing C (g1one C) (g2one C)) G) = G) by (logs; ring).
      now rewrite E. }
  destruct HG as (g & Eg & Hk0). set (G := logT L g) in *.
  destruct (yct_encrypt_inv L _ _ _ _ _ _ _ _ _ _ _ Hk0 He) as (NE & _ & _ & E1 & Nm & E2).
  destruct (yct_keygen_inv L _ _ _ _ _ _ _ _ P Hk) as (K1 & K2).
  exists g, (gsh f (ymsk_s msk) tk ik), (gco f 1), (ik + nd f)%nat.
  split; [exact Eg|]. split.
  { rewrite <- E1. f_equal. apply (logT_inj L). rewrite Eg. logs. ring. }
  split; [apply (gen_shares_policy_eq L)|]. split; [apply (calc_coefficients_eq L)|].
  unfold yct_decrypt. rewrite K1. cbn [fst snd]. rewrite P. cbn [obind].
  rewrite Nm. rewrite calc_pruned_tree by exact A. rewrite S. cbn [obind fst snd].
  rewrite (calc_coefficients_eq L). cbn [obind unwrap app].
  pose proof (fun x => @pruned_leaf (owns attrs) f x) as PL.
  rewrite chosen_sel in * by exact S.
  assert (X : forall l, incl l (chosen (owns attrs) f) -> forall st,
    match gather (gco f 1) (gsh f (ymsk_s msk) tk ik) l with
    | None => ofold (yct_step sk ct (gco f 1)) (map leaf_pair l) st = Panic
    | Some x => exists st', ofold (yct_step sk ct (gco f 1)) (map leaf_pair l) st = Ok st' /\
        logT L st' = logT L st + G * te ie * x
    end).
  { induction l as [|x l IH]; intros Hi st.
    - exists st. cbn. split; [reflexivity|]. ring.
    - assert (Ix : In (leaf_pair x) (map leaf_pair (chosen (owns attrs) f))) by (apply in_map, Hi; now left).
      destruct (PL _ Ix) as (n & p & E & Il & Io). destruct x as (n', p').
      unfold leaf_pair in E. cbn [fst snd] in E. injection E as -> Ep.
      destruct (coeff_of_leaf (C := C) f n p 1 Il) as (co & Eco).
      unfold owns in Io. apply smem_In in Io.
      destruct (E2 n Io) as (gn & si & Fg & Fm & V1).
      pose proof (yct_du_under _ _ _ _ Fm _ K2) as FU.
      cbn [map ofold gather]. unfold leaf_pair at 1 3. cbn [fst snd]. rewrite Ep.
      unfold yct_step at 1 3. cbn [fst snd]. rewrite Fg. cbn [unwrap_res obind]. unfold sk_get_private.
      destruct (share_under n (gsh f (ymsk_s msk) tk ik)) as [w|].
      2:{ now rewrite FU. }
      destruct FU as (Ns & Fd). rewrite Fd. cbn [node_private y_node unwrap_res obind].
      rewrite (find_assoc_id _ _ _ Eco). cbn [unwrap obind fst snd].
      match goal with |- context [ofold _ (map leaf_pair l) ?st0] =>
        pose proof (IH (fun y Hy => Hi y (or_intror Hy)) st0) as I1; set (st1 := st0) in * end.
      destruct (gather (gco f 1) (gsh f (ymsk_s msk) tk ik) l) as [x|]; [|exact I1].
      destruct I1 as (st' & Es & V). exists st'. split; [exact Es|]. rewrite V.
      subst st1. logs. rewrite Eco, V1. cbn [oval]. field. exact Ns. }
  specialize (X _ (incl_refl _) (gtone C)).
  destruct (gather _ _ _) as [x|]; [|now rewrite X].
  destruct X as (st' & Es & V). rewrite Es. cbn [obind]. f_equal. apply (logT_inj L). logs.
  rewrite V. logs. unfold G. ring.
Qed.

(** ** BSW and GHW11 *)

(** Value of the hash oracle. *)
Definition hval (n : string) : F := match hash C n with Some h => h | None => 0 end.

(** Index of the first occurrence. *)
Fixpoint place (n : string) (l : list string) : nat :=
  match l with
  | [] => 0
  | m :: r => if seqb m n then 0 else S (place n r)
  end%nat.

(** Sum of all coefficients stored under an identifier. *)
Fixpoint weight (k : string) (co : list (string * F)) : F :=
  match co with
  | [] => 0
  | (m, c) :: r => (if seqb m k then c else 0) + weight k r
  end.

Lemma find_place {B} (nm : B -> string) n m : forall l, map nm m = l -> In n l ->
  nth_error l (place n l) = Some n /\
  exists y, nth_error m (place n l) = Some y /\ find (fun y => seqb (nm y) n) m = Some y.
Proof.
  induction m as [|y m IH]; intros l <- I; [contradiction|]. cbn [map place find].
  destruct (seqb (nm y) n) eqn:E.
  - apply seqb_eq in E. cbn. rewrite E. eauto.
  - destruct I as [I|I]; [rewrite I, seqb_refl in E; discriminate|]. destruct (IH _ eq_refl I) as (H1 & H2). auto.
Qed.

Lemma assoc_place {A} k (l : list (string * A)) v : assoc k l = Some v ->
  nth_error l (place k (map fst l)) = Some (k, v).
Proof.
  induction l as [|[m a] l IH]; cbn; [discriminate|]. destruct (seqb m k) eqn:E.
  - apply seqb_eq in E. intros H. injection H as <-. now rewrite E.
  - exact IH.
Qed.

Lemma weight_fold (B : GT C) k co : forall a,
  logT L (fold_left (fun a zt => if seqb (fst zt) k then gtmul C a (gtpow C B (snd zt)) else a) co a) =
  logT L a + logT L B * weight k co.
Proof.
  induction co as [|[m c] co IH]; intros a; cbn [fold_left weight fst snd]; [ring|].
  rewrite IH. destruct (seqb m k); logs; ring.
Qed.

Lemma weight_assoc k co : NoDup (map fst co) -> weight k co = oval (assoc k co).
Proof.
  induction co as [|[m c] co IH]; cbn [map fst weight assoc]; intros ND; [reflexivity|].
  inversion ND as [|? ? N ND']; subst. rewrite IH by exact ND'. destruct (seqb m k) eqn:E; [|ring].
  apply seqb_eq in E. subst m. destruct (assoc k co) as [v|] eqn:Ea; cbn [oval]; [|ring].
  exfalso. apply N. apply assoc_In_pair in Ea. change k with (fst (k, v)). now apply in_map.
Qed.

Theorem bsw_decrypt_all nonce (pk : bsw_pk C) msk attrs sk pol lang data ct f ts is js tk ik jk te ie je :
  bsw_setup ts is = Ok ((pk, msk), js) ->
  bsw_keygen pk msk attrs tk ik = Ok (Some sk, jk) ->
  bsw_encrypt nonce pk pol lang data te ie = Ok (ct, je) ->
  parse pol lang = Ok (tree f) ->
  arity2 f = true -> sat (owns attrs) f = true ->
  exists msg sh co j,
    encrypt_symmetric nonce msg data = Ok (bct_data ct) /\
    gen_shares_policy (te ie) (tree f) None te (ie + 2)%nat = Ok (sh, j) /\
    calc_coefficients (tree f) 1 [] None = Ok (Some co) /\
    bsw_decrypt sk ct =
      decrypt_symmetric
        (gtmul C msg (gtpow C (pairing C (bpk_g1 pk) (bpk_g2 pk))
           (fsum (map (fun x => let k := node_index (fst x) (snd x) in
                         weight k co * oval (assoc k sh) *
                         (tk ik + tk (ik + 1 + place (fst x) attrs)%nat *
                                  (hval (fst x) - hval (before_us (fst x)))))
                      (chosen (owns attrs) f)) - tk ik * te ie)))
        (bct_data ct).
Proof.
  intros Hs Hk He P A S.
  destruct (bsw_setup_keys L _ _ _ _ _ Hs) as (al & Nb & Kh & Kf & Ka & Ke).
  destruct (bsw_keygen_ok L _ _ _ _ _ _ _ Hk) as (_ & Kd & Kj0).
  pose proof (Forall2_names _ _ _ Kj0) as Nm.
  destruct (bsw_keygen_eq L _ _ _ _ _ _ _ Hk) as (_ & _ & _ & _ & Kj).
  destruct (bsw_encrypt_eq L _ _ _ _ _ _ _ _ _ _ P He)
    as (sh & msg & _ & D & E1 & E2 & E3 & E4 & Ly & E5).
  apply dealt_unique in D as [Esh _].
  assert (Es2 : map fst sh = idents f) by (rewrite Esh; apply gsh_idents).
  exists msg, sh, (gco f 1), (ie + 2 + nd f)%nat.
  split; [exact E4|]. split; [rewrite Esh; apply (gen_shares_policy_eq L)|].
  split; [apply (calc_coefficients_eq L)|].
  unfold bsw_decrypt. rewrite E1. cbn [fst snd]. rewrite P. cbn [obind].
  rewrite Nm, traverse_tree, S.
  pose proof (owns_nonempty _ _ S A) as NE.
  assert (E : (0 <? length attrs)%nat = true) by (destruct attrs; [congruence|reflexivity]).
  rewrite E. cbn [andb]. rewrite calc_pruned_tree by exact A. rewrite S. cbn [obind fst snd].
  rewrite (calc_coefficients_eq L). cbn [obind unwrap app].
  pose proof (fun x => @pruned_leaf (owns attrs) f x) as PL.
  rewrite chosen_sel in * by exact S.
  set (val := fun x : string * nat => let k := node_index (fst x) (snd x) in
     weight k (gco f 1) * oval (assoc k sh) *
     (tk ik + tk (ik + 1 + place (fst x) attrs)%nat * (hval (fst x) - hval (before_us (fst x))))).
  assert (X : forall l, incl l (chosen (owns attrs) f) -> forall a,
    logT L (fold_left (bsw_step sk ct (gco f 1)) (map leaf_pair l) a) =
    logT L a + log1 L (bpk_g1 pk) * log2 L (bpk_g2 pk) * fsum (map val l)).
  { induction l as [|x l IH]; intros Hi a; cbn [map fold_left fsum]; [ring|].
    rewrite IH by (intros y Hy; apply Hi; now right).
    assert (Ix : In (leaf_pair x) (map leaf_pair (chosen (owns attrs) f))) by (apply in_map, Hi; now left).
    destruct (PL _ Ix) as (n & p & Ex & Il & Io). destruct x as (n', p').
    unfold leaf_pair in Ex. cbn [fst snd] in Ex. injection Ex as -> Ep.
    assert (p' = p) as -> by (apply node_index_inj in Ep; tauto). clear Ep.
    unfold leaf_pair at 1. cbn [fst snd]. unfold bsw_step at 1. cbn [fst snd].
    destruct (share_of_leaf f n p (te ie) te (ie + 2)%nat Il) as (w & Ew). rewrite <- Esh in Ew.
    pose proof (assoc_place _ _ _ Ew) as Pw.
    destruct (E5 _ _ _ Pw) as (h & Hh & Ny).
    assert (Nc : map b_string (bct_cy ct) = map fst sh).
    { clear - Ly E5. apply nth_ext with (d := ""%string) (d' := ""%string); [now rewrite !map_length|].
      intros k Hk. rewrite map_length in Hk.
      destruct (nth_error sh k) as [[n x]|] eqn:En.
      2:{ apply nth_error_None in En. lia. }
      destruct (E5 _ _ _ En) as (h & _ & Ny).
      rewrite (nth_error_nth _ _ _ (map_nth_error b_string _ _ Ny)).
      now rewrite (nth_error_nth _ _ _ (map_nth_error fst _ _ En)). }
    assert (In (node_index n p) (map fst sh)) as Ii.
    { rewrite Es2. unfold idents. apply in_map_iff. now exists (n, p). }
    destruct (find_place b_string _ _ _ Nc Ii) as (_ & cy & Ncy & Fc).
    rewrite Ny in Ncy. injection Ncy as <-. rewrite Fc.
    unfold owns in Io. apply smem_In in Io.
    destruct (find_place b_string _ _ _ Nm Io) as (Na & dj & Ndj & Fd). rewrite Fd.
    destruct (Kj _ _ Na) as (h' & Hh' & Ndj'). rewrite Ndj' in Ndj. injection Ndj as <-.
    rewrite weight_fold. unfold val at 2. cbn [fst snd b_g1 b_g2]. rewrite Ew. cbn [oval].
    assert (Rn : remove_index (node_index n p) = before_us n).
    { rewrite remove_index_node. reflexivity. }
    rewrite Rn in Hh. unfold hval. rewrite Hh', Hh. logs. ring. }
  specialize (X _ (incl_refl _) (gtone C)).
  f_equal. apply (logT_inj L). logs. rewrite X, E2, E3, Kd. logs. rewrite Kh, Ka, Ke. field. exact Nb.
Qed.

Theorem ghw_decrypt_all nonce (pk : ghw_pk C) msk attrs sk tk z pol lang data ct f
    ts is js tk' ik jk tt it jt te ie je :
  ghw_setup ts is = Ok ((pk, msk), js) ->
  ghw_keygen pk msk attrs tk' ik = Ok (Some sk, jk) ->
  ghw_tkgen sk tt it = Ok ((tk, z), jt) ->
  ghw_encrypt nonce pk pol lang data te ie = Ok (ct, je) ->
  parse pol lang = Ok (tree f) ->
  arity2 f = true -> sat (owns attrs) f = true ->
  exists msg sh co j tct,
    encrypt_symmetric nonce msg data = Ok (gct_data ct) /\
    gen_shares_policy (te ie) (tree f) None te (ie + 2)%nat = Ok (sh, j) /\
    calc_coefficients (tree f) 1 [] None = Ok (Some co) /\
    ghw_transform ct tk = Ok tct /\
    ghw_decrypt_out tct z (gct_data ct) =
      decrypt_symmetric
        (gtmul C msg (gtpow C (pairing C (gpk_g1 pk) (gpk_g2 pk))
           (tk' ik *
            (fsum (map (fun x => let k := node_index (fst x) (snd x) in
                         oval (assoc k co) *
                         (ts (is + 2)%nat * oval (assoc k sh) + te (j + place k (map fst sh))%nat *
                                  (hval (fst x) - hval (before_us (fst x)))))
                      (chosen (owns attrs) f)) - ts (is + 2)%nat * te ie))))
        (gct_data ct).
Proof.
  intros Hs Hk Ht He P A S.
  apply ghw_setup_eq in Hs as (_ & _ & _ & _ & Ka1 & Ka2 & Kal & Ke).
  set (a := ts (is + 2)%nat) in *. set (al := ts (is + 3)%nat) in *.
  destruct (ghw_keygen_ok L _ _ _ _ _ _ _ Hk) as (Kk & Kl & Kx).
  destruct (ghw_tkgen_ok L _ _ _ _ _ _ Ht) as (Nz & Tk & Tl & Tx).
  set (r := tk' ik) in *.
  destruct (ghw_encrypt_eq L _ _ _ _ _ _ _ _ _ _ P He)
    as (sh & i' & msg & _ & D & _ & E1 & E2 & E3 & E4 & Ly & E5).
  apply dealt_unique in D as [Esh Ei].
  assert (Es2 : map fst sh = idents f) by (rewrite Esh; apply gsh_idents).
  assert (Tx' : Forall2 (fun a d => fst d = a /\
     exists h, hash C a = Some h /\ log2 L (snd d) = log2 L (gpk_g2 pk) * h * r * finv C z)
     attrs (gtk_attr tk)).
  { rewrite Tx. clear - Kx. induction Kx as [|b d attrs ds (E & h & Hh & D) _ IH]; cbn; constructor; auto.
    cbn. split; [exact E|]. exists h. split; [exact Hh|]. logs. now rewrite D. }
  assert (Nm : map fst (gtk_attr tk) = attrs).
  { clear - Tx'. induction Tx' as [|b d attrs ds (E & _) _ IH]; cbn; congruence. }
  exists msg, sh, (gco f 1), i'.
  set (val := fun x : string * nat => let k := node_index (fst x) (snd x) in
     oval (assoc k (gco f 1)) * (a * oval (assoc k sh) + te (i' + place k (map fst sh))%nat *
                                  (hval (fst x) - hval (before_us (fst x))))).
  enough (Q : exists tct, ghw_transform ct tk = Ok tct /\
    ghw_decrypt_out tct z (gct_data ct) = decrypt_symmetric (gtmul C msg (gtpow C (pairing C (gpk_g1 pk) (gpk_g2 pk))
           (r * (fsum (map val (chosen (owns attrs) f)) - a * te ie)))) (gct_data ct)).
  { destruct Q as (tct & Q1 & Q2). exists tct. split; [exact E4|].
    split; [rewrite Esh, Ei; apply (gen_shares_policy_eq L)|].
    split; [apply (calc_coefficients_eq L)|]. split; [exact Q1|exact Q2]. }
  unfold ghw_transform. rewrite E1. cbn [fst snd]. rewrite P. cbn [obind].
  rewrite Nm, traverse_tree, S.
  pose proof (owns_nonempty _ _ S A) as NE.
  assert (E : (0 <? length attrs)%nat = true) by (destruct attrs; [congruence|reflexivity]).
  rewrite E. cbn [andb]. rewrite calc_pruned_tree by exact A. rewrite S. cbn [obind fst snd].
  rewrite (calc_coefficients_eq L). cbn [obind unwrap app].
  pose proof (fun x => @pruned_leaf (owns attrs) f x) as PL.
  rewrite chosen_sel in * by exact S.
  assert (Nc : map fst (gct_cidi ct) = map fst sh).
  { clear - Ly E5. apply nth_ext with (d := ""%string) (d' := ""%string); [now rewrite !map_length|].
    intros k Hk. rewrite map_length in Hk.
    destruct (nth_error sh k) as [[n x]|] eqn:En.
    2:{ apply nth_error_None in En. lia. }
    destruct (E5 _ _ _ En) as (h & _ & Ny).
    rewrite (nth_error_nth _ _ _ (map_nth_error fst _ _ Ny)).
    now rewrite (nth_error_nth _ _ _ (map_nth_error fst _ _ En)). }
  assert (X : forall l, incl l (chosen (owns attrs) f) -> forall st, exists st',
    ofold (ghw_step tk ct (gco f 1)) (map leaf_pair l) st = Ok st' /\
    logT L (snd st') + log1 L (fst st') * log2 L (gtk_l tk) =
    logT L (snd st) + log1 L (fst st) * log2 L (gtk_l tk) +
    log1 L (gpk_g1 pk) * log2 L (gpk_g2 pk) * r * finv C z * fsum (map val l)).
  { induction l as [|x l IH]; intros Hi st.
    - exists st. cbn. split; [reflexivity|]. ring.
    - assert (Ix : In (leaf_pair x) (map leaf_pair (chosen (owns attrs) f))) by (apply in_map, Hi; now left).
      destruct (PL _ Ix) as (n & p & Ex & Il & Io). destruct x as (n', p').
      unfold leaf_pair in Ex. cbn [fst snd] in Ex. injection Ex as -> Ep.
      assert (p' = p) as -> by (apply node_index_inj in Ep; tauto). clear Ep.
      destruct (share_of_leaf f n p (te ie) te (ie + 2)%nat Il) as (w & Ew). rewrite <- Esh in Ew.
      destruct (coeff_of_leaf (C := C) f n p 1 Il) as (co & Eco).
      pose proof (assoc_place _ _ _ Ew) as Pw.
      destruct (E5 _ _ _ Pw) as (h & Hh & Ny).
      assert (In (node_index n p) (map fst sh)) as Ii.
      { rewrite Es2. unfold idents. apply in_map_iff. now exists (n, p). }
      destruct (find_place fst _ _ _ Nc Ii) as (_ & cd & Ncd & Fc).
      rewrite Ny in Ncd. injection Ncd as <-.
      unfold owns in Io. apply smem_In in Io.
      destruct (find_key _ _ _ _ _ Tx' Io) as (ka & Fk & _ & h' & Hh' & D1).
      assert (Rn : remove_index (node_index n p) = before_us n).
      { rewrite remove_index_node. reflexivity. }
      rewrite Rn in Hh.
      cbn [map ofold]. unfold leaf_pair at 1. cbn [fst snd]. unfold ghw_step at 1. cbn [fst snd].
      rewrite (find_assoc_id _ _ _ Eco), Fk, Fc. cbn [unwrap obind fst snd].
      match goal with |- context [ofold _ (map leaf_pair l) ?st0] =>
        destruct (IH (fun y Hy => Hi y (or_intror Hy)) st0) as (st' & Es & V) end.
      exists st'. split; [exact Es|]. rewrite V. cbn [fst snd map fsum]. unfold val at 2. cbn [fst snd].
      rewrite Eco, Ew. cbn [oval]. unfold hval. rewrite Hh', Hh. logs. rewrite D1, Tl, Kl, Ka1. logs. ring. }
  destruct (X _ (incl_refl _) (g1zero C, gtone C)) as (st' & Es & V).
  rewrite Es. cbn [obind]. eexists. split; [reflexivity|].
  unfold ghw_decrypt_out. cbn [gtct_c gtct_t]. f_equal.
  apply (logT_inj L). logs. rewrite V. cbn [fst snd].
  rewrite E3, E2, Tk, Kk, Ka2, Kal. logs. rewrite Ke. logs. field. exact Nz.
Qed.

(** ** AW11 *)

(** Identifiers in upper case. *)
Definition ups (l : list (string * F)) : list (string * F) := map (fun x => (upper C (fst x), snd x)) l.

(** The secrets behind the first public entry for a name. *)
Definition published (As : list (list string * (aw_pk C * aw_msk C))) (n : string) : option (string * F * F) :=
  find (fun m => seqb (n3 m) n) (flat_map (fun A => amsk_attr (snd (snd A))) As).

(** The secrets behind the first key entry for a name. *)
Fixpoint handed (issued : list (aw_msk C * string)) (n : string) : option (string * F * F) :=
  match issued with
  | [] => None
  | (m, a) :: r => if seqb (upper C a) n then find (fun x => seqb (n3 x) a) (amsk_attr m) else handed r n
  end.

(** Sum over the leaves, [None] when a leaf has no ciphertext entry. *)
Fixpoint aw_sum As issued (co sh w : list (string * F)) (h : F) (rx : nat -> F) (l : list (string * nat))
  : option F :=
  match l with
  | [] => Some 0
  | (n, p) :: r =>
      let k := node_index n p in
      match published As (before_us n), handed issued n, aw_sum As issued co sh w h rx r with
      | Some (_, a', y'), Some (_, a, y), Some x =>
          Some (oval (assoc k co) *
                (oval (assoc k (ups sh)) + h * oval (assoc k (ups w)) +
                 rx (place k (map fst (ups sh))) * ((a' - a) + h * (y' - y))) + x)
      | _, _, _ => None
      end
  end.

Lemma find_pk_published (gk : aw_gk C) As n :
  Forall (fun A => exists t i j, aw_authgen gk (fst A) t i = Ok (Some (snd A), j)) As ->
  match published As n, find_pk_attr (map (fun A => fst (snd A)) As) n with
  | Some m, Some p => aw_pair L gk m p
  | None, None => True
  | _, _ => False
  end.
Proof.
  unfold published. induction 1 as [|[ab [pk msk]] As (t & i & j & HB) _ IH]; cbn [flat_map map find_pk_attr find]; [exact I|].
  cbn [fst snd] in *. rewrite find_app. destruct (aw_authgen_inv L _ _ _ _ _ _ _ HB) as (_ & _ & Pr).
  pose proof (aw_find_pair L gk _ _ n Pr) as Q.
  destruct (find (fun a => seqb (n3 a) n) (amsk_attr msk)) as [m|],
           (find (fun a => seqb (n3 a) n) (apk_attr pk)) as [q|]; try contradiction; [tauto|exact IH].
Qed.

Lemma find_place_concat {B} (nm : B -> string) (ks : list string) : forall es k y,
  length es = length ks ->
  (forall q m, nth_error ks q = Some m -> exists l, nth_error es q = Some l /\ forall e, In e l -> nm e = m) ->
  nth_error es (place k ks) = Some [y] -> nm y = k ->
  find (fun e => seqb (nm e) k) (concat es) = Some y.
Proof.
  induction ks as [|m ks IH]; intros [|l es] k y Hl H E N; try discriminate.
  cbn [concat place] in *. rewrite find_app.
  destruct (H 0%nat m eq_refl) as (l' & El & Hn). cbn in El. injection El as <-.
  destruct (seqb m k) eqn:Q.
  - cbn in E. injection E as ->. cbn. now rewrite N, seqb_refl.
  - cbn [nth_error] in E. apply seqb_neq in Q. rewrite find_none_nm by (intros e Ie; rewrite (Hn e Ie); exact Q).
    apply IH; auto. intros q m' Hq. exact (H (S q) m' Hq).
Qed.

Lemma find_concat_none {B} (nm : B -> string) (ks : list string) : forall es k,
  length es = length ks ->
  (forall q m, nth_error ks q = Some m -> exists l, nth_error es q = Some l /\
     (forall e, In e l -> nm e = m) /\ (m = k -> l = [])) ->
  find (fun e => seqb (nm e) k) (concat es) = None.
Proof.
  induction ks as [|m ks IH]; intros [|l es] k Hl H; try discriminate; [reflexivity|].
  cbn [concat]. rewrite find_app.
  destruct (H 0%nat m eq_refl) as (l' & El & Hn & Hz). cbn in El. injection El as <-.
  rewrite find_none_nm.
  - apply IH; auto. intros q m' Hq. exact (H (S q) m' Hq).
  - intros e Ie Ee. rewrite (Hn e Ie) in Ee. rewrite (Hz Ee) in Ie. contradiction.
Qed.

Lemma assoc_ups_place k (l : list (string * F)) : In k (map fst (ups l)) ->
  exists m v, nth_error l (place k (map fst (ups l))) = Some (m, v) /\ upper C m = k /\ assoc k (ups l) = Some v.
Proof.
  induction l as [|[m v] l IH]; cbn [ups map fst place assoc]; intros I; [contradiction|].
  destruct (seqb (upper C m) k) eqn:E.
  - apply seqb_eq in E. exists m, v. auto.
  - destruct I as [I|I]; [rewrite I, seqb_refl in E; discriminate|]. apply IH. exact I.
Qed.

Theorem aw_decrypt_all nonce (gk : aw_gk C) As gid issued sk pol lang data ct f te ie je :
  Forall (fun A => exists t i j, aw_authgen gk (fst A) t i = Ok (Some (snd A), j)) As ->
  (forall m a, In (m, a) issued -> exists A, In A As /\ m = snd (snd A)) ->
  aw_issue gk gid issued = Ok sk ->
  aw_encrypt nonce gk (map (fun A => fst (snd A)) As) pol lang data te ie = Ok (ct, je) ->
  parse pol lang = Ok (tree f) ->
  sat (owns (map snd issued)) f = true ->
  exists msg sh i1 w i2 co,
    encrypt_symmetric nonce msg data = Ok (awct_data ct) /\
    gen_shares_policy (te ie) (tree f) None te (ie + 1)%nat = Ok (sh, i1) /\
    gen_shares_policy 0 (tree f) None te i1 = Ok (w, i2) /\
    calc_coefficients (tree f) 1 [] None = Ok (Some co) /\
    aw_decrypt gk sk ct =
      match aw_sum As issued co sh w (hval gid) (fun k => te (i2 + 1 + k)%nat)
              (chosen (owns (map snd issued)) f) with
      | None => Panic
      | Some x =>
          decrypt_symmetric (gtmul C msg (gtpow C (pairing C (agk_g1 gk) (agk_g2 gk)) (te ie - x)))
            (awct_data ct)
      end.
Proof.
  intros FA Own Hk He P S.
  destruct (aw_encrypt_inv L _ _ _ _ _ _ _ _ _ _ _ P He) as (B & _).
  destruct (aw_encrypt_eq L _ _ _ _ _ _ _ _ _ _ _ P He)
    as (sh & i1 & w & i2 & msg & es & _ & D1 & D2 & _ & E1 & E2 & E3 & E4 & Le & E5).
  apply dealt_unique in D1 as [Esh Ei1]. apply dealt_unique in D2 as [Ew Ei2].
  destruct (aw_issue_inv L _ _ _ _ Hk) as (G & Hh & K).
  assert (A : arity2 f = true).
  { clear - B. pattern f. apply binary_ind; [..|exact B]; clear f B.
    - reflexivity.
    - intros a b _ _ Ha Hb. cbn. now rewrite Ha, Hb.
    - intros l H _ IH. cbn. apply andb_true_intro. split.
      + destruct (length l) as [|[|n]]; [lia|lia|reflexivity].
      + apply forallb_forall. now apply Forall_forall. }
  pose proof (owns_nonempty _ _ S A) as NE.
  destruct Hh as [->|(h & Hh)]; [now cbn in NE|]. specialize (K h Hh).
  assert (Ehv : hval gid = h) by (unfold hval; now rewrite Hh). rewrite Ehv.
  assert (Uk : forall x, In x issued -> upper C (snd x) = snd x).
  { intros [m a] Ix. cbn [snd]. destruct (Own m a Ix) as (Au & IA & ->).
    rewrite Forall_forall in FA. destruct (FA _ IA) as (t & i & j & HA). destruct Au as [aa [pA mA]].
    cbn [fst snd] in *. destruct (aw_authgen_inv L _ _ _ _ _ _ _ HA) as (_ & NmA & _).
    assert (Im : In a (map n3 (amsk_attr mA))).
    { clear - K Ix. induction K as [|x e l es (m & Fm & _) _ IH]; [contradiction|].
      destruct Ix as [->|Ix]; [|auto]. cbn [fst snd] in Fm. apply find_some in Fm as (Im & Em).
      apply seqb_eq in Em. subst a. now apply in_map. }
    rewrite NmA in Im. apply in_map_iff in Im as (a' & <- & _). apply (upper_idem L). }
  assert (Nm : map fst (awsk_attr sk) = map snd issued).
  { clear - K Uk. induction K as [|x e l es (m & Fm & En & _) _ IH]; cbn; [reflexivity|].
    rewrite IH, En by (intros; apply Uk; now right). f_equal. apply Uk. now left. }
  assert (Fk : forall n, In n (map snd issued) -> upper C n = n /\ exists e c a y,
     find (fun a => seqb (fst a) n) (awsk_attr sk) = Some e /\
     log1 L (snd e) = log1 L (agk_g1 gk) * (a + h * y) /\ handed issued n = Some (c, a, y)).
  { intros n I. split.
    { apply in_map_iff in I as (x & <- & Ix). now apply Uk. }
    clear - K Uk I.
    induction K as [|[mk a] e l es (m & Fm & En & V) _ IH]; [contradiction|]. cbn [find handed fst snd] in *.
    rewrite En. destruct (seqb (upper C a) n) eqn:E.
    - rewrite Fm. destruct m as [[c x] y]. cbn [fst snd] in V. exists e, c, x, y. auto.
    - destruct I as [I|I].
      { cbn in I. subst a. pose proof (Uk _ (or_introl eq_refl)) as U. cbn in U. rewrite U, seqb_refl in E. discriminate. }
      apply IH; auto. intros; apply Uk; now right. }
  exists msg, sh, i1, w, i2, (gco f 1).
  split; [exact E3|]. split; [rewrite Esh, Ei1; apply (gen_shares_policy_eq L)|].
  split; [rewrite Ew, Ei2; apply (gen_shares_policy_eq L)|]. split; [apply (calc_coefficients_eq L)|].
  unfold aw_decrypt. rewrite E1, Nm. cbn [fst snd]. rewrite P. cbn [obind].
  rewrite traverse_tree, S.
  assert (E : (0 <? length (map snd issued))%nat = true) by (destruct (map snd issued); [congruence|reflexivity]).
  rewrite E. cbn [andb]. rewrite calc_pruned_tree by exact A. rewrite S. cbn [obind fst snd].
  rewrite (calc_coefficients_eq L). cbn [obind unwrap app].
  rewrite G. unfold sha3_hash_g1. rewrite Hh. cbn [obind].
  pose proof (fun x => @pruned_leaf (owns (map snd issued)) f x) as PL.
  rewrite chosen_sel in * by exact S.
  set (hg := g1mul C (agk_g1 gk) h). set (rx := fun k => te (i2 + 1 + k)%nat).
  assert (Ksh : map fst sh = idents f) by (rewrite Esh; apply gsh_idents).
  assert (Kw : map fst w = idents f) by (rewrite Ew; apply gsh_idents).
  assert (Kups : map fst (ups w) = map fst (ups sh)).
  { unfold ups. rewrite !map_map. cbn [fst]. rewrite <- !(map_map fst (upper C)). now rewrite Ksh, Kw. }
  assert (X : forall l, incl l (chosen (owns (map snd issued)) f) -> forall st,
    match aw_sum As issued (gco f 1) sh w h rx l with
    | None => ofold (aw_step sk ct (gco f 1) hg) (map leaf_pair l) st = Panic
    | Some x => exists st', ofold (aw_step sk ct (gco f 1) hg) (map leaf_pair l) st = Ok st' /\
       logT L st' = logT L st + log1 L (agk_g1 gk) * log2 L (agk_g2 gk) * x
    end).
  { induction l as [|x l IH]; intros Hi st.
    - exists st. cbn. split; [reflexivity|]. ring.
    - assert (Ix : In (leaf_pair x) (map leaf_pair (chosen (owns (map snd issued)) f)))
        by (apply in_map, Hi; now left).
      destruct (PL _ Ix) as (n & p & Ex & Il & Io). destruct x as (n', p').
      unfold leaf_pair in Ex. cbn [fst snd] in Ex. injection Ex as -> Ep.
      assert (p' = p) as -> by (apply node_index_inj in Ep; tauto). clear Ep.
      destruct (coeff_of_leaf (C := C) f n p 1 Il) as (co & Eco).
      unfold owns in Io. apply smem_In in Io.
      destruct (Fk n Io) as (Un & e & cc & a & y & Fe & Ve & Hd).
      pose proof (find_pk_published gk As (before_us n) FA) as FP.
      set (k := node_index n p) in *.
      assert (Uk' : upper C k = k) by (unfold k; rewrite (upper_node L); now rewrite Un).
      assert (Ii : In k (map fst (ups sh))).
      { unfold ups. rewrite map_map. cbn [fst]. rewrite <- (map_map fst (upper C)), Ksh. rewrite <- Uk'.
        apply in_map. unfold idents. apply in_map_iff. now exists (n, p). }
      destruct (assoc_ups_place k sh Ii) as (mm & v & Nth & Um & Ev).
      assert (Ii' : In k (map fst (ups w))) by (rewrite Kups; exact Ii).
      destruct (assoc_ups_place k w Ii') as (mw & vw & Nthw & Umw & Evw).
      assert (Rk : forall m, upper C m = k -> remove_index (upper C m) = before_us n).
      { intros m ->. unfold k. rewrite remove_index_node. reflexivity. }
      cbn [map ofold aw_sum]. unfold leaf_pair at 1 3. cbn [fst snd]. fold k. unfold aw_step at 1 3. cbn [fst snd].
      rewrite Fe, Hd. cbn [unwrap obind].
      destruct (published As (before_us n)) as [[[pn a'] y']|] eqn:Ep,
               (find_pk_attr (map (fun A0 => fst (snd A0)) As) (before_us n)) as [pa|] eqn:Epk; try contradiction.
      2:{ rewrite E4.
          rewrite (find_concat_none n4 (map fst (ups sh)) es k); [reflexivity| |].
          - unfold ups. rewrite !map_length. exact Le.
          - intros q m Hq. unfold ups in Hq. rewrite map_map in Hq. cbn [fst] in Hq.
            rewrite nth_error_map in Hq. destruct (nth_error sh q) as [[m' x']|] eqn:Nq; [|discriminate].
            cbn in Hq. injection Hq as <-. destruct (E5 q m' x' Nq) as [[_ Nz]|(a0 & e0 & y0 & w0 & Fz & _ & Nz)].
            + exists []. split; [exact Nz|]. split; [intros ? []|reflexivity].
            + eexists. split; [exact Nz|]. split.
              * intros e' [<-|[]]. reflexivity.
              * intros Em. rewrite (Rk _ Em), Epk in Fz. discriminate. }
      destruct (E5 _ _ _ Nth) as [[Fz _]|(a0 & e0 & y0 & w0 & Fz & Nw & Nz)].
      { rewrite (Rk _ Um), Epk in Fz. discriminate. }
      rewrite (Rk _ Um), Epk in Fz. injection Fz as ->.
      rewrite Kups in Nthw. rewrite Nthw in Nw. injection Nw as -> ->.
      destruct FP as (_ & V1 & V2). cbn [fst snd] in V1, V2.
      rewrite E4. erewrite (find_place_concat n4 (map fst (ups sh)) es k).
      2:{ unfold ups. rewrite !map_length. exact Le. }
      2:{ intros q m Hq. unfold ups in Hq. rewrite map_map in Hq. cbn [fst] in Hq.
          rewrite nth_error_map in Hq. destruct (nth_error sh q) as [[m' x']|] eqn:Nq; [|discriminate].
          cbn in Hq. injection Hq as <-. destruct (E5 q m' x' Nq) as [[_ Nz']|(a1 & e1 & y1 & w1 & _ & _ & Nz')].
          - exists []. split; [exact Nz'|intros ? []].
          - eexists. split; [exact Nz'|]. intros e' [<-|[]]. reflexivity. }
      2: exact Nz.
      2: exact Um.
      cbn [unwrap obind fst snd]. rewrite (find_assoc_id _ _ _ Eco). cbn [unwrap obind fst snd].
      match goal with |- context [ofold _ (map leaf_pair l) ?st0] =>
        pose proof (IH (fun y Hy => Hi y (or_intror Hy)) st0) as I1; set (st1 := st0) in * end.
      destruct (aw_sum As issued (gco f 1) sh w h rx l) as [x|]; [|exact I1].
      destruct I1 as (st' & Es & V). exists st'. split; [exact Es|]. rewrite V.
      subst st1. unfold hg. logs. rewrite Eco, Ev, Evw, V1, V2, Ve. cbn [oval]. unfold rx. ring. }
  specialize (X _ (incl_refl _) (gtone C)).
  destruct (aw_sum _ _ _ _ _ _ _ _) as [x|]; [|now rewrite X].
  destruct X as (st' & Es & V). rewrite Es. cbn [obind]. f_equal. apply (logT_inj L). logs.
  rewrite V, E2. logs. ring.
Qed.

(** ** Policies that repeat a single name *)

Lemma fsum_zero_seq (t : nat -> F) x n : forall i, (forall k, (i <= k < i + n)%nat -> t k = 0) ->
  ev (map t (seq i n)) x = 0.
Proof.
  induction n as [|n IH]; intros i Z; cbn [seq map ev]; [reflexivity|].
  rewrite IH by (intros k Hk; apply Z; lia). rewrite Z by lia. ring.
Qed.

Lemma gsh_const f : forall (s : F) t i, (forall k, t k = 0) -> Forall (fun x => snd x = s) (gsh f s t i).
Proof.
  induction f as [n p|l IH|l IH] using formula_ind'; intros s t i Z.
  - repeat constructor.
  - rewrite gsh_FAnd. set (a := s :: map t (seq i (length l - 1))).
    assert (E : forall x, ev a x = s).
    { intros x. unfold a. cbn [ev]. rewrite fsum_zero_seq by auto. ring. }
    clearbody a. generalize (i + (length l - 1))%nat as j. generalize 1%nat as x.
    induction IH as [|c l Hc _ IHl]; intros x j; cbn [gsh_and]; [constructor|].
    apply Forall_app. split; [|apply IHl]. rewrite E. now apply Hc.
  - rewrite gsh_FOr. revert i. induction IH as [|c l Hc _ IHl]; intros i; cbn [gsh_or]; [constructor|].
    apply Forall_app. split; [now apply Hc|apply IHl].
Qed.

(** The coefficients of the leaves used add up to one. *)
Lemma coefficients_one own f : arity2 f = true -> NoDup (leaves f) -> small_ok C (and_width f) ->
  sat own f = true ->
  fsum (map (fun x => oval (assoc (node_index (fst x) (snd x)) (gco f 1))) (chosen own f)) = (1 : F).
Proof.
  intros A ND SO S.
  pose proof (reconstruct_lookup L own f 1 1 (fun _ => 0) 0 A ND SO S) as R.
  rewrite chosen_sel in R by exact S. rewrite map_map in R.
  transitivity (1 * 1 : F); [|ring]. rewrite <- R. apply fsum_map_ext. intros x Ix.
  pose proof (gsh_const f 1 (fun _ => 0) 0%nat (fun _ => eq_refl)) as Cn.
  rewrite <- (chosen_sel own f S) in Ix. apply sel_incl in Ix. destruct x as [n p].
  destruct (share_of_leaf f n p (1 : F) (fun _ => 0) 0 Ix) as (v & Ev).
  unfold leaf_pair. cbn [fst snd]. rewrite Ev. cbn [oval].
  apply assoc_In_pair in Ev. rewrite Forall_forall in Cn. apply Cn in Ev. cbn in Ev. subst v. ring.
Qed.

Lemma share_under_first n (sh : list (string * F)) k v r :
  sh = (k, v) :: r -> before_us k = n -> share_under n sh = Some v.
Proof. intros -> E. cbn. now rewrite E, seqb_refl. Qed.

Lemma gather_one n co sh v l : share_under n sh = Some v -> Forall (fun x => fst x = n) l ->
  gather co sh l = Some (v * fsum (map (fun x => oval (assoc (node_index (fst x) (snd x)) co)) l)).
Proof.
  intros E. induction l as [|[m p] l IH]; intros Fl; cbn [gather map fsum fst snd].
  - f_equal. ring.
  - inversion Fl as [|? ? E1 E2]; subst. cbn [fst] in *. rewrite E, (IH E2). f_equal. ring.
Qed.

Lemma follow_one n co sh v last l : share_under n sh = Some v -> negated n = false ->
  Forall (fun x => fst x = n) l ->
  follow co sh last l = Some (v * fsum (map (fun x => oval (assoc (node_index (fst x) (snd x)) co)) l)).
Proof.
  intros E N. revert last. induction l as [|[m p] l IH]; intros last Fl; cbn [follow map fsum fst snd].
  - f_equal. ring.
  - inversion Fl as [|? ? E1 E2]; subst. cbn [fst] in *. rewrite E, N, (IH v E2). f_equal. ring.
Qed.

Lemma one_name_first n own f (s : F) t i k v r : plain_names f = true -> Forall (eq n) (names f) ->
  sat own f = true -> gsh f s t i = (k, v) :: r ->
  share_under n (gsh f s t i) = Some v /\ Forall (fun x => fst x = n) (chosen own f).
Proof.
  intros PN Nm S E. split.
  - apply (share_under_first n _ k v r E).
    pose proof (gsh_idents f s t i) as Id. rewrite E in Id. unfold idents in Id.
    destruct (leaves f) as [|[m p] lv] eqn:El; [discriminate|]. cbn [map fst snd] in Id.
    assert (Ek : k = node_index m p) by congruence. rewrite Ek.
    assert (Im : In (m, p) (leaves f)) by (rewrite El; now left).
    change (before_us (node_index m p)) with (remove_index (node_index m p)).
    rewrite (remove_index_leaf _ _ (plain_leaf f m p PN Im)).
    unfold names in Nm. rewrite El in Nm. cbn in Nm. now inversion Nm.
  - rewrite <- (chosen_sel own f S). apply Forall_forall. intros x Ix. apply sel_incl in Ix.
    rewrite Forall_forall in Nm. symmetry. apply Nm. unfold names. now apply in_map.
Qed.

Lemma sat_all_owned own f : arity2 f = true -> (forall m, In m (names f) -> own m = true) ->
  sat own f = true.
Proof.
  induction f as [n p|l IH|l IH] using formula_ind'; cbn [arity2 sat]; intros A H.
  - apply H. now left.
  - apply andb_true_iff in A as [_ A]. rewrite forallb_forall in A. apply forallb_forall. intros g Ig.
    rewrite Forall_forall in IH. apply IH; auto. intros m Im. apply H. unfold names in *. cbn [leaves].
    apply in_map_iff in Im as (x & <- & Ix). apply in_map. apply in_flat_map. eauto.
  - apply andb_true_iff in A as [W A]. rewrite forallb_forall in A. apply existsb_exists.
    destruct l as [|g l]; [discriminate|]. exists g. split; [now left|].
    rewrite Forall_forall in IH. apply IH; [now left|apply A; now left|]. intros m Im. apply H.
    unfold names in *. cbn [leaves flat_map]. rewrite map_app. apply in_or_app. now left.
Qed.

(** A policy that mentions a single name, however often: LSW and YCT14 put the first share
    in the place of the secret. *)
Theorem lsw_one_name nonce (pk : lsw_pk C) msk attrs sk pol lang data ct f n k v r j
    ts is js tk ik jk te ie je :
  lsw_setup ts is = Ok ((pk, msk), js) ->
  lsw_keygen pk msk pol lang tk ik = Ok (sk, jk) ->
  lsw_encrypt nonce pk attrs data te ie = Ok (ct, je) ->
  parse pol lang = Ok (tree f) ->
  arity2 f = true -> NoDup (leaves f) -> small_ok C (and_width f) -> plain_names f = true ->
  Forall (eq n) (names f) -> negated n = false -> In n attrs ->
  gen_shares_policy (lmsk_alpha1 msk) (tree f) None tk ik = Ok ((k, v) :: r, j) ->
  lsw_decrypt sk ct =
    decrypt_symmetric
      (gtmul C (lct_e1 ct)
        (gtinv C (gtpow C (pairing C (lpk_g1 pk) (lpk_g2 pk)) (te ie * lmsk_alpha2 msk * v))))
      (lct_ct ct).
Proof.
  intros Hs Hk He P A ND SO PN Nm Ng Ia Hsh.
  assert (S : sat (owns attrs) f = true) by (apply sat_all_owned; auto; intros m Im; rewrite Forall_forall in Nm;
    rewrite <- (Nm m Im); now apply smem_In).
  destruct (lsw_decrypt_all nonce pk msk attrs sk pol lang data ct f ts is js tk ik jk te ie je Hs Hk He P A S)
    as (msg & sh & co & j' & _ & _ & Hsh' & Hco & E).
  rewrite Hsh in Hsh'. injection Hsh' as <- _. rewrite (calc_coefficients_eq L) in Hco. injection Hco as <-.
  rewrite (gen_shares_policy_eq L) in Hsh. injection Hsh as Eg _.
  destruct (one_name_first n (owns attrs) f _ _ _ _ _ _ PN Nm S Eg) as (U & Fl). rewrite Eg in U.
  rewrite (follow_one n _ _ v 0 _ U Ng Fl) in E. cbn [app] in E.
  rewrite (coefficients_one (owns attrs) f A ND SO S) in E. rewrite E. do 4 f_equal. ring.
Qed.

Theorem yct_one_name nonce U (pk : yct_pk C) msk attrs sk pol lang data ct f n k v r j
    ts is js tk ik jk te ie je :
  yct_setup U ts is = Ok ((pk, msk), js) ->
  yct_keygen msk pol lang tk ik = Ok (sk, jk) ->
  yct_encrypt nonce pk attrs data te ie = Ok (ct, je) ->
  parse pol lang = Ok (tree f) ->
  arity2 f = true -> NoDup (leaves f) -> small_ok C (and_width f) -> plain_names f = true ->
  Forall (eq n) (names f) -> In n attrs ->
  gen_shares_policy (ymsk_s msk) (tree f) None tk ik = Ok ((k, v) :: r, j) ->
  exists g, ypk_g pk = gtpow C g (ymsk_s msk) /\
    encrypt_symmetric nonce (gtpow C g (te ie * ymsk_s msk)) data = Ok (yct_data ct) /\
    yct_decrypt sk ct = decrypt_symmetric (gtpow C g (te ie * v)) (yct_data ct).
Proof.
  intros Hs Hk He P A ND SO PN Nm Ia Hsh.
  assert (S : sat (owns attrs) f = true) by (apply sat_all_owned; auto; intros m Im; rewrite Forall_forall in Nm;
    rewrite <- (Nm m Im); now apply smem_In).
  destruct (yct_decrypt_all nonce U pk msk attrs sk pol lang data ct f ts is js tk ik jk te ie je Hs Hk He P A S)
    as (g & sh & co & j' & E1 & E2 & Hsh' & Hco & E).
  rewrite Hsh in Hsh'. injection Hsh' as <- _. rewrite (calc_coefficients_eq L) in Hco. injection Hco as <-.
  rewrite (gen_shares_policy_eq L) in Hsh. injection Hsh as Eg _.
  destruct (one_name_first n (owns attrs) f _ _ _ _ _ _ PN Nm S Eg) as (Un & Fl). rewrite Eg in Un.
  rewrite (gather_one n _ _ v _ Un Fl) in E. cbn [app] in E.
  rewrite (coefficients_one (owns attrs) f A ND SO S) in E.
  exists g. split; [exact E1|]. split; [exact E2|]. rewrite E. do 2 f_equal. ring.
Qed.

Theorem two_leaf_shares n p m q (s : F) t i :
  gen_shares_policy s (tree (FAnd [FLeaf n p; FLeaf m q])) None t i =
  Ok ([(node_index n p, s + t i); (node_index m q, s + (1 + 1) * t i)], Datatypes.S i).
Proof.
  rewrite (gen_shares_policy_eq L). cbn [gsh length Nat.sub seq map app ev nd list_sum fold_right].
  f_equal. f_equal; [|cbn; lia]. unfold usize_to_fr.
  f_equal; [f_equal; cbn; ring|]. f_equal. f_equal. cbn. ring.
Qed.

(** A single leaf. *)
Theorem bsw_one_leaf nonce (pk : bsw_pk C) msk attrs sk pol lang data ct n p ts is js tk ik jk te ie je :
  bsw_setup ts is = Ok ((pk, msk), js) ->
  bsw_keygen pk msk attrs tk ik = Ok (Some sk, jk) ->
  bsw_encrypt nonce pk pol lang data te ie = Ok (ct, je) ->
  parse pol lang = Ok (tree (FLeaf n p)) -> In n attrs ->
  exists msg, encrypt_symmetric nonce msg data = Ok (bct_data ct) /\
    bsw_decrypt sk ct =
      decrypt_symmetric
        (gtmul C msg (gtpow C (pairing C (bpk_g1 pk) (bpk_g2 pk))
           (te ie * tk (ik + 1 + place n attrs)%nat * (hval n - hval (before_us n)))))
        (bct_data ct).
Proof.
  intros Hs Hk He P I.
  assert (S : sat (owns attrs) (FLeaf n p) = true) by (cbn; now apply smem_In).
  destruct (bsw_decrypt_all _ _ _ _ _ _ _ _ _ _ _ _ _ _ _ _ _ _ _ Hs Hk He P eq_refl S)
    as (msg & sh & co & j & E1 & E2 & E3 & E).
  exists msg. split; [exact E1|]. rewrite E. injection E2 as <- _. injection E3 as <-.
  cbn [chosen map fsum fst snd weight assoc]. rewrite !seqb_refl. cbn [oval]. do 3 f_equal. ring.
Qed.

Theorem ghw_one_leaf nonce (pk : ghw_pk C) msk attrs sk tk z pol lang data ct n p
    ts is js tk' ik jk tt it jt te ie je :
  ghw_setup ts is = Ok ((pk, msk), js) ->
  ghw_keygen pk msk attrs tk' ik = Ok (Some sk, jk) ->
  ghw_tkgen sk tt it = Ok ((tk, z), jt) ->
  ghw_encrypt nonce pk pol lang data te ie = Ok (ct, je) ->
  parse pol lang = Ok (tree (FLeaf n p)) -> In n attrs ->
  exists msg tct, encrypt_symmetric nonce msg data = Ok (gct_data ct) /\
    ghw_transform ct tk = Ok tct /\
    ghw_decrypt_out tct z (gct_data ct) =
      decrypt_symmetric
        (gtmul C msg (gtpow C (pairing C (gpk_g1 pk) (gpk_g2 pk))
           (tk' ik * te (ie + 2)%nat * (hval n - hval (before_us n)))))
        (gct_data ct).
Proof.
  intros Hs Hk Ht He P I.
  assert (S : sat (owns attrs) (FLeaf n p) = true) by (cbn; now apply smem_In).
  destruct (ghw_decrypt_all _ _ _ _ _ _ _ _ _ _ _ _ _ _ _ _ _ _ _ _ _ _ _ _ Hs Hk Ht He P eq_refl S)
    as (msg & sh & co & j & tct & E1 & E2 & E3 & Et & E).
  exists msg, tct. split; [exact E1|]. split; [exact Et|]. rewrite E. injection E2 as <- <-. injection E3 as <-.
  cbn [chosen map fsum fst snd assoc place]. rewrite !seqb_refl. cbn [oval]. rewrite Nat.add_0_r. do 3 f_equal. ring.
Qed.
End Exact.
