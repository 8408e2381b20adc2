(** * Key generation and encryption on arbitrary inputs: the exact outcome *)
From Coq Require Import String Ascii List Bool Arith Lia Field.
From Verif Require Import Base Crypto Policy Tools Sharing Spec PolicyProofs Poly
  SharingProofs Parse Symmetric SchemeLib CoreProofs Msp MspProofs Dnf DnfProofs
  Bdabe BdabeProofs Mke08 Mke08Proofs Bsw Ghw11 Lsw LswProofs Yct14 Ac17 Ac17Proofs Aw11 Aw11Proofs
  TruncationProofs RobustProofs.
Import ListNotations.

Lemma settled_rbind {F A B} (m : rand F A) (k : A -> rand F B) p q t i :
  settled (m t i) p -> (forall a j, m t i = Ok (a, j) -> settled (k a t j) q) ->
  settled (rbind m k t i) (p \/ q).
Proof.
  unfold rbind. intros [[P ->]|[P [[a j] ->]]] H; [left; tauto|].
  destruct (H a j eq_refl) as [[Q E]|[Q E]]; [left|right]; tauto.
Qed.

Lemma settled_rlift {F A} (o : outcome A) p (t : nat -> F) i : settled o p -> settled (rlift o t i) p.
Proof. unfold rlift. intros [[P ->]|[P [a ->]]]; [left|right]; eauto. Qed.

Lemma settled_rret {F A} (a : A) (t : nat -> F) i : settled (rret a t i) False.
Proof. right. split; [tauto|]. unfold rret. eauto. Qed.

Lemma settled_omap {A B} (f : A -> outcome B) (bad : A -> Prop) l :
  (forall x, In x l -> settled (f x) (bad x)) -> settled (omap f l) (exists x, In x l /\ bad x).
Proof.
  induction l as [|x l IH]; intros H.
  - right. split; [intros (x & [] & _)|cbn; eauto].
  - cbn [omap]. eapply settled_iff.
    2: { apply settled_bind; [apply H; now left|]. intros y _.
         eapply settled_iff; [|apply settled_bind].
         2: { apply IH. intros z Iz. apply H. now right. }
         2: { intros; apply settled_Ok. }
         instantiate (1 := exists z, In z l /\ bad z). tauto. }
    split.
    + intros [B0|(y & I & B0)]; [exists x|exists y]; cbn; auto.
    + intros (y & [<-|I] & B0); eauto.
Qed.

Lemma settled_rmap {F A B} (f : A -> rand F B) (bad : A -> Prop) l (t : nat -> F) :
  (forall x i, In x l -> settled (f x t i) (bad x)) ->
  forall i, settled (rmap f l t i) (exists x, In x l /\ bad x).
Proof.
  induction l as [|x l IH]; intros H i.
  - right. split; [intros (x & [] & _)|cbn; unfold rret; eauto].
  - cbn [rmap]. eapply settled_iff.
    2: { apply settled_rbind; [apply H; now left|]. intros y j _.
         eapply settled_iff; [|apply settled_rbind].
         2: { apply IH. intros z k Iz. apply H. now right. }
         2: { intros; apply settled_rret. }
         instantiate (1 := exists z, In z l /\ bad z). tauto. }
    split.
    + intros [B0|(y & I & B0)]; [exists x|exists y]; cbn; auto.
    + intros (y & [<-|I] & B0); eauto.
Qed.

Section Total.
Context {C : crypto} (L : laws C).
Local Open Scope F_scope.
Local Open Scope rand_scope.
Notation F := (F C).

Lemma hash_g1_settled (g : G1 C) s : settled (unwrap_res (sha3_hash_g1 g s)) (hash C s = None).
Proof. unfold sha3_hash_g1. destruct (hash C s); [right|left]; cbn; split; eauto; discriminate. Qed.
Lemma hash_g2_settled (g : G2 C) s : settled (unwrap_res (sha3_hash_g2 g s)) (hash C s = None).
Proof. unfold sha3_hash_g2. destruct (hash C s); [right|left]; cbn; split; eauto; discriminate. Qed.
Lemma hash_fr_settled s : settled (unwrap_res (sha3_hash_fr (C := C) s)) (hash C s = None).
Proof. unfold sha3_hash_fr. destruct (hash C s); [right|left]; cbn; split; eauto; discriminate. Qed.

Lemma inv_settled (x : F) : settled (unwrap (finv_opt x)) (x = 0).
Proof.
  unfold finv_opt. destruct (feqb C x 0) eqn:E; cbn.
  - apply (feqb_eq L) in E. left. auto.
  - right. split; [|eauto]. intros ->. rewrite (feqb_refl L) in E. discriminate.
Qed.

(** Drawing never fails. *)
Lemma draw_bind {A} (k : F -> rand F A) p t i : settled (k (t i) t (S i)) p -> settled (rbind draw k t i) p.
Proof. intros H. exact H. Qed.
Lemma draw_gt_bind {A} (k : GT C -> rand F A) p t i :
  (forall m j, settled (k m t j) p) -> settled (rbind draw_gt k t i) p.
Proof. intros H. unfold draw_gt. cbv [rbind draw rret]. apply H. Qed.
Lemma shares_bind {A} f s (k : list (string * F) -> rand F A) p t i :
  (forall j, settled (k (gsh f s t i) t j) p) ->
  settled (rbind (gen_shares_policy s (tree f) None) k t i) p.
Proof. intros H. unfold rbind. rewrite (gen_shares_policy_eq L). apply H. Qed.
Lemma final {A} nonce (m : GT C) data (a : string -> A) (t : nat -> F) i :
  settled (rbind (rlift (encrypt_symmetric nonce m data)) (fun d => rret (a d)) t i) False.
Proof. right. split; [tauto|]. cbv [rbind rlift encrypt_symmetric rret]. eauto. Qed.

(** Leaves of the formula in terms of the shares. *)
Lemma shares_leaf f s (t : nat -> F) i (Q : string -> Prop) :
  (exists x, In x (gsh f s t i) /\ Q (remove_index (fst x))) <->
  (exists n p, In (n, p) (leaves f) /\ Q (before_us n)).
Proof.
  assert (E : map (fun x => remove_index (fst x)) (gsh f s t i) = map (fun x => before_us (fst x)) (leaves f)).
  { transitivity (map remove_index (map fst (gsh f s t i))); [now rewrite map_map|].
    rewrite gsh_idents. unfold idents. rewrite map_map. apply map_ext.
    intros [n p]. cbn [fst]. rewrite remove_index_node; apply before_us_remove. }
  split.
  - intros (x & I & H). apply (in_map (fun x => remove_index (fst x))) in I. rewrite E in I.
    apply in_map_iff in I as ([n p] & En & I). cbn [fst] in En. exists n, p. rewrite En. auto.
  - intros (n & p & I & H). apply (in_map (fun x => before_us (fst x))) in I. rewrite <- E in I.
    apply in_map_iff in I as (x & En & I). exists x. split; [exact I|]. now rewrite En.
Qed.

(** ** BSW *)

Lemma bsw_keygen_outcome (pk : bsw_pk C) msk attrs t i :
  (attrs = [] -> bsw_keygen pk msk attrs t i = Ok (None, i)) /\
  (attrs <> [] -> settled (bsw_keygen pk msk attrs t i)
    (bmsk_beta msk = 0 \/ exists a, In a attrs /\ hash C a = None)).
Proof.
  split; [now intros ->|]. intros N. destruct attrs as [|a0 at0]; [congruence|].
  unfold bsw_keygen. set (attrs := a0 :: at0). apply draw_bind. cbn zeta.
  apply settled_rbind; [apply settled_rlift, inv_settled|]. intros b j _.
  eapply settled_iff; [|apply settled_rbind; [|intros; apply settled_rret]].
  2: { apply (settled_rmap _ (fun a => hash C a = None)). intros x k _. apply draw_bind.
       eapply settled_iff; [|apply settled_rbind; [apply settled_rlift, hash_g2_settled|intros; apply settled_rret]].
       tauto. }
  tauto.
Qed.

Lemma bsw_delegate_outcome (pk : bsw_pk C) sk subset t i :
  (~ (subset <> [] /\ incl subset (map b_string (bsk_dj sk))) ->
   bsw_delegate pk sk subset t i = Ok (None, i)) /\
  (subset <> [] -> incl subset (map b_string (bsk_dj sk)) ->
   settled (bsw_delegate pk sk subset t i) (exists a, In a subset /\ hash C a = None)).
Proof.
  unfold bsw_delegate.
  assert (S : is_subset subset (map b_string (bsk_dj sk)) = true <-> incl subset (map b_string (bsk_dj sk))).
  { unfold is_subset. rewrite forallb_forall. unfold incl.
    split; intros H x Ix; apply smem_In; apply H; exact Ix. }
  split.
  - intros N. destruct (is_subset subset (map b_string (bsk_dj sk))); cbn [negb]; [|reflexivity].
    destruct subset; [reflexivity|]. exfalso. apply N. split; [discriminate|]. now apply S.
  - intros N I. apply S in I as IS. rewrite IS. cbn [negb]. destruct subset as [|a0 at0]; [congruence|].
    set (subset := a0 :: at0) in *. apply draw_bind.
    eapply settled_iff; [|apply settled_rbind; [|intros; apply settled_rret]].
    2: { apply (settled_rmap _ (fun a => hash C a = None)). intros x k Ix. apply draw_bind.
         eapply settled_iff; [|apply settled_rbind; [apply settled_rlift, settled_unwrap|]].
         2: { intros v j _. eapply settled_iff; [|apply settled_rbind; [apply settled_rlift, hash_g2_settled|intros; apply settled_rret]].
              apply iff_refl. }
         rewrite (find_None_names b_string). specialize (I x Ix). tauto. }
    tauto.
Qed.

Lemma bsw_encrypt_outcome nonce (pk : bsw_pk C) pol lang data t i :
  (parse pol lang = Err -> bsw_encrypt nonce pk pol lang data t i = Err) /\
  (parse pol lang = Panic -> bsw_encrypt nonce pk pol lang data t i = Panic) /\
  (forall f, parse pol lang = Ok (tree f) -> settled (bsw_encrypt nonce pk pol lang data t i)
     (exists n p, In (n, p) (leaves f) /\ hash C (before_us n) = None)).
Proof.
  unfold bsw_encrypt. split; [|split]; [now intros ->|now intros ->|]. intros f ->.
  apply draw_bind. apply draw_gt_bind. intros m j. unfold rbind at 1, rlift at 1.
  apply shares_bind. intros j2. cbn zeta.
  eapply settled_iff; [|apply settled_rbind; [|intros; apply final]].
  2: { apply settled_rlift. apply (settled_omap _ (fun x => hash C (remove_index (fst x)) = None)).
       intros x _. eapply settled_iff; [|apply settled_bind; [apply hash_g2_settled|intros; apply settled_Ok]].
       tauto. }
  rewrite (shares_leaf f _ _ _ (fun n => hash C n = None)). tauto.
Qed.

(** ** GHW11 *)

Lemma ghw_keygen_outcome (pk : ghw_pk C) msk attrs t i :
  (attrs = [] -> ghw_keygen pk msk attrs t i = Ok (None, i)) /\
  (attrs <> [] -> settled (ghw_keygen pk msk attrs t i) (exists a, In a attrs /\ hash C a = None)).
Proof.
  split; [now intros ->|]. intros N. destruct attrs as [|a0 at0]; [congruence|].
  unfold ghw_keygen. set (attrs := a0 :: at0). apply draw_bind. cbn zeta.
  eapply settled_iff; [|apply settled_rbind; [|intros; apply settled_rret]].
  2: { apply settled_rlift. apply (settled_omap _ (fun a => hash C a = None)). intros x _.
       eapply settled_iff; [|apply settled_bind; [apply hash_g2_settled|intros; apply settled_Ok]].
       tauto. }
  tauto.
Qed.

Lemma ghw_tkgen_outcome (sk : ghw_sk C) t i : settled (ghw_tkgen sk t i) (t i = 0).
Proof.
  unfold ghw_tkgen. apply draw_bind.
  eapply settled_iff; [|apply settled_rbind; [apply settled_rlift, inv_settled|intros; apply settled_rret]].
  tauto.
Qed.

Lemma ghw_encrypt_outcome nonce (pk : ghw_pk C) pol lang data t i :
  (parse pol lang = Err -> ghw_encrypt nonce pk pol lang data t i = Err) /\
  (parse pol lang = Panic -> ghw_encrypt nonce pk pol lang data t i = Panic) /\
  (forall f, parse pol lang = Ok (tree f) -> settled (ghw_encrypt nonce pk pol lang data t i)
     (exists n p, In (n, p) (leaves f) /\ hash C (before_us n) = None)).
Proof.
  unfold ghw_encrypt. split; [|split]; [now intros ->|now intros ->|]. intros f ->.
  apply draw_bind. apply draw_gt_bind. intros m j. unfold rbind at 1, rlift at 1.
  apply shares_bind. intros j2. cbn zeta.
  eapply settled_iff; [|apply settled_rbind; [|intros; apply final]].
  2: { apply (settled_rmap _ (fun x => hash C (remove_index (fst x)) = None)).
       intros x k _. apply draw_bind.
       eapply settled_iff; [|apply settled_rbind; [apply settled_rlift, hash_g1_settled|intros; apply settled_rret]].
       tauto. }
  rewrite (shares_leaf f _ _ _ (fun n => hash C n = None)). tauto.
Qed.

(** ** LSW *)

Lemma lsw_keygen_outcome (pk : lsw_pk C) msk pol lang t i :
  (parse pol lang = Err -> lsw_keygen pk msk pol lang t i = Err) /\
  (parse pol lang = Panic -> lsw_keygen pk msk pol lang t i = Panic) /\
  (forall f, parse pol lang = Ok (tree f) -> settled (lsw_keygen pk msk pol lang t i)
     (exists n p, In (n, p) (leaves f) /\ (odd_start (before_us n) \/ hash C (before_us n) = None))).
Proof.
  unfold lsw_keygen. split; [|split]; [now intros ->|now intros ->|]. intros f ->.
  unfold rbind at 1, rlift at 1. apply shares_bind. intros j2.
  eapply settled_iff; [|apply settled_rbind; [|intros; apply settled_rret]].
  2: { apply (settled_rmap _ (fun x => odd_start (remove_index (fst x)) \/ hash C (remove_index (fst x)) = None)).
       intros x k _. cbn zeta. apply draw_bind.
       eapply settled_iff; [|apply settled_rbind; [apply settled_rlift, is_negative_settled|]].
       2: { intros neg j _. instantiate (1 := hash C (remove_index (fst x)) = None). destruct neg.
            - eapply settled_iff; [|apply settled_rbind; [apply settled_rlift, hash_fr_settled|intros; apply settled_rret]].
              tauto.
            - eapply settled_iff; [|apply settled_rbind; [apply settled_rlift, hash_g1_settled|intros; apply settled_rret]].
              tauto. }
       apply iff_refl. }
  rewrite (shares_leaf f _ _ _ (fun n => odd_start n \/ hash C n = None)). tauto.
Qed.

Lemma lsw_ejs_settled (pk : lsw_pk C) s sx attrs : forall i, (i + length attrs <= length sx)%nat ->
  settled (lsw_ejs pk s sx i attrs) (exists a, In a attrs /\ hash C a = None).
Proof.
  induction attrs as [|a r IH]; intros i H; cbn [lsw_ejs].
  - right. split; [intros (x & [] & _)|eauto].
  - cbn [length] in H. eapply settled_iff.
    2: { apply settled_bind; [apply hash_g1_settled|]. intros h _.
         instantiate (1 := exists b, In b r /\ hash C b = None \/ (In b (a :: r) /\ hash C b = None)).
         destruct (nth_error sx i) eqn:E.
         2: { apply nth_error_None in E. lia. }
         cbn [unwrap obind].
         eapply settled_iff; [|apply settled_bind; [apply hash_fr_settled|]].
         2: { intros hf _. eapply settled_iff; [|apply settled_bind; [apply (IH (S i)); lia|intros; apply settled_Ok]].
              instantiate (1 := exists b, In b r /\ hash C b = None). tauto. }
         split.
         + intros [E0|(b & Hb)]; [exists a; right; cbn; auto|exists b; tauto].
         + intros (b & [Hb|([<-|Ib] & Hb)]); eauto. }
    split.
    + intros [E0|(b & [[Ib Hb]|Hb])]; [exists a|exists b|exists b]; cbn; auto.
    + intros (b & Hb). right. exists b. tauto.
Qed.

Lemma lsw_encrypt_outcome nonce (pk : lsw_pk C) attrs data t i :
  (attrs = [] \/ data = EmptyString -> lsw_encrypt nonce pk attrs data t i = Err) /\
  (attrs <> [] -> data <> EmptyString -> settled (lsw_encrypt nonce pk attrs data t i)
     (exists a, In a attrs /\ hash C a = None)).
Proof.
  split.
  - intros [-> | ->]; [reflexivity|]. now destruct attrs.
  - intros N D. destruct attrs as [|a0 at0]; [congruence|]. destruct data as [|c d]; [congruence|].
    unfold lsw_encrypt. set (attrs := a0 :: at0). set (data := String c d). apply draw_bind.
    destruct (lsw_sx_runs attrs 0%nat [t i] t (S i)) as (sx & E & Lx).
    unfold rbind at 1. rewrite E.
    eapply settled_iff; [|apply settled_rbind].
    2: { apply settled_rlift. apply lsw_ejs_settled. cbn in Lx. cbn. lia. }
    2: { intros ej j _. apply draw_gt_bind. intros m k. cbn zeta. apply final. }
    tauto.
Qed.

(** ** YCT14 *)

(** The entry of the master key that is used for a name has no usable secret. *)
Definition bad_private (l : list (yct_attr C)) (n : string) : Prop :=
  exists a, find (fun a => seqb (y_name a) n && match y_node a with Some _ => true | None => false end) l = Some a /\
    ((exists g, y_node a = Some (YPub g)) \/ y_node a = Some (YPriv 0)).

Lemma yct_du_settled (msk : yct_msk C) sh :
  settled (yct_du msk sh) (exists x, In x sh /\ bad_private (ymsk_attrs msk) (remove_index (fst x))).
Proof.
  induction sh as [|x r IH]; cbn [yct_du].
  - right. split; [intros (y & [] & _)|eauto].
  - unfold private_from. cbn [fst snd]. unfold msk_get_private.
    destruct (find _ (ymsk_attrs msk)) as [a|] eqn:E.
    + unfold node_private. destruct (y_node a) as [[g|s]|] eqn:Y; cbn [obind].
      * left. split; [|reflexivity]. exists x. split; [now left|]. exists a. split; [exact E|]. left. eauto.
      * pose proof (inv_settled s) as [[S Es]|[S [v Es]]]; rewrite Es; cbn [obind].
        -- left. split; [|reflexivity]. exists x. split; [now left|]. exists a. split; [exact E|]. right. congruence.
        -- eapply settled_iff; [|apply settled_bind; [exact IH|intros; apply settled_Ok]].
           split.
           ++ intros [(y & I & B)|[]]. exists y. split; [now right|exact B].
           ++ intros (y & [<-|I] & B); [exfalso|left; eauto].
              destruct B as (b & Eb & B). rewrite E in Eb. injection Eb as <-.
              destruct B as [(g & B)|B]; congruence.
      * apply find_some in E as [_ E]. rewrite Y, andb_false_r in E. discriminate.
    + cbn [obind]. eapply settled_iff; [|exact IH]. split.
      * intros (y & I & B). exists y. split; [now right|exact B].
      * intros (y & [<-|I] & B); [exfalso|eauto]. destruct B as (b & Eb & _). congruence.
Qed.

Lemma yct_keygen_outcome (msk : yct_msk C) pol lang t i :
  (parse pol lang = Err -> yct_keygen msk pol lang t i = Err) /\
  (parse pol lang = Panic -> yct_keygen msk pol lang t i = Panic) /\
  (forall f, parse pol lang = Ok (tree f) -> settled (yct_keygen msk pol lang t i)
     (exists n p, In (n, p) (leaves f) /\ bad_private (ymsk_attrs msk) (before_us n))).
Proof.
  unfold yct_keygen. split; [|split]; [now intros ->|now intros ->|]. intros f ->.
  unfold rbind at 1, rlift at 1. apply shares_bind. intros j2.
  eapply settled_iff; [|apply settled_rbind; [apply settled_rlift, yct_du_settled|intros; apply settled_rret]].
  rewrite (shares_leaf f _ _ _ (bad_private (ymsk_attrs msk))). tauto.
Qed.

Lemma yct_encrypt_outcome nonce (pk : yct_pk C) attrs data t i :
  (attrs = [] \/ data = EmptyString -> yct_encrypt nonce pk attrs data t i = Err) /\
  (attrs <> [] -> data <> EmptyString -> settled (yct_encrypt nonce pk attrs data t i)
     (exists a, In a attrs /\ ~ first_public (ypk_attrs pk) a)).
Proof.
  split.
  - intros [-> | ->]; [reflexivity|]. now destruct attrs.
  - intros N D. destruct attrs as [|a0 at0]; [congruence|]. destruct data as [|c d]; [congruence|].
    unfold yct_encrypt. set (attrs := a0 :: at0). set (data := String c d). apply draw_bind. cbn zeta.
    eapply settled_iff; [|apply settled_rbind; [|intros; apply final]].
    2: { apply settled_rlift. apply (settled_omap _ (fun a => ~ first_public (ypk_attrs pk) a)).
         intros n _. unfold public_from, first_public.
         destruct (find (fun a => seqb (y_name a) n) (ypk_attrs pk)) as [a|].
         - destruct (y_node a) as [[g|x]|] eqn:Y.
           + right. split; [|eauto]. intros X. apply X. eauto.
           + left. split; [|reflexivity]. intros (b & h & E1 & E2). congruence.
           + left. split; [|reflexivity]. intros (b & h & E1 & E2). congruence.
         - left. split; [|reflexivity]. intros (b & h & E1 & E2). congruence. }
    tauto.
Qed.

(** ** AC17, with keys from [setup] and a hash that never fails *)

Section AC17.
Variables (pk : ac_pk C) (msk : ac_msk C) (t0 : nat -> F) (i0 j0 : nat).
Hypothesis K : ac_setup t0 i0 = Ok ((pk, msk), j0).
Hypothesis HT : forall s, hash C s <> None.

Lemma cp_keygen_outcome attrs t i :
  (attrs = [] -> cp_keygen msk attrs t i = Err) /\
  (attrs <> [] -> settled (cp_keygen msk attrs t i) (exists a, In a (amsk_a msk) /\ a = 0)).
Proof.
  split; [now intros ->|]. intros N.
  destruct (ac_setup_keys _ _ _ _ _ K) as (a0 & a1 & b0 & b1 & k0 & k1 & k2 & Ks).
  assert (Ea : amsk_a msk = [a0; a1]) by (destruct Ks as (g & h & _ & ->); reflexivity).
  rewrite Ea.
  destruct (feqb C a0 0) eqn:E0; [apply (feqb_eq L) in E0|apply (feqb_neq L) in E0].
  2: destruct (feqb C a1 0) eqn:E1; [apply (feqb_eq L) in E1|apply (feqb_neq L) in E1].
  3: { right. split; [intros (a & [<-|[<-|[]]] & Z); contradiction|].
       destruct (cp_keygen_runs L pk msk a0 a1 b0 b1 k0 k1 k2 attrs t i Ks E0 E1 HT N) as (sk & j & ->). eauto. }
  all: left; (split; [eexists; split; [|eassumption]; cbn; auto|]).
  all: destruct attrs as [|n0 at0]; [congruence|]; unfold cp_keygen; set (attrs := n0 :: at0).
  all: destruct (draw_br_runs _ _ _ _ _ _ _ _ _ t i Ks) as (x0 & x1 & x2 & j & E).
  all: unfold rbind at 1; rewrite E; clear E; destruct Ks as (g & h & -> & ->).
  all: unfold rbind at 1; cbn [ac_k0 amsk_h rlift omap ls asz seq Nat.add idx nth_error unwrap obind].
  all: unfold attrs; cbn [rmap]; unfold rbind at 1 2 3; cbn [draw]; unfold rbind at 1, rlift at 1.
  all: unfold ts, asz; cbn [omap seq idx amsk_a nth_error unwrap obind amsk_g].
  - subst a0. unfold finv_opt at 1. rewrite (feqb_refl L). reflexivity.
  - rewrite (finv_opt_neq L a0) by exact E0. cbn [unwrap obind].
    destruct (hash_prod_runs g n0 x0 x1 x2 (finv C a0) 0%nat (g1zero C) HT) as (p & ->). cbn [obind].
    subst a1. unfold finv_opt at 1. rewrite (feqb_refl L). reflexivity.
Qed.

Lemma cp_encrypt_outcome nonce pol lang data t i :
  (parse pol lang = Err -> cp_encrypt nonce pk pol data lang t i = Err) /\
  (parse pol lang = Panic -> cp_encrypt nonce pk pol data lang t i = Panic) /\
  (forall f, parse pol lang = Ok (tree f) ->
     settled (cp_encrypt nonce pk pol data lang t i) (binary_and f = false)).
Proof.
  split; [|split]; [unfold cp_encrypt; now intros ->|unfold cp_encrypt; now intros ->|]. intros f P.
  destruct (binary_and f) eqn:B.
  - right. split; [discriminate|]. destruct (ac_setup_keys _ _ _ _ _ K) as (a0 & a1 & b0 & b1 & k0 & k1 & k2 & Ks).
    destruct (cp_encrypt_runs L nonce pk msk a0 a1 b0 b1 k0 k1 k2 pol lang data f t i Ks P B HT) as (ct & j & ->). eauto.
  - left. split; [reflexivity|]. now apply cp_encrypt_wide_and with (f := f).
Qed.

Lemma kp_encrypt_outcome nonce attrs data t i : settled (kp_encrypt nonce pk attrs data t i) False.
Proof.
  right. split; [tauto|]. destruct (ac_setup_keys _ _ _ _ _ K) as (a0 & a1 & b0 & b1 & k0 & k1 & k2 & Ks).
  destruct (kp_encrypt_runs nonce pk msk a0 a1 b0 b1 k0 k1 k2 attrs data t i Ks HT) as (ct & j & ->). eauto.
Qed.

Lemma kp_keygen_outcome pol lang t i :
  (parse pol lang = Err -> kp_keygen msk pol lang t i = Err) /\
  (parse pol lang = Panic -> kp_keygen msk pol lang t i = Panic) /\
  (forall f, parse pol lang = Ok (tree f) -> (forall a, In a (amsk_a msk) -> a <> 0) ->
     settled (kp_keygen msk pol lang t i) (binary_and f = false)).
Proof.
  split; [|split]; [unfold kp_keygen; now intros ->|unfold kp_keygen; now intros ->|]. intros f P NZ.
  destruct (binary_and f) eqn:B.
  - right. split; [discriminate|]. destruct (ac_setup_keys _ _ _ _ _ K) as (a0 & a1 & b0 & b1 & k0 & k1 & k2 & Ks).
    assert (Ea : amsk_a msk = [a0; a1]) by (destruct Ks as (g & h & _ & ->); reflexivity). rewrite Ea in NZ.
    destruct (kp_keygen_runs L pk msk a0 a1 b0 b1 k0 k1 k2 pol lang f t i Ks
      (NZ a0 (or_introl eq_refl)) (NZ a1 (or_intror (or_introl eq_refl))) P B HT) as (sk & j & ->). eauto.
  - left. split; [reflexivity|]. now apply kp_keygen_wide_and with (f := f).
Qed.
End AC17.

(** ** AW11 *)

Lemma aw_encrypt_outcome nonce (gk : aw_gk C) pks pol lang data t i :
  (parse pol lang = Err -> aw_encrypt nonce gk pks pol lang data t i = Err) /\
  (parse pol lang = Panic -> aw_encrypt nonce gk pks pol lang data t i = Panic) /\
  (forall f, parse pol lang = Ok (tree f) ->
     settled (aw_encrypt nonce gk pks pol lang data t i) (binary_and f = false)).
Proof.
  split; [|split]; [unfold aw_encrypt; now intros ->|unfold aw_encrypt; now intros ->|]. intros f P.
  destruct (binary_and f) eqn:B.
  - right. split; [discriminate|].
    destruct (aw_encrypt_runs L nonce gk pks pol lang data f t i P B) as (ct & j & ->). eauto.
  - left. split; [reflexivity|]. now apply aw_encrypt_wide_and with (f := f).
Qed.

(** The first attribute that cannot be issued decides. *)
Lemma aw_fold_ok (gk : aw_gk C) (msk : aw_msk C) gid attrs : gid <> EmptyString -> hash C gid <> None ->
  (forall a, In a attrs -> a <> EmptyString /\ In a (map n3 (amsk_attr msk))) ->
  forall acc, exists l, ofold (fun sk a => aw_add gk msk a sk) attrs (AwSk gid acc) = Ok (AwSk gid l).
Proof.
  intros G H. induction attrs as [|a r IH]; intros I acc; cbn [ofold]; [eauto|].
  destruct (I a (or_introl eq_refl)) as [Na Ia]. unfold aw_add at 1. cbn [awsk_gid awsk_attr].
  apply seqb_neq in Na. rewrite Na. apply seqb_neq in G as G'. rewrite G'. unfold sha3_hash_g1.
  destruct (hash C gid); [|congruence]. cbn [obind].
  destruct (find (fun x => seqb (n3 x) a) (amsk_attr msk)) eqn:E.
  2: { apply (find_None_names n3) in E. contradiction. }
  cbn [unwrap obind]. apply IH. intros b Ib. apply I. now right.
Qed.

Lemma aw_keygen_outcome (gk : aw_gk C) msk gid attrs :
  (attrs = [] \/ gid = EmptyString -> aw_keygen gk msk gid attrs = Err) /\
  (gid <> EmptyString -> hash C gid <> None ->
   (attrs <> [] -> (forall a, In a attrs -> a <> EmptyString /\ In a (map n3 (amsk_attr msk))) ->
    exists sk, aw_keygen gk msk gid attrs = Ok sk) /\
   (forall before a after, attrs = before ++ a :: after ->
    (forall b, In b before -> b <> EmptyString /\ In b (map n3 (amsk_attr msk))) ->
    (a = EmptyString -> aw_keygen gk msk gid attrs = Err) /\
    (a <> EmptyString -> ~ In a (map n3 (amsk_attr msk)) -> aw_keygen gk msk gid attrs = Panic))).
Proof.
  split.
  - intros [-> | ->]; [reflexivity|]. now destruct attrs.
  - intros G H. apply seqb_neq in G as G'. split.
    + intros N I. destruct (aw_fold_ok gk msk gid attrs G H I []) as (l & E).
      unfold aw_keygen. destruct attrs; [congruence|]. rewrite G'. eauto.
    + intros before a after -> I.
      assert (X : aw_keygen gk msk gid (before ++ a :: after) =
                  ofold (fun sk a => aw_add gk msk a sk) (before ++ a :: after) (AwSk gid [])).
      { unfold aw_keygen. destruct (before ++ a :: after) eqn:E; [destruct before; discriminate|]. now rewrite G'. }
      rewrite X. clear X.
      assert (Y : forall l1 l2 (acc : aw_sk C), ofold (fun sk a => aw_add gk msk a sk) (l1 ++ l2) acc =
                  obind (ofold (fun sk a => aw_add gk msk a sk) l1 acc)
                        (fun acc => ofold (fun sk a => aw_add gk msk a sk) l2 acc)).
      { induction l1 as [|x l1 IH]; intros l2 acc; [reflexivity|]. cbn [app ofold].
        destruct (aw_add gk msk x acc); cbn [obind]; [apply IH|reflexivity|reflexivity]. }
      rewrite Y. destruct (aw_fold_ok gk msk gid before G H I []) as (l & ->). cbn [obind ofold].
      unfold aw_add at 1 3. cbn [awsk_gid awsk_attr]. split.
      * intros ->. reflexivity.
      * intros Na Ni. apply seqb_neq in Na. rewrite Na, G'. unfold sha3_hash_g1.
        destruct (hash C gid); [|congruence]. cbn [obind].
        apply (find_None_names n3) in Ni. rewrite Ni. reflexivity.
Qed.

(** ** BDABE and MKE08 *)

Lemma bd_encrypt_outcome nonce (pk : bd_pk C) apks pol lang data t i :
  (parse pol lang = Err -> bd_encrypt nonce pk apks pol lang data t i = Err) /\
  (parse pol lang = Panic -> bd_encrypt nonce pk apks pol lang data t i = Panic) /\
  (forall f, parse pol lang = Ok (tree f) ->
     (~ no_or_below_and f -> bd_encrypt nonce pk apks pol lang data t i = Err) /\
     (no_or_below_and f -> settled (bd_encrypt nonce pk apks pol lang data t i) (flat f = false))).
Proof.
  split; [|split]; [unfold bd_encrypt; now intros ->|unfold bd_encrypt; now intros ->|]. intros f P. split.
  - intros N. unfold bd_encrypt. rewrite P. unfold rbind at 1, rlift at 1.
    destruct (policy_in_dnf (tree f) false None) eqn:D; [|reflexivity].
    apply policy_in_dnf_iff in D. contradiction.
  - intros N. destruct (flat f) eqn:Fl.
    + right. split; [discriminate|].
      destruct (bd_encrypt_runs nonce pk apks pol lang data f t i P Fl) as (ct & j & ->). eauto.
    + left. split; [reflexivity|]. now apply bd_encrypt_nested with (f := f).
Qed.

Lemma mk_encrypt_outcome nonce (pk : mk_pk C) apks pol lang data t i :
  (parse pol lang = Err -> mk_encrypt nonce pk apks pol lang data t i = Err) /\
  (parse pol lang = Panic -> mk_encrypt nonce pk apks pol lang data t i = Panic) /\
  (forall f, parse pol lang = Ok (tree f) ->
     (~ no_or_below_and f -> mk_encrypt nonce pk apks pol lang data t i = Err) /\
     (no_or_below_and f -> settled (mk_encrypt nonce pk apks pol lang data t i) (flat f = false))).
Proof.
  split; [|split]; [unfold mk_encrypt; now intros ->|unfold mk_encrypt; now intros ->|]. intros f P. split.
  - intros N. unfold mk_encrypt. rewrite P. unfold rbind at 1, rlift at 1.
    destruct (policy_in_dnf (tree f) false None) eqn:D; [|reflexivity].
    apply policy_in_dnf_iff in D. contradiction.
  - intros N. destruct (flat f) eqn:Fl.
    + right. split; [discriminate|].
      destruct (mk_encrypt_runs nonce pk apks pol lang data f t i P Fl) as (ct & j & ->). eauto.
    + left. split; [reflexivity|]. now apply mk_encrypt_nested with (f := f).
Qed.

(** ** Positive consequences for decryption *)

Lemma arity2_no_abort own f : arity2 f = true -> aborts own f = false.
Proof.
  induction f as [n p|l IH|l IH] using formula_ind'; cbn [arity2 aborts]; intros H; [reflexivity| |].
  - apply andb_prop in H as [H1 H2]. apply Nat.leb_le in H1.
    destruct (length l <? 2)%nat eqn:E; [apply Nat.ltb_lt in E; lia|]. clear H1 E. cbn [orb].
    induction IH as [|c l Hc _ IHl]; [reflexivity|]. cbn [forallb existsb] in *.
    apply andb_prop in H2 as [Ha Hb]. now rewrite (Hc Ha), (IHl Hb).
  - apply andb_prop in H as [H1 H2]. apply Nat.leb_le in H1.
    destruct (length l <? 2)%nat eqn:E; [apply Nat.ltb_lt in E; lia|]. clear H1 E. cbn [orb].
    induction IH as [|c l Hc _ IHl]; [reflexivity|]. cbn [forallb] in H2.
    apply andb_prop in H2 as [Ha Hb]. rewrite (Hc Ha). cbn [orb]. rewrite (IHl Hb). apply andb_false_r.
Qed.

Lemma three_never_abort :
  (forall (sk : bsw_sk C) ct f, parse (fst (bct_policy ct)) (snd (bct_policy ct)) = Ok (tree f) ->
     arity2 f = true -> (12 <= String.length (bct_data ct))%nat -> bsw_decrypt sk ct <> Panic) /\
  (forall (sk : bd_uk C) ct f, parse (fst (Bdabe.bct_policy ct)) (snd (Bdabe.bct_policy ct)) = Ok (tree f) ->
     (12 <= String.length (Bdabe.bct_data ct))%nat -> bd_decrypt sk ct <> Panic) /\
  (forall (sk : mk_uk C) ct f, parse (fst (mct_policy ct)) (snd (mct_policy ct)) = Ok (tree f) ->
     (12 <= String.length (mct_data ct))%nat -> mk_decrypt sk ct <> Panic).
Proof.
  split; [|split].
  - intros sk ct f P A D X. apply (bsw_panics L sk ct f P) in X as (_ & _ & [X|X]); [|lia].
    rewrite arity2_no_abort in X by exact A. discriminate.
  - intros sk ct f P D X. apply (bd_panics sk ct f P) in X as (_ & _ & X). lia.
  - intros sk ct f P D X. apply (mk_panics sk ct f P) in X as (_ & _ & X). lia.
Qed.

End Total.
