(** * BlendingProofs: the affine combination of two keys is a key *)
From Coq Require Import String List Bool Arith Lia Field ZArith.
From Verif Require Import Base Crypto Policy Parse Spec PolicyProofs Poly Tools Sharing SharingProofs SchemeLib Symmetric Msp Dnf Bdabe BdabeProofs Mke08 Mke08Proofs
  Bsw Ghw11 Lsw Yct14 Ac17 RobustProofs Mixing MixingProofs Blending.
Import ListNotations.

Section BlendingProofs.
Context {C : crypto} (L : laws C).
Local Open Scope F_scope.
Add Field blending_field : (f_theory L).
Notation F := (F C).
Ltac logs := log_simpl L.
Ltac dlog := first [apply (log1_inj L)|apply (log2_inj L)|apply (logT_inj L)]; logs; ring.

Variable w : F.

Definition rbl {A} (R : A -> A -> A -> Prop) (m m' m'' : rand F A) : Prop := forall t t' t'' i i' p x j x' j',
  (forall k, t'' (p + k)%nat = blF w (t (i + k)%nat) (t' (i' + k)%nat)) ->
  m t i = Ok (x, j) -> m' t' i' = Ok (x', j') ->
  exists n y, j = (i + n)%nat /\ j' = (i' + n)%nat /\ m'' t'' p = Ok (y, (p + n)%nat) /\ R x x' y.

Definition isF (x x' y : F) : Prop := y = blF w x x'.
Definition is1 (x x' y : G1 C) : Prop := y = bl1 w x x'.
Definition is2 (x x' y : G2 C) : Prop := y = bl2 w x x'.

Lemma isF_const (x : F) : isF x x x.
Proof. unfold isF, blF. ring. Qed.
Lemma is1_const (x : G1 C) : is1 x x x.
Proof. unfold is1, bl1. dlog. Qed.
Lemma is2_const (x : G2 C) : is2 x x x.
Proof. unfold is2, bl2. dlog. Qed.

Ltac bl := unfold is1, is2, isF, bl1, bl2, blF in *; first [ring|dlog].

Lemma is1_mul (g : G1 C) x x' y : isF x x' y -> is1 (g1mul C g x) (g1mul C g x') (g1mul C g y).
Proof. intros ->. bl. Qed.
Lemma is2_mul (g : G2 C) x x' y : isF x x' y -> is2 (g2mul C g x) (g2mul C g x') (g2mul C g y).
Proof. intros ->. bl. Qed.
Lemma is1_scale (g g' g'' : G1 C) x : is1 g g' g'' -> is1 (g1mul C g x) (g1mul C g' x) (g1mul C g'' x).
Proof. intros ->. bl. Qed.
Lemma is2_scale (g g' g'' : G2 C) x : is2 g g' g'' -> is2 (g2mul C g x) (g2mul C g' x) (g2mul C g'' x).
Proof. intros ->. bl. Qed.
Lemma is1_add a a' a'' b b' b'' : is1 a a' a'' -> is1 b b' b'' -> is1 (g1add C a b) (g1add C a' b') (g1add C a'' b'').
Proof. intros -> ->. bl. Qed.
Lemma is2_add a a' a'' b b' b'' : is2 a a' a'' -> is2 b b' b'' -> is2 (g2add C a b) (g2add C a' b') (g2add C a'' b'').
Proof. intros -> ->. bl. Qed.
Lemma is1_neg a a' a'' : is1 a a' a'' -> is1 (g1neg C a) (g1neg C a') (g1neg C a'').
Proof. intros ->. bl. Qed.
Lemma isF_add a a' a'' b b' b'' : isF a a' a'' -> isF b b' b'' -> isF (a + b) (a' + b') (a'' + b'').
Proof. intros -> ->. bl. Qed.
Lemma isF_r x x' y k : isF x x' y -> isF (x * k) (x' * k) (y * k).
Proof. intros ->. bl. Qed.
Lemma isF_l x x' y k : isF x x' y -> isF (k * x) (k * x') (k * y).
Proof. intros ->. bl. Qed.
Lemma isF_opp x x' y : isF x x' y -> isF (- x) (- x') (- y).
Proof. intros ->. bl. Qed.
Hint Resolve isF_const is1_const is2_const is1_mul is2_mul is1_scale is2_scale is1_add is2_add is1_neg isF_add isF_r isF_l isF_opp : blend.

Lemma rbl_ret {A} (R : A -> A -> A -> Prop) x x' y : R x x' y -> rbl R (rret x) (rret x') (rret y).
Proof.
  intros H t t' t'' i i' p a j a' j' _ E E'. apply rret_Ok in E as [<- <-]. apply rret_Ok in E' as [<- <-].
  exists 0%nat, y. rewrite !Nat.add_0_r. auto.
Qed.

Lemma rbl_lift {A} (R : A -> A -> A -> Prop) o o' o'' : osum R o o' o'' -> rbl R (rlift o) (rlift o') (rlift o'').
Proof.
  intros H t t' t'' i i' p a j a' j' _ E E'. apply rlift_Ok in E as [E <-]. apply rlift_Ok in E' as [E' <-].
  destruct (H _ _ E E') as (y & Ey & Ry). exists 0%nat, y. rewrite !Nat.add_0_r. repeat split; [|exact Ry]. apply rlift_Ok. auto.
Qed.

Lemma rbl_panic {A} (R : A -> A -> A -> Prop) m' m'' : rbl R rpanic m' m''.
Proof. intros t t' t'' i i' p a j a' j' _ E. discriminate E. Qed.

Lemma rbl_draw : rbl isF draw draw draw.
Proof.
  intros t t' t'' i i' p x j x' j' T E E'. injection E as <- <-. injection E' as <- <-. exists 1%nat, (t'' p). rewrite !Nat.add_1_r.
  specialize (T 0%nat). rewrite !Nat.add_0_r in T. repeat split. exact T.
Qed.

Lemma rbl_bind {A B} (R : A -> A -> A -> Prop) (S : B -> B -> B -> Prop) m m' m'' k k' k'' :
  rbl R m m' m'' -> (forall a a' a'', R a a' a'' -> rbl S (k a) (k' a') (k'' a'')) ->
  rbl S (rbind m k) (rbind m' k') (rbind m'' k'').
Proof.
  intros H K t t' t'' i i' p x j x' j' T E E'. apply rbind_Ok in E as (a & i1 & E & Ek). apply rbind_Ok in E' as (a' & i1' & E' & Ek').
  destruct (H _ _ _ _ _ _ _ _ _ _ T E E') as (n & a'' & -> & -> & E'' & Ra).
  assert (T' : forall q, t'' (p + n + q)%nat = blF w (t (i + n + q)%nat) (t' (i' + n + q)%nat)) by (intros q; rewrite <- !Nat.add_assoc; apply T).
  destruct (K _ _ _ Ra _ _ _ _ _ _ _ _ _ _ T' Ek Ek') as (n' & y & -> & -> & Ey & Ry).
  exists (n + n')%nat, y. rewrite !Nat.add_assoc. repeat split; [|exact Ry]. apply rbind_Ok. eauto.
Qed.

Lemma rbl_bind_same {A B} (S : B -> B -> B -> Prop) (o : outcome A) k k' k'' :
  (forall a, rbl S (k a) (k' a) (k'' a)) -> rbl S (rbind (rlift o) k) (rbind (rlift o) k') (rbind (rlift o) k'').
Proof. intros K. eapply rbl_bind; [apply rbl_lift, osum_same|]. intros a a' a'' (-> & ->). apply K. Qed.

Lemma rbl_map {A B} (Q : A -> A -> A -> Prop) (S : B -> B -> B -> Prop) f f' f'' l l' m : all3 Q l l' m ->
  (forall a a' a'', Q a a' a'' -> rbl S (f a) (f' a') (f'' a'')) -> rbl (all3 S) (rmap f l) (rmap f' l') (rmap f'' m).
Proof.
  intros H K. induction H as [|x x' y l l' m H _ IH]; cbn [rmap]; [apply rbl_ret; constructor|].
  eapply rbl_bind; [apply K, H|]. intros b b' b'' Rb. eapply rbl_bind; [apply IH|]. intros bs bs' bs'' Rbs.
  apply rbl_ret. now constructor.
Qed.

Lemma rbl_map_same {A B} (S : B -> B -> B -> Prop) (f f' f'' : A -> rand F B) l :
  (forall a, rbl S (f a) (f' a) (f'' a)) -> rbl (all3 S) (rmap f l) (rmap f' l) (rmap f'' l).
Proof. intros K. eapply rbl_map; [apply all3_same|]. intros a a' a'' (-> & ->). apply K. Qed.

Lemma rbl_draws n : rbl (all3 isF) (draws n) (draws n) (draws n).
Proof.
  induction n as [|n IH]; cbn [draws]; [apply rbl_ret; constructor|].
  eapply rbl_bind; [apply rbl_draw|]. intros x x' y H. eapply rbl_bind; [apply IH|]. intros l l' m Hl.
  apply rbl_ret. now constructor.
Qed.

(** ** Shares *)

Lemma poly_bl x : forall l l' m, all3 isF l l' m -> forall n a a' b, isF a a' b ->
  isF (poly_from n l x a) (poly_from n l' x a') (poly_from n m x b).
Proof.
  intros l l' m H. induction H as [|c c' d l l' m H _ IH]; intros n a a' b Ha; cbn [poly_from]; [exact Ha|].
  apply IH. auto with blend.
Qed.

Lemma gen_shares_bl s s' s'' k n : isF s s' s'' -> rbl (all3 isF) (gen_shares s k n) (gen_shares s' k n) (gen_shares s'' k n).
Proof.
  intros H. unfold gen_shares. destruct (k <=? n)%nat; [|apply rbl_ret; constructor].
  eapply rbl_bind; [apply rbl_draws|]. intros a a' a'' Ha. apply rbl_ret. apply all3_map. intros x.
  apply poly_bl; [now constructor|apply isF_const].
Qed.

Definition isN (x x' y : string * F) : Prop := fst x' = fst x /\ fst y = fst x /\ isF (snd x) (snd x') (snd y).

Lemma shares_bl v : forall (s s' s'' : F) o, isF s s' s'' ->
  rbl (all3 isN) (gen_shares_policy s v o) (gen_shares_policy s' v o) (gen_shares_policy s'' v o).
Proof.
  induction v as [n p|ty v IH|l IH] using pvalue_ind'; intros s s' s'' o H; cbn [gen_shares_policy].
  - apply rbl_ret. constructor; [|constructor]. repeat split. exact H.
  - now apply IH.
  - pose (loop := (fix loop (l : list pvalue) (sh : list F) (acc : list (string * F)) :=
             match l with
             | [] => rret acc
             | c :: r =>
                 match sh with
                 | [] => rpanic
                 | s :: sr =>
                     rbind (gen_shares_policy s c None) (fun items =>
                     loop r sr (acc ++ items))
                 end
             end)).
    assert (W : forall k, rbl (all3 isN) (rbind (gen_shares s k (length l)) (fun shares => loop l (tl shares) []))
      (rbind (gen_shares s' k (length l)) (fun shares => loop l (tl shares) []))
      (rbind (gen_shares s'' k (length l)) (fun shares => loop l (tl shares) []))).
    { intros k. eapply rbl_bind; [apply gen_shares_bl, H|]. intros sh sh' sh'' Hs. apply all3_tl in Hs.
      assert (G : forall acc acc' acc'' m m' m'', all3 isN acc acc' acc'' -> all3 isF m m' m'' ->
        rbl (all3 isN) (loop l m acc) (loop l m' acc') (loop l m'' acc'')).
      { induction IH as [|c r Hc Hr IHr]; intros acc acc' acc'' m m' m'' Na Ns; [now apply rbl_ret|].
        destruct Ns as [|x x' y m m' m'' Hx Ns]; [apply rbl_panic|]. cbn [loop]. eapply rbl_bind; [apply Hc, Hx|].
        intros a a' a'' Ha. apply IHr; [now apply all3_app|exact Ns]. }
      apply G; [constructor|exact Hs]. }
    destruct o as [[| |]|]; try apply rbl_panic; apply W.
Qed.

(** ** The schemes *)

Lemma bsw_bl (pk : bsw_pk C) msk attrs : rbl (fun s s' y => match s, s' with Some k, Some k' => y = Some (bsw_blend w k k') | _, _ => True end)
  (bsw_keygen pk msk attrs) (bsw_keygen pk msk attrs) (bsw_keygen pk msk attrs).
Proof.
  unfold bsw_keygen. destruct attrs as [|a l] eqn:Ea; [apply rbl_ret; exact I|]. rewrite <- Ea.
  eapply rbl_bind; [apply rbl_draw|]. intros r r' r'' Hr. apply rbl_bind_same. intros b.
  eapply rbl_bind with (R := all3 (fun a b c => c = BAttr (b_string a) (bl1 w (b_g1 a) (b_g1 b)) (bl2 w (b_g2 a) (b_g2 b)))).
  { apply rbl_map_same. intros n. eapply rbl_bind; [apply rbl_draw|]. intros x x' x'' Hx. apply rbl_bind_same. intros h. apply rbl_ret.
    cbn. f_equal; [apply is1_mul, Hx|]. apply is2_add; apply is2_mul; assumption. }
  intros d d' d'' Hd. apply all3_zip in Hd. apply rbl_ret. unfold bsw_blend. cbn. rewrite Hd. do 2 f_equal.
  apply is2_scale, is2_add; auto with blend.
Qed.

Lemma ghw_bl (pk : ghw_pk C) msk attrs : rbl (fun s s' y => match s, s' with Some k, Some k' => y = Some (ghw_blend w k k') | _, _ => True end)
  (ghw_keygen pk msk attrs) (ghw_keygen pk msk attrs) (ghw_keygen pk msk attrs).
Proof.
  unfold ghw_keygen. destruct attrs as [|a l] eqn:Ea; [apply rbl_ret; exact I|]. rewrite <- Ea.
  eapply rbl_bind; [apply rbl_draw|]. intros r r' r'' Hr.
  eapply rbl_bind with (R := all3 (fun a b c => c = (fst a, bl2 w (snd a) (snd b)))).
  { apply rbl_lift, osum_map_same. intros n. apply osum_bind_same. intros h. apply osum_Ok. cbn. f_equal. apply is2_mul, Hr. }
  intros d d' d'' Hd. apply all3_zip in Hd. apply rbl_ret. unfold ghw_blend. cbn. rewrite Hd. do 2 f_equal.
  - apply is2_add; auto with blend.
  - apply is2_mul, Hr.
Qed.

Lemma lsw_bl (pk : lsw_pk C) msk pol lang : rbl (fun k k' y => y = lsw_blend w k k')
  (lsw_keygen pk msk pol lang) (lsw_keygen pk msk pol lang) (lsw_keygen pk msk pol lang).
Proof.
  unfold lsw_keygen. apply rbl_bind_same. intros v. eapply rbl_bind; [apply shares_bl, isF_const|]. intros sh sh' sh'' Hsh.
  eapply rbl_bind with (R := all3 (fun a b c => c = LswDj (ld_name a) (bl1 w (ld_1 a) (ld_1 b)) (bl2 w (ld_2 a) (ld_2 b)) (bl1 w (ld_3 a) (ld_3 b))
        (bl1 w (ld_4 a) (ld_4 b)) (bl1 w (ld_5 a) (ld_5 b)))).
  { eapply rbl_map; [exact Hsh|]. intros [n x] [n' x'] [n'' x''] (E & E' & Hx). cbn in E, E', Hx. subst n' n''. cbn [fst snd].
    eapply rbl_bind; [apply rbl_draw|]. intros r r' r'' Hr. apply rbl_bind_same. intros neg.
    destruct neg; apply rbl_bind_same; intros h; apply rbl_ret; cbn; f_equal;
      first [apply is1_const|apply is2_const|apply is1_add; auto with blend|auto with blend]. 
    all: first [apply is1_mul; auto with blend|apply is2_mul; auto with blend]. }
  intros d d' d'' Hd. apply all3_zip in Hd. apply rbl_ret. unfold lsw_blend. cbn. now rewrite Hd.
Qed.

Lemma du_bl msk : forall l l' m, all3 isN l l' m ->
  osum (all3 (fun a b c => c = YAttr (y_name a) (match y_node a, y_node b with
        | Some (YPriv u), Some (YPriv v) => Some (YPriv (blF w u v))
        | n, _ => n end))) (yct_du msk l) (yct_du msk l') (yct_du msk m).
Proof.
  induction 1 as [|[n x] [n' x'] [n'' x''] l l' m (E & E' & Hx) _ IH]; cbn [yct_du]; [apply osum_Ok; constructor|].
  cbn in E, E', Hx. subst n' n''. cbn [fst snd]. unfold private_from. cbn [fst snd].
  destruct (msk_get_private msk (remove_index n)) as [si| |]; cbn [obind]; [|exact IH|intros u u' D; discriminate D].
  destruct (unwrap (finv_opt si)) as [z| |]; cbn [obind]; [|exact IH|intros u u' D; discriminate D].
  eapply osum_bind; [exact IH|]. intros a a' a'' Ha. apply osum_Ok. constructor; [|exact Ha]. cbn. do 3 f_equal. apply isF_r, Hx.
Qed.

Lemma yct_bl (msk : yct_msk C) pol lang : rbl (fun k k' y => y = yct_blend w k k')
  (yct_keygen msk pol lang) (yct_keygen msk pol lang) (yct_keygen msk pol lang).
Proof.
  unfold yct_keygen. apply rbl_bind_same. intros v. eapply rbl_bind; [apply shares_bl, isF_const|]. intros sh sh' sh'' Hsh.
  eapply rbl_bind; [apply rbl_lift, du_bl, Hsh|]. intros d d' d'' Hd. apply all3_zip in Hd. apply rbl_ret. unfold yct_blend. cbn. now rewrite Hd.
Qed.

Lemma idx_bl l l' m : all3 isF l l' m -> forall k, osum isF (idx l k) (idx l' k) (idx m k).
Proof.
  intros H k x x' E E'. unfold idx in *. destruct (nth_error l k) as [a|] eqn:N; [|discriminate]. destruct (nth_error l' k) as [a'|] eqn:N'; [|discriminate].
  injection E as ->. injection E' as ->. destruct (all3_nth _ _ _ _ H _ _ _ N N') as (y & -> & Hy). exists y. auto.
Qed.

Lemma fold_bl l l' m : all3 isF l l' m -> forall a a' b, isF a a' b ->
  isF (fold_left (fadd C) l a) (fold_left (fadd C) l' a') (fold_left (fadd C) m b).
Proof.
  induction 1 as [|x x' y l l' m H _ IH]; intros a a' b Ha; cbn [fold_left]; [exact Ha|]. apply IH. auto with blend.
Qed.

Lemma draw_br_bl (msk : ac_msk C) : rbl (all3 isF) (draw_br msk) (draw_br msk) (draw_br msk).
Proof.
  unfold draw_br. eapply rbl_bind; [apply rbl_map_same; intros n; apply rbl_draw|]. intros s s' s'' Hs.
  eapply rbl_bind with (R := all3 isF).
  { apply rbl_lift, osum_map_same. intros n. apply osum_bind_same. intros b. eapply osum_bind; [apply idx_bl, Hs|].
    intros x x' x'' H. apply osum_Ok. auto with blend. }
  intros c c' c'' Hc. apply rbl_ret. apply all3_app; [exact Hc|]. constructor; [|constructor]. apply fold_bl; auto with blend.
Qed.

Lemma k0_bl (msk : ac_msk C) br br' br'' : all3 isF br br' br'' -> osum (all3 is2) (ac_k0 msk br) (ac_k0 msk br') (ac_k0 msk br'').
Proof.
  intros H. apply osum_map_same. intros n. eapply osum_bind; [apply idx_bl, H|]. intros x x' x'' Hx. apply osum_Ok. auto with blend.
Qed.

Lemma hash_prod_bl g label br br' br'' a t acc acc' acc'' : all3 isF br br' br'' -> is1 acc acc' acc'' ->
  osum is1 (hash_prod g label br a t acc) (hash_prod g label br' a t acc') (hash_prod g label br'' a t acc'').
Proof.
  intros H Ha. apply osum_fold; [|exact Ha]. intros l b b' b'' Hb. apply osum_bind_same. intros h. eapply osum_bind; [apply idx_bl, H|].
  intros x x' x'' Hx. apply osum_Ok. apply is1_add; [exact Hb|]. auto with blend.
Qed.

Lemma entry_add_bl z a a' a'' b b' b'' : is1 a a' a'' -> is1 b b' b'' ->
  is1 (entry_add z a b) (entry_add z a' b') (entry_add z a'' b'').
Proof. intros Ha Hb. unfold entry_add. destruct (z =? 1)%Z; [|destruct (z =? -1)%Z]; auto with blend. Qed.

Lemma cp_bl (msk : ac_msk C) attrs : rbl (fun k k' y => y = cp_blend w k k')
  (cp_keygen msk attrs) (cp_keygen msk attrs) (cp_keygen msk attrs).
Proof.
  unfold cp_keygen. destruct attrs as [|a l] eqn:Ea; [intros t t' t'' i i' p x j x' j' _ E; discriminate E|]. rewrite <- Ea.
  eapply rbl_bind; [apply draw_br_bl|]. intros br br' br'' Hbr. eapply rbl_bind; [apply rbl_lift, k0_bl, Hbr|]. intros k0 k0' k0'' Hk0.
  eapply rbl_bind with (R := all3 (fun a b c => c = (fst a, zip (bl1 w) (snd a) (snd b)))).
  { apply rbl_map_same. intros n. eapply rbl_bind; [apply rbl_draw|]. intros x x' x'' Hx.
    eapply rbl_bind with (R := all3 is1).
    { apply rbl_lift, osum_map_same. intros k. apply osum_bind_same. intros a0. apply osum_bind_same. intros at0.
      eapply osum_bind; [apply hash_prod_bl; [exact Hbr|apply is1_const]|]. intros q q' q'' Hq. apply osum_Ok.
      apply is1_add; auto with blend. }
    intros k k' k'' Hk. apply rbl_ret. cbn. f_equal. apply all3_zip. apply all3_app; [exact Hk|].
    constructor; [|constructor]. apply is1_mul, isF_opp, Hx. }
  intros k k' k'' Hk. apply all3_zip in Hk. eapply rbl_bind; [apply rbl_draw|]. intros x x' x'' Hx.
  eapply rbl_bind with (R := all3 is1).
  { apply rbl_lift, osum_map_same. intros n. apply osum_bind_same. intros gk. apply osum_bind_same. intros a0. apply osum_bind_same. intros at0.
    eapply osum_bind; [apply hash_prod_bl; [exact Hbr|apply is1_const]|]. intros q q' q'' Hq. apply osum_Ok.
    apply is1_add; auto with blend. }
  intros kp kp' kp'' Hkp. apply rbl_bind_same. intros gk. apply rbl_ret. unfold cp_blend, ac_blend. cbn. rewrite Hk. do 2 f_equal.
  - apply all3_zip, Hk0.
  - apply all3_zip. apply all3_app; [exact Hkp|]. constructor; [|constructor]. apply is1_add; auto with blend.
Qed.

Lemma entry_at_bl z a a' a'' l i : is1 a a' a'' -> osum is1 (entry_at z a l i) (entry_at z a' l i) (entry_at z a'' l i).
Proof.
  intros H. unfold entry_at. destruct (z =? 1)%Z; [|destruct (z =? -1)%Z].
  - apply osum_bind_same. intros x. apply osum_Ok. apply is1_add; auto with blend.
  - apply osum_bind_same. intros x. apply osum_Ok. apply is1_add; auto with blend.
  - apply osum_Ok. exact H.
Qed.

Lemma kp_entry_bl (msk : ac_msk C) br br' br'' sp sp' sp'' x x' x'' cols name row t : all3 isF br br' br'' -> all3 isF sp sp' sp'' ->
  isF x x' x'' -> osum is1 (kp_entry msk br sp x cols name row t) (kp_entry msk br' sp' x' cols name row t) (kp_entry msk br'' sp'' x'' cols name row t).
Proof.
  intros Hbr Hsp Hx. unfold kp_entry. apply osum_bind_same. intros a. apply osum_bind_same. intros a_t.
  eapply osum_bind; [apply hash_prod_bl; [exact Hbr|apply is1_const]|]. intros q q' q'' Hq.
  apply osum_bind_same. intros z0.
  eapply osum_bind; [apply entry_at_bl, is1_add; auto with blend|]. intros p p' p'' Hp.
  eapply osum_bind with (R := fun s s' s'' => is1 (fst s) (fst s') (fst s'') /\ is1 (snd s) (snd s') (snd s'')).
  - apply osum_fold.
    + intros j b b' b'' (Hb & Hb'). eapply osum_bind; [apply hash_prod_bl; [exact Hbr|exact Hb']|]. intros u u' u'' Hu.
      eapply osum_bind; [apply idx_bl, Hsp|]. intros y y' y'' Hy. apply osum_bind_same. intros z. apply osum_Ok. cbn [fst snd].
      assert (is1 (g1add C u (g1mul C (amsk_g msk) (- y))) (g1add C u' (g1mul C (amsk_g msk) (- y'))) (g1add C u'' (g1mul C (amsk_g msk) (- y''))))
        by (apply is1_add; auto with blend).
      split; [|assumption]. apply entry_add_bl; assumption.
    + cbn [fst snd]. split; [exact Hp|apply is1_const].
  - intros s s' s'' (H & _). apply osum_Ok. exact H.
Qed.

Lemma kp_last_bl (msk : ac_msk C) sp sp' sp'' x x' x'' cols row : all3 isF sp sp' sp'' -> isF x x' x'' ->
  osum is1 (kp_last msk sp x cols row) (kp_last msk sp' x' cols row) (kp_last msk sp'' x'' cols row).
Proof.
  intros Hsp Hx. unfold kp_last. apply osum_bind_same. intros z0.
  eapply osum_bind; [apply entry_at_bl; auto with blend|]. intros p p' p'' Hp. apply osum_fold.
  - intros j b b' b'' Hb. apply osum_bind_same. intros z. eapply osum_bind; [apply idx_bl, Hsp|]. intros y y' y'' Hy. apply osum_Ok.
    apply entry_add_bl; auto with blend.
  - exact Hp.
Qed.

Lemma kp_bl (msk : ac_msk C) pol lang : rbl (fun k k' y => y = kp_blend w k k')
  (kp_keygen msk pol lang) (kp_keygen msk pol lang) (kp_keygen msk pol lang).
Proof.
  unfold kp_keygen. apply rbl_bind_same. intros v. apply rbl_bind_same. intros msp. apply rbl_bind_same. intros row0.
  eapply rbl_bind; [apply draw_br_bl|]. intros br br' br'' Hbr. eapply rbl_bind; [apply rbl_lift, k0_bl, Hbr|]. intros k0 k0' k0'' Hk0.
  eapply rbl_bind; [apply rbl_draws|]. intros sp sp' sp'' Hsp.
  eapply rbl_bind with (R := all3 (fun a b c => c = (fst a, zip (bl1 w) (snd a) (snd b)))).
  { apply rbl_map_same. intros n. apply rbl_bind_same. intros name. apply rbl_bind_same. intros row.
    eapply rbl_bind; [apply rbl_draw|]. intros x x' x'' Hx.
    eapply rbl_bind with (R := all3 is1); [apply rbl_lift, osum_map_same; intros k; apply kp_entry_bl; assumption|].
    intros k k' k'' Hk. eapply rbl_bind; [apply rbl_lift, kp_last_bl; [exact Hsp|exact Hx]|]. intros la la' la'' Hl.
    apply rbl_ret. cbn. f_equal. apply all3_zip. apply all3_app; [exact Hk|]. constructor; [exact Hl|constructor]. }
  intros k k' k'' Hk. apply all3_zip in Hk. apply rbl_ret. unfold kp_blend, ac_blend. cbn. rewrite Hk. do 2 f_equal. apply all3_zip, Hk0.
Qed.

(** ** Final statements *)

Lemma rbl_run {A} (R : A -> A -> A -> Prop) m t t' i i' x j x' j' : rbl R m m m -> m t i = Ok (x, j) -> m t' i' = Ok (x', j') ->
  exists n y, j = (i + n)%nat /\ j' = (i' + n)%nat /\ m (tblend w t i t' i') 0%nat = Ok (y, n) /\ R x x' y.
Proof.
  intros H E E'. destruct (H t t' (tblend w t i t' i') i i' 0%nat _ _ _ _ (fun k => eq_refl) E E') as (n & y & -> & -> & Ey & Ry).
  exists n, y. auto.
Qed.

End BlendingProofs.

Section BlendingResults.
Context {C : crypto} (L : laws C).
Local Open Scope F_scope.
Add Field blending_field' : (f_theory L).
Notation F := (F C).
Ltac logs := log_simpl L.
Ltac dlog := first [apply (log1_inj L)|apply (log2_inj L)|apply (logT_inj L)]; logs; ring.

Theorem bsw_blended (x : F) (pk : bsw_pk C) msk attrs t i sk j t' i' sk' j' :
  bsw_keygen pk msk attrs t i = Ok (Some sk, j) -> bsw_keygen pk msk attrs t' i' = Ok (Some sk', j') ->
  exists n, j = (i + n)%nat /\ j' = (i' + n)%nat /\
    bsw_keygen pk msk attrs (tblend x t i t' i') 0%nat = Ok (Some (bsw_blend x sk sk'), n).
Proof. intros H H'. destruct (rbl_run x _ _ _ _ _ _ _ _ _ _ (bsw_bl L x pk msk attrs) H H') as (n & y & -> & -> & E & ->). eauto. Qed.

Theorem ghw_blended (x : F) (pk : ghw_pk C) msk attrs t i sk j t' i' sk' j' :
  ghw_keygen pk msk attrs t i = Ok (Some sk, j) -> ghw_keygen pk msk attrs t' i' = Ok (Some sk', j') ->
  exists n, j = (i + n)%nat /\ j' = (i' + n)%nat /\
    ghw_keygen pk msk attrs (tblend x t i t' i') 0%nat = Ok (Some (ghw_blend x sk sk'), n).
Proof. intros H H'. destruct (rbl_run x _ _ _ _ _ _ _ _ _ _ (ghw_bl L x pk msk attrs) H H') as (n & y & -> & -> & E & ->). eauto. Qed.

Theorem lsw_blended (x : F) (pk : lsw_pk C) msk pol lang t i sk j t' i' sk' j' :
  lsw_keygen pk msk pol lang t i = Ok (sk, j) -> lsw_keygen pk msk pol lang t' i' = Ok (sk', j') ->
  exists n, j = (i + n)%nat /\ j' = (i' + n)%nat /\
    lsw_keygen pk msk pol lang (tblend x t i t' i') 0%nat = Ok (lsw_blend x sk sk', n).
Proof. intros H H'. destruct (rbl_run x _ _ _ _ _ _ _ _ _ _ (lsw_bl L x pk msk pol lang) H H') as (n & y & -> & -> & E & ->). eauto. Qed.

Theorem yct_blended (x : F) (msk : yct_msk C) pol lang t i sk j t' i' sk' j' :
  yct_keygen msk pol lang t i = Ok (sk, j) -> yct_keygen msk pol lang t' i' = Ok (sk', j') ->
  exists n, j = (i + n)%nat /\ j' = (i' + n)%nat /\
    yct_keygen msk pol lang (tblend x t i t' i') 0%nat = Ok (yct_blend x sk sk', n).
Proof. intros H H'. destruct (rbl_run x _ _ _ _ _ _ _ _ _ _ (yct_bl L x msk pol lang) H H') as (n & y & -> & -> & E & ->). eauto. Qed.

Theorem cp_blended (x : F) (msk : ac_msk C) attrs t i sk j t' i' sk' j' :
  cp_keygen msk attrs t i = Ok (sk, j) -> cp_keygen msk attrs t' i' = Ok (sk', j') ->
  exists n, j = (i + n)%nat /\ j' = (i' + n)%nat /\
    cp_keygen msk attrs (tblend x t i t' i') 0%nat = Ok (cp_blend x sk sk', n).
Proof. intros H H'. destruct (rbl_run x _ _ _ _ _ _ _ _ _ _ (cp_bl L x msk attrs) H H') as (n & y & -> & -> & E & ->). eauto. Qed.

Theorem kp_blended (x : F) (msk : ac_msk C) pol lang t i sk j t' i' sk' j' :
  kp_keygen msk pol lang t i = Ok (sk, j) -> kp_keygen msk pol lang t' i' = Ok (sk', j') ->
  exists n, j = (i + n)%nat /\ j' = (i' + n)%nat /\
    kp_keygen msk pol lang (tblend x t i t' i') 0%nat = Ok (kp_blend x sk sk', n).
Proof. intros H H'. destruct (rbl_run x _ _ _ _ _ _ _ _ _ _ (kp_bl L x msk pol lang) H H') as (n & y & -> & -> & E & ->). eauto. Qed.

Theorem bd_blended (x : F) (pk : bd_pk C) au u u' t i uk j t' i' uk' j' :
  bd_keygen pk au u t i = Ok (uk, j) -> bd_keygen pk au u' t' i' = Ok (uk', j') ->
  bd_keygen pk au u (tblend x t i t' i') 0%nat = Ok (bd_blend x uk uk', 1%nat).
Proof.
  unfold bd_keygen, rbind, draw, rret. intros E E'. injection E as <- <-. injection E' as <- <-.
  unfold bd_blend, bd_upk_blend, tblend, blF, bl1, bl2. cbn. rewrite !Nat.add_0_r. do 4 f_equal; dlog.
Qed.

Theorem bd_ask_blended (x : F) (u u' : bd_upk C) au a k k' :
  bd_request_sk u au a = Ok k -> bd_request_sk u' au a = Ok k' ->
  bd_request_sk (bd_upk_blend x u u') au a = Ok (bd_ask_blend x k k').
Proof.
  unfold bd_request_sk, is_eligible. destruct (from_authority a (bau_name au)); cbn [andb]; [|discriminate].
  destruct (sha3_hash_fr a) as [h| |]; cbn [obind]; try discriminate.
  destruct (sha3_hash_fr (bau_name au)) as [h'| |]; cbn [obind]; try discriminate.
  intros E E'. injection E as <-. injection E' as <-. unfold bd_ask_blend, bd_upk_blend, bl1, bl2. cbn. do 2 f_equal; dlog.
Qed.

Theorem mk_blended (x : F) (pk : mk_pk C) msk u u' t i uk j t' i' uk' j' :
  mk_keygen pk msk u t i = Ok (uk, j) -> mk_keygen pk msk u' t' i' = Ok (uk', j') ->
  mk_keygen pk msk u (tblend x t i t' i') 0%nat = Ok (mk_blend x uk uk', 1%nat).
Proof.
  unfold mk_keygen, rbind, draw, rret. intros E E'. injection E as <- <-. injection E' as <- <-.
  unfold mk_blend, mk_upk_blend, tblend, blF, bl1, bl2. cbn. rewrite !Nat.add_0_r. do 4 f_equal; dlog.
Qed.

Theorem mk_ask_blended (x : F) (u u' : mk_upk C) a au k k' :
  mk_request_sk u a au = Ok k -> mk_request_sk u' a au = Ok k' ->
  mk_request_sk (mk_upk_blend x u u') a au = Ok (mk_ask_blend x k k').
Proof.
  unfold mk_request_sk, is_eligible. destruct (from_authority a (mau_name au)); cbn [andb]; [|discriminate].
  destruct (sha3_hash_fr a) as [h| |]; cbn [obind]; try discriminate.
  destruct (sha3_hash_fr (mau_name au)) as [h'| |]; cbn [obind]; try discriminate.
  intros E E'. injection E as <-. injection E' as <-. unfold mk_ask_blend, mk_upk_blend, bl1, bl2. cbn. do 2 f_equal; dlog.
Qed.

(** Whole user keys, with the attribute keys issued for them. *)
Lemma bd_request_inv (u : bd_upk C) au a k : bd_request_sk u au a = Ok k -> bask_attr k = a /\ from_authority a (bau_name au) = true.
Proof.
  unfold bd_request_sk, is_eligible. destruct (from_authority a (bau_name au)); cbn [andb]; [|discriminate].
  destruct (sha3_hash_fr a) as [h| |]; cbn [obind]; try discriminate.
  destruct (sha3_hash_fr (bau_name au)) as [h'| |]; cbn [obind]; try discriminate. intros E. injection E as <-. auto.
Qed.

Lemma mk_request_inv (u : mk_upk C) a au k : mk_request_sk u a au = Ok k -> mask_attr k = a /\ from_authority a (mau_name au) = true.
Proof.
  unfold mk_request_sk, is_eligible. destruct (from_authority a (mau_name au)); cbn [andb]; [|discriminate].
  destruct (sha3_hash_fr a) as [h| |]; cbn [obind]; try discriminate.
  destruct (sha3_hash_fr (mau_name au)) as [h'| |]; cbn [obind]; try discriminate. intros E. injection E as <-. auto.
Qed.

Lemma one_authority a n n' : from_authority a n = true -> from_authority a n' = true -> n = n'.
Proof.
  unfold from_authority. destruct (match_colons a 0) as [|k [|]]; try discriminate. intros H H'.
  apply String.eqb_eq in H, H'. congruence.
Qed.

Theorem bd_users_blended (x : F) (pk : bd_pk C) As A u u' t i uk j t' i' uk' j' asks asks' : bd_unique As -> In A As ->
  bd_keygen pk A u t i = Ok (uk, j) -> bd_keygen pk A u' t' i' = Ok (uk', j') ->
  Forall (bd_sk_issued (buk_pk uk) As) asks -> Forall (bd_sk_issued (buk_pk uk') As) asks' -> map bask_attr asks = map bask_attr asks' ->
  bd_user pk As (bd_blend x (fold_left bd_add asks uk) (fold_left bd_add asks' uk')).
Proof.
  intros U I K K' S S' M. pose proof (bd_blended x _ _ _ _ _ _ _ _ _ _ _ _ K K') as KB.
  exists A, u, (tblend x t i t' i'), 0%nat, 1%nat, (bd_blend x uk uk'), (zip (bd_ask_blend x) asks asks').
  split; [exact I|]. split; [exact KB|].
  assert (E : buk_ska uk = [] /\ buk_ska uk' = []) by (unfold bd_keygen, rbind, draw, rret in K, K'; injection K as <- _; injection K' as <- _; auto).
  destruct E as (E & E'). split.
  - change (buk_pk (bd_blend x uk uk')) with (bd_upk_blend x (buk_pk uk) (buk_pk uk')). clear K K' KB E E'.
    revert asks' S' M. induction S as [|k asks (B & n & IB & Hk) S IH]; intros asks' S' M; [constructor|].
    destruct S' as [|k' asks' (B' & n' & IB' & Hk') S']; [discriminate|]. injection M as M0 M.
    pose proof (bd_request_inv _ _ _ _ Hk) as (N & V). pose proof (bd_request_inv _ _ _ _ Hk') as (N' & V').
    assert (Q : n' = n) by congruence. rewrite Q in Hk', V'. clear Q N N'. assert (B' = B) by (apply U; auto; exact (one_authority _ _ _ V' V)). subst B'.
    constructor; [|apply IH; assumption]. exists B, n. split; [exact IB|]. exact (bd_ask_blended x _ _ _ _ _ _ Hk Hk').
  - rewrite !fold_bd_add. unfold bd_blend. cbn. rewrite E, E'. reflexivity.
Qed.

Theorem mk_users_blended (x : F) (pk : mk_pk C) msk As u u' t i uk j t' i' uk' j' asks asks' : mk_unique As ->
  mk_keygen pk msk u t i = Ok (uk, j) -> mk_keygen pk msk u' t' i' = Ok (uk', j') ->
  Forall (mk_sk_issued (muk_pk uk) As) asks -> Forall (mk_sk_issued (muk_pk uk') As) asks' -> map mask_attr asks = map mask_attr asks' ->
  mk_user pk msk As (mk_blend x (fold_left mk_add asks uk) (fold_left mk_add asks' uk')).
Proof.
  intros U K K' S S' M. pose proof (mk_blended x _ _ _ _ _ _ _ _ _ _ _ _ K K') as KB.
  exists u, (tblend x t i t' i'), 0%nat, 1%nat, (mk_blend x uk uk'), (zip (mk_ask_blend x) asks asks').
  split; [exact KB|].
  assert (E : muk_ska uk = [] /\ muk_ska uk' = []) by (unfold mk_keygen, rbind, draw, rret in K, K'; injection K as <- _; injection K' as <- _; auto).
  destruct E as (E & E'). split.
  - change (muk_pk (mk_blend x uk uk')) with (mk_upk_blend x (muk_pk uk) (muk_pk uk')). clear K K' KB E E'.
    revert asks' S' M. induction S as [|k asks (B & n & IB & Hk) S IH]; intros asks' S' M; [constructor|].
    destruct S' as [|k' asks' (B' & n' & IB' & Hk') S']; [discriminate|]. injection M as M0 M.
    pose proof (mk_request_inv _ _ _ _ Hk) as (N & V). pose proof (mk_request_inv _ _ _ _ Hk') as (N' & V').
    assert (Q : n' = n) by congruence. rewrite Q in Hk', V'. clear Q N N'. assert (B' = B) by (apply U; auto; exact (one_authority _ _ _ V' V)). subst B'.
    constructor; [|apply IH; assumption]. exists B, n. split; [exact IB|]. exact (mk_ask_blended x _ _ _ _ _ _ Hk Hk').
  - rewrite !fold_mk_add. unfold mk_blend. cbn. rewrite E, E'. reflexivity.
Qed.

(** A combination is neither of the two keys, unless they agree. *)
Lemma blF_diff (x a b : F) : (x <> 1 -> blF x a b = a -> b = a) /\ (x <> 0 -> blF x a b = b -> a = b).
Proof.
  unfold blF. split; intros X H.
  - assert (E : (1 - x) * (b - a) = 0) by (transitivity (x * a + (1 - x) * b - a); [ring|rewrite H; ring]).
    assert (N : 1 - x <> 0) by (intros D; apply X; transitivity (1 - (1 - x)); [ring|rewrite D; ring]).
    transitivity (fdiv C ((1 - x) * (b - a)) (1 - x) + a); [field; exact N|]. rewrite E. field. exact N.
  - assert (E : x * (a - b) = 0) by (transitivity (x * a + (1 - x) * b - b); [ring|rewrite H; ring]).
    transitivity (fdiv C (x * (a - b)) x + b); [field; exact X|]. rewrite E. field. exact X.
Qed.

Lemma bl1_diff (x : F) (a b : G1 C) : (x <> 1 -> bl1 x a b = a -> b = a) /\ (x <> 0 -> bl1 x a b = b -> a = b).
Proof.
  assert (E : log1 L (bl1 x a b) = blF x (log1 L a) (log1 L b)) by (unfold bl1, blF; logs; ring).
  destruct (blF_diff x (log1 L a) (log1 L b)) as (K & K').
  split; intros X H; apply (f_equal (log1 L)) in H; rewrite E in H; apply (log1_inj L); auto.
Qed.

Lemma bl2_diff (x : F) (a b : G2 C) : (x <> 1 -> bl2 x a b = a -> b = a) /\ (x <> 0 -> bl2 x a b = b -> a = b).
Proof.
  assert (E : log2 L (bl2 x a b) = blF x (log2 L a) (log2 L b)) by (unfold bl2, blF; logs; ring).
  destruct (blF_diff x (log2 L a) (log2 L b)) as (K & K').
  split; intros X H; apply (f_equal (log2 L)) in H; rewrite E in H; apply (log2_inj L); auto.
Qed.

Theorem blends_differ (x : F) : x <> 0 -> x <> 1 ->
  (forall sk sk' : bsw_sk C, bsw_blend x sk sk' = sk \/ bsw_blend x sk sk' = sk' -> bsk_d sk = bsk_d sk') /\
  (forall sk sk' : ghw_sk C, ghw_blend x sk sk' = sk \/ ghw_blend x sk sk' = sk' -> gsk_k sk = gsk_k sk' /\ gsk_l sk = gsk_l sk') /\
  (forall (sk sk' : lsw_sk C) k a b, nth_error (lsk_dj sk) k = Some a -> nth_error (lsk_dj sk') k = Some b ->
     lsw_blend x sk sk' = sk \/ lsw_blend x sk sk' = sk' -> ld_1 a = ld_1 b /\ ld_2 a = ld_2 b /\ ld_3 a = ld_3 b /\ ld_4 a = ld_4 b /\ ld_5 a = ld_5 b) /\
  (forall (sk sk' : ac_cpsk C) k a b, nth_error (ask_k0 (acps_sk sk)) k = Some a -> nth_error (ask_k0 (acps_sk sk')) k = Some b ->
     cp_blend x sk sk' = sk \/ cp_blend x sk sk' = sk' -> a = b) /\
  (forall (sk sk' : ac_kpsk C) k a b, nth_error (ask_k0 (akps_sk sk)) k = Some a -> nth_error (ask_k0 (akps_sk sk')) k = Some b ->
     kp_blend x sk sk' = sk \/ kp_blend x sk sk' = sk' -> a = b) /\
  (forall uk uk' : bd_uk C, bd_blend x uk uk' = uk \/ bd_blend x uk uk' = uk' -> buk_sk uk = buk_sk uk') /\
  (forall uk uk' : mk_uk C, mk_blend x uk uk' = uk \/ mk_blend x uk uk' = uk' -> muk_sk uk = muk_sk uk').
Proof.
  intros X0 X1.
  assert (D1 : forall a b : G1 C, bl1 x a b = a \/ bl1 x a b = b -> a = b).
  { intros a b [H|H]; [symmetry; exact (proj1 (bl1_diff x a b) X1 H)|exact (proj2 (bl1_diff x a b) X0 H)]. }
  assert (D2 : forall a b : G2 C, bl2 x a b = a \/ bl2 x a b = b -> a = b).
  { intros a b [H|H]; [symmetry; exact (proj1 (bl2_diff x a b) X1 H)|exact (proj2 (bl2_diff x a b) X0 H)]. }
  repeat apply conj.
  - intros sk sk' H. apply D2. destruct H as [H|H]; apply (f_equal (@bsk_d C)) in H; auto.
  - intros sk sk' H. split; apply D2.
    + destruct H as [H|H]; apply (f_equal (@gsk_k C)) in H; auto.
    + destruct H as [H|H]; apply (f_equal (@gsk_l C)) in H; auto.
  - intros sk sk' k a b Ea Eb H.
    set (e := LswDj (ld_name a) (bl1 x (ld_1 a) (ld_1 b)) (bl2 x (ld_2 a) (ld_2 b)) (bl1 x (ld_3 a) (ld_3 b))
        (bl1 x (ld_4 a) (ld_4 b)) (bl1 x (ld_5 a) (ld_5 b))).
    assert (E : e = a \/ e = b).
    { destruct H as [H|H]; apply (f_equal (fun s => nth_error (lsk_dj s) k)) in H; cbn in H; erewrite zip_nth in H by eassumption;
        rewrite ?Ea, ?Eb in H; injection H as H; auto. }
    clear H. repeat split; (apply D1 || apply D2);
      (destruct E as [E|E]; [left|right];
       first [apply (f_equal (@ld_1 C)) in E; exact E|apply (f_equal (@ld_2 C)) in E; exact E|apply (f_equal (@ld_3 C)) in E; exact E
             |apply (f_equal (@ld_4 C)) in E; exact E|apply (f_equal (@ld_5 C)) in E; exact E]).
  - intros sk sk' k a b Ea Eb H. apply D2.
    destruct H as [H|H]; apply (f_equal (fun s => nth_error (ask_k0 (acps_sk s)) k)) in H; cbn in H; erewrite zip_nth in H by eassumption;
        rewrite ?Ea, ?Eb in H; injection H as H; auto.
  - intros sk sk' k a b Ea Eb H. apply D2.
    destruct H as [H|H]; apply (f_equal (fun s => nth_error (ask_k0 (akps_sk s)) k)) in H; cbn in H; erewrite zip_nth in H by eassumption;
        rewrite ?Ea, ?Eb in H; injection H as H; auto.
  - intros uk uk' H.
    assert (A : busk_u1 (buk_sk uk) = busk_u1 (buk_sk uk')) by (apply D1; destruct H as [H|H]; apply (f_equal (fun u => busk_u1 (buk_sk u))) in H; auto).
    assert (B : busk_u2 (buk_sk uk) = busk_u2 (buk_sk uk')) by (apply D2; destruct H as [H|H]; apply (f_equal (fun u => busk_u2 (buk_sk u))) in H; auto).
    destruct (buk_sk uk), (buk_sk uk'). cbn in A, B. now subst.
  - intros uk uk' H.
    assert (A : musk_g1 (muk_sk uk) = musk_g1 (muk_sk uk')) by (apply D1; destruct H as [H|H]; apply (f_equal (fun u => musk_g1 (muk_sk u))) in H; auto).
    assert (B : musk_g2 (muk_sk uk) = musk_g2 (muk_sk uk')) by (apply D2; destruct H as [H|H]; apply (f_equal (fun u => musk_g2 (muk_sk u))) in H; auto).
    destruct (muk_sk uk), (muk_sk uk'). cbn in A, B. now subst.
Qed.

End BlendingResults.
