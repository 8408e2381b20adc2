(** * EquationProofs: the equations of the schemes, with the randomness spelled out

    The value drawn at position [i] of the random tape [t] is [t i].  Every statement says which
    position each component uses, so it shows that no two components share their randomness. *)
From Coq Require Import String Ascii List Bool Arith Lia Field.
From Verif Require Import Base Crypto Policy Tools Sharing Spec PolicyProofs Poly SharingProofs
  Symmetric Parse SchemeLib Dnf Bdabe Mke08 Bsw BswProofs Ghw11 Lsw LswProofs Yct14 Aw11.
Import ListNotations.

(** ** Draws in a loop *)

Lemma rmap_at {F A B} (f : A -> rand F B) c t : forall l i r j,
  (forall x k y m, In x l -> f x t k = Ok (y, m) -> m = k + c) ->
  rmap f l t i = Ok (r, j) ->
  j = i + c * length l /\ length r = length l /\
  forall k x, nth_error l k = Some x ->
    exists y, nth_error r k = Some y /\ f x t (i + c * k) = Ok (y, i + c * k + c).
Proof.
  induction l as [|x l IH]; intros i r j H E; cbn in E.
  - apply rret_Ok in E as [<- <-]. split; [cbn; lia|]. split; [reflexivity|].
    intros [|k] x; discriminate.
  - apply rbind_Ok in E as (y & i1 & E1 & E). apply rbind_Ok in E as (ys & i2 & E2 & E).
    apply rret_Ok in E as [<- <-].
    pose proof (H x i y i1 (or_introl eq_refl) E1) as ->.
    destruct (IH (i + c) ys i2) as (-> & Ly & N); [intros; eapply H; [right|]; eauto|exact E2|].
    split; [cbn; lia|]. split; [cbn; lia|].
    intros [|k] z Hz; cbn in *.
    + injection Hz as <-. exists y. rewrite Nat.mul_0_r, Nat.add_0_r. auto.
    + destruct (N k z Hz) as (w & Hw & Ew). exists w. split; [exact Hw|].
      replace (i + c * S k) with (i + c + c * k) by lia. exact Ew.
Qed.

Lemma omap_at {A B} (f : A -> outcome B) l r : omap f l = Ok r ->
  length r = length l /\
  forall k x, nth_error l k = Some x -> exists y, nth_error r k = Some y /\ f x = Ok y.
Proof.
  intros H. apply omap_Forall2 in H. induction H as [|x y l r E _ IH]; [split; [reflexivity|]|].
  - intros [|k] x; discriminate.
  - destruct IH as [Ly N]. split; [cbn; lia|]. intros [|k] z Hz; cbn in *; [|auto].
    injection Hz as <-. eauto.
Qed.

Lemma seq_shift_add k m : map (fun q => k + q) (seq 0 m) = seq k m.
Proof.
  revert k. induction m as [|m IH]; intros k; [reflexivity|]. cbn [seq map].
  rewrite Nat.add_0_r. f_equal. rewrite <- (IH (S k)), <- seq_shift, map_map. apply map_ext. intros q. lia.
Qed.

Lemma prefix_bang c r : String.prefix "!" (String c r) = Ascii.eqb c "!".
Proof.
  cbn [String.prefix]. destruct (ascii_dec "!" c) as [<-|N].
  - now destruct r.
  - destruct (Ascii.eqb_spec c "!"); congruence.
Qed.

Section EquationProofs.
Context {C : crypto} (L : laws C).
Local Open Scope F_scope.
Add Field equation_field : (f_theory L).
Notation F := (F C).
Ltac logs := log_simpl L.

(** ** Sharing *)

(** [dealt t f s i sh j]: [sh] is a sharing of [s] along [f].  A leaf gets the secret.  The
    children of an OR get the same secret.  An AND with [n] children takes a polynomial with
    constant term [s] whose other [n - 1] coefficients are the next [n - 1] random values; child
    number [x], counted from one, gets its value at [x].  The random values used are those at
    positions [i] to [j - 1]. *)
Inductive dealt (t : nat -> F) : formula -> F -> nat -> list (string * F) -> nat -> Prop :=
| dealt_leaf n p s i : dealt t (FLeaf n p) s i [(node_index n p, s)] i
| dealt_or l s i sh j : dealt_all t l (fun _ => s) 1 i sh j -> dealt t (FOr l) s i sh j
| dealt_and l s i sh j :
    dealt_all t l (fun x => ev (s :: map t (seq i (length l - 1))) (usize_to_fr x)) 1
      (i + (length l - 1))%nat sh j ->
    dealt t (FAnd l) s i sh j
with dealt_all (t : nat -> F) : list formula -> (nat -> F) -> nat -> nat -> list (string * F) -> nat -> Prop :=
| dealt_nil v x i : dealt_all t [] v x i [] i
| dealt_cons f l v x i sh i' sh' j : dealt t f (v x) i sh i' -> dealt_all t l v (S x) i' sh' j ->
    dealt_all t (f :: l) v x i (sh ++ sh') j.

Lemma gsh_dealt t f : forall s i, dealt t f s i (gsh f s t i) (i + nd f).
Proof.
  induction f as [n p|l IH|l IH] using formula_ind'; intros s i.
  - cbn. rewrite Nat.add_0_r. constructor.
  - rewrite gsh_FAnd. constructor. cbn [nd].
    rewrite Nat.add_assoc. set (a := s :: map t (seq i (length l - 1))). clearbody a.
    generalize (i + (length l - 1))%nat as k. generalize 1%nat as x.
    induction IH as [|f l Hf _ IHl]; intros x k.
    + cbn. rewrite Nat.add_0_r. constructor.
    + cbn. rewrite Nat.add_assoc. econstructor; [apply Hf|apply IHl].
  - rewrite gsh_FOr. constructor. cbn [nd]. generalize 1%nat as x. revert i.
    induction IH as [|f l Hf _ IHl]; intros i x.
    + cbn. rewrite Nat.add_0_r. constructor.
    + cbn. rewrite Nat.add_assoc. econstructor; [apply Hf|apply IHl].
Qed.

Lemma dealt_unique t f : forall s i sh j, dealt t f s i sh j -> sh = gsh f s t i /\ j = (i + nd f)%nat.
Proof.
  induction f as [n p|l IH|l IH] using formula_ind'; intros s i sh j H; inversion H; subst.
  - cbn. rewrite Nat.add_0_r. auto.
  - rewrite gsh_FAnd. cbn [nd]. rewrite Nat.add_assoc.
    set (a := s :: map t (seq i (length l - 1))) in *. clearbody a.
    match goal with X : dealt_all _ _ _ _ _ _ _ |- _ => clear H; revert X end. generalize (i + (length l - 1))%nat as k. generalize 1%nat as x. revert sh.
    induction IH as [|f l Hf _ IHl]; intros sh x k H; inversion H; subst.
    + cbn. rewrite Nat.add_0_r. auto.
    + match goal with X : dealt _ _ _ _ _ _, Y : dealt_all _ l _ _ _ _ _ |- _ => apply Hf in X as [-> ->]; apply IHl in Y as [-> ->] end. cbn. rewrite Nat.add_assoc. auto.
  - rewrite gsh_FOr. cbn [nd]. match goal with X : dealt_all _ _ _ _ _ _ _ |- _ => clear H; revert X end. generalize 1%nat as x. revert sh i.
    induction IH as [|f l Hf _ IHl]; intros sh i x H; inversion H; subst.
    + cbn. rewrite Nat.add_0_r. auto.
    + match goal with X : dealt _ _ _ _ _ _, Y : dealt_all _ l _ _ _ _ _ |- _ => apply Hf in X as [-> ->]; apply IHl in Y as [-> ->] end. cbn. rewrite Nat.add_assoc. auto.
Qed.

(** The code deals exactly these shares. *)
Theorem shares_dealt t f s i sh j :
  gen_shares_policy s (tree f) None t i = Ok (sh, j) <-> dealt t f s i sh j.
Proof.
  rewrite (gen_shares_policy_eq L). split.
  - intros H. injection H as <- <-. apply gsh_dealt.
  - intros H. apply dealt_unique in H as [-> ->]. reflexivity.
Qed.

(** ** BSW *)

Theorem bsw_setup_eq t i (pk : bsw_pk C) msk j :
  bsw_setup t i = Ok ((pk, msk), j) <->
  t (i + 2)%nat <> 0 /\ j = (i + 4)%nat /\
  bpk_g1 pk = g1mul C (g1one C) (t i) /\
  bpk_g2 pk = g2mul C (g2one C) (t (i + 1)%nat) /\
  bmsk_beta msk = t (i + 2)%nat /\
  bpk_h pk = g1mul C (bpk_g1 pk) (bmsk_beta msk) /\
  g2mul C (bpk_f pk) (bmsk_beta msk) = bpk_g2 pk /\
  bmsk_g2a msk = g2mul C (bpk_g2 pk) (t (i + 3)%nat) /\
  bpk_egg pk = gtpow C (pairing C (bpk_g1 pk) (bpk_g2 pk)) (t (i + 3)%nat).
Proof.
  replace (i + 1)%nat with (S i) by lia. replace (i + 2)%nat with (S (S i)) by lia.
  replace (i + 3)%nat with (S (S (S i))) by lia. replace (i + 4)%nat with (S (S (S (S i)))) by lia.
  unfold bsw_setup, draw_g1, draw_g2, rbind, rret, rlift, draw. cbn. split.
  - destruct (finv_opt (t (S (S i)))) as [b|] eqn:E; cbn; [|discriminate].
    intros H. injection H as <- <- <-. apply (finv_opt_Some L) in E as [N ->].
    split; [exact N|]. cbn. repeat apply conj; try reflexivity.
    + apply (log2_inj L). logs. field. exact N.
    + apply (logT_inj L). logs. ring.
  - destruct pk as [g1 g2 h f e], msk as [b a]. cbn. intros (N & -> & -> & -> & -> & -> & Hf & -> & ->).
    unfold finv_opt. destruct (feqb C (t (S (S i))) 0) eqn:B; [apply (feqb_eq L) in B; congruence|].
    cbn. do 4 f_equal; [f_equal|].
    + apply (log2_inj L). apply (f_equal (log2 L)) in Hf. revert Hf. logs. intros Hf.
      rewrite <- Hf. field. exact N.
    + apply (logT_inj L). logs. ring.
Qed.

Theorem bsw_keygen_eq (pk : bsw_pk C) msk attrs t i sk j :
  bsw_keygen pk msk attrs t i = Ok (Some sk, j) ->
  bmsk_beta msk <> 0 /\ j = (i + 1 + length attrs)%nat /\
  g2mul C (bsk_d sk) (bmsk_beta msk) = g2add C (bmsk_g2a msk) (g2mul C (bpk_g2 pk) (t i)) /\
  length (bsk_dj sk) = length attrs /\
  forall k a, nth_error attrs k = Some a -> exists h, hash C a = Some h /\
    nth_error (bsk_dj sk) k = Some (BAttr a
      (g1mul C (bpk_g1 pk) (t (i + 1 + k)%nat))
      (g2add C (g2mul C (bpk_g2 pk) (t i))
               (g2mul C (g2mul C (bpk_g2 pk) h) (t (i + 1 + k)%nat)))).
Proof.
  intros H0. destruct (bsw_keygen_ok L _ _ _ _ _ _ _ H0) as [N [D _]]. split; [exact N|].
  revert H0. unfold bsw_keygen. destruct attrs as [|a0 at0]; [discriminate|].
  set (attrs := a0 :: at0). clearbody attrs. intros H.
  apply rbind_Ok in H as (r & i1 & Hr & H). injection Hr as <- <-.
  apply rbind_Ok in H as (b & i2 & Hb & H). apply rlift_Ok in Hb as [Hb <-].
  apply rbind_Ok in H as (dj & i3 & Hd & H). apply rret_Ok in H as [H <-]. injection H as <-.
  apply (rmap_at _ 1) in Hd as (-> & Ld & Nd).
  - split; [lia|]. split.
    { apply (log2_inj L). cbn in *. rewrite (log2_mul L), D. logs. field. exact N. }
    split; [exact Ld|]. intros k a Ha. destruct (Nd k a Ha) as (y & Hy & E).
    replace (S i + 1 * k)%nat with (i + 1 + k)%nat in E by lia.
    apply rbind_Ok in E as (rj & i4 & Hrj & E). injection Hrj as <- <-.
    apply rbind_Ok in E as (h & i5 & Hh & E). apply rlift_Ok in Hh as [Hh <-].
    apply rret_Ok in E as [<- _]. unfold sha3_hash_g2 in Hh.
    destruct (hash C a) as [h'|] eqn:Ea; [|discriminate]. injection Hh as <-.
    exists h'. split; [reflexivity|]. cbn [bsk_dj]. exact Hy.
  - intros x k y m _ E. apply rbind_Ok in E as (rj & i4 & Hrj & E). injection Hrj as <- <-.
    apply rbind_Ok in E as (h & i5 & Hh & E). apply rlift_Ok in Hh as [Hh <-].
    apply rret_Ok in E as [_ <-]. lia.
Qed.

Theorem bsw_delegate_eq (pk : bsw_pk C) sk subset t i sk' j :
  bsw_delegate pk sk subset t i = Ok (Some sk', j) ->
  j = (i + 1 + length subset)%nat /\
  bsk_d sk' = g2add C (bsk_d sk) (g2mul C (bpk_f pk) (t i)) /\
  length (bsk_dj sk') = length subset /\
  forall k a, nth_error subset k = Some a -> exists h d, hash C a = Some h /\
    In d (bsk_dj sk) /\ b_string d = a /\
    nth_error (bsk_dj sk') k = Some (BAttr a
      (g1add C (b_g1 d) (g1mul C (bpk_g1 pk) (t (i + 1 + k)%nat)))
      (g2add C (g2add C (b_g2 d) (g2mul C (g2mul C (bpk_g2 pk) h) (t (i + 1 + k)%nat)))
               (g2mul C (bpk_g2 pk) (t i)))).
Proof.
  unfold bsw_delegate. destruct (is_subset subset (map b_string (bsk_dj sk))); [|discriminate].
  cbn [negb]. destruct subset as [|a0 at0]; [discriminate|].
  set (attrs := a0 :: at0). clearbody attrs. intros H.
  apply rbind_Ok in H as (r & i1 & Hr & H). injection Hr as <- <-.
  apply rbind_Ok in H as (dj & i3 & Hd & H). apply rret_Ok in H as [H <-]. injection H as <-.
  apply (rmap_at _ 1) in Hd as (-> & Ld & Nd).
  - split; [lia|]. split; [reflexivity|].
    split; [exact Ld|]. intros k a Ha. destruct (Nd k a Ha) as (y & Hy & E).
    replace (S i + 1 * k)%nat with (i + 1 + k)%nat in E by lia.
    apply rbind_Ok in E as (rj & i4 & Hrj & E). injection Hrj as <- <-.
    apply rbind_Ok in E as (d & i6 & Hf & E). apply rlift_Ok in Hf as [Hf <-].
    apply rbind_Ok in E as (h & i5 & Hh & E). apply rlift_Ok in Hh as [Hh <-].
    apply rret_Ok in E as [<- _]. unfold sha3_hash_g2 in Hh.
    destruct (hash C a) as [h'|] eqn:Ea; [|discriminate]. injection Hh as <-.
    destruct (find _ (bsk_dj sk)) as [d'|] eqn:Ef; [|discriminate]. injection Hf as ->.
    apply find_some in Ef as [I Ef]. apply seqb_eq in Ef.
    exists h', d. repeat apply conj; auto.
  - intros x k y m _ E. apply rbind_Ok in E as (rj & i4 & Hrj & E). injection Hrj as <- <-.
    apply rbind_Ok in E as (d & i6 & Hf & E). apply rlift_Ok in Hf as [Hf <-].
    apply rbind_Ok in E as (h & i5 & Hh & E). apply rlift_Ok in Hh as [Hh <-].
    apply rret_Ok in E as [_ <-]. lia.
Qed.

Theorem bsw_encrypt_eq nonce (pk : bsw_pk C) pol lang data t i ct j f :
  parse pol lang = Ok (tree f) ->
  bsw_encrypt nonce pk pol lang data t i = Ok (ct, j) ->
  exists sh m, m = gtpow C (pairing C (g1one C) (g2one C)) (t (i + 1)%nat) /\
  dealt t f (t i) (i + 2) sh j /\
  bct_policy ct = (pol, lang) /\
  bct_c ct = g1mul C (bpk_h pk) (t i) /\
  bct_cp ct = gtmul C (gtpow C (bpk_egg pk) (t i)) m /\
  encrypt_symmetric nonce m data = Ok (bct_data ct) /\
  length (bct_cy ct) = length sh /\
  forall k n x, nth_error sh k = Some (n, x) -> exists h, hash C (remove_index n) = Some h /\
    nth_error (bct_cy ct) k = Some (BAttr n (g1mul C (bpk_g1 pk) x)
                                            (g2mul C (g2mul C (bpk_g2 pk) h) x)).
Proof.
  intros P H. unfold bsw_encrypt in H.
  apply rbind_Ok in H as (s & i1 & Hs & H). injection Hs as <- <-.
  apply rbind_Ok in H as (msg & i2 & Hm & H).
  unfold draw_gt, rbind, draw, rret in Hm. injection Hm as <- <-.
  apply rbind_Ok in H as (v & i3 & Hv & H). apply rlift_Ok in Hv as [Hv <-].
  rewrite P in Hv. injection Hv as <-.
  apply rbind_Ok in H as (sh & i4 & Hsh & H). apply shares_dealt in Hsh.
  apply rbind_Ok in H as (cy & i5 & Hcy & H). apply rlift_Ok in Hcy as [Hcy <-].
  apply rbind_Ok in H as (d & i6 & Hd & H). apply rlift_Ok in Hd as [Hd <-].
  apply rret_Ok in H as [<- <-]. cbn [bct_policy bct_c bct_cp bct_cy bct_data].
  eexists sh, _. replace (i + 1)%nat with (S i) by lia. split; [reflexivity|].
  replace (i + 2)%nat with (S (S i)) by lia.
  apply omap_at in Hcy as [Ly Ny]. repeat apply conj; auto.
  intros k n x Hk. destruct (Ny k _ Hk) as (y & Hy & E). cbn [fst snd] in E.
  unfold sha3_hash_g2 in E. destruct (hash C (remove_index n)) as [h|]; [|discriminate].
  cbn in E. injection E as <-. eauto.
Qed.

(** ** GHW11 *)

Theorem ghw_setup_eq t i (pk : ghw_pk C) msk j :
  ghw_setup t i = Ok ((pk, msk), j) <->
  j = (i + 4)%nat /\ gmsk_pk msk = pk /\
  gpk_g1 pk = g1mul C (g1one C) (t i) /\
  gpk_g2 pk = g2mul C (g2one C) (t (i + 1)%nat) /\
  gpk_g1a pk = g1mul C (gpk_g1 pk) (t (i + 2)%nat) /\
  gpk_g2a pk = g2mul C (gpk_g2 pk) (t (i + 2)%nat) /\
  gmsk_g2al msk = g2mul C (gpk_g2 pk) (t (i + 3)%nat) /\
  gpk_egg pk = gtpow C (pairing C (gpk_g1 pk) (gpk_g2 pk)) (t (i + 3)%nat).
Proof.
  replace (i + 1)%nat with (S i) by lia. replace (i + 2)%nat with (S (S i)) by lia.
  replace (i + 3)%nat with (S (S (S i))) by lia. replace (i + 4)%nat with (S (S (S (S i)))) by lia.
  unfold ghw_setup, draw_g1, draw_g2, rbind, rret, rlift, draw. cbn. split.
  - intros H. injection H as <- <- <-. cbn. repeat apply conj; reflexivity.
  - destruct pk, msk. cbn. intros (-> & -> & -> & -> & -> & -> & -> & ->). reflexivity.
Qed.

Theorem ghw_keygen_eq (pk : ghw_pk C) msk attrs t i sk j :
  ghw_keygen pk msk attrs t i = Ok (Some sk, j) ->
  j = (i + 1)%nat /\
  gsk_k sk = g2add C (gmsk_g2al msk) (g2mul C (gpk_g2a pk) (t i)) /\
  gsk_l sk = g2mul C (gpk_g2 pk) (t i) /\
  length (gsk_attr sk) = length attrs /\
  forall k a, nth_error attrs k = Some a -> exists h, hash C a = Some h /\
    nth_error (gsk_attr sk) k = Some (a, g2mul C (g2mul C (gpk_g2 pk) h) (t i)).
Proof.
  unfold ghw_keygen. destruct attrs as [|a0 at0]; [discriminate|].
  set (attrs := a0 :: at0). clearbody attrs. intros H.
  apply rbind_Ok in H as (r & i1 & Hr & H). injection Hr as <- <-.
  apply rbind_Ok in H as (b & i2 & Hb & H). apply rlift_Ok in Hb as [Hb <-].
  apply rret_Ok in H as [H <-]. injection H as <-. cbn [gsk_k gsk_l gsk_attr].
  apply omap_at in Hb as [Ly Ny]. repeat apply conj; auto; [lia|].
  intros k a Ha. destruct (Ny k a Ha) as (y & Hy & E). unfold sha3_hash_g2 in E.
  destruct (hash C a) as [h|]; [|discriminate]. cbn in E. injection E as <-. eauto.
Qed.

(** The retrieve key is [z]; every part of the transform key is the [z]-th root of the part of
    the secret key. *)
Theorem ghw_tkgen_eq (sk : ghw_sk C) t i tk z j :
  ghw_tkgen sk t i = Ok ((tk, z), j) <->
  z = t i /\ z <> 0 /\ j = (i + 1)%nat /\
  g2mul C (gtk_k tk) z = gsk_k sk /\ g2mul C (gtk_l tk) z = gsk_l sk /\
  map (fun x => (fst x, g2mul C (snd x) z)) (gtk_attr tk) = gsk_attr sk.
Proof.
  unfold ghw_tkgen, rbind, rret, rlift, draw. rewrite Nat.add_1_r. split.
  - destruct (finv_opt (t i)) as [b|] eqn:E; cbn; [|discriminate].
    intros H. injection H as <- <- <-. apply (finv_opt_Some L) in E as [N ->]. cbn.
    assert (X : forall y : G2 C, g2mul C (g2mul C y (finv C (t i))) (t i) = y)
      by (intros y; apply (log2_inj L); logs; field; exact N).
    repeat apply conj; auto. rewrite map_map. rewrite <- map_id. apply map_ext.
    intros [n y]. cbn. now rewrite X.
  - intros (-> & N & -> & K1 & K2 & K3). unfold finv_opt.
    destruct (feqb C (t i) 0) eqn:B; [apply (feqb_eq L) in B; congruence|]. cbn.
    assert (X : forall y : G2 C, g2mul C (g2mul C y (t i)) (finv C (t i)) = y)
      by (intros y; apply (log2_inj L); logs; field; exact N).
    destruct tk as [k l a]. cbn in *. rewrite <- K1, <- K2, <- K3, !X. do 4 f_equal.
    rewrite map_map. rewrite <- map_id. apply map_ext. intros [n y]. cbn. now rewrite X.
Qed.

Theorem ghw_encrypt_eq nonce (pk : ghw_pk C) pol lang data t i ct j f :
  parse pol lang = Ok (tree f) ->
  ghw_encrypt nonce pk pol lang data t i = Ok (ct, j) ->
  exists sh i' m, m = gtpow C (pairing C (g1one C) (g2one C)) (t (i + 1)%nat) /\
  dealt t f (t i) (i + 2) sh i' /\ j = (i' + length sh)%nat /\
  gct_policy ct = (pol, lang) /\
  gct_c1 ct = g1mul C (gpk_g1 pk) (t i) /\
  gct_c ct = gtmul C (gtpow C (gpk_egg pk) (t i)) m /\
  encrypt_symmetric nonce m data = Ok (gct_data ct) /\
  length (gct_cidi ct) = length sh /\
  forall k n x, nth_error sh k = Some (n, x) -> exists h, hash C (remove_index n) = Some h /\
    nth_error (gct_cidi ct) k = Some (n,
      (g1add C (g1mul C (gpk_g1a pk) x) (g1mul C (g1mul C (gpk_g1 pk) h) (- t (i' + k)%nat)),
       g1mul C (gpk_g1 pk) (t (i' + k)%nat))).
Proof.
  intros P H. unfold ghw_encrypt in H.
  apply rbind_Ok in H as (s & i1 & Hs & H). injection Hs as <- <-.
  apply rbind_Ok in H as (msg & i2 & Hm & H).
  unfold draw_gt, rbind, draw, rret in Hm. injection Hm as <- <-.
  apply rbind_Ok in H as (v & i3 & Hv & H). apply rlift_Ok in Hv as [Hv <-].
  rewrite P in Hv. injection Hv as <-.
  apply rbind_Ok in H as (sh & i4 & Hsh & H). apply shares_dealt in Hsh.
  apply rbind_Ok in H as (cy & i5 & Hcy & H).
  apply rbind_Ok in H as (d & i6 & Hd & H). apply rlift_Ok in Hd as [Hd <-].
  apply rret_Ok in H as [<- <-]. cbn [gct_policy gct_c gct_c1 gct_cidi gct_data].
  eexists sh, i4, _. replace (i + 1)%nat with (S i) by lia. split; [reflexivity|].
  replace (i + 2)%nat with (S (S i)) by lia.
  apply (rmap_at _ 1) in Hcy as (-> & Ly & Ny).
  - rewrite Nat.mul_1_l. repeat apply conj; auto.
    intros k n x Hk. destruct (Ny k _ Hk) as (y & Hy & E). rewrite Nat.mul_1_l in E.
    apply rbind_Ok in E as (r & k1 & Hr & E). injection Hr as <- <-.
    apply rbind_Ok in E as (h & k2 & Hh & E). apply rlift_Ok in Hh as [Hh <-].
    apply rret_Ok in E as [<- _]. cbn [fst snd] in *.
    unfold sha3_hash_g1 in Hh. destruct (hash C (remove_index n)) as [h'|]; [|discriminate].
    injection Hh as <-. eauto.
  - intros x k y m _ E. apply rbind_Ok in E as (r & k1 & Hr & E). injection Hr as <- <-.
    apply rbind_Ok in E as (h & k2 & Hh & E). apply rlift_Ok in Hh as [Hh <-].
    apply rret_Ok in E as [_ <-]. lia.
Qed.

(** ** LSW *)

Theorem lsw_setup_eq t i (pk : lsw_pk C) msk j :
  lsw_setup t i = Ok ((pk, msk), j) <->
  j = (i + 7)%nat /\
  lmsk_alpha1 msk = t i /\ lmsk_alpha2 msk = t (i + 1)%nat /\ lmsk_b msk = t (i + 2)%nat /\
  lpk_g1 pk = g1mul C (g1one C) (t (i + 3)%nat) /\
  lpk_g2 pk = g2mul C (g2one C) (t (i + 4)%nat) /\
  lmsk_hg1 msk = g1mul C (g1one C) (t (i + 5)%nat) /\
  lmsk_hg2 msk = g2mul C (g2one C) (t (i + 6)%nat) /\
  lpk_g1b pk = g1mul C (lpk_g1 pk) (lmsk_b msk) /\
  lpk_g1b2 pk = g1mul C (lpk_g1 pk) (lmsk_b msk * lmsk_b msk) /\
  lpk_hb pk = g1mul C (lmsk_hg1 msk) (lmsk_b msk) /\
  lpk_egg pk = gtpow C (pairing C (lpk_g1 pk) (lpk_g2 pk)) (lmsk_alpha1 msk * lmsk_alpha2 msk).
Proof.
  replace (i + 1)%nat with (S i) by lia. replace (i + 2)%nat with (S (S i)) by lia.
  replace (i + 3)%nat with (S (S (S i))) by lia. replace (i + 4)%nat with (S (S (S (S i)))) by lia.
  replace (i + 5)%nat with (S (S (S (S (S i))))) by lia.
  replace (i + 6)%nat with (S (S (S (S (S (S i)))))) by lia.
  replace (i + 7)%nat with (S (S (S (S (S (S (S i))))))) by lia.
  assert (X : forall (g : G1 C) x, g1mul C (g1mul C g x) x = g1mul C g (x * x))
    by (intros; apply (log1_inj L); logs; ring).
  unfold lsw_setup, draw_g1, draw_g2, rbind, rret, rlift, draw. cbn. split.
  - intros H. injection H as <- <- <-. cbn. repeat apply conj; try reflexivity. apply X.
  - destruct pk, msk. cbn. intros (-> & -> & -> & -> & -> & -> & -> & -> & -> & -> & -> & ->).
    rewrite X. reflexivity.
Qed.

(** [is_negative] is decided by the first character of the name. *)
Theorem lsw_keygen_eq (pk : lsw_pk C) msk pol lang t i sk j f :
  parse pol lang = Ok (tree f) ->
  lsw_keygen pk msk pol lang t i = Ok (sk, j) ->
  exists sh i', dealt t f (lmsk_alpha1 msk) i sh i' /\ j = (i' + length sh)%nat /\
  lsk_policy sk = (pol, lang) /\ length (lsk_dj sk) = length sh /\
  forall k n x, nth_error sh k = Some (n, x) -> exists h, hash C (remove_index n) = Some h /\
    nth_error (lsk_dj sk) k = Some
      (if String.prefix "!" (remove_index n)
       then LswDj (remove_index n) (g1zero C) (g2zero C)
              (g1add C (g1mul C (lpk_g1 pk) x) (g1mul C (lpk_g1b2 pk) (t (i' + k)%nat)))
              (g1add C (g1mul C (lpk_g1b pk) (h * t (i' + k)%nat)) (g1mul C (lmsk_hg1 msk) (t (i' + k)%nat)))
              (g1mul C (lpk_g1 pk) (- t (i' + k)%nat))
       else LswDj (remove_index n)
              (g1add C (g1mul C (lpk_g1 pk) (lmsk_alpha2 msk * x))
                       (g1mul C (g1mul C (lpk_g1 pk) h) (t (i' + k)%nat)))
              (g2mul C (lpk_g2 pk) (t (i' + k)%nat)) (g1zero C) (g1zero C) (g1zero C)).
Proof.
  intros P H. unfold lsw_keygen in H.
  apply rbind_Ok in H as (v & i3 & Hv & H). apply rlift_Ok in Hv as [Hv <-].
  rewrite P in Hv. injection Hv as <-.
  apply rbind_Ok in H as (sh & i4 & Hsh & H). apply shares_dealt in Hsh.
  apply rbind_Ok in H as (dj & i5 & Hcy & H).
  apply rret_Ok in H as [<- <-]. cbn [lsk_policy lsk_dj].
  exists sh, i4.
  apply (rmap_at _ 1) in Hcy as (-> & Ly & Ny).
  - rewrite Nat.mul_1_l. repeat apply conj; auto.
    intros k n x Hk. destruct (Ny k _ Hk) as (y & Hy & E). rewrite Nat.mul_1_l in E. cbn [fst snd] in E.
    cbv zeta in E.
    apply rbind_Ok in E as (r & k1 & Hr & E). injection Hr as <- <-.
    apply rbind_Ok in E as (ng & k2 & Hn & E). apply rlift_Ok in Hn as [Hn <-].
    unfold is_negative in Hn. destruct (remove_index n) as [|c r] eqn:En; [discriminate|].
    destruct (nat_of_ascii c <? 128)%nat; [|discriminate]. injection Hn as Hn.
    rewrite prefix_bang, Hn.
    destruct ng; apply rbind_Ok in E as (h & k3 & Hh & E); apply rlift_Ok in Hh as [Hh <-];
      apply rret_Ok in E as [<- _]; unfold sha3_hash_g1, sha3_hash_fr in Hh;
      destruct (hash C (String c r)) as [h'|]; try discriminate; injection Hh as <-; eauto.
  - intros x k y m _ E. cbv zeta in E.
    apply rbind_Ok in E as (r & k1 & Hr & E). injection Hr as <- <-.
    apply rbind_Ok in E as (ng & k2 & Hn & E). apply rlift_Ok in Hn as [Hn <-].
    destruct ng; apply rbind_Ok in E as (h & k3 & Hh & E); apply rlift_Ok in Hh as [Hh <-];
      apply rret_Ok in E as [_ <-]; lia.
Qed.

(** The shares of the encryption secret for the negated attributes. *)
Lemma lsw_sx_go attrs : forall i h tl (t : nat -> F) k, length tl = i -> (1 <= i)%nat ->
  lsw_sx i attrs (h :: tl) t k =
  Ok ((h - fsum (map (fun q => nth (i - 1 + q) (tl ++ map t (seq k (length attrs))) 0)
                   (seq 0 (length attrs)))) :: tl ++ map t (seq k (length attrs)),
      (k + length attrs)%nat).
Proof.
  induction attrs as [|a attrs IH]; intros i h tl t k Hl Hi; cbn [lsw_sx length].
  - unfold rret. cbn. rewrite app_nil_r, Nat.add_0_r. do 3 f_equal. ring.
  - erewrite rbind_run by reflexivity. cbn [app set_head hd].
    rewrite IH; [|rewrite app_length; cbn; lia|lia].
    rewrite <- app_assoc. cbn [app seq map]. f_equal. f_equal; [f_equal|lia].
    cbn [fsum]. rewrite Nat.add_0_r.
    destruct i as [|i]; [lia|]. cbn [nth]. replace (S i - 1)%nat with i by lia.
    replace (nth i (tl ++ [t k]) 0) with (nth i (tl ++ t k :: map t (seq (S k) (length attrs))) 0).
    + set (l0 := tl ++ t k :: map t (seq (S k) (length attrs))). clearbody l0.
      rewrite <- (seq_shift _ 0), map_map.
      rewrite (fsum_map_ext (fun q => nth (S (S i) - 1 + q) l0 0) (fun q => nth (i + S q) l0 0)); [ring|].
      intros q _. f_equal. lia.
    + rewrite !app_nth1 by lia. reflexivity.
Qed.

Lemma nth_map_seq (t : nat -> F) m : forall k q, (q < m)%nat -> nth q (map t (seq k m)) 0 = t (k + q)%nat.
Proof.
  induction m as [|m IH]; intros k q H; [lia|]. cbn [seq map]. destruct q as [|q]; cbn [nth].
  - now rewrite Nat.add_0_r.
  - rewrite IH by lia. f_equal. lia.
Qed.

Lemma lsw_sx_eq a attrs (t : nat -> F) s k :
  lsw_sx 0 (a :: attrs) [s] t k =
  Ok ((- fsum (map t (seq k (length attrs)))) :: map t (seq k (S (length attrs))),
      (k + S (length attrs))%nat).
Proof.
  cbn [lsw_sx]. erewrite rbind_run by reflexivity. cbn [app set_head hd nth].
  rewrite lsw_sx_go by (cbn; lia). cbn [app seq map]. f_equal. f_equal; [f_equal|lia].
  change (t k :: map t (seq (S k) (length attrs))) with (map t (seq k (S (length attrs)))).
  transitivity (0 - fsum (map t (seq k (length attrs)))); [|ring].
  replace (s - s) with (0 : F) by ring. f_equal. f_equal.
  rewrite <- (seq_shift_add k (length attrs)), map_map. apply map_ext_in. intros q I.
  apply in_seq in I. cbn [Nat.sub Nat.add]. rewrite nth_map_seq by lia. reflexivity.
Qed.

Lemma lsw_ejs_at (pk : lsw_pk C) s sx attrs : forall i l, lsw_ejs pk s sx i attrs = Ok l ->
  length l = length attrs /\
  forall k a, nth_error attrs k = Some a -> exists h x, hash C a = Some h /\
    nth_error sx (i + k) = Some x /\
    nth_error l k = Some (LswEj a (g1mul C (g1mul C (lpk_g1 pk) h) s) (g1mul C (lpk_g1b pk) x)
      (g1add C (g1mul C (lpk_g1b2 pk) (x * h)) (g1mul C (lpk_hb pk) x))).
Proof.
  induction attrs as [|a attrs IH]; intros i l H; cbn [lsw_ejs] in H.
  - injection H as <-. split; [reflexivity|]. intros [|k] a; discriminate.
  - apply obind_Ok in H as (hh & Hh & H). apply obind_Ok in H as (x & Hx & H).
    apply obind_Ok in H as (hf & Hf & H). apply obind_Ok in H as (l' & Hl & H). injection H as <-.
    destruct (IH _ _ Hl) as [Ll Nl]. split; [cbn; lia|].
    unfold sha3_hash_g1 in Hh. unfold sha3_hash_fr in Hf.
    destruct (hash C a) as [h|] eqn:Ea; [|discriminate]. injection Hh as <-. injection Hf as <-.
    intros [|k] b Hb; cbn [nth_error] in *.
    + injection Hb as <-. exists h, x. rewrite Nat.add_0_r.
      destruct (nth_error sx i); [|discriminate]. injection Hx as <-. auto.
    + destruct (Nl k b Hb) as (h' & x' & H1 & H2 & H3). exists h', x'.
      replace (i + S k)%nat with (S i + k)%nat by lia. auto.
Qed.

(** What entry [k] of a ciphertext uses in place of a share of the secret. *)
Definition lsw_share (t : nat -> F) (i n k : nat) : F :=
  match k with O => - fsum (map t (seq (i + 1) (n - 1))) | S _ => t (i + k)%nat end.

Theorem lsw_encrypt_eq nonce (pk : lsw_pk C) attrs data t i ct j :
  lsw_encrypt nonce pk attrs data t i = Ok (ct, j) ->
  exists m, m = gtpow C (pairing C (g1one C) (g2one C)) (t (i + 1 + length attrs)%nat) /\
  j = (i + 2 + length attrs)%nat /\
  lct_e2 ct = g2mul C (lpk_g2 pk) (t i) /\
  lct_e1 ct = gtmul C (gtpow C (lpk_egg pk) (t i)) m /\
  encrypt_symmetric nonce m data = Ok (lct_ct ct) /\
  length (lct_ej ct) = length attrs /\
  forall k a, nth_error attrs k = Some a -> exists h, hash C a = Some h /\
    nth_error (lct_ej ct) k = Some (LswEj a
      (g1mul C (g1mul C (lpk_g1 pk) h) (t i))
      (g1mul C (lpk_g1b pk) (lsw_share t i (length attrs) k))
      (g1add C (g1mul C (lpk_g1b2 pk) (lsw_share t i (length attrs) k * h))
               (g1mul C (lpk_hb pk) (lsw_share t i (length attrs) k)))).
Proof.
  unfold lsw_encrypt. destruct attrs as [|a0 at0]; [discriminate|].
  destruct data as [|c0 d0]; [discriminate|]. intros H.
  apply rbind_Ok in H as (s & i1 & Hs & H). injection Hs as <- <-.
  apply rbind_Ok in H as (sx & i2 & Hx & H). rewrite lsw_sx_eq in Hx. injection Hx as <- <-.
  set (attrs := a0 :: at0) in *.
  apply rbind_Ok in H as (ej & i3 & He & H). apply rlift_Ok in He as [He <-].
  apply rbind_Ok in H as (msg & i4 & Hm & H).
  unfold draw_gt, rbind, draw, rret in Hm. injection Hm as <- <-.
  apply rbind_Ok in H as (d & i6 & Hd & H). apply rlift_Ok in Hd as [Hd <-].
  apply rret_Ok in H as [<- <-]. cbn [lct_e1 lct_e2 lct_ej lct_ct].
  assert (Ln : length attrs = S (length at0)) by reflexivity.
  eexists. rewrite Ln. replace (i + 1 + S (length at0))%nat with (S i + S (length at0))%nat by lia.
  split; [reflexivity|]. apply lsw_ejs_at in He as [Le Ne].
  repeat apply conj; auto; [lia|]. intros k a Ha.
  destruct (Ne k a Ha) as (h & x & Hh & Hx & Hk). exists h. split; [exact Hh|]. rewrite Hk.
  enough (x = lsw_share t i (S (length at0)) k) as -> by reflexivity.
  change (0 + k)%nat with k in Hx. destruct k as [|k]; cbn [nth_error lsw_share] in *.
  - injection Hx as <-. cbn [Nat.sub]. rewrite Nat.sub_0_r, Nat.add_1_r. reflexivity.
  - assert (Hk' : (k < S (length at0))%nat).
    { rewrite <- (seq_length (S (length at0)) (S i)), <- (map_length t). apply nth_error_Some.
      change (t (S i) :: map t (seq (S (S i)) (length at0))) with (map t (seq (S i) (S (length at0)))) in Hx.
      congruence. }
    apply (nth_error_nth _ _ 0) in Hx. rewrite <- Hx.
    change (t (S i) :: map t (seq (S (S i)) (length at0))) with (map t (seq (S i) (S (length at0)))).
    rewrite nth_map_seq by exact Hk'. f_equal. lia.
Qed.

(** These are not shares of the secret: they add up to zero. *)
Lemma lsw_share_sum t i n : (1 <= n)%nat -> fsum (map (lsw_share t i n) (seq 0 n)) = 0.
Proof.
  intros H. destruct n as [|n]; [lia|]. cbn [seq map fsum lsw_share].
  replace (S n - 1)%nat with n by lia.
  enough (E : map (lsw_share t i (S n)) (seq 1 n) = map t (seq (i + 1) n)) by (rewrite E; ring).
  rewrite <- seq_shift, map_map.
  rewrite <- (seq_shift_add (i + 1)). rewrite map_map. apply map_ext. intros k. cbn [lsw_share].
  f_equal. lia.
Qed.

Theorem lsw_negation_sum nonce (pk : lsw_pk C) attrs data t i ct j :
  lsw_encrypt nonce pk attrs data t i = Ok (ct, j) ->
  fold_right (fun e s => g1add C (le_2 e) s) (g1zero C) (lct_ej ct) = g1zero C.
Proof.
  intros H. assert (NE : attrs <> []) by (destruct attrs; [discriminate|congruence]).
  destruct (lsw_encrypt_eq _ _ _ _ _ _ _ _ H) as (m & _ & _ & _ & _ & _ & Le & Ne).
  apply (log1_inj L). rewrite (log1_zero L).
  assert (X : map (fun e => log1 L (le_2 e)) (lct_ej ct) =
              map (fun k => log1 L (lpk_g1b pk) * lsw_share t i (length attrs) k) (seq 0 (length attrs))).
  { apply (nth_ext _ _ 0 0); [rewrite !map_length, seq_length; exact Le|].
    intros k Hk. rewrite map_length in Hk. rewrite nth_map_seq by lia. cbn [Nat.add].
    destruct (nth_error attrs k) as [a|] eqn:Ea; [|apply nth_error_None in Ea; lia].
    destruct (Ne k a Ea) as (h & _ & Hk'). apply (map_nth_error (fun e => log1 L (le_2 e))) in Hk'.
    apply (nth_error_nth _ _ 0) in Hk'. rewrite Hk'. cbn. logs. ring. }
  transitivity (fsum (map (fun e => log1 L (le_2 e)) (lct_ej ct))).
  - generalize (lct_ej ct). clear X Le Ne. intros l. induction l as [|e l IH]; cbn; logs; [ring|now rewrite IH].
  - rewrite X, (fsum_scale L), lsw_share_sum; [ring|]. destruct attrs; [congruence|cbn; lia].
Qed.

(** ** YCT14 *)

Theorem yct_setup_eq attrs t i (pk : yct_pk C) msk j :
  yct_setup attrs t i = Ok ((pk, msk), j) ->
  let g := gtpow C (pairing C (g1one C) (g2one C)) (t (i + 1)%nat) in
  j = (i + 2 + length attrs)%nat /\
  ymsk_s msk = t i /\ ypk_g pk = gtpow C g (t i) /\
  length (ypk_attrs pk) = length attrs /\ length (ymsk_attrs msk) = length attrs /\
  forall k a, nth_error attrs k = Some a ->
    nth_error (ypk_attrs pk) k = Some (YAttr a (Some (YPub (gtpow C g (t (i + 2 + k)%nat))))) /\
    nth_error (ymsk_attrs msk) k = Some (YAttr a (Some (YPriv (t (i + 2 + k)%nat)))).
Proof.
  unfold yct_setup. intros H.
  apply rbind_Ok in H as (s & i1 & Hs & H). injection Hs as <- <-.
  apply rbind_Ok in H as (g & i2 & Hg & H).
  unfold draw_gt, rbind, draw, rret in Hg. injection Hg as <- <-.
  apply rbind_Ok in H as (ps & i3 & Hp & H). apply rret_Ok in H as [H <-]. injection H as <- <-.
  replace (i + 1)%nat with (S i) by lia. cbv zeta.
  apply (rmap_at _ 1) in Hp as (-> & Lp & Np).
  - cbn [ymsk_s ypk_g ypk_attrs ymsk_attrs]. rewrite !map_length. repeat apply conj; auto; [lia|].
    intros k a Ha. destruct (Np k a Ha) as (y & Hy & E).
    replace (S (S i) + 1 * k)%nat with (i + 2 + k)%nat in E by lia.
    unfold yct_new in E. apply rbind_Ok in E as (r & k1 & Hr & E). injection Hr as <- <-.
    apply rret_Ok in E as [<- _].
    split; [apply (map_nth_error fst) in Hy|apply (map_nth_error snd) in Hy]; exact Hy.
  - intros x k y m _ E. unfold yct_new in E. apply rbind_Ok in E as (r & k1 & Hr & E).
    injection Hr as <- <-. apply rret_Ok in E as [_ <-]. lia.
Qed.

(** An entry of the key is the share divided by the attribute's part of the master key.  There
    is one for every share whose attribute has such a part, in the same order. *)
Inductive yct_parts (msk : yct_msk C) : list (string * F) -> list (yct_attr C) -> Prop :=
| yp_nil : yct_parts msk [] []
| yp_part n x sh l si y : msk_get_private msk (remove_index n) = Ok si -> si <> 0 -> y * si = x ->
    yct_parts msk sh l -> yct_parts msk ((n, x) :: sh) (YAttr (remove_index n) (Some (YPriv y)) :: l)
| yp_skip n x sh l : msk_get_private msk (remove_index n) = Err ->
    yct_parts msk sh l -> yct_parts msk ((n, x) :: sh) l.

Theorem yct_keygen_eq (msk : yct_msk C) pol lang t i sk j f :
  parse pol lang = Ok (tree f) ->
  yct_keygen msk pol lang t i = Ok (sk, j) ->
  exists sh, dealt t f (ymsk_s msk) i sh j /\
  ysk_policy sk = (pol, lang) /\ yct_parts msk sh (ysk_du sk).
Proof.
  intros P H. unfold yct_keygen in H.
  apply rbind_Ok in H as (v & i3 & Hv & H). apply rlift_Ok in Hv as [Hv <-].
  rewrite P in Hv. injection Hv as <-.
  apply rbind_Ok in H as (sh & i4 & Hsh & H). apply shares_dealt in Hsh.
  apply rbind_Ok in H as (du & i5 & Hd & H). apply rlift_Ok in Hd as [Hd <-].
  apply rret_Ok in H as [<- <-]. exists sh. split; [exact Hsh|]. split; [reflexivity|].
  cbn [ysk_du]. clear Hsh. revert du Hd.
  induction sh as [|[n x] sh IH]; intros du Hd; cbn [yct_du fst snd] in Hd.
  - injection Hd as <-. constructor.
  - unfold private_from in Hd. cbn [fst snd] in Hd.
    destruct (msk_get_private msk (remove_index n)) as [si| |] eqn:E; cbn in Hd; [| |discriminate].
    + destruct (finv_opt si) as [q|] eqn:Eq; cbn in Hd; [|discriminate].
      apply obind_Ok in Hd as (l & Hl & Hd). injection Hd as <-.
      apply (finv_opt_Some L) in Eq as [N ->]. econstructor; eauto. field. exact N.
    + apply yp_skip; auto.
Qed.

Theorem yct_encrypt_eq nonce (pk : yct_pk C) attrs data t i ct j :
  yct_encrypt nonce pk attrs data t i = Ok (ct, j) ->
  j = (i + 1)%nat /\
  encrypt_symmetric nonce (gtpow C (ypk_g pk) (t i)) data = Ok (yct_data ct) /\
  length (yct_attrs ct) = length attrs /\
  forall k a, nth_error attrs k = Some a -> exists g, In (YAttr a (Some (YPub g))) (ypk_attrs pk) /\
    nth_error (yct_attrs ct) k = Some (YAttr a (Some (YPub (gtpow C g (t i))))).
Proof.
  unfold yct_encrypt. destruct attrs as [|a0 at0]; [discriminate|].
  destruct data as [|c0 d0]; [discriminate|]. set (attrs := a0 :: at0). clearbody attrs. intros H.
  apply rbind_Ok in H as (s & i1 & Hs & H). injection Hs as <- <-.
  apply rbind_Ok in H as (l & i2 & Hl & H). apply rlift_Ok in Hl as [Hl <-].
  apply rbind_Ok in H as (d & i6 & Hd & H). apply rlift_Ok in Hd as [Hd <-].
  apply rret_Ok in H as [<- <-]. cbn [yct_attrs yct_data]. apply omap_at in Hl as [Ll Nl].
  repeat apply conj; auto; [lia|]. intros k a Ha. destruct (Nl k a Ha) as (y & Hy & E).
  unfold public_from in E. destruct (find _ (ypk_attrs pk)) as [b|] eqn:Ef; [|discriminate].
  apply find_some in Ef as [I Ef]. apply seqb_eq in Ef. destruct b as [nm nd']. cbn in *. subst nm.
  destruct nd' as [[g|x]|]; try discriminate. injection E as <-. eauto.
Qed.

(** ** AW11 *)

Theorem aw_setup_eq t i (gk : aw_gk C) j :
  aw_setup t i = Ok (gk, j) <->
  j = (i + 2)%nat /\ agk_g1 gk = g1mul C (g1one C) (t i) /\
  agk_g2 gk = g2mul C (g2one C) (t (i + 1)%nat).
Proof.
  replace (i + 1)%nat with (S i) by lia. replace (i + 2)%nat with (S (S i)) by lia.
  unfold aw_setup, draw_g1, draw_g2, rbind, rret, draw. split.
  - intros H. injection H as <- <-. auto.
  - destruct gk. cbn. intros (-> & -> & ->). reflexivity.
Qed.

Theorem aw_authgen_eq (gk : aw_gk C) attrs t i pk msk j :
  aw_authgen gk attrs t i = Ok (Some (pk, msk), j) ->
  j = (i + 2 * length attrs)%nat /\
  length (apk_attr pk) = length attrs /\ length (amsk_attr msk) = length attrs /\
  forall k a, nth_error attrs k = Some a ->
    nth_error (amsk_attr msk) k = Some (upper C a, t (i + 2 * k)%nat, t (i + 2 * k + 1)%nat) /\
    nth_error (apk_attr pk) k = Some (upper C a,
      gtpow C (pairing C (agk_g1 gk) (agk_g2 gk)) (t (i + 2 * k)%nat),
      g2mul C (agk_g2 gk) (t (i + 2 * k + 1)%nat)).
Proof.
  unfold aw_authgen. destruct attrs as [|a0 at0]; [discriminate|].
  set (attrs := a0 :: at0). clearbody attrs. intros H.
  apply rbind_Ok in H as (l & i1 & Hl & H). apply rret_Ok in H as [H <-]. injection H as <- <-.
  apply (rmap_at _ 2) in Hl as (-> & Ll & Nl).
  - cbn [apk_attr amsk_attr]. rewrite !map_length. repeat apply conj; auto.
    intros k a Ha. destruct (Nl k a Ha) as (y & Hy & E). cbv zeta in E.
    apply rbind_Ok in E as (r & k1 & Hr & E). injection Hr as <- <-.
    apply rbind_Ok in E as (r' & k2 & Hr & E). injection Hr as <- <-.
    apply rret_Ok in E as [<- _].
    split; [apply (map_nth_error fst) in Hy|apply (map_nth_error snd) in Hy]; cbn [fst snd] in Hy;
      rewrite Nat.add_1_r; exact Hy.
  - intros x k y m _ E. cbv zeta in E.
    apply rbind_Ok in E as (r & k1 & Hr & E). injection Hr as <- <-.
    apply rbind_Ok in E as (r' & k2 & Hr & E). injection Hr as <- <-.
    apply rret_Ok in E as [_ <-]. lia.
Qed.

(** Key [a] with values [alpha], [y] contributes [g1 alpha + H(gid) y]. *)
Theorem aw_keygen_eq (gk : aw_gk C) msk gid attrs sk :
  aw_keygen gk msk gid attrs = Ok sk ->
  attrs <> [] /\ gid <> EmptyString /\ awsk_gid sk = gid /\
  exists h, hash C gid = Some h /\
  Forall2 (fun a e => exists alpha y, In (a, alpha, y) (amsk_attr msk) /\ a <> EmptyString /\
      e = (upper C a, g1add C (g1mul C (agk_g1 gk) alpha) (g1mul C (g1mul C (agk_g1 gk) h) y)))
    attrs (awsk_attr sk).
Proof.
  unfold aw_keygen. destruct attrs as [|a0 at0]; [discriminate|].
  destruct (seqb gid "") eqn:Eg; [discriminate|]. intros H. split; [discriminate|].
  split; [intros ->; discriminate|].
  assert (X : forall l sk0, awsk_gid sk0 = gid -> ofold (fun sk a => aw_add gk msk a sk) l sk0 = Ok sk ->
    awsk_gid sk = gid /\ (l <> [] -> hash C gid <> None) /\
    exists r, awsk_attr sk = awsk_attr sk0 ++ r /\
      Forall2 (fun a e => exists h alpha y, hash C gid = Some h /\
        In (a, alpha, y) (amsk_attr msk) /\ a <> EmptyString /\
        e = (upper C a, g1add C (g1mul C (agk_g1 gk) alpha) (g1mul C (g1mul C (agk_g1 gk) h) y))) l r).
  { clear H Eg. induction l as [|a l IH]; intros sk0 G H; cbn [ofold] in H.
    - injection H as <-. split; [exact G|]. split; [congruence|]. exists []. rewrite app_nil_r. auto.
    - apply obind_Ok in H as (sk1 & H1 & H). unfold aw_add in H1.
      destruct (seqb a "") eqn:Ea; [discriminate|]. destruct (seqb (awsk_gid sk0) ""); [discriminate|].
      apply obind_Ok in H1 as (hh & Hh & H1). apply obind_Ok in H1 as (b & Hb & H1). injection H1 as <-.
      rewrite G in *. unfold sha3_hash_g1 in Hh. destruct (hash C gid) as [h|] eqn:Eh; [|discriminate].
      injection Hh as <-. destruct (find _ (amsk_attr msk)) as [b'|] eqn:Ef; [|discriminate].
      injection Hb as ->. apply find_some in Ef as [I Ef]. apply seqb_eq in Ef.
      destruct b as [[n al] y]. cbn in Ef. subst n.
      apply IH in H as (G' & _ & r & E & F2); [|reflexivity]. split; [exact G'|]. split; [congruence|].
      exists ((upper C a, g1add C (g1mul C (agk_g1 gk) al) (g1mul C (g1mul C (agk_g1 gk) h) y)) :: r).
      split; [rewrite E; cbn [awsk_attr]; rewrite <- app_assoc; reflexivity|].
      constructor; [|exact F2]. exists h, al, y. repeat apply conj; auto. intros ->. discriminate. }
  apply X in H as (G & Hh & r & E & F2); [|reflexivity]. split; [exact G|].
  destruct (hash C gid) as [h|]; [|exfalso; apply Hh; [discriminate|reflexivity]].
  exists h. split; [reflexivity|]. cbn in E. rewrite E. eapply Forall2_impl; [|exact F2].
  intros a e (h' & al & y & Eh & R). injection Eh as <-. eauto.
Qed.

(** A leaf whose attribute no authority publishes is left out; it still uses up a random value. *)
Theorem aw_encrypt_eq nonce (gk : aw_gk C) pks pol lang data t i ct j f :
  parse pol lang = Ok (tree f) ->
  aw_encrypt nonce gk pks pol lang data t i = Ok (ct, j) ->
  exists sh i' wsh i'' m es, m = gtpow C (pairing C (g1one C) (g2one C)) (t i'') /\
  dealt t f (t i) (i + 1) sh i' /\ dealt t f 0 i' wsh i'' /\
  j = (i'' + 1 + length sh)%nat /\
  awct_policy ct = (pol, lang) /\
  awct_c0 ct = gtmul C m (gtpow C (pairing C (agk_g1 gk) (agk_g2 gk)) (t i)) /\
  encrypt_symmetric nonce m data = Ok (awct_data ct) /\
  awct_c ct = concat es /\ length es = length sh /\
  forall k n x, nth_error sh k = Some (n, x) ->
    (find_pk_attr pks (remove_index (upper C n)) = None /\ nth_error es k = Some []) \/
    (exists a e y w, find_pk_attr pks (remove_index (upper C n)) = Some (a, e, y) /\
       nth_error wsh k = Some (n, w) /\
       nth_error es k = Some [(upper C n,
         gtmul C (gtpow C (pairing C (agk_g1 gk) (agk_g2 gk)) x) (gtpow C e (t (i'' + 1 + k)%nat)),
         g2mul C (agk_g2 gk) (t (i'' + 1 + k)%nat),
         g2add C (g2mul C y (t (i'' + 1 + k)%nat)) (g2mul C (agk_g2 gk) w))]).
Proof.
  intros P H. unfold aw_encrypt in H.
  apply rbind_Ok in H as (v & i3 & Hv & H). apply rlift_Ok in Hv as [Hv <-].
  rewrite P in Hv. injection Hv as <-.
  apply rbind_Ok in H as (msp & i4 & Hm & H). apply rlift_Ok in Hm as [_ <-].
  apply rbind_Ok in H as (r0 & i5 & Hm & H). apply rlift_Ok in Hm as [_ <-].
  apply rbind_Ok in H as (s & i1 & Hs & H). injection Hs as <- <-.
  apply rbind_Ok in H as (sh & i' & Hsh & H). apply shares_dealt in Hsh.
  apply rbind_Ok in H as (wsh & i'' & Hw & H). apply shares_dealt in Hw.
  apply rbind_Ok in H as (msg & i2 & Hm & H).
  unfold draw_gt, rbind, draw, rret in Hm. injection Hm as <- <-.
  apply rbind_Ok in H as (c & i6 & Hc & H).
  apply rbind_Ok in H as (d & i7 & Hd & H). apply rlift_Ok in Hd as [Hd <-].
  apply rret_Ok in H as [<- <-]. cbn [awct_policy awct_c0 awct_c awct_data].
  eexists sh, i', wsh, i'', _, c. split; [reflexivity|]. rewrite Nat.add_1_r.
  apply (rmap_at _ 1) in Hc as (-> & Lc & Nc).
  - rewrite combine_length, seq_length, Nat.min_id in *. repeat apply conj; auto; [lia|].
    intros k n x Hk.
    assert (Hc : nth_error (combine (seq 0 (length sh)) sh) k = Some (k, (n, x))).
    { clear - Hk. assert (X : forall (l : list (string * F)) m q,
        nth_error l q = Some (n, x) -> nth_error (combine (seq m (length l)) l) q = Some ((m + q)%nat, (n, x))).
      { induction l as [|y l IH]; intros m [|q] Hq; cbn in *; try discriminate.
        - injection Hq as ->. now rewrite Nat.add_0_r.
        - rewrite (IH (S m) q Hq). do 2 f_equal. lia. }
      apply (X sh 0%nat k Hk). }
    destruct (Nc k _ Hc) as (y & Hy & E). cbn [fst snd] in E. unfold aw_entry in E.
    replace (S i'' + 1 * k)%nat with (i'' + 1 + k)%nat in E by lia.
    apply rbind_Ok in E as (r & k1 & Hr & E). injection Hr as <- <-. cbn [fst snd] in E.
    destruct (find_pk_attr pks (remove_index (upper C n))) as [[[a e] y']|] eqn:Ef.
    + right. apply rbind_Ok in E as (w & k2 & Hw' & E). apply rlift_Ok in Hw' as [Hw' <-].
      apply rret_Ok in E as [<- _]. destruct w as [n' w].
      destruct (nth_error wsh k) as [w'|] eqn:Ew; [|discriminate]. injection Hw' as ->.
      assert (n' = n) as ->.
      { apply dealt_unique in Hsh as [-> _]. apply dealt_unique in Hw as [-> _].
        apply (map_nth_error fst) in Hk. apply (map_nth_error fst) in Ew.
        rewrite gsh_idents in Hk, Ew. cbn in Hk, Ew. congruence. }
      exists a, e, y', w. auto.
    + left. apply rret_Ok in E as [<- _]. auto.
  - intros x k y m _ E. unfold aw_entry in E.
    apply rbind_Ok in E as (r & k1 & Hr & E). injection Hr as <- <-.
    destruct (find_pk_attr pks (remove_index (upper C (fst (snd x))))) as [a|].
    + apply rbind_Ok in E as (w & k2 & Hw' & E). apply rlift_Ok in Hw' as [Hw' <-].
      apply rret_Ok in E as [_ <-]. lia.
    + apply rret_Ok in E as [_ <-]. lia.
Qed.

(** ** BDABE *)

Theorem bd_setup_eq t i (pk : bd_pk C) msk j :
  bd_setup t i = Ok ((pk, msk), j) <->
  j = (i + 5)%nat /\ bmsk_y msk = t (i + 4)%nat /\
  Bdabe.bpk_g1 pk = g1mul C (g1one C) (t i) /\
  Bdabe.bpk_g2 pk = g2mul C (g2one C) (t (i + 1)%nat) /\
  bpk_p1 pk = g1mul C (g1one C) (t (i + 2)%nat) /\
  bpk_p2 pk = g2mul C (g2one C) (t (i + 3)%nat) /\
  Bdabe.bpk_egg pk = gtpow C (pairing C (Bdabe.bpk_g1 pk) (Bdabe.bpk_g2 pk)) (bmsk_y msk).
Proof.
  replace (i + 1)%nat with (S i) by lia. replace (i + 2)%nat with (S (S i)) by lia.
  replace (i + 3)%nat with (S (S (S i))) by lia. replace (i + 4)%nat with (S (S (S (S i)))) by lia.
  replace (i + 5)%nat with (S (S (S (S (S i))))) by lia.
  unfold bd_setup, draw_g1, draw_g2, rbind, rret, draw. split.
  - intros H. injection H as <- <- <-. cbn. repeat apply conj; reflexivity.
  - destruct pk, msk. cbn. intros (-> & -> & -> & -> & -> & -> & ->). reflexivity.
Qed.

Theorem bd_authgen_eq (pk : bd_pk C) msk name t i au j :
  bd_authgen pk msk name t i = Ok (au, j) <->
  j = (i + 2)%nat /\ bau_name au = name /\
  bau_a1 au = g1mul C (Bdabe.bpk_g1 pk) (t i) /\
  bau_a2 au = g2mul C (Bdabe.bpk_g2 pk) (bmsk_y msk - t i) /\
  bau_a3 au = t (i + 1)%nat.
Proof.
  replace (i + 1)%nat with (S i) by lia. replace (i + 2)%nat with (S (S i)) by lia.
  unfold bd_authgen, rbind, rret, draw. split.
  - intros H. injection H as <- <-. cbn. auto.
  - destruct au. cbn. intros (-> & -> & -> & -> & ->). reflexivity.
Qed.

Theorem bd_keygen_eq (pk : bd_pk C) au name t i uk j :
  bd_keygen pk au name t i = Ok (uk, j) <->
  j = (i + 1)%nat /\ buk_ska uk = [] /\ bupk_u (buk_pk uk) = name /\
  busk_u1 (buk_sk uk) = g1add C (bau_a1 au) (g1mul C (bpk_p1 pk) (t i)) /\
  busk_u2 (buk_sk uk) = g2add C (bau_a2 au) (g2mul C (bpk_p2 pk) (t i)) /\
  bupk_u1 (buk_pk uk) = g1mul C (Bdabe.bpk_g1 pk) (t i) /\
  bupk_u2 (buk_pk uk) = g2mul C (Bdabe.bpk_g2 pk) (t i).
Proof.
  rewrite Nat.add_1_r. unfold bd_keygen, rbind, rret, draw. split.
  - intros H. injection H as <- <-. cbn. repeat apply conj; reflexivity.
  - destruct uk as [[u1 u2] [n v1 v2] a]. cbn. intros (-> & -> & -> & -> & -> & -> & ->). reflexivity.
Qed.

Theorem bd_encrypt_eq nonce (pk : bd_pk C) apks pol lang data t i ct j :
  bd_encrypt nonce pk apks pol lang data t i = Ok (ct, j) ->
  exists v terms m, parse pol lang = Ok v /\ policy_in_dnf v false None = true /\
  json_to_dnf v (map bd_pak apks) = Ok terms /\
  m = pairing C (g1mul C (g1one C) (t i)) (g2mul C (g2one C) (t (i + 1)%nat)) /\
  j = (i + 2 + length terms)%nat /\
  Bdabe.bct_policy ct = (pol, lang) /\
  encrypt_symmetric nonce m data = Ok (Bdabe.bct_data ct) /\
  length (bct_j ct) = length terms /\
  forall k tm, nth_error terms k = Some tm -> nth_error (bct_j ct) k = Some
    (BdTuple (tm_attrs tm) (gtmul C (gtpow C (tm_gt1 tm) (t (i + 2 + k)%nat)) m)
       (g1mul C (bpk_p1 pk) (t (i + 2 + k)%nat)) (g2mul C (bpk_p2 pk) (t (i + 2 + k)%nat))
       (g1mul C (tm_g1 tm) (t (i + 2 + k)%nat)) (g2mul C (tm_g2 tm) (t (i + 2 + k)%nat))).
Proof.
  unfold bd_encrypt. intros H.
  apply rbind_Ok in H as (v & i1 & Hv & H). apply rlift_Ok in Hv as [Hv <-]. rewrite Hv in H.
  destruct (policy_in_dnf v false None) eqn:Ed; [|discriminate].
  apply rbind_Ok in H as (T & i2 & HT & H). apply rlift_Ok in HT as [HT <-]. cbn [obind] in HT.
  destruct (json_to_dnf v (map bd_pak apks)) as [T'| |] eqn:ET; try discriminate. injection HT as ->.
  apply rbind_Ok in H as (m1 & i3 & Hm & H).
  unfold draw_g1, rbind, draw, rret in Hm. injection Hm as <- <-.
  apply rbind_Ok in H as (m2 & i3 & Hm & H).
  unfold draw_g2, rbind, draw, rret in Hm. injection Hm as <- <-.
  apply rbind_Ok in H as (l & i4 & Hl & H).
  apply rbind_Ok in H as (d & i7 & Hd & H). apply rlift_Ok in Hd as [Hd <-].
  apply rret_Ok in H as [<- <-]. cbn [Bdabe.bct_policy Bdabe.bct_data bct_j].
  eexists v, T, _. rewrite (Nat.add_1_r i).
  apply (rmap_at _ 1) in Hl as (-> & Ll & Nl).
  - repeat apply conj; try reflexivity; auto; [lia|].
    intros k tm Hk. destruct (Nl k tm Hk) as (y & Hy & E). unfold bd_tuple_of in E.
    replace (S (S i) + 1 * k)%nat with (i + 2 + k)%nat in E by lia.
    apply rbind_Ok in E as (r & k1 & Hr & E). injection Hr as <- <-.
    apply rret_Ok in E as [<- _]. exact Hy.
  - intros x k y m _ E. unfold bd_tuple_of in E.
    apply rbind_Ok in E as (r & k1 & Hr & E). injection Hr as <- <-. apply rret_Ok in E as [_ <-]. lia.
Qed.

(** ** MKE08 *)

Theorem mk_setup_eq t i (pk : mk_pk C) msk j :
  mk_setup t i = Ok ((pk, msk), j) <->
  j = (i + 6)%nat /\
  mpk_g1 pk = g1mul C (g1one C) (t i) /\ mpk_g2 pk = g2mul C (g2one C) (t (i + 1)%nat) /\
  mpk_p1 pk = g1mul C (g1one C) (t (i + 2)%nat) /\ mpk_p2 pk = g2mul C (g2one C) (t (i + 3)%nat) /\
  mpk_egg1 pk = gtpow C (pairing C (mpk_g1 pk) (mpk_g2 pk)) (t (i + 4)%nat) /\
  mpk_egg2 pk = gtpow C (pairing C (mpk_g1 pk) (mpk_g2 pk)) (t (i + 5)%nat) /\
  mmsk_g1 msk = g1mul C (mpk_g1 pk) (t (i + 4)%nat) /\
  mmsk_g2 msk = g2mul C (mpk_g2 pk) (t (i + 5)%nat).
Proof.
  replace (i + 1)%nat with (S i) by lia. replace (i + 2)%nat with (S (S i)) by lia.
  replace (i + 3)%nat with (S (S (S i))) by lia. replace (i + 4)%nat with (S (S (S (S i)))) by lia.
  replace (i + 5)%nat with (S (S (S (S (S i))))) by lia.
  replace (i + 6)%nat with (S (S (S (S (S (S i)))))) by lia.
  unfold mk_setup, draw_g1, draw_g2, rbind, rret, draw. split.
  - intros H. injection H as <- <- <-. cbn. repeat apply conj; reflexivity.
  - destruct pk, msk. cbn. intros (-> & -> & -> & -> & -> & -> & -> & -> & ->). reflexivity.
Qed.

Theorem mk_authgen_eq name (t : nat -> F) i au j :
  mk_authgen (C := C) name t i = Ok (au, j) <-> j = (i + 1)%nat /\ mau_name au = name /\ mau_r au = t i.
Proof.
  rewrite Nat.add_1_r. unfold mk_authgen, rbind, rret, draw. split.
  - intros H. injection H as <- <-. auto.
  - destruct au. cbn. intros (-> & -> & ->). reflexivity.
Qed.

Theorem mk_keygen_eq (pk : mk_pk C) msk name t i uk j :
  mk_keygen pk msk name t i = Ok (uk, j) <->
  j = (i + 1)%nat /\ muk_ska uk = [] /\ mupk_name (muk_pk uk) = name /\
  musk_g1 (muk_sk uk) = g1add C (mmsk_g1 msk) (g1mul C (mpk_p1 pk) (t i)) /\
  musk_g2 (muk_sk uk) = g2add C (mmsk_g2 msk) (g2mul C (mpk_p2 pk) (t i)) /\
  mupk_g1 (muk_pk uk) = g1mul C (mpk_g1 pk) (t i) /\
  mupk_g2 (muk_pk uk) = g2mul C (mpk_g2 pk) (t i).
Proof.
  rewrite Nat.add_1_r. unfold mk_keygen, rbind, rret, draw. split.
  - intros H. injection H as <- <-. cbn. repeat apply conj; reflexivity.
  - destruct uk as [[u1 u2] [n v1 v2] a]. cbn. intros (-> & -> & -> & -> & -> & -> & ->). reflexivity.
Qed.

Theorem mk_encrypt_eq nonce (pk : mk_pk C) apks pol lang data t i ct j :
  mk_encrypt nonce pk apks pol lang data t i = Ok (ct, j) ->
  exists v terms m1 m2, parse pol lang = Ok v /\ policy_in_dnf v false None = true /\
  json_to_dnf v (map mk_pak apks) = Ok terms /\
  m1 = pairing C (g1mul C (g1one C) (t i)) (g2mul C (g2one C) (t (i + 1)%nat)) /\
  m2 = gtpow C m1 (t (i + 2)%nat) /\
  j = (i + 3 + length terms)%nat /\
  mct_policy ct = (pol, lang) /\
  encrypt_symmetric nonce (gtmul C m1 m2) data = Ok (mct_data ct) /\
  length (mct_e ct) = length terms /\
  forall k tm, nth_error terms k = Some tm -> nth_error (mct_e ct) k = Some
    (MkConj (tm_attrs tm)
       (gtmul C (gtpow C (tm_gt1 tm) (t (i + 3 + k)%nat)) m1)
       (gtmul C (gtpow C (tm_gt2 tm) (t (i + 3 + k)%nat)) m2)
       (g1mul C (mpk_p1 pk) (t (i + 3 + k)%nat)) (g2mul C (mpk_p2 pk) (t (i + 3 + k)%nat))
       (g1mul C (tm_g1 tm) (t (i + 3 + k)%nat)) (g2mul C (tm_g2 tm) (t (i + 3 + k)%nat))).
Proof.
  unfold mk_encrypt. intros H.
  apply rbind_Ok in H as (v & i1 & Hv & H). apply rlift_Ok in Hv as [Hv <-]. rewrite Hv in H.
  destruct (policy_in_dnf v false None) eqn:Ed; [|discriminate].
  apply rbind_Ok in H as (T & i2 & HT & H). apply rlift_Ok in HT as [HT <-]. cbn [obind] in HT.
  destruct (json_to_dnf v (map mk_pak apks)) as [T'| |] eqn:ET; try discriminate. injection HT as ->.
  apply rbind_Ok in H as (m1 & i3 & Hm & H).
  unfold draw_g1, rbind, draw, rret in Hm. injection Hm as <- <-.
  apply rbind_Ok in H as (m2 & i3 & Hm & H).
  unfold draw_g2, rbind, draw, rret in Hm. injection Hm as <- <-.
  apply rbind_Ok in H as (x & i3 & Hm & H). injection Hm as <- <-.
  apply rbind_Ok in H as (l & i4 & Hl & H).
  apply rbind_Ok in H as (d & i7 & Hd & H). apply rlift_Ok in Hd as [Hd <-].
  apply rret_Ok in H as [<- <-]. cbn [mct_policy mct_data mct_e].
  eexists v, T, _, _. rewrite (Nat.add_1_r i). replace (i + 2)%nat with (S (S i)) by lia.
  apply (rmap_at _ 1) in Hl as (-> & Ll & Nl).
  - repeat apply conj; try reflexivity; auto; [lia|].
    intros k tm Hk. destruct (Nl k tm Hk) as (y & Hy & E). unfold mk_conj_of in E.
    replace (S (S (S i)) + 1 * k)%nat with (i + 3 + k)%nat in E by lia.
    apply rbind_Ok in E as (r & k1 & Hr & E). injection Hr as <- <-.
    apply rret_Ok in E as [<- _]. exact Hy.
  - intros x k y m _ E. unfold mk_conj_of in E.
    apply rbind_Ok in E as (r & k1 & Hr & E). injection Hr as <- <-. apply rret_Ok in E as [_ <-]. lia.
Qed.

End EquationProofs.
