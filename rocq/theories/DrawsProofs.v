(** * DrawsProofs: how much randomness each operation takes *)
From Coq Require Import String List Bool Arith Permutation Lia.
From Verif Require Import Base Crypto Policy Tools Sharing Spec PolicyProofs SharingProofs Parse Symmetric Msp MspProofs
  SchemeLib Dnf Bdabe Mke08 Bsw Ghw11 Lsw Yct14 Ac17 Ac17Proofs AcExactProofs Aw11 Draws.
Import ListNotations.

Section General.
Context {F : Type}.

Lemma takes_ret {A} (x : A) : takes (F := F) (rret x) 0.
Proof. intros t i t' i' _. cbn. split; [lia|]. unfold rret. now rewrite Nat.add_0_r. Qed.

Lemma takes_err {A} n : takes (F := F) (A := A) rerr n.
Proof. intros t i t' i' _. reflexivity. Qed.

Lemma takes_panic {A} n : takes (F := F) (A := A) rpanic n.
Proof. intros t i t' i' _. reflexivity. Qed.

Lemma takes_draw : takes (F := F) draw 1.
Proof.
  intros t i t' i' H. cbn. split; [lia|]. unfold draw. specialize (H 0 (Nat.lt_0_1)).
  rewrite !Nat.add_0_r in H. rewrite H. do 2 f_equal. lia.
Qed.

Lemma takes_lift {A} (o : outcome A) : takes (F := F) (rlift o) 0.
Proof.
  intros t i t' i' _. unfold rlift. destruct o; try reflexivity. split; [lia|]. now rewrite Nat.add_0_r.
Qed.

Lemma takes_bind_dep {A B} (m : rand F A) (k : A -> rand F B) n n' :
  takes m n -> (forall a t i j, m t i = Ok (a, j) -> takes (k a) n') -> takes (rbind m k) (n + n').
Proof.
  intros M K t i t' i' H. unfold rbind.
  pose proof (M t i t' i' (fun k Hk => H k (Nat.lt_lt_add_r _ _ _ Hk))) as E.
  destruct (m t i) as [[a j]| |] eqn:Em; [|now rewrite E|now rewrite E].
  destruct E as [-> ->].
  pose proof (K a t i _ Em t (i + n) t' (i' + n)) as E.
  rewrite !Nat.add_assoc. apply E. intros q Hq. rewrite <- !Nat.add_assoc. apply H. lia.
Qed.

Lemma takes_bind {A B} (m : rand F A) (k : A -> rand F B) n n' :
  takes m n -> (forall a, takes (k a) n') -> takes (rbind m k) (n + n').
Proof. intros M K. apply takes_bind_dep; auto. Qed.

Lemma takes_known {A B} (o : outcome A) (k : A -> rand F B) n :
  (forall a, o = Ok a -> takes (k a) n) -> takes (rbind (rlift o) k) n.
Proof.
  intros K. apply (takes_bind_dep _ _ 0 n (takes_lift o)). intros a t i j E.
  apply rlift_Ok in E as [E _]. auto.
Qed.

Lemma takes_map {A B} (f : A -> rand F B) n l : (forall a, In a l -> takes (f a) n) -> takes (rmap f l) (n * length l).
Proof.
  induction l as [|a l IH]; intros H; cbn [rmap length]; [rewrite Nat.mul_0_r; apply takes_ret|].
  replace (n * S (length l)) with (n + (n * length l + 0)) by lia.
  apply takes_bind; [apply H; now left|]. intros y. apply takes_bind; [apply IH; intros b Hb; apply H; now right|].
  intros ys. apply takes_ret.
Qed.

Lemma takes_draws n : takes (F := F) (draws n) n.
Proof.
  induction n as [|n IH]; [apply takes_ret|]. change (S n) with (1 + n) at 2. rewrite <- (Nat.add_0_r n) at 2.
  cbn [draws]. apply takes_bind; [apply takes_draw|]. intros x. apply takes_bind; [exact IH|]. intros xs. apply takes_ret.
Qed.

Lemma takes_eq {A} (m : rand F A) n n' : takes m n -> n = n' -> takes m n'.
Proof. now intros H <-. Qed.

Lemma takes_if {A} (b : bool) (m m' : rand F A) n : (b = true -> takes m n) -> (b = false -> takes m' n) -> takes (if b then m else m') n.
Proof. destruct b; auto. Qed.

End General.

Ltac step n := apply (takes_bind _ _ n); [|intros ?].

Section Schemes.
Context {C : crypto}.

Lemma takes_g1 : takes (@draw_g1 C) 1.
Proof. unfold draw_g1. apply (takes_bind _ _ 1 0); [apply takes_draw|]. intros x. apply takes_ret. Qed.
Lemma takes_g2 : takes (@draw_g2 C) 1.
Proof. unfold draw_g2. apply (takes_bind _ _ 1 0); [apply takes_draw|]. intros x. apply takes_ret. Qed.
Lemma takes_gt : takes (@draw_gt C) 1.
Proof. unfold draw_gt. apply (takes_bind _ _ 1 0); [apply takes_draw|]. intros x. apply takes_ret. Qed.
End Schemes.

(** The count of a goal is found on the way ([?n]) and compared at the end. *)
Ltac count := repeat first
  [ apply takes_ret | apply takes_draw | apply takes_g1 | apply takes_g2 | apply takes_gt | apply takes_lift
  | apply takes_draws | eapply takes_bind; [|intros ?] | eapply takes_map; intros ? ?
  | match goal with |- takes (let '(_, _) := ?p in _) _ => destruct p end ].

Section Counts.
Context {C : crypto} (L : laws C).

Lemma coins_nd f : coins f = nd f.
Proof. reflexivity. Qed.

(** Sharing at another place of another tape. *)
Lemma gsh_at f : forall (s : F C) t t' i i',
  (forall k, k < nd f -> t' (i' + k) = t (i + k)) -> gsh f s t' i' = gsh f s t i.
Proof.
  assert (Q : forall (t t' : nat -> F C) n i i', (forall k, k < n -> t' (i' + k) = t (i + k)) ->
            map t' (seq i' n) = map t (seq i n)).
  { intros t t'. induction n as [|n IHn]; intros i i' H; [reflexivity|]. cbn. f_equal.
    - specialize (H 0 ltac:(lia)). now rewrite !Nat.add_0_r in H.
    - apply IHn. intros k Hk. specialize (H (S k) ltac:(lia)). now rewrite <- !plus_n_Sm in H. }
  induction f as [n p|l IH|l IH] using formula_ind'; intros s t t' i i' H.
  - reflexivity.
  - rewrite !gsh_FAnd. cbn [nd] in H. rewrite (Q t t' _ i i') by (intros k Hk; apply H; lia).
    generalize (s :: map t (seq i (length l - 1))). intros a.
    assert (H' : forall k, k < list_sum (map nd l) ->
              t' (i' + (length l - 1) + k) = t (i + (length l - 1) + k)).
    { intros k Hk. rewrite <- !Nat.add_assoc. apply H. lia. }
    clear H. revert H'. generalize (i + (length l - 1)), (i' + (length l - 1)). generalize 1. clear i i'.
    induction IH as [|g l Hg _ IHl]; intros x i i' H; [reflexivity|]. cbn [gsh_and]. cbn [map] in H. rewrite lsum_cons in H. f_equal.
    + apply Hg. intros k Hk. apply H. lia.
    + apply IHl. intros k Hk. rewrite <- !Nat.add_assoc. apply H. lia.
  - rewrite !gsh_FOr. cbn [nd] in H. revert i i' H.
    induction IH as [|g l Hg _ IHl]; intros i i' H; [reflexivity|]. cbn [gsh_or]. cbn [map] in H. rewrite lsum_cons in H. f_equal.
    + apply Hg. intros k Hk. apply H. lia.
    + apply IHl. intros k Hk. rewrite <- !Nat.add_assoc. apply H. lia.
Qed.

Lemma takes_shares f (s : F C) ty : takes (gen_shares_policy s (tree f) ty) (coins f).
Proof.
  intros t i t' i' H. rewrite coins_nd in *. rewrite !(gen_shares_policy_eq L). split; [reflexivity|].
  now rewrite (gsh_at f s t t' i i' H).
Qed.

Lemma shares_count f (s : F C) ty t i sh j : gen_shares_policy s (tree f) ty t i = Ok (sh, j) -> length sh = length (leaves f).
Proof.
  rewrite (gen_shares_policy_eq L). intros E. injection E as <- _. rewrite <- (map_length fst), gsh_idents.
  unfold idents. apply map_length.
Qed.

(** ** BSW *)

Lemma bsw_setup_takes : takes (@bsw_setup C) 4.
Proof. eapply takes_eq; [unfold bsw_setup; count|reflexivity]. Qed.

Lemma bsw_keygen_takes pk msk a l : takes (@bsw_keygen C pk msk (a :: l)) (1 + length (a :: l)).
Proof. eapply takes_eq; [unfold bsw_keygen; count|cbn [length]; lia]. Qed.

Lemma bsw_delegate_takes pk sk a l : is_subset (a :: l) (map b_string (bsk_dj sk)) = true ->
  takes (@bsw_delegate C pk sk (a :: l)) (1 + length (a :: l)).
Proof. intros E. unfold bsw_delegate. rewrite E. eapply takes_eq; [cbn [negb]; count|cbn [length]; lia]. Qed.

Lemma bsw_encrypt_takes nonce pk pol lang data f : parse pol lang = Ok (tree f) ->
  takes (@bsw_encrypt C nonce pk pol lang data) (2 + coins f).
Proof.
  intros P. unfold bsw_encrypt. eapply takes_eq.
  - eapply takes_bind; [count|intros ?]. eapply takes_bind; [count|intros ?].
    apply takes_known. intros v E. rewrite P in E. injection E as <-.
    eapply takes_bind; [apply takes_shares|intros ?]. count.
  - lia.
Qed.

(** ** GHW11 *)

Lemma ghw_setup_takes : takes (@ghw_setup C) 4.
Proof. eapply takes_eq; [unfold ghw_setup; count|reflexivity]. Qed.

Lemma ghw_keygen_takes pk msk a l : takes (@ghw_keygen C pk msk (a :: l)) 1.
Proof. eapply takes_eq; [unfold ghw_keygen; count|reflexivity]. Qed.

Lemma ghw_tkgen_takes sk : takes (@ghw_tkgen C sk) 1.
Proof. eapply takes_eq; [unfold ghw_tkgen; count|reflexivity]. Qed.

Lemma ghw_encrypt_takes nonce pk pol lang data f : parse pol lang = Ok (tree f) ->
  takes (@ghw_encrypt C nonce pk pol lang data) (2 + coins f + length (leaves f)).
Proof.
  intros P. unfold ghw_encrypt. eapply takes_eq.
  - eapply takes_bind; [count|intros ?]. eapply takes_bind; [count|intros ?].
    apply takes_known. intros v E. rewrite P in E. injection E as <-.
    eapply takes_bind_dep; [apply takes_shares|]. intros sh t i j E.
    eapply takes_eq with (n := 1 * length sh + 0); [|rewrite (shares_count _ _ _ _ _ _ _ E); reflexivity].
    apply takes_bind; [|intros ?; apply takes_known; intros ? _; apply takes_ret].
    apply takes_map. intros x _. apply (takes_bind _ _ 1 0); [apply takes_draw|]. intros r.
    apply takes_known. intros h _. apply takes_ret.
  - lia.
Qed.

(** ** LSW *)

Lemma lsw_setup_takes : takes (@lsw_setup C) 7.
Proof. eapply takes_eq; [unfold lsw_setup; count|reflexivity]. Qed.

Lemma lsw_keygen_takes pk msk pol lang f : parse pol lang = Ok (tree f) ->
  takes (@lsw_keygen C pk msk pol lang) (coins f + length (leaves f)).
Proof.
  intros P. unfold lsw_keygen. apply takes_known. intros v E. rewrite P in E. injection E as <-.
  eapply takes_bind_dep; [apply takes_shares|]. intros sh t i j E.
  eapply takes_eq with (n := 1 * length sh + 0); [|rewrite (shares_count _ _ _ _ _ _ _ E); lia].
  eapply takes_bind; [|intros ?; apply takes_ret]. apply takes_map. intros x _. cbv zeta.
  apply (takes_bind _ _ 1 0); [apply takes_draw|]. intros r. apply takes_known. intros b _.
  destruct b; apply takes_known; intros h _; apply takes_ret.
Qed.

Lemma lsw_sx_takes l : forall i (sx : list (F C)), takes (lsw_sx i l sx) (length l).
Proof.
  induction l as [|a l IH]; intros i sx; [apply takes_ret|]. cbn [lsw_sx length].
  apply (takes_bind _ _ 1 (length l)); [apply takes_draw|]. intros x. apply IH.
Qed.

Lemma lsw_encrypt_takes nonce pk a l data : data <> ""%string ->
  takes (@lsw_encrypt C nonce pk (a :: l) data) (2 + length (a :: l)).
Proof.
  intros D. destruct data as [|c data]; [congruence|]. unfold lsw_encrypt. eapply takes_eq.
  - eapply takes_bind; [count|intros ?]. eapply takes_bind; [apply lsw_sx_takes|intros ?]. count.
  - lia.
Qed.

(** ** YCT14 *)

Lemma yct_setup_takes l : takes (@yct_setup C l) (2 + length l).
Proof. eapply takes_eq; [unfold yct_setup, yct_new; count|lia]. Qed.

Lemma yct_keygen_takes msk pol lang f : parse pol lang = Ok (tree f) -> takes (@yct_keygen C msk pol lang) (coins f).
Proof.
  intros P. unfold yct_keygen. apply takes_known. intros v E. rewrite P in E. injection E as <-.
  eapply takes_eq; [eapply takes_bind; [apply takes_shares|intros ?]; count|lia].
Qed.

Lemma yct_encrypt_takes nonce pk a l data : data <> ""%string -> takes (@yct_encrypt C nonce pk (a :: l) data) 1.
Proof. intros D. destruct data as [|c data]; [congruence|]. eapply takes_eq; [unfold yct_encrypt; count|reflexivity]. Qed.

(** ** AC17 *)

Lemma ac_setup_takes : takes (@ac_setup C) 9.
Proof. eapply takes_eq; [unfold ac_setup; count|reflexivity]. Qed.

Lemma draw_br_takes msk : takes (@draw_br C msk) 2.
Proof. eapply takes_eq; [unfold draw_br; count|reflexivity]. Qed.

Lemma draw_s_takes pk : takes (@draw_s C pk) 2.
Proof. eapply takes_eq; [unfold draw_s; count|reflexivity]. Qed.

Lemma cp_keygen_takes msk a l : takes (@cp_keygen C msk (a :: l)) (3 + length (a :: l)).
Proof.
  unfold cp_keygen. eapply takes_eq; [eapply takes_bind; [apply draw_br_takes|intros ?]; count|cbn [length]; lia].
Qed.

Lemma cp_encrypt_takes nonce pk pol lang data :
  takes (@cp_encrypt C nonce pk pol data lang) 3.
Proof.
  unfold cp_encrypt. eapply takes_eq.
  - do 3 (eapply takes_bind; [apply takes_lift|intros ?]). cbv zeta.
    eapply takes_bind; [apply draw_s_takes|intros [s c0]]. count.
  - reflexivity.
Qed.

Lemma width_coins f : binary_and f = true -> msp_width f = 1 + coins f.
Proof.
  unfold msp_width. intros B. enough (H : forall v c, snd (lwr f v c) = c + coins f) by (rewrite H; reflexivity).
  revert B. induction f as [n p|l IH|l IH] using formula_ind'; intros B v c; cbn [binary_and] in B.
  - cbn. lia.
  - apply andb_prop in B as [Ln B]. destruct l as [|a [|b [|x l]]]; try discriminate.
    inversion_clear IH as [|? ? Ha IH']. inversion_clear IH' as [|? ? Hb _]. cbn [forallb] in B.
    apply andb_prop in B as [Ba B]. apply andb_prop in B as [Bb _].
    cbn [lwr snd]. rewrite (Hb Bb), (Ha Ba). cbn. lia.
  - apply andb_prop in B as [_ B]. cbn [coins].
    change (snd (lwr (FOr l) v c)) with (snd (lwr_or v l c)). revert c.
    induction IH as [|g l Hg _ IHl]; intros c; [cbn; lia|]. cbn [forallb] in B. apply andb_prop in B as [Bg B].
    cbn [lwr_or snd map]. fold (lwr_or v l (snd (lwr g v c))). rewrite (IHl B), (Hg Bg), lsum_cons. lia.
Qed.

Lemma rows_leaves f : binary_and f = true -> length (msp_rows f) = length (leaves f).
Proof.
  unfold msp_rows. intros B. rewrite map_length.
  enough (H : forall v c, length (fst (lwr f v c)) = length (leaves f)) by apply H.
  revert B. induction f as [n p|l IH|l IH] using formula_ind'; intros B v c; cbn [binary_and] in B.
  - reflexivity.
  - apply andb_prop in B as [Ln B]. destruct l as [|a [|b [|x l]]]; try discriminate.
    inversion_clear IH as [|? ? Ha IH']. inversion_clear IH' as [|? ? Hb _]. cbn [forallb] in B.
    apply andb_prop in B as [Ba B]. apply andb_prop in B as [Bb _].
    cbn [lwr fst leaves flat_map]. rewrite !app_length, (Hb Bb), (Ha Ba). cbn. lia.
  - apply andb_prop in B as [_ B].
    change (fst (lwr (FOr l) v c)) with (fst (lwr_or v l c)). revert c. cbn [leaves].
    induction IH as [|g l Hg _ IHl]; intros c; [reflexivity|]. cbn [forallb] in B. apply andb_prop in B as [Bg B].
    cbn [lwr_or fst flat_map]. fold (lwr_or v l (snd (lwr g v c))). rewrite !app_length, (IHl B), (Hg Bg). reflexivity.
Qed.

Lemma kp_keygen_takes msk pol lang f : parse pol lang = Ok (tree f) ->
  takes (@kp_keygen C msk pol lang) (2 + coins f + length (leaves f)).
Proof.
  intros P. unfold kp_keygen. apply takes_known. intros v E. rewrite P in E. injection E as <-.
  apply takes_known. intros m E. assert (M : calculate_msp (tree f) = Ok m).
  { destruct (calculate_msp (tree f)); cbn in E; congruence. } clear E.
  destruct (matrix_eq f m M) as [B _]. rewrite (calculate_msp_eq f B) in M. injection M as <-.
  assert (LR : length (sort_rows (rev (msp_rows f))) = length (leaves f)).
  { rewrite <- (rows_leaves f B), <- (rev_length (msp_rows f)). symmetry. apply Permutation_length, sort_rows_perm. }
  cbn [msp_m msp_pi]. rewrite map_length, LR. apply takes_known. intros row0 E. cbv zeta.
  assert (W : length row0 = msp_width f).
  { unfold idx in E. destruct (nth_error _ _) as [r|] eqn:N in E; [|discriminate]. cbn in E. injection E as <-.
    apply nth_error_In in N. apply in_map_iff in N as (x & <- & N). apply msp_rows_length. apply in_rev.
    eapply Permutation_in; [symmetry; apply sort_rows_perm|exact N]. }
  rewrite W, (width_coins f B), Nat.add_comm, Nat.add_sub.
  eapply takes_eq.
  - eapply takes_bind; [apply draw_br_takes|intros ?]. eapply takes_bind; [apply takes_lift|intros ?].
    eapply takes_bind; [apply takes_draws|intros ?]. eapply takes_bind; [apply (takes_map _ 1)|intros ?; apply takes_ret].
    intros x _. do 2 (apply takes_known; intros ? _). apply (takes_bind _ _ 1 0); [apply takes_draw|intros ?].
    do 2 (apply takes_known; intros ? _). apply takes_ret.
  - rewrite seq_length. lia.
Qed.

Lemma kp_encrypt_takes nonce pk l data : takes (@kp_encrypt C nonce pk l data) 3.
Proof.
  unfold kp_encrypt. eapply takes_eq; [eapply takes_bind; [apply draw_s_takes|intros [s c0]]; count|reflexivity].
Qed.

(** ** AW11 *)

Lemma aw_setup_takes : takes (@aw_setup C) 2.
Proof. eapply takes_eq; [unfold aw_setup; count|reflexivity]. Qed.

Lemma aw_authgen_takes gk l : takes (@aw_authgen C gk l) (2 * length l).
Proof.
  destruct l as [|a l]; [apply takes_ret|]. unfold aw_authgen. eapply takes_eq; [count|cbn [length]; lia].
Qed.

Lemma aw_encrypt_takes nonce gk pks pol lang data f : parse pol lang = Ok (tree f) ->
  takes (@aw_encrypt C nonce gk pks pol lang data) (2 + 2 * coins f + length (leaves f)).
Proof.
  intros P. unfold aw_encrypt. apply takes_known. intros v E. rewrite P in E. injection E as <-.
  do 2 (apply takes_known; intros ? _). eapply takes_eq.
  - eapply takes_bind; [apply takes_draw|intros s]. eapply takes_bind_dep; [apply takes_shares|]. intros sh t i j E.
    eapply takes_eq with (n := coins f + (1 + (1 * length (combine (seq 0 (length sh)) sh) + 0))).
    + apply takes_bind; [apply takes_shares|intros w]. apply takes_bind; [apply takes_gt|intros m].
      apply takes_bind; [|intros ?; apply takes_known; intros ? _; apply takes_ret].
      apply takes_map. intros [k x] _. unfold aw_entry. apply (takes_bind _ _ 1 0); [apply takes_draw|intros r].
      destruct (find_pk_attr _ _) as [pa|]; [|apply takes_ret]. apply takes_known. intros ? _. apply takes_ret.
    + rewrite combine_length, seq_length, Nat.min_id, (shares_count _ _ _ _ _ _ _ E). reflexivity.
  - lia.
Qed.

(** ** BDABE and MKE08 *)

Lemma bd_setup_takes : takes (@bd_setup C) 5.
Proof. eapply takes_eq; [unfold bd_setup; count|reflexivity]. Qed.
Lemma bd_authgen_takes pk msk n : takes (@bd_authgen C pk msk n) 2.
Proof. eapply takes_eq; [unfold bd_authgen; count|reflexivity]. Qed.
Lemma bd_keygen_takes pk au n : takes (@bd_keygen C pk au n) 1.
Proof. eapply takes_eq; [unfold bd_keygen; count|reflexivity]. Qed.
Lemma bd_encrypt_takes nonce pk pks pol lang data v T : parse pol lang = Ok v ->
  json_to_dnf v (map bd_pak pks) = Ok T -> takes (@bd_encrypt C nonce pk pks pol lang data) (2 + length T).
Proof.
  intros P D. unfold bd_encrypt. apply takes_known. intros w E. rewrite P in E. injection E as <-.
  apply takes_if; intros _; [|apply takes_err]. rewrite P. cbn [obind]. rewrite D. apply takes_known. intros T' E.
  injection E as <-. unfold bd_tuple_of. eapply takes_eq; [count|lia].
Qed.

Lemma mk_setup_takes : takes (@mk_setup C) 6.
Proof. eapply takes_eq; [unfold mk_setup; count|reflexivity]. Qed.
Lemma mk_authgen_takes n : takes (@mk_authgen C n) 1.
Proof. eapply takes_eq; [unfold mk_authgen; count|reflexivity]. Qed.
Lemma mk_keygen_takes pk msk n : takes (@mk_keygen C pk msk n) 1.
Proof. eapply takes_eq; [unfold mk_keygen; count|reflexivity]. Qed.
Lemma mk_encrypt_takes nonce pk pks pol lang data v T : parse pol lang = Ok v ->
  json_to_dnf v (map mk_pak pks) = Ok T -> takes (@mk_encrypt C nonce pk pks pol lang data) (3 + length T).
Proof.
  intros P D. unfold mk_encrypt. apply takes_known. intros w E. rewrite P in E. injection E as <-.
  apply takes_if; intros _; [|apply takes_err]. rewrite P. cbn [obind]. rewrite D. apply takes_known. intros T' E.
  injection E as <-. unfold mk_conj_of. eapply takes_eq; [count|lia].
Qed.

End Counts.

(** What is refused at once takes nothing. *)
Lemma refused_take (C : crypto) (t : nat -> F C) i nonce data :
  (forall pk msk, bsw_keygen (C := C) pk msk [] t i = Ok (None, i)) /\
  (forall pk sk l, is_subset l (map b_string (bsk_dj sk)) = false -> bsw_delegate (C := C) pk sk l t i = Ok (None, i)) /\
  (forall pk msk, ghw_keygen (C := C) pk msk [] t i = Ok (None, i)) /\
  (forall gk, aw_authgen (C := C) gk [] t i = Ok (None, i)) /\
  (forall pk, lsw_encrypt (C := C) nonce pk [] data t i = Err) /\
  (forall pk, yct_encrypt (C := C) nonce pk [] data t i = Err) /\
  (forall msk, cp_keygen (C := C) msk [] t i = Err).
Proof.
  repeat apply conj; try reflexivity. intros pk sk l E. unfold bsw_delegate. rewrite E. reflexivity.
Qed.
