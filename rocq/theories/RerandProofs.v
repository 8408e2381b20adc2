(** * RerandProofs: anyone can turn a BSW ciphertext into another one of the same message *)
From Coq Require Import String Ascii List Bool Arith Lia Field.
From Verif Require Import Base Crypto Policy Tools Sharing Spec PolicyProofs Poly SharingProofs
  Symmetric Parse SchemeLib Bsw BswProofs EquationProofs.
Import ListNotations.

Section RerandProofs.
Context {C : crypto} (L : laws C).
Local Open Scope F_scope.
Add Field rerand_field : (f_theory L).
Notation F := (F C).
Ltac logs := log_simpl L.

Local Open Scope rand_scope.
(** The third party knows the public key and the ciphertext, and nothing else. *)
Definition bsw_rerand (pk : bsw_pk C) (ct : bsw_ct C) : rand F (bsw_ct C) :=
  s <- draw ;;
  v <- rlift (parse (fst (bct_policy ct)) (snd (bct_policy ct))) ;;
  shares <- gen_shares_policy s v None ;;
  cy <- rlift (omap (fun p =>
    obind (unwrap_res (sha3_hash_g2 (bpk_g2 pk) (remove_index (b_string (fst p))))) (fun h =>
    Ok (BAttr (b_string (fst p)) (g1add C (b_g1 (fst p)) (g1mul C (bpk_g1 pk) (snd (snd p))))
                                 (g2add C (b_g2 (fst p)) (g2mul C h (snd (snd p)))))))
    (combine (bct_cy ct) shares)) ;;
  rret (BswCt (bct_policy ct) (g1add C (bct_c ct) (g1mul C (bpk_h pk) s))
              (gtmul C (bct_cp ct) (gtpow C (bpk_egg pk) s)) cy (bct_data ct)).
Local Close Scope rand_scope.

Lemma gsh_shift c f : forall s t i,
  gsh (C := C) f s t (i + c) = gsh f s (fun k => t (k + c)%nat) i.
Proof.
  assert (S1 : forall (t : nat -> F) m i, map t (seq (i + c) m) = map (fun k => t (k + c)%nat) (seq i m)).
  { intros t. induction m as [|m IH]; intros i; [reflexivity|]. cbn. f_equal.
    replace (S (i + c)) with (S i + c)%nat by lia. apply IH. }
  induction f as [n p|l IH|l IH] using formula_ind'; intros s t i.
  - reflexivity.
  - rewrite !gsh_FAnd, S1. generalize (s :: map (fun k => t (k + c)%nat) (seq i (length l - 1))). intros a.
    replace (i + c + (length l - 1))%nat with (i + (length l - 1) + c)%nat by lia.
    generalize (i + (length l - 1))%nat. generalize 1%nat. clear i.
    induction IH as [|g l H _ IHl]; intros x i; [reflexivity|].
    cbn [gsh_and]. rewrite H. f_equal.
    replace (i + c + nd g)%nat with (i + nd g + c)%nat by lia. apply IHl.
  - rewrite !gsh_FOr. revert i.
    induction IH as [|g l H _ IHl]; intros i; [reflexivity|].
    cbn [gsh_or]. rewrite H. f_equal.
    replace (i + c + nd g)%nat with (i + nd g + c)%nat by lia. apply IHl.
Qed.

(** The result is the encryption of the same plaintext under the same policy whose random values
    are the sums of both; only the value that masks the plaintext stays. *)
Definition rerand_tape (t tr : nat -> F) (i ir k : nat) : F :=
  t k + (if (k =? i)%nat then tr ir else if (k =? i + 1)%nat then 0 else tr (k - (i + 2) + (ir + 1))%nat).

Theorem bsw_rerand_honest nonce (pk : bsw_pk C) pol lang data t i ct j tr ir ct' jr f :
  parse pol lang = Ok (tree f) ->
  bsw_encrypt nonce pk pol lang data t i = Ok (ct, j) ->
  bsw_rerand pk ct tr ir = Ok (ct', jr) ->
  bsw_encrypt nonce pk pol lang data (rerand_tape t tr i ir) i = Ok (ct', j).
Proof.
  intros P He Hr. unfold bsw_encrypt in He.
  apply rbind_Ok in He as (s & i1 & Hs & He). injection Hs as <- <-.
  apply rbind_Ok in He as (msg & i2 & Hm & He).
  unfold draw_gt, rbind, draw, rret in Hm. injection Hm as <- <-.
  apply rbind_Ok in He as (v & i3 & Hv & He). apply rlift_Ok in Hv as [Hv <-].
  rewrite P in Hv. injection Hv as <-.
  apply rbind_Ok in He as (sh & i4 & Hsh & He).
  rewrite (gen_shares_policy_eq L) in Hsh. injection Hsh as <- <-.
  apply rbind_Ok in He as (cy & i5 & Hcy & He). apply rlift_Ok in Hcy as [Hcy <-].
  apply rbind_Ok in He as (d & i6 & Hd & He). apply rlift_Ok in Hd as [Hd <-].
  apply rret_Ok in He as [<- <-].
  unfold bsw_rerand in Hr. cbn [bct_policy bct_c bct_cp bct_cy bct_data fst snd] in Hr.
  apply rbind_Ok in Hr as (s & i1 & Hs & Hr). injection Hs as <- <-.
  apply rbind_Ok in Hr as (v & i3 & Hv & Hr). apply rlift_Ok in Hv as [Hv <-].
  rewrite P in Hv. injection Hv as <-.
  apply rbind_Ok in Hr as (sh & i4 & Hsh & Hr).
  rewrite (gen_shares_policy_eq L) in Hsh. injection Hsh as <- <-.
  apply rbind_Ok in Hr as (cy' & i5 & Hcy' & Hr). apply rlift_Ok in Hcy' as [Hcy' <-].
  apply rret_Ok in Hr as [<- <-].
  set (T := rerand_tape t tr i ir).
  assert (T0 : T i = t i + tr ir) by (unfold T, rerand_tape; now rewrite Nat.eqb_refl).
  assert (T1 : T (S i) = t (S i)).
  { unfold T, rerand_tape. destruct (S i =? i)%nat eqn:E; [apply Nat.eqb_eq in E; lia|].
    replace (S i =? i + 1)%nat with true by (symmetry; apply Nat.eqb_eq; lia). ring. }
  unfold bsw_encrypt, draw_gt, rbind, draw, rret, rlift. rewrite P, (gen_shares_policy_eq L), T0, T1.
  assert (X : gsh f (t i + tr ir) T (S (S i)) =
     map (fun p => (fst (fst p), snd (fst p) + snd (snd p)))
       (combine (gsh f (t i) t (S (S i))) (gsh f (tr ir) tr (S ir)))).
  { assert (A : gsh f (t i + tr ir) T (S (S i)) =
       gsh f (t i + 1 * tr ir) (fun k => t k + 1 * tr (k - (i + 2) + (ir + 1))%nat) (S (S i))).
    { replace (t i + tr ir) with (t i + 1 * tr ir) by ring. apply gsh_ext.
      intros k Hk. unfold T, rerand_tape. destruct (k =? i)%nat eqn:E; [apply Nat.eqb_eq in E; lia|].
      destruct (k =? i + 1)%nat eqn:E'; [apply Nat.eqb_eq in E'; lia|]. ring. }
    rewrite A. clear A.
    assert (A : gsh f (tr ir) tr (S ir) = gsh f (tr ir) (fun k => tr (k - (i + 2) + (ir + 1))%nat) (S (S i))).
    { replace (S ir) with (0 + (ir + 1))%nat by lia. rewrite gsh_shift.
      replace (S (S i)) with (0 + (i + 2))%nat by lia. rewrite gsh_shift.
      apply gsh_ext. intros k _. do 2 f_equal. lia. }
    rewrite A. clear A. set (tr' := fun k => tr (k - (i + 2) + (ir + 1))%nat).
    pose proof (gsh_linear L f (t i) (tr ir) 1 t tr' (S (S i))) as Lin.
    pose proof (gsh_idents f (t i + 1 * tr ir) (fun k => t k + 1 * tr' k) (S (S i))) as I1.
    pose proof (gsh_idents f (t i) t (S (S i))) as I2.
    pose proof (gsh_idents f (tr ir) tr' (S (S i))) as I3.

    set (a := gsh f (t i + 1 * tr ir) _ _) in *. set (b := gsh f (t i) t _) in *. set (c := gsh f (tr ir) tr' _) in *.
    rewrite <- I2 in I1. rewrite <- I2 in I3. clear I2. clearbody a b c. clear - L Lin I1 I3.
    unfold ladd2 in Lin. revert b c Lin I1 I3.
    induction a as [|[n x] a IH]; intros [|[n' x'] b] [|[n'' x''] c] Lin I1 I3; try discriminate; [reflexivity|].
    cbn in *. injection Lin as -> Lin. injection I1 as -> I1. injection I3 as -> I3. f_equal; [|now apply IH].
    f_equal. ring. }
  rewrite X. 
  assert (Y : omap (fun x => obind (unwrap_res (sha3_hash_g2 (bpk_g2 pk) (remove_index (fst x)))) (fun h =>
    Ok (BAttr (fst x) (g1mul C (bpk_g1 pk) (snd x)) (g2mul C h (snd x)))))
    (map (fun p => (fst (fst p), snd (fst p) + snd (snd p)))
       (combine (gsh f (t i) t (S (S i))) (gsh f (tr ir) tr (S ir)))) = Ok cy').
  { clear - L Hcy Hcy'. revert cy cy' Hcy Hcy'. generalize (gsh f (tr ir) tr (S ir)).
    generalize (gsh f (t i) t (S (S i))). intros b.
    induction b as [|[n x] b IH]; intros [|[n' x'] c] cy cy' Hcy Hcy'.
    - injection Hcy as <-. exact Hcy'.
    - injection Hcy as <-. exact Hcy'.
    - destruct cy; exact Hcy'.
    - cbn [omap] in Hcy. apply obind_Ok in Hcy as (y & Hy & Hcy). apply obind_Ok in Hcy as (cy1 & Hcy & E).
      injection E as <-. cbn [combine omap] in Hcy'.
      apply obind_Ok in Hcy' as (y' & Hy' & Hcy'). apply obind_Ok in Hcy' as (cy1' & Hcy' & E). injection E as <-.
      cbn [fst snd] in Hy. unfold sha3_hash_g2 in *. destruct (hash C (remove_index n)) as [h|] eqn:Hh; [|discriminate].
      cbn in Hy. injection Hy as <-. cbn [b_string fst snd b_g1 b_g2] in Hy'. rewrite Hh in Hy'. cbn in Hy'. injection Hy' as <-.
      cbn [combine map omap fst snd]. rewrite Hh. cbn [unwrap_res obind]. rewrite (IH _ _ _ Hcy Hcy'). cbn [obind].
      do 3 f_equal; [apply (log1_inj L)|apply (log2_inj L)]; logs; ring. }
  rewrite Y, Hd. do 2 f_equal. f_equal; [apply (log1_inj L)|apply (logT_inj L)]; logs; ring.
Qed.

(** It always succeeds. *)
Theorem bsw_rerand_runs nonce (pk : bsw_pk C) pol lang data t i ct j tr ir f :
  parse pol lang = Ok (tree f) ->
  bsw_encrypt nonce pk pol lang data t i = Ok (ct, j) ->
  exists ct' jr, bsw_rerand pk ct tr ir = Ok (ct', jr).
Proof.
  intros P He. destruct (bsw_encrypt_eq L _ _ _ _ _ _ _ _ _ _ P He) as (sh & m & _ & _ & Hp & _ & _ & _ & Ly & Ny).
  unfold bsw_rerand, rbind, draw, rlift, rret. rewrite Hp. cbn [fst snd]. rewrite P, (gen_shares_policy_eq L).
  match goal with |- context [omap ?g (combine ?a ?b)] => assert (X : exists r, omap g (combine a b) = Ok r) end.
  { apply omap_runs. intros [c x] I. apply in_combine_l in I. cbn [fst snd].
    apply In_nth_error in I as (k & Hk). assert (Lk : (k < length sh)%nat).
    { rewrite <- Ly. apply nth_error_Some. rewrite Hk. discriminate. }
    destruct (nth_error sh k) as [[n y]|] eqn:Es; [|apply nth_error_None in Es; lia].
    destruct (Ny k n y Es) as (h & Hh & E). rewrite Hk in E. injection E as ->. cbn [b_string].
    unfold sha3_hash_g2. rewrite Hh. cbn. eauto. }
  destruct X as (r & ->). eauto.
Qed.

(** The new ciphertext differs unless the value drawn is zero. *)
Theorem bsw_rerand_differs (pk : bsw_pk C) ct tr ir ct' jr :
  bsw_rerand pk ct tr ir = Ok (ct', jr) ->
  bpk_h pk <> g1zero C -> tr ir <> 0 ->
  ct' <> ct /\ bct_policy ct' = bct_policy ct /\ bct_data ct' = bct_data ct.
Proof.
  intros H Nh Nt. unfold bsw_rerand in H.
  apply rbind_Ok in H as (s & i1 & Hs & H). injection Hs as <- <-.
  apply rbind_Ok in H as (v & i3 & Hv & H). apply rbind_Ok in H as (sh & i4 & Hsh & H).
  apply rbind_Ok in H as (cy & i5 & Hcy & H). apply rret_Ok in H as [<- _].
  cbn. split; [|auto]. intros E. apply (f_equal (fun c => log1 L (bct_c c))) in E. cbn in E. revert E. logs. intros E.
  assert (Z : log1 L (bpk_h pk) * tr ir = 0).
  { match type of E with ?l = ?r => transitivity (l - r); [ring|rewrite E; ring] end. }
  apply Nt. replace (tr ir) with (finv C (log1 L (bpk_h pk)) * (log1 L (bpk_h pk) * tr ir)).
  - rewrite Z. ring.
  - field. intros Z'. apply Nh. apply (log1_inj L). rewrite Z'. now logs.
Qed.

End RerandProofs.
