(** * Proofs about the LSW scheme *)
From Coq Require Import String Ascii List Bool Arith Lia Field.
From Verif Require Import Base Crypto Policy Tools Sharing Spec PolicyProofs Poly
  SharingProofs Symmetric Parse SchemeLib Lsw.
Import ListNotations.

(** A name that LSW treats as a negated attribute. *)
Definition negated (n : string) : bool :=
  match n with String c _ => Ascii.eqb c "!"%char | EmptyString => false end.

Lemma is_negative_Ok n b : is_negative n = Ok b -> b = negated n.
Proof.
  destruct n as [|c n]; cbn [is_negative negated]; [discriminate|].
  destruct (nat_of_ascii c <? 128); [|discriminate]. intros H. now injection H as <-.
Qed.

Section LswProofs.
Context {C : crypto} (L : laws C).
Local Open Scope F_scope.
Add Field lsw_field : (f_theory L).
Notation F := (F C).
Ltac logs := log_simpl L.

Definition lsw_keys (pk : lsw_pk C) (msk : lsw_msk C) : Prop :=
  logT L (lpk_egg pk) = log1 L (lpk_g1 pk) * log2 L (lpk_g2 pk) * (lmsk_alpha1 msk * lmsk_alpha2 msk).

Lemma lsw_setup_keys t i pk msk j : lsw_setup t i = Ok ((pk, msk), j) -> lsw_keys pk msk.
Proof.
  unfold lsw_setup, draw_g1, draw_g2, rbind, rret, draw.
  intros H. injection H as <- <- _. unfold lsw_keys. cbn. logs. ring.
Qed.

(** What key generation returns, for a policy without negated leaves. *)
Lemma lsw_keygen_inv pk msk pol lang t i sk j f :
  parse pol lang = Ok (tree f) ->
  lsw_keygen pk msk pol lang t i = Ok (sk, j) ->
  lsk_policy sk = (pol, lang) /\
  Forall2 (fun x d => ld_name d = remove_index (fst x) /\
     is_negative (remove_index (fst x)) = Ok (negated (remove_index (fst x))) /\
     (negated (remove_index (fst x)) = false ->
      exists h r, hash C (remove_index (fst x)) = Some h /\
       log1 L (ld_1 d) = log1 L (lpk_g1 pk) * (lmsk_alpha2 msk * snd x) + log1 L (lpk_g1 pk) * h * r /\
       log2 L (ld_2 d) = log2 L (lpk_g2 pk) * r))
    (gsh f (lmsk_alpha1 msk) t i) (lsk_dj sk).
Proof.
  intros P H. unfold lsw_keygen in H.
  apply rbind_Ok in H as (v & i3 & Hv & H). apply rlift_Ok in Hv as [Hv <-].
  rewrite P in Hv. injection Hv as <-.
  apply rbind_Ok in H as (sh & i4 & Hsh & H). rewrite (gen_shares_policy_eq L) in Hsh.
  injection Hsh as <- <-.
  apply rbind_Ok in H as (dj & i5 & Hd & H). apply rret_Ok in H as [<- _]. cbn.
  split; [reflexivity|]. apply rmap_Forall2 in Hd. eapply Forall2_impl; [|exact Hd].
  intros x d (a & b & Hx).
  apply rbind_Ok in Hx as (r & i7 & Ht & Hx). injection Ht as <- <-.
  apply rbind_Ok in Hx as (ng & i8 & Hn & Hx). apply rlift_Ok in Hn as [Hn <-].
  pose proof (is_negative_Ok _ _ Hn) as En. subst ng.
  destruct (negated (remove_index (fst x))) eqn:Ng.
  - apply rbind_Ok in Hx as (hh & i9 & Hh & Hx). apply rret_Ok in Hx as [<- _]. cbn.
    split; [reflexivity|]. split; [exact Hn|]. discriminate.
  - apply rbind_Ok in Hx as (hh & i9 & Hh & Hx). apply rlift_Ok in Hh as [Hh <-].
    apply rret_Ok in Hx as [<- _]. cbn. split; [reflexivity|]. split; [exact Hn|]. intros _.
    unfold sha3_hash_g1 in Hh. destruct (hash C (remove_index (fst x))) as [h|]; [|discriminate].
    injection Hh as <-. exists h, (t a). repeat split; logs; ring.
Qed.

Lemma lsw_ejs_inv (pk : lsw_pk C) s sx attrs : forall i l, lsw_ejs pk s sx i attrs = Ok l ->
  Forall2 (fun a e => le_name e = a /\ exists h, hash C a = Some h /\
     log1 L (le_1 e) = log1 L (lpk_g1 pk) * h * s) attrs l.
Proof.
  induction attrs as [|a attrs IH]; intros i l H; cbn [lsw_ejs] in H.
  - injection H as <-. constructor.
  - apply obind_Ok in H as (hh & Hh & H). apply obind_Ok in H as (x & _ & H).
    apply obind_Ok in H as (hf & _ & H). apply obind_Ok in H as (l' & Hl & H).
    injection H as <-. constructor; [|eauto]. cbn. split; [reflexivity|].
    unfold sha3_hash_g1 in Hh. destruct (hash C a) as [h|]; [|discriminate].
    injection Hh as <-. exists h. split; [reflexivity|]. logs. ring.
Qed.

Lemma lsw_encrypt_inv nonce (pk : lsw_pk C) attrs data t i ct j :
  lsw_encrypt nonce pk attrs data t i = Ok (ct, j) ->
  exists s msg,
    attrs <> [] /\ data <> EmptyString /\
    log2 L (lct_e2 ct) = log2 L (lpk_g2 pk) * s /\
    logT L (lct_e1 ct) = logT L (lpk_egg pk) * s + logT L msg /\
    encrypt_symmetric nonce msg data = Ok (lct_ct ct) /\
    Forall2 (fun a e => le_name e = a /\ exists h, hash C a = Some h /\
       log1 L (le_1 e) = log1 L (lpk_g1 pk) * h * s) attrs (lct_ej ct).
Proof.
  unfold lsw_encrypt. destruct attrs as [|a0 at0]; [discriminate|].
  destruct data as [|c0 d0]; [discriminate|].
  set (attrs := a0 :: at0). intros H.
  apply rbind_Ok in H as (s & i1 & Hs & H). injection Hs as <- <-.
  apply rbind_Ok in H as (sx & i2 & Hx & H).
  apply rbind_Ok in H as (ej & i3 & He & H). apply rlift_Ok in He as [He <-].
  apply rbind_Ok in H as (msg & i4 & Hm & H).
  apply rbind_Ok in H as (d & i6 & Hd & H). apply rlift_Ok in Hd as [Hd <-].
  apply rret_Ok in H as [<- _]. cbn [lct_e1 lct_e2 lct_ej lct_ct].
  exists (t i), msg. split; [discriminate|]. split; [discriminate|]. logs.
  split; [reflexivity|]. split; [reflexivity|]. split; [exact Hd|].
  eapply lsw_ejs_inv; eauto.
Qed.

Lemma lsw_names f (sk : lsw_sk C) pk msk t i :
  Forall2 (fun x d => ld_name d = remove_index (fst x) /\
     is_negative (remove_index (fst x)) = Ok (negated (remove_index (fst x))) /\
     (negated (remove_index (fst x)) = false ->
      exists h r, hash C (remove_index (fst x)) = Some h /\
       log1 L (ld_1 d) = log1 L (lpk_g1 pk) * (lmsk_alpha2 msk * snd x) + log1 L (lpk_g1 pk) * h * r /\
       log2 L (ld_2 d) = log2 L (lpk_g2 pk) * r))
    (gsh f (lmsk_alpha1 msk) t i) (lsk_dj sk) ->
  map ld_name (lsk_dj sk) = map (fun x => remove_index (fst x)) (gsh f (lmsk_alpha1 msk) t i).
Proof.
  induction 1 as [|x d l m (E & _) _ IH]; cbn; [reflexivity|]. now rewrite E, IH.
Qed.

Theorem lsw_correct nonce (pk : lsw_pk C) msk attrs sk pol lang data ct f
    ts is js tk ik jk te ie je :
  lsw_setup ts is = Ok ((pk, msk), js) ->
  lsw_keygen pk msk pol lang tk ik = Ok (sk, jk) ->
  lsw_encrypt nonce pk attrs data te ie = Ok (ct, je) ->
  parse pol lang = Ok (tree f) ->
  String.length nonce = 12%nat ->
  arity2 f = true -> NoDup (names f) -> plain_names f = true ->
  forallb (fun n => negb (negated n)) (names f) = true ->
  small_ok C (and_width f) ->
  sat (owns attrs) f = true ->
  lsw_decrypt sk ct = Ok data.
Proof.
  intros Hs Hk He P Ln A ND PN NG SO S.
  apply lsw_setup_keys in Hs. destruct (lsw_keygen_inv _ _ _ _ _ _ _ _ _ P Hk) as (K1 & K2).
  destruct (lsw_encrypt_inv _ _ _ _ _ _ _ _ He) as (s & msg & NE & _ & E2 & E1 & E4 & E5).
  assert (NDl : NoDup (leaves f)) by (eapply NoDup_map_inv; exact ND).
  assert (Nm : map le_name (lct_ej ct) = attrs).
  { clear - E5. induction E5 as [|a d attrs ds (E & _) _ IH]; cbn; congruence. }
  unfold lsw_decrypt. rewrite K1. cbn [fst snd]. rewrite P. cbn [obind].
  rewrite Nm. rewrite calc_pruned_tree by exact A. rewrite S. cbn [obind fst snd].
  rewrite (calc_coefficients_eq L). cbn [obind unwrap app].
  set (pr := map leaf_pair (sel (pmask (owns attrs) f) (leaves f))).
  assert (X : forall l, incl l pr -> forall st, exists st',
    ofold (lsw_step sk ct (gco f 1)) l st = Ok st' /\
    logT L (snd st') = logT L (snd st) +
    log1 L (lpk_g1 pk) * log2 L (lpk_g2 pk) * lmsk_alpha2 msk * s *
      fsum (map (fun x => oval (assoc (snd x) (gco f 1)) *
                          oval (assoc (snd x) (gsh f (lmsk_alpha1 msk) tk ik))) l)).
  { induction l as [|x l IH]; intros Hi st.
    - exists st. cbn. split; [reflexivity|]. ring.
    - assert (Ix : In x pr) by (apply Hi; now left).
      destruct (pruned_leaf _ _ _ Ix) as (n & p & -> & Il & Io).
      destruct (share_of_leaf f n p (lmsk_alpha1 msk) tk ik Il) as (sh & Esh).
      destruct (coeff_of_leaf (C := C) f n p 1 Il) as (co & Eco).
      unfold owns in Io. apply smem_In in Io.
      destruct (find_key _ _ _ _ _ E5 Io) as (e & Fe & _ & h & Hh & V1).
      assert (Rn : remove_index (node_index n p) = n)
        by (apply remove_index_leaf; eapply plain_leaf; eauto).
      assert (NDg : NoDup (map (fun x => remove_index (fst x)) (gsh f (lmsk_alpha1 msk) tk ik)))
        by (rewrite gsh_names by exact PN; exact ND).
      destruct (find_distinct _ (fun x => remove_index (fst x)) _ _ _ K2 NDg _ (assoc_In_pair _ _ _ Esh))
        as (d & Fd & In1 & V2).
      cbn [fst snd] in *. rewrite Rn in *.
      assert (Ng : negated n = false).
      { rewrite forallb_forall in NG. specialize (NG n).
        destruct (negated n); [|reflexivity]. discriminate NG. unfold names. apply in_map_iff. now exists (n, p). }
      destruct (V2 Ng) as (h' & r & Hh' & D1 & D2). rewrite Hh in Hh'. injection Hh' as <-.
      cbn [ofold]. unfold lsw_step at 1. cbn [fst snd]. rewrite Fd, Fe, (find_assoc_id _ _ _ Eco).
      cbn [unwrap obind fst snd]. rewrite In1, Ng. cbn [obind].
      edestruct (IH (fun y Hy => Hi y (or_intror Hy))) as (st' & Es & V).
      exists st'. split; [exact Es|]. rewrite V. cbn [fst snd map fsum]. logs.
      rewrite Eco, Esh. cbn [oval]. rewrite D1, D2, V1, E2. ring. }
  destruct (X pr (incl_refl _) (gtone C, gtone C)) as (st' & Es & V).
  unfold pr in V. rewrite (reconstruct_lookup L) in V by assumption. fold pr in V.
  rewrite Es. cbn [obind]. apply (symmetric_roundtrip L nonce); [exact Ln|].
  rewrite <- E4. f_equal. apply (logT_inj L). logs. rewrite V. cbn [fst snd]. logs.
  unfold lsw_keys in Hs. rewrite E1, Hs. ring.
Qed.

(** ** Progress *)

Lemma lsw_setup_runs t i : exists (pk : lsw_pk C) (msk : lsw_msk C) j, lsw_setup t i = Ok ((pk, msk), j).
Proof.
  unfold lsw_setup, draw_g1, draw_g2, rbind, rret, draw. eexists _, _, _. reflexivity.
Qed.

Lemma lsw_keygen_runs (pk : lsw_pk C) msk pol lang f t i :
  parse pol lang = Ok (tree f) -> plain_names f = true ->
  (forall n, In n (names f) -> is_negative n <> Panic) ->
  (forall a, hash C a <> None) ->
  exists sk j, lsw_keygen pk msk pol lang t i = Ok (sk, j).
Proof.
  intros P PN NG H. unfold lsw_keygen. rewrite P. erewrite rbind_run by reflexivity.
  erewrite rbind_run by apply (gen_shares_policy_eq L).
  match goal with |- context [rmap ?f ?l] => set (step := f); set (sh := l) end.
  destruct (rmap_runs step sh) with (t := t) (i := (i + nd f)%nat) as (r & j & E).
  - intros x t' i' Ix. unfold step, rbind, draw, rlift, rret, sha3_hash_g1, sha3_hash_fr.
    assert (I' : In (remove_index (fst x)) (names f)).
    { rewrite <- (gsh_names f (lmsk_alpha1 msk) t i PN). apply in_map_iff. now exists x. }
    apply NG in I'. pose proof (H (remove_index (fst x))) as Hx.
    destruct (hash C (remove_index (fst x))) as [h|]; [|congruence].
    destruct (is_negative (remove_index (fst x))) as [[]| |] eqn:En; cbn; eauto; try congruence.
    exfalso. revert En. unfold is_negative. clear. destruct (remove_index (fst x)); [discriminate|].
    destruct (nat_of_ascii a <? 128)%nat; discriminate.
  - erewrite rbind_run by exact E. eexists _, _. reflexivity.
Qed.

Lemma set_head_length {A} (x : A) l : length (set_head x l) = length l.
Proof. now destruct l. Qed.

Lemma lsw_sx_runs attrs : forall i sx (t : nat -> F) k, exists r,
  lsw_sx i attrs sx t k = Ok (r, (k + length attrs)%nat) /\
  length r = (length sx + length attrs)%nat.
Proof.
  induction attrs as [|a attrs IH]; intros i sx t k; cbn [lsw_sx].
  - exists sx. unfold rret. cbn. now rewrite !Nat.add_0_r.
  - erewrite rbind_run by reflexivity.
    match goal with |- context [lsw_sx (S i) attrs ?s] => destruct (IH (S i) s t (S k)) as (r & E & Lr) end.
    exists r. rewrite E. cbn [length]. split; [do 2 f_equal; lia|].
    rewrite Lr, set_head_length, app_length. cbn. lia.
Qed.

Lemma lsw_ejs_runs (pk : lsw_pk C) s sx attrs : forall i, (i + length attrs <= length sx)%nat ->
  (forall a, In a attrs -> hash C a <> None) -> exists l, lsw_ejs pk s sx i attrs = Ok l.
Proof.
  induction attrs as [|a attrs IH]; intros i Hi H; cbn [lsw_ejs]; [eauto|].
  unfold sha3_hash_g1, sha3_hash_fr. pose proof (H a (or_introl eq_refl)) as Ha.
  destruct (hash C a) as [h|]; [|congruence]. cbn [unwrap_res obind].
  cbn [length] in Hi. destruct (nth_error sx i) as [x|] eqn:E.
  - cbn [unwrap obind]. destruct (IH (S i)) as (l & ->); [lia|intros; apply H; now right|].
    cbn. eauto.
  - apply nth_error_None in E. lia.
Qed.

Lemma lsw_encrypt_runs nonce (pk : lsw_pk C) attrs data t i :
  attrs <> [] -> data <> EmptyString -> (forall a, In a attrs -> hash C a <> None) ->
  exists ct j, lsw_encrypt nonce pk attrs data t i = Ok (ct, j).
Proof.
  intros NE ND H. unfold lsw_encrypt. destruct attrs as [|a0 at0]; [congruence|].
  destruct data as [|c d]; [congruence|]. set (attrs := a0 :: at0) in *. clearbody attrs.
  erewrite rbind_run by reflexivity.
  destruct (lsw_sx_runs attrs 0%nat [t i] t (S i)) as (sx & E & Lx).
  erewrite rbind_run by exact E.
  destruct (lsw_ejs_runs pk (t i) sx attrs 0%nat) as (l & El); [rewrite Lx; lia|exact H|].
  rewrite El. erewrite rbind_run by reflexivity. eexists _, _. reflexivity.
Qed.

(** ** Rejection *)

Theorem lsw_reject (sk : lsw_sk C) ct f :
  parse (fst (lsk_policy sk)) (snd (lsk_policy sk)) = Ok (tree f) -> arity2 f = true ->
  sat (owns (map le_name (lct_ej ct))) f = false ->
  lsw_decrypt sk ct = Err.
Proof.
  intros P A S. unfold lsw_decrypt. rewrite P. cbn [obind].
  rewrite calc_pruned_tree by exact A. rewrite S. reflexivity.
Qed.

(** ** Names with an underscore abort decryption *)

Lemma remove_index_has_us n : no_us n = false -> remove_index n <> n.
Proof.
  induction n as [|c n IH]; cbn; [discriminate|].
  destruct (Ascii.eqb c "_"); cbn; [discriminate|].
  intros H E. injection E as E. now apply IH.
Qed.

Lemma remove_index_no_us_out n : no_us (remove_index n) = true.
Proof.
  induction n as [|c n IH]; cbn; [reflexivity|].
  destruct (Ascii.eqb c "_") eqn:E; cbn; [reflexivity|]. now rewrite E.
Qed.

Theorem lsw_underscore_panics (pk : lsw_pk C) msk pol lang sk ct f t i j :
  parse pol lang = Ok (tree f) -> arity2 f = true ->
  lsw_keygen pk msk pol lang t i = Ok (sk, j) ->
  sat (owns (map le_name (lct_ej ct))) f = true ->
  forallb (fun n => negb (no_us n)) (names f) = true ->
  lsw_decrypt sk ct = Panic.
Proof.
  intros P A Hk S U. destruct (lsw_keygen_inv _ _ _ _ _ _ _ _ _ P Hk) as (K1 & K2).
  unfold lsw_decrypt. rewrite K1. cbn [fst snd]. rewrite P. cbn [obind].
  rewrite calc_pruned_tree by exact A. rewrite S. cbn [obind fst snd].
  rewrite (calc_coefficients_eq L). cbn [obind unwrap app].
  set (own := owns (map le_name (lct_ej ct))) in *.
  destruct (sel (pmask own f) (leaves f)) as [|[n p] r] eqn:E.
  - (* a satisfied formula selects at least one leaf *)
    exfalso. pose proof (pmask_sat own f S) as S'. rewrite E in S'. cbn in S'.
    apply (owns_nonempty [] f); auto.
  - cbn [map]. change (leaf_pair (n, p)) with (n, node_index n p). cbn [ofold].
    unfold lsw_step at 1. cbn [fst snd].
    assert (Il : In (n, p) (leaves f)).
    { apply (sel_incl (pmask own f)). rewrite E. now left. }
    assert (Un : no_us n = false).
    { rewrite forallb_forall in U. specialize (U n).
      destruct (no_us n); [|reflexivity]. discriminate U. unfold names. apply in_map_iff. now exists (n, p). }
    destruct (find (fun a => seqb (ld_name a) n) (lsk_dj sk)) as [d|] eqn:Fd; [|reflexivity].
    exfalso. apply find_some in Fd as [Id Ed]. apply seqb_eq in Ed.
    apply (in_map ld_name) in Id. rewrite (lsw_names _ _ _ _ _ _ K2) in Id.
    apply in_map_iff in Id as (x & Ex & _). rewrite Ed in Ex.
    pose proof (remove_index_no_us_out (fst x)) as W. rewrite Ex in W. congruence.
Qed.

(** ** Negated leaves *)

(** A key for the policy that consists of one leaf "!x" never opens a
    ciphertext that does not literally carry an attribute named "!x". *)
Theorem lsw_negation_useless (sk : lsw_sk C) ct x p :
  parse (fst (lsk_policy sk)) (snd (lsk_policy sk)) = Ok (PStr (String "!" x) p) ->
  ~ In (String "!" x) (map le_name (lct_ej ct)) ->
  lsw_decrypt sk ct = Err.
Proof.
  intros P N. apply (lsw_reject sk ct (FLeaf (String "!" x) p) P eq_refl).
  cbn [sat]. destruct (owns _ _) eqn:E; [|reflexivity]. unfold owns in E.
  apply smem_In in E. contradiction.
Qed.

(** ** Relabelling a ciphertext: the attribute hash has a known discrete logarithm *)

Definition lsw_relabel (pk : lsw_pk C) (ct : lsw_ct C) (ys : list string) : outcome (lsw_ct C) :=
  match lct_ej ct with
  | [] => Err
  | e :: _ =>
      obind (unwrap (hash C (le_name e))) (fun hx =>
      let g1s := g1mul C (le_1 e) (finv C hx) in
      obind (omap (fun y => obind (unwrap (hash C y)) (fun hy =>
        Ok (LswEj y (g1mul C g1s hy) (g1zero C) (g1zero C)))) ys) (fun ej =>
      Ok (LswCt (lct_e1 ct) (lct_e2 ct) ej (lct_ct ct))))
  end.

Lemma lsw_sx_zero attrs : forall i sx (t : nat -> F) k,
  (i <= length sx)%nat -> (0 < i -> hd 0 sx = 0) -> Forall (fun x => x = 0) (tl sx) -> sx <> [] ->
  (i < length attrs + i -> (0 < i)%nat \/ i = 0%nat) ->
  (forall m, (k <= m)%nat -> t m = 0) ->
  exists r, lsw_sx i attrs sx t k = Ok (r, (k + length attrs)%nat) /\
    length r = (length sx + length attrs)%nat /\
    Forall (fun x => x = 0) (tl r) /\ ((0 < i + length attrs)%nat -> hd 0 r = 0).
Proof.
  induction attrs as [|a attrs IH]; intros i sx t k Hi Hh Ht Nx _ Hz; cbn [lsw_sx].
  - exists sx. unfold rret. cbn [length]. rewrite !Nat.add_0_r. auto.
  - erewrite rbind_run by reflexivity.
    destruct sx as [|x0 sx]; [congruence|].
    match goal with |- context [lsw_sx (S i) attrs ?s] => set (sx' := s) end.
    assert (Hn : Forall (fun x => x = 0) (sx ++ [t k])).
    { apply Forall_app. split; [exact Ht|]. constructor; [apply Hz; lia|constructor]. }
    assert (H0 : hd 0 sx' = 0).
    { unfold sx'. cbn [app set_head hd]. destruct i as [|i].
      - cbn. ring.
      - cbn [nth]. cbn in Hh. rewrite Hh by lia.
        assert (Z : nth i (sx ++ [t k]) 0 = 0).
        { destruct (le_lt_dec (length (sx ++ [t k])) i) as [Lx|Lx].
          - now apply nth_overflow.
          - rewrite Forall_forall in Hn. apply Hn. now apply nth_In. }
        rewrite Z. ring. }
    destruct (IH (S i) sx' t (S k)) as (r & E & Lr & Tr & Hr).
    + unfold sx'. rewrite set_head_length, app_length. cbn in *. lia.
    + intros _. exact H0.
    + unfold sx'. cbn [app set_head tl]. exact Hn.
    + unfold sx'. cbn. discriminate.
    + intros _. left. lia.
    + intros m Hm. apply Hz. lia.
    + exists r. rewrite E. cbn [length]. split; [do 2 f_equal; lia|]. split.
      * rewrite Lr. unfold sx'. rewrite set_head_length, app_length. cbn. lia.
      * split; [exact Tr|]. intros _. apply Hr. lia.
Qed.

Theorem lsw_relabel_works nonce (pk : lsw_pk C) attrs data t i ct j ys :
  lsw_encrypt nonce pk attrs data t i = Ok (ct, j) ->
  (forall a, In a attrs -> forall h, hash C a = Some h -> h <> 0) ->
  ys <> [] -> (forall y, In y ys -> hash C y <> None) ->
  exists ct', lsw_relabel pk ct ys = Ok ct' /\
    exists t' j', lsw_encrypt nonce pk ys data t' 0%nat = Ok (ct', j').
Proof.
  intros He Nz NE Hy.
  unfold lsw_encrypt in He. destruct attrs as [|a0 at0]; [discriminate|].
  destruct data as [|c0 d0]; [discriminate|].
  set (attrs := a0 :: at0) in *. set (data := String c0 d0) in *.
  apply rbind_Ok in He as (s & i1 & Hs & H). injection Hs as <- <-.
  apply rbind_Ok in H as (sx & i2 & Hx & H).
  apply rbind_Ok in H as (ej & i3 & He & H). apply rlift_Ok in He as [He <-].
  apply rbind_Ok in H as (msg & i4 & Hm & H).
  apply rbind_Ok in H as (d & i6 & Hd & H). apply rlift_Ok in Hd as [Hd <-].
  apply rret_Ok in H as [<- _].
  unfold draw_gt in Hm. rewrite (rbind_run _ _ _ _ _ _ eq_refl) in Hm. apply rret_Ok in Hm as [Em _].
  apply lsw_ejs_inv in He. inversion He as [|? e ? ej' (Ne & h & Hh & V) _]; subst.
  unfold lsw_relabel. cbn [lct_ej lct_e1 lct_e2 lct_ct]. rewrite Hh. cbn [unwrap obind].
  assert (Nh : h <> 0) by (apply (Nz (le_name e)); [now left|exact Hh]).
  set (t' := fun k => match k with
                      | O => t i
                      | S k' => if (k' =? length ys)%nat then t i2 else 0 end).
  assert (X : exists sx', lsw_sx 0 ys [t i] t' 1%nat = Ok (sx', (1 + length ys)%nat) /\
     length sx' = (1 + length ys)%nat /\
     forall k, (k < length ys)%nat -> nth_error sx' k = Some 0).
  { set (t2 := fun k : nat => match k with O => t i | S k' => 0 end).
    destruct (lsw_sx_zero ys 0 [t i] t2 1%nat) as (r & E & Lr & Tr & Hr).
    - lia.
    - lia.
    - constructor.
    - discriminate.
    - auto.
    - intros m Hm. destruct m; [lia|reflexivity].
    - assert (Ext : forall l i sx k (u v : nat -> F), (forall m, k <= m < k + length l -> u m = v m)%nat ->
        lsw_sx i l sx u k = lsw_sx i l sx v k).
      { clear. induction l as [|a l IH]; intros i sx k u v E; cbn [lsw_sx]; [reflexivity|].
        erewrite !rbind_run by reflexivity. cbn [length] in E. rewrite (E k) by lia.
        apply IH. intros m Hm. apply E. lia. }
      exists r. rewrite (Ext ys 0%nat [t i] 1%nat t' t2).
      + split; [exact E|]. split; [exact Lr|]. intros k Hk.
        cbn [length] in Lr. destruct r as [|r0 r]; [cbn in Lr; lia|]. cbn in Tr.
        destruct k as [|k].
        * cbn. f_equal. apply Hr. destruct ys; [congruence|cbn; lia].
        * cbn. destruct (nth_error r k) as [y|] eqn:Ey.
          -- apply nth_error_In in Ey. rewrite Forall_forall in Tr. now rewrite (Tr y Ey).
          -- apply nth_error_None in Ey. cbn in Lr. lia.
      + intros m Hm. unfold t', t2. destruct m as [|m]; [reflexivity|].
        destruct (m =? length ys)%nat eqn:B; [|reflexivity]. apply Nat.eqb_eq in B. lia. }
  destruct X as (sx' & Ex & Lx & Zx).
  assert (Y : forall zs k, (k + length zs <= length ys)%nat -> (forall y, In y zs -> hash C y <> None) ->
    exists l, omap (fun y => obind (unwrap (hash C y)) (fun hy =>
        Ok (LswEj y (g1mul C (g1mul C (le_1 e) (finv C h)) hy) (g1zero C) (g1zero C)))) zs = Ok l /\
      lsw_ejs pk (t i) sx' k zs = Ok l).
  { induction zs as [|y zs IH]; intros k Hk Hz; [exists []; auto|].
    cbn [length] in Hk. destruct (IH (S k)) as (l & E1 & E2); [lia|intros; apply Hz; now right|].
    cbn [omap lsw_ejs]. unfold sha3_hash_g1 at 1, sha3_hash_fr at 1.
    pose proof (Hz y (or_introl eq_refl)) as Hz'. destruct (hash C y) as [hy|]; [|congruence].
    cbn [unwrap unwrap_res obind]. rewrite E1, E2, Zx by lia. cbn [unwrap obind].
    eexists. split; [reflexivity|]. do 2 f_equal. f_equal.
    - apply (log1_inj L). logs. rewrite V. field. exact Nh.
    - apply (log1_inj L). logs. ring.
    - apply (log1_inj L). logs. ring. }
  destruct (Y ys 0%nat) as (l & E1 & E2); [lia|exact Hy|].
  rewrite E1. cbn [obind]. eexists. split; [reflexivity|].
  exists t'. eexists. unfold lsw_encrypt. unfold data.
  destruct ys as [|y0 ys']; [congruence|]. set (ys := y0 :: ys') in *.
  erewrite rbind_run by reflexivity. cbn [t']. erewrite rbind_run by exact Ex.
  rewrite E2. erewrite rbind_run by reflexivity.
  unfold draw_gt. erewrite rbind_run by (erewrite rbind_run by reflexivity; reflexivity).
  assert (Et : t' (1 + length ys)%nat = t i2) by (unfold t'; cbn [Nat.add]; now rewrite Nat.eqb_refl).
  rewrite Et. fold data. rewrite Hd. reflexivity.
Qed.

End LswProofs.
