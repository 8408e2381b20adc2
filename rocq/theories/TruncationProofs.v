(** * Names are cut at the first underscore before they are hashed

    Two policies whose names agree up to the first underscore are the same
    policy for the cryptography of BSW, GHW11, LSW, YCT14 and AW11: only public
    labels and the policy text differ. *)
From Coq Require Import String Ascii List Bool Arith Lia Field.
From Verif Require Import Base Crypto Policy Tools Sharing Spec PolicyProofs Poly
  SharingProofs Parse Symmetric SchemeLib Msp MspProofs Bsw BswProofs Ghw11 Ghw11Proofs Lsw LswProofs
  Yct14 Yct14Proofs Aw11 Aw11Proofs.
Import ListNotations.

(** The text before the first underscore. *)
Fixpoint before_us (s : string) : string :=
  match s with
  | EmptyString => EmptyString
  | String c r => if Ascii.eqb c "_" then EmptyString else String c (before_us r)
  end.

(** The formula with every name cut at its first underscore, positions erased. *)
Fixpoint cut (f : formula) : formula :=
  match f with
  | FLeaf n _ => FLeaf (before_us n) 0
  | FAnd l => FAnd (map cut l)
  | FOr l => FOr (map cut l)
  end.

Lemma before_us_remove n : remove_index n = before_us n.
Proof.
  induction n as [|c n IH]; cbn; [reflexivity|]. now rewrite IH.
Qed.

Lemma before_us_idem n : before_us (before_us n) = before_us n.
Proof.
  rewrite <- !before_us_remove. apply remove_index_no_us. apply remove_index_no_us_out.
Qed.

Section Truncation.
Context {C : crypto} (L : laws C).
Local Open Scope F_scope.
Notation F := (F C).

Definition cutp (x : string * F) : string * F := (remove_index (fst x), snd x).

Lemma nd_cut f : nd (cut f) = nd f.
Proof.
  induction f as [n p|l IH|l IH] using formula_ind'; cbn [cut nd]; [reflexivity| |].
  - rewrite map_length. f_equal. f_equal. rewrite map_map. apply map_ext_in.
    rewrite Forall_forall in IH. exact IH.
  - f_equal. rewrite map_map. apply map_ext_in. rewrite Forall_forall in IH. exact IH.
Qed.

Lemma gsh_cut f : forall (s : F) t i, map cutp (gsh (cut f) s t i) = map cutp (gsh f s t i).
Proof.
  induction f as [n p|l IH|l IH] using formula_ind'; intros s t i.
  - cbn [cut gsh map]. unfold cutp. cbn [fst snd]. rewrite !remove_index_node, !before_us_remove.
    now rewrite before_us_idem.
  - cbn [cut]. rewrite !gsh_FAnd, map_length.
    generalize (s :: map t (seq i (length l - 1))). intros a.
    generalize (i + (length l - 1))%nat. generalize 1%nat.
    induction IH as [|g l H _ IHl]; intros x j; [reflexivity|].
    cbn [map gsh_and]. rewrite !map_app, H, nd_cut. f_equal. apply IHl.
  - cbn [cut]. change (gsh (FOr (map cut l)) s t i) with (gsh_or s t (map cut l) i).
    change (gsh (FOr l) s t i) with (gsh_or s t l i). revert i.
    induction IH as [|g l H _ IHl]; intros i; [reflexivity|].
    cbn [map gsh_or]. rewrite !map_app, H, nd_cut. f_equal. apply IHl.
Qed.

Lemma gsh_same f f' (s : F) t i : cut f = cut f' -> map cutp (gsh f s t i) = map cutp (gsh f' s t i).
Proof. intros E. rewrite <- gsh_cut, E. apply gsh_cut. Qed.

Lemma nd_same f f' : cut f = cut f' -> nd f = nd f'.
Proof. intros E. now rewrite <- nd_cut, E, nd_cut. Qed.

Lemma cut_cons x l y l' : map cutp (x :: l) = map cutp (y :: l') ->
  remove_index (fst x) = remove_index (fst y) /\ snd x = snd y /\ map cutp l = map cutp l'.
Proof. cbn. intros H. injection H as H1 H2 H3. auto. Qed.

(** ** BSW *)

(** New public labels and policy text for a ciphertext. *)
Definition bsw_retarget (pol : string) (lang : language) (ids : list string) (ct : bsw_ct C)
  : bsw_ct C :=
  BswCt (pol, lang) (bct_c ct) (bct_cp ct)
    (map (fun x => BAttr (fst x) (b_g1 (snd x)) (b_g2 (snd x))) (combine ids (bct_cy ct)))
    (bct_data ct).

Theorem bsw_cut_retarget nonce (pk : bsw_pk C) pol lang pol' lang' f f' data t i ct j :
  parse pol lang = Ok (tree f) -> parse pol' lang' = Ok (tree f') -> cut f = cut f' ->
  bsw_encrypt nonce pk pol lang data t i = Ok (ct, j) ->
  bsw_encrypt nonce pk pol' lang' data t i =
    Ok (bsw_retarget pol' lang' (map (fun x => node_index (fst x) (snd x)) (leaves f')) ct, j).
Proof.
  intros P P' E H. unfold bsw_encrypt in *.
  apply rbind_Ok in H as (s & i1 & Hs & H). rewrite (rbind_run _ _ _ _ _ _ Hs).
  apply rbind_Ok in H as (m & i2 & Hm & H). rewrite (rbind_run _ _ _ _ _ _ Hm).
  rewrite P in H. rewrite P'. apply rbind_Ok in H as (v & i3 & Hv & H).
  apply rlift_Ok in Hv as [Hv <-]. injection Hv as <-.
  rewrite (rbind_run (rlift (Ok (tree f'))) _ t i2 (tree f') i2) by reflexivity.
  apply rbind_Ok in H as (sh & i4 & Hsh & H). rewrite (gen_shares_policy_eq L) in Hsh.
  injection Hsh as <- <-.
  rewrite (rbind_run _ _ _ _ _ _ (gen_shares_policy_eq L f' s None t i2)).
  rewrite <- (nd_same f f' E).
  apply rbind_Ok in H as (cy & i5 & Hcy & H). apply rlift_Ok in Hcy as [Hcy <-].
  apply rbind_Ok in H as (d & i6 & Hd & H). apply rlift_Ok in Hd as [Hd <-].
  apply rret_Ok in H as [<- <-].
  pose proof (gsh_same f f' s t i2 E) as G.
  assert (I : map fst (gsh f' s t i2) = map (fun x => node_index (fst x) (snd x)) (leaves f'))
    by apply gsh_idents.
  rewrite <- I. clear I.
  set (step := fun x : string * F => _) in *.
  assert (X : forall l l' cy, map cutp l = map cutp l' -> omap step l = Ok cy ->
     omap step l' = Ok (map (fun x => BAttr (fst x) (b_g1 (snd x)) (b_g2 (snd x))) (combine (map fst l') cy))).
  { clear. induction l as [|x l IH]; intros [|y l'] cy G Hcy; try discriminate.
    - injection Hcy as <-. reflexivity.
    - destruct (cut_cons _ _ _ _ G) as (E1 & E2 & G').
      cbn [omap] in *. apply obind_Ok in Hcy as (z & Hz & Hcy). apply obind_Ok in Hcy as (zs & Hzs & Hcy).
      injection Hcy as <-. rewrite (IH _ _ G' Hzs). subst step. cbn beta in *.
      rewrite <- E1, <- E2. apply obind_Ok in Hz as (h & -> & Hz). injection Hz as <-.
      reflexivity. }
  rewrite (X _ _ _ G Hcy).
  rewrite (rbind_run (rlift (Ok _)) _ t _ _ _ eq_refl).
  rewrite Hd. rewrite (rbind_run (rlift (Ok _)) _ t _ _ _ eq_refl).
  reflexivity.
Qed.

(** A key for the cut policy opens a ciphertext made for the longer names. *)
Theorem bsw_cut_opens nonce (pk : bsw_pk C) msk attrs sk pol lang pol' lang' f f' data ct
    ts is js tk ik jk te ie je :
  bsw_setup ts is = Ok ((pk, msk), js) ->
  bsw_keygen pk msk attrs tk ik = Ok (Some sk, jk) ->
  bsw_encrypt nonce pk pol lang data te ie = Ok (ct, je) ->
  parse pol lang = Ok (tree f) -> parse pol' lang' = Ok (tree f') -> cut f = cut f' ->
  String.length nonce = 12%nat ->
  arity2 f' = true -> NoDup (leaves f') -> plain_names f' = true -> small_ok C (and_width f') ->
  sat (owns attrs) f' = true ->
  bsw_decrypt sk (bsw_retarget pol' lang'
    (map (fun x => node_index (fst x) (snd x)) (leaves f')) ct) = Ok data.
Proof.
  intros Hs Hk He P P' E Hn A ND PN SO S.
  pose proof (bsw_cut_retarget _ _ _ _ _ _ _ _ _ _ _ _ _ P P' E He) as He'.
  exact (bsw_correct L _ _ _ _ _ _ _ _ _ _ _ _ _ _ _ _ _ _ _ Hs Hk He' P' Hn A ND PN SO S).
Qed.

(** ** GHW11 *)

Definition ghw_retarget (pol : string) (lang : language) (ids : list string) (ct : ghw_ct C)
  : ghw_ct C :=
  GhwCt (pol, lang) (gct_c ct) (gct_c1 ct)
    (map (fun x => (fst x, snd (snd x))) (combine ids (gct_cidi ct))) (gct_data ct).

Theorem ghw_cut_retarget nonce (pk : ghw_pk C) pol lang pol' lang' f f' data t i ct j :
  parse pol lang = Ok (tree f) -> parse pol' lang' = Ok (tree f') -> cut f = cut f' ->
  ghw_encrypt nonce pk pol lang data t i = Ok (ct, j) ->
  ghw_encrypt nonce pk pol' lang' data t i =
    Ok (ghw_retarget pol' lang' (map (fun x => node_index (fst x) (snd x)) (leaves f')) ct, j).
Proof.
  intros P P' E H. unfold ghw_encrypt in *.
  apply rbind_Ok in H as (s & i1 & Hs & H). rewrite (rbind_run _ _ _ _ _ _ Hs).
  apply rbind_Ok in H as (m & i2 & Hm & H). rewrite (rbind_run _ _ _ _ _ _ Hm).
  rewrite P in H. rewrite P'. apply rbind_Ok in H as (v & i3 & Hv & H).
  apply rlift_Ok in Hv as [Hv <-]. injection Hv as <-.
  rewrite (rbind_run (rlift (Ok (tree f'))) _ t i2 (tree f') i2) by reflexivity.
  apply rbind_Ok in H as (sh & i4 & Hsh & H). rewrite (gen_shares_policy_eq L) in Hsh.
  injection Hsh as <- <-.
  rewrite (rbind_run _ _ _ _ _ _ (gen_shares_policy_eq L f' s None t i2)).
  rewrite <- (nd_same f f' E).
  apply rbind_Ok in H as (cy & i5 & Hcy & H).
  apply rbind_Ok in H as (d & i6 & Hd & H). apply rlift_Ok in Hd as [Hd <-].
  apply rret_Ok in H as [<- <-].
  pose proof (gsh_same f f' s t i2 E) as G.
  assert (I : map fst (gsh f' s t i2) = map (fun x => node_index (fst x) (snd x)) (leaves f'))
    by apply gsh_idents.
  rewrite <- I. clear I.
  set (step := fun x : string * F => _) in *.
  assert (X : forall l l' cy k k', map cutp l = map cutp l' -> rmap step l t k = Ok (cy, k') ->
     rmap step l' t k = Ok (map (fun x => (fst x, snd (snd x))) (combine (map fst l') cy), k')).
  { clear. induction l as [|x l IH]; intros [|y l'] cy k k' G Hcy; try discriminate.
    - injection Hcy as <- <-. reflexivity.
    - destruct (cut_cons _ _ _ _ G) as (E1 & E2 & G').
      cbn [rmap] in Hcy. apply rbind_Ok in Hcy as (z & k1 & Hz & Hcy).
      apply rbind_Ok in Hcy as (zs & k2 & Hzs & Hcy). apply rret_Ok in Hcy as [<- <-].
      cbn [map combine]. eapply rmap_cons_Ok; [|apply (IH _ _ _ _ G' Hzs)].
      subst step. cbn beta in *. rewrite <- E1, <- E2.
      apply rbind_Ok in Hz as (r & k3 & Hr & Hz). rewrite (rbind_run _ _ _ _ _ _ Hr).
      apply rbind_Ok in Hz as (h & k4 & Hh & Hz). rewrite (rbind_run _ _ _ _ _ _ Hh).
      apply rret_Ok in Hz as [<- <-]. reflexivity. }
  rewrite (rbind_run _ _ _ _ _ _ (X _ _ _ _ _ G Hcy)).
  rewrite Hd. rewrite (rbind_run (rlift (Ok _)) _ t _ _ _ eq_refl).
  reflexivity.
Qed.

(** ** LSW: a key for the longer names is a key for the cut policy *)

Theorem lsw_cut_rekey (pk : lsw_pk C) msk pol lang pol' lang' f f' t i sk j :
  parse pol lang = Ok (tree f) -> parse pol' lang' = Ok (tree f') -> cut f = cut f' ->
  lsw_keygen pk msk pol lang t i = Ok (sk, j) ->
  lsw_keygen pk msk pol' lang' t i = Ok (LswSk (pol', lang') (lsk_dj sk), j).
Proof.
  intros P P' E H. unfold lsw_keygen in *. rewrite P in H. rewrite P'.
  apply rbind_Ok in H as (v & i3 & Hv & H). apply rlift_Ok in Hv as [Hv <-]. injection Hv as <-.
  rewrite (rbind_run (rlift (Ok (tree f'))) _ t i (tree f') i) by reflexivity.
  apply rbind_Ok in H as (sh & i4 & Hsh & H). rewrite (gen_shares_policy_eq L) in Hsh.
  injection Hsh as <- <-.
  rewrite (rbind_run _ _ _ _ _ _ (gen_shares_policy_eq L f' _ None t i)).
  rewrite <- (nd_same f f' E).
  pose proof (gsh_same f f' (lmsk_alpha1 msk) t i E) as G.
  apply rbind_Ok in H as (dj & i5 & Hdj & H). apply rret_Ok in H as [<- <-].
  set (step := fun x : string * F => _) in *.
  assert (X : forall l l' k, map cutp l = map cutp l' -> rmap step l' t k = rmap step l t k).
  { clear. induction l as [|x l IH]; intros [|y l'] k G; try discriminate; [reflexivity|].
    destruct (cut_cons _ _ _ _ G) as (E1 & E2 & G').
    cbn [rmap]. unfold rbind. assert (Hy : step y = step x) by (subst step; cbn beta; now rewrite E1, E2).
    rewrite Hy. destruct (step x t k) as [[a k']| |]; [|reflexivity|reflexivity].
    now rewrite (IH _ k' G'). }
  rewrite <- (X _ _ _ G) in Hdj. rewrite (rbind_run _ _ _ _ _ _ Hdj). reflexivity.
Qed.

(** ** YCT14 *)

Theorem yct_cut_rekey (msk : yct_msk C) pol lang pol' lang' f f' t i sk j :
  parse pol lang = Ok (tree f) -> parse pol' lang' = Ok (tree f') -> cut f = cut f' ->
  yct_keygen msk pol lang t i = Ok (sk, j) ->
  yct_keygen msk pol' lang' t i = Ok (YctSk (pol', lang') (ysk_du sk), j).
Proof.
  intros P P' E H. unfold yct_keygen in *. rewrite P in H. rewrite P'.
  apply rbind_Ok in H as (v & i3 & Hv & H). apply rlift_Ok in Hv as [Hv <-]. injection Hv as <-.
  rewrite (rbind_run (rlift (Ok (tree f'))) _ t i (tree f') i) by reflexivity.
  apply rbind_Ok in H as (sh & i4 & Hsh & H). rewrite (gen_shares_policy_eq L) in Hsh.
  injection Hsh as <- <-.
  rewrite (rbind_run _ _ _ _ _ _ (gen_shares_policy_eq L f' _ None t i)).
  rewrite <- (nd_same f f' E).
  pose proof (gsh_same f f' (ymsk_s msk) t i E) as G.
  apply rbind_Ok in H as (du & i5 & Hdu & H). apply rlift_Ok in Hdu as [Hdu <-].
  apply rret_Ok in H as [<- <-].
  assert (X : forall l l', map cutp l = map cutp l' -> yct_du msk l' = yct_du msk l).
  { clear. induction l as [|x l IH]; intros [|y l'] G; try discriminate; [reflexivity|].
    destruct (cut_cons _ _ _ _ G) as (E1 & E2 & G').
    cbn [yct_du]. now rewrite E1, E2, (IH _ G'). }
  rewrite <- (X _ _ G) in Hdu. rewrite Hdu.
  rewrite (rbind_run (rlift (Ok du)) _ t _ _ _ eq_refl). reflexivity.
Qed.

(** ** AW11 *)

Lemma remove_index_none n : ~ In "_"%char (list_ascii_of_string n) -> remove_index n = n.
Proof.
  induction n as [|c n IH]; [reflexivity|]. cbn [list_ascii_of_string remove_index In]. intros H.
  destruct (Ascii.eqb_spec c "_") as [->|]; [tauto|]. rewrite IH; tauto.
Qed.
Lemma remove_index_at a b : ~ In "_"%char (list_ascii_of_string a) -> remove_index (a ++ String "_" b) = a.
Proof.
  induction a as [|c a IH]; [reflexivity|]. cbn [list_ascii_of_string append remove_index In]. intros H.
  destruct (Ascii.eqb_spec c "_") as [->|]; [tauto|]. rewrite IH; tauto.
Qed.
Lemma at_underscore n : ~ In "_"%char (list_ascii_of_string n) \/
  exists a b, n = (a ++ String "_" b)%string /\ ~ In "_"%char (list_ascii_of_string a).
Proof.
  induction n as [|c n IH]; [left; intros []|]. destruct (ascii_dec c "_") as [->|N].
  - right. exists ""%string, n. split; [reflexivity|intros []].
  - destruct IH as [H|(a & b & -> & H)].
    + left. cbn. intros [K|K]; auto.
    + right. exists (String c a), b. split; [reflexivity|]. cbn. intros [K|K]; auto.
Qed.

Lemma remove_index_upper n : remove_index (upper C n) = upper C (remove_index n).
Proof.
  destruct (at_underscore n) as [H|(a & b & -> & H)].
  - rewrite (remove_index_none n H). apply remove_index_none. now apply (upper_us L).
  - rewrite (upper_at L) by reflexivity. rewrite (remove_index_at a b H).
    apply remove_index_at. now apply (upper_us L).
Qed.

Lemma binary_and_cut f : binary_and (cut f) = binary_and f.
Proof.
  induction f as [n p|l IH|l IH] using formula_ind'; cbn [cut binary_and]; [reflexivity| |];
    rewrite map_length; f_equal; induction IH as [|g l H _ IHl]; cbn; [reflexivity| |reflexivity|];
    now rewrite H, IHl.
Qed.

(** Labels of the entries AW11 produces: leaves without public key have none. *)
Definition aw_labels (pks : list (aw_pk C)) (f : formula) : list string :=
  map (upper C) (filter (fun id => match find_pk_attr pks (before_us (upper C id)) with
                               | Some _ => true | None => false end)
               (map (fun x => node_index (fst x) (snd x)) (leaves f))).

Definition aw_retarget (pol : string) (lang : language) (ids : list string) (ct : aw_ct C)
  : aw_ct C :=
  AwCt (pol, lang) (awct_c0 ct)
    (map (fun x => (fst x, snd (fst (fst (snd x))), snd (fst (snd x)), snd (snd x)))
         (combine ids (awct_c ct))) (awct_data ct).

Theorem aw_cut_retarget nonce (gk : aw_gk C) pks pol lang pol' lang' f f' data t i ct j :
  parse pol lang = Ok (tree f) -> parse pol' lang' = Ok (tree f') -> cut f = cut f' ->
  aw_encrypt nonce gk pks pol lang data t i = Ok (ct, j) ->
  aw_encrypt nonce gk pks pol' lang' data t i =
    Ok (aw_retarget pol' lang' (aw_labels pks f') ct, j).
Proof.
  intros P P' E H.
  assert (B : binary_and f = true).
  { destruct (binary_and f) eqn:B; [reflexivity|]. rewrite (aw_encrypt_wide_and _ _ _ _ _ _ _ _ _ P B) in H.
    discriminate. }
  assert (B' : binary_and f' = true) by now rewrite <- binary_and_cut, <- E, binary_and_cut.
  destruct (aw_encrypt_runs L nonce gk pks pol' lang' data f' t i P' B') as (ct' & j' & H').
  rewrite H'. unfold aw_encrypt in H, H'. rewrite P in H. rewrite P' in H'.
  apply rbind_Ok in H as (v & i3 & Hv & H). apply rlift_Ok in Hv as [Hv <-]. injection Hv as <-.
  apply rbind_Ok in H as (ms & i4 & Hm & H). apply rlift_Ok in Hm as [_ <-].
  apply rbind_Ok in H as (r0 & i5 & Hr & H). apply rlift_Ok in Hr as [_ <-].
  apply rbind_Ok in H' as (v' & i3 & Hv' & H'). apply rlift_Ok in Hv' as [Hv' <-]. injection Hv' as <-.
  apply rbind_Ok in H' as (ms' & i4 & Hm' & H'). apply rlift_Ok in Hm' as [_ <-].
  apply rbind_Ok in H' as (r0' & i5 & Hr' & H'). apply rlift_Ok in Hr' as [_ <-].
  apply rbind_Ok in H as (s & i1 & Hs & H). rewrite (rbind_run _ _ _ _ _ _ Hs) in H'.
  rewrite (rbind_run _ _ _ _ _ _ (gen_shares_policy_eq L f s None t i1)) in H.
  rewrite (rbind_run _ _ _ _ _ _ (gen_shares_policy_eq L f' s None t i1)) in H'.
  rewrite <- (nd_same f f' E) in H'.
  rewrite (rbind_run _ _ _ _ _ _ (gen_shares_policy_eq L f 0 None t (i1 + nd f))) in H.
  rewrite (rbind_run _ _ _ _ _ _ (gen_shares_policy_eq L f' 0 None t (i1 + nd f))) in H'.
  rewrite <- (nd_same f f' E) in H'.
  apply rbind_Ok in H as (m & i2 & Hm & H). rewrite (rbind_run _ _ _ _ _ _ Hm) in H'.
  apply rbind_Ok in H as (c & i7 & Hc & H). apply rbind_Ok in H as (d & i8 & Hd & H).
  apply rlift_Ok in Hd as [Hd <-]. apply rret_Ok in H as [<- <-].
  apply rbind_Ok in H' as (c' & i7' & Hc' & H'). apply rbind_Ok in H' as (d' & i8 & Hd' & H').
  apply rlift_Ok in Hd' as [Hd' <-]. apply rret_Ok in H' as [<- <-].
  rewrite Hd in Hd'. injection Hd' as <-.
  pose proof (gsh_same f f' s t i1 E) as G.
  pose proof (gsh_same f f' 0 t (i1 + nd f) E) as G0.
  unfold aw_retarget, aw_labels. cbn [awct_c0 awct_c awct_data].
  assert (I : map (fun x => node_index (fst x) (snd x)) (leaves f') = map fst (gsh f' s t i1))
    by (symmetry; apply gsh_idents).
  rewrite I. clear I.
  assert (X : forall l l' k c c' a a' b b', map cutp l = map cutp l' ->
     rmap (fun ix => aw_entry gk pks (gsh f 0 t (i1 + nd f)) (fst ix) (snd ix))
          (combine (seq k (length l)) l) t a = Ok (c, b) ->
     rmap (fun ix => aw_entry gk pks (gsh f' 0 t (i1 + nd f)) (fst ix) (snd ix))
          (combine (seq k (length l')) l') t a' = Ok (c', b') -> a = a' ->
     b = b' /\
     concat c' = map (fun x => (fst x, snd (fst (fst (snd x))), snd (fst (snd x)), snd (snd x)))
       (combine (map (upper C) (filter (fun id => match find_pk_attr pks (before_us (upper C id)) with
                               | Some _ => true | None => false end) (map fst l'))) (concat c))).
  { clear - L G0. induction l as [|x l IH]; intros [|y l'] k c c' a a' b b' G H H' <-; try discriminate.
    - injection H as <- <-. injection H' as <- <-. split; reflexivity.
    - destruct (cut_cons _ _ _ _ G) as (E1 & E2 & G').
      cbn [length seq combine rmap] in H, H'.
      apply rbind_Ok in H as (e & a1 & He & H). apply rbind_Ok in H as (es & a2 & Hes & H).
      apply rret_Ok in H as [<- <-].
      apply rbind_Ok in H' as (e' & a1' & He' & H'). apply rbind_Ok in H' as (es' & a2' & Hes' & H').
      apply rret_Ok in H' as [<- <-].
      cbn [map filter concat fst snd] in *.
      unfold aw_entry in He, He'.
      apply rbind_Ok in He as (rx & k1 & Hr & He). rewrite (rbind_run _ _ _ _ _ _ Hr) in He'.
      rewrite remove_index_upper in He, He'. rewrite E1 in He.
      rewrite <- before_us_remove, remove_index_upper.
      destruct (find_pk_attr pks (upper C (remove_index (fst y)))) as [pa|].
      + apply rbind_Ok in He as (w & k2 & Hw & He). apply rlift_Ok in Hw as [Hw <-].
        apply rret_Ok in He as [<- <-].
        apply rbind_Ok in He' as (w' & k2' & Hw' & He'). apply rlift_Ok in Hw' as [Hw' <-].
        apply rret_Ok in He' as [<- <-].
        destruct (IH _ _ _ _ _ _ _ _ G' Hes Hes' eq_refl) as [-> ->]. split; [reflexivity|].
        assert (Ew : snd w = snd w').
        { assert (N : nth_error (map cutp (gsh f 0 t (i1 + nd f))) k = nth_error (map cutp (gsh f' 0 t (i1 + nd f))) k)
            by now rewrite G0.
          rewrite !nth_error_map in N.
          destruct (nth_error (gsh f 0 t (i1 + nd f)) k) as [q|]; [|discriminate Hw].
          destruct (nth_error (gsh f' 0 t (i1 + nd f)) k) as [q'|]; [|discriminate Hw'].
          injection Hw as ->. injection Hw' as ->. cbn in N. now injection N. }
        cbn [app map combine fst snd]. now rewrite E2, Ew.
      + apply rret_Ok in He as [<- <-]. apply rret_Ok in He' as [<- <-].
        destruct (IH _ _ _ _ _ _ _ _ G' Hes Hes' eq_refl) as [-> ->]. split; reflexivity. }
  destruct (X _ _ _ _ _ _ _ _ _ G Hc Hc' eq_refl) as [-> ->]. reflexivity.
Qed.

End Truncation.
