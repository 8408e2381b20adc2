(** * Proofs about the YCT14 scheme *)
From Coq Require Import String List Bool Arith Lia Field.
From Verif Require Import Base Crypto Policy Tools Sharing Spec PolicyProofs Poly
  SharingProofs Symmetric Parse SchemeLib Yct14.
Import ListNotations.

Section Yct14Proofs.
Context {C : crypto} (L : laws C).
Local Open Scope F_scope.
Add Field yct_field : (f_theory L).
Notation F := (F C).

Ltac logs := log_simpl L.

(** The published and the secret part of every registered attribute belong together. *)
Definition yct_keys (G : F) (U : list string) (pk : yct_pk C) (msk : yct_msk C) : Prop :=
  logT L (ypk_g pk) = G * ymsk_s msk /\
  forall n,
    (In n U /\ exists g si,
       find (fun a => seqb (y_name a) n) (ypk_attrs pk) = Some (YAttr n (Some (YPub g))) /\
       msk_get_private msk n = Ok si /\ logT L g = G * si) \/
    (~ In n U /\ find (fun a => seqb (y_name a) n) (ypk_attrs pk) = None /\
       msk_get_private msk n = Err).

Lemma yct_setup_keys U t i (pk : yct_pk C) msk j : yct_setup U t i = Ok ((pk, msk), j) ->
  exists G, yct_keys G U pk msk.
Proof.
  unfold yct_setup. intros H.
  apply rbind_Ok in H as (s & i1 & Hs & H). injection Hs as <- <-.
  apply rbind_Ok in H as (g & i2 & _ & H).
  apply rbind_Ok in H as (pairs & i3 & Hp & H). apply rret_Ok in H as [H _]. injection H as <- <-.
  exists (logT L g). split; cbn [ypk_g ymsk_s].
  - logs. ring.
  - apply rmap_Forall2 in Hp. unfold msk_get_private. cbn [ypk_attrs ymsk_attrs]. intros n.
    induction Hp as [|a pq U pairs (x & y & Hx) _ IH]; cbn [map find].
    + right. repeat split; auto.
    + apply rbind_Ok in Hx as (si & i4 & Hsi & Hx). injection Hsi as <- <-.
      apply rret_Ok in Hx as [<- _]. cbn [fst snd y_name y_node].
      destruct (seqb a n) eqn:E; cbn [andb].
      * apply seqb_eq in E. subst a. left. split; [now left|].
        eexists _, _. split; [reflexivity|]. split; [reflexivity|]. logs. ring.
      * apply seqb_neq in E. destruct IH as [(I & g' & si & H1 & H2 & H3)|(I & H1 & H2)].
        -- left. split; [now right|]. exists g', si. auto.
        -- right. split; [intros [->|?]; auto|]. auto.
Qed.

Lemma private_from_Ok (msk : yct_msk C) n v si : msk_get_private msk n = Ok si ->
  forall a, private_from (n, v) msk = Ok a -> si <> 0 /\ a = YAttr n (Some (YPriv (v * finv C si))).
Proof.
  intros H a. unfold private_from. cbn [fst snd]. rewrite H. cbn [obind].
  destruct (finv_opt si) as [x|] eqn:E; [|discriminate]. cbn. intros E'. injection E' as <-.
  apply (finv_opt_Some L) in E as [N ->]. auto.
Qed.

Lemma private_from_name (msk : yct_msk C) n v a : private_from (n, v) msk = Ok a -> y_name a = n.
Proof.
  unfold private_from. cbn [fst snd]. intros H.
  apply obind_Ok in H as (si & _ & H). apply obind_Ok in H as (x & _ & H). now injection H as <-.
Qed.

Lemma yct_du_find (msk : yct_msk C) sh : forall du, yct_du msk sh = Ok du ->
  NoDup (map (fun x => remove_index (fst x)) sh) ->
  forall k v si, In (k, v) sh -> msk_get_private msk (remove_index k) = Ok si ->
  si <> 0 /\ find (fun a => seqb (y_name a) (remove_index k)) du =
     Some (YAttr (remove_index k) (Some (YPriv (v * finv C si)))).
Proof.
  induction sh as [|[k0 v0] sh IH]; intros du H ND k v si I Hm; [contradiction|].
  cbn [yct_du] in H. inversion ND as [|? ? Nin ND']; subst. cbn [fst snd] in *.
  destruct (private_from (remove_index k0, v0) msk) as [a| |] eqn:Ea; [| |discriminate].
  - apply obind_Ok in H as (l & Hl & H). injection H as <-. cbn [find].
    destruct I as [E|I].
    + injection E as -> ->. destruct (private_from_Ok _ _ _ _ Hm _ Ea) as (Ns & ->).
      cbn. rewrite seqb_refl. auto.
    + rewrite (private_from_name _ _ _ _ Ea).
      destruct (seqb (remove_index k0) (remove_index k)) eqn:B.
      * apply seqb_eq in B. exfalso. apply Nin. rewrite B. apply in_map_iff. now exists (k, v).
      * eapply IH; eauto.
  - destruct I as [E|I]; [|eapply IH; eauto].
    injection E as -> ->. unfold private_from in Ea. cbn [fst snd] in Ea. rewrite Hm in Ea.
    cbn in Ea. destruct (finv_opt si); discriminate.
Qed.

Lemma yct_keygen_inv (msk : yct_msk C) pol lang t i sk j f :
  parse pol lang = Ok (tree f) -> yct_keygen msk pol lang t i = Ok (sk, j) ->
  ysk_policy sk = (pol, lang) /\ yct_du msk (gsh f (ymsk_s msk) t i) = Ok (ysk_du sk).
Proof.
  intros P H. unfold yct_keygen in H. rewrite P in H.
  apply rbind_Ok in H as (v & i1 & Hv & H). apply rlift_Ok in Hv as [Hv <-]. injection Hv as <-.
  apply rbind_Ok in H as (sh & i2 & Hsh & H). rewrite (gen_shares_policy_eq L) in Hsh.
  injection Hsh as <- <-.
  apply rbind_Ok in H as (du & i3 & Hd & H). apply rlift_Ok in Hd as [Hd <-].
  apply rret_Ok in H as [<- _]. auto.
Qed.

Lemma yct_sk_get f (msk : yct_msk C) pol lang t i sk j n p si :
  parse pol lang = Ok (tree f) -> yct_keygen msk pol lang t i = Ok (sk, j) ->
  NoDup (names f) -> plain_names f = true ->
  In (n, p) (leaves f) -> msk_get_private msk n = Ok si ->
  si <> 0 /\
  sk_get_private sk n = Ok (oval (assoc (node_index n p) (gsh f (ymsk_s msk) t i)) * finv C si).
Proof.
  intros P Hk ND PN Il Hm. destruct (yct_keygen_inv _ _ _ _ _ _ _ _ P Hk) as (_ & K2).
  destruct (share_of_leaf f n p (ymsk_s msk) t i Il) as (sh & Esh).
  assert (Rn : remove_index (node_index n p) = n)
    by (apply remove_index_leaf; eapply plain_leaf; eauto).
  assert (NDg : NoDup (map (fun x => remove_index (fst x)) (gsh f (ymsk_s msk) t i)))
    by (rewrite gsh_names by exact PN; exact ND).
  pose proof (yct_du_find _ _ _ K2 NDg _ _ si (assoc_In_pair _ _ _ Esh)) as X.
  rewrite Rn in X. destruct (X Hm) as (Ns & Fd). split; [exact Ns|].
  unfold sk_get_private. rewrite Fd, Esh. reflexivity.
Qed.

Lemma yct_encrypt_inv nonce G U (pk : yct_pk C) msk attrs data t i ct j :
  yct_keys G U pk msk ->
  yct_encrypt nonce pk attrs data t i = Ok (ct, j) ->
  attrs <> [] /\ data <> EmptyString /\ incl attrs U /\
  encrypt_symmetric nonce (gtpow C (ypk_g pk) (t i)) data = Ok (yct_data ct) /\
  map y_name (yct_attrs ct) = attrs /\
  forall n, In n attrs -> exists g si, ct_get_public ct n = Ok g /\
    msk_get_private msk n = Ok si /\ logT L g = G * si * t i.
Proof.
  intros (_ & K) H. unfold yct_encrypt in H.
  destruct attrs as [|a0 at0]; [discriminate|]. destruct data as [|c d]; [discriminate|].
  set (attrs := a0 :: at0) in *. set (data := String c d) in *.
  apply rbind_Ok in H as (k & i1 & Hk & H). injection Hk as <- <-.
  apply rbind_Ok in H as (l & i2 & Hl & H). apply rlift_Ok in Hl as [Hl <-].
  apply rbind_Ok in H as (e & i3 & He & H). apply rlift_Ok in He as [He <-].
  apply rret_Ok in H as [<- _]. cbn [yct_data yct_attrs].
  split; [discriminate|]. split; [discriminate|].
  assert (X : Forall2 (fun n a => y_name a = n /\ (In n U /\ exists g si, a = YAttr n (Some (YPub g)) /\
     msk_get_private msk n = Ok si /\ logT L g = G * si * t i)) attrs l).
  { apply omap_Forall2 in Hl. eapply Forall2_impl; [|exact Hl]. intros n a Ha. cbn in Ha.
    unfold public_from in Ha. destruct (K n) as [(I & g & si & H1 & H2 & H3)|(_ & H1 & _)].
    - rewrite H1 in Ha. cbn in Ha. injection Ha as <-. cbn. split; [reflexivity|]. split; [exact I|].
      eexists _, _. split; [reflexivity|]. split; [exact H2|]. logs. rewrite H3. ring.
    - rewrite H1 in Ha. discriminate. }
  clearbody attrs. split; [|split; [exact He|split]].
  - intros n In'. clear - X In'. induction X as [|m a attrs l (_ & I & _) _ IH]; [contradiction|].
    destruct In' as [->|In']; auto.
  - clear - X. induction X as [|m a attrs l (E & _) _ IH]; cbn; congruence.
  - intros n I. destruct (find_key _ _ _ _ _ X I) as (a & Fa & _ & _ & g & si & -> & H2 & H3).
    exists g, si. split; [|auto]. unfold ct_get_public. cbn [yct_attrs]. rewrite Fa. reflexivity.
Qed.

Theorem yct_correct nonce U (pk : yct_pk C) msk attrs sk pol lang data ct f
    ts is js tk ik jk te ie je :
  yct_setup U ts is = Ok ((pk, msk), js) ->
  yct_keygen msk pol lang tk ik = Ok (sk, jk) ->
  yct_encrypt nonce pk attrs data te ie = Ok (ct, je) ->
  parse pol lang = Ok (tree f) ->
  String.length nonce = 12%nat ->
  arity2 f = true -> NoDup (names f) -> plain_names f = true ->
  small_ok C (and_width f) ->
  sat (owns attrs) f = true ->
  yct_decrypt sk ct = Ok data.
Proof.
  intros Hs Hk He P Ln A ND PN SO S.
  apply yct_setup_keys in Hs as (G & Hs).
  destruct (yct_encrypt_inv _ _ _ _ _ _ _ _ _ _ _ Hs He) as (NE & _ & _ & E1 & Nm & E2).
  destruct (yct_keygen_inv _ _ _ _ _ _ _ _ P Hk) as (K1 & _).
  assert (NDl : NoDup (leaves f)) by (eapply NoDup_map_inv; exact ND).
  unfold yct_decrypt. rewrite K1. cbn [fst snd]. rewrite P. cbn [obind].
  rewrite Nm. rewrite calc_pruned_tree by exact A. rewrite S. cbn [obind fst snd].
  rewrite (calc_coefficients_eq L). cbn [obind unwrap app].
  set (pr := map leaf_pair (sel (pmask (owns attrs) f) (leaves f))).
  assert (X : forall l, incl l pr -> forall st, exists st',
    ofold (yct_step sk ct (gco f 1)) l st = Ok st' /\
    logT L st' = logT L st + G * te ie *
      fsum (map (fun x => oval (assoc (snd x) (gco f 1)) *
                          oval (assoc (snd x) (gsh f (ymsk_s msk) tk ik))) l)).
  { induction l as [|x l IH]; intros Hi st.
    - exists st. cbn. split; [reflexivity|]. ring.
    - assert (Ix : In x pr) by (apply Hi; now left).
      destruct (pruned_leaf _ _ _ Ix) as (n & p & -> & Il & Io).
      destruct (coeff_of_leaf (C := C) f n p 1 Il) as (co & Eco).
      unfold owns in Io. apply smem_In in Io.
      destruct (E2 n Io) as (g & si & Fg & Fm & V1).
      destruct (yct_sk_get f _ _ _ _ _ _ _ _ _ _ P Hk ND PN Il Fm) as (Ns & Fs).
      cbn [ofold]. unfold yct_step at 1. cbn [fst snd]. rewrite Fg, Fs, (find_assoc_id _ _ _ Eco).
      cbn [unwrap unwrap_res obind fst snd].
      edestruct (IH (fun y Hy => Hi y (or_intror Hy))) as (st' & Es & V).
      exists st'. split; [exact Es|]. rewrite V. cbn [fst snd map fsum]. logs.
      rewrite Eco, V1. cbn [oval]. field. exact Ns. }
  destruct (X pr (incl_refl _) (gtone C)) as (st' & Es & V).
  unfold pr in V. rewrite (reconstruct_lookup L) in V by assumption. fold pr in V.
  rewrite Es. cbn [obind]. apply (symmetric_roundtrip L nonce); [exact Ln|].
  rewrite <- E1. f_equal. apply (logT_inj L). logs. rewrite V. logs.
  destruct Hs as (Hg & _). rewrite Hg. ring.
Qed.

(** ** Progress *)

Lemma yct_setup_runs U t i : exists (pk : yct_pk C) (msk : yct_msk C) j,
  yct_setup U t i = Ok ((pk, msk), j).
Proof.
  unfold yct_setup. erewrite rbind_run by reflexivity.
  erewrite rbind_run by (unfold draw_gt; erewrite rbind_run by reflexivity; reflexivity).
  match goal with |- context [rmap ?f U] => destruct (rmap_runs f U) with (t := t) (i := S (S i)) as (r & j & E) end.
  - intros x t' i' _. unfold yct_new. erewrite rbind_run by reflexivity. eexists _, _. reflexivity.
  - erewrite rbind_run by exact E. eexists _, _, _. reflexivity.
Qed.

Lemma yct_keygen_runs G U (pk : yct_pk C) (msk : yct_msk C) pol lang f t i :
  yct_keys G U pk msk -> parse pol lang = Ok (tree f) ->
  (forall n, msk_get_private msk n <> Ok 0) ->
  exists sk j, yct_keygen msk pol lang t i = Ok (sk, j).
Proof.
  intros (_ & K) P NZ. unfold yct_keygen. rewrite P. erewrite rbind_run by reflexivity.
  erewrite rbind_run by apply (gen_shares_policy_eq L).
  assert (X : forall l, exists du, yct_du msk l = Ok du).
  { induction l as [|[k v] l (du & IH)]; cbn [yct_du]; [eauto|].
    unfold private_from. cbn [fst snd]. rewrite IH.
    destruct (K (remove_index k)) as [(_ & g & si & _ & H & _)|(_ & _ & H)].
    - pose proof (NZ (remove_index k)) as N. rewrite H in *. cbn [obind].
      rewrite (finv_opt_neq L) by congruence. cbn. eauto.
    - rewrite H. cbn. eauto. }
  destruct (X (gsh f (ymsk_s msk) t i)) as (du & E). rewrite E.
  erewrite rbind_run by reflexivity. eexists _, _. reflexivity.
Qed.

Lemma yct_encrypt_runs nonce G U (pk : yct_pk C) msk attrs data t i :
  yct_keys G U pk msk -> attrs <> [] -> data <> EmptyString -> incl attrs U ->
  exists ct j, yct_encrypt nonce pk attrs data t i = Ok (ct, j).
Proof.
  intros (_ & K) NE ND I. unfold yct_encrypt. destruct attrs as [|a0 at0]; [congruence|].
  destruct data as [|c d]; [congruence|]. set (attrs := a0 :: at0) in *. clearbody attrs.
  erewrite rbind_run by reflexivity.
  destruct (omap_runs (public_from pk (t i)) attrs) as (l & E).
  - intros n In'. unfold public_from.
    destruct (K n) as [(_ & g & si & H & _ & _)|(N & _ & _)]; [|now apply I in In'].
    rewrite H. cbn. eauto.
  - rewrite E. erewrite rbind_run by reflexivity. eexists _, _. reflexivity.
Qed.

(** ** Rejection *)

Theorem yct_reject (sk : yct_sk C) ct f :
  parse (fst (ysk_policy sk)) (snd (ysk_policy sk)) = Ok (tree f) -> arity2 f = true ->
  sat (owns (map y_name (yct_attrs ct))) f = false ->
  yct_decrypt sk ct = Err.
Proof.
  intros P A S. unfold yct_decrypt. rewrite P. cbn [obind].
  rewrite calc_pruned_tree by exact A. rewrite S. reflexivity.
Qed.

(** ** Two keys for "A and B" give a key for "A" *)

Definition yct_forge (sk1 sk2 : yct_sk C) (A B : string) (policy : string) (lang : language)
  : outcome (yct_sk C) :=
  obind (sk_get_private sk1 A) (fun a1 =>
  obind (sk_get_private sk1 B) (fun b1 =>
  obind (sk_get_private sk2 A) (fun a2 =>
  obind (sk_get_private sk2 B) (fun b2 =>
  let two := fadd C (f1 C) (f1 C) in
  let c := fmul C (fmul C two (fsub C a1 a2)) (finv C (fsub C b1 b2)) in
  let x := fsub C (fmul C two a1) (fmul C b1 c) in
  Ok (YctSk (policy, lang) [YAttr A (Some (YPriv x))]))))).

Theorem yct_forge_works U (pk : yct_pk C) msk A B pA pB p pol1 lang1 pol2 lang2 pol lang sk1 sk2
    ts is js t1 i1 j1 t2 i2 j2 :
  yct_setup U ts is = Ok ((pk, msk), js) ->
  parse pol1 lang1 = Ok (tree (FAnd [FLeaf A pA; FLeaf B pB])) ->
  parse pol2 lang2 = Ok (tree (FAnd [FLeaf A pA; FLeaf B pB])) ->
  parse pol lang = Ok (tree (FLeaf A p)) ->
  yct_keygen msk pol1 lang1 t1 i1 = Ok (sk1, j1) ->
  yct_keygen msk pol2 lang2 t2 i2 = Ok (sk2, j2) ->
  In A U -> In B U -> A <> B -> no_us A = true -> no_us B = true ->
  (1 + 1 : F) <> 0 -> t1 i1 <> t2 i2 ->
  exists sk, yct_forge sk1 sk2 A B pol lang = Ok sk /\
    forall t i, yct_keygen msk pol lang t i = Ok (sk, i).
Proof.
  intros Hs P1 P2 P H1 H2 IA IB NAB UA UB N2 NT.
  apply yct_setup_keys in Hs as (G & _ & K).
  destruct (K A) as [(_ & gA & sA & _ & MA & _)|(X & _)]; [|contradiction].
  destruct (K B) as [(_ & gB & sB & _ & MB & _)|(X & _)]; [|contradiction].
  set (f := FAnd [FLeaf A pA; FLeaf B pB]) in *.
  assert (ND : NoDup (names f)).
  { cbn. constructor; [intros [E|[]]; congruence|]. constructor; [intros []|constructor]. }
  assert (PN : plain_names f = true) by (cbn; now rewrite UA, UB).
  assert (LA : In (A, pA) (leaves f)) by (cbn; auto).
  assert (LB : In (B, pB) (leaves f)) by (cbn; auto).
  destruct (yct_sk_get f _ _ _ _ _ _ _ _ _ _ P1 H1 ND PN LA MA) as (NA & V1A).
  destruct (yct_sk_get f _ _ _ _ _ _ _ _ _ _ P1 H1 ND PN LB MB) as (NB & V1B).
  destruct (yct_sk_get f _ _ _ _ _ _ _ _ _ _ P2 H2 ND PN LA MA) as (_ & V2A).
  destruct (yct_sk_get f _ _ _ _ _ _ _ _ _ _ P2 H2 ND PN LB MB) as (_ & V2B).
  assert (NI : seqb (node_index A pA) (node_index B pB) = false).
  { apply seqb_neq. intros E. apply node_index_inj in E as [E _]. contradiction. }
  assert (SA : forall (s : F) t i, oval (assoc (node_index A pA) (gsh f s t i)) = s + t i).
  { intros s t i. unfold f. cbn [gsh app assoc length Nat.sub seq map]. rewrite seqb_refl.
    cbn. ring. }
  assert (SB : forall (s : F) t i, oval (assoc (node_index B pB) (gsh f s t i)) = s + (1 + 1) * t i).
  { intros s t i. unfold f. cbn [gsh app assoc length Nat.sub seq map]. rewrite NI, seqb_refl.
    cbn. ring. }
  rewrite SA in V1A, V2A. rewrite SB in V1B, V2B.
  unfold yct_forge. rewrite V1A, V1B, V2A, V2B. cbn [obind].
  eexists. split; [reflexivity|]. intros t i.
  unfold yct_keygen. rewrite P. cbn [tree]. erewrite rbind_run by reflexivity.
  cbn [gen_shares_policy]. erewrite rbind_run by reflexivity.
  cbn [yct_du fst snd]. rewrite remove_index_leaf by exact UA.
  unfold private_from. cbn [fst snd]. rewrite MA. cbn [obind].
  rewrite (finv_opt_neq L) by exact NA. cbn [unwrap obind].
  erewrite rbind_run by reflexivity. unfold rret. do 6 f_equal.
  generalize (ymsk_s msk). intros s. f_equal.
  assert (D : t1 i1 - t2 i2 <> 0) by (now apply (f_sub_neq_0 L)).
  revert D N2. generalize (t1 i1) (t2 i2). clear - L NA NB. intros r1 r2 D N2.
  replace ((s + (1 + 1) * r1) * finv C sB - (s + (1 + 1) * r2) * finv C sB)
    with ((1 + 1) * (r1 - r2) * finv C sB) by (field; auto).
  field. auto.
Qed.

End Yct14Proofs.

(** ** The accessors *)

(** The entry that decides: the first of this name (among those with a value, for
    the master key). *)
Inductive decides {C : crypto} (ok : yct_attr C -> Prop) (n : string) : list (yct_attr C) -> yct_attr C -> Prop :=
| decides_here a l : y_name a = n -> ok a -> decides ok n (a :: l) a
| decides_later a b l : ~ (y_name b = n /\ ok b) -> decides ok n l a -> decides ok n (b :: l) a.

Lemma find_decides {C : crypto} (ok : yct_attr C -> Prop) (f : yct_attr C -> bool) n l :
  (forall a, f a = true <-> y_name a = n /\ ok a) ->
  match find f l with
  | Some a => decides ok n l a
  | None => forall a, In a l -> ~ (y_name a = n /\ ok a)
  end.
Proof.
  intros H. induction l as [|b l IH]; cbn [find]; [intros a []|].
  destruct (f b) eqn:X.
  - apply H in X as [A B]. now constructor.
  - assert (N : ~ (y_name b = n /\ ok b)) by (rewrite <- H; congruence).
    destruct (find f l); [now apply decides_later|]. intros a [<-|I]; [exact N|now apply IH].
Qed.

(** What a look-up of [n] gives. *)
Definition looked_up {C : crypto} {V} (ok : yct_attr C -> Prop) (part : yct_type C -> option V) (n : string)
  (l : list (yct_attr C)) (o : outcome V) : Prop :=
  (o = Err /\ forall a, In a l -> ~ (y_name a = n /\ ok a)) \/
  (exists a, decides ok n l a /\
     match y_node a with
     | Some x => match part x with Some v => o = Ok v | None => o = Panic end
     | None => o = Panic
     end).

Lemma yct_lookups {C : crypto} (n : string) :
  (forall ct : yct_ct C, looked_up (fun _ => True) (fun x => match x with YPub g => Some g | YPriv _ => None end) n
     (yct_attrs ct) (ct_get_public ct n)) /\
  (forall sk : yct_sk C, looked_up (fun _ => True) (fun x => match x with YPub _ => None | YPriv x => Some x end) n
     (ysk_du sk) (sk_get_private sk n)) /\
  (forall msk : yct_msk C, looked_up (fun a => y_node a <> None) (fun x => match x with YPub _ => None | YPriv x => Some x end) n
     (ymsk_attrs msk) (msk_get_private msk n)).
Proof.
  assert (S : forall a : yct_attr C, seqb (y_name a) n = true <-> y_name a = n /\ True)
    by (intros a; unfold seqb; rewrite String.eqb_eq; tauto).
  unfold looked_up, ct_get_public, sk_get_private, msk_get_private, node_public, node_private. split; [|split].
  - intros ct. pose proof (find_decides _ _ n (yct_attrs ct) S) as D.
    destruct (find _ _) as [a|]; [right|now left]. exists a. split; [exact D|]. destruct (y_node a) as [[]|]; reflexivity.
  - intros sk. pose proof (find_decides _ _ n (ysk_du sk) S) as D.
    destruct (find _ _) as [a|]; [right|now left]. exists a. split; [exact D|]. destruct (y_node a) as [[]|]; reflexivity.
  - intros msk. pose proof (find_decides (fun a => y_node a <> None)
      (fun a => seqb (y_name a) n && match y_node a with Some _ => true | None => false end)%bool n (ymsk_attrs msk)) as D.
    destruct (find _ _) as [a|]; [right|left; split; [reflexivity|apply D]].
    + exists a. split; [apply D|destruct (y_node a) as [[]|]; reflexivity].
      intros b. rewrite andb_true_iff. unfold seqb. rewrite String.eqb_eq. destruct (y_node b); intuition discriminate.
    + intros b. rewrite andb_true_iff. unfold seqb. rewrite String.eqb_eq. destruct (y_node b); intuition discriminate.
Qed.
