(** * PadProofs: YCT14 keys for one policy open what lacks a name (C159) *)
From Coq Require Import String List Bool Arith Lia Field.
From Verif Require Import Base Crypto Policy Tools Sharing Parse Spec PolicyProofs Poly SharingProofs SchemeLib ParseProofs Symmetric
  Draws DrawsProofs Yct14 Yct14Proofs Mixing Blending BlendingProofs Alternative AlternativeProofs Pad.
Import ListNotations.

Section PadProofs.
Context {C : crypto} (L : laws C).
Local Open Scope F_scope.
Add Field pad_field : (f_theory L).
Ltac logs := log_simpl L.

Lemma pad_missing miss (ct : yct_ct C) n : In n miss -> ct_get_public (yct_pad miss ct) n = Ok (gtone C).
Proof.
  unfold ct_get_public, yct_pad. cbn [yct_attrs]. induction miss as [|m miss IH]; intros I; [contradiction|].
  cbn [map List.app find y_name]. destruct (seqb m n) eqn:E; [reflexivity|].
  apply IH. destruct I as [->|I]; [rewrite seqb_refl in E; discriminate|exact I].
Qed.

Lemma pad_other miss (ct : yct_ct C) n : ~ In n miss -> ct_get_public (yct_pad miss ct) n = ct_get_public ct n.
Proof.
  unfold ct_get_public, yct_pad. cbn [yct_attrs]. induction miss as [|m miss IH]; intros I; [reflexivity|].
  cbn [map List.app find y_name]. destruct (seqb m n) eqn:E; [apply seqb_eq in E; subst; exfalso; apply I; now left|].
  apply IH. intros J. apply I. now right.
Qed.

(** A key whose entries for the missing names are zero. *)
Theorem yct_pad_opens nonce U (pk : yct_pk C) msk attrs miss sk pol lang data ct f
    ts is js tk ik jk te ie je :
  yct_setup U ts is = Ok ((pk, msk), js) ->
  yct_keygen msk pol lang tk ik = Ok (sk, jk) ->
  yct_encrypt nonce pk attrs data te ie = Ok (ct, je) ->
  parse pol lang = Ok (tree f) ->
  String.length nonce = 12%nat ->
  arity2 f = true -> NoDup (names f) -> plain_names f = true ->
  small_ok C (and_width f) ->
  incl miss U -> (forall n, In n miss -> In n (names f) -> sk_get_private sk n = Ok 0) ->
  sat (owns (miss ++ attrs)) f = true ->
  yct_decrypt sk (yct_pad miss ct) = Ok data.
Proof.
  intros Hs Hk He P Ln A ND PN SO IU Z S.
  apply (yct_setup_keys L) in Hs as (G & Hs).
  destruct (yct_encrypt_inv L _ _ _ _ _ _ _ _ _ _ _ Hs He) as (NE & _ & _ & E1 & Nm & E2).
  destruct (yct_keygen_inv L _ _ _ _ _ _ _ _ P Hk) as (K1 & _).
  assert (NDl : NoDup (leaves f)) by (eapply NoDup_map_inv; exact ND).
  unfold yct_decrypt. rewrite K1. cbn [fst snd]. rewrite P. cbn [obind].
  replace (map y_name (yct_attrs (yct_pad miss ct))) with (miss ++ attrs)%list
    by (unfold yct_pad; cbn [yct_attrs]; rewrite map_app, map_map, Nm; cbn [y_name]; now rewrite map_id).
  rewrite calc_pruned_tree by exact A. rewrite S. cbn [obind fst snd].
  rewrite (calc_coefficients_eq L). cbn [obind unwrap List.app].
  set (pr := map leaf_pair (sel (pmask (owns (miss ++ attrs)) f) (leaves f))).
  assert (X : forall l, incl l pr -> forall st, exists st',
    ofold (yct_step sk (yct_pad miss ct) (gco f 1)) l st = Ok st' /\
    logT L st' = logT L st + G * te ie *
      fsum (map (fun x => oval (assoc (snd x) (gco f 1)) *
                          oval (assoc (snd x) (gsh f (ymsk_s msk) tk ik))) l)).
  { induction l as [|x l IH]; intros Hi st.
    - exists st. cbn. split; [reflexivity|]. ring.
    - assert (Ix : In x pr) by (apply Hi; now left).
      destruct (pruned_leaf _ _ _ Ix) as (n & p & -> & Il & Io).
      destruct (coeff_of_leaf (C := C) f n p 1 Il) as (co & Eco).
      unfold owns in Io. apply smem_In in Io.
      destruct (in_dec string_dec n miss) as [Im|Nm'].
      + assert (Mn : exists si, msk_get_private msk n = Ok si).
        { destruct Hs as (_ & K). destruct (K n) as [(_ & g & si & _ & M & _)|(X & _)]; [eauto|exfalso; auto]. }
        destruct Mn as (si & Fm).
        destruct (yct_sk_get L f _ _ _ _ _ _ _ _ _ _ P Hk ND PN Il Fm) as (Ns & Fs).
        assert (In' : In n (names f)) by (unfold names; apply in_map_iff; exists (n, p); auto).
        pose proof (Z n Im In') as Z0. rewrite Fs in Z0.
        assert (V0 : oval (assoc (node_index n p) (gsh f (ymsk_s msk) tk ik)) = 0).
        { assert (Q : oval (assoc (node_index n p) (gsh f (ymsk_s msk) tk ik)) * finv C si = 0) by congruence.
          transitivity (oval (assoc (node_index n p) (gsh f (ymsk_s msk) tk ik)) * finv C si * si); [field; exact Ns|].
          rewrite Q. ring. }
        cbn [ofold]. unfold yct_step at 1. cbn [fst snd]. rewrite (pad_missing _ _ _ Im), Fs, (find_assoc_id _ _ _ Eco).
        cbn [unwrap unwrap_res obind fst snd].
        edestruct (IH (fun y Hy => Hi y (or_intror Hy))) as (st' & Es & V).
        exists st'. split; [exact Es|]. rewrite V. cbn [fst snd map fsum]. logs.
        rewrite V0. cbn [oval]. ring.
      + apply in_app_or in Io as [Io|Io]; [contradiction|].
        destruct (E2 n Io) as (g & si & Fg & Fm & V1).
        destruct (yct_sk_get L f _ _ _ _ _ _ _ _ _ _ P Hk ND PN Il Fm) as (Ns & Fs).
        cbn [ofold]. unfold yct_step at 1. cbn [fst snd]. rewrite (pad_other _ _ _ Nm'), Fg, Fs, (find_assoc_id _ _ _ Eco).
        cbn [unwrap unwrap_res obind fst snd].
        edestruct (IH (fun y Hy => Hi y (or_intror Hy))) as (st' & Es & V).
        exists st'. split; [exact Es|]. rewrite V. cbn [fst snd map fsum]. logs.
        rewrite Eco, V1. cbn [oval]. field. exact Ns. }
  destruct (X pr (incl_refl _) (gtone C)) as (st' & Es & V).
  unfold pr in V. rewrite (reconstruct_lookup L) in V by assumption. fold pr in V.
  rewrite Es. cbn [obind]. unfold yct_pad. cbn [yct_data]. apply (symmetric_roundtrip L nonce); [exact Ln|].
  rewrite <- E1. f_equal. apply (logT_inj L). logs. rewrite V. logs.
  destruct Hs as (Hg & _). rewrite Hg. ring.
Qed.

Lemma blend_get x (sk1 sk2 : yct_sk C) n a1 a2 : map y_name (ysk_du sk1) = map y_name (ysk_du sk2) ->
  sk_get_private sk1 n = Ok a1 -> sk_get_private sk2 n = Ok a2 -> sk_get_private (yct_blend x sk1 sk2) n = Ok (blF x a1 a2).
Proof.
  unfold sk_get_private, yct_blend, zip. cbn [ysk_du]. generalize (ysk_du sk2). induction (ysk_du sk1) as [|b l IH]; intros [|b' l'] E H1 H2; try discriminate.
  cbn [map] in E. injection E as En E. cbn [combine map fst snd find y_name] in *. rewrite <- En in H2.
  destruct (seqb (y_name b) n) eqn:Q; [|exact (IH l' E H1 H2)].
  unfold node_private in *. cbn [y_node]. destruct (y_node b) as [[g|u]|]; try discriminate. destruct (y_node b') as [[g|v]|]; try discriminate.
  congruence.
Qed.

Lemma same_names f (msk : yct_msk C) pol lang t1 i1 sk1 j1 t2 i2 sk2 j2 : parse pol lang = Ok (tree f) ->
  yct_keygen msk pol lang t1 i1 = Ok (sk1, j1) -> yct_keygen msk pol lang t2 i2 = Ok (sk2, j2) ->
  map y_name (ysk_du sk1) = map y_name (ysk_du sk2).
Proof.
  intros P H1 H2. destruct (yct_keygen_inv L _ _ _ _ _ _ _ _ P H1) as (_ & K1). destruct (yct_keygen_inv L _ _ _ _ _ _ _ _ P H2) as (_ & K2).
  now rewrite (yct_du_names _ _ _ K1), (yct_du_names _ _ _ K2), !gsh_removed.
Qed.

(** Two keys for the same policy. *)
Theorem yct_opens_without nonce U (pk : yct_pk C) msk attrs n sk1 sk2 a1 a2 pol lang data ct f
    ts is js t1 i1 j1 t2 i2 j2 te ie je :
  yct_setup U ts is = Ok ((pk, msk), js) ->
  yct_keygen msk pol lang t1 i1 = Ok (sk1, j1) ->
  yct_keygen msk pol lang t2 i2 = Ok (sk2, j2) ->
  yct_encrypt nonce pk attrs data te ie = Ok (ct, je) ->
  parse pol lang = Ok (tree f) ->
  String.length nonce = 12%nat ->
  arity2 f = true -> NoDup (names f) -> plain_names f = true ->
  small_ok C (and_width f) ->
  In n U -> sk_get_private sk1 n = Ok a1 -> sk_get_private sk2 n = Ok a2 -> a1 <> a2 ->
  sat (owns (n :: attrs)) f = true ->
  yct_open_without sk1 sk2 n ct = Ok data.
Proof.
  intros Hs H1 H2 He P Ln A ND PN SO IU V1 V2 NE S.
  unfold yct_open_without, yct_cancel. rewrite V1, V2. cbn [obind]. set (x := a2 * finv C (a2 - a1)).
  destruct (yct_blended L x msk pol lang _ _ _ _ _ _ _ _ H1 H2) as (m & _ & _ & Hb).
  assert (D : a2 - a1 <> 0) by (apply (f_sub_neq_0 L); congruence).
  eapply yct_pad_opens; try eassumption.
  - intros y [<-|[]]. exact IU.
  - intros y [<-|[]] In'. 
    rewrite (blend_get x sk1 sk2 n a1 a2 (same_names f _ _ _ _ _ _ _ _ _ _ _ P H1 H2) V1 V2). f_equal.
    unfold blF, x. field. exact D.
Qed.

(** Any number of keys. *)
Definition nulled (msk : yct_msk C) pol lang (ns : list string) (k : yct_sk C) : Prop :=
  (exists t i j, yct_keygen msk pol lang t i = Ok (k, j)) /\ forall n, In n ns -> sk_get_private k n = Ok 0.

Lemma without_nulled f (msk : yct_msk C) pol lang n ns keys : parse pol lang = Ok (tree f) ->
  Forall (nulled msk pol lang ns) keys -> forall l, yct_without n keys = Ok l -> Forall (nulled msk pol lang (n :: ns)) l.
Proof.
  intros P. induction keys as [|k keys IH]; intros H l E; [cbn in E; injection E as <-; constructor|].
  destruct keys as [|k' keys]; [cbn in E; injection E as <-; constructor|].
  inversion H as [|? ? ((t & i & j & Hk) & Z) H']; subst. inversion H' as [|? ? ((t' & i' & j' & Hk') & Z') _]; subst.
  change (yct_without n (k :: k' :: keys)) with (obind (sk_get_private k n) (fun a => obind (sk_get_private k' n) (fun a' =>
    if feqb C a a' then Err else obind (yct_without n (k' :: keys)) (fun l => Ok (yct_blend (a' * finv C (a' - a)) k k' :: l))))) in E.
  apply obind_Ok in E as (a & Ea & E). apply obind_Ok in E as (a' & Ea' & E). destruct (feqb C a a') eqn:Q; [discriminate|].
  apply obind_Ok in E as (r & Er & E). injection E as <-. apply (feqb_neq L) in Q.
  constructor; [|exact (IH H' r Er)].
  pose proof (same_names f _ _ _ _ _ _ _ _ _ _ _ P Hk Hk') as Sn.
  destruct (yct_blended L (a' * finv C (a' - a)) msk pol lang _ _ _ _ _ _ _ _ Hk Hk') as (m & _ & _ & Hb).
  split; [eauto|]. intros y [<-|Iy].
  - rewrite (blend_get _ _ _ _ _ _ Sn Ea Ea'). f_equal. unfold blF. field. apply (f_sub_neq_0 L). congruence.
  - rewrite (blend_get _ _ _ _ _ _ Sn (Z y Iy) (Z' y Iy)). f_equal. unfold blF. ring.
Qed.

Lemma eliminate_nulled f (msk : yct_msk C) pol lang miss : parse pol lang = Ok (tree f) -> forall ns keys sk,
  Forall (nulled msk pol lang ns) keys -> yct_eliminate miss keys = Ok sk -> nulled msk pol lang (rev miss ++ ns) sk.
Proof.
  intros P. induction miss as [|n miss IH]; intros ns keys sk H E; cbn [yct_eliminate] in E.
  - destruct H as [|k keys Hk _]; [discriminate|]. injection E as <-. exact Hk.
  - apply obind_Ok in E as (l & El & E). cbn [rev]. rewrite <- app_assoc. cbn [List.app].
    eapply IH; [|exact E]. eapply without_nulled; eassumption.
Qed.

Theorem yct_many_open nonce U (pk : yct_pk C) msk attrs miss keys sk pol lang data ct f ts is js te ie je :
  yct_setup U ts is = Ok ((pk, msk), js) ->
  Forall (fun k => exists t i j, yct_keygen msk pol lang t i = Ok (k, j)) keys ->
  yct_encrypt nonce pk attrs data te ie = Ok (ct, je) ->
  parse pol lang = Ok (tree f) ->
  String.length nonce = 12%nat ->
  arity2 f = true -> NoDup (names f) -> plain_names f = true ->
  small_ok C (and_width f) ->
  incl miss U -> yct_eliminate miss keys = Ok sk ->
  sat (owns (miss ++ attrs)) f = true ->
  yct_decrypt sk (yct_pad miss ct) = Ok data.
Proof.
  intros Hs Hk He P Ln A ND PN SO IU E S.
  assert (H : Forall (nulled msk pol lang []) keys).
  { eapply Forall_impl; [|exact Hk]. intros k Ek. split; [exact Ek|]. intros n []. }
  destruct (eliminate_nulled f msk pol lang miss P [] keys sk H E) as ((t & i & j & K) & Z).
  eapply yct_pad_opens; try eassumption. intros n In' _. apply Z. apply in_or_app. left. now apply -> in_rev.
Qed.
End PadProofs.
