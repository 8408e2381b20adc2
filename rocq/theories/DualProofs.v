(** * DualProofs: when YCT14 keys for a conjunction say nothing about a ciphertext (C160) *)
From Coq Require Import String List Bool Arith Lia Field.
From Verif Require Import Base Crypto Policy Tools Sharing Parse Spec PolicyProofs Poly SharingProofs SchemeLib ParseProofs Symmetric
  Draws DrawsProofs Yct14 Yct14Proofs Alternative AlternativeProofs Isolate IsolateProofs Pad PadProofs Generic GenericProofs Dual.
Import ListNotations.

Section DualProofs.
Context {C : crypto} (L : laws C).
Local Open Scope F_scope.
Add Field dual_field : (f_theory L).

(** ** A polynomial through given values *)
Lemma through (pts ys : list (F C)) : NoDup pts -> length ys = length pts ->
  exists l, length l = length pts /\ map (ev l) pts = ys.
Proof.
  intros ND Hl.
  assert (X : forall q zs, incl q pts -> length zs = length q -> exists l, length l = length pts /\
    forall x, ev l x = scalar (map (fun i => lprod i pts x) q) zs).
  { induction q as [|i q IH]; intros [|z zs] Hi Hz; try discriminate.
    - exists (repeat 0 (length pts)). split; [apply repeat_length|]. intros x. now rewrite (ev_zeros L).
    - destruct (IH zs) as (l & Ll & El); [intros y Hy; apply Hi; now right|cbn in Hz; lia|].
      destruct (polyn_scale L _ z _ (lprod_polyn L i pts)) as (l' & Ll' & El').
      rewrite (filter_neq_length L i pts ND) in Ll' by (apply Hi; now left).
      exists (ladd l' l). split; [rewrite ladd_length; lia|]. intros x. rewrite (ev_ladd L), <- El', El. cbn [map scalar]. ring. }
  destruct (X pts ys (incl_refl _) Hl) as (l & Ll & El). exists l. split; [exact Ll|].
  apply nth_ext with (d := 0) (d' := 0); [now rewrite map_length|]. intros k Hk. rewrite map_length in Hk.
  destruct (nth_error pts k) as [x|] eqn:Ex; [|apply nth_error_None in Ex; lia].
  rewrite (nth_error_nth _ _ _ (map_nth_error (ev l) _ _ Ex)). rewrite El.
  symmetry. apply nth_error_nth.
  rewrite (scalar_picks L x (fun i => lprod i pts x) pts ys k ND Ex).
  - reflexivity.
  - apply (lprod_self L).
  - intros y Iy Ny. apply (lprod_other L); [eapply nth_error_In; exact Ex|congruence].
  - exact Hl.
Qed.

(** ** The entries of a key *)
Lemma du_entries (msk : yct_msk C) a t ns : forall secs x i,
  Forall2 (fun n c => msk_get_private msk n = Ok c) ns secs -> Forall (fun n => no_us n = true) ns -> Forall (fun c => c <> 0) secs ->
  yct_du msk (gsh_and a t (map (fun n => FLeaf n 0) ns) x i) =
    Ok (map (fun p => YAttr (fst p) (Some (YPriv (snd p))))
      (combine ns (map (fun p => ev a (usize_to_fr (fst p)) * finv C (snd p)) (combine (seq x (length ns)) secs)))).
Proof.
  induction ns as [|n ns IH]; intros secs x i H U N; inversion H as [|? c ? cs Hc Hcs]; subst; [reflexivity|].
  inversion U as [|? ? Un Us]; subst. inversion N as [|? ? Nc Ncs]; subst.
  cbn [map gsh_and gsh List.app]. cbn [yct_du fst snd]. rewrite remove_index_leaf by exact Un.
  unfold private_from at 1. cbn [fst snd]. rewrite Hc. cbn [obind]. rewrite (finv_opt_neq L) by exact Nc. cbn [unwrap obind].
  rewrite (IH cs _ _ Hcs Us Ncs). reflexivity.
Qed.

Lemma shifted_get (msk : yct_msk C) d v n c : msk_get_private msk n = Ok c -> msk_get_private (yct_shift msk d v) n = Ok (c + d * v n).
Proof.
  unfold msk_get_private, yct_shift. cbn [ymsk_attrs]. induction (ymsk_attrs msk) as [|a l IH]; intros H; [discriminate|].
  cbn [map find] in *. destruct a as [m [[g|w]|]]; cbn [y_name y_node andb] in *.
  - destruct (seqb m n); cbn [andb] in *; [discriminate|now apply IH].
  - destruct (seqb m n) eqn:E; cbn [andb] in *; [|now apply IH]. apply seqb_eq in E. subst m. unfold node_private in *. cbn in *. congruence.
  - destruct (seqb m n); cbn [andb] in *; now apply IH.
Qed.

Lemma shifted (msk : yct_msk C) d v : ymsk_s (yct_shift msk d v) = ymsk_s msk + d /\
  forall n c, msk_get_private msk n = Ok c -> msk_get_private (yct_shift msk d v) n = Ok (c + d * v n).
Proof. split; [reflexivity|]. intros n c. apply shifted_get. Qed.

Theorem yct_shift_keeps (msk : yct_msk C) ns keys cs d v :
  ns <> [] -> Forall (fun n => no_us n = true) ns -> small_ok C (length ns) ->
  recover_coefficients (and_points (length ns)) = Ok cs ->
  Forall (fun n => exists c, msk_get_private msk n = Ok c /\ c + d * v n <> 0) ns ->
  Forall (yct_key_of msk ns) keys ->
  Forall (fun k => scalar (map yct_value (ysk_du (fst k))) (map (fun p => fst p * v (snd p)) (combine cs ns)) = 1) keys ->
  forall k, In k keys -> exists pol lang t j, yct_keygen (yct_shift msk d v) pol lang t 0%nat = Ok (fst k, j).
Proof.
  intros Nn Us Sm Hcs Hm Hk Hv k Ik. rewrite Forall_forall in Hk, Hv. specialize (Hk k Ik). specialize (Hv k Ik).
  assert (Hn : 0 < length ns) by (destruct ns; [contradiction|cbn; lia]).
  rewrite (recover_coefficients_eq L), (and_points_eq L) in Hcs by exact Hn.
  set (n := length ns) in *. set (s := ymsk_s msk) in *.
  set (pts := map (fun j => usize_to_fr j : F C) (seq 1 n)) in *.
  assert (Ecs : cs = map (fun i => lprod i pts 0) pts) by congruence. clear Hcs.
  assert (Lp : length pts = n) by (unfold pts; now rewrite map_length, seq_length).
  assert (ND : NoDup pts) by (apply points_NoDup; assumption).
  (* the secrets *)
  assert (S1 : exists secs, Forall2 (fun n c => msk_get_private msk n = Ok c /\ c + d * v n <> 0) ns secs).
  { clear - Hm. induction Hm as [|m ns (c & Hc) _ (secs & IH)]; [exists []; constructor|]. exists (c :: secs). constructor; assumption. }
  destruct S1 as (secs & S2).
  assert (Hs : Forall2 (fun n c => msk_get_private msk n = Ok c) ns secs).
  { clear - S2. induction S2 as [|m c ns secs (H & _) _ IH]; constructor; assumption. }
  assert (Ls : length secs = n) by (unfold n; clear - Hs; induction Hs; cbn; congruence).
  destruct (key_values L msk ns secs k Nn Hs Us Hk) as (Vk & Nz & Lk). fold s n in Vk, Lk.
  set (secs' := map (fun p => snd p + d * v (fst p)) (combine ns secs)).
  assert (Hs' : Forall2 (fun n c => msk_get_private (yct_shift msk d v) n = Ok c) ns secs').
  { unfold secs'. clear - S2 L. induction S2 as [|m c ns secs (H & _) _ IH]; cbn [combine map fst snd]; constructor; [now apply shifted_get|exact IH]. }
  assert (Nz' : Forall (fun c => c <> 0) secs').
  { unfold secs'. clear - S2. induction S2 as [|m c ns secs (_ & H) _ IH]; cbn [combine map fst snd]; constructor; assumption. }
  assert (Ls' : length secs' = n) by (unfold secs'; rewrite map_length, combine_length; unfold n in *; lia).
  set (vals := map yct_value (ysk_du (fst k))) in *.
  assert (Lv : length vals = n) by (rewrite Vk, map_length, combine_length, seq_length; lia).
  (* the polynomial *)
  set (ys := map (fun p => fst p * snd p) (combine vals secs')).
  assert (Ly : length ys = length pts) by (unfold ys; rewrite map_length, combine_length; lia).
  destruct (through pts ys ND Ly) as (l & Ll & El).
  assert (H0 : ev l 0 = s + d).
  { rewrite <- (lagrange_interp L pts (ev l) 0 ND) by (exists l; auto).
    assert (Q : forall q zs, map (ev l) q = zs -> fsum (map (fun i => ev l i * lprod i pts 0) q) = scalar zs (map (fun i => lprod i pts 0) q)).
    { clear. induction q as [|i q IH]; intros [|z zs] H; try discriminate; [reflexivity|]. cbn [map] in H. injection H as <- H.
      cbn [map fsum scalar]. now rewrite (IH zs H). }
    rewrite (Q pts ys El). clear Q. rewrite <- Ecs.
    assert (R : scalar ys cs = scalar (map (fun p => fst p * snd p) (combine vals secs)) cs
      + d * scalar vals (map (fun p => fst p * v (snd p)) (combine cs ns))).
    { unfold ys, secs'. assert (Lc : length cs = n) by (rewrite Ecs, map_length; exact Lp).
      clearbody vals. unfold n in *. clear - L Lv Lc Ls. revert secs vals cs Ls Lv Lc.
      induction ns as [|m ns IH]; intros [|c secs] [|y vals] [|u cs] Ls Lv Lc; try discriminate.
      - cbn. ring.
      - cbn [combine map fst snd scalar]. rewrite (IH secs vals cs) by (cbn in *; lia). ring. }
    rewrite R, Hv.
    assert (B : map (fun p => fst p * snd p) (combine vals secs) = map (ev (s :: snd k)) pts).
    { rewrite Vk. unfold pts. rewrite map_map. assert (Lq : length secs = length (seq 1 n)) by (rewrite seq_length; exact Ls).
      clear - L Nz Lq. revert secs Nz Lq. generalize (seq 1 n). induction l as [|j q IH]; intros [|c secs] Nz Lq; try discriminate; [reflexivity|].
      inversion Nz as [|? ? Nc Nz']; subst. cbn [combine map fst snd]. rewrite IH by (cbn in Lq; auto with arith). f_equal. cbn [ev]. field. exact Nc. }
    rewrite B, Ecs.
    assert (E0 : scalar (map (ev (s :: snd k)) pts) (map (fun i => lprod i pts 0) pts) = s).
    { transitivity (ev (s :: snd k) 0); [|cbn; ring].
      rewrite <- (lagrange_interp L pts (ev (s :: snd k)) 0 ND) by (exists (s :: snd k); split; [congruence|reflexivity]).
      assert (Q : forall q, scalar (map (ev (s :: snd k)) q) (map (fun i => lprod i pts 0) q) = fsum (map (fun i => ev (s :: snd k) i * lprod i pts 0) q)).
      { induction q as [|i q IH]; [reflexivity|]. cbn [map scalar fsum]. now rewrite IH. }
      apply Q. }
    rewrite E0. ring. }
  destruct l as [|c0 l]; [cbn in Ll; lia|].
  assert (Ec : c0 = s + d) by (rewrite <- H0; cbn; ring). subst c0.
  destruct Hk as (pol & lang & f & t & i & j & P & Bl & K & E).
  exists pol, lang, (fun m => nth m l 0), (nd f). unfold yct_keygen. unfold rbind at 1, rlift at 1. rewrite P. unfold rbind at 1.
  rewrite (gen_shares_policy_eq L). unfold rbind, rlift. change (ymsk_s (yct_shift msk d v)) with (s + d).
  destruct (yct_keygen_inv L _ _ _ _ _ _ _ _ P K) as (Ep & D).
  assert (Al : forall s0 t0 i0, yct_du msk (gsh f s0 t0 i0) = yct_du msk (gsh (all_of ns) s0 t0 i0)).
  { intros. apply yct_du_bare. apply gsh_alike. rewrite Bl. unfold all_of. cbn [blank]. rewrite map_map. reflexivity. }
  assert (Al' : forall s0 t0 i0, yct_du (yct_shift msk d v) (gsh f s0 t0 i0) = yct_du (yct_shift msk d v) (gsh (all_of ns) s0 t0 i0)).
  { intros. apply yct_du_bare. apply gsh_alike. rewrite Bl. unfold all_of. cbn [blank]. rewrite map_map. reflexivity. }
  rewrite Al in D. rewrite Al'. unfold all_of in *. rewrite gsh_FAnd in *. rewrite map_length in *.
  rewrite (du_entries _ _ _ _ _ _ _ Hs Us Nz) in D. rewrite (du_entries _ _ _ _ _ _ _ Hs' Us Nz').
  assert (Seq : map (fun m => nth m l 0) (seq 0 (length ns - 1)) = l).
  { replace (length ns - 1)%nat with (length l) by (cbn in Ll; unfold n in *; lia). clear.
    apply nth_ext with (d := 0) (d' := 0); [now rewrite map_length, seq_length|]. intros q Hq. rewrite map_length, seq_length in Hq.
    rewrite (nth_indep _ 0 (nth 0 l 0)) by (now rewrite map_length, seq_length).
    rewrite (map_nth (fun m => nth m l 0)). now rewrite seq_nth by exact Hq. }
  rewrite Seq. rewrite <- E in D. fold n in D |- *. fold s in D. rewrite <- Vk in D.
  assert (V' : map (fun p => ev (s + d :: l) (usize_to_fr (fst p)) * finv C (snd p)) (combine (seq 1 n) secs') = vals).
  { assert (M : map (fun p => fst p * finv C (snd p)) (combine (map (ev (s + d :: l)) pts) secs') = vals).
    { rewrite El. unfold ys. clearbody vals secs'. clear - L Nz' Lv Ls'. assert (Q : length vals = length secs') by congruence. clear Lv Ls'. revert secs' Nz' Q.
      induction vals as [|y vals IH]; intros [|c secs'] Nz' Q; try discriminate; [reflexivity|]. inversion Nz' as [|? ? Nc Nc']; subst.
      cbn [combine map fst snd]. rewrite IH by (cbn in Q; auto with arith). f_equal. field. exact Nc. }
    rewrite <- M. unfold pts. rewrite map_map. generalize (seq 1 n). clearbody secs'. clear. intros q. revert secs'. induction q as [|j q IH]; intros [|c secs']; try reflexivity.
    cbn [combine map fst snd]. now rewrite IH. }
  rewrite V'. unfold rret. injection D as D. rewrite D, <- Ep. destruct (fst k). reflexivity.
Qed.

(** ** Linear systems: a solution, or a combination of the rows that shows there is none *)
Lemma unit_of {R} (rows : list R) p : In p rows -> exists e : list (F C), length e = length rows /\ forall g : R -> F C, scalar (map g rows) e = g p.
Proof.
  induction rows as [|r rows IH]; intros H; [contradiction|]. destruct H as [->|H].
  - exists (1 :: repeat 0 (length rows)). split; [cbn; now rewrite repeat_length|]. intros g. cbn [map scalar]. rewrite (scalar_zeros L). ring.
  - destruct (IH H) as (e & Le & E). exists (0 :: e). split; [cbn; congruence|]. intros g. cbn [map scalar]. rewrite E. ring.
Qed.

Lemma scalar_moves {R} (g : R -> F C) c rows : forall w e : list (F C), length w = length rows -> length e = length rows ->
  scalar (map g rows) (map (fun p => fst p - c * snd p) (combine w e)) = scalar (map g rows) w - c * scalar (map g rows) e.
Proof.
  induction rows as [|r rows IH]; intros [|x w] [|y e] Hw He; try discriminate; [cbn; ring|].
  cbn [map combine scalar fst snd]. rewrite IH by (cbn in *; lia). ring.
Qed.

Lemma scalar_two {R} (g h q : R -> F C) c rows : (forall r, g r = h r - q r * c) -> forall w : list (F C),
  scalar (map g rows) w = scalar (map h rows) w - c * scalar (map q rows) w.
Proof.
  intros E. induction rows as [|r rows IH]; intros [|x w]; cbn [map scalar]; try ring. rewrite IH, E. ring.
Qed.

Lemma some_or_none {R} (g : R -> F C) rows : (exists r, In r rows /\ g r <> 0) \/ (forall r, In r rows -> g r = 0).
Proof.
  induction rows as [|r rows IH]; [right; intros r []|].
  destruct (feqb C (g r) 0) eqn:E.
  - apply (feqb_eq L) in E. destruct IH as [(p & I & N)|N]; [left; exists p; split; [now right|exact N]|].
    right. intros p [<-|I]; auto.
  - apply (feqb_neq L) in E. left. exists r. split; [now left|exact E].
Qed.

Lemma scalar_no {R} (g : R -> F C) rows : (forall r, In r rows -> g r = 0) -> forall w : list (F C), scalar (map g rows) w = 0.
Proof.
  induction rows as [|r rows IH]; intros H [|x w]; cbn [map scalar]; try reflexivity.
  rewrite IH by (intros; apply H; now right). rewrite (H r) by now left. ring.
Qed.

Lemma fsum_put (g v : string -> F C) a z l : ~ In a l -> fsum (map (fun x => g x * (if seqb x a then z else v x)) l) = fsum (map (fun x => g x * v x) l).
Proof.
  induction l as [|x l IH]; intros H; [reflexivity|]. cbn [map fsum]. rewrite IH by (intros I; apply H; now right).
  destruct (seqb x a) eqn:E; [apply seqb_eq in E; subst; exfalso; apply H; now left|reflexivity].
Qed.

Lemma fsum_minus (g h v : string -> F C) q l : fsum (map (fun x => (g x - q * h x) * v x) l) = fsum (map (fun x => g x * v x) l) - q * fsum (map (fun x => h x * v x) l).
Proof. induction l as [|x l IH]; cbn [map fsum]; [ring|rewrite IH; ring]. Qed.

Lemma solvable {R} (rows : list R) cols : NoDup cols -> forall (K : R -> string -> F C) (b : R -> F C),
  (exists v : string -> F C, (forall x, ~ In x cols -> v x = 0) /\ forall r, In r rows -> fsum (map (fun x => K r x * v x) cols) = b r) \/
  (exists w : list (F C), length w = length rows /\ scalar (map b rows) w = 1 /\ forall x, In x cols -> scalar (map (fun r => K r x) rows) w = 0).
Proof.
  induction cols as [|a cols IH]; intros ND K b.
  - destruct (some_or_none b rows) as [(r & I & N)|N].
    + right. destruct (unit_of rows r I) as (e & Le & E). exists (map (fun p => fst p - (1 - finv C (b r)) * snd p) (combine e e)).
      split; [rewrite map_length, combine_length; lia|]. split; [|intros x []].
      rewrite scalar_moves by exact Le. rewrite E. field. exact N.
    + left. exists (fun _ => 0). split; [reflexivity|]. intros r I. cbn. now rewrite (N r I).
  - inversion ND as [|? ? Na ND']; subst. destruct (some_or_none (fun r => K r a) rows) as [(p & I & N)|N].
    + set (q := fun r => K r a * finv C (K p a)).
      destruct (IH ND' (fun r x => K r x - q r * K p x) (fun r => b r - q r * b p)) as [(v & V0 & V)|(w & Lw & W1 & W0)].
      * left. set (z := (b p - fsum (map (fun x => K p x * v x) cols)) * finv C (K p a)).
        exists (fun x => if seqb x a then z else v x). split.
        -- intros x Hx. destruct (seqb x a) eqn:E; [apply seqb_eq in E; subst; exfalso; apply Hx; now left|]. apply V0. intros J. apply Hx. now right.
        -- intros r Ir. cbn [map fsum]. rewrite seqb_refl, fsum_put by exact Na. specialize (V r Ir). rewrite fsum_minus in V.
           replace (fsum (map (fun x => K r x * v x) cols)) with (b r - q r * b p + q r * fsum (map (fun x => K p x * v x) cols)) by (rewrite <- V; ring).
           unfold z, q. field. exact N.
      * right. destruct (unit_of rows p I) as (e & Le & E).
        exists (map (fun y => fst y - scalar (map q rows) w * snd y) (combine w e)).
        split; [rewrite map_length, combine_length; lia|]. split.
        -- rewrite scalar_moves by assumption. rewrite E.
           rewrite (scalar_two (fun r => b r - q r * b p) b q (b p)) in W1 by reflexivity. rewrite <- W1. ring.
        -- intros x Hx. rewrite scalar_moves by assumption. rewrite (E (fun r => K r x)). destruct Hx as [<-|Hx].
           ++ rewrite (scalar_two (fun r => K r a) (fun _ => 0) q (- K p a)).
              ** rewrite (scalar_no (fun _ => 0)) by reflexivity. ring.
              ** intros r. unfold q. field. exact N.
           ++ specialize (W0 x Hx). rewrite (scalar_two (fun r => K r x - q r * K p x) (fun r => K r x) q (K p x)) in W0 by reflexivity.
              rewrite <- W0. ring.
    + destruct (IH ND' K b) as [(v & V0 & V)|(w & Lw & W1 & W0)].
      * left. exists v. split; [intros x Hx; apply V0; intros J; apply Hx; now right|]. intros r Ir. cbn [map fsum]. rewrite (N r Ir), (V r Ir). ring.
      * right. exists w. split; [exact Lw|]. split; [exact W1|]. intros x [<-|Hx]; [now apply scalar_no|auto].
Qed.

(** ** Keys added up with weights *)
Lemma key_make (msk : yct_msk C) ns secs pol lang f l : ns <> [] ->
  Forall2 (fun n c => msk_get_private msk n = Ok c) ns secs -> Forall (fun n => no_us n = true) ns -> Forall (fun c => c <> 0) secs ->
  parse pol lang = Ok (tree f) -> blank f = all_of ns -> length l = length ns -> ev l 0 = ymsk_s msk ->
  exists t j, yct_keygen msk pol lang t 0%nat = Ok (YctSk (pol, lang) (map (fun p => YAttr (fst p) (Some (YPriv (snd p))))
      (combine ns (map (fun p => ev l (usize_to_fr (fst p)) * finv C (snd p)) (combine (seq 1 (length ns)) secs)))), j).
Proof.
  intros Nn Hs Us Nz P Bl Ll E0. destruct l as [|c0 l]; [destruct ns; [contradiction|discriminate]|].
  assert (Ec : c0 = ymsk_s msk) by (rewrite <- E0; cbn; ring). subst c0.
  exists (fun m => nth m l 0), (nd f). unfold yct_keygen. unfold rbind at 1, rlift at 1. rewrite P. unfold rbind at 1.
  rewrite (gen_shares_policy_eq L). unfold rbind, rlift.
  assert (Al : forall s0 t0 i0, yct_du msk (gsh f s0 t0 i0) = yct_du msk (gsh (all_of ns) s0 t0 i0)).
  { intros. apply yct_du_bare. apply gsh_alike. rewrite Bl. unfold all_of. cbn [blank]. rewrite map_map. reflexivity. }
  rewrite Al. unfold all_of. rewrite gsh_FAnd, map_length. rewrite (du_entries _ _ _ _ _ _ _ Hs Us Nz).
  assert (Seq : map (fun m => nth m l 0) (seq 0 (length ns - 1)) = l).
  { replace (length ns - 1)%nat with (length l) by (cbn in Ll; lia). clear.
    apply nth_ext with (d := 0) (d' := 0); [now rewrite map_length, seq_length|]. intros q Hq. rewrite map_length, seq_length in Hq.
    rewrite (nth_indep _ 0 (nth 0 l 0)) by (now rewrite map_length, seq_length).
    rewrite (map_nth (fun m => nth m l 0)). now rewrite seq_nth by exact Hq. }
  rewrite Seq. reflexivity.
Qed.

Lemma entries_get p ns : forall vals : list (F C), NoDup ns -> length vals = length ns ->
  map (yct_entry (YctSk p (map (fun q => YAttr (fst q) (Some (YPriv (snd q)))) (combine ns vals)))) ns = vals.
Proof.
  induction ns as [|n ns IH]; intros [|y vals] ND Hl; try discriminate; [reflexivity|]. inversion ND as [|? ? Nn ND']; subst.
  cbn [map combine fst snd]. f_equal.
  - unfold yct_entry, sk_get_private. cbn [ysk_du find y_name]. now rewrite seqb_refl.
  - rewrite <- (IH vals ND') at 2 by (cbn in Hl; lia). apply map_ext_in. intros m Im.
    unfold yct_entry, sk_get_private. cbn [ysk_du find y_name]. destruct (seqb n m) eqn:E; [apply seqb_eq in E; subst; contradiction|reflexivity].
Qed.

Lemma key_entries (msk : yct_msk C) ns secs k : ns <> [] -> NoDup ns ->
  Forall2 (fun n c => msk_get_private msk n = Ok c) ns secs -> Forall (fun n => no_us n = true) ns -> yct_key_of msk ns k ->
  map (yct_entry (fst k)) ns = map yct_value (ysk_du (fst k)).
Proof.
  intros Nn ND Hs Us Hk. destruct (key_values L msk ns secs k Nn Hs Us Hk) as (Vk & Nz & Lk).
  assert (Ls : length secs = length ns) by (clear - Hs; induction Hs; cbn; congruence).
  destruct Hk as (pol & lang & f & t & i & j & P & Bl & K & E).
  destruct (yct_keygen_inv L _ _ _ _ _ _ _ _ P K) as (_ & D).
  rewrite (yct_du_bare _ _ (gsh (all_of ns) (ymsk_s msk) t i)) in D
    by (apply gsh_alike; rewrite Bl; unfold all_of; cbn [blank]; rewrite map_map; reflexivity).
  unfold all_of in D. rewrite gsh_FAnd, map_length in D. rewrite (du_entries _ _ _ _ _ _ _ Hs Us Nz) in D. rewrite <- E in D. rewrite <- Vk in D.
  assert (Lv : length (map yct_value (ysk_du (fst k))) = length ns) by (rewrite Vk, map_length, combine_length, seq_length; lia).
  injection D as D. rewrite <- (entries_get (ysk_policy (fst k)) ns _ ND Lv) at 1. rewrite D. destruct (fst k). reflexivity.
Qed.

Lemma mixed (s : F C) n : forall (keys : list (yct_sk C * list (F C))) w, Forall (fun k => length (s :: snd k) = n) keys ->
  exists l, length l = n /\ forall x, ev l x = scalar (map (fun k => ev (s :: snd k) x) keys) w.
Proof.
  induction keys as [|k keys IH]; intros w H.
  - exists (repeat 0 n). split; [apply repeat_length|]. intros x. now rewrite (ev_zeros L).
  - inversion H as [|? ? Hk Hr]; subst. destruct w as [|y w].
    + exists (repeat 0 (length (s :: snd k))). split; [apply repeat_length|]. intros x. now rewrite (ev_zeros L).
    + destruct (IH w Hr) as (l & Ll & El).
      destruct (polyn_scale L (length (s :: snd k)) y (ev (s :: snd k))) as (l' & Ll' & El'); [exists (s :: snd k); auto|].
      exists (ladd l' l). split; [rewrite ladd_length; lia|]. intros x. rewrite (ev_ladd L), <- El', El. cbn [map scalar]. ring.
Qed.

Lemma scalar_factor {R} (g h : R -> F C) c rows : (forall r, In r rows -> g r = h r * c) -> forall w : list (F C),
  scalar (map g rows) w = scalar (map h rows) w * c.
Proof.
  induction rows as [|r rows IH]; intros E [|x w]; cbn [map scalar]; try ring. rewrite IH by (intros; apply E; now right). rewrite E by now left. ring.
Qed.

Lemma mixed_entries (s : F C) l (keys : list (yct_sk C * list (F C))) w ns : forall (xs : list nat) secs, length xs = length ns -> length secs = length ns ->
  (forall x, ev l x = scalar (map (fun k => ev (s :: snd k) x) keys) w) ->
  (forall k, In k keys -> map (yct_entry (fst k)) ns = map (fun p => ev (s :: snd k) (usize_to_fr (fst p)) * finv C (snd p)) (combine xs secs)) ->
  map (fun p => ev l (usize_to_fr (fst p)) * finv C (snd p)) (combine xs secs) = map (fun n => scalar (map (fun k => yct_entry (fst k) n) keys) w) ns.
Proof.
  induction ns as [|n ns IH]; intros [|x xs] [|c secs] Hx Hs El Hk; try discriminate; [reflexivity|].
  cbn [combine map fst snd]. f_equal.
  - rewrite El. symmetry. apply scalar_factor. intros k Ik. specialize (Hk k Ik). cbn [combine map fst snd] in Hk. congruence.
  - apply IH; [cbn in *; lia|cbn in *; lia|exact El|]. intros k Ik. specialize (Hk k Ik). cbn [combine map fst snd] in Hk. congruence.
Qed.

Lemma naming ns : forall cs : list (F C), NoDup ns -> length cs = length ns -> exists g : string -> F C, map g ns = cs.
Proof.
  induction ns as [|n ns IH]; intros [|c cs] ND Hl; try discriminate; [exists (fun _ => 0); reflexivity|].
  inversion ND as [|? ? Nn ND']; subst. destruct (IH cs ND') as (g & G); [cbn in Hl; lia|].
  exists (fun x => if seqb x n then c else g x). cbn [map]. rewrite seqb_refl. f_equal. rewrite <- G. apply map_ext_in. intros m Im.
  destruct (seqb m n) eqn:E; [apply seqb_eq in E; subst; contradiction|reflexivity].
Qed.

Lemma scalar_named (g h v : string -> F C) ns :
  scalar (map g ns) (map (fun p => fst p * v (snd p)) (combine (map h ns) ns)) = fsum (map (fun x => g x * h x * v x) ns).
Proof. induction ns as [|n ns IH]; [reflexivity|]. cbn [map combine scalar fsum fst snd]. rewrite IH. ring. Qed.

Lemma fsum_where (g v : string -> F C) p ns : (forall x, In x ns -> p x = false -> v x = 0) ->
  fsum (map (fun x => g x * v x) ns) = fsum (map (fun x => g x * v x) (filter p ns)).
Proof.
  induction ns as [|n ns IH]; intros H; [reflexivity|]. cbn [map filter fsum]. rewrite IH by (intros; apply H; [now right|assumption]).
  destruct (p n) eqn:E; [reflexivity|]. rewrite (H n) by (auto; now left). ring.
Qed.

Theorem yct_either (msk : yct_msk C) ns attrs keys :
  ns <> [] -> keys <> [] -> NoDup ns -> Forall (fun n => no_us n = true) ns -> small_ok C (length ns) ->
  Forall (fun n => exists c, msk_get_private msk n = Ok c) ns -> Forall (yct_key_of msk ns) keys ->
  (exists w sk pol lang f t j, yct_mix ns w (map fst keys) = Ok sk /\
    parse pol lang = Ok (tree f) /\ blank f = all_of ns /\ yct_keygen msk pol lang t 0%nat = Ok (sk, j) /\
    forall n, In n ns -> ~ In n attrs -> sk_get_private sk n = Ok 0) \/
  (exists v : string -> F C, (forall n, In n attrs -> v n = 0) /\
    forall d, Forall (fun n => exists c, msk_get_private msk n = Ok c /\ c + d * v n <> 0) ns ->
    forall k, In k keys -> exists pol lang t j, yct_keygen (yct_shift msk d v) pol lang t 0%nat = Ok (fst k, j)).
Proof.
  intros Nn Nk ND Us Sm Hm Hk.
  assert (Hn : 0 < length ns) by (destruct ns; [contradiction|cbn; lia]).
  assert (S1 : exists secs, Forall2 (fun n c => msk_get_private msk n = Ok c) ns secs).
  { clear - Hm. induction Hm as [|m ns (c & Hc) _ (secs & IH)]; [exists []; constructor|]. exists (c :: secs). constructor; assumption. }
  destruct S1 as (secs & Hs).
  assert (Ls : length secs = length ns) by (clear - Hs; induction Hs; cbn; congruence).
  set (pts := map (fun j => usize_to_fr j : F C) (seq 1 (length ns))).
  set (cs := map (fun i => lprod i pts 0) pts).
  assert (Hcs : recover_coefficients (and_points (length ns)) = Ok cs) by (rewrite (recover_coefficients_eq L), (and_points_eq L) by exact Hn; reflexivity).
  assert (Lc : length cs = length ns) by (unfold cs, pts; now rewrite !map_length, seq_length).
  destruct (naming ns cs ND Lc) as (g & G).
  assert (Ng : forall x, In x ns -> g x <> 0).
  { intros x Ix. assert (I : In (g x) cs) by (rewrite <- G; now apply in_map). apply in_map_iff in I as (i & <- & _).
    apply (lprod_nonzero L). intros y Iy. apply in_map_iff in Iy as (jj & <- & Ij). apply in_seq in Ij. apply Sm. lia. }
  rewrite Forall_forall in Hk.
  set (out := fun n => negb (existsb (seqb n) attrs)).
  assert (Out : forall n, out n = false <-> In n attrs).
  { intros n. unfold out. rewrite negb_false_iff, existsb_exists. split.
    - intros (m & Im & E). apply seqb_eq in E. now subst.
    - intros I. exists n. split; [exact I|apply seqb_refl]. }
  destruct (solvable keys (filter out ns) (NoDup_filter _ ND) (fun k x => yct_entry (fst k) x * g x) (fun _ => 1)) as [(v & V0 & V)|(w & Lw & W1 & W0)].
  - right. exists v. split.
    { intros n I. apply V0. rewrite filter_In. intros (_ & O). apply Out in I. congruence. }
    intros d Hd. apply (yct_shift_keeps msk ns keys cs d v Nn Us Sm Hcs Hd).
    + apply Forall_forall. exact Hk.
    + apply Forall_forall. intros k Ik. rewrite <- (key_entries msk ns secs k Nn ND Hs Us (Hk k Ik)). rewrite <- G. rewrite scalar_named.
      rewrite (fsum_where (fun x => yct_entry (fst k) x * g x) v out).
      * exact (V k Ik).
      * intros x Ix Ox. apply V0. rewrite filter_In. intros (_ & O). congruence.
  - left. destruct keys as [|k0 keys]; [contradiction|].
    destruct (Hk k0 (or_introl eq_refl)) as (pol & lang & f & t & i & j & P & Bl & K & E).
    assert (Nz : Forall (fun c => c <> 0) secs) by (eapply (key_values L msk ns secs k0); eauto; apply Hk; now left).
    destruct (mixed (ymsk_s msk) (length ns) (k0 :: keys) w) as (l & Ll & El).
    { apply Forall_forall. intros k Ik. apply (key_values L msk ns secs k Nn Hs Us (Hk k Ik)). }
    assert (E0 : ev l 0 = ymsk_s msk).
    { rewrite El. transitivity (scalar (map (fun _ => 1) (k0 :: keys)) w * ymsk_s msk); [|rewrite W1; ring].
      apply scalar_factor. intros r _. cbn. ring. }
    destruct (key_make msk ns secs pol lang f l Nn Hs Us Nz P Bl Ll E0) as (t' & j' & K').
    rewrite (mixed_entries (ymsk_s msk) l (k0 :: keys) w ns) in K'.
    + destruct (yct_keygen_inv L _ _ _ _ _ _ _ _ P K) as (Ep & _).
      eexists w, _, pol, lang, f, t', j'. split; [unfold yct_mix; cbn [map]; reflexivity|]. split; [exact P|]. split; [exact Bl|].
      assert (Em : forall h : string -> F C, map (fun p => YAttr (fst p) (Some (YPriv (snd p)))) (combine ns (map h ns)) = map (fun n => YAttr n (Some (YPriv (h n)))) ns).
      { intros h. clear. induction ns as [|n ns IH]; [reflexivity|]. cbn [map combine fst snd]. now rewrite IH. }
      rewrite Em in K'. split.
      * rewrite K'. rewrite Ep. do 3 f_equal. apply map_ext. intros n. cbn [map]. now rewrite map_map.
      * intros n In_ On. unfold sk_get_private. cbn [ysk_du].
        assert (Z : scalar (yct_entry (fst k0) n :: map (fun k => yct_entry k n) (map fst keys)) w = 0).
        { assert (I : In n (filter out ns)).
          { apply filter_In. split; [exact In_|]. destruct (out n) eqn:O; [reflexivity|]. apply Out in O. contradiction. }
          specialize (W0 n I).
          rewrite (scalar_factor (fun r => yct_entry (fst r) n * g n) (fun r => yct_entry (fst r) n) (g n)) in W0 by reflexivity.
          rewrite map_map. cbn [map] in W0. specialize (Ng n In_).
          match type of W0 with ?u * _ = _ => transitivity (u * g n * finv C (g n)) end; [field; exact Ng|]. rewrite W0. ring. }
        rewrite <- Z. clear - In_. induction ns as [|m ns IH]; [contradiction|]. cbn [map find y_name]. destruct (seqb m n) eqn:E.
        -- apply seqb_eq in E. subst m. reflexivity.
        -- apply IH. destruct In_ as [->|I]; [rewrite seqb_refl in E; discriminate|exact I].
    + now rewrite seq_length.
    + exact Ls.
    + exact El.
    + intros k Ik. rewrite (key_entries msk ns secs k Nn ND Hs Us (Hk k Ik)). apply (key_values L msk ns secs k Nn Hs Us (Hk k Ik)).
Qed.

(** ** Ciphertexts *)
Lemma blank_conj f ns : blank f = all_of ns -> exists ps, f = FAnd (map (fun p => FLeaf (fst p) (snd p)) ps) /\ map fst ps = ns.
Proof.
  destruct f as [n o|l|l]; [discriminate| |discriminate]. unfold all_of. cbn [blank]. intros H. injection H as H. revert ns H.
  induction l as [|g l IH]; intros [|n ns] H; try discriminate; [exists []; auto|]. cbn [map] in H. injection H as Hg Hl.
  destruct (IH ns Hl) as (ps & E & Ep). destruct g as [m o|?|?]; try discriminate. cbn [blank] in Hg. injection Hg as ->.
  exists ((n, o) :: ps). cbn [map fst snd]. injection E as <-. now rewrite Ep.
Qed.

Theorem yct_either_opens nonce U (pk : yct_pk C) msk ns attrs keys data ct ts is js te ie je :
  yct_setup U ts is = Ok ((pk, msk), js) -> yct_encrypt nonce pk attrs data te ie = Ok (ct, je) -> String.length nonce = 12%nat ->
  2 <= length ns -> keys <> [] -> NoDup ns -> incl ns U -> Forall (fun n => no_us n = true) ns -> small_ok C (length ns) ->
  Forall (yct_key_of msk ns) keys ->
  (exists w sk, yct_mix ns w (map fst keys) = Ok sk /\
    yct_decrypt sk (yct_pad (filter (fun n => negb (smem n attrs)) ns) ct) = Ok data) \/
  (exists v : string -> F C, (forall n, In n attrs -> v n = 0) /\
    forall d, Forall (fun n => exists c, msk_get_private msk n = Ok c /\ c + d * v n <> 0) ns ->
    forall k, In k keys -> exists pol lang t j, yct_keygen (yct_shift msk d v) pol lang t 0%nat = Ok (fst k, j)).
Proof.
  intros Hs He Hnc H2 Nk ND HU Us Sm Hk.
  assert (Nn : ns <> []) by (destruct ns; [cbn in H2; lia|discriminate]).
  assert (Hm : Forall (fun n => exists c, msk_get_private msk n = Ok c) ns).
  { apply Forall_forall. intros n I. pose proof (yct_setup_keys L _ _ _ _ _ _ Hs) as (G & _ & KK).
    destruct (KK n) as [(_ & gA & sA & _ & MA & _)|(X & _)]; [exists sA; exact MA|contradiction (X (HU n I))]. }
  destruct (yct_either msk ns attrs keys Nn Nk ND Us Sm Hm Hk) as [(w & sk & pol & lang & f & t & j & Mx & P & Bl & K & Z)|T]; [left|right; exact T].
  exists w, sk. split; [exact Mx|].
  destruct (blank_conj f ns Bl) as (ps & -> & Ep).
  assert (En : names (FAnd (map (fun p => FLeaf (fst p) (snd p)) ps)) = ns).
  { rewrite <- Ep. clear. unfold names. cbn [leaves]. induction ps as [|p ps IH]; [reflexivity|]. cbn [map flat_map leaves List.app fst]. now rewrite IH. }
  assert (Lp : length ps = length ns) by (rewrite <- Ep; now rewrite map_length).
  assert (Aw : and_width (FAnd (map (fun p => FLeaf (fst p) (snd p)) ps)) = length ns).
  { cbn [and_width]. rewrite map_length, Lp. assert (Q : fold_right (fun g m => Nat.max (and_width g) m) 0%nat (map (fun p => FLeaf (fst p) (snd p)) ps) = 0%nat).
    { clear. induction ps as [|p ps IH]; [reflexivity|]. cbn. exact IH. } rewrite Q. lia. }
  eapply (yct_pad_opens L); try eassumption.
  - cbn [arity2]. rewrite map_length, Lp. apply andb_true_iff. split; [now apply Nat.leb_le|]. clear. induction ps; [reflexivity|assumption].
  - now rewrite En.
  - unfold plain_names. rewrite En. apply forallb_forall. now apply Forall_forall.
  - now rewrite Aw.
  - intros n I. apply filter_In in I as (I & _). now apply HU.
  - intros n I _. apply filter_In in I as (I & O). apply Z; [exact I|]. intros J. apply smem_In in J. rewrite J in O. discriminate O.
  - cbn [sat]. apply forallb_forall. intros g Ig. apply in_map_iff in Ig as (p & <- & Ip). cbn [sat]. unfold owns.
    apply smem_In, in_or_app. destruct (smem (fst p) attrs) eqn:E; [right; now apply smem_In|]. left. apply filter_In. split.
    + rewrite <- Ep. now apply in_map.
    + now rewrite E.
Qed.

(** ** There is room for other systems *)
Theorem yct_room (msk : yct_msk C) ns k (v : string -> F C) :
  ns <> [] -> Forall (fun n => no_us n = true) ns -> small_ok C (S (length ns)) ->
  Forall (fun n => exists c, msk_get_private msk n = Ok c) ns -> yct_key_of msk ns k ->
  exists d, d <> 0 /\ Forall (fun n => exists c, msk_get_private msk n = Ok c /\ c + d * v n <> 0) ns.
Proof.
  intros Nn Us Sm Hm Hk.
  assert (S1 : exists secs, Forall2 (fun n c => msk_get_private msk n = Ok c) ns secs).
  { clear - Hm. induction Hm as [|m ns (c & Hc) _ (secs & IH)]; [exists []; constructor|]. exists (c :: secs). constructor; assumption. }
  destruct S1 as (secs & Hs).
  assert (Ls : length secs = length ns) by (clear - Hs; induction Hs; cbn; congruence).
  destruct (key_values L msk ns secs k Nn Hs Us Hk) as (_ & Nz & _).
  destruct (avoid L (map (fun p => - (snd p) * finv C (v (fst p))) (combine ns secs))) as (d & Nd & Hd).
  { rewrite map_length, combine_length, Ls, Nat.min_id. exact Sm. }
  exists d. split; [exact Nd|]. clear - L Hs Nz Hd. induction Hs as [|n c ns secs Hc _ IH]; constructor.
  - exists c. split; [exact Hc|]. intros E. inversion Nz as [|? ? Nc _]; subst. destruct (feq_dec L (v n) 0) as [Z|N].
    + apply Nc. rewrite <- E, Z. ring.
    + apply Hd. left. cbn [fst snd]. transitivity ((c + d * v n - c) * finv C (v n)); [rewrite E; ring|field; exact N].
  - inversion Nz as [|? ? _ Nz']; subst. apply IH; [exact Nz'|]. intros I. apply Hd. now right.
Qed.
End DualProofs.
