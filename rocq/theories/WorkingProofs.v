(** * WorkingProofs: how often a session gives its answer *)
From Coq Require Import String List Bool Arith Lia ZArith.
From Verif Require Import Base Crypto Policy Tools Sharing Spec Poly PolicyProofs SharingProofs Msp MspProofs
  Parse SchemeLib CoreProofs Dnf DnfProofs Bdabe BdabeProofs Mke08 Mke08Proofs Bsw BswProofs Ghw11 Ghw11Proofs
  Lsw LswProofs Yct14 Yct14Proofs Ac17 Ac17Proofs Aw11 Aw11Proofs Sessions SessionProofs TruncationProofs RobustProofs TotalProofs
  Generic Draws DrawsProofs Chances ChancesProofs Working.
Import ListNotations.
Local Open Scope nat_scope.

(** ** Lists of values, each from its own stock *)

Fixpoint grid {A} (al : nat -> list A) (i n : nat) : list (list A) :=
  match n with
  | 0 => [[]]
  | S n => flat_map (fun x => map (cons x) (grid al (S i) n)) (al i)
  end.

Lemma grid_In {A} (al : nat -> list A) d n : forall i r,
  In r (grid al i n) <-> length r = n /\ forall k, k < n -> In (nth k r d) (al (i + k)).
Proof.
  induction n as [|n IH]; intros i r; cbn [grid].
  - split; [intros [<-|[]]; split; [reflexivity|lia]|]. intros [E _]. destruct r; [now left|discriminate].
  - rewrite in_flat_map. split.
    + intros (x & Ix & H). apply in_map_iff in H as (y & <- & Iy). apply IH in Iy as [E H]. split; [cbn; congruence|].
      intros [|k] Hk; cbn [nth]; [now rewrite Nat.add_0_r|]. replace (i + S k) with (S i + k) by lia. apply H. lia.
    + intros [E H]. destruct r as [|x r]; [discriminate|]. exists x. split.
      * rewrite <- (Nat.add_0_r i). apply (H 0). lia.
      * apply in_map. apply IH. split; [cbn in E; lia|]. intros k Hk. replace (S i + k) with (i + S k) by lia. apply (H (S k)). lia.
Qed.

Lemma cons_all_NoDup {A} (l : list A) (T : list (list A)) : NoDup l -> NoDup T -> NoDup (flat_map (fun x => map (cons x) T) l).
Proof.
  intros Hl HT. induction Hl as [|x l N _ IH]; [constructor|]. cbn [flat_map].
  assert (App : forall (u v : list (list A)), NoDup u -> NoDup v -> (forall z, In z u -> ~ In z v) -> NoDup (u ++ v)).
  { clear. induction u as [|a u IH]; intros v Hu Hv D; [exact Hv|]. inversion Hu as [|? ? Na Hu']; subst. cbn. constructor.
    - rewrite in_app_iff. intros [I|I]; [now apply Na|]. exact (D a (or_introl eq_refl) I).
    - apply IH; auto. intros z I. apply D. now right. }
  apply App; [apply NoDup_map_on; [exact HT|congruence]|exact IH|].
  intros z I J. apply in_map_iff in I as (y & <- & _). apply in_flat_map in J as (x' & Ix & J).
  apply in_map_iff in J as (y' & E & _). injection E as -> _. now apply N.
Qed.

Lemma grid_NoDup {A} (al : nat -> list A) n : (forall k, NoDup (al k)) -> forall i, NoDup (grid al i n).
Proof.
  intros H. induction n as [|n IH]; intros i; cbn [grid]; [repeat constructor; intros []|]. now apply cons_all_NoDup.
Qed.

Lemma grid_length {A} (al : nat -> list A) (b : nat -> bool) p n : (forall k, length (al k) = if b k then p - 1 else p) ->
  forall i, length (grid al i n) * p ^ length (filter b (seq i n)) = (p - 1) ^ length (filter b (seq i n)) * p ^ n.
Proof.
  intros H. induction n as [|n IH]; intros i; cbn [grid]; [reflexivity|].
  rewrite (flat_map_len _ (length (grid al (S i) n))) by (intros; apply map_length).
  specialize (IH (S i)). rewrite H. cbn [seq filter]. destruct (b i); cbn [length Nat.pow].
  - transitivity ((p - 1) * p * (length (grid al (S i) n) * p ^ length (filter b (seq (S i) n)))); [ring|]. rewrite IH. ring.
  - transitivity (p * (length (grid al (S i) n) * p ^ length (filter b (seq (S i) n)))); [ring|]. rewrite IH. ring.
Qed.

Definition among (qs : list nat) (k : nat) : bool := existsb (Nat.eqb k) qs.

Lemma among_In qs k : among qs k = true <-> In k qs.
Proof.
  unfold among. rewrite existsb_exists. split; [intros (x & I & E); apply Nat.eqb_eq in E; now subst|].
  intros I. exists k. split; [exact I|apply Nat.eqb_refl].
Qed.

Lemma among_count qs n : NoDup qs -> (forall q, In q qs -> q < n) -> length (filter (among qs) (seq 0 n)) = length qs.
Proof.
  intros ND H. apply Nat.le_antisymm; apply NoDup_incl_length.
  - apply NoDup_filter, seq_NoDup.
  - intros q I. apply filter_In in I as [_ I]. now apply among_In.
  - exact ND.
  - intros q I. apply filter_In. split; [apply in_seq; specialize (H q I); lia|now apply among_In].
Qed.

Section WorkingProofs.
Context {C : crypto} (L : laws C).
Local Open Scope F_scope.
Add Field working_field : (f_theory L).
Notation F := (F C).
Ltac step E := erewrite rbind_run by exact E; cbv beta iota.
Ltac lifted := erewrite rbind_run by reflexivity; cbv beta iota.

Section Share.
Variable p : nat.
Hypothesis size : field_size C p.

Lemma values_but_zero : exists all Ds : list F, NoDup all /\ length all = p /\ (forall x, In x all) /\
  NoDup Ds /\ length Ds = (p - 1)%nat /\ forall x, In x Ds <-> x <> 0.
Proof.
  destruct size as (all & Na & La & Ia). destruct (in_split _ _ (Ia 0)) as (l1 & l2 & E). exists all, (l1 ++ l2).
  do 3 (split; [assumption|]). rewrite E in Na. pose proof (NoDup_remove_1 _ _ _ Na) as N1. pose proof (NoDup_remove_2 _ _ _ Na) as N2.
  split; [exact N1|]. split; [rewrite <- La, E, !app_length; cbn [length]; lia|].
  intros x. split; [intros I ->; exact (N2 I)|]. intros N. pose proof (Ia x) as I. rewrite E in I.
  apply in_elt_inv in I as [I|I]; [congruence|exact I].
Qed.

(** A session that works exactly when the values at some positions are not zero. *)
Lemma working {A} (s : rand F A) (a : A) (qs : list nat) n : NoDup qs -> (forall q, In q qs -> (q < n)%nat) ->
  (forall t : nat -> F, (forall q, In q qs -> t q <> 0) -> exists j, s t 0%nat = Ok (a, j)) ->
  (forall (t : nat -> F) q, In q qs -> t q = 0 -> s t 0%nat = Panic) ->
  works s a (length qs) p n.
Proof.
  intros ND Hq Good Bad. destruct values_but_zero as (all & Ds & Na & La & Ia & Nd & Ld & Id).
  set (al := fun k => if among qs k then Ds else all).
  assert (Iff : forall r, In r (grid al 0 n) <-> length r = n /\ forall q, In q qs -> from r q <> 0).
  { intros r. rewrite (grid_In al 0). split; intros [E H]; (split; [exact E|]).
    - intros q I. specialize (H q (Hq q I)). unfold al in H. cbn [Nat.add] in H.
      rewrite (proj2 (among_In qs q) I) in H. now apply Id.
    - intros k Hk. unfold al. cbn [Nat.add]. destruct (among qs k) eqn:E'; [|apply Ia].
      apply Id. apply H. now apply among_In. }
  exists (grid al 0 n). split; [split|split].
  - apply grid_NoDup. intros k. unfold al. destruct (among qs k); assumption.
  - intros r. rewrite Iff. split; intros [E H]; (split; [exact E|]); [now apply Good|].
    intros q I Z. destruct H as (j & H). rewrite (Bad _ q I Z) in H. discriminate.
  - unfold share. rewrite <- (among_count qs n ND Hq). apply grid_length. intros k. unfold al. destruct (among qs k); assumption.
  - intros r E N. destruct (forallb (fun q => negb (feqb C (from r q) 0)) qs) eqn:B.
    + exfalso. apply N. apply Iff. split; [exact E|]. intros q I Z. rewrite forallb_forall in B. specialize (B q I).
      rewrite Z, (feqb_refl L) in B. discriminate.
    + assert (X : exists q, In q qs /\ from r q = 0).
      { clear -B L. induction qs as [|q l IH]; [discriminate|]. cbn [forallb] in B. apply andb_false_iff in B as [B|B].
        - apply negb_false_iff, (feqb_eq L) in B. exists q. split; [now left|exact B].
        - destruct (IH B) as (q' & I & Z). exists q'. split; [now right|exact Z]. }
      destruct X as (q & I & Z). exact (Bad _ q I Z).
Qed.
End Share.

(** ** BSW *)

Lemma bsw_setup_zero (t : nat -> F) : t 2%nat = 0 -> bsw_setup (C := C) t 0%nat = Panic.
Proof.
  intros Z. unfold bsw_setup, draw_g1, draw_g2, rbind, rret, rlift, draw. rewrite Z. unfold finv_opt.
  rewrite (feqb_refl L). reflexivity.
Qed.

Lemma bsw_good nonce attrs pol lang data f (t : nat -> F) :
  hash_total (C := C) -> parse pol lang = Ok (tree f) -> String.length nonce = 12%nat ->
  arity2 f = true -> NoDup (leaves f) -> plain_names f = true -> small_ok C (and_width f) ->
  attrs <> [] -> t 2%nat <> 0 ->
  exists j, bsw_session nonce attrs pol lang data t 0%nat =
            Ok (if sat (owns attrs) f then Ok data else Err, j).
Proof.
  intros HT P HN A ND PN SO NE T2. unfold bsw_session.
  destruct (bsw_setup_runs L t 0 T2) as (pk & msk & E1). step E1.
  destruct (bsw_keygen_runs L pk msk attrs t 4%nat) as (sk & j2 & E2);
    [exact NE | exact (bsw_beta L _ _ _ _ _ E1) | auto |].
  step E2. lifted.
  destruct (bsw_encrypt_runs L nonce pk pol lang data f t j2 P HT) as (ct & j3 & E3). step E3.
  eexists. unfold rret. do 2 f_equal. destruct (sat (owns attrs) f) eqn:SA.
  2:{ destruct (bsw_encrypt_inv L _ _ _ _ _ _ _ _ _ _ P E3) as (s & m & i' & Ep & _).
      apply bsw_reject with (f := f); rewrite ?Ep; [exact P|].
      destruct (bsw_keygen_ok L _ _ _ _ _ _ _ E2) as (_ & _ & K).
      rewrite (Forall2_names _ _ _ _ (fun a b H => proj1 H) K). exact SA. }
  rewrite (bsw_correct L nonce pk msk attrs sk pol lang data ct f t _ _ t _ _ t _ _ E1 E2 E3); auto.
Qed.

Theorem bsw_works p nonce attrs pol lang data f n : field_size C p ->
  hash_total (C := C) -> parse pol lang = Ok (tree f) -> String.length nonce = 12%nat ->
  arity2 f = true -> NoDup (leaves f) -> plain_names f = true -> small_ok C (and_width f) ->
  attrs <> [] -> (3 <= n)%nat ->
  works (bsw_session (C := C) nonce attrs pol lang data) (if sat (owns attrs) f then Ok data else Err) 1 p n.
Proof.
  intros SZ HT P HN A ND PN SO NE Hn. apply (working p SZ _ _ [2%nat]).
  - repeat constructor. intros [].
  - intros q [<-|[]]. lia.
  - intros t H. apply bsw_good; auto. apply H. now left.
  - intros t q [<-|[]] Z. unfold bsw_session. unfold rbind at 1. now rewrite bsw_setup_zero.
Qed.

Theorem bsw_delegated_works p nonce attrs subset pol lang data f n : field_size C p ->
  hash_total (C := C) -> parse pol lang = Ok (tree f) -> String.length nonce = 12%nat ->
  arity2 f = true -> NoDup (leaves f) -> plain_names f = true -> small_ok C (and_width f) ->
  incl subset attrs -> subset <> [] -> (3 <= n)%nat ->
  works (bsw_delegated_session (C := C) nonce attrs subset pol lang data) (if sat (owns subset) f then Ok data else Err) 1 p n.
Proof.
  intros SZ HT P HN A ND PN SO I NE Hn. apply (working p SZ _ _ [2%nat]).
  - repeat constructor. intros [].
  - intros q [<-|[]]. lia.
  - intros t H. pose proof (H 2%nat (or_introl eq_refl)) as T2. clear H. unfold bsw_delegated_session.
    destruct (bsw_setup_runs L t 0 T2) as (pk & msk & E1). step E1.
    destruct (bsw_keygen_runs L pk msk attrs t 4%nat) as (sk & j2 & E2);
      [intros ->; destruct subset as [|a r]; [auto|]; exact (I a (or_introl eq_refl))
      | exact (bsw_beta L _ _ _ _ _ E1) | auto |].
    step E2. lifted.
    destruct (proj2 (bsw_delegate_iff pk sk subset t j2 (fun a _ => HT a))) as (dk & j3 & E3).
    { split; [exact NE|]. intros a Ia.
      replace (map b_string (bsk_dj sk)) with attrs; [auto|].
      destruct (bsw_keygen_ok L _ _ _ _ _ _ _ E2) as (_ & _ & K).
      symmetry. exact (Forall2_names _ _ _ _ (fun a b H => proj1 H) K). }
    step E3. lifted.
    destruct (bsw_encrypt_runs L nonce pk pol lang data f t j3 P HT) as (ct & j4 & E4). step E4.
    eexists. unfold rret. do 2 f_equal. destruct (sat (owns subset) f) eqn:SA.
    2:{ destruct (bsw_encrypt_inv L _ _ _ _ _ _ _ _ _ _ P E4) as (s & m & i' & Ep & _).
        apply bsw_reject with (f := f); rewrite ?Ep; [exact P|].
        rewrite (bsw_delegate_attrs _ _ _ _ _ _ _ E3). exact SA. }
    rewrite (bsw_delegate_correct L nonce pk msk attrs sk subset dk pol lang data ct f
               t _ _ t _ _ t _ _ t _ _ E1 E2 E3 E4); auto.
  - intros t q [<-|[]] Z. unfold bsw_delegated_session. unfold rbind at 1. now rewrite bsw_setup_zero.
Qed.

(** ** GHW11 *)

Theorem ghw_works p nonce attrs pol lang data f n : field_size C p ->
  hash_total (C := C) -> parse pol lang = Ok (tree f) -> String.length nonce = 12%nat ->
  arity2 f = true -> NoDup (leaves f) -> plain_names f = true -> small_ok C (and_width f) ->
  attrs <> [] -> (6 <= n)%nat ->
  works (ghw_session (C := C) nonce attrs pol lang data) (if sat (owns attrs) f then Ok data else Err) 1 p n.
Proof.
  intros SZ HT P HN A ND PN SO NE Hn. apply (working p SZ _ _ [5%nat]).
  - repeat constructor. intros [].
  - intros q [<-|[]]. lia.
  - intros t H. pose proof (H 5%nat (or_introl eq_refl)) as T5. clear H. unfold ghw_session.
    destruct (ghw_setup_runs (C := C) t 0) as (pk & msk & j1 & E1). pose proof E1 as E1'.
    apply (takes_Ok _ _ _ _ _ _ t 0%nat ghw_setup_takes) in E1' as [-> _]; [|reflexivity]. step E1.
    destruct (ghw_keygen_runs pk msk attrs t (0 + 4)%nat) as (sk & j2 & E2);
      [exact NE | auto |]. pose proof E2 as E2'. destruct attrs as [|a0 ar] eqn:EA; [congruence|]. rewrite <- EA in *.
    assert (J2 : j2 = 5%nat).
    { rewrite EA in E2'. now apply (takes_Ok _ _ _ _ _ _ t (0 + 4)%nat (ghw_keygen_takes pk msk a0 ar)) in E2' as [-> _]. }
    subst j2. step E2. lifted.
    destruct (ghw_tkgen_runs L sk t 5%nat T5) as (tk & z & j3 & E3). step E3.
    destruct (ghw_encrypt_runs L nonce pk pol lang data f t j3 P HT) as (ct & j4 & E4). step E4.
    eexists. unfold rret. do 2 f_equal. destruct (sat (owns attrs) f) eqn:SA.
    2:{ destruct (ghw_encrypt_inv L _ _ _ _ _ _ _ _ _ _ P E4) as (s & m & i' & Ep & _).
        rewrite (ghw_reject tk ct f); [reflexivity|rewrite Ep; exact P|].
        pose proof (ghw_keygen_ok L _ _ _ _ _ _ _ E2) as (_ & _ & K).
        pose proof (ghw_tkgen_ok L _ _ _ _ _ _ E3) as TK.
        replace (map fst (gtk_attr tk)) with attrs; [exact SA|].
        destruct TK as (_ & _ & _ & ->). rewrite map_map. cbn [fst].
        symmetry. exact (Forall2_names _ _ _ _ (fun a b H => proj1 H) K). }
    destruct (ghw_correct L nonce pk msk attrs sk tk z pol lang data ct f
               t _ _ t _ _ t _ _ t _ _ E1 E2 E3 E4) as (tct & -> & D); auto.
  - intros t q [<-|[]] Z. unfold ghw_session.
    destruct (ghw_setup_runs (C := C) t 0) as (pk & msk & j1 & E1). pose proof E1 as E1'.
    apply (takes_Ok _ _ _ _ _ _ t 0%nat ghw_setup_takes) in E1' as [-> _]; [|reflexivity]. step E1.
    destruct (ghw_keygen_runs pk msk attrs t (0 + 4)%nat) as (sk & j2 & E2);
      [exact NE | auto |]. pose proof E2 as E2'. destruct attrs as [|a0 ar] eqn:EA; [congruence|].
    assert (J2 : j2 = 5%nat) by now apply (takes_Ok _ _ _ _ _ _ t (0 + 4)%nat (ghw_keygen_takes pk msk a0 ar)) in E2' as [-> _].
    subst j2. step E2. lifted. unfold rbind at 1.
    destruct (ghw_tkgen_outcome L sk t 5%nat) as [[_ ->]|[N _]]; [reflexivity|contradiction].
Qed.

(** ** AC17 *)

Lemma ac_setup_at (t : nat -> F) : exists (pk : ac_pk C) msk, ac_setup t 0%nat = Ok ((pk, msk), 9%nat) /\
  ac_keys pk msk (t 2%nat) (t 4%nat) (t 3%nat) (t 5%nat) (t 6%nat) (t 7%nat) (t 8%nat).
Proof.
  unfold ac_setup, draw_g1, draw_g2, rbind, rret, rlift, draw. cbn. eexists _, _. split; [reflexivity|].
  do 2 eexists. split; reflexivity.
Qed.

Theorem cp_works p nonce attrs pol lang data f n : field_size C p ->
  hash_total (C := C) -> parse pol lang = Ok (tree f) -> String.length nonce = 12%nat ->
  binary_and f = true -> NoDup (names f) -> NoDup attrs -> attrs <> [] -> (5 <= n)%nat ->
  works (cp_session (C := C) nonce attrs pol lang data) (if sat (owns attrs) f then Ok data else Err) 2 p n.
Proof.
  intros SZ HT P HN B ND NA NE Hn. apply (working p SZ _ _ [2%nat; 4%nat]).
  - repeat constructor; cbn; lia.
  - intros q [<-|[<-|[]]]; lia.
  - intros t H. pose proof (H 2%nat (or_introl eq_refl)) as N0. pose proof (H 4%nat (or_intror (or_introl eq_refl))) as N1. clear H.
    unfold cp_session. destruct (ac_setup_at t) as (pk & msk & E1 & K). step E1.
    destruct (cp_keygen_runs L pk msk _ _ _ _ _ _ _ attrs t 9%nat K N0 N1 HT NE) as (sk & j2 & E2). step E2.
    destruct (cp_encrypt_runs L nonce pk msk _ _ _ _ _ _ _ pol lang data f t j2 K P B HT)
      as (ct & j3 & E3). step E3.
    eexists. unfold rret. do 2 f_equal. destruct (sat (owns attrs) f) eqn:SA.
    2:{ destruct (cp_keygen_inv L _ _ _ _ _ _ _ _ _ _ _ _ _ _ K E2) as (_ & _ & _ & ? & ? & ? & ? & ? & ? & ? & Ea & _).
        destruct (cp_encrypt_inv L _ _ _ _ _ _ _ _ _ _ _ _ _ _ _ _ _ _ K P B E3) as (? & ? & ? & ? & ? & ? & Ep & _).
        apply cp_reject with (f := f); rewrite ?Ep, ?Ea; auto. }
    rewrite (cp_correct L nonce pk msk attrs sk pol lang data ct f t _ _ t _ _ t _ _ E1 E2 E3); auto.
  - intros t q Iq Z. unfold cp_session. destruct (ac_setup_at t) as (pk & msk & E1 & K). step E1. unfold rbind at 1.
    destruct (proj2 (cp_keygen_outcome L pk msk t 0 9 E1 HT attrs t 9) NE) as [[_ ->]|[N _]]; [reflexivity|].
    exfalso. apply N. destruct K as (g & h & _ & ->). cbn [amsk_a]. exists (t q). split; [|exact Z].
    destruct Iq as [<-|[<-|[]]]; cbn; auto.
Qed.

Lemma kp_keygen_zero pk msk a0 a1 b0 b1 k0 k1 k2 pol lang f t i : ac_keys pk msk a0 a1 b0 b1 k0 k1 k2 ->
  parse pol lang = Ok (tree f) -> binary_and f = true -> hash_total (C := C) -> a0 = 0 \/ a1 = 0 ->
  kp_keygen (C := C) msk pol lang t i = Panic.
Proof.
  intros K P B HT Z. unfold kp_keygen. rewrite P. erewrite rbind_run by reflexivity.
  rewrite (calculate_msp_eq f B). erewrite rbind_run by reflexivity. cbn [msp_m msp_pi].
  destruct (sorted_nonempty L f B) as (r0 & R0 & E0).
  assert (Hr0 : length (snd r0) = msp_width f).
  { apply msp_rows_length. apply sorted_In. rewrite E0. now left. }
  set (R := sort_rows (rev (msp_rows f))) in *.
  assert (I0 : idx (map snd R) 0 = Ok (snd r0)) by now rewrite E0.
  rewrite I0. erewrite rbind_run by reflexivity. rewrite Hr0.
  destruct (draw_br_runs _ _ _ _ _ _ _ _ _ t i K) as (x0 & x1 & x2 & j & E).
  erewrite rbind_run by exact E. clear E. pose proof (msp_width_pos f B) as Wp.
  destruct K as (g & h & -> & ->).
  erewrite rbind_run by reflexivity.
  destruct (draws_length (msp_width f - 1) t j) as (sp & j2 & E & Lsp).
  erewrite rbind_run by exact E. clear E. rewrite map_length.
  unfold rbind at 1. rewrite (rmap_rows R). rewrite E0. cbn [rmap]. unfold rbind at 1 2 3, draw at 1.
  match goal with |- context [rlift (omap ?f ts)] => assert (X : omap f ts = Panic) end.
  { assert (Z0 : feqb C a0 0 = true \/ (a0 <> 0 /\ a1 = 0)).
    { destruct (feqb C a0 0) eqn:E; [now left|right]. apply (feqb_neq L) in E. split; [exact E|]. destruct Z; [contradiction|assumption]. }
    unfold ts, asz. cbn [seq omap]. unfold kp_entry at 1. cbn [amsk_a idx nth_error unwrap obind].
    destruct Z0 as [Z0|[N0 ->]]; [unfold finv_opt at 1; rewrite Z0; reflexivity|].
    rewrite (finv_opt_neq L) by exact N0. cbn [unwrap obind amsk_g amsk_gk].
    destruct (hash_prod_runs g (fst r0) x0 x1 x2 (finv C a0) 0 (g1zero C) HT) as (pr & ->). cbn [obind].
    rewrite (idx_lt _ _ 0%Z) by (rewrite Hr0; lia). cbn [obind].
    rewrite (entry_at_ok _ _ [g1mul C g k0; g1mul C g k1; g1mul C g k2] 0 (g1mul C g k0) eq_refl). cbn [obind].
    match goal with |- context [ofold ?st (seq 1 ?n) ?ac] => destruct (ofold_runs st (seq 1 n)) with (a := ac) as (q & E) end.
    + intros jj acc Ij. apply in_seq in Ij.
      destruct (hash_prod_runs g (col jj) x0 x1 x2 (finv C a0) 0 (snd acc) HT) as (p' & ->). cbn [obind].
      rewrite (idx_lt _ _ 0) by lia. cbn [obind]. rewrite (idx_lt _ _ 0%Z) by (rewrite Hr0; lia).
      cbn [obind]. eauto.
    + rewrite E. cbn [obind]. unfold kp_entry. cbn [amsk_a idx nth_error unwrap obind].
      unfold finv_opt at 1. rewrite (feqb_refl L). reflexivity. }
  rewrite X. reflexivity.
Qed.

Theorem kp_works p nonce pol lang attrs data f n : field_size C p ->
  hash_total (C := C) -> parse pol lang = Ok (tree f) -> String.length nonce = 12%nat ->
  binary_and f = true -> NoDup (names f) -> NoDup attrs -> (5 <= n)%nat ->
  works (kp_session (C := C) nonce pol lang attrs data) (if sat (owns attrs) f then Ok data else Err) 2 p n.
Proof.
  intros SZ HT P HN B ND NA Hn. apply (working p SZ _ _ [2%nat; 4%nat]).
  - repeat constructor; cbn; lia.
  - intros q [<-|[<-|[]]]; lia.
  - intros t H. pose proof (H 2%nat (or_introl eq_refl)) as N0. pose proof (H 4%nat (or_intror (or_introl eq_refl))) as N1. clear H.
    unfold kp_session. destruct (ac_setup_at t) as (pk & msk & E1 & K). step E1.
    destruct (kp_keygen_runs L pk msk _ _ _ _ _ _ _ pol lang f t 9%nat K N0 N1 P B HT)
      as (sk & j2 & E2). step E2.
    destruct (kp_encrypt_runs nonce pk msk _ _ _ _ _ _ _ attrs data t j2 K HT)
      as (ct & j3 & E3). step E3.
    eexists. unfold rret. do 2 f_equal. destruct (sat (owns attrs) f) eqn:SA.
    2:{ destruct (kp_encrypt_inv L _ _ _ _ _ _ _ _ _ _ _ _ _ _ _ _ K E3) as (? & ? & ? & ? & ? & ? & Ea & _).
        destruct (kp_keygen_inv L _ _ _ _ _ _ _ _ _ _ _ _ _ _ _ _ K P B E2) as (? & ? & ? & ? & Ep & _).
        apply kp_reject with (f := f); rewrite ?Ep, ?Ea; auto. }
    rewrite (kp_correct L nonce pk msk attrs sk pol lang data ct f t _ _ t _ _ t _ _ E1 E2 E3); auto.
  - intros t q Iq Z. unfold kp_session. destruct (ac_setup_at t) as (pk & msk & E1 & K). step E1. unfold rbind at 1.
    rewrite (kp_keygen_zero _ _ _ _ _ _ _ _ _ pol lang f t 9 K P B HT); [reflexivity|].
    destruct Iq as [<-|[<-|[]]]; auto.
Qed.

(** ** YCT14 *)

(** The first place of a name. *)
Fixpoint place (n : string) (U : list string) : nat :=
  match U with
  | [] => 0%nat
  | u :: U => if seqb u n then 0%nat else S (place n U)
  end.

Lemma place_lt n U : In n U -> (place n U < length U)%nat.
Proof.
  induction U as [|u U IH]; [intros []|]. intros I. cbn [place length]. destruct (seqb u n) eqn:E; [lia|].
  apply seqb_neq in E. destruct I as [I|I]; [congruence|]. specialize (IH I). lia.
Qed.

Lemma place_inj n m U : In n U -> In m U -> place n U = place m U -> n = m.
Proof.
  induction U as [|u U IH]; [intros []|]. intros In_ Im. cbn [place].
  destruct (seqb u n) eqn:E; destruct (seqb u m) eqn:E'; try discriminate.
  - apply seqb_eq in E, E'. congruence.
  - intros X. injection X as X. apply seqb_neq in E, E'. destruct In_ as [In_|In_]; [congruence|]. destruct Im as [Im|Im]; [congruence|]. auto.
Qed.

Lemma yct_secret g n (t : nat -> F) U : forall i pairs j, rmap (yct_new (C := C) g) U t i = Ok (pairs, j) ->
  find (fun a => seqb (y_name a) n && match y_node a with Some _ => true | None => false end) (map snd pairs) =
  if owns U n then Some (YAttr n (Some (YPriv (t (i + place n U)%nat)))) else None.
Proof.
  induction U as [|u U IH]; intros i pairs j H; cbn [rmap] in H.
  - apply rret_Ok in H as [<- _]. reflexivity.
  - apply rbind_Ok in H as (b & k & Hb & H). apply rbind_Ok in H as (bs & k2 & Hbs & H). apply rret_Ok in H as [<- _].
    unfold yct_new, rbind, draw, rret in Hb. injection Hb as <- <-. cbn [map snd find y_name y_node place].
    unfold owns, smem. cbn [existsb]. rewrite andb_true_r. destruct (seqb u n) eqn:E.
    + rewrite (proj1 (seqb_eq u n) E). rewrite (proj2 (seqb_eq n n) eq_refl). cbn [orb]. rewrite Nat.add_0_r. reflexivity.
    + rewrite (IH _ _ _ Hbs). apply seqb_neq in E. destruct (seqb n u) eqn:E'; [apply seqb_eq in E'; congruence|]. cbn [orb].
      unfold owns, smem. replace (S i + place n U)%nat with (i + S (place n U))%nat by lia. reflexivity.
Qed.

Lemma yct_bad U (t : nat -> F) pk msk j n : yct_setup U t 0%nat = Ok ((pk, msk), j) ->
  bad_private (C := C) (ymsk_attrs msk) n <-> In n U /\ t (2 + place n U)%nat = 0.
Proof.
  intros H. unfold yct_setup in H.
  apply rbind_Ok in H as (s & i1 & H1 & H). apply rbind_Ok in H as (g & i2 & H2 & H).
  apply rbind_Ok in H as (l & i3 & Hl & H). apply rret_Ok in H as [H _]. injection H as _ <-.
  unfold draw in H1. injection H1 as _ <-. unfold draw_gt, rbind, draw, rret in H2. injection H2 as _ <-.
  unfold bad_private. cbn [ymsk_attrs]. rewrite (yct_secret g n t U _ _ _ Hl). unfold owns.
  destruct (smem n U) eqn:E.
  - apply smem_In in E. split.
    + intros (a & Ea & Bad). injection Ea as <-. cbn [y_node] in Bad. destruct Bad as [(gg & X)|X]; [discriminate|].
      injection X as X. split; [exact E|exact X].
    + intros [_ Z]. eexists. split; [reflexivity|]. right. cbn [y_node]. do 2 f_equal. exact Z.
  - split; [intros (a & X & _); discriminate|]. intros [I _]. apply smem_In in I. congruence.
Qed.

Theorem yct_works p nonce U pol lang attrs data f n : field_size C p ->
  parse pol lang = Ok (tree f) -> String.length nonce = 12%nat ->
  data <> EmptyString -> arity2 f = true -> NoDup (names f) -> plain_names f = true ->
  small_ok C (and_width f) -> incl attrs U -> attrs <> [] -> (2 + length U <= n)%nat ->
  works (yct_session (C := C) nonce U pol lang attrs data) (if sat (owns attrs) f then Ok data else Err)
    (length (filter (owns U) (names f))) p n.
Proof.
  intros SZ P HN NE A ND PN SO I NA Hn.
  assert (KG : forall t pk msk j1, yct_setup U t 0%nat = Ok ((pk, msk), j1) ->
    settled (yct_keygen (C := C) msk pol lang t j1) (exists m, In m (names f) /\ In m U /\ t (2 + place m U)%nat = 0)).
  { intros t pk msk j1 E1. eapply settled_iff; [|apply (proj2 (proj2 (yct_keygen_outcome L msk pol lang t j1)) f P)].
    split.
    - intros (m & q & Im & Bad). rewrite <- before_us_remove, (remove_index_no_us m (plain_leaf f m q PN Im)) in Bad.
      exists m. apply (yct_bad U t pk msk j1 m E1) in Bad. split; [|exact Bad]. exact (in_map fst _ _ Im).
    - intros (m & Im & Bad). apply (yct_bad U t pk msk j1 m E1) in Bad. apply in_map_iff in Im as ([m' q] & <- & Im).
      cbn [fst] in *. exists m', q. split; [exact Im|].
      now rewrite <- before_us_remove, (remove_index_no_us m' (plain_leaf f m' q PN Im)). }
  replace (length (filter (owns U) (names f))) with (length (map (fun m => 2 + place m U)%nat (filter (owns U) (names f)))) by apply map_length.
  apply (working p SZ).
  - apply NoDup_map_on; [now apply NoDup_filter|]. intros x y Ix Iy E. apply filter_In in Ix as [_ Ix], Iy as [_ Iy].
    apply smem_In in Ix, Iy. apply (place_inj x y U Ix Iy). lia.
  - intros q Iq. apply in_map_iff in Iq as (m & <- & Im). apply filter_In in Im as [_ Im]. apply smem_In in Im.
    pose proof (place_lt m U Im). lia.
  - intros t H. unfold yct_session.
    destruct (yct_setup_runs (C := C) U t 0) as (pk & msk & j1 & E1). step E1.
    destruct (yct_setup_keys L _ _ _ _ _ _ E1) as (G & K).
    destruct (KG t pk msk j1 E1) as [[(m & Im & Iu & Z) _]|[_ ([sk j2] & E2)]].
    { exfalso. apply (H (2 + place m U)%nat); [|exact Z]. apply (in_map (fun m => 2 + place m U)%nat). apply filter_In. split; [exact Im|].
      now apply smem_In. }
    step E2.
    destruct (yct_encrypt_runs L nonce G U pk msk attrs data t j2 K) as (ct & j3 & E3);
      [exact NA | exact NE | exact I |].
    step E3. eexists. unfold rret. do 2 f_equal. destruct (sat (owns attrs) f) eqn:SA.
    2:{ destruct (yct_keygen_inv L _ _ _ _ _ _ _ _ P E2) as (Ep & _).
        destruct (yct_encrypt_inv L _ _ _ _ _ _ _ _ _ _ _ K E3) as (_ & _ & _ & _ & En & _).
        apply yct_reject with (f := f); rewrite ?Ep, ?En; auto. }
    rewrite (yct_correct L nonce U pk msk attrs sk pol lang data ct f t _ _ t _ _ t _ _ E1 E2 E3); auto.
  - intros t q Iq Z. apply in_map_iff in Iq as (m & <- & Im). apply filter_In in Im as [Im Iu]. apply smem_In in Iu.
    unfold yct_session. destruct (yct_setup_runs (C := C) U t 0) as (pk & msk & j1 & E1). step E1. unfold rbind at 1.
    destruct (KG t pk msk j1 E1) as [[_ ->]|[N _]]; [reflexivity|]. exfalso. apply N. eauto.
Qed.

(** ** The schemes that always work *)

Lemma always p {A} (s : rand F A) a n : field_size C p -> (forall t : nat -> F, exists j, s t 0%nat = Ok (a, j)) -> works s a 0 p n.
Proof. intros SZ H. apply (working p SZ s a []); [constructor|intros q []|auto|intros t q []]. Qed.
End WorkingProofs.
