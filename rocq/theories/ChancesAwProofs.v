(** * Proofs about the share of runs in which a combination opens: AW11 *)
From Coq Require Import String Ascii List Bool Arith Lia Field.
From Verif Require Import Base Crypto Policy Tools Spec PolicyProofs Poly Symmetric Parse Sharing SharingProofs SchemeLib Msp
  Aw11 Aw11Proofs EquationProofs TruncationProofs Generic Views GenericProofs Draws DrawsProofs Chances ChancesProofs ChancesDnfProofs.
Import ListNotations.

Section ChancesAw.
Context {C : crypto} (L : laws C).
Notation F := (F C).
Ltac logs := log_simpl L.
Add Field chances_aw_field : (f_theory L).
Local Open Scope F_scope.

Variable p : nat.
Hypothesis size : field_size C p.

(** ** The published keys *)

Fixpoint pub (gk : aw_gk C) (t : nat -> F) (b : nat) (U : list string) : list (string * GT C * G2 C) :=
  match U with
  | [] => []
  | a :: U => (upper C a, gtpow C (pairing C (agk_g1 gk) (agk_g2 gk)) (t b), g2mul C (agk_g2 gk) (t (b + 1)%nat)) :: pub gk t (b + 2) U
  end.

Lemma pub_nth gk t U : forall b k, nth_error (pub gk t b U) k = option_map (fun a =>
  (upper C a, gtpow C (pairing C (agk_g1 gk) (agk_g2 gk)) (t (b + 2 * k)%nat), g2mul C (agk_g2 gk) (t (b + 2 * k + 1)%nat))) (nth_error U k).
Proof.
  induction U as [|a U IH]; intros b [|k]; try reflexivity.
  - cbn [pub nth_error option_map Nat.mul]. now rewrite !Nat.add_0_r.
  - cbn [pub nth_error]. rewrite IH. destruct (nth_error U k); [|reflexivity]. cbn [option_map]. do 4 f_equal; f_equal; lia.
Qed.

Lemma pub_length gk t U : forall b, length (pub gk t b U) = length U.
Proof. induction U as [|a U IH]; intros b; [reflexivity|]. cbn. now rewrite IH. Qed.

Lemma pub_app gk t U V : forall b, pub gk t b (U ++ V) = (pub gk t b U ++ pub gk t (b + 2 * length U) V)%list.
Proof.
  induction U as [|a U IH]; intros b; cbn [pub List.app length].
  - f_equal. lia.
  - rewrite IH. do 3 f_equal. lia.
Qed.

Lemma offices_pub gk t Us : forall b pks, authorities gk (offices Us b t) pks -> flat_map (@apk_attr C) pks = pub gk t b (concat Us).
Proof.
  induction Us as [|U Us IH]; intros b pks H; inversion H as [|? pk ? pks' (msk & j & E) H2]; subst; [reflexivity|].
  cbn [fst snd] in E. cbn [flat_map concat]. rewrite pub_app, (IH _ _ H2). f_equal.
  apply aw_authgen_eq in E as (_ & Lp & _ & N). apply nth_ext_error; [now rewrite pub_length|].
  intros k x Hx. rewrite pub_nth in Hx. destruct (nth_error U k) as [a|] eqn:Ha; [|discriminate]. destruct (N k a Ha) as (_ & X).
  rewrite X, <- Hx. cbn [option_map]. rewrite (Nat.add_0_l (2 * k)), !Nat.add_assoc. reflexivity.
Qed.

Fixpoint place (l : list string) (a : string) : option nat :=
  match l with
  | [] => None
  | x :: r => if seqb x a then Some 0%nat else option_map S (place r a)
  end.

Lemma place_lt l a : forall s, place l a = Some s -> (s < length l)%nat.
Proof.
  induction l as [|x l IH]; intros s; cbn; [discriminate|]. destruct (seqb x a); [intros H; injection H as <-; lia|].
  destruct (place l a) as [k|]; [|discriminate]. intros H. injection H as <-. specialize (IH k eq_refl). lia.
Qed.

Lemma find_pub gk t U a : forall b, find (fun x => seqb (n3 x) a) (pub gk t b U) = option_map (fun s =>
  (a, gtpow C (pairing C (agk_g1 gk) (agk_g2 gk)) (t (b + 2 * s)%nat), g2mul C (agk_g2 gk) (t (b + 2 * s + 1)%nat))) (place (map (upper C) U) a).
Proof.
  induction U as [|x U IH]; intros b; [reflexivity|]. cbn [pub find map place]. unfold n3 at 1. cbn [fst].
  destruct (seqb (upper C x) a) eqn:E.
  - apply seqb_eq in E as <-. cbn [option_map Nat.mul]. now rewrite !Nat.add_0_r.
  - rewrite IH. destruct (place (map (upper C) U) a) as [s|]; [|reflexivity]. cbn [option_map]. do 4 f_equal; f_equal; lia.
Qed.

(** ** The entries of a ciphertext *)

(** The leaves, by their number, whose attribute is published, with the place of the published key. *)
Definition one_found (x : nat * option nat) : list (nat * nat) :=
  match snd x with Some s => [(fst x, s)] | None => [] end.
Definition places (f : formula) (U : list string) : list (nat * option nat) :=
  combine (seq 0 (length (leaves f))) (map (fun n => place (map (upper C) U) (aw_key C n)) (names f)).
Definition found (f : formula) (U : list string) : list (nat * nat) := flat_map one_found (places f U).

Lemma names_len f : length (names f) = length (leaves f).
Proof. unfold names. apply map_length. Qed.

Lemma combine_nth_seq {A} (l : list A) : forall n i k, n = length l ->
  nth_error (combine (seq i n) l) k = option_map (fun x => ((i + k)%nat, x)) (nth_error l k).
Proof.
  induction l as [|x l IH]; intros n i k ->; [destruct k; reflexivity|]. cbn [length seq combine].
  destruct k as [|k]; cbn [nth_error]; [cbn; now rewrite Nat.add_0_r|]. rewrite IH by reflexivity. now rewrite Nat.add_succ_comm.
Qed.

Lemma found_In f U k s : In (k, s) (found f U) -> (k < length (leaves f))%nat /\ (s < length U)%nat.
Proof.
  unfold found. intros I. apply in_flat_map in I as ([k' o] & I & J). unfold one_found in J. cbn [fst snd] in J.
  destruct o as [s'|]; [|destruct J]. destruct J as [J|[]]. injection J as -> ->. unfold places in I.
  split; [apply in_combine_l, in_seq in I; lia|].
  apply in_combine_r, in_map_iff in I as (n & E & _). apply place_lt in E. now rewrite map_length in E.
Qed.

Lemma found_NoDup f U : NoDup (map fst (found f U)).
Proof.
  unfold found, places. generalize (map (fun n => place (map (upper C) U) (aw_key C n)) (names f)). intros l. revert l.
  assert (X : forall n i (l : list (option nat)), NoDup (map fst (flat_map one_found (combine (seq i n) l))) /\
    forall k, In k (map fst (flat_map one_found (combine (seq i n) l))) -> (i <= k)%nat).
  { induction n as [|n IH]; intros i l; [split; [constructor|intros k []]|]. destruct l as [|o l]; [split; [constructor|intros k []]|].
    cbn [seq combine flat_map]. destruct (IH (S i) l) as [N B]. destruct o as [s|]; cbn [one_found fst snd List.app map].
    - split; [constructor; [intros I; apply B in I; lia|exact N]|]. intros k [<-|I]; [lia|apply B in I; lia].
    - split; [exact N|]. intros k I. apply B in I. lia. }
  intros l. apply X.
Qed.

Lemma flat_found {B} (R : nat * nat -> B -> Prop) : forall l (es : list (list B)),
  Forall2 (fun x e => match snd x with Some s => exists y, e = [y] /\ R (fst x, s) y | None => e = [] end) l es ->
  Forall2 R (flat_map one_found l) (concat es).
Proof.
  induction 1 as [|[k o] e l es H _ IH]; [constructor|]. cbn [flat_map concat]. apply Forall2_app; [|exact IH].
  unfold one_found. cbn [fst snd] in *. destruct o as [s|]; [destruct H as (y & -> & HR); repeat constructor; exact HR|subst e; constructor].
Qed.

Definition lam (f : formula) (s : F) (t : nat -> F) (i k : nat) : F := nth k (map snd (gsh f s t i)) 0.

Definition aw_seenT (f : formula) (U : list string) (t : nat -> F) : list F :=
  let a := length U in let B := (2 + 2 * a)%nat in
  (map (fun k => t 0%nat * t 1%nat * t (2 + 2 * k)%nat) (seq 0 a) ++
   t (B + 1 + 2 * nd f)%nat + t 0%nat * t 1%nat * t B ::
   map (fun x => t 0%nat * t 1%nat * lam f (t B) t (B + 1) (fst x) +
     t 0%nat * t 1%nat * t (2 + 2 * snd x)%nat * t (B + 2 + 2 * nd f + fst x)%nat) (found f U))%list.

Definition aw_seen2 (f : formula) (U : list string) (t : nat -> F) : list F :=
  let a := length U in let B := (2 + 2 * a)%nat in
  (t 1%nat :: map (fun k => t 1%nat * t (2 + 2 * k + 1)%nat) (seq 0 a) ++
   flat_map (fun x => [t 1%nat * t (B + 2 + 2 * nd f + fst x)%nat;
     t 1%nat * t (2 + 2 * snd x + 1)%nat * t (B + 2 + 2 * nd f + fst x)%nat + t 1%nat * lam f 0 t (B + 1 + nd f) (fst x)]) (found f U))%list.

Lemma aw_logs nonce (t : nat -> F) Us (gk : aw_gk C) i pks pol lang f data ct j :
  aw_setup t 0%nat = Ok (gk, i) -> authorities gk (offices Us 2 t) pks -> parse pol lang = Ok (tree f) ->
  aw_encrypt nonce gk pks pol lang data t (2 + 2 * length (concat Us))%nat = Ok (ct, j) ->
  map (log1 L) (seen1 (aw_view gk pks ct)) = [t 0%nat] /\
  map (log2 L) (seen2 (aw_view gk pks ct)) = aw_seen2 f (concat Us) t /\
  map (logT L) (seenT (aw_view gk pks ct)) = aw_seenT f (concat Us) t.
Proof.
  intros Hs HA P He. apply aw_setup_eq in Hs as (_ & Hg1 & Hg2). cbn [Nat.add] in Hg1, Hg2.
  apply offices_pub in HA. set (U := concat Us) in *. set (a := length U). fold a in He. set (B := (2 + 2 * a)%nat) in *.
  assert (L1 : log1 L (agk_g1 gk) = t 0%nat) by (rewrite Hg1; logs; ring).
  assert (L2 : log2 L (agk_g2 gk) = t 1%nat) by (rewrite Hg2; logs; ring).
  destruct (aw_encrypt_eq L _ _ _ _ _ _ _ _ _ _ _ P He) as (sh & i1 & wsh & i2 & m & es & -> & Dl & Dw & _ & _ & Ec0 & _ & Ec & Le & N).
  apply (dealt_unique (C := C)) in Dl as [-> ->]. apply (dealt_unique (C := C)) in Dw as [-> ->].
  rewrite gsh_length in Le.
  set (R := fun (x : nat * nat) (y : string * GT C * G2 C * G2 C) =>
    logT L (snd (fst (fst y))) = t 0%nat * t 1%nat * lam f (t B) t (B + 1) (fst x) + t 0%nat * t 1%nat * t (2 + 2 * snd x)%nat * t (B + 2 + 2 * nd f + fst x)%nat /\
    log2 L (snd (fst y)) = t 1%nat * t (B + 2 + 2 * nd f + fst x)%nat /\
    log2 L (snd y) = t 1%nat * t (2 + 2 * snd x + 1)%nat * t (B + 2 + 2 * nd f + fst x)%nat + t 1%nat * lam f 0 t (B + 1 + nd f) (fst x)).
  assert (CT : Forall2 R (found f U) (awct_c ct)).
  { rewrite Ec. apply flat_found. apply Forall2_of_nth.
    { unfold places. rewrite combine_length, seq_length, map_length, names_len. lia. }
    intros k x e Hx Hee. unfold places in Hx. rewrite combine_nth_seq in Hx by (now rewrite map_length, names_len).
    rewrite nth_error_map in Hx. destruct (nth_error (names f) k) as [nm|] eqn:Hn; [|discriminate]. cbn [option_map] in Hx. injection Hx as <-.
    cbn [fst snd Nat.add].
    assert (Hl : exists q, nth_error (leaves f) k = Some (nm, q)).
    { unfold names in Hn. rewrite nth_error_map in Hn. destruct (nth_error (leaves f) k) as [[n' q]|] eqn:E; [|discriminate].
      cbn in Hn. injection Hn as <-. now exists q. }
    destruct Hl as (q & Hl).
    destruct (nth_error_len (leaves f) (gsh f (t B) t (B + 1)) k (nm, q)) as ([n y] & Hy); [now rewrite gsh_length|exact Hl|].
    assert (En : n = node_index nm q).
    { pose proof (map_nth_error fst _ _ Hy) as X. rewrite gsh_idents in X. unfold idents in X.
      rewrite (map_nth_error _ _ _ Hl) in X. injection X as X. symmetry. exact X. }
    assert (Key : remove_index (upper C n) = aw_key C nm).
    { unfold aw_key. rewrite (remove_index_upper L), En, remove_index_node. reflexivity. }
    specialize (N k n y Hy). rewrite Key, (find_pk_flat pks), HA, find_pub in N.
    destruct (place (map (upper C) U) (aw_key C nm)) as [s|]; cbn [option_map] in N.
    - destruct N as [(X & _)|(a' & e' & y' & w & X & W & E)]; [discriminate|]. injection X as <- <- <-.
      rewrite E in Hee. injection Hee as <-. eexists. split; [reflexivity|]. unfold R. cbn [fst snd]. logs. rewrite L1, L2.
      unfold lam. rewrite (nth_error_nth _ _ _ (map_nth_error snd _ _ Hy)), (nth_error_nth _ _ _ (map_nth_error snd _ _ W)). cbn [snd].
      cbn [Nat.add Nat.mul].
      replace (S (S (a + (a + 0) + 1 + nd f + nd f + 1 + k))) with (B + 2 + (nd f + (nd f + 0)) + k)%nat by (unfold B; lia). repeat apply conj; ring.
    - destruct N as [(_ & X)|(a' & e' & y' & w & X & _)]; [|discriminate]. rewrite X in Hee. now injection Hee as <-. }
  assert (PB : forall (h : string * GT C * G2 C -> F) (g : nat -> F), (forall a k, h (upper C a, gtpow C (pairing C (agk_g1 gk) (agk_g2 gk)) (t (2 + 2 * k)%nat),
      g2mul C (agk_g2 gk) (t (2 + 2 * k + 1)%nat)) = g k) -> map h (pub gk t 2 U) = map g (seq 0 a)).
  { intros h g H. apply nth_ext_error; [now rewrite !map_length, pub_length, seq_length|]. intros k x Hx.
    rewrite nth_error_map in Hx |- *. rewrite pub_nth. destruct (nth_error (seq 0 a) k) as [k'|] eqn:E; [|discriminate].
    assert (K : (k < a)%nat) by (rewrite <- (seq_length a 0); apply nth_error_Some; congruence).
    assert (k' = k) as -> by (apply nth_error_nth with (d := 0%nat) in E; rewrite seq_nth in E by exact K; now symmetry).
    destruct (nth_error U k) as [b|] eqn:Eb; [|apply nth_error_None in Eb; unfold a in K; lia]. cbn [option_map] in *. now rewrite H. }
  unfold aw_view. cbn [seen1 seen2 seenT]. rewrite HA. repeat apply conj.
  - cbn [map]. now rewrite L1.
  - unfold aw_seen2. cbn [map]. rewrite L2. f_equal. rewrite map_app. f_equal.
    + rewrite map_map. apply PB. intros x k. cbn [snd]. logs. now rewrite L2.
    + fold a. fold B. clear - CT. induction CT as [|x y l l' (_ & E2 & E3) _ IH]; [reflexivity|]. cbn [flat_map map List.app]. now rewrite E2, E3, IH.
  - unfold aw_seenT. rewrite map_app. f_equal.
    + rewrite map_map. apply PB. intros x k. cbn [fst snd]. logs. now rewrite L1, L2.
    + fold a. fold B. cbn [map]. f_equal.
      * rewrite Ec0. logs. rewrite L1, L2. replace (B + 1 + nd f + nd f)%nat with (B + 1 + 2 * nd f)%nat by lia. ring.
      * rewrite map_map. apply Forall2_map_eq. eapply Forall2_impl; [|exact CT]. intros x y X. apply X.
Qed.
(** ** The theorem *)

Lemma lam_plus f (s D : F) t t' i k : (forall q, (i <= q < i + nd f)%nat -> t' q = t q) -> (k < length (leaves f))%nat ->
  lam f (s + D) t' i k = lam f s t i k + D.
Proof.
  intros T K. unfold lam. destruct (nth_error (gsh f s t i) k) as [[n x]|] eqn:E.
  - pose proof (gsh_plus L f s D t t' i k n x T E) as E'.
    now rewrite (nth_error_nth _ _ _ (map_nth_error snd _ _ E)), (nth_error_nth _ _ _ (map_nth_error snd _ _ E')).
  - apply nth_error_None in E. rewrite gsh_length in E. lia.
Qed.

Lemma lam_same f (s : F) t t' i k : (forall q, (i <= q < i + nd f)%nat -> t' q = t q) -> lam f s t' i k = lam f s t i k.
Proof. intros T. unfold lam. now rewrite (gsh_ext f s t' t i T). Qed.

Theorem aw_chance nonce pol lang data f Us (e : combT C) : parse pol lang = Ok (tree f) ->
  let b := (2 + 2 * length (concat Us))%nat in
  let n := (b + 2 + 2 * coins f + length (leaves f))%nat in
  forall S, runs n (fun t => exists gk i pks ct j,
    aw_setup t 0%nat = Ok (gk, i) /\ authorities gk (offices Us 2 t) pks /\
    aw_encrypt nonce gk pks pol lang data t b = Ok (ct, j) /\
    evalT (aw_view gk pks ct) e = payload (t (b + 1 + 2 * coins f)%nat)) S ->
  at_most 4 p n S.
Proof.
  intros P. rewrite coins_nd. set (U := concat Us). set (a := length U). intros B n S [NS HS].
  set (q := (B + 1 + 2 * nd f)%nat) in *. set (R := (B + 2 + 2 * nd f)%nat).
  assert (LS : forall r, In r S -> length r = n) by (intros r I; apply (HS r I)).
  set (fl := found f U). set (K := length fl).
  assert (TWO : forall r r', In r S -> In r' S ->
    (forall k, (k < n)%nat -> k <> q -> k <> B -> (forall s, (s < a)%nat -> k <> (2 + 2 * s)%nat) -> from r' k = from r k) ->
    from r' q = from r q + drift e (fun m => nth m (aw_seenT f U (from r')) 0 - nth m (aw_seenT f U (from r)) 0)).
  { intros r r' I I' E.
    destruct (HS r I) as [_ (gk & i & pks & ct & j & Hs & HA & He & Ho)].
    destruct (HS r' I') as [_ (gk' & i' & pks' & ct' & j' & Hs' & HA' & He' & Ho')].
    destruct (aw_logs _ _ _ _ _ _ _ _ _ _ _ _ Hs HA P He) as (X1 & X2 & X3).
    destruct (aw_logs _ _ _ _ _ _ _ _ _ _ _ _ Hs' HA' P He') as (Y1 & Y2 & Y3).
    refine (two_views L e _ _ _ _ _ _ _ _ X3 Y3 Ho Ho').
    - rewrite X1, Y1. rewrite (E 0%nat); [reflexivity|..]; unfold n, q, B; intros; lia.
    - rewrite X2, Y2. fold U. unfold aw_seen2. fold a B. rewrite (E 1%nat) by (unfold n, q, B; intros; lia). f_equal. f_equal.
      + apply map_ext_in. intros k Ik. apply in_seq in Ik. rewrite (E (2 + 2 * k + 1)%nat) by (unfold n, q, B; intros; lia). reflexivity.
      + rewrite !flat_map_concat_map. f_equal. apply map_ext_in. intros [k s] Ik. apply found_In in Ik as [Hk Hs2]. fold a in Hs2. cbn [fst snd].
        rewrite (E (B + 2 + 2 * nd f + k)%nat), (E (2 + 2 * s + 1)%nat) by (unfold n, q, B; intros; lia).
        rewrite (lam_same f 0 (from r) (from r')); [reflexivity|]. intros x Hx. apply E; unfold n, q, B in *; intros; lia. }
  assert (FI : forall k s, In (k, s) fl -> (k < length (leaves f))%nat /\ (s < a)%nat) by (intros k s; apply found_In).
  assert (ZZ : forall {A} (l : list A) x, In x (map (fun _ => 0 : F) l) -> x = 0).
  { intros A l x I. apply in_map_iff in I as (? & <- & _). reflexivity. }
  set (w := fun k => drift e (only (C := C) (a + k))).
  destruct (feqb C (w 0%nat) 1) eqn:W0; [apply (feqb_eq L) in W0|apply (feqb_neq L) in W0].
  2:{ apply (at_most_le p 1 4); [lia|]. apply (one_position L p size n q); [unfold n, q; lia|exact NS|exact LS|].
    intros r r' I I' E Bq. specialize (TWO r r' I I' ltac:(intros; now apply E)). apply W0.
    rewrite (drift_dif L e (from r' q - from r q) _ _ (map (fun _ => 0) (seq 0 a) ++ 1 :: map (fun _ => 0) fl)%list) in TWO.
    - pose proof (drift_part L e a 1 (map (fun _ => 0) (seq 0 a)) [1] ltac:(now rewrite map_length, seq_length) (ZZ _ _) eq_refl
        ltac:(intros x [<-|[]]; reflexivity) (map (fun _ => 0) fl) (ZZ _ _)) as X.
      cbn [List.app seq map fsum] in X. fold (w 0%nat) in X. rewrite X in TWO.
      assert (Y : (from r' q - from r q) * (w 0%nat - 1) = 0).
      { transitivity (from r q + (from r' q - from r q) * (w 0%nat + 0) - from r' q); [ring|]. rewrite <- TWO. ring. }
      apply (mul_zero L) in Y; [|now apply (minus_neq L)]. transitivity (w 0%nat - 1 + 1); [ring|]. rewrite Y. ring.
    - unfold aw_seenT. fold a B q. rewrite (E 0%nat), (E 1%nat), (E B) by (unfold n, q, B; lia).
      apply dif_app; [apply (dif_map L); intros k Ik; apply in_seq in Ik; rewrite (E (2 + 2 * k)%nat) by (unfold n, q, B; lia); ring|].
      apply dif_cons; [ring|]. apply (dif_map L). intros [k s] Ik. apply FI in Ik as [Hk Hs2]. cbn [fst snd].
      rewrite (E (2 + 2 * s)%nat), (E (B + 2 + 2 * nd f + k)%nat) by (unfold n, q, B; lia).
      rewrite (lam_same f (from r B) (from r) (from r')); [ring|]. intros x Hx. apply E; unfold n, q, B in *; lia. }
  apply (outside L p size n 2 [(0%nat, 0); (1%nat, 0)] S); [|exact NS|exact LS|].
  { intros x v [E|[E|[]]]; injection E as <- _; unfold n, B; lia. }
  intros S' NS' IS'.
  assert (LS' : forall r, In r S' -> length r = n) by (intros r I; apply LS, IS', I).
  assert (Z0 : forall r, In r S' -> from r 0%nat * from r 1%nat <> 0).
  { intros r I. destruct (IS' r I) as [_ V]. apply (mul_neq L); [apply (V 0%nat 0); now left|apply (V 1%nat 0); right; now left]. }
  destruct (feqb C (fsum (map w (seq 0 (1 + K)))) 0) eqn:W2; [apply (feqb_eq L) in W2|apply (feqb_neq L) in W2].
  2:{ apply (at_most_le p 1 2); [lia|]. apply (one_position L p size n B); [unfold n; lia|exact NS'|exact LS'|].
    intros r r' I I' E Bq. destruct (IS' r I) as [J _]. destruct (IS' r' I') as [J' _].
    specialize (TWO r r' J J' ltac:(intros; now apply E)). apply W2. rewrite (E q) in TWO by (unfold n, q; lia).
    rewrite (drift_dif L e (from r 0%nat * from r 1%nat * (from r' B - from r B)) _ _ (map (fun _ => 0) (seq 0 a) ++ 1 :: map (fun _ => 1) fl)%list) in TWO.
    - assert (LC : length (1 :: map (fun _ => 1 : F) fl) = (1 + K)%nat) by (cbn [length]; now rewrite map_length).
      assert (OC : forall x, In x (1 :: map (fun _ => 1 : F) fl) -> x = 1).
      { intros x [<-|Ix]; [reflexivity|]. apply in_map_iff in Ix as (? & <- & _). reflexivity. }
      pose proof (drift_part L e a (1 + K) (map (fun _ => 0) (seq 0 a)) _ ltac:(now rewrite map_length, seq_length) (ZZ _ _) LC OC [] (ZZ nat [])) as X.
      rewrite app_nil_r in X. fold w in X. rewrite X in TWO. set (Y := fsum _) in *.
      assert (Z : from r 0%nat * from r 1%nat * (from r' B - from r B) * Y = 0).
      { transitivity (from r q + from r 0%nat * from r 1%nat * (from r' B - from r B) * Y - from r q); [ring|]. rewrite <- TWO. ring. }
      apply (mul_zero L) in Z; [exact Z|]. apply (mul_neq L); [now apply Z0|now apply (minus_neq L)].
    - unfold aw_seenT. fold a B q. rewrite (E 0%nat), (E 1%nat), (E q) by (unfold n, q, B; lia).
      apply dif_app; [apply (dif_map L); intros k Ik; apply in_seq in Ik; rewrite (E (2 + 2 * k)%nat) by (unfold n, q, B; lia); ring|].
      apply dif_cons; [ring|]. apply (dif_map L). intros [k s] Ik. apply FI in Ik as [Hk Hs2]. cbn [fst snd].
      rewrite (E (2 + 2 * s)%nat), (E (B + 2 + 2 * nd f + k)%nat) by (unfold n, q, B; lia).
      replace (from r' B) with (from r B + (from r' B - from r B)) by ring.
      rewrite (lam_plus f (from r B) (from r' B - from r B) (from r) (from r')); [ring| |exact Hk]. intros x Hx. apply E; unfold n, q, B in *; lia. }
  assert (SOME : exists j, (j < K)%nat /\ w (1 + j)%nat <> 0).
  { cbn [Nat.add seq map fsum] in W2. destruct (fsum_some L w (seq 1 K)) as (k & Ik & Nk).
    - intros Z. rewrite Z, W0 in W2. apply (F_1_neq_0 (f_theory L)). rewrite <- W2. ring.
    - apply in_seq in Ik. exists (k - 1)%nat. split; [lia|]. now replace (1 + (k - 1))%nat with k by lia. }
  destruct SOME as (j0 & Hj & Nj). destruct (nth_error fl j0) as [[k0 s0]|] eqn:Ej; [|apply nth_error_None in Ej; unfold K in Hj; lia].
  destruct (FI k0 s0 (nth_error_In _ _ Ej)) as [Hk0 Hs0].
  set (cl := fun t : nat -> F => (map (fun k => if (k =? s0)%nat then 1 else 0) (seq 0 a) ++ 0 :: map (fun x => if (snd x =? s0)%nat then t (R + fst x)%nat else 0) fl)%list).
  set (c := fun t : nat -> F => drift e (fun m => nth m (cl t) 0)).
  apply (peel p n 1 (fun r => feqb C (c (from r)) 0)).
  - apply (one_position L p size n (R + k0)); [unfold n, R; lia|now apply NoDup_filter|intros r I; apply filter_In in I as [I _]; auto|].
    intros r r' I I' E Bk. apply filter_In in I as [I Z], I' as [I' Z']. apply (feqb_eq L) in Z, Z'.
    assert (Y : (from r' (R + k0)%nat - from r (R + k0)%nat) * w (1 + j0)%nat = 0).
    { unfold w. rewrite <- (drift_scale L). transitivity (c (from r') - c (from r)); [|rewrite Z, Z'; ring].
      unfold c. rewrite (drift_minus L). apply drift_ext. intros m. unfold cl.
      assert (LM : length (map (fun k => if (k =? s0)%nat then 1 else 0 : F) (seq 0 a)) = a) by (now rewrite map_length, seq_length).
      unfold only. destruct (Nat.lt_ge_cases m a) as [H|H].
      - rewrite !app_nth1 by lia. destruct (Nat.eqb_spec m (a + (1 + j0))); [lia|ring].
      - rewrite !app_nth2 by lia. rewrite LM. destruct (m - a)%nat as [|m'] eqn:Em.
        + cbn [nth]. destruct (Nat.eqb_spec m (a + (1 + j0))); [lia|ring].
        + cbn [nth].
          assert (NQ : forall t : nat -> F, nth m' (map (fun x => if (snd x =? s0)%nat then t (R + fst x)%nat else 0) fl) 0 =
            match nth_error fl m' with Some x => if (snd x =? s0)%nat then t (R + fst x)%nat else 0 | None => 0 end).
          { intros t. destruct (nth_error fl m') as [x|] eqn:Hx.
            - exact (nth_error_nth _ _ _ (map_nth_error _ _ _ Hx)).
            - apply nth_overflow. rewrite map_length. now apply nth_error_None. }
          rewrite !NQ. destruct (Nat.eqb_spec m (a + (1 + j0))) as [Eq|Nq].
          * replace m' with j0 by lia. rewrite Ej. cbn [fst snd]. rewrite Nat.eqb_refl. ring.
          * destruct (nth_error fl m') as [[k s]|] eqn:Hx; [|ring]. cbn [fst snd]. destruct (s =? s0)%nat; [|ring].
            destruct (FI k s (nth_error_In _ _ Hx)) as [Hk _].
            assert (k <> k0).
            { intros ->. apply Nq. assert (m' = j0); [|lia].
              pose proof (found_NoDup f U) as ND. rewrite NoDup_nth_error in ND. apply ND.
              - rewrite map_length. apply nth_error_Some. unfold fl in Hx. congruence.
              - fold fl. now rewrite (map_nth_error fst _ _ Hx), (map_nth_error fst _ _ Ej). }
            rewrite (E (R + k)%nat) by (unfold n, R in *; lia). ring. }
    apply (mul_zero L) in Y; [exact (Nj Y)|now apply (minus_neq L)].
  - apply (one_position L p size n (2 + 2 * s0)); [unfold n, B; lia|now apply NoDup_filter|intros r I; apply filter_In in I as [I _]; auto|].
    intros r r' I I' E Bq. apply filter_In in I as [I Z], I' as [I' _]. apply negb_true_iff, (feqb_neq L) in Z. apply Z.
    destruct (IS' r I) as [J _]. destruct (IS' r' I') as [J' _].
    specialize (TWO r r' J J' ltac:(intros; apply E; auto)). rewrite (E q) in TWO by (unfold n, q, B; lia).
    rewrite (drift_dif L e (from r 0%nat * from r 1%nat * (from r' (2 + 2 * s0)%nat - from r (2 + 2 * s0)%nat)) _ _ (cl (from r))) in TWO.
    + fold (c (from r)) in TWO. set (D := from r 0%nat * from r 1%nat * _) in *.
      assert (Y : D * c (from r) = 0).
      { transitivity (from r q + D * c (from r) - from r q); [ring|]. rewrite <- TWO. ring. }
      apply (mul_zero L) in Y; [exact Y|]. unfold D. apply (mul_neq L); [now apply Z0|now apply (minus_neq L)].
    + unfold aw_seenT, cl. fold a B q R. rewrite (E 0%nat), (E 1%nat), (E q), (E B) by (unfold n, q, B; lia).
      apply dif_app; [|apply dif_cons; [ring|]]; apply (dif_map L).
      * intros k Ik. apply in_seq in Ik. destruct (Nat.eqb_spec k s0) as [->|Nk]; [ring|].
        rewrite (E (2 + 2 * k)%nat) by (unfold n, q, B; lia). ring.
      * intros [k s] Ik. apply FI in Ik as [Hk Hs2]. cbn [fst snd]. rewrite (E (R + k)%nat) by (unfold n, R, B; lia).
        rewrite (lam_same f (from r B) (from r) (from r')) by (intros x Hx; apply E; unfold n, q, B in *; lia).
        destruct (Nat.eqb_spec s s0) as [->|Nk]; [ring|]. rewrite (E (2 + 2 * s)%nat) by (unfold n, q, B; lia). ring.
Qed.
End ChancesAw.
