(** * Proofs about the share of runs in which a combination opens *)
From Coq Require Import String List Bool Arith Lia Field.
From Verif Require Import Base Crypto Policy Parse Spec PolicyProofs Poly Tools Sharing SharingProofs SchemeLib Msp
  Bsw Ghw11 Lsw Yct14 Yct14Proofs Ac17 Aw11 Generic Views GenericProofs Draws DrawsProofs Chances.
Import ListNotations.

(** ** Counting *)

Fixpoint tuples {A} (all : list A) (n : nat) : list (list A) :=
  match n with
  | 0 => [[]]
  | S n => flat_map (fun x => map (cons x) (tuples all n)) all
  end.

Lemma flat_map_len {A B} (f : A -> list B) c l : (forall x, In x l -> length (f x) = c) -> length (flat_map f l) = length l * c.
Proof.
  induction l as [|x l IH]; intros H; [reflexivity|]. cbn [flat_map length]. rewrite app_length, (H x) by now left.
  rewrite IH; [lia|]. intros y I. apply H. now right.
Qed.

Lemma tuples_length {A} (all : list A) n : length (tuples all n) = length all ^ n.
Proof.
  induction n as [|n IH]; [reflexivity|]. cbn [tuples Nat.pow].
  rewrite (flat_map_len _ (length all ^ n)); [reflexivity|]. intros x _. now rewrite map_length.
Qed.

Lemma tuples_In {A} (all : list A) (H : forall x, In x all) r : In r (tuples all (length r)).
Proof.
  induction r as [|x r IH]; [now left|]. cbn [length tuples]. apply in_flat_map. exists x. split; [apply H|].
  now apply in_map.
Qed.

Lemma NoDup_map_on {A B} (f : A -> B) l : NoDup l -> (forall x y, In x l -> In y l -> f x = f y -> x = y) -> NoDup (map f l).
Proof.
  induction 1 as [|x l N _ IH]; intros H; [constructor|]. cbn [map]. constructor.
  - intros I. apply in_map_iff in I as (y & E & I). apply N. rewrite (H x y); [exact I|now left|now right|now symmetry].
  - apply IH. intros y z Iy Iz. apply H; now right.
Qed.

Lemma NoDup_prod {A B} (l : list A) (m : list B) : NoDup l -> NoDup m -> NoDup (list_prod l m).
Proof.
  intros Hl Hm. induction Hl as [|x l N _ IH]; [constructor|]. cbn [list_prod].
  assert (App : forall (u v : list (A * B)), NoDup u -> NoDup v -> (forall z, In z u -> ~ In z v) -> NoDup (u ++ v)).
  { clear. induction u as [|a u IH]; intros v Hu Hv D; [exact Hv|]. inversion Hu as [|? ? Na Hu']; subst. cbn. constructor.
    - rewrite in_app_iff. intros [I|I]; [now apply Na|]. exact (D a (or_introl eq_refl) I).
    - apply IH; auto. intros z I. apply D. now right. }
  apply App; [apply NoDup_map_on; [exact Hm|congruence]|exact IH|].
  intros z I J. apply in_map_iff in I as (y & <- & _). apply in_prod_iff in J as [J _]. now apply N.
Qed.

Lemma tuples_spec {A} (all : list A) n r : In r (tuples all n) -> length r = n.
Proof.
  revert r. induction n as [|n IH]; intros r I; [destruct I as [<-|[]]; reflexivity|].
  cbn [tuples] in I. apply in_flat_map in I as (x & _ & I). apply in_map_iff in I as (y & <- & I). cbn. f_equal. now apply IH.
Qed.

Lemma tuples_NoDup {A} (all : list A) n : NoDup all -> NoDup (tuples all n).
Proof.
  intros N. induction n as [|n IH]; [repeat constructor; intros []|]. cbn [tuples]. revert IH. generalize (tuples all n). intros T IH.
  induction N as [|x l Nx _ IHl]; [constructor|]. cbn [flat_map].
  assert (App : forall (u v : list (list A)), NoDup u -> NoDup v -> (forall z, In z u -> ~ In z v) -> NoDup (u ++ v)).
  { clear. induction u as [|a u IH]; intros v Hu Hv D; [exact Hv|]. inversion Hu as [|? ? Na Hu']; subst. cbn. constructor.
    - rewrite in_app_iff. intros [I|I]; [now apply Na|]. exact (D a (or_introl eq_refl) I).
    - apply IH; auto. intros z I. apply D. now right. }
  apply App; [apply NoDup_map_on; [exact IH|congruence]|exact IHl|].
  intros z I J. apply in_map_iff in I as (y & <- & _). apply in_flat_map in J as (x' & Ix & J).
  apply in_map_iff in J as (y' & E & _). injection E as -> _. now apply Nx.
Qed.

Section ChancesProofs.
Context {C : crypto} (L : laws C).
Notation F := (F C).
Ltac logs := log_simpl L.
Add Field chances_field : (f_theory L).
Local Open Scope F_scope.

Variable p : nat.
Hypothesis size : field_size C p.

Lemma from_ext n (r r' : list F) : length r = n -> length r' = n -> (forall q, (q < n)%nat -> from r q = from r' q) -> r = r'.
Proof.
  intros Hr Hr' H. apply (nth_ext r r' 0 0); [congruence|]. intros q Hq. apply H. lia.
Qed.

(** A family of maps under which no two members of [S] meet. *)
Lemma spread n (Ds : list F) (S : list (list F)) (g : F -> (nat -> F) -> nat -> F) :
  NoDup Ds -> NoDup S -> (forall r, In r S -> length r = n) ->
  (forall r r' D D', In r S -> In r' S -> In D Ds -> In D' Ds ->
     (forall q, (q < n)%nat -> g D (from r) q = g D' (from r') q) ->
     D = D' /\ forall q, (q < n)%nat -> from r q = from r' q) ->
  (length S * length Ds <= p ^ n)%nat.
Proof.
  intros ND NS LS H. destruct size as (all & Na & La & Ia).
  set (act := fun x : list F * F => map (g (snd x) (from (fst x))) (seq 0 n)).
  assert (V : forall x q, (q < n)%nat -> from (act x) q = g (snd x) (from (fst x)) q).
  { intros x q Hq. unfold act, from at 1. rewrite (nth_indep _ 0 (g (snd x) (from (fst x)) 0%nat)) by (rewrite map_length, seq_length; exact Hq).
    rewrite map_nth, seq_nth by exact Hq. reflexivity. }
  rewrite <- prod_length, <- (map_length act). rewrite <- La, <- tuples_length. apply NoDup_incl_length.
  - apply NoDup_map_on; [now apply NoDup_prod|]. intros [r D] [r' D'] I I' E.
    apply in_prod_iff in I as [Ir ID]. apply in_prod_iff in I' as [Ir' ID'].
    destruct (H r r' D D' Ir Ir' ID ID') as [<- Q].
    + intros q Hq. pose proof (V (r, D) q Hq) as A. pose proof (V (r', D') q Hq) as B. rewrite E in A. cbn [fst snd] in *. congruence.
    + f_equal. apply (from_ext n); auto.
  - intros x I. apply in_map_iff in I as (y & <- & _).
    replace n with (length (act y)) at 1 by (unfold act; now rewrite map_length, seq_length). now apply tuples_In.
Qed.

(** All of the field. *)
Lemma spread_all n (S : list (list F)) (g : F -> (nat -> F) -> nat -> F) :
  NoDup S -> (forall r, In r S -> length r = n) ->
  (forall r r' D D', In r S -> In r' S ->
     (forall q, (q < n)%nat -> g D (from r) q = g D' (from r') q) ->
     D = D' /\ forall q, (q < n)%nat -> from r q = from r' q) ->
  at_most 1 p n S.
Proof.
  intros NS LS H. unfold at_most. rewrite Nat.mul_1_l. destruct size as (all & Na & La & Ia).
  rewrite <- La at 1. apply (spread n all S g); auto.
Qed.

(** One value is given. *)
Lemma given_value n q0 v (S : list (list F)) : (q0 < n)%nat -> NoDup S ->
  (forall r, In r S -> length r = n) -> (forall r, In r S -> from r q0 = v) -> at_most 1 p n S.
Proof.
  intros Hq NS LS V. apply (spread_all n S (fun D t q => if (q =? q0)%nat then t q + D else t q)); auto.
  intros r r' D D' I I' E. assert (X : D = D').
  { pose proof (E q0 Hq) as Y. rewrite Nat.eqb_refl, (V r I), (V r' I') in Y.
    transitivity (v + D - v); [ring|]. rewrite Y. ring. }
  split; [exact X|]. intros q Hn. pose proof (E q Hn) as Y. destruct (Nat.eqb_spec q q0) as [->|N]; [|exact Y].
  now rewrite (V r I), (V r' I').
Qed.

Lemma filter_split {A} (b : A -> bool) (l : list A) : length l = (length (filter b l) + length (filter (fun x => negb (b x)) l))%nat.
Proof. induction l as [|x l IH]; [reflexivity|]. cbn. destruct (b x); cbn; lia. Qed.

Lemma peel n k (b : list F -> bool) (S : list (list F)) :
  at_most 1 p n (filter b S) -> at_most k p n (filter (fun x => negb (b x)) S) -> at_most (1 + k) p n S.
Proof. unfold at_most. intros A B. rewrite (filter_split b S). lia. Qed.

(** Runs in which none of some positions has a value that is not wanted. *)
Lemma outside n k (qs : list (nat * F)) : forall (S : list (list F)), (forall q v, In (q, v) qs -> (q < n)%nat) -> NoDup S ->
  (forall r, In r S -> length r = n) ->
  (forall S', NoDup S' -> (forall r, In r S' -> In r S /\ forall q v, In (q, v) qs -> from r q <> v) -> at_most k p n S') ->
  at_most (length qs + k) p n S.
Proof.
  induction qs as [|[q v] qs IH]; intros S Hq NS LS H.
  - apply H; [exact NS|]. intros r I. split; [exact I|]. intros q v [].
  - cbn [length Nat.add]. apply (peel n (length qs + k) (fun r => feqb C (from r q) v)).
    + apply (given_value n q v); [apply (Hq q v); now left|now apply NoDup_filter| |].
      * intros r I. apply filter_In in I as [I _]. auto.
      * intros r I. apply filter_In in I as [_ I]. now apply (feqb_eq L).
    + apply IH; [intros q' v' I; apply (Hq q' v'); now right|now apply NoDup_filter| |].
      * intros r I. apply filter_In in I as [I _]. auto.
      * intros S' NS' IS'. apply H; [exact NS'|]. intros r I. destruct (IS' r I) as [J K]. apply filter_In in J as [J B].
        split; [exact J|]. intros q' v' [E|I']; [|now apply K].
        injection E as <- <-. apply negb_true_iff in B. now apply (feqb_neq L).
Qed.

Lemma at_most_le k k' n (S : list (list F)) : (k <= k')%nat -> at_most k p n S -> at_most k' p n S.
Proof. unfold at_most. intros H A. pose proof (Nat.mul_le_mono_r _ _ (p ^ n) H). lia. Qed.

(** ** Tapes *)

Lemma takes_Ok {A} (m : rand F A) n t i x j t' i' : takes m n -> m t i = Ok (x, j) ->
  (forall k, (k < n)%nat -> t' (i' + k)%nat = t (i + k)%nat) -> j = (i + n)%nat /\ m t' i' = Ok (x, (i' + n)%nat).
Proof. intros T H E. specialize (T t i t' i' E). rewrite H in T. exact T. Qed.

(** Two positions move together, the second by a multiple that does not depend on them. *)
Lemma two_positions n q m (h : (nat -> F) -> F) (S : list (list F)) : (q < n)%nat -> (m < n)%nat -> q <> m ->
  (forall t t', (forall k, (k < n)%nat -> k <> q -> k <> m -> t k = t' k) -> h t = h t') ->
  NoDup S -> (forall r, In r S -> length r = n) ->
  (forall r r', In r S -> In r' S -> (forall k, (k < n)%nat -> k <> q -> k <> m -> from r' k = from r k) ->
     from r' m = from r m + (from r q - from r' q) * h (from r) -> from r' q <> from r q -> False) ->
  at_most 1 p n S.
Proof.
  intros Hq Hm Nqm Hh NS LS H.
  apply (spread_all _ _ (fun D t k => if (k =? q)%nat then t q + D else if (k =? m)%nat then t m - D * h t else t k)); [exact NS|exact LS|].
  intros r r' D D' I I' E. specialize (H r r' I I'). set (t := from r) in *. set (t' := from r') in *.
  assert (EQ : forall k, (k < n)%nat -> k <> q -> k <> m -> t k = t' k).
  { intros k Hk Nq Nm. specialize (E k Hk). cbn beta in E. apply Nat.eqb_neq in Nq, Nm. now rewrite Nq, Nm in E. }
  pose proof (Hh t t' EQ) as HH.
  assert (Eq : t q + D = t' q + D') by (specialize (E q Hq); now rewrite Nat.eqb_refl in E).
  assert (Em : t m - D * h t = t' m - D' * h t').
  { specialize (E m Hm). cbn beta in E. rewrite Nat.eqb_refl in E. apply not_eq_sym, Nat.eqb_neq in Nqm. now rewrite Nqm in E. }
  destruct (feqb C (t' q) (t q)) eqn:B.
  - apply (feqb_eq L) in B. assert (ED : D = D') by (transitivity (t q + D - t q); [ring|rewrite Eq, B; ring]).
    subst D'. split; [reflexivity|]. intros k Hk. destruct (Nat.eq_dec k q) as [->|Nq]; [now symmetry|].
    destruct (Nat.eq_dec k m) as [->|Nm]; [|now apply EQ].
    transitivity (t m - D * h t + D * h t); [ring|]. rewrite Em, HH. ring.
  - exfalso. apply (feqb_neq L) in B. apply H; [intros; symmetry; now apply EQ| |exact B].
    transitivity (t' m - D' * h t' + D' * h t'); [ring|]. rewrite <- Em, <- HH.
    replace D' with (t q + D - t' q) by (rewrite Eq; ring). ring.
Qed.

(** ** BSW *)

Theorem bsw_chance nonce pol lang data f (e : combT C) : parse pol lang = Ok (tree f) ->
  forall S, runs (6 + coins f) (fun t => exists pk msk i ct j,
    bsw_setup t 0%nat = Ok (pk, msk, i) /\ bsw_encrypt nonce pk pol lang data t i = Ok (ct, j) /\
    evalT (bsw_view pk ct) e = payload (t 5%nat)) S ->
  at_most 4 p (6 + coins f) S.
Proof.
  intros P S [NS HS]. destruct (bsw_outsider L nonce pol lang data f e P) as (x & X).
  apply (outside _ 1 [(0%nat, 0); (1%nat, 0); (4%nat, x)]); [|exact NS|intros r I; apply (HS r I)|].
  { intros q v I. cbn in I. destruct I as [I|[I|[I|[]]]]; injection I as <- _; lia. }
  intros S' NS' IS'. apply (two_positions _ 3 5 (fun t => t 4%nat * (t 0%nat * t 1%nat))); try lia; [|exact NS'|intros r I; apply HS, IS', I|].
  { intros t t' E. rewrite !E by lia. reflexivity. }
  intros r r' I I' E Em B.
  destruct (IS' r I) as [J K]. destruct (IS' r' I') as [J' _].
  destruct (HS r J) as [_ (pk & msk & i & ct & j & H1 & H2 & H3)].
  destruct (HS r' J') as [_ (pk' & msk' & i' & ct' & j' & H1' & H2' & H3')].
  assert (K0 : from r 0%nat <> 0) by (apply (K 0%nat 0); cbn; auto).
  assert (K1 : from r 1%nat <> 0) by (apply (K 1%nat 0); cbn; auto).
  assert (K4 : from r 4%nat <> x) by (apply (K 4%nat x); cbn; auto).
  set (t := from r) in *. set (t' := from r') in *. clear K.
  destruct (takes_Ok _ _ _ _ _ _ t 0%nat bsw_setup_takes H1) as [-> _]; [reflexivity|].
  destruct (takes_Ok _ _ _ _ _ _ (put t 3%nat (t' 3%nat)) 0%nat bsw_setup_takes H1') as [-> G1].
  { intros k Hk. cbn [Nat.add]. unfold put. destruct (Nat.eqb_spec k 3) as [->|N]; [reflexivity|]. symmetry. apply E; lia. }
  destruct (takes_Ok _ _ _ _ _ _ (fun k => t (4 + k)%nat) 0%nat (bsw_encrypt_takes L nonce pk pol lang data f P) H2) as [_ G2].
  { intros k Hk. reflexivity. }
  destruct (takes_Ok _ _ _ _ _ _ (put (fun k => t (4 + k)%nat) 1%nat (t' 5%nat)) 0%nat (bsw_encrypt_takes L nonce pk' pol lang data f P) H2') as [_ G2'].
  { intros k Hk. cbn [Nat.add]. unfold put. destruct (Nat.eqb_spec k 1) as [->|N]; [reflexivity|]. symmetry. apply E; lia. }
  rewrite Em in G2', H3'.
  refine (X t (fun k => t (4 + k)%nat) (t' 3%nat) pk msk _ ct _ pk' msk' _ ct' _ H1 G2 G1 _ K0 K1 B K4 H3 _).
  - rewrite <- G2'. f_equal. f_equal. cbn [Nat.add]. ring.
  - rewrite H3'. f_equal. cbn [Nat.add]. ring.
Qed.

(** ** LSW *)

Theorem lsw_chance nonce attrs data (e : combT C) :
  forall S, runs (9 + length attrs) (fun t => exists pk msk i ct j,
    lsw_setup t 0%nat = Ok (pk, msk, i) /\ lsw_encrypt nonce pk attrs data t i = Ok (ct, j) /\
    evalT (lsw_view pk ct) e = payload (t (8 + length attrs)%nat)) S ->
  at_most 5 p (9 + length attrs) S.
Proof.
  intros S [NS HS]. destruct (lsw_outsider L nonce attrs data e) as (x & X).
  apply (outside _ 1 [(0%nat, 0); (3%nat, 0); (4%nat, 0); (7%nat, x)]); [|exact NS|intros r I; apply (HS r I)|].
  { intros q v I. cbn in I. destruct I as [I|[I|[I|[I|[]]]]]; injection I as <- _; lia. }
  intros S' NS' IS'. apply (two_positions _ 1 (8 + length attrs) (fun t => t 0%nat * t 7%nat * (t 3%nat * t 4%nat))); try lia; [|exact NS'|intros r I; apply HS, IS', I|].
  { intros t t' E. rewrite !E by lia. reflexivity. }
  intros r r' I I' E Em B.
  destruct (IS' r I) as [J K]. destruct (IS' r' I') as [J' _].
  destruct (HS r J) as [_ (pk & msk & i & ct & j & H1 & H2 & H3)].
  destruct (HS r' J') as [_ (pk' & msk' & i' & ct' & j' & H1' & H2' & H3')].
  assert (K0 : from r 0%nat <> 0) by (apply (K 0%nat 0); cbn; auto).
  assert (K3 : from r 3%nat <> 0) by (apply (K 3%nat 0); cbn; auto).
  assert (K4 : from r 4%nat <> 0) by (apply (K 4%nat 0); cbn; auto).
  assert (K7 : from r 7%nat <> x) by (apply (K 7%nat x); cbn; auto 6).
  set (t := from r) in *. set (t' := from r') in *. clear K.
  assert (T : forall pk, takes (lsw_encrypt (C := C) nonce pk attrs data) (2 + length attrs)).
  { destruct attrs as [|a l]; [discriminate H2|]. intros pk0. apply lsw_encrypt_takes. intros ->. discriminate H2. }
  destruct (takes_Ok _ _ _ _ _ _ t 0%nat lsw_setup_takes H1) as [-> _]; [reflexivity|].
  destruct (takes_Ok _ _ _ _ _ _ (put t 1%nat (t' 1%nat)) 0%nat lsw_setup_takes H1') as [-> G1].
  { intros k Hk. cbn [Nat.add]. unfold put. destruct (Nat.eqb_spec k 1) as [->|N]; [reflexivity|]. symmetry. apply E; lia. }
  destruct (takes_Ok _ _ _ _ _ _ (fun k => t (7 + k)%nat) 0%nat (T pk) H2) as [_ G2].
  { intros k Hk. reflexivity. }
  destruct (takes_Ok _ _ _ _ _ _ (put (fun k => t (7 + k)%nat) (1 + length attrs)%nat (t' (8 + length attrs)%nat)) 0%nat (T pk') H2') as [_ G2'].
  { intros k Hk. cbn [Nat.add]. unfold put. destruct (Nat.eqb_spec k (Datatypes.S (length attrs))) as [->|N]; [reflexivity|]. symmetry. apply E; lia. }
  rewrite Em in G2', H3'.
  refine (X t (fun k => t (7 + k)%nat) (t' 1%nat) pk msk _ ct _ pk' msk' _ ct' _ H1 G2 G1 _ K0 K3 K4 B K7 H3 _).
  - rewrite <- G2'. f_equal. f_equal. cbn [Nat.add]. ring.
  - rewrite H3'. f_equal. cbn [Nat.add]. ring.
Qed.

(** ** AC17 *)

Theorem cp_chance nonce pol lang data f (e : combT C) : parse pol lang = Ok (tree f) -> binary_and f = true ->
  forall S, runs 12 (fun t => exists pk msk i ct j,
    ac_setup t 0%nat = Ok (pk, msk, i) /\ cp_encrypt nonce pk pol data lang t i = Ok (ct, j) /\
    evalT (ac_view pk (acp_ct ct)) e = payload (t 11%nat)) S ->
  at_most 5 p 12 S.
Proof.
  intros P Bi S [NS HS]. destruct (cp_outsider L nonce pol lang data f e P Bi) as (x & X).
  apply (outside _ 1 [(0%nat, 0); (1%nat, 0); (2%nat, 0); (9%nat, x)]); [|exact NS|intros r I; apply (HS r I)|].
  { intros q v I. cbn in I. destruct I as [I|[I|[I|[I|[]]]]]; injection I as <- _; lia. }
  intros S' NS' IS'. apply (two_positions _ 6 11 (fun t => t 2%nat * t 9%nat * (t 0%nat * t 1%nat))); try lia; [|exact NS'|intros r I; apply HS, IS', I|].
  { intros t t' E. rewrite !E by lia. reflexivity. }
  intros r r' I I' E Em B.
  destruct (IS' r I) as [J K]. destruct (IS' r' I') as [J' _].
  destruct (HS r J) as [_ (pk & msk & i & ct & j & H1 & H2 & H3)].
  destruct (HS r' J') as [_ (pk' & msk' & i' & ct' & j' & H1' & H2' & H3')].
  assert (K0 : from r 0%nat <> 0) by (apply (K 0%nat 0); cbn; auto).
  assert (K1 : from r 1%nat <> 0) by (apply (K 1%nat 0); cbn; auto).
  assert (K2 : from r 2%nat <> 0) by (apply (K 2%nat 0); cbn; auto).
  assert (K9 : from r 9%nat <> x) by (apply (K 9%nat x); cbn; auto 6).
  set (t := from r) in *. set (t' := from r') in *. clear K.
  destruct (takes_Ok _ _ _ _ _ _ t 0%nat ac_setup_takes H1) as [-> _]; [reflexivity|].
  destruct (takes_Ok _ _ _ _ _ _ (put t 6%nat (t' 6%nat)) 0%nat ac_setup_takes H1') as [-> G1].
  { intros k Hk. cbn [Nat.add]. unfold put. destruct (Nat.eqb_spec k 6) as [->|N]; [reflexivity|]. symmetry. apply E; lia. }
  destruct (takes_Ok _ _ _ _ _ _ (fun k => t (9 + k)%nat) 0%nat (cp_encrypt_takes nonce pk pol lang data) H2) as [_ G2].
  { intros k Hk. reflexivity. }
  destruct (takes_Ok _ _ _ _ _ _ (put (fun k => t (9 + k)%nat) 2%nat (t' 11%nat)) 0%nat (cp_encrypt_takes nonce pk' pol lang data) H2') as [_ G2'].
  { intros k Hk. cbn [Nat.add]. unfold put. destruct (Nat.eqb_spec k 2) as [->|N]; [reflexivity|]. symmetry. apply E; lia. }
  rewrite Em in G2', H3'.
  refine (X t (fun k => t (9 + k)%nat) (t' 6%nat) pk msk _ ct _ pk' msk' _ ct' _ H1 G2 G1 _ K0 K1 K2 B K9 H3 _).
  - rewrite <- G2'. f_equal. f_equal. cbn [Nat.add]. ring.
  - rewrite H3'. f_equal. cbn [Nat.add]. ring.
Qed.

Theorem kp_chance nonce attrs data (e : combT C) :
  forall S, runs 12 (fun t => exists pk msk i ct j,
    ac_setup t 0%nat = Ok (pk, msk, i) /\ kp_encrypt nonce pk attrs data t i = Ok (ct, j) /\
    evalT (ac_view pk (akp_ct ct)) e = payload (t 11%nat)) S ->
  at_most 5 p 12 S.
Proof.
  intros S [NS HS]. destruct (kp_outsider L nonce attrs data e) as (x & X).
  apply (outside _ 1 [(0%nat, 0); (1%nat, 0); (2%nat, 0); (9%nat, x)]); [|exact NS|intros r I; apply (HS r I)|].
  { intros q v I. cbn in I. destruct I as [I|[I|[I|[I|[]]]]]; injection I as <- _; lia. }
  intros S' NS' IS'. apply (two_positions _ 6 11 (fun t => t 2%nat * t 9%nat * (t 0%nat * t 1%nat))); try lia; [|exact NS'|intros r I; apply HS, IS', I|].
  { intros t t' E. rewrite !E by lia. reflexivity. }
  intros r r' I I' E Em B.
  destruct (IS' r I) as [J K]. destruct (IS' r' I') as [J' _].
  destruct (HS r J) as [_ (pk & msk & i & ct & j & H1 & H2 & H3)].
  destruct (HS r' J') as [_ (pk' & msk' & i' & ct' & j' & H1' & H2' & H3')].
  assert (K0 : from r 0%nat <> 0) by (apply (K 0%nat 0); cbn; auto).
  assert (K1 : from r 1%nat <> 0) by (apply (K 1%nat 0); cbn; auto).
  assert (K2 : from r 2%nat <> 0) by (apply (K 2%nat 0); cbn; auto).
  assert (K9 : from r 9%nat <> x) by (apply (K 9%nat x); cbn; auto 6).
  set (t := from r) in *. set (t' := from r') in *. clear K.
  destruct (takes_Ok _ _ _ _ _ _ t 0%nat ac_setup_takes H1) as [-> _]; [reflexivity|].
  destruct (takes_Ok _ _ _ _ _ _ (put t 6%nat (t' 6%nat)) 0%nat ac_setup_takes H1') as [-> G1].
  { intros k Hk. cbn [Nat.add]. unfold put. destruct (Nat.eqb_spec k 6) as [->|N]; [reflexivity|]. symmetry. apply E; lia. }
  destruct (takes_Ok _ _ _ _ _ _ (fun k => t (9 + k)%nat) 0%nat (kp_encrypt_takes nonce pk attrs data) H2) as [_ G2].
  { intros k Hk. reflexivity. }
  destruct (takes_Ok _ _ _ _ _ _ (put (fun k => t (9 + k)%nat) 2%nat (t' 11%nat)) 0%nat (kp_encrypt_takes nonce pk' attrs data) H2') as [_ G2'].
  { intros k Hk. cbn [Nat.add]. unfold put. destruct (Nat.eqb_spec k 2) as [->|N]; [reflexivity|]. symmetry. apply E; lia. }
  rewrite Em in G2', H3'.
  refine (X t (fun k => t (9 + k)%nat) (t' 6%nat) pk msk _ ct _ pk' msk' _ ct' _ H1 G2 G1 _ K0 K1 K2 B K9 H3 _).
  - rewrite <- G2'. f_equal. f_equal. cbn [Nat.add]. ring.
  - rewrite H3'. f_equal. cbn [Nat.add]. ring.
Qed.

(** ** YCT14 *)

Lemma pubs_ext g (t t' : nat -> F) U : forall i, (forall k, (i <= k < i + length U)%nat -> t' k = t k) -> pubs g t' i U = pubs g t i U.
Proof.
  induction U as [|a U IH]; intros i E; [reflexivity|]. cbn [pubs length] in *. rewrite (E i) by lia. f_equal. apply IH.
  intros k Hk. apply E. lia.
Qed.

Theorem yct_chance nonce U attrs data (e : combT C) :
  forall S, runs (3 + length U) (fun t => exists pk msk i ct j,
    yct_setup U t 0%nat = Ok (pk, msk, i) /\ yct_encrypt nonce pk attrs data t i = Ok (ct, j) /\
    evalT (yct_view pk ct) e = gtpow C (ypk_g pk) (t i)) S ->
  at_most 3 p (3 + length U) S.
Proof.
  intros S [NS HS]. set (x := drift e (unit_at 0%nat)).
  apply (outside _ 1 [(1%nat, 0); (2 + length U, x)%nat]); [|exact NS|intros r I; apply (HS r I)|].
  { intros q v I. cbn in I. destruct I as [I|[I|[]]]; injection I as <- _; lia. }
  intros S' NS' IS'. apply (two_positions _ 0 1 (fun t => 0)); try lia; [reflexivity|exact NS'|intros r I; apply HS, IS', I|].
  intros r r' I I' E Em B.
  destruct (IS' r I) as [J K]. destruct (IS' r' I') as [J' _].
  destruct (HS r J) as [_ (pk & msk & i & ct & j & H1 & H2 & H3)].
  destruct (HS r' J') as [_ (pk' & msk' & i' & ct' & j' & H1' & H2' & H3')].
  assert (K1 : from r 1%nat <> 0) by (apply (K 1%nat 0); cbn; auto).
  assert (Kx : from r (2 + length U)%nat <> x) by (apply (K (2 + length U)%nat x); cbn; auto).
  set (t := from r) in *. set (t' := from r') in *. clear K.
  rewrite yct_setup_closed in H1, H1'. injection H1 as <- <- <-. injection H1' as <- <- <-.
  assert (E1 : t' 1%nat = t 1%nat) by (rewrite Em; ring). rewrite E1 in *.
  assert (EP : pubs (payload (t 1%nat)) t' 2%nat U = pubs (payload (t 1%nat)) t 2%nat U).
  { apply pubs_ext. intros k Hk. apply E; lia. }
  rewrite EP in *. assert (EK : t' (2 + length U)%nat = t (2 + length U)%nat) by (apply E; lia).
  cbn [ypk_g] in *. cbn [Nat.add] in EK, Kx, H3, H3', H2, H2'. rewrite EK in H3'.
  match type of H2 with yct_encrypt _ ?a _ _ _ _ = _ => set (pk := a) in * end.
  match type of H2' with yct_encrypt _ ?a _ _ _ _ = _ => set (pk' := a) in * end.
  assert (T : forall pk, takes (yct_encrypt (C := C) nonce pk attrs data) 1).
  { destruct attrs as [|a l]; [discriminate H2|]. intros pk0. apply yct_encrypt_takes. intros ->. discriminate H2. }
  destruct (takes_Ok _ _ _ _ _ _ t (2 + length U)%nat (T pk') H2') as [_ H2''].
  { intros k Hk. replace k with 0%nat by lia. rewrite !Nat.add_0_r. first [exact EK|exact (eq_sym EK)]. }
  assert (EC : yct_attrs ct' = yct_attrs ct) by exact (yct_encrypt_same nonce pk pk' attrs data _ _ ct _ ct' _ (fun n _ => eq_refl) H2 H2'').
  pose proof (one_moves L (yct_view pk ct) (yct_view pk' ct') e [] (ypk_g pk) (ypk_g pk')
    (map y_gt (ypk_attrs pk) ++ map y_gt (yct_attrs ct))%list eq_refl eq_refl eq_refl) as M.
  rewrite H3, H3' in M. cbn [length] in M. fold x in M.
  assert (Q : (t' 0%nat - t 0%nat) * t 1%nat * (t (2 + length U)%nat - x) = 0).
  { transitivity (logT L (gtpow C (gtpow C (payload (t 1%nat)) (t' 0%nat)) (t (2 + length U)%nat)) -
       (logT L (gtpow C (gtpow C (payload (t 1%nat)) (t 0%nat)) (t (2 + length U)%nat)) +
        (logT L (ypk_g pk') - logT L (ypk_g pk)) * x)).
    - unfold pk, pk'. cbn [ypk_g]. rewrite !(logT_pow L), (log_payload L). ring.
    - cbn [Nat.add]. rewrite M; [ring|]. unfold pk'. cbn [yct_view seenT ypk_g ypk_attrs app]. now rewrite EC. }
  apply (f_mul_eq_0 L) in Q as [Q|Q]; [apply (f_mul_eq_0 L) in Q as [Q|Q]; [|exact (K1 Q)]|].
  - exact (B (f_sub_eq_0 L _ _ Q)).
  - exact (Kx (f_sub_eq_0 L _ _ Q)).
Qed.

(** ** GHW11 *)

Lemma cloud_scaled pk msk c (t t' : nat -> F) us : forall b tks,
  (forall k, (b <= k < b + 2 * length us)%nat -> t' k = c * t k) ->
  outsourced pk msk (cloud us b t') tks -> outsourced pk msk (scaled c (cloud us b t)) tks.
Proof.
  induction us as [|at0 us IH]; intros b tks E H; inversion H as [|u tk us' tks' H0 HR]; subst; [constructor|].
  cbn [cloud scaled map fst snd] in *. constructor.
  - cbn [fst snd] in *. destruct H0 as (sk & z & H1 & H2). exists sk, z. split.
    + destruct at0 as [|a l]; [discriminate H1|].
      destruct (takes_Ok _ _ _ _ _ _ (fun n => c * t (b + n)%nat) 0%nat (ghw_keygen_takes pk msk a l) H1) as [_ G]; [|exact G].
      intros k Hk. cbn [Nat.add]. first [symmetry; apply E; cbn [length]; lia|apply E; cbn [length]; lia].
    + destruct (takes_Ok _ _ _ _ _ _ (fun n => c * t (b + n)%nat) 1%nat (ghw_tkgen_takes sk) H2) as [_ G]; [|exact G].
      intros k Hk. first [symmetry; apply E; cbn [length]; lia|apply E; cbn [length]; lia].
  - apply IH; [|exact HR]. intros k Hk. apply E. cbn [length]. lia.
Qed.

Lemma nonzero_values : exists Ds : list F, NoDup Ds /\ (forall D, In D Ds -> D <> 0) /\ (2 <= p)%nat /\ length Ds = (p - 1)%nat.
Proof.
  destruct size as (all & Na & La & Ia). destruct (in_split _ _ (Ia 0)) as (l1 & l2 & E). exists (l1 ++ l2).
  rewrite E in Na. pose proof (NoDup_remove_1 _ _ _ Na) as N1. pose proof (NoDup_remove_2 _ _ _ Na) as N2.
  assert (LL : length (l1 ++ l2) = (p - 1)%nat) by (rewrite <- La, E, !app_length; cbn [length]; lia).
  repeat apply conj; [exact N1|intros D I ->; exact (N2 I)| |exact LL].
  pose proof (Ia 1) as I1. rewrite E in I1. apply in_elt_inv in I1 as [I1|I1]; [exfalso; exact (f_one_neq_zero L I1)|].
  destruct (l1 ++ l2); [destruct I1|]. cbn [length] in LL. lia.
Qed.

Theorem ghw_chance nonce pol lang data f us (e : combT C) : parse pol lang = Ok (tree f) ->
  let n := (6 + coins f + length (leaves f))%nat in
  forall S, runs (n + 2 * length us) (fun t => exists pk msk i ct j tks,
    ghw_setup t 0%nat = Ok (pk, msk, i) /\ ghw_encrypt nonce pk pol lang data t i = Ok (ct, j) /\
    outsourced pk msk (cloud us n t) tks /\ evalT (ghw_view pk ct tks) e = payload (t 5%nat)) S ->
  at_most 6 p (n + 2 * length us) S.
Proof.
  intros P n S [NS HS]. destruct (ghw_cloud L nonce pol lang data f e P) as (x & X).
  apply (outside _ 2 [(0%nat, 0); (1%nat, 0); (3%nat, 0); (4%nat, x)]); [|exact NS|intros r I; apply (HS r I)|].
  { intros q v I. cbn in I. unfold n. destruct I as [I|[I|[I|[I|[]]]]]; injection I as <- _; lia. }
  intros S' NS' IS'. destruct nonzero_values as (Ds & ND & NZ & Hp & LD).
  assert (G : (length S' * length Ds <= p ^ (n + 2 * length us))%nat).
  { apply (spread _ Ds S' (fun D t k => if (k =? 3)%nat then D * t 3%nat
      else if (k =? 5)%nat then t 5%nat + (t 3%nat - D * t 3%nat) * (t 4%nat * (t 0%nat * t 1%nat))
      else if (n <=? k)%nat then D * t k else t k)); [exact ND|exact NS'|intros r I; apply HS, IS', I|].
    intros r r' D D' I I' ID ID' E.
    destruct (IS' r I) as [J K]. destruct (IS' r' I') as [J' K'].
    destruct (HS r J) as [_ (pk & msk & i & ct & j & tks & H1 & H2 & H4 & H3)].
    destruct (HS r' J') as [_ (pk' & msk' & i' & ct' & j' & tks' & H1' & H2' & H4' & H3')].
    assert (K0 : from r 0%nat <> 0) by (apply (K 0%nat 0); cbn; auto).
    assert (K1 : from r 1%nat <> 0) by (apply (K 1%nat 0); cbn; auto).
    assert (K3 : from r 3%nat <> 0) by (apply (K 3%nat 0); cbn; auto).
    assert (K3' : from r' 3%nat <> 0) by (apply (K' 3%nat 0); cbn; auto).
    assert (K4 : from r 4%nat <> x) by (apply (K 4%nat x); cbn; auto 6).
    set (t := from r) in *. set (t' := from r') in *. clear K K'.
    assert (E3 : D * t 3%nat = D' * t' 3%nat) by (specialize (E 3%nat); cbn in E; apply E; unfold n; lia).
    assert (EQ : forall k, (k < n)%nat -> k <> 3%nat -> k <> 5%nat -> t' k = t k).
    { intros k Hk N3 N5. assert (LE : (k < n + 2 * length us)%nat) by lia. specialize (E k LE). cbn beta in E.
      apply Nat.eqb_neq in N3, N5. rewrite N3, N5 in E. destruct (Nat.leb_spec n k) as [Q|Q]; [lia|]. now symmetry. }
    assert (EU : forall k, (n <= k < n + 2 * length us)%nat -> D * t k = D' * t' k).
    { intros k [Hk Hk']. specialize (E k Hk'). cbn beta in E. destruct (Nat.eqb_spec k 3) as [Q3|N3]; [unfold n in Hk; lia|].
      destruct (Nat.eqb_spec k 5) as [Q5|N5]; [unfold n in Hk; lia|]. destruct (Nat.leb_spec n k) as [Q|Q]; [exact E|lia]. }
    assert (E5 : t' 5%nat = t 5%nat + (t 3%nat - t' 3%nat) * (t 4%nat * (t 0%nat * t 1%nat))).
    { assert (LE : (5 < n + 2 * length us)%nat) by (unfold n; lia). specialize (E 5%nat LE). cbn [Nat.eqb] in E.
      rewrite (EQ 4%nat), (EQ 0%nat), (EQ 1%nat) in E by (unfold n; lia).
      transitivity (t' 5%nat + (t' 3%nat - D' * t' 3%nat) * (t 4%nat * (t 0%nat * t 1%nat)) -
        (t' 3%nat - D' * t' 3%nat) * (t 4%nat * (t 0%nat * t 1%nat))); [ring|]. rewrite <- E, E3. ring. }
    pose proof (NZ D ID) as ZD. pose proof (NZ D' ID') as ZD'.
    destruct (feqb C (t' 3%nat) (t 3%nat)) eqn:B.
    - apply (feqb_eq L) in B. rewrite B in E3. assert (ED : D = D').
      { apply (f_sub_eq_0 L). destruct (f_mul_eq_0 L (D - D') (t 3%nat)) as [Q|Q]; [|exact Q|contradiction].
        transitivity (D * t 3%nat - D' * t 3%nat); [ring|]. rewrite E3. ring. }
      subst D'. split; [reflexivity|]. intros q Hq. symmetry. destruct (Nat.eq_dec q 3) as [->|N3]; [exact B|].
      destruct (Nat.eq_dec q 5) as [->|N5]; [rewrite E5, B; ring|].
      destruct (Nat.lt_ge_cases q n) as [Q|Q]; [now apply EQ|].
      apply (f_sub_eq_0 L). destruct (f_mul_eq_0 L D (t' q - t q)) as [Z|Z]; [|contradiction|exact Z].
      transitivity (D * t' q - D * t q); [ring|]. rewrite (EU q) by lia. ring.
    - exfalso. assert (B' : t' 3%nat <> t 3%nat) by (intros B'; apply (feqb_eq L) in B'; congruence).
      set (c := t' 3%nat * finv C (t 3%nat)).
      assert (EC : forall k, (n <= k < n + 2 * length us)%nat -> t' k = c * t k).
      { intros k Hk. apply (f_sub_eq_0 L). destruct (f_mul_eq_0 L (D' * t 3%nat) (t' k - c * t k)) as [Z|Z]; [| |exact Z].
        - transitivity (t 3%nat * (D' * t' k) - (D' * t' 3%nat) * t k * (finv C (t 3%nat) * t 3%nat)); [unfold c; ring|].
          rewrite <- (EU k Hk), <- E3, (Finv_l (f_theory L) _ K3). ring.
        - apply (f_mul_eq_0 L) in Z as [Z|Z]; contradiction. }
      pose proof (ghw_encrypt_takes L nonce pk pol lang data f P) as T. pose proof (ghw_encrypt_takes L nonce pk' pol lang data f P) as T'.
      destruct (takes_Ok _ _ _ _ _ _ t 0%nat ghw_setup_takes H1) as [-> _]; [reflexivity|].
      destruct (takes_Ok _ _ _ _ _ _ (put t 3%nat (t' 3%nat)) 0%nat ghw_setup_takes H1') as [-> G1].
      { intros k Hk. cbn [Nat.add]. unfold put. destruct (Nat.eqb_spec k 3) as [->|N]; [reflexivity|]. symmetry. apply EQ; unfold n; lia. }
      destruct (takes_Ok _ _ _ _ _ _ (fun k => t (4 + k)%nat) 0%nat T H2) as [_ G2].
      { intros k Hk. reflexivity. }
      destruct (takes_Ok _ _ _ _ _ _ (put (fun k => t (4 + k)%nat) 1%nat (t' 5%nat)) 0%nat T' H2') as [_ G2'].
      { intros k Hk. cbn [Nat.add]. unfold put. destruct (Nat.eqb_spec k 1) as [->|N]; [reflexivity|]. symmetry. apply EQ; unfold n; lia. }
      rewrite E5 in G2', H3'.
      refine (X t (fun k => t (4 + k)%nat) (t' 3%nat) (cloud us n t) pk msk _ ct _ tks pk' msk' _ ct' _ tks' H1 H4 G2 G1
        (cloud_scaled pk' msk' c t t' us n tks' EC H4') _ K0 K1 K3 K3' B' K4 H3 _).
      + rewrite <- G2'. f_equal. f_equal. cbn [Nat.add]. ring.
      + rewrite H3'. f_equal. cbn [Nat.add]. ring. }
  rewrite LD in G. unfold at_most. destruct p as [|[|m]]; [lia|lia|]. clear - G.
  replace (Datatypes.S (Datatypes.S m) - 1)%nat with (Datatypes.S m) in G by lia.
  set (N := (Datatypes.S (Datatypes.S m) ^ (n + 2 * length us))%nat) in *. clearbody N. nia.
Qed.

(** ** A guess *)

Lemma guess n q v (Q : (nat -> F) -> Prop) : (q < n)%nat -> (forall t : nat -> F, t q = v -> Q t) ->
  exists S, runs n Q S /\ (length S * p = p ^ n)%nat.
Proof.
  intros Hq HQ. destruct size as (all & Na & La & Ia). destruct n as [|n]; [lia|].
  set (ins := fun r : list F => firstn q r ++ v :: skipn q r).
  assert (Len : forall r, In r (tuples all n) -> length (ins r) = Datatypes.S n).
  { intros r I. apply tuples_spec in I. unfold ins. rewrite app_length, firstn_length. cbn [length]. rewrite skipn_length. lia. }
  exists (map ins (tuples all n)). split.
  - split.
    + apply NoDup_map_on; [now apply tuples_NoDup|]. intros r r' I I' E. apply tuples_spec in I, I'. unfold ins in E.
      assert (LE : length (firstn q r) = length (firstn q r')) by (rewrite !firstn_length; lia).
      rewrite <- (firstn_skipn q r), <- (firstn_skipn q r'). clear - E LE.
      revert LE E. generalize (skipn q r) (skipn q r') (firstn q r'). induction (firstn q r) as [|a l IH]; intros s s' [|a' l'] LE E; try discriminate LE.
      * injection E as ->. reflexivity.
      * injection E as -> E. cbn. f_equal. apply IH; [now injection LE|exact E].
    + intros r' I. apply in_map_iff in I as (r & <- & I). split; [now apply Len|]. apply HQ. apply tuples_spec in I.
      unfold from, ins. rewrite app_nth2; rewrite firstn_length; [|lia]. replace (q - Nat.min q (length r))%nat with 0%nat by lia. reflexivity.
  - rewrite map_length, tuples_length, La. cbn [Nat.pow]. lia.
Qed.

Theorem yct_guess nonce U attrs data (x : F) : attrs <> [] -> data <> EmptyString -> incl attrs U ->
  exists S, runs (3 + length U) (fun t => exists pk msk i ct j,
    yct_setup U t 0%nat = Ok (pk, msk, i) /\ yct_encrypt nonce pk attrs data t i = Ok (ct, j) /\
    evalT (yct_view pk ct) (PowT (SeenT 0) x) = gtpow C (ypk_g pk) (t i)) S /\ (length S * p = p ^ (3 + length U))%nat.
Proof.
  intros NA ND I. apply (guess _ (2 + length U) x); [lia|]. intros t E.
  pose proof (yct_setup_closed U t) as Hs. destruct (yct_setup_keys L _ _ _ _ _ _ Hs) as (G & K).
  destruct (yct_encrypt_runs L nonce G _ _ _ attrs data t (2 + length U)%nat K NA ND I) as (ct & j & He).
  eexists _, _, _, ct, j. split; [exact Hs|]. split; [exact He|]. rewrite E. reflexivity.
Qed.

End ChancesProofs.
