(** * SerdeExact: which bytes are accepted under the feature "serde" *)
From Coq Require Import String Ascii List Bool Arith NArith ZArith Lia ZifyN ZifyNat Permutation.
From Verif Require Import Base Crypto Policy Tools Sharing Spec Parse ParseProofs Files FilesProofs Borsh BorshProofs
  Serde SerdeProofs SerdeTypes.
From Verif Require Bsw Ghw11 Lsw Yct14 Ac17 Aw11 Bdabe Mke08.
Import ListNotations.
Local Open Scope string_scope.

(** ** Bytes missing or left over *)

Lemma split_at_app n s v r t : split_at n s = Some (v, r) -> split_at n (s ++ t) = Some (v, r ++ t).
Proof.
  unfold split_at. rewrite slen_app.
  destruct (N.leb_spec n (N.of_nat (String.length s))) as [L|]; [|discriminate]. intros H. injection H as <- <-.
  destruct (N.leb_spec n (N.of_nat (String.length s + String.length t))); [|lia].
  assert (K : (N.to_nat n <= String.length s)%nat) by lia. clear -K. revert K. generalize (N.to_nat n) as k. clear n.
  induction s as [|c s IH]; intros k K.
  - assert (k = 0)%nat by (cbn in K; lia). subst k. cbn. f_equal. f_equal.
    + now rewrite substring_0.
    + clear. rewrite Nat.sub_0_r. induction t; cbn; congruence.
  - destruct k as [|k].
    + specialize (IH 0%nat (Nat.le_0_l _)). cbn [String.length append Nat.sub Nat.add String.substring] in *.
      rewrite !Nat.sub_0_r in *. injection IH as _ I2. now rewrite I2.
    + cbn in K. specialize (IH k ltac:(lia)). cbn [String.length append Nat.sub Nat.add String.substring] in *.
      injection IH as I1 I2. now rewrite I1, I2.
Qed.

Section Get.
Context (g : string -> option (val * string)).
Context (G : forall s v r t, g s = Some (v, r) -> g (s ++ t) = Some (v, r ++ t)).
Lemma get_n_app n : forall s l r t, get_n g n s = Some (l, r) -> get_n g n (s ++ t) = Some (l, r ++ t).
Proof using G.
  induction n as [|n IH]; cbn; intros s l r t H; [injection H as <- <-; reflexivity|].
  destruct (g s) as [[x q]|] eqn:E; [|discriminate]. rewrite (G _ _ _ t E). cbn [bind] in *.
  destruct (get_n g n q) as [[y q']|] eqn:E'; [|discriminate]. rewrite (IH _ _ _ t E'). cbn [bind] in *.
  injection H as <- <-. reflexivity.
Qed.
Lemma get_pairs_app n : forall s l r t, get_pairs g n s = Some (l, r) -> get_pairs g n (s ++ t) = Some (l, r ++ t).
Proof using G.
  induction n as [|n IH]; cbn; intros s l r t H; [injection H as <- <-; reflexivity|].
  destruct (g s) as [[x q]|] eqn:E; [|discriminate]. rewrite (G _ _ _ t E). cbn [bind] in *.
  destruct (g q) as [[x1 q1]|] eqn:E1; [|discriminate]. rewrite (G _ _ _ t E1). cbn [bind] in *.
  destruct (get_pairs g n q1) as [[y q']|] eqn:E'; [|discriminate]. rewrite (IH _ _ _ t E'). cbn [bind] in *.
  injection H as <- <-. reflexivity.
Qed.
End Get.

Lemma get_app d : forall s v r t, get d s = Some (v, r) -> get d (s ++ t) = Some (v, r ++ t).
Proof.
  induction d as [|d IH]; intros s v r t; rewrite !get_step;
    (destruct (get_head s) as [[[m n] q]|] eqn:E; [|discriminate]);
    rewrite (get_head_app _ _ _ _ t E); cbn [bind]; intros H;
    destruct m as [|m]; try (injection H as <- <-; reflexivity);
    repeat (destruct m as [m|m|]; try discriminate);
    try (destruct (split_at n q) as [[x q']|] eqn:E'; [|discriminate]; rewrite (split_at_app _ _ _ _ t E');
         cbn [bind] in *; try (destruct (utf8 x); [|discriminate]); injection H as <- <-; reflexivity);
    try (destruct (n =? 22)%N; [|discriminate]; injection H as <- <-; reflexivity).
  - destruct (get_pairs (get d) (N.to_nat n) q) as [[x q']|] eqn:E'; [|discriminate].
    rewrite (get_pairs_app _ IH _ _ _ _ t E'). cbn [bind] in *. injection H as <- <-. reflexivity.
  - destruct (get_n (get d) (N.to_nat n) q) as [[x q']|] eqn:E'; [|discriminate].
    rewrite (get_n_app _ IH _ _ _ _ t E'). cbn [bind] in *. injection H as <- <-. reflexivity.
Qed.

(** A file that has been cut short, or that goes on, is refused whatever is
    read from it. *)
Lemma cut_refused {A B} (P : A -> Prop) d (s : sd A) (s' : sd B) v p q : sgood P d s -> (d <= max_depth)%nat -> P v ->
  to_cbor s v = p ++ q -> q <> "" -> from_cbor s' p = Err.
Proof.
  intros G D H E Q. unfold from_cbor. destruct (get max_depth p) as [[x r]|] eqn:X; [|reflexivity].
  destruct r as [|c r]; [|reflexivity]. exfalso. apply (get_app _ _ _ _ q) in X. rewrite <- E in X.
  destruct (G v H) as [H' _]. pose proof (put_back _ _ "" (holds_mono _ _ _ D H')) as B'.
  rewrite sapp_nil in B'. unfold to_cbor in X. rewrite X in B'. cbn [append] in B'. injection B' as _ B'. auto.
Qed.

Lemma longer_refused {A B} (P : A -> Prop) d (s : sd A) (s' : sd B) v q : sgood P d s -> (d <= max_depth)%nat -> P v ->
  q <> "" -> from_cbor s' (to_cbor s v ++ q) = Err.
Proof.
  intros G D H Q. unfold from_cbor, to_cbor. destruct (G v H) as [H' _].
  rewrite (put_back _ _ q (holds_mono _ _ _ D H')). now destruct q.
Qed.

(** ** The entries of a map *)

Lemma fill_comm v w : forall i j l, bind (fill i v l) (fill j w) = bind (fill j w l) (fill i v).
Proof.
  induction i as [|i IH]; intros [|j] [|[x|] l]; cbn; try reflexivity;
    try (destruct (fill j w l); reflexivity); try (destruct (fill i v l); reflexivity).
  - specialize (IH j l). destruct (fill i v l), (fill j w l); cbn in *; rewrite ?IH; auto.
    now rewrite <- IH.
  - specialize (IH j l). destruct (fill i v l), (fill j w l); cbn in *; rewrite ?IH; auto.
    now rewrite <- IH.
Qed.

Lemma gather_perm names es es' : Permutation es es' -> forall found, gather names es found = gather names es' found.
Proof.
  induction 1 as [|[k v] es es' _ IH|[k v] [k' v'] es|es es' es'' _ IH1 _ IH2]; intros found.
  - reflexivity.
  - cbn. destruct (which names k) as [[i|]|]; cbn; [|apply IH|reflexivity].
    destruct (fill i v found); cbn; [apply IH|reflexivity].
  - cbn. destruct (which names k) as [[i|]|], (which names k') as [[j|]|]; cbn; try reflexivity;
      try (destruct (fill j v' found); reflexivity); try (destruct (fill i v found); reflexivity).
    pose proof (fill_comm v v' i j found) as C.
    destruct (fill i v found) as [a|], (fill j v' found) as [b|]; cbn in *; rewrite ?C; try reflexivity.
    now rewrite <- C.
  - now rewrite IH1.
Qed.

Lemma fill_twice i v w : forall l, bind (fill i v l) (fill i w) = None.
Proof.
  induction i as [|i IH]; intros [|[x|] l]; cbn; try reflexivity.
  - specialize (IH l). destruct (fill i v l); cbn in *; [|reflexivity]. now rewrite IH.
  - specialize (IH l). destruct (fill i v l); cbn in *; [|reflexivity]. now rewrite IH.
Qed.

Lemma gather_twice names k k' i v v' es1 es2 es3 found : which names k = Some (Some i) -> which names k' = Some (Some i) ->
  gather names (es1 ++ (k, v) :: es2 ++ (k', v') :: es3)%list found = None.
Proof.
  intros E E'. rewrite (gather_perm _ _ ((k, v) :: (k', v') :: es1 ++ es2 ++ es3)%list).
  - cbn. rewrite E, E'. cbn. pose proof (fill_twice i v v' found) as T.
    destruct (fill i v found); cbn in *; [now rewrite T|reflexivity].
  - transitivity ((k, v) :: es1 ++ es2 ++ (k', v') :: es3)%list.
    + symmetry. apply Permutation_middle.
    + constructor. rewrite (app_assoc es1 es2 es3), (app_assoc es1 es2 (_ :: es3)).
      symmetry. apply Permutation_middle.
Qed.

Lemma gather_extra names k v es1 es2 found : which names k = Some None ->
  gather names (es1 ++ (k, v) :: es2)%list found = gather names (es1 ++ es2)%list found.
Proof.
  intros E. rewrite (gather_perm _ _ ((k, v) :: es1 ++ es2)%list).
  - cbn. now rewrite E.
  - symmetry. apply Permutation_middle.
Qed.

(** Every field must be there. *)
Definition strict {A} (fl : fields A) : Prop :=
  forall l v, f_des fl l = Some v -> Forall (fun x => x <> None) l /\ List.length l = List.length (f_names fl).
Lemma one_strict {A} n (s : sd A) : miss s = None -> strict (f_one n s).
Proof.
  intros M [|[x|] [|y l]] v; cbn; try discriminate.
  - intros _. split; [|reflexivity]. constructor; [discriminate|constructor].
  - rewrite M. discriminate.
Qed.
Lemma and_strict {A B} (a : fields A) (b : fields B) : strict a -> strict b -> strict (f_and a b).
Proof.
  intros SA SB l v. cbn [f_and f_des f_names].
  destruct (f_des a _) as [x|] eqn:EA; [|discriminate]. cbn [bind].
  destruct (f_des b _) as [y|] eqn:EB; [|discriminate]. intros _.
  apply SA in EA as [FA LA]. apply SB in EB as [FB LB].
  set (n := List.length (f_names a)) in *. split.
  - rewrite <- (firstn_skipn n l). apply Forall_app. auto.
  - rewrite <- (firstn_skipn n l), app_length, app_length, LA, LB. reflexivity.
Qed.

(** The positions that the keys of a map mean. *)
Definition means (names : list string) (i : nat) (es : list (val * val)) : Prop :=
  exists k v, In (k, v) es /\ which names k = Some (Some i).

Lemma gather_found names i : forall es found l, gather names es found = Some l ->
  nth_error l i = Some None \/ nth_error l i = None \/ means names i es \/ exists x, nth_error found i = Some (Some x).
Proof.
  induction es as [|[k v] es IH]; cbn; intros found l H.
  - injection H as <-. destruct (nth_error found i) as [[x|]|]; eauto.
  - destruct (which names k) as [[j|]|] eqn:E; cbn in H; [| |discriminate].
    + destruct (fill j v found) as [found'|] eqn:F; cbn in H; [|discriminate].
      apply IH in H as [H|[H|[(k' & v' & I1 & I2)|[x H]]]]; auto.
      * right. right. left. exists k', v'. split; [now right|exact I2].
      * destruct (Nat.eq_dec i j) as [->|N].
        -- right. right. left. exists k, v. split; [now left|exact E].
        -- right. right. right. exists x. rewrite <- H. clear -F N. revert i j found' F N.
           induction found as [|y found IH]; intros i j found' F N; [destruct j; discriminate|].
           destruct y as [y|], j as [|j]; cbn in F; try discriminate.
           ++ destruct (fill j v found) eqn:E; [|discriminate]. injection F as <-.
              destruct i as [|i]; [reflexivity|]. cbn. apply (IH _ _ _ E). lia.
           ++ injection F as <-. destruct i as [|i]; [lia|reflexivity].
           ++ destruct (fill j v found) eqn:E; [|discriminate]. injection F as <-.
              destruct i as [|i]; [reflexivity|]. cbn. apply (IH _ _ _ E). lia.
    + apply IH in H as [H|[H|[(k' & v' & I1 & I2)|H]]]; auto.
      right. right. left. exists k', v'. split; [now right|exact I2].
Qed.

(** ** Structs *)

Section Struct.
Context {A B : Type} (M : mode) (fl : fields A) (f : B -> A) (g : A -> B).
Local Notation s := (s_struct M fl f g).

(** In any order. *)
Lemma struct_perm es es' : Permutation es es' -> de s (VMap es) = de s (VMap es').
Proof. intros P. cbn. now rewrite (gather_perm _ _ _ P). Qed.

(** With more entries. *)
Lemma struct_extra k v es1 es2 : which (f_names fl) k = Some None ->
  de s (VMap (es1 ++ (k, v) :: es2)%list) = de s (VMap (es1 ++ es2)%list).
Proof. intros E. cbn. now rewrite (gather_extra _ _ _ _ _ _ E). Qed.

(** Not with an entry that comes twice. *)
Lemma struct_twice k k' i v v' es1 es2 es3 :
  which (f_names fl) k = Some (Some i) -> which (f_names fl) k' = Some (Some i) ->
  de s (VMap (es1 ++ (k, v) :: es2 ++ (k', v') :: es3)%list) = None.
Proof. intros E E'. cbn. now rewrite (gather_twice _ _ _ _ _ _ _ _ _ _ E E'). Qed.

(** Not with a field missing. *)
Lemma struct_missing i es : strict fl -> (i < List.length (f_names fl))%nat ->
  ~ means (f_names fl) i es -> de s (VMap es) = None.
Proof.
  intros S L N. cbn. destruct (gather _ es _) as [l|] eqn:E; [|reflexivity]. cbn.
  destruct (f_des fl l) as [v|] eqn:X; [|reflexivity]. exfalso.
  apply S in X as [F LL].
  assert (NN : nth_error l i <> None) by (apply nth_error_Some; lia).
  destruct (gather_found _ i _ _ _ E) as [H|[H|[H|[x H]]]]; try contradiction.
  - apply nth_error_In in H. rewrite Forall_forall in F. now apply F in H.
  - apply nth_error_In, in_map_iff in H as (y & Y & _). discriminate.
Qed.

(** As an array without keys. *)
Lemma struct_array (P : A -> Prop) d v : fgood P d fl -> (forall v, g (f v) = v) -> P (f v) ->
  de s (VArr (f_sers fl (f v))) = Some v.
Proof.
  intros G I H. destruct (G _ H) as (L & _ & D). cbn. rewrite L, Nat.eqb_refl. cbn. rewrite D. cbn. now rewrite I.
Qed.
End Struct.

(** ** Every scheme *)

(** Bytes written as one type and read as another. *)
Definition read_as {A B} (s : sd A) (s' : sd B) (v : A) (w : B) : Prop := from_cbor s' (to_cbor s v) = Ok w.

Lemma sgood_read {A} (P : A -> Prop) d s s' v : sgood P d s -> (d <= max_depth)%nat -> P v ->
  (forall x, de s' x = de s x) -> read_as s s' v v.
Proof.
  intros G D H E. pose proof (sgood_back _ _ _ _ G D H) as K. unfold read_as. unfold back in K.
  rewrite <- K. unfold from_cbor. generalize (get max_depth (to_cbor s v)).
  intros [[x [|]]|]; rewrite ?E; reflexivity.
Qed.

Lemma leb_ok a b : Nat.leb a b = true -> (a <= b)%nat.
Proof. apply Nat.leb_le. Qed.

(** Reading does not depend on how structs are written. *)
Definition same {A} (s s' : sd A) : Prop := (forall x, de s x = de s' x) /\ miss s = miss s'.
Definition fsame {A} (a b : fields A) : Prop := f_names a = f_names b /\ forall l, f_des a l = f_des b l.
Lemma same_de {A} (s s' : sd A) : same s s' -> forall x, de s x = de s' x.
Proof. intros [E _]. exact E. Qed.
Lemma same_list {A} (s s' : sd A) : same s s' -> same (s_list s) (s_list s').
Proof.
  intros [E _]. split; [|reflexivity]. intros [| | |l| |]; try reflexivity. cbn.
  induction l as [|v l IH]; [reflexivity|]. cbn. now rewrite E, IH.
Qed.
Lemma same_one {A} n (s s' : sd A) : same s s' -> fsame (f_one n s) (f_one n s').
Proof. intros [E M]. split; [reflexivity|]. intros [|[x|] [|y l]]; cbn; auto. Qed.
Lemma same_and {A B} (a a' : fields A) (b b' : fields B) : fsame a a' -> fsame b b' -> fsame (f_and a b) (f_and a' b').
Proof.
  intros [N E] [N' E']. split; cbn; [congruence|]. intros l. rewrite N, E. destruct (f_des a' _); cbn; [|reflexivity].
  now rewrite E'.
Qed.
Lemma same_struct {A B} M M' (a a' : fields A) (f : B -> A) g : fsame a a' ->
  same (s_struct M a f g) (s_struct M' a' f g).
Proof.
  intros [N E]. split; [|reflexivity]. intros x. cbn. rewrite N. destruct (pick _ x); cbn; [|reflexivity]. now rewrite E.
Qed.
Lemma same_option {A} (s s' : sd A) : same s s' -> same (s_option s) (s_option s').
Proof. intros [E _]. split; [|reflexivity]. intros []; cbn; rewrite ?E; reflexivity. Qed.
Lemma same_policy M M' : same (s_policy M) (s_policy M').
Proof. split; [intros x|]; reflexivity. Qed.
Lemma same_refl {A} (s : sd A) : same s s.
Proof. split; reflexivity. Qed.
Ltac head t := lazymatch t with ?f _ => head f | _ => t end.
Ltac sames :=
  lazymatch goal with
  | |- same ?s ?s => apply same_refl
  | |- same (s_list _) _ => apply same_list; sames
  | |- same (s_option _) _ => apply same_option; sames
  | |- same (s_policy _) _ => apply same_policy
  | |- same (s_struct _ _ _ _) _ => apply same_struct; sames
  | |- fsame (f_and _ _) _ => apply same_and; sames
  | |- fsame (f_one _ _) _ => apply same_one; sames
  | |- same (s_ytype _ _) _ => split; [intros ?|]; reflexivity
  | |- same ?a _ => let h := head a in unfold h; sames
  end.
Lemma same_yattr {C : crypto} (W : swire C) M M' : same (s_yattr W M) (s_yattr W M').
Proof.
  assert (H : same (s_option (s_ytype W M)) (s_option (s_ytype W M'))) by sames.
  unfold s_yattr. cbv zeta. split; [|reflexivity]. intros x. cbn [de].
  refine (proj1 (same_struct M M' _ _ _ _ (same_and _ _ _ _ (same_one _ _ _ _) (same_one _ _ _ _))) x); [apply same_refl|exact H].
Qed.
Ltac sames ::=
  lazymatch goal with
  | |- same ?s ?s => apply same_refl
  | |- same (s_list _) _ => apply same_list; sames
  | |- same (s_policy _) _ => apply same_policy
  | |- same (s_yattr _ _) _ => apply same_yattr
  | |- same (s_struct _ _ _ _) _ => apply same_struct; sames
  | |- fsame (f_and _ _) _ => apply same_and; sames
  | |- fsame (f_one _ _) _ => apply same_one; sames
  | |- same ?a _ => let h := head a in unfold h; sames
  end.

Import Bdabe Mke08 Bsw Ghw11 Lsw Yct14 Ac17 Aw11.

Theorem bsw_serde : forall (C : crypto) (W : swire C) (M M' : mode),
  swire_ok W ->
  (forall x : bsw_pk C, read_as (s_bsw_pk W M) (s_bsw_pk W M') x x) /\
  (forall x : bsw_msk C, read_as (s_bsw_msk W M) (s_bsw_msk W M') x x) /\
  (forall x : bsw_ct C, wf_bsw_ct x -> read_as (s_bsw_ct W M) (s_bsw_ct W M') x x) /\
  (forall x : bsw_sk C, wf_bsw_sk x -> read_as (s_bsw_sk W M) (s_bsw_sk W M') x x).
Proof.
  intros C W M M' OK.
  repeat apply conj.
  - intros x. refine (sgood_read (fun _ => True) 65 (s_bsw_pk W M) (s_bsw_pk W M') x (bsw_pk_sgood W M OK) (leb_ok 65 max_depth eq_refl) I (same_de _ _ _)). sames.
  - intros x. refine (sgood_read (fun _ => True) 65 (s_bsw_msk W M) (s_bsw_msk W M') x (bsw_msk_sgood W M OK) (leb_ok 65 max_depth eq_refl) I (same_de _ _ _)). sames.
  - intros x H. refine (sgood_read wf_bsw_ct 67 (s_bsw_ct W M) (s_bsw_ct W M') x (bsw_ct_sgood W M OK) (leb_ok 67 max_depth eq_refl) H (same_de _ _ _)). sames.
  - intros x H. refine (sgood_read wf_bsw_sk 67 (s_bsw_sk W M) (s_bsw_sk W M') x (bsw_sk_sgood W M OK) (leb_ok 67 max_depth eq_refl) H (same_de _ _ _)). sames.
Qed.

Theorem ghw_serde : forall (C : crypto) (W : swire C) (M M' : mode),
  swire_ok W ->
  (forall x : ghw_pk C, read_as (s_ghw_pk W M) (s_ghw_pk W M') x x) /\
  (forall x : ghw_msk C, read_as (s_ghw_msk W M) (s_ghw_msk W M') x x) /\
  (forall x : ghw_sk C, wf_ghw_sk x -> read_as (s_ghw_sk W M) (s_ghw_sk W M') x x) /\
  (forall x : ghw_tk C, wf_ghw_tk x -> read_as (s_ghw_tk W M) (s_ghw_tk W M') x x) /\
  (forall x : F C, read_as (s_ghw_rk W M) (s_ghw_rk W M') x x) /\
  (forall x : ghw_ct C, wf_ghw_ct x -> read_as (s_ghw_ct W M) (s_ghw_ct W M') x x) /\
  (forall x : ghw_tct C, read_as (s_ghw_tct W M) (s_ghw_tct W M') x x).
Proof.
  intros C W M M' OK.
  repeat apply conj.
  - intros x. refine (sgood_read (fun _ => True) 65 (s_ghw_pk W M) (s_ghw_pk W M') x (ghw_pk_sgood W M OK) (leb_ok 65 max_depth eq_refl) I (same_de _ _ _)). sames.
  - intros x. refine (sgood_read (fun _ => True) 66 (s_ghw_msk W M) (s_ghw_msk W M') x (ghw_msk_sgood W M OK) (leb_ok 66 max_depth eq_refl) I (same_de _ _ _)). sames.
  - intros x H. refine (sgood_read wf_ghw_sk 67 (s_ghw_sk W M) (s_ghw_sk W M') x (ghw_sk_sgood W M OK) (leb_ok 67 max_depth eq_refl) H (same_de _ _ _)). sames.
  - intros x H. refine (sgood_read wf_ghw_tk 67 (s_ghw_tk W M) (s_ghw_tk W M') x (ghw_tk_sgood W M OK) (leb_ok 67 max_depth eq_refl) H (same_de _ _ _)). sames.
  - intros x. refine (sgood_read (fun _ => True) 65 (s_ghw_rk W M) (s_ghw_rk W M') x (ghw_rk_sgood W M OK) (leb_ok 65 max_depth eq_refl) I (same_de _ _ _)). sames.
  - intros x H. refine (sgood_read wf_ghw_ct 67 (s_ghw_ct W M) (s_ghw_ct W M') x (ghw_ct_sgood W M OK) (leb_ok 67 max_depth eq_refl) H (same_de _ _ _)). sames.
  - intros x. refine (sgood_read (fun _ => True) 65 (s_ghw_tct W M) (s_ghw_tct W M') x (ghw_tct_sgood W M OK) (leb_ok 65 max_depth eq_refl) I (same_de _ _ _)). sames.
Qed.

Theorem lsw_serde : forall (C : crypto) (W : swire C) (M M' : mode),
  swire_ok W ->
  (forall x : lsw_pk C, read_as (s_lsw_pk W M) (s_lsw_pk W M') x x) /\
  (forall x : lsw_msk C, read_as (s_lsw_msk W M) (s_lsw_msk W M') x x) /\
  (forall x : lsw_sk C, wf_lsw_sk x -> read_as (s_lsw_sk W M) (s_lsw_sk W M') x x) /\
  (forall x : lsw_ct C, wf_lsw_ct x -> read_as (s_lsw_ct W M) (s_lsw_ct W M') x x).
Proof.
  intros C W M M' OK.
  repeat apply conj.
  - intros x. refine (sgood_read (fun _ => True) 65 (s_lsw_pk W M) (s_lsw_pk W M') x (lsw_pk_sgood W M OK) (leb_ok 65 max_depth eq_refl) I (same_de _ _ _)). sames.
  - intros x. refine (sgood_read (fun _ => True) 65 (s_lsw_msk W M) (s_lsw_msk W M') x (lsw_msk_sgood W M OK) (leb_ok 65 max_depth eq_refl) I (same_de _ _ _)). sames.
  - intros x H. refine (sgood_read wf_lsw_sk 67 (s_lsw_sk W M) (s_lsw_sk W M') x (lsw_sk_sgood W M OK) (leb_ok 67 max_depth eq_refl) H (same_de _ _ _)). sames.
  - intros x H. refine (sgood_read wf_lsw_ct 67 (s_lsw_ct W M) (s_lsw_ct W M') x (lsw_ct_sgood W M OK) (leb_ok 67 max_depth eq_refl) H (same_de _ _ _)). sames.
Qed.

Theorem yct_serde : forall (C : crypto) (W : swire C) (M M' : mode),
  swire_ok W ->
  (forall x : yct_pk C, wf_yct_pk x -> read_as (s_yct_pk W M) (s_yct_pk W M') x x) /\
  (forall x : yct_msk C, wf_yct_msk x -> read_as (s_yct_msk W M) (s_yct_msk W M') x x) /\
  (forall x : yct_sk C, wf_yct_sk x -> read_as (s_yct_sk W M) (s_yct_sk W M') x x) /\
  (forall x : yct_ct C, wf_yct_ct x -> read_as (s_yct_ct W M) (s_yct_ct W M') x x).
Proof.
  intros C W M M' OK.
  repeat apply conj.
  - intros x H. refine (sgood_read wf_yct_pk 68 (s_yct_pk W M) (s_yct_pk W M') x (yct_pk_sgood W M OK) (leb_ok 68 max_depth eq_refl) H (same_de _ _ _)). sames.
  - intros x H. refine (sgood_read wf_yct_msk 68 (s_yct_msk W M) (s_yct_msk W M') x (yct_msk_sgood W M OK) (leb_ok 68 max_depth eq_refl) H (same_de _ _ _)). sames.
  - intros x H. refine (sgood_read wf_yct_sk 68 (s_yct_sk W M) (s_yct_sk W M') x (yct_sk_sgood W M OK) (leb_ok 68 max_depth eq_refl) H (same_de _ _ _)). sames.
  - intros x H. refine (sgood_read wf_yct_ct 68 (s_yct_ct W M) (s_yct_ct W M') x (yct_ct_sgood W M OK) (leb_ok 68 max_depth eq_refl) H (same_de _ _ _)). sames.
Qed.

Theorem ac17_serde : forall (C : crypto) (W : swire C) (M M' : mode),
  swire_ok W ->
  (forall x : ac_pk C, wf_ac_pk x -> read_as (s_ac_pk W M) (s_ac_pk W M') x x) /\
  (forall x : ac_msk C, wf_ac_msk x -> read_as (s_ac_msk W M) (s_ac_msk W M') x x) /\
  (forall x : ac_ct C, wf_ac_ct x -> read_as (s_ac_ct W M) (s_ac_ct W M') x x) /\
  (forall x : ac_cpct C, wf_ac_cpct x -> read_as (s_ac_cpct W M) (s_ac_cpct W M') x x) /\
  (forall x : ac_kpct C, wf_ac_kpct x -> read_as (s_ac_kpct W M) (s_ac_kpct W M') x x) /\
  (forall x : ac_sk C, wf_ac_sk x -> read_as (s_ac_sk W M) (s_ac_sk W M') x x) /\
  (forall x : ac_kpsk C, wf_ac_kpsk x -> read_as (s_ac_kpsk W M) (s_ac_kpsk W M') x x) /\
  (forall x : ac_cpsk C, wf_ac_cpsk x -> read_as (s_ac_cpsk W M) (s_ac_cpsk W M') x x).
Proof.
  intros C W M M' OK.
  repeat apply conj.
  - intros x H. refine (sgood_read wf_ac_pk 66 (s_ac_pk W M) (s_ac_pk W M') x (ac_pk_sgood W M OK) (leb_ok 66 max_depth eq_refl) H (same_de _ _ _)). sames.
  - intros x H. refine (sgood_read wf_ac_msk 66 (s_ac_msk W M) (s_ac_msk W M') x (ac_msk_sgood W M OK) (leb_ok 66 max_depth eq_refl) H (same_de _ _ _)). sames.
  - intros x H. refine (sgood_read wf_ac_ct 68 (s_ac_ct W M) (s_ac_ct W M') x (ac_ct_sgood W M OK) (leb_ok 68 max_depth eq_refl) H (same_de _ _ _)). sames.
  - intros x H. refine (sgood_read wf_ac_cpct 69 (s_ac_cpct W M) (s_ac_cpct W M') x (ac_cpct_sgood W M OK) (leb_ok 69 max_depth eq_refl) H (same_de _ _ _)). sames.
  - intros x H. refine (sgood_read wf_ac_kpct 69 (s_ac_kpct W M) (s_ac_kpct W M') x (ac_kpct_sgood W M OK) (leb_ok 69 max_depth eq_refl) H (same_de _ _ _)). sames.
  - intros x H. refine (sgood_read wf_ac_sk 68 (s_ac_sk W M) (s_ac_sk W M') x (ac_sk_sgood W M OK) (leb_ok 68 max_depth eq_refl) H (same_de _ _ _)). sames.
  - intros x H. refine (sgood_read wf_ac_kpsk 69 (s_ac_kpsk W M) (s_ac_kpsk W M') x (ac_kpsk_sgood W M OK) (leb_ok 69 max_depth eq_refl) H (same_de _ _ _)). sames.
  - intros x H. refine (sgood_read wf_ac_cpsk 69 (s_ac_cpsk W M) (s_ac_cpsk W M') x (ac_cpsk_sgood W M OK) (leb_ok 69 max_depth eq_refl) H (same_de _ _ _)). sames.
Qed.

Theorem aw11_serde : forall (C : crypto) (W : swire C) (M M' : mode),
  swire_ok W ->
  (forall x : aw_gk C, read_as (s_aw_gk W M) (s_aw_gk W M') x x) /\
  (forall x : aw_pk C, wf_aw_pk x -> read_as (s_aw_pk W M) (s_aw_pk W M') x x) /\
  (forall x : aw_msk C, wf_aw_msk x -> read_as (s_aw_msk W M) (s_aw_msk W M') x x) /\
  (forall x : aw_ct C, wf_aw_ct x -> read_as (s_aw_ct W M) (s_aw_ct W M') x x) /\
  (forall x : aw_sk C, wf_aw_sk x -> read_as (s_aw_sk W M) (s_aw_sk W M') x x).
Proof.
  intros C W M M' OK.
  repeat apply conj.
  - intros x. refine (sgood_read (fun _ => True) 65 (s_aw_gk W M) (s_aw_gk W M') x (aw_gk_sgood W M OK) (leb_ok 65 max_depth eq_refl) I (same_de _ _ _)). sames.
  - intros x H. refine (sgood_read wf_aw_pk 67 (s_aw_pk W M) (s_aw_pk W M') x (aw_pk_sgood W M OK) (leb_ok 67 max_depth eq_refl) H (same_de _ _ _)). sames.
  - intros x H. refine (sgood_read wf_aw_msk 67 (s_aw_msk W M) (s_aw_msk W M') x (aw_msk_sgood W M OK) (leb_ok 67 max_depth eq_refl) H (same_de _ _ _)). sames.
  - intros x H. refine (sgood_read wf_aw_ct 67 (s_aw_ct W M) (s_aw_ct W M') x (aw_ct_sgood W M OK) (leb_ok 67 max_depth eq_refl) H (same_de _ _ _)). sames.
  - intros x H. refine (sgood_read wf_aw_sk 67 (s_aw_sk W M) (s_aw_sk W M') x (aw_sk_sgood W M OK) (leb_ok 67 max_depth eq_refl) H (same_de _ _ _)). sames.
Qed.

Theorem bdabe_serde : forall (C : crypto) (W : swire C) (M M' : mode),
  swire_ok W ->
  (forall x : bd_pk C, read_as (s_bd_pk W M) (s_bd_pk W M') x x) /\
  (forall x : bd_msk C, read_as (s_bd_msk W M) (s_bd_msk W M') x x) /\
  (forall x : bd_upk C, wf_bd_upk x -> read_as (s_bd_upk W M) (s_bd_upk W M') x x) /\
  (forall x : bd_usk C, read_as (s_bd_usk W M) (s_bd_usk W M') x x) /\
  (forall x : bd_ask C, wf_bd_ask x -> read_as (s_bd_ask W M) (s_bd_ask W M') x x) /\
  (forall x : bd_uk C, wf_bd_uk x -> read_as (s_bd_uk W M) (s_bd_uk W M') x x) /\
  (forall x : bd_apk C, wf_bd_apk x -> read_as (s_bd_apk W M) (s_bd_apk W M') x x) /\
  (forall x : bd_auth C, wf_bd_auth x -> read_as (s_bd_auth W M) (s_bd_auth W M') x x) /\
  (forall x : bd_ct C, wf_bd_ct x -> read_as (s_bd_ct W M) (s_bd_ct W M') x x).
Proof.
  intros C W M M' OK.
  repeat apply conj.
  - intros x. refine (sgood_read (fun _ => True) 65 (s_bd_pk W M) (s_bd_pk W M') x (bd_pk_sgood W M OK) (leb_ok 65 max_depth eq_refl) I (same_de _ _ _)). sames.
  - intros x. refine (sgood_read (fun _ => True) 65 (s_bd_msk W M) (s_bd_msk W M') x (bd_msk_sgood W M OK) (leb_ok 65 max_depth eq_refl) I (same_de _ _ _)). sames.
  - intros x H. refine (sgood_read wf_bd_upk 65 (s_bd_upk W M) (s_bd_upk W M') x (bd_upk_sgood W M OK) (leb_ok 65 max_depth eq_refl) H (same_de _ _ _)). sames.
  - intros x. refine (sgood_read (fun _ => True) 65 (s_bd_usk W M) (s_bd_usk W M') x (bd_usk_sgood W M OK) (leb_ok 65 max_depth eq_refl) I (same_de _ _ _)). sames.
  - intros x H. refine (sgood_read wf_bd_ask 65 (s_bd_ask W M) (s_bd_ask W M') x (bd_ask_sgood W M OK) (leb_ok 65 max_depth eq_refl) H (same_de _ _ _)). sames.
  - intros x H. refine (sgood_read wf_bd_uk 67 (s_bd_uk W M) (s_bd_uk W M') x (bd_uk_sgood W M OK) (leb_ok 67 max_depth eq_refl) H (same_de _ _ _)). sames.
  - intros x H. refine (sgood_read wf_bd_apk 65 (s_bd_apk W M) (s_bd_apk W M') x (bd_apk_sgood W M OK) (leb_ok 65 max_depth eq_refl) H (same_de _ _ _)). sames.
  - intros x H. refine (sgood_read wf_bd_auth 65 (s_bd_auth W M) (s_bd_auth W M') x (bd_auth_sgood W M OK) (leb_ok 65 max_depth eq_refl) H (same_de _ _ _)). sames.
  - intros x H. refine (sgood_read wf_bd_ct 67 (s_bd_ct W M) (s_bd_ct W M') x (bd_ct_sgood W M OK) (leb_ok 67 max_depth eq_refl) H (same_de _ _ _)). sames.
Qed.

Theorem mke08_serde : forall (C : crypto) (W : swire C) (M M' : mode),
  swire_ok W ->
  (forall x : mk_pk C, read_as (s_mk_pk W M) (s_mk_pk W M') x x) /\
  (forall x : mk_msk C, read_as (s_mk_msk W M) (s_mk_msk W M') x x) /\
  (forall x : mk_upk C, wf_mk_upk x -> read_as (s_mk_upk W M) (s_mk_upk W M') x x) /\
  (forall x : mk_usk C, read_as (s_mk_usk W M) (s_mk_usk W M') x x) /\
  (forall x : mk_auth C, wf_mk_auth x -> read_as (s_mk_auth W M) (s_mk_auth W M') x x) /\
  (forall x : mk_apk C, wf_mk_apk x -> read_as (s_mk_apk W M) (s_mk_apk W M') x x) /\
  (forall x : mk_ask C, wf_mk_ask x -> read_as (s_mk_ask W M) (s_mk_ask W M') x x) /\
  (forall x : mk_uk C, wf_mk_uk x -> read_as (s_mk_uk W M) (s_mk_uk W M') x x) /\
  (forall x : mk_ct C, wf_mk_ct x -> read_as (s_mk_ct W M) (s_mk_ct W M') x x).
Proof.
  intros C W M M' OK.
  repeat apply conj.
  - intros x. refine (sgood_read (fun _ => True) 65 (s_mk_pk W M) (s_mk_pk W M') x (mk_pk_sgood W M OK) (leb_ok 65 max_depth eq_refl) I (same_de _ _ _)). sames.
  - intros x. refine (sgood_read (fun _ => True) 65 (s_mk_msk W M) (s_mk_msk W M') x (mk_msk_sgood W M OK) (leb_ok 65 max_depth eq_refl) I (same_de _ _ _)). sames.
  - intros x H. refine (sgood_read wf_mk_upk 65 (s_mk_upk W M) (s_mk_upk W M') x (mk_upk_sgood W M OK) (leb_ok 65 max_depth eq_refl) H (same_de _ _ _)). sames.
  - intros x. refine (sgood_read (fun _ => True) 65 (s_mk_usk W M) (s_mk_usk W M') x (mk_usk_sgood W M OK) (leb_ok 65 max_depth eq_refl) I (same_de _ _ _)). sames.
  - intros x H. refine (sgood_read wf_mk_auth 65 (s_mk_auth W M) (s_mk_auth W M') x (mk_auth_sgood W M OK) (leb_ok 65 max_depth eq_refl) H (same_de _ _ _)). sames.
  - intros x H. refine (sgood_read wf_mk_apk 65 (s_mk_apk W M) (s_mk_apk W M') x (mk_apk_sgood W M OK) (leb_ok 65 max_depth eq_refl) H (same_de _ _ _)). sames.
  - intros x H. refine (sgood_read wf_mk_ask 65 (s_mk_ask W M) (s_mk_ask W M') x (mk_ask_sgood W M OK) (leb_ok 65 max_depth eq_refl) H (same_de _ _ _)). sames.
  - intros x H. refine (sgood_read wf_mk_uk 67 (s_mk_uk W M) (s_mk_uk W M') x (mk_uk_sgood W M OK) (leb_ok 67 max_depth eq_refl) H (same_de _ _ _)). sames.
  - intros x H. refine (sgood_read wf_mk_ct 67 (s_mk_ct W M) (s_mk_ct W M') x (mk_ct_sgood W M OK) (leb_ok 67 max_depth eq_refl) H (same_de _ _ _)). sames.
Qed.

(** ** Bytes: any order, further entries, entries twice, entries missing *)

Lemma from_put {A} (s : sd A) v : holds max_depth v ->
  from_cbor s (put v) = match de s v with Some x => Ok x | None => Err end.
Proof.
  intros H. unfold from_cbor. pose proof (put_back _ _ "" H) as B. rewrite sapp_nil in B. now rewrite B.
Qed.

Lemma holds_perm d es es' : Permutation es es' -> holds d (VMap es) -> holds d (VMap es').
Proof.
  intros P. destruct d as [|d]; [intros []|]. cbn [holds]. intros [F H]. split.
  - now rewrite <- (Permutation_length P).
  - now rewrite <- P.
Qed.

Theorem serde_order {A B} M (fl : fields A) (f : B -> A) g es es' :
  holds max_depth (VMap es) -> Permutation es es' ->
  from_cbor (s_struct M fl f g) (put (VMap es')) = from_cbor (s_struct M fl f g) (put (VMap es)).
Proof.
  intros H P. rewrite !from_put; [|exact H|now apply (holds_perm _ es)].
  now rewrite (struct_perm M fl f g _ _ P).
Qed.

Theorem serde_extra {A B} M (fl : fields A) (f : B -> A) g k v es1 es2 :
  holds max_depth (VMap (es1 ++ (k, v) :: es2)%list) -> which (f_names fl) k = Some None ->
  from_cbor (s_struct M fl f g) (put (VMap (es1 ++ (k, v) :: es2)%list)) =
  from_cbor (s_struct M fl f g) (put (VMap (es1 ++ es2)%list)).
Proof.
  intros H E. rewrite !from_put; [|clear E|exact H].
  - now rewrite (struct_extra M fl f g _ _ _ _ E).
  - revert H. unfold max_depth. generalize 126%nat as d. intros d. cbn [holds]. intros [F H]. split.
    + unfold fits64 in *. rewrite app_length in *. cbn [List.length] in F. lia.
    + apply Forall_app in H as [H1 H2]. inversion H2; subst. apply Forall_app. auto.
Qed.

Theorem serde_twice {A B} M (fl : fields A) (f : B -> A) g k k' i v v' es1 es2 es3 :
  holds max_depth (VMap (es1 ++ (k, v) :: es2 ++ (k', v') :: es3)%list) ->
  which (f_names fl) k = Some (Some i) -> which (f_names fl) k' = Some (Some i) ->
  from_cbor (s_struct M fl f g) (put (VMap (es1 ++ (k, v) :: es2 ++ (k', v') :: es3)%list)) = Err.
Proof.
  intros H E E'. rewrite from_put by exact H. now rewrite (struct_twice M fl f g _ _ _ _ _ _ _ _ E E').
Qed.

Theorem serde_missing {A B} M (fl : fields A) (f : B -> A) g i es :
  holds max_depth (VMap es) -> strict fl -> (i < List.length (f_names fl))%nat ->
  ~ means (f_names fl) i es -> from_cbor (s_struct M fl f g) (put (VMap es)) = Err.
Proof.
  intros H S L N. rewrite from_put by exact H. now rewrite (struct_missing M fl f g _ _ S L N).
Qed.

(** ** One entry only: a [Result] read as what it should hold *)

Lemma one_entry {A B} M (fl : fields A) (f : B -> A) g k v : strict fl -> (2 <= List.length (f_names fl))%nat ->
  de (s_struct M fl f g) (VMap [(k, v)]) = None.
Proof.
  intros S L.
  assert (N : ~ means (f_names fl) 0 [(k, v)] \/ ~ means (f_names fl) 1 [(k, v)]).
  { destruct (which (f_names fl) k) as [[[|i]|]|] eqn:E.
    - right. intros (k' & v' & [I|[]] & W). injection I as <- <-. rewrite E in W. discriminate.
    - left. intros (k' & v' & [I|[]] & W). injection I as <- <-. rewrite E in W. discriminate.
    - left. intros (k' & v' & [I|[]] & W). injection I as <- <-. rewrite E in W. discriminate.
    - left. intros (k' & v' & [I|[]] & W). injection I as <- <-. rewrite E in W. discriminate. }
  destruct N as [N|N]; [apply (struct_missing M fl f g 0)|apply (struct_missing M fl f g 1)]; auto; lia.
Qed.

Lemma result_refused {A B} M (P : B -> Prop) d (fl : fields A) (f : B -> A) g v :
  let s := s_struct M fl f g in
  sgood P d s -> (S d <= max_depth)%nat -> P v -> strict fl -> (2 <= List.length (f_names fl))%nat ->
  from_cbor s (to_cbor (s_result M s) (inl v)) = Err.
Proof.
  intros s G D H S L. unfold to_cbor. cbn [s_result ser]. unfold newtype_variant. rewrite from_put.
  - unfold s. now rewrite one_entry.
  - apply (holds_mono (Datatypes.S d)); [exact D|]. apply holds_map1; [|apply (G v H)].
    destruct (var_number M), d; cbn [holds]; try reflexivity; split; reflexivity.
Qed.

(** The elements of rabe_bn are not optional. *)
Definition required {C : crypto} (W : swire C) : Prop :=
  miss (sw_f W) = None /\ miss (sw_1 W) = None /\ miss (sw_2 W) = None /\ miss (sw_t W) = None.

Ltac stricts := repeat apply and_strict; apply one_strict; first [assumption | reflexivity].

Theorem results_refused (C : crypto) (W : swire C) (M : mode) : swire_ok W -> required W ->
  (forall x : bsw_ct C, wf_bsw_ct x -> from_cbor (s_bsw_ct W M) (to_cbor (s_result M (s_bsw_ct W M)) (inl x)) = Err) /\
  (forall x : lsw_ct C, wf_lsw_ct x -> from_cbor (s_lsw_ct W M) (to_cbor (s_result M (s_lsw_ct W M)) (inl x)) = Err) /\
  (forall x : aw_ct C, wf_aw_ct x -> from_cbor (s_aw_ct W M) (to_cbor (s_result M (s_aw_ct W M)) (inl x)) = Err) /\
  (forall x : bd_ct C, wf_bd_ct x -> from_cbor (s_bd_ct W M) (to_cbor (s_result M (s_bd_ct W M)) (inl x)) = Err) /\
  (forall x : mk_ct C, wf_mk_ct x -> from_cbor (s_mk_ct W M) (to_cbor (s_result M (s_mk_ct W M)) (inl x)) = Err).
Proof.
  intros OK (Rf & R1 & R2 & Rt). assert (D : (68 <= max_depth)%nat) by (apply leb_ok; reflexivity).
  repeat apply conj; intros x H.
  - refine (result_refused M _ 67 _ _ _ x (bsw_ct_sgood W M OK) D H _ _); [stricts|cbn; lia].
  - refine (result_refused M _ 67 _ _ _ x (lsw_ct_sgood W M OK) D H _ _); [stricts|cbn; lia].
  - refine (result_refused M _ 67 _ _ _ x (aw_ct_sgood W M OK) D H _ _); [stricts|cbn; lia].
  - refine (result_refused M _ 67 _ _ _ x (bd_ct_sgood W M OK) D H _ _); [stricts|cbn; lia].
  - refine (result_refused M _ 67 _ _ _ x (mk_ct_sgood W M OK) D H _ _); [stricts|cbn; lia].
Qed.

(** ** Keys of one scheme read as keys of another *)

Theorem packed_mixup (C : crypto) (W : swire C) (M M' : mode) : swire_ok W -> packed M = true ->
  (forall k : mk_pk C, read_as (s_mk_pk W M) (s_bd_pk W M') k
     (BdPk (mpk_g1 k) (mpk_g2 k) (mpk_p1 k) (mpk_p2 k) (mpk_egg1 k))) /\
  (forall k : bd_pk C, read_as (s_bd_pk W M) (s_bsw_pk W M') k
     (BswPk (Bdabe.bpk_g1 k) (Bdabe.bpk_g2 k) (Bdabe.bpk_p1 k) (Bdabe.bpk_p2 k) (Bdabe.bpk_egg k))) /\
  (forall k : bsw_pk C, read_as (s_bsw_pk W M) (s_ghw_pk W M') k
     (GhwPk (bpk_g1 k) (bpk_g2 k) (bpk_h k) (bpk_f k) (bpk_egg k))) /\
  (forall k : yct_msk C, wf_yct_msk k -> read_as (s_yct_msk W M) (s_bd_msk W M') k (BdMsk (ymsk_s k))) /\
  (forall k : mk_msk C, read_as (s_mk_msk W M) (s_aw_gk W M') k (AwGk (mmsk_g1 k) (mmsk_g2 k))).
Proof.
  intros OK PK. pose proof OK as (Kf & K1 & K2 & Kt).
  assert (Ef : forall v, de (sw_f W) (ser (sw_f W) v) = Some v) by (intros v; exact (proj2 (Kf v I))).
  assert (E1 : forall v, de (sw_1 W) (ser (sw_1 W) v) = Some v) by (intros v; exact (proj2 (K1 v I))).
  assert (E2 : forall v, de (sw_2 W) (ser (sw_2 W) v) = Some v) by (intros v; exact (proj2 (K2 v I))).
  assert (Et : forall v, de (sw_t W) (ser (sw_t W) v) = Some v) by (intros v; exact (proj2 (Kt v I))).
  assert (D : forall d, Nat.leb d 127 = true -> (d <= max_depth)%nat) by (intros d; apply leb_ok).
  repeat apply conj.
  - intros k. unfold read_as, to_cbor. rewrite from_put.
    + cbn. unfold field_key. rewrite PK. cbn. change (Pos.to_nat 1) with 1%nat. change (Pos.to_nat 2) with 2%nat.
      change (Pos.to_nat 3) with 3%nat. change (Pos.to_nat 4) with 4%nat. cbn.
      repeat (rewrite ?Ef, ?E1, ?E2, ?Et; cbn). reflexivity.
    + apply (holds_mono 65); [now apply D|]. apply (mk_pk_sgood W M OK k I).
  - intros k. unfold read_as, to_cbor. rewrite from_put.
    + cbn. unfold field_key. rewrite PK. cbn. change (Pos.to_nat 1) with 1%nat. change (Pos.to_nat 2) with 2%nat.
      change (Pos.to_nat 3) with 3%nat. change (Pos.to_nat 4) with 4%nat. cbn.
      repeat (rewrite ?Ef, ?E1, ?E2, ?Et; cbn). reflexivity.
    + apply (holds_mono 65); [now apply D|]. apply (bd_pk_sgood W M OK k I).
  - intros k. unfold read_as, to_cbor. rewrite from_put.
    + cbn. unfold field_key. rewrite PK. cbn. change (Pos.to_nat 1) with 1%nat. change (Pos.to_nat 2) with 2%nat.
      change (Pos.to_nat 3) with 3%nat. change (Pos.to_nat 4) with 4%nat. cbn.
      repeat (rewrite ?Ef, ?E1, ?E2, ?Et; cbn). reflexivity.
    + apply (holds_mono 65); [now apply D|]. apply (bsw_pk_sgood W M OK k I).
  - intros k H. unfold read_as, to_cbor. rewrite from_put.
    + cbn. unfold field_key. rewrite PK. cbn. change (Pos.to_nat 1) with 1%nat. change (Pos.to_nat 2) with 2%nat.
      change (Pos.to_nat 3) with 3%nat. change (Pos.to_nat 4) with 4%nat. cbn.
      repeat (rewrite ?Ef, ?E1, ?E2, ?Et; cbn). reflexivity.
    + apply (holds_mono 68); [now apply D|]. apply (yct_msk_sgood W M OK k H).
  - intros k. unfold read_as, to_cbor. rewrite from_put.
    + cbn. unfold field_key. rewrite PK. cbn. change (Pos.to_nat 1) with 1%nat. change (Pos.to_nat 2) with 2%nat.
      change (Pos.to_nat 3) with 3%nat. change (Pos.to_nat 4) with 4%nat. cbn.
      repeat (rewrite ?Ef, ?E1, ?E2, ?Et; cbn). reflexivity.
    + apply (holds_mono 65); [now apply D|]. apply (mk_msk_sgood W M OK k I).
Qed.

(** With names the first four are told apart. *)
Theorem named_no_mixup (C : crypto) (W : swire C) (M M' : mode) : swire_ok W -> required W -> packed M = false ->
  (forall k : mk_pk C, from_cbor (s_bd_pk W M') (to_cbor (s_mk_pk W M) k) = Err) /\
  (forall k : bd_pk C, from_cbor (s_bsw_pk W M') (to_cbor (s_bd_pk W M) k) = Err) /\
  (forall k : bsw_pk C, from_cbor (s_ghw_pk W M') (to_cbor (s_bsw_pk W M) k) = Err) /\
  (forall k : yct_msk C, wf_yct_msk k -> from_cbor (s_bd_msk W M') (to_cbor (s_yct_msk W M) k) = Err).
Proof.
  intros OK (Rf & R1 & R2 & Rt) PK.
  assert (D : forall d, Nat.leb d 127 = true -> (d <= max_depth)%nat) by (intros d; apply leb_ok).
  repeat apply conj.
  - intros k. unfold to_cbor. rewrite from_put; [|apply (holds_mono 65); [now apply D|apply (mk_pk_sgood W M OK k I)]].
    cbn. unfold field_key. rewrite PK. cbn. rewrite ?Rf, ?R1, ?R2, ?Rt. repeat (destruct (de _ _); cbn; try reflexivity).
  - intros k. unfold to_cbor. rewrite from_put; [|apply (holds_mono 65); [now apply D|apply (bd_pk_sgood W M OK k I)]].
    cbn. unfold field_key. rewrite PK. cbn. rewrite ?Rf, ?R1, ?R2, ?Rt. repeat (destruct (de _ _); cbn; try reflexivity).
  - intros k. unfold to_cbor. rewrite from_put; [|apply (holds_mono 65); [now apply D|apply (bsw_pk_sgood W M OK k I)]].
    cbn. unfold field_key. rewrite PK. cbn. rewrite ?Rf, ?R1, ?R2, ?Rt. repeat (destruct (de _ _); cbn; try reflexivity).
  - intros k H. unfold to_cbor. rewrite from_put; [|apply (holds_mono 68); [now apply D|apply (yct_msk_sgood W M OK k H)]].
    cbn. unfold field_key. rewrite PK. cbn. rewrite ?Rf. reflexivity.
Qed.

(** ** The size of [Vec<u8>] *)

(** Bytes from 24 on take two. *)
Fixpoint twos (s : string) : nat :=
  match s with
  | EmptyString => 0
  | String b s => ((if (24 <=? N_of_ascii b)%N then 1 else 0) + twos s)%nat
  end.

Lemma u8_len b : String.length (put (ser s_u8 b)) = S (if (24 <=? N_of_ascii b)%N then 1 else 0).
Proof.
  cbn [s_u8 ser put]. unfold head. pose proof (N_ascii_bounded b).
  destruct (N.ltb_spec (N_of_ascii b) 24), (N.leb_spec 24 (N_of_ascii b)); try lia; [reflexivity|].
  destruct (N.ltb_spec (N_of_ascii b) 256); [reflexivity|lia].
Qed.

Theorem bytes_len d : String.length (to_cbor s_bytes d) =
  (String.length (head 4 (N.of_nat (String.length d))) + String.length d + twos d)%nat.
Proof.
  unfold to_cbor. cbn [s_bytes ser s_list]. rewrite put_arr, slen_app, map_length, lascii_len.
  rewrite <- Nat.add_assoc. f_equal. induction d as [|b d IH]; [reflexivity|].
  cbn [list_ascii_of_string map puts]. fold (puts (map (ser s_u8) (list_ascii_of_string d))).
  rewrite slen_app, u8_len, IH. cbn [String.length twos]. lia.
Qed.
