(** * Decryption in AC17 for every policy: repeated names and repeated attributes

    The correctness theorems of AC17 ask for distinct names in the policy and
    distinct attributes.  Here is the value that decryption computes for honest
    keys and ciphertexts without these conditions. *)
From Coq Require Import String Ascii List Bool Arith ZArith Lia Field Permutation.
From Verif Require Import Base Crypto Policy Tools Sharing Spec PolicyProofs Poly
  SharingProofs Symmetric Parse SchemeLib Msp MspProofs Ac17 Ac17Proofs AcEquationProofs EquationProofs LswNegation ExactProofs.
Import ListNotations.

Section AcExact.
Context {C : crypto} (L : laws C).
Local Open Scope F_scope.
Add Field ac_exact_field : (f_theory L).
Notation F := (F C).
Ltac logs := log_simpl L.

(** ** Specification *)

(** Sum of [v] over the entries filed under the name. *)
Fixpoint under {A} (n : string) (v : A -> F) (l : list (string * A)) : F :=
  match l with
  | [] => 0
  | (m, a) :: r => (if seqb m n then v a else 0) + under n v r
  end.

(** Sum over the occurrences of the name in a list of attributes. *)
Fixpoint among (n : string) (v : F) (l : list string) : F :=
  match l with
  | [] => 0
  | m :: r => (if seqb m n then v else 0) + among n v r
  end.

(** The rows of the matrix with their names. *)
Definition matrix (m : abe_policy) : list (string * list Z) := combine (msp_pi m) (msp_m m).

(** What is left of the blinding in the ciphertext-policy variant, per part of the secret. *)
Definition cp_rest (m : abe_policy) (attrs : list string) (x0 x1 x2 : F) (ns : list string) (t : nat) : F :=
  fsum (map (fun n =>
    under n (fun row => W n x0 x1 x2 t + dot row (fun c => W (col (c + 1)) x0 x1 x2 t)) (matrix m)
    - among n (W n x0 x1 x2 t) attrs) ns) - W "01" x0 x1 x2 t.

(** The column values a key of the key-policy variant carries, multiplied out. *)
Definition kp_col (sp : nat -> F) (x0 x1 x2 a k k2 : F) (t c : nat) : F :=
  match c with
  | O => k * a + k2
  | S _ => fsum (map (fun q => W (col q) x0 x1 x2 t - a * sp q) (seq 1 c)) - sp c
  end.

Definition kp_rest (m : abe_policy) (attrs : list string) (sp : nat -> F) (x0 x1 x2 a k k2 : F)
  (ns : list string) (t : nat) : F :=
  k * a + k2 + fsum (map (fun n =>
    among n (W n x0 x1 x2 t) attrs
    - under n (fun row => W n x0 x1 x2 t + dot row (kp_col sp x0 x1 x2 a k k2 t)) (matrix m)) ns).

(** ** Proofs *)

Lemma matrix_eq f m : calculate_msp (tree f) = Ok m ->
  binary_and f = true /\ matrix m = sort_rows (rev (msp_rows f)).
Proof.
  intros H. destruct (binary_and f) eqn:B; [|rewrite (calculate_msp_bad f B) in H; discriminate].
  split; [reflexivity|]. rewrite (calculate_msp_eq f B) in H. injection H as <-. unfold matrix. cbn.
  induction (sort_rows (rev (msp_rows f))) as [|[n r] R IH]; cbn; [reflexivity|]. now rewrite IH.
Qed.

Lemma dot_add (w w' : nat -> F) row : dot row (fun c => w c + w' c) = dot row w + dot row w'.
Proof.
  unfold dot. generalize 0%nat. induction row as [|z row IH]; intros k; cbn; [ring|]. rewrite IH. ring.
Qed.

Lemma evl_map {A} (nm : A -> string) (v : A -> nat -> G1 C) l i n : (i < 3)%nat ->
  evl L (map (fun r => (nm r, map (v r) [0; 1; 2]%nat)) l) i n =
  fsum (map (fun r => if seqb (nm r) n then log1 L (v r i) else 0) l).
Proof.
  intros Hi. induction l as [|r l IH]; cbn [map evl fsum fst snd] in *; [reflexivity|].
  rewrite IH. destruct i as [|[|[|i]]]; try lia; reflexivity.
Qed.

Theorem cp_decrypt_all nonce (pk : ac_pk C) msk a0 a1 b0 b1 k0 k1 k2 attrs sk pol lang data ct f m
  tk ik jk te ie je :
  ac_keys pk msk a0 a1 b0 b1 k0 k1 k2 ->
  cp_keygen msk attrs tk ik = Ok (sk, jk) ->
  cp_encrypt nonce pk pol data lang te ie = Ok (ct, je) ->
  parse pol lang = Ok (tree f) -> calculate_msp (tree f) = Ok m ->
  sat (owns attrs) f = true ->
  let x0 := b0 * tk ik in let x1 := b1 * tk (ik + 1)%nat in let x2 := tk ik + tk (ik + 1)%nat in
  let rest := cp_rest m attrs x0 x1 x2 (map fst (chosen (owns attrs) f)) in
  cp_decrypt sk ct = decrypt_symmetric
    (gtmul C (gtpow C (pairing C (g1one C) (g2one C)) (te (ie + 2)%nat))
       (gtpow C (pairing C (amsk_g msk) (amsk_h msk))
          (te ie * rest 0%nat + te (ie + 1)%nat * rest 1%nat)))
    (act_ct (acp_ct ct)).
Proof.
  intros K Hk He P Hm S x0 x1 x2 rest.
  destruct (matrix_eq f m Hm) as (B & Mx).
  destruct (cp_keygen_eq L _ _ _ _ _ _ _ _ _ _ _ _ _ _ K Hk)
    as (N0 & N1 & _ & A1 & A2 & A4 & Lk & A3). cbv zeta in *. fold x0 x1 x2 in A2, A3, A4.
  destruct (cp_encrypt_eq L _ _ _ _ _ _ _ _ _ _ _ _ _ _ _ _ _ _ K P B He)
    as (msg & Emsg & _ & E1 & E2 & E4 & _ & E3). cbv zeta in *.
  rewrite <- Emsg. pose proof (binary_arity2 f B) as A.
  set (g := amsk_g msk) in *. set (h := amsk_h msk) in *.
  set (s0 := te ie) in *. set (s1 := te (ie + 1)%nat) in *.
  pose proof (owns_nonempty attrs f S A) as NE.
  unfold cp_decrypt, ac_open. rewrite E1, A1. cbn [fst snd]. rewrite P. cbn [obind].
  rewrite traverse_tree, S.
  assert (E : (0 <? length attrs)%nat = true) by (destruct attrs; [congruence|reflexivity]).
  rewrite E. cbn [andb]. rewrite calc_pruned_tree by exact A. rewrite S. cbn [obind fst snd].
  set (pr := map leaf_pair (sel (pmask (owns attrs) f) (leaves f))).
  set (kk := fun (a : string) (s : F) (i : nat) => match i with
    | 0%nat => g1mul C g ((W a x0 x1 x2 0 + s) * finv C a0)
    | 1%nat => g1mul C g ((W a x0 x1 x2 1 + s) * finv C a1)
    | _ => g1mul C g (- s) end).
  (* the key as a map over attributes and their secrets *)
  assert (X : exists l : list (string * F), map fst l = attrs /\
    ask_k (acps_sk sk) = map (fun r => (fst r, map (kk (fst r) (snd r)) [0; 1; 2]%nat)) l).
  { exists (combine attrs (map (fun q => tk (ik + 2 + q)%nat) (seq 0 (length attrs)))). split.
    - clear. assert (Y : forall (u : nat -> F) b, map fst (combine attrs (map u (seq b (length attrs)))) = attrs).
      { intros u. induction attrs as [|a l IH]; intros b; cbn; [reflexivity|]. now rewrite IH. }
      apply Y.
    - revert A3 Lk. generalize (ask_k (acps_sk sk)) as ks. clear -kk.
      assert (Y : forall b ks, (forall k a, nth_error attrs k = Some a -> nth_error ks k = Some (a, map (kk a (tk (ik + 2 + (b + k))%nat)) [0; 1; 2]%nat)) ->
        length ks = length attrs -> ks = map (fun r => (fst r, map (kk (fst r) (snd r)) [0; 1; 2]%nat)) (combine attrs (map (fun q => tk (ik + 2 + q)%nat) (seq b (length attrs))))).
      { induction attrs as [|a l IH]; intros b ks H Hl; destruct ks as [|e ks]; try discriminate; [reflexivity|].
        cbn [length seq map combine fst snd]. f_equal.
        - specialize (H 0%nat a eq_refl). cbn in H. injection H as ->. now rewrite Nat.add_0_r.
        - apply IH; [|cbn in Hl; lia]. intros k a' Ha. specialize (H (Datatypes.S k) a' Ha). cbn [nth_error] in H.
          rewrite H. replace (b + Datatypes.S k)%nat with (Datatypes.S b + k)%nat by lia. reflexivity. }
      intros ks H Hl. apply Y; [|exact Hl]. intros k a Ha. cbn [Nat.add]. rewrite (H k a Ha). reflexivity. }
  destruct X as (ls' & Hls & A3').
  assert (Lc : forall i, (i < 3)%nat -> Forall (fun e => (i < length (snd e))%nat) (act_c (acp_ct ct))).
  { intros i Hi. rewrite E3. apply Forall_forall. intros e Ie. apply in_map_iff in Ie as (r & <- & _). cbn. lia. }
  assert (Lk' : forall i, (i < 3)%nat -> Forall (fun e => (i < length (snd e))%nat) (ask_k (acps_sk sk))).
  { intros i Hi. rewrite A3'. apply Forall_forall. intros e Ie. apply in_map_iff in Ie as (r & <- & _). cbn. lia. }
  destruct (select_sum_log L _ 0 pr (Lc 0%nat ltac:(lia))) as (g0 & G0 & Vg0).
  destruct (select_sum_log L _ 1 pr (Lc 1%nat ltac:(lia))) as (g1 & G1 & Vg1).
  destruct (select_sum_log L _ 2 pr (Lc 2%nat ltac:(lia))) as (g2 & G2 & Vg2).
  destruct (select_sum_log L _ 0 pr (Lk' 0%nat ltac:(lia))) as (h0 & H0 & Vh0).
  destruct (select_sum_log L _ 1 pr (Lk' 1%nat ltac:(lia))) as (h1 & H1 & Vh1).
  destruct (select_sum_log L _ 2 pr (Lk' 2%nat ltac:(lia))) as (h2 & H2 & Vh2).
  unfold ac_products, ls, asz. cbn [seq Nat.add ofold].
  rewrite G0, H0, A2, A4, E2. cbn [obind idx nth_error unwrap].
  rewrite G1, H1. cbn [obind idx nth_error unwrap].
  rewrite G2, H2. cbn [obind idx nth_error unwrap fst snd].
  f_equal. apply (logT_inj L). logs. rewrite E4. logs.
  set (G := log1 L g) in *. set (H := log2 L h) in *.
  (* per name *)
  set (cs := fun (t : nat) n => under n (fun row => W n x0 x1 x2 t + dot row (fun c => W (col (c + 1)) x0 x1 x2 t)) (matrix m)).
  set (ks := fun (t : nat) n => among n (W n x0 x1 x2 t) attrs).
  assert (Vc : log1 L g0 * x0 + log1 L g1 * x1 + log1 L g2 * x2 =
    G * fsum (map (fun x => cs 0%nat (fst x) * s0 + cs 1%nat (fst x) * s1) pr)).
  { rewrite Vg0, Vg1, Vg2. clear - L E3 Mx. clearbody pr.
    induction pr as [|x l IH]; cbn [map fsum]; [ring|].
    transitivity (G * fsum (map (fun x1 => cs 0%nat (fst x1) * s0 + cs 1%nat (fst x1) * s1) l) +
      (evl L (act_c (acp_ct ct)) 0 (fst x) * x0 + evl L (act_c (acp_ct ct)) 1 (fst x) * x1 +
       evl L (act_c (acp_ct ct)) 2 (fst x) * x2)); [rewrite <- IH; ring|].
    assert (Q : evl L (act_c (acp_ct ct)) 0 (fst x) * x0 + evl L (act_c (acp_ct ct)) 1 (fst x) * x1 +
       evl L (act_c (acp_ct ct)) 2 (fst x) * x2 = G * (cs 0%nat (fst x) * s0 + cs 1%nat (fst x) * s1)).
    2:{ rewrite Q. ring. }
    rewrite E3. rewrite !(evl_map fst (fun r l => g1mul C g (cp_cell (fst r) (snd r) s0 s1 l))) by lia.
    unfold cs. rewrite Mx. generalize (sort_rows (rev (msp_rows f))). clear - L.
    induction l as [|[n row] R IH]; cbn [map fsum under fst snd]; [ring|].
    destruct (seqb n (fst x)) eqn:En.
    - apply seqb_eq in En. subst n. logs. fold G.
      transitivity (G * (cp_cell (fst x) row s0 s1 0 * x0 + cp_cell (fst x) row s0 s1 1 * x1 + cp_cell (fst x) row s0 s1 2 * x2) +
        (fsum (map (fun r => if seqb (fst r) (fst x) then log1 L (g1mul C g (cp_cell (fst r) (snd r) s0 s1 0)) else 0) R) * x0 +
         fsum (map (fun r => if seqb (fst r) (fst x) then log1 L (g1mul C g (cp_cell (fst r) (snd r) s0 s1 1)) else 0) R) * x1 +
         fsum (map (fun r => if seqb (fst r) (fst x) then log1 L (g1mul C g (cp_cell (fst r) (snd r) s0 s1 2)) else 0) R) * x2)); [ring|].
      rewrite IH. unfold cp_cell.
      assert (Dt : forall t, dot row (fun c => W (col (c + 1)) x0 x1 x2 t) =
         x0 * dot row (fun c => hv (lab (col (c + 1)) 0 t)) + x1 * dot row (fun c => hv (lab (col (c + 1)) 1 t)) +
         x2 * dot row (fun c => hv (lab (col (c + 1)) 2 t))).
      { intros t. rewrite <- !(dot_scale L), <- !dot_add. apply dot_ext. intros c _. unfold W. ring. }
      rewrite !Dt. unfold W. ring.
    - match goal with |- ?a = ?b => transitivity (0 + a); [ring|] end.
      etransitivity; [|etransitivity; [exact (f_equal (fun z => z) IH)|ring]]. ring. }
  assert (Vk : log1 L h0 * a0 * s0 + log1 L h1 * a1 * s1 + log1 L h2 * (s0 + s1) =
    G * fsum (map (fun x => ks 0%nat (fst x) * s0 + ks 1%nat (fst x) * s1) pr)).
  { rewrite Vh0, Vh1, Vh2. clear - L A3' Hls N0 N1. clearbody pr.
    induction pr as [|x l IH]; cbn [map fsum]; [ring|].
    transitivity (G * fsum (map (fun x1 => ks 0%nat (fst x1) * s0 + ks 1%nat (fst x1) * s1) l) +
      (evl L (ask_k (acps_sk sk)) 0 (fst x) * a0 * s0 + evl L (ask_k (acps_sk sk)) 1 (fst x) * a1 * s1 +
       evl L (ask_k (acps_sk sk)) 2 (fst x) * (s0 + s1))); [rewrite <- IH; ring|].
    assert (Q : evl L (ask_k (acps_sk sk)) 0 (fst x) * a0 * s0 + evl L (ask_k (acps_sk sk)) 1 (fst x) * a1 * s1 +
       evl L (ask_k (acps_sk sk)) 2 (fst x) * (s0 + s1) = G * (ks 0%nat (fst x) * s0 + ks 1%nat (fst x) * s1)).
    2:{ rewrite Q. ring. }
    rewrite A3'. rewrite !(evl_map fst (fun r => kk (fst r) (snd r))) by lia.
    unfold ks. rewrite <- Hls. clear - L N0 N1.
    induction ls' as [|[n s] R IH]; cbn [map fsum among fst snd]; [ring|].
    destruct (seqb n (fst x)) eqn:En.
    - apply seqb_eq in En. subst n.
      match type of IH with ?a * a0 * s0 + ?b * a1 * s1 + ?c * (s0 + s1) = _ =>
        transitivity (log1 L (kk (fst x) s 0%nat) * a0 * s0 + log1 L (kk (fst x) s 1%nat) * a1 * s1 +
          log1 L (kk (fst x) s 2%nat) * (s0 + s1) + (a * a0 * s0 + b * a1 * s1 + c * (s0 + s1))); [ring|] end.
      rewrite IH. unfold kk. logs. fold G. field. auto.
    - match type of IH with ?a = _ => transitivity (0 + a); [ring|] end. rewrite IH. ring. }
  unfold rest, cp_rest.
  assert (Ec : map fst (chosen (owns attrs) f) = map fst pr).
  { unfold pr. rewrite chosen_sel by exact S. rewrite map_map. reflexivity. }
  rewrite Ec.
  assert (Er : forall t, fsum (map (fun n => under n (fun row => W n x0 x1 x2 t + dot row (fun c => W (col (c + 1)) x0 x1 x2 t)) (matrix m)
      - among n (W n x0 x1 x2 t) attrs) (map fst pr)) =
      fsum (map (fun x => cs t (fst x)) pr) - fsum (map (fun x => ks t (fst x)) pr)).
  { intros t. clear - L. clearbody pr. induction pr as [|x l IH]; cbn [map fsum]; [ring|]. rewrite IH. unfold cs, ks. ring. }
  rewrite !Er.
  assert (Sp : forall u v : string * string -> F, fsum (map (fun x => u x * s0 + v x * s1) pr) = fsum (map u pr) * s0 + fsum (map v pr) * s1).
  { intros u v. clear - L. clearbody pr. induction pr as [|x l IH]; cbn [map fsum]; [ring|]. rewrite IH. ring. }
  rewrite (Sp (fun x => cs 0%nat (fst x)) (fun x => cs 1%nat (fst x))) in Vc.
  rewrite (Sp (fun x => ks 0%nat (fst x)) (fun x => ks 1%nat (fst x))) in Vk.
  fold G H.
  transitivity (logT L msg + G * H * ((k0 * a0 + k2) * s0 + (k1 * a1 + k2) * s1)
     + H * (log1 L g0 * x0 + log1 L g1 * x1 + log1 L g2 * x2)
     - H * (log1 L h0 * a0 * s0 + log1 L h1 * a1 * s1 + log1 L h2 * (s0 + s1))
     - G * H * ((k0 * a0 + k2) * s0 + (k1 * a1 + k2) * s1 + W "01" x0 x1 x2 0 * s0 + W "01" x0 x1 x2 1 * s1)).
  - fold G H. field. auto.
  - rewrite Vc, Vk. ring.
Qed.

Theorem kp_decrypt_all nonce (pk : ac_pk C) msk a0 a1 b0 b1 k0 k1 k2 attrs sk pol lang data ct f m
  tk ik jk te ie je :
  ac_keys pk msk a0 a1 b0 b1 k0 k1 k2 ->
  kp_keygen msk pol lang tk ik = Ok (sk, jk) ->
  kp_encrypt nonce pk attrs data te ie = Ok (ct, je) ->
  parse pol lang = Ok (tree f) -> calculate_msp (tree f) = Ok m ->
  sat (owns attrs) f = true ->
  let x0 := b0 * tk ik in let x1 := b1 * tk (ik + 1)%nat in let x2 := tk ik + tk (ik + 1)%nat in
  let sp := fun c => tk (ik + 1 + c)%nat in
  let ns := map fst (chosen (owns attrs) f) in
  kp_decrypt sk ct = decrypt_symmetric
    (gtmul C (gtpow C (pairing C (g1one C) (g2one C)) (te (ie + 2)%nat))
       (gtpow C (pairing C (amsk_g msk) (amsk_h msk))
          (te ie * kp_rest m attrs sp x0 x1 x2 a0 k0 k2 ns 0%nat +
           te (ie + 1)%nat * kp_rest m attrs sp x0 x1 x2 a1 k1 k2 ns 1%nat)))
    (act_ct (akp_ct ct)).
Proof.
  intros K Hk He P Hm S x0 x1 x2 sp ns.
  destruct (matrix_eq f m Hm) as (B & Mx).
  destruct (kp_keygen_eq L _ _ _ _ _ _ _ _ _ _ _ _ _ _ _ _ K P B Hk)
    as (N0 & N1 & _ & A1 & A2 & _ & Lk & A3). cbv zeta in *. fold x0 x1 x2 in A2, A3. fold sp in A3.
  destruct (kp_encrypt_eq L _ _ _ _ _ _ _ _ _ _ _ _ _ _ _ _ K He)
    as (msg & Emsg & _ & E1 & E2 & E4 & _ & E3). cbv zeta in *.
  rewrite <- Emsg. pose proof (binary_arity2 f B) as A.
  set (g := amsk_g msk) in *. set (h := amsk_h msk) in *.
  set (s0 := te ie) in *. set (s1 := te (ie + 1)%nat) in *.
  pose proof (owns_nonempty attrs f S A) as NE.
  unfold kp_decrypt, ac_open. rewrite E1, A1. cbn [fst snd]. rewrite P. cbn [obind].
  rewrite traverse_tree, S.
  assert (E : (0 <? length attrs)%nat = true) by (destruct attrs; [congruence|reflexivity]).
  rewrite E. cbn [andb]. rewrite calc_pruned_tree by exact A. rewrite S. cbn [obind fst snd].
  set (pr := map leaf_pair (sel (pmask (owns attrs) f) (leaves f))).
  set (kk := fun (r : string * list Z) (s : F) (i : nat) => match i with
    | 0%nat => g1mul C g ((W (fst r) x0 x1 x2 0 + s) * finv C a0 + dot (snd r) (kp_column sp x0 x1 x2 (finv C a0) k0 0))
    | 1%nat => g1mul C g ((W (fst r) x0 x1 x2 1 + s) * finv C a1 + dot (snd r) (kp_column sp x0 x1 x2 (finv C a1) k1 1))
    | _ => g1mul C g (- s + dot (snd r) (kp_column_last sp k2)) end).
  rewrite <- Mx in Lk, A3. set (R := matrix m) in *.
  (* the key as a map over rows and their secrets *)
  assert (X : exists l : list ((string * list Z) * F), map fst l = R /\
    ask_k (akps_sk sk) = map (fun r => (fst (fst r), map (kk (fst r) (snd r)) [0; 1; 2]%nat)) l).
  { exists (combine R (map (fun q => tk (ik + 1 + msp_width f + q)%nat) (seq 0 (length R)))). split.
    - clear. assert (Y : forall (u : nat -> F) b, map fst (combine R (map u (seq b (length R)))) = R).
      { intros u. induction R as [|a l IH]; intros b; cbn; [reflexivity|]. now rewrite IH. }
      apply Y.
    - revert A3 Lk. generalize (ask_k (akps_sk sk)) as ks. clearbody R. clear -kk.
      assert (Y : forall (u : nat -> F) b ks, (forall k a, nth_error R k = Some a -> nth_error ks k = Some (fst a, map (kk a (u (b + k)%nat)) [0; 1; 2]%nat)) ->
        length ks = length R -> ks = map (fun r => (fst (fst r), map (kk (fst r) (snd r)) [0; 1; 2]%nat)) (combine R (map u (seq b (length R))))).
      { intros u. induction R as [|a l IH]; intros b ks H Hl; destruct ks as [|e ks]; try discriminate; [reflexivity|].
        cbn [length seq map combine fst snd]. f_equal.
        - specialize (H 0%nat a eq_refl). cbn in H. injection H as ->. now rewrite Nat.add_0_r.
        - apply IH; [|cbn in Hl; lia]. intros k a' Ha. specialize (H (Datatypes.S k) a' Ha). cbn [nth_error] in H.
          rewrite H. replace (b + Datatypes.S k)%nat with (Datatypes.S b + k)%nat by lia. reflexivity. }
      intros ks H Hl. apply Y; [|exact Hl]. intros k [n row] Ha. cbn [Nat.add]. rewrite (H k n row Ha). reflexivity. }
  destruct X as (ls' & Hls & A3').
  assert (Lc : forall i, (i < 3)%nat -> Forall (fun e => (i < length (snd e))%nat) (act_c (akp_ct ct))).
  { intros i Hi. rewrite E3. apply Forall_forall. intros e Ie. apply in_map_iff in Ie as (r & <- & _). cbn. lia. }
  assert (Lk' : forall i, (i < 3)%nat -> Forall (fun e => (i < length (snd e))%nat) (ask_k (akps_sk sk))).
  { intros i Hi. rewrite A3'. apply Forall_forall. intros e Ie. apply in_map_iff in Ie as (r & <- & _). cbn. lia. }
  destruct (select_sum_log L _ 0 pr (Lc 0%nat ltac:(lia))) as (g0 & G0 & Vg0).
  destruct (select_sum_log L _ 1 pr (Lc 1%nat ltac:(lia))) as (g1 & G1 & Vg1).
  destruct (select_sum_log L _ 2 pr (Lc 2%nat ltac:(lia))) as (g2 & G2 & Vg2).
  destruct (select_sum_log L _ 0 pr (Lk' 0%nat ltac:(lia))) as (h0 & H0 & Vh0).
  destruct (select_sum_log L _ 1 pr (Lk' 1%nat ltac:(lia))) as (h1 & H1 & Vh1).
  destruct (select_sum_log L _ 2 pr (Lk' 2%nat ltac:(lia))) as (h2 & H2 & Vh2).
  unfold ac_products, ls, asz. cbn [seq Nat.add ofold].
  rewrite G0, H0, A2, E2. cbn [obind idx nth_error unwrap].
  rewrite G1, H1. cbn [obind idx nth_error unwrap].
  rewrite G2, H2. cbn [obind idx nth_error unwrap fst snd].
  f_equal. apply (logT_inj L). logs. rewrite E4. logs.
  set (G := log1 L g) in *. set (H := log2 L h) in *.
  set (z := fun t : nat => match t with O => kp_col sp x0 x1 x2 a0 k0 k2 0 | _ => kp_col sp x0 x1 x2 a1 k1 k2 1 end).
  set (cs := fun (t : nat) n => among n (W n x0 x1 x2 t) attrs).
  set (ks := fun (t : nat) n => under n (fun row => W n x0 x1 x2 t + dot row (z t)) R).
  assert (Vc : log1 L g0 * x0 + log1 L g1 * x1 + log1 L g2 * x2 =
    G * fsum (map (fun x => cs 0%nat (fst x) * s0 + cs 1%nat (fst x) * s1) pr)).
  { rewrite Vg0, Vg1, Vg2. clear - L E3. clearbody pr.
    induction pr as [|x l IH]; cbn [map fsum]; [ring|].
    transitivity (G * fsum (map (fun x1 => cs 0%nat (fst x1) * s0 + cs 1%nat (fst x1) * s1) l) +
      (evl L (act_c (akp_ct ct)) 0 (fst x) * x0 + evl L (act_c (akp_ct ct)) 1 (fst x) * x1 +
       evl L (act_c (akp_ct ct)) 2 (fst x) * x2)); [rewrite <- IH; ring|].
    assert (Q : evl L (act_c (akp_ct ct)) 0 (fst x) * x0 + evl L (act_c (akp_ct ct)) 1 (fst x) * x1 +
       evl L (act_c (akp_ct ct)) 2 (fst x) * x2 = G * (cs 0%nat (fst x) * s0 + cs 1%nat (fst x) * s1)).
    2:{ rewrite Q. ring. }
    rewrite E3.
    rewrite !(evl_map (fun a => a) (fun a l => g1mul C g (hv (lab a l 0) * s0 + hv (lab a l 1) * s1))) by lia.
    unfold cs. clear - L.
    induction attrs as [|n R IH]; cbn [map fsum among]; [ring|].
    destruct (seqb n (fst x)) eqn:En.
    - apply seqb_eq in En. subst n.
      match type of IH with ?a * x0 + ?b * x1 + ?c * x2 = _ =>
        match goal with |- (?a' + _) * _ + (?b' + _) * _ + (?c' + _) * _ = _ =>
        transitivity (a' * x0 + b' * x1 + c' * x2 + (a * x0 + b * x1 + c * x2)); [ring|] end end.
      rewrite IH. logs. fold G. unfold W. ring.
    - match type of IH with ?a = _ => transitivity (0 + a); [ring|] end. rewrite IH. ring. }
  assert (Vk : log1 L h0 * a0 * s0 + log1 L h1 * a1 * s1 + log1 L h2 * (s0 + s1) =
    G * fsum (map (fun x => ks 0%nat (fst x) * s0 + ks 1%nat (fst x) * s1) pr)).
  { rewrite Vh0, Vh1, Vh2. clear - L A3' Hls N0 N1. clearbody pr.
    induction pr as [|x l IH]; cbn [map fsum]; [ring|].
    transitivity (G * fsum (map (fun x1 => ks 0%nat (fst x1) * s0 + ks 1%nat (fst x1) * s1) l) +
      (evl L (ask_k (akps_sk sk)) 0 (fst x) * a0 * s0 + evl L (ask_k (akps_sk sk)) 1 (fst x) * a1 * s1 +
       evl L (ask_k (akps_sk sk)) 2 (fst x) * (s0 + s1))); [rewrite <- IH; ring|].
    assert (Q : evl L (ask_k (akps_sk sk)) 0 (fst x) * a0 * s0 + evl L (ask_k (akps_sk sk)) 1 (fst x) * a1 * s1 +
       evl L (ask_k (akps_sk sk)) 2 (fst x) * (s0 + s1) = G * (ks 0%nat (fst x) * s0 + ks 1%nat (fst x) * s1)).
    2:{ rewrite Q. ring. }
    rewrite A3'. rewrite !(evl_map (fun r => fst (fst r)) (fun r => kk (fst r) (snd r))) by lia.
    unfold ks. rewrite <- Hls. clear - L N0 N1.
    induction ls' as [|[[n row] s] R' IH]; cbn [map fsum under fst snd]; [ring|].
    destruct (seqb n (fst x)) eqn:En.
    - apply seqb_eq in En. subst n.
      match type of IH with ?a * a0 * s0 + ?b * a1 * s1 + ?c * (s0 + s1) = _ =>
        transitivity (log1 L (kk (fst x, row) s 0%nat) * a0 * s0 + log1 L (kk (fst x, row) s 1%nat) * a1 * s1 +
          log1 L (kk (fst x, row) s 2%nat) * (s0 + s1) + (a * a0 * s0 + b * a1 * s1 + c * (s0 + s1))); [ring|] end.
      rewrite IH. unfold kk. logs. cbn [fst snd]. fold G.
      assert (D : forall t a k, a <> 0 -> dot row (kp_col sp x0 x1 x2 a k k2 t) =
         a * dot row (kp_column sp x0 x1 x2 (finv C a) k t) + dot row (kp_column_last sp k2)).
      { intros t a k Na. rewrite <- (dot_scale L), <- dot_add. apply dot_ext. intros c _.
        destruct c as [|c]; [cbn [kp_col kp_column kp_column_last]; ring|].
        cbn [kp_col kp_column kp_column_last].
        rewrite (fsum_map_ext (fun q => W (col q) x0 x1 x2 t - a * sp q)
           (fun q => a * (W (col q) x0 x1 x2 t * finv C a - sp q))) by (intros; field; exact Na).
        rewrite (fsum_scale L). ring. }
      unfold z. rewrite !D by assumption. field. auto.
    - match type of IH with ?a = _ => transitivity (0 + a); [ring|] end. rewrite IH. ring. }
  unfold kp_rest. fold R.
  assert (Ec : ns = map fst pr).
  { unfold ns, pr. rewrite chosen_sel by exact S. rewrite map_map. reflexivity. }
  rewrite Ec.
  assert (Er : forall t, fsum (map (fun n => among n (W n x0 x1 x2 t) attrs -
      under n (fun row => W n x0 x1 x2 t + dot row (z t)) R) (map fst pr)) =
      fsum (map (fun x => cs t (fst x)) pr) - fsum (map (fun x => ks t (fst x)) pr)).
  { intros t. clear - L. clearbody pr. induction pr as [|x l IH]; cbn [map fsum]; [ring|]. rewrite IH. unfold cs, ks. ring. }
  pose proof (Er 0%nat) as Er0. pose proof (Er 1%nat) as Er1. cbn [z] in Er0, Er1. rewrite Er0, Er1.
  assert (Sp : forall u v : string * string -> F, fsum (map (fun x => u x * s0 + v x * s1) pr) = fsum (map u pr) * s0 + fsum (map v pr) * s1).
  { intros u v. clear - L. clearbody pr. induction pr as [|x l IH]; cbn [map fsum]; [ring|]. rewrite IH. ring. }
  rewrite (Sp (fun x => cs 0%nat (fst x)) (fun x => cs 1%nat (fst x))) in Vc.
  rewrite (Sp (fun x => ks 0%nat (fst x)) (fun x => ks 1%nat (fst x))) in Vk.
  fold G H.
  transitivity (logT L msg + G * H * ((k0 * a0 + k2) * s0 + (k1 * a1 + k2) * s1)
     + H * (log1 L g0 * x0 + log1 L g1 * x1 + log1 L g2 * x2)
     - H * (log1 L h0 * a0 * s0 + log1 L h1 * a1 * s1 + log1 L h2 * (s0 + s1))).
  - ring.
  - rewrite Vc, Vk. ring.
Qed.

(** ** Distinct names: only repeated attributes are left *)

Lemma under_distinct {A} (v : A -> F) (l : list (string * A)) r :
  NoDup (map fst l) -> In r l -> under (fst r) v l = v (snd r).
Proof.
  assert (X : forall n l, ~ In n (map fst l) -> under n v l = 0).
  { clear - L. intros n. induction l as [|[m a] l IH]; cbn [map fst under]; intros H; [reflexivity|].
    destruct (seqb m n) eqn:E.
    - apply seqb_eq in E. exfalso. apply H. now left.
    - rewrite IH; [ring|]. intros I. apply H. now right. }
  induction l as [|[m a] l IH]; cbn [map fst under]; intros ND I; [contradiction|].
  inversion ND as [|? ? Nin ND']; subst. destruct I as [<-|I]; cbn [fst snd].
  - rewrite seqb_refl, X by exact Nin. ring.
  - destruct (seqb m (fst r)) eqn:E.
    + apply seqb_eq in E. exfalso. apply Nin. rewrite E. now apply in_map.
    + rewrite IH; auto. ring.
Qed.

Lemma under_sum own f m (u : string -> F) (z : nat -> F) :
  calculate_msp (tree f) = Ok m -> NoDup (names f) -> sat own f = true ->
  fsum (map (fun n => under n (fun row => u n + dot row z) (matrix m)) (map fst (chosen own f))) =
  fsum (map u (map fst (chosen own f))) + z 0%nat.
Proof.
  intros Hm ND S. destruct (matrix_eq f m Hm) as (B & ->). rewrite <- (chosen_sel own f S).
  rewrite <- (msp_complete_f L own z f B S).
  assert (Y : forall v : string -> F, fsum (map v (map fst (sel (pmask own f) (leaves f)))) =
    fsum (map (fun x => v (fst x)) (map leaf_pair (sel (pmask own f) (leaves f))))).
  { intros v. rewrite !map_map. reflexivity. }
  rewrite !Y.
  rewrite (select_rows own f (fun n => under n (fun row => u n + dot row z) (sort_rows (rev (msp_rows f))))
     (fun r => u (fst r) + dot (snd r) z) B).
  2:{ intros r Ir. apply (under_distinct (fun row => u (fst r) + dot row z) (sort_rows (rev (msp_rows f))) r).
      - now apply names_sorted.
      - now apply sorted_In. }
  rewrite (select_rows own f u (fun r => u (fst r)) B) by reflexivity.
  apply (fsum_add L).
Qed.

Theorem cp_rest_distinct m attrs (x0 x1 x2 : F) f t :
  calculate_msp (tree f) = Ok m -> NoDup (names f) -> sat (owns attrs) f = true ->
  cp_rest m attrs x0 x1 x2 (map fst (chosen (owns attrs) f)) t =
  fsum (map (fun n => W n x0 x1 x2 t - among n (W n x0 x1 x2 t) attrs) (map fst (chosen (owns attrs) f))).
Proof.
  intros Hm ND S. unfold cp_rest.
  pose proof (under_sum (owns attrs) f m (fun n => W n x0 x1 x2 t) (fun c => W (col (c + 1)) x0 x1 x2 t) Hm ND S) as U.
  cbv beta in U. change (col (0 + 1)) with "01"%string in U.
  assert (Y : forall (u v : string -> F) l, fsum (map (fun n => u n - v n) l) = fsum (map u l) - fsum (map v l)).
  { clear - L. intros u v. induction l as [|x l IH]; cbn [map fsum]; [ring|]. rewrite IH. ring. }
  rewrite !Y, U. ring.
Qed.

Theorem kp_rest_distinct m attrs sp (x0 x1 x2 a k k2 : F) f t :
  calculate_msp (tree f) = Ok m -> NoDup (names f) -> sat (owns attrs) f = true ->
  kp_rest m attrs sp x0 x1 x2 a k k2 (map fst (chosen (owns attrs) f)) t =
  fsum (map (fun n => among n (W n x0 x1 x2 t) attrs - W n x0 x1 x2 t) (map fst (chosen (owns attrs) f))).
Proof.
  intros Hm ND S. unfold kp_rest.
  pose proof (under_sum (owns attrs) f m (fun n => W n x0 x1 x2 t) (kp_col sp x0 x1 x2 a k k2 t) Hm ND S) as U.
  cbn [kp_col] in U.
  assert (Y : forall (u v : string -> F) l, fsum (map (fun n => u n - v n) l) = fsum (map u l) - fsum (map v l)).
  { clear - L. intros u v. induction l as [|x l IH]; cbn [map fsum]; [ring|]. rewrite IH. ring. }
  rewrite !Y, U. ring.
Qed.

(** A key with an attribute twice. *)
Theorem cp_attribute_twice nonce (pk : ac_pk C) msk a0 a1 b0 b1 k0 k1 k2 n p sk pol lang data ct
  tk ik jk te ie je :
  ac_keys pk msk a0 a1 b0 b1 k0 k1 k2 ->
  cp_keygen msk [n; n] tk ik = Ok (sk, jk) ->
  cp_encrypt nonce pk pol data lang te ie = Ok (ct, je) ->
  parse pol lang = Ok (tree (FLeaf n p)) ->
  let w := W n (b0 * tk ik) (b1 * tk (ik + 1)%nat) (tk ik + tk (ik + 1)%nat) in
  cp_decrypt sk ct = decrypt_symmetric
    (gtmul C (gtpow C (pairing C (g1one C) (g2one C)) (te (ie + 2)%nat))
       (gtpow C (pairing C (amsk_g msk) (amsk_h msk)) (- (te ie * w 0%nat + te (ie + 1)%nat * w 1%nat))))
    (act_ct (acp_ct ct)).
Proof.
  intros K Hk He P w.
  assert (S : sat (owns [n; n]) (FLeaf n p) = true) by (unfold owns; cbn; now rewrite seqb_refl).
  assert (ND : NoDup (names (FLeaf n p))) by (repeat constructor; intros []).
  pose proof (calculate_msp_eq (FLeaf n p) eq_refl) as Hm.
  rewrite (cp_decrypt_all _ _ _ _ _ _ _ _ _ _ _ _ _ _ _ _ _ _ _ _ _ _ _ _ K Hk He P Hm S).
  rewrite !(cp_rest_distinct _ _ _ _ _ _ _ Hm ND S). cbn [chosen map fst fsum among].
  rewrite seqb_refl. fold (w 0%nat) (w 1%nat). do 3 f_equal. ring.
Qed.

Theorem kp_attribute_twice nonce (pk : ac_pk C) msk a0 a1 b0 b1 k0 k1 k2 n p sk pol lang data ct
  tk ik jk te ie je :
  ac_keys pk msk a0 a1 b0 b1 k0 k1 k2 ->
  kp_keygen msk pol lang tk ik = Ok (sk, jk) ->
  kp_encrypt nonce pk [n; n] data te ie = Ok (ct, je) ->
  parse pol lang = Ok (tree (FLeaf n p)) ->
  let w := W n (b0 * tk ik) (b1 * tk (ik + 1)%nat) (tk ik + tk (ik + 1)%nat) in
  kp_decrypt sk ct = decrypt_symmetric
    (gtmul C (gtpow C (pairing C (g1one C) (g2one C)) (te (ie + 2)%nat))
       (gtpow C (pairing C (amsk_g msk) (amsk_h msk)) (te ie * w 0%nat + te (ie + 1)%nat * w 1%nat)))
    (act_ct (akp_ct ct)).
Proof.
  intros K Hk He P w.
  assert (S : sat (owns [n; n]) (FLeaf n p) = true) by (unfold owns; cbn; now rewrite seqb_refl).
  assert (ND : NoDup (names (FLeaf n p))) by (repeat constructor; intros []).
  pose proof (calculate_msp_eq (FLeaf n p) eq_refl) as Hm.
  rewrite (kp_decrypt_all _ _ _ _ _ _ _ _ _ _ _ _ _ _ _ _ _ _ _ _ _ _ _ _ K Hk He P Hm S).
  rewrite !(kp_rest_distinct _ _ _ _ _ _ _ _ _ _ _ Hm ND S). cbn [chosen map fst fsum among].
  rewrite seqb_refl. fold (w 0%nat) (w 1%nat). do 3 f_equal. ring.
Qed.
End AcExact.
