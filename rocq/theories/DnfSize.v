(** * DnfSize: what a BDABE or MKE08 ciphertext lists, in which order, and how much *)
From Coq Require Import String List Bool Arith Lia Permutation Sorted.
From Verif Require Import Base Crypto Policy Tools Spec PolicyProofs Parse ParseProofs Symmetric SchemeLib CoreProofs
  Dnf DnfProofs Bdabe BdabeProofs Mke08 Mke08Proofs DnfExact Borsh EquationProofs Lengths LengthsProofs.
Import ListNotations.

(** ** Specification *)

(** First the lists with one entry, then those with two and so on, each kind in the given order. *)
Definition by_length {A} (bs : list (list A)) : list (list A) :=
  flat_map (fun k => filter (fun b => length b =? k) bs) (seq 1 (list_sum (map (@length A) bs))).

(** Of a list, the first [m] entries alone and the rest together. *)
Fixpoint parts {A} (m : nat) (c : list A) {struct c} : list (list A) :=
  match c with
  | [] => []
  | x :: r => match m with O => [c] | S m' => [x] :: parts m' r end
  end.

(** The alternatives of a disjunction: [k] of them came before and gave [n] parts. *)
Fixpoint parts_from {A} (k n : nat) (cs : list (list A)) : list (list A) :=
  match cs with
  | [] => []
  | c :: r => let g := parts (k + k - n) c in g ++ parts_from (S k) (n + length g) r
  end.

(** The keys for the names [ns], among [ks]. *)
Definition keys_for {K} (attr : K -> string) (ks : list K) (ns : list string) : list K :=
  flat_map (fun n => filter (fun k => seqb (attr k) n) ks) ns.

(** The keys that go into one part of a ciphertext for [f] each. *)
Definition key_blocks {K} (attr : K -> string) (ks : list K) (f : formula) : list (list K) :=
  match f with
  | FOr l => parts_from 0 0 (map (fun c => keys_for attr ks (names c)) l)
  | _ => parts 0 (keys_for attr ks (names f))
  end.

(** Products and sums. *)
Definition prodT (C : crypto) (l : list (GT C)) : GT C := fold_right (gtmul C) (gtone C) l.
Definition sum1 (C : crypto) (l : list (G1 C)) : G1 C := fold_right (g1add C) (g1zero C) l.
Definition sum2 (C : crypto) (l : list (G2 C)) : G2 C := fold_right (g2add C) (g2zero C) l.

(** The number of alternatives of a policy. *)
Definition alternatives (f : formula) : nat := match f with FOr l => length l | _ => 1 end.

(** ** The stable sort *)

Section Sort.
Context {A : Type}.
Implicit Types l : list (list A).

Definition le_len (a b : list A) : Prop := length a <= length b.

Fixpoint ins (x : list A) l : list (list A) :=
  match l with
  | [] => [x]
  | y :: r => if length x <=? length y then x :: l else y :: ins x r
  end.
Definition isort l : list (list A) := fold_right ins [] l.

Lemma filter_ins k x l : filter (fun b => length b =? k) (ins x l) = filter (fun b => length b =? k) (x :: l).
Proof.
  induction l as [|y r IH]; [reflexivity|]. cbn [ins]. destruct (Nat.leb_spec (length x) (length y)) as [H|H]; [reflexivity|].
  cbn [filter] in *. rewrite IH.
  destruct (Nat.eqb_spec (length x) k), (Nat.eqb_spec (length y) k); try reflexivity. lia.
Qed.

Lemma filter_isort k l : filter (fun b => length b =? k) (isort l) = filter (fun b => length b =? k) l.
Proof.
  induction l as [|x l IH]; [reflexivity|]. cbn [isort fold_right]. rewrite filter_ins.
  cbn [filter]. unfold isort in IH. now rewrite IH.
Qed.

Lemma ins_perm x l : Permutation (x :: l) (ins x l).
Proof.
  induction l as [|y r IH]; cbn [ins]; [reflexivity|]. destruct (_ <=? _); [reflexivity|].
  rewrite perm_swap. now constructor.
Qed.

Lemma isort_perm l : Permutation l (isort l).
Proof. induction l as [|x l IH]; cbn; [reflexivity|]. rewrite <- ins_perm. now constructor. Qed.

Lemma ins_sorted x l : StronglySorted le_len l -> StronglySorted le_len (ins x l).
Proof.
  induction 1 as [|y r S IH Fy]; cbn [ins]; [repeat constructor|].
  destruct (Nat.leb_spec (length x) (length y)) as [H|H].
  - constructor; [now constructor|]. constructor; [exact H|]. eapply Forall_impl; [|exact Fy].
    intros z Hz. unfold le_len in *. lia.
  - constructor; [exact IH|]. eapply Permutation_Forall; [apply ins_perm|]. constructor; [unfold le_len; lia|exact Fy].
Qed.

Lemma isort_sorted l : StronglySorted le_len (isort l).
Proof. induction l as [|x l IH]; cbn; [constructor|]. now apply ins_sorted. Qed.

Lemma filter_none (p : list A -> bool) l : Forall (fun b => p b = false) l -> filter p l = [].
Proof. induction 1 as [|x l H _ IH]; cbn; [reflexivity|]. now rewrite H. Qed.

(** A sorted list is its parts of each length. *)
Lemma sorted_parts l : StronglySorted le_len l -> forall n a, Forall (fun b => a <= length b < a + n) l ->
  l = flat_map (fun k => filter (fun b => length b =? k) l) (seq a n).
Proof.
  induction 1 as [|x l Sl IH Fx]; intros n a B.
  - induction (seq a n); cbn; auto.
  - apply Forall_inv in B as Bx. apply Forall_inv_tail in B.
    assert (Low : forall m c, c + m <= length x -> flat_map (fun k => filter (fun b => length b =? k) (x :: l)) (seq c m) = []).
    { induction m as [|m IHm]; intros c H; cbn [seq flat_map]; [reflexivity|]. rewrite IHm by lia.
      rewrite app_nil_r. apply filter_none. constructor; [apply Nat.eqb_neq; lia|].
      eapply Forall_impl; [|exact Fx]. unfold le_len. intros z Hz. apply Nat.eqb_neq. lia. }
    destruct Bx as (B1 & B2).
    replace n with ((length x - a) + (a + n - length x)) by lia.
    rewrite seq_app, flat_map_app, Low by lia. cbn [app].
    replace (a + (length x - a)) with (length x) by lia.
    destruct (a + n - length x) as [|m] eqn:Em; [lia|].
    cbn [seq flat_map filter]. rewrite Nat.eqb_refl. cbn [app]. f_equal.
    assert (B' : Forall (fun b => length x <= length b < length x + S m) l).
    { rewrite Forall_forall in *. intros z Iz. specialize (B z Iz). specialize (Fx z Iz). unfold le_len in Fx. lia. }
    rewrite (IH (S m) (length x) B') at 1. cbn [seq flat_map]. f_equal.
    rewrite !flat_map_concat_map. f_equal. apply map_ext_in. intros k I. apply in_seq in I.
    destruct (Nat.eqb_spec (length x) k); [lia|reflexivity].
Qed.

Lemma length_sum b l : In b l -> length b <= list_sum (map (@length A) l).
Proof. unfold list_sum. induction l as [|x l IH]; cbn; [tauto|]. intros [->|I]; [lia|]. specialize (IH I). lia. Qed.

Lemma isort_by_length l : Forall (fun b => b <> []) l -> isort l = by_length l.
Proof.
  intros N. unfold by_length. rewrite (sorted_parts (isort l) (isort_sorted l) (list_sum (map (@length A) l)) 1).
  - rewrite !flat_map_concat_map. f_equal. apply map_ext. intros k. apply filter_isort.
  - eapply Permutation_Forall; [apply isort_perm|]. rewrite Forall_forall in *. intros b I.
    pose proof (length_sum b l I). specialize (N b I). destruct b; [congruence|]. cbn [length] in *. lia.
Qed.

Lemma by_length_perm l : Forall (fun b => b <> []) l -> Permutation l (by_length l).
Proof. intros N. rewrite <- isort_by_length by exact N. apply isort_perm. Qed.
End Sort.

(** ** The blocks *)

Section Blocks.
Context {A : Type}.

Lemma parts_concat (c : list A) : forall m, concat (parts m c) = c.
Proof.
  induction c as [|x c IH]; intros [|m]; cbn [parts concat]; [reflexivity..| |].
  - now rewrite app_nil_r.
  - now rewrite IH.
Qed.
Lemma parts_nonempty (c : list A) : forall m, Forall (fun b => b <> []) (parts m c).
Proof. induction c as [|x c IH]; intros [|m]; cbn [parts]; repeat constructor; try discriminate. apply IH. Qed.
Lemma parts_length (c : list A) : forall m, length (parts m c) <= S m.
Proof. induction c as [|x c IH]; intros [|m]; cbn; try lia. specialize (IH m). lia. Qed.

Lemma parts_from_concat (cs : list (list A)) : forall k n, concat (parts_from k n cs) = concat cs.
Proof.
  induction cs as [|c cs IH]; intros k n; cbn [parts_from concat]; [reflexivity|]. cbv zeta.
  now rewrite concat_app, IH, parts_concat.
Qed.
Lemma parts_from_nonempty (cs : list (list A)) : forall k n, Forall (fun b => b <> []) (parts_from k n cs).
Proof.
  induction cs as [|c cs IH]; intros k n; cbn [parts_from]; [constructor|]. cbv zeta.
  apply Forall_app. split; [apply parts_nonempty|apply IH].
Qed.
Lemma parts_from_length (cs : list (list A)) : forall k n, n < k + k \/ n = 0 -> cs <> [] ->
  n + length (parts_from k n cs) <= 2 * (k + length cs) - 1.
Proof.
  induction cs as [|c cs IH]; intros k n H N; [congruence|]. cbn [parts_from]. cbv zeta. rewrite app_length.
  pose proof (parts_length c (k + k - n)) as P. destruct cs as [|d cs].
  - cbn [parts_from length]. lia.
  - specialize (IH (S k) (n + length (parts (k + k - n) c))). cbn [length] in *.
    assert (n + length (parts (k + k - n) c) < S k + S k) by lia.
    specialize (IH (or_introl H0) ltac:(discriminate)). lia.
Qed.

Lemma concat_length_nonempty (l : list (list A)) : Forall (fun b => b <> []) l -> length l <= length (concat l).
Proof.
  induction 1 as [|b l H _ IH]; cbn; [lia|]. rewrite app_length. destruct b; [congruence|]. cbn. lia.
Qed.
End Blocks.

Section Keys.
Context {K : Type} (attr : K -> string) (ks : list K).

Lemma keys_for_app a b : keys_for attr ks (a ++ b) = keys_for attr ks a ++ keys_for attr ks b.
Proof. apply flat_map_app. Qed.

(** Every leaf is in the blocks once for each key of its attribute. *)
Lemma key_blocks_concat f : concat (key_blocks attr ks f) = keys_for attr ks (names f).
Proof.
  destruct f as [n p|l|l]; cbn [key_blocks]; rewrite ?parts_concat, ?parts_from_concat; [reflexivity..|].
  unfold names. cbn [leaves]. induction l as [|x l IH]; cbn [map concat flat_map]; [reflexivity|].
  rewrite map_app, keys_for_app. now rewrite <- IH.
Qed.
Lemma key_blocks_nonempty f : Forall (fun b => b <> []) (key_blocks attr ks f).
Proof. destruct f; cbn [key_blocks]; [apply parts_nonempty..|apply parts_from_nonempty]. Qed.
Lemma key_blocks_length f : length (key_blocks attr ks f) <= 2 * alternatives f - 1.
Proof.
  destruct f as [n p|l|l]; cbn [key_blocks alternatives].
  - apply (parts_length _ 0).
  - apply (parts_length _ 0).
  - destruct l as [|x l]; [cbn; lia|].
    pose proof (parts_from_length (map (fun c => keys_for attr ks (names c)) (x :: l)) 0 0 (or_intror eq_refl) ltac:(discriminate)) as H.
    rewrite map_length in H. cbn [Nat.add] in H. exact H.
Qed.
Lemma key_blocks_keys f : length (key_blocks attr ks f) <= length (keys_for attr ks (names f)).
Proof. rewrite <- key_blocks_concat. apply concat_length_nonempty, key_blocks_nonempty. Qed.

(** The same through a change of the keys. *)
Context {J : Type} (h : K -> J) (attr' : J -> string).
Hypothesis Hh : forall k, attr' (h k) = attr k.

Lemma keys_for_map ns : keys_for attr' (map h ks) ns = map h (keys_for attr ks ns).
Proof.
  unfold keys_for. induction ns as [|n ns IH]; cbn [flat_map map]; [reflexivity|]. rewrite map_app, IH. f_equal. clear IH.
  induction ks as [|k l IH]; cbn; [reflexivity|]. rewrite Hh. destruct (seqb (attr k) n); cbn; now rewrite IH.
Qed.
Lemma parts_map c : forall m, parts m (map h c) = map (map h) (parts m c).
Proof. induction c as [|x c IH]; intros [|m]; cbn; [reflexivity..|]. now rewrite IH. Qed.
Lemma parts_from_map cs : forall k n, parts_from k n (map (map h) cs) = map (map h) (parts_from k n cs).
Proof.
  induction cs as [|c cs IH]; intros k n; cbn [parts_from map]; [reflexivity|]. cbv zeta.
  now rewrite map_app, IH, parts_map, map_length.
Qed.
Lemma key_blocks_map f : key_blocks attr' (map h ks) f = map (map h) (key_blocks attr ks f).
Proof.
  destruct f as [n p|l|l]; cbn [key_blocks]; rewrite ?keys_for_map, ?parts_map; [reflexivity..|].
  rewrite <- parts_from_map. f_equal. rewrite map_map. apply map_ext. intros c. apply keys_for_map.
Qed.
End Keys.

Lemma by_length_map {A B} (h : A -> B) l : by_length (map (map h) l) = map (map h) (by_length l).
Proof.
  unfold by_length. rewrite map_map.
  replace (map (fun x => length (map h x)) l) with (map (@length A) l) by (apply map_ext; intros; now rewrite map_length).
  generalize (seq 1 (list_sum (map (@length A) l))). induction l0 as [|k s IH]; cbn [flat_map map]; [reflexivity|].
  rewrite map_app, IH. f_equal. clear. induction l as [|b l IH]; cbn [filter map]; [reflexivity|].
  rewrite map_length. destruct (_ =? _); cbn [map]; now rewrite IH.
Qed.

(** The blocks of DnfExact.v are the names of these. *)
Lemma key_blocks_blocks ks f : key_blocks (fun n : string => n) ks f = blocks ks f.
Proof.
  assert (P : forall c m, parts m c = pieces m c) by (induction c as [|x c IH]; intros [|m]; cbn; [reflexivity..|]; now rewrite IH).
  assert (Q : forall cs k n, parts_from k n cs = cut k n cs)
    by (induction cs as [|c cs IH]; intros k n; cbn [parts_from cut]; [reflexivity|]; cbv zeta; now rewrite IH, P).
  destruct f; cbn [key_blocks blocks]; rewrite ?P, ?Q; reflexivity.
Qed.

(** ** The conversion *)

Section Conversion.
Context {C : crypto}.

Lemma groups_key_blocks (pks : list (pak C)) f : groups pks f = key_blocks (@pak_attr C) pks f.
Proof.
  assert (P : forall c m, split m c = @parts (pak C) m c) by (induction c as [|x c IH]; intros [|m]; cbn; [reflexivity..|]; now rewrite IH).
  assert (Q : forall cs k n, splits k n cs = @parts_from (pak C) k n cs)
    by (induction cs as [|c cs IH]; intros k n; cbn [splits parts_from]; [reflexivity|]; cbv zeta; now rewrite IH, P).
  destruct f; cbn [groups key_blocks]; rewrite ?P, ?Q; reflexivity.
Qed.

Lemma sort_terms_isort (l : list (list (pak C))) : sort_terms (map mk_term l) = map mk_term (isort l).
Proof.
  unfold sort_terms, isort. induction l as [|x l IH]; cbn [fold_right map]; [reflexivity|]. rewrite IH.
  generalize (fold_right ins [] l). clear. intros l. induction l as [|y r IH]; cbn [insert_term map ins]; [reflexivity|].
  rewrite !mk_term_attrs, !map_length. destruct (_ <=? _); cbn [map]; [reflexivity|]. now rewrite IH.
Qed.

Lemma json_to_dnf_terms (pks : list (pak C)) f T : json_to_dnf (tree f) pks = Ok T ->
  T = map mk_term (by_length (key_blocks (@pak_attr C) pks f)).
Proof.
  intros H. destruct (flat f) eqn:Ef; [|now rewrite json_to_dnf_nested in H].
  unfold json_to_dnf in H. rewrite dnf_tree in H by exact Ef. cbn [fst snd] in H. injection H as <-.
  rewrite sort_terms_isort, isort_by_length, groups_key_blocks; [reflexivity|].
  rewrite groups_key_blocks. apply key_blocks_nonempty.
Qed.

Section WithLaws.
Hypothesis L : laws C.
Add Field dnf_size_field : (f_theory L).

Lemma gt_assoc (a b c : GT C) : gtmul C a (gtmul C b c) = gtmul C (gtmul C a b) c.
Proof. apply (logT_inj L). rewrite !(logT_mul L). ring. Qed.
Lemma g1_assoc (a b c : G1 C) : g1add C a (g1add C b c) = g1add C (g1add C a b) c.
Proof. apply (log1_inj L). rewrite !(log1_add L). ring. Qed.
Lemma g2_assoc (a b c : G2 C) : g2add C a (g2add C b c) = g2add C (g2add C a b) c.
Proof. apply (log2_inj L). rewrite !(log2_add L). ring. Qed.
Lemma gt_one_r (a : GT C) : gtmul C a (gtone C) = a.
Proof. apply (logT_inj L). rewrite (logT_mul L), (logT_one L). ring. Qed.
Lemma g1_zero_r (a : G1 C) : g1add C a (g1zero C) = a.
Proof. apply (log1_inj L). rewrite (log1_add L), (log1_zero L). ring. Qed.
Lemma g2_zero_r (a : G2 C) : g2add C a (g2zero C) = a.
Proof. apply (log2_inj L). rewrite (log2_add L), (log2_zero L). ring. Qed.

Lemma merge_all (r : list (pak C)) : forall t, fold_left merge_term r t =
  Term (tm_attrs t ++ map pak_attr r) (gtmul C (tm_gt1 t) (prodT C (map pak_gt1 r)))
    (gtmul C (tm_gt2 t) (prodT C (map pak_gt2 r))) (g1add C (tm_g1 t) (sum1 C (map pak_g1 r)))
    (g2add C (tm_g2 t) (sum2 C (map pak_g2 r))).
Proof.
  induction r as [|p r IH]; intros t; cbn [fold_left].
  - cbn [map prodT sum1 sum2 fold_right]. rewrite !gt_one_r, g1_zero_r, g2_zero_r, app_nil_r. now destruct t.
  - rewrite IH. cbn [merge_term tm_attrs tm_gt1 tm_gt2 tm_g1 tm_g2 map prodT sum1 sum2 fold_right].
    rewrite <- app_assoc, !gt_assoc, g1_assoc, g2_assoc. reflexivity.
Qed.

Lemma mk_term_products (b : list (pak C)) : mk_term b =
  Term (map pak_attr b) (prodT C (map pak_gt1 b)) (prodT C (map pak_gt2 b)) (sum1 C (map pak_g1 b)) (sum2 C (map pak_g2 b)).
Proof. destruct b as [|p r]; [reflexivity|]. cbn [mk_term]. rewrite merge_all. reflexivity. Qed.
End WithLaws.
End Conversion.

(** ** Ciphertexts *)

Section Ciphertexts.
Context {C : crypto}.

Lemma bd_terms apks f T : json_to_dnf (C := C) (tree f) (map bd_pak apks) = Ok T ->
  T = map (fun b => mk_term (map bd_pak b)) (by_length (key_blocks bapk_attr apks f)).
Proof.
  intros H. apply json_to_dnf_terms in H. rewrite (key_blocks_map bapk_attr apks bd_pak) in H by reflexivity.
  now rewrite by_length_map, map_map in H.
Qed.
Lemma mk_terms apks f T : json_to_dnf (C := C) (tree f) (map mk_pak apks) = Ok T ->
  T = map (fun b => mk_term (map mk_pak b)) (by_length (key_blocks mapk_attr apks f)).
Proof.
  intros H. apply json_to_dnf_terms in H. rewrite (key_blocks_map mapk_attr apks mk_pak) in H by reflexivity.
  now rewrite by_length_map, map_map in H.
Qed.

Theorem bd_parts (L : laws C) nonce (pk : bd_pk C) apks pol lang data t i ct j f :
  parse pol lang = Ok (tree f) -> bd_encrypt nonce pk apks pol lang data t i = Ok (ct, j) ->
  let m := pairing C (g1mul C (g1one C) (t i)) (g2mul C (g2one C) (t (i + 1))) in
  let bs := by_length (key_blocks bapk_attr apks f) in
  bct_policy ct = (pol, lang) /\ encrypt_symmetric nonce m data = Ok (bct_data ct) /\
  j = i + 2 + length bs /\ length (bct_j ct) = length bs /\
  forall k b, nth_error bs k = Some b ->
  let r := t (i + 2 + k) in
  nth_error (bct_j ct) k = Some
    {| bt_attr := map bapk_attr b;
       bt_e1 := gtmul C (gtpow C (prodT C (map bapk_a3 b)) r) m;
       bt_e2 := g1mul C (bpk_p1 pk) r;
       bt_e3 := g2mul C (bpk_p2 pk) r;
       bt_e4 := g1mul C (sum1 C (map bapk_a1 b)) r;
       bt_e5 := g2mul C (sum2 C (map bapk_a2 b)) r |}.
Proof.
  intros P H m bs. apply bd_encrypt_eq in H as (v & T & m' & P' & _ & ET & -> & -> & Ep & Es & Le & H).
  rewrite P in P'. injection P' as <-. apply bd_terms in ET. fold bs in ET. subst T. rewrite map_length in *.
  repeat apply conj; auto. intros k b E r.
  rewrite (H k (mk_term (map bd_pak b))) by (rewrite nth_error_map, E; reflexivity).
  rewrite (mk_term_products L), !map_map. reflexivity.
Qed.

Theorem mk_parts (L : laws C) nonce (pk : mk_pk C) apks pol lang data t i ct j f :
  parse pol lang = Ok (tree f) -> mk_encrypt nonce pk apks pol lang data t i = Ok (ct, j) ->
  let m1 := pairing C (g1mul C (g1one C) (t i)) (g2mul C (g2one C) (t (i + 1))) in
  let m2 := gtpow C m1 (t (i + 2)) in
  let bs := by_length (key_blocks mapk_attr apks f) in
  mct_policy ct = (pol, lang) /\ encrypt_symmetric nonce (gtmul C m1 m2) data = Ok (mct_data ct) /\
  j = i + 3 + length bs /\ length (mct_e ct) = length bs /\
  forall k b, nth_error bs k = Some b ->
  let r := t (i + 3 + k) in
  nth_error (mct_e ct) k = Some
    {| mj_str := map mapk_attr b;
       mj_1 := gtmul C (gtpow C (prodT C (map mapk_gt1 b)) r) m1;
       mj_2 := gtmul C (gtpow C (prodT C (map mapk_gt2 b)) r) m2;
       mj_3 := g1mul C (mpk_p1 pk) r;
       mj_4 := g2mul C (mpk_p2 pk) r;
       mj_5 := g1mul C (sum1 C (map mapk_g1 b)) r;
       mj_6 := g2mul C (sum2 C (map mapk_g2 b)) r |}.
Proof.
  intros P H m1 m2 bs. apply mk_encrypt_eq in H as (v & T & m1' & m2' & P' & _ & ET & -> & -> & -> & Ep & Es & Le & H).
  rewrite P in P'. injection P' as <-. apply mk_terms in ET. fold bs in ET. subst T. rewrite map_length in *.
  repeat apply conj; auto. intros k b E r.
  rewrite (H k (mk_term (map mk_pak b))) by (rewrite nth_error_map, E; reflexivity).
  rewrite (mk_term_products L), !map_map. reflexivity.
Qed.

(** *** Lengths *)

Lemma block_bytes {K} (attr : K -> string) (ks : list K) f c :
  list_sum (map (fun b => listing (map text (map attr b)) + c) (by_length (key_blocks attr ks f))) =
  length (key_blocks attr ks f) * (4 + c) + list_sum (map (fun k => text (attr k)) (keys_for attr ks (names f))).
Proof.
  rewrite <- (sum_perm _ _ (Permutation_map _ (by_length_perm _ (key_blocks_nonempty attr ks f)))).
  rewrite <- key_blocks_concat. generalize (key_blocks attr ks f). intros l.
  induction l as [|b l IH]; [reflexivity|]. cbn [map concat length]. rewrite map_app, list_sum_app.
  unfold list_sum at 1. cbn [fold_right]. fold (list_sum (map (fun b0 => listing (map text (map attr b0)) + c) l)).
  rewrite IH. unfold listing. rewrite map_map. lia.
Qed.

Section Width.
Context (W : wire C) (wf wa wb wt : nat).
Hypothesis WW : widths W wf wa wb wt.

Theorem bd_bytes nonce (pk : bd_pk C) apks pol lang data t i ct j f : seals C nonce ->
  parse pol lang = Ok (tree f) -> bd_encrypt nonce pk apks pol lang data t i = Ok (ct, j) ->
  long (c_bd_ct W) ct (text pol + 1 +
    (4 + length (key_blocks bapk_attr apks f) * (4 + wt + 2 * wa + 2 * wb) +
     list_sum (map (fun k => text (bapk_attr k)) (keys_for bapk_attr apks (names f)))) + sealed data).
Proof.
  intros S P H. pose proof (bd_encrypt_eq _ _ _ _ _ _ _ _ _ _ H) as (v & T & m' & P' & _ & ET & _).
  rewrite P in P'. injection P' as <-.
  pose proof (bd_encrypt_long WW _ _ _ _ _ _ _ _ _ _ _ _ S P ET H) as G. apply bd_terms in ET. subst T.
  intros b E. rewrite (G b E). rewrite map_map.
  rewrite (map_ext _ (fun b => listing (map text (map bapk_attr b)) + (wt + wa + wb + wa + wb))).
  2:{ intros x. rewrite mk_term_attrs, (map_map bd_pak).
    change (map (fun k => pak_attr (bd_pak k)) x) with (map (@bapk_attr C) x). lia. }
  unfold listing at 1. rewrite block_bytes.
  replace (4 + (wt + wa + wb + wa + wb)) with (4 + wt + 2 * wa + 2 * wb) by lia. lia.
Qed.

Theorem mk_bytes nonce (pk : mk_pk C) apks pol lang data t i ct j f : seals C nonce ->
  parse pol lang = Ok (tree f) -> mk_encrypt nonce pk apks pol lang data t i = Ok (ct, j) ->
  long (c_mk_ct W) ct (text pol + 1 +
    (4 + length (key_blocks mapk_attr apks f) * (4 + 2 * wt + 2 * wa + 2 * wb) +
     list_sum (map (fun k => text (mapk_attr k)) (keys_for mapk_attr apks (names f)))) + sealed data).
Proof.
  intros S P H. pose proof (mk_encrypt_eq _ _ _ _ _ _ _ _ _ _ H) as (v & T & m1' & m2' & P' & _ & ET & _).
  rewrite P in P'. injection P' as <-.
  pose proof (mk_encrypt_long WW _ _ _ _ _ _ _ _ _ _ _ _ S P ET H) as G. apply mk_terms in ET. subst T.
  intros b E. rewrite (G b E). rewrite map_map.
  rewrite (map_ext _ (fun b => listing (map text (map mapk_attr b)) + (wt + wt + wa + wb + wa + wb))).
  2:{ intros x. rewrite mk_term_attrs, (map_map mk_pak).
    change (map (fun k => pak_attr (mk_pak k)) x) with (map (@mapk_attr C) x). lia. }
  unfold listing at 1. rewrite block_bytes.
  replace (4 + (wt + wt + wa + wb + wa + wb)) with (4 + 2 * wt + 2 * wa + 2 * wb) by lia. lia.
Qed.
End Width.
End Ciphertexts.
