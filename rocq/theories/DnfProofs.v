(** * DnfProofs: the DNF test and the DNF conversion *)
From Coq Require Import String List Bool Arith Lia Permutation Sorted.
From Verif Require Import Base Crypto Policy Dnf Spec PolicyProofs.
Import ListNotations.

(** ** Specification *)

(** [g] is a subformula of [f] (possibly [f] itself). *)
Inductive sub (g : formula) : formula -> Prop :=
| sub_refl : sub g g
| sub_and h l : In h l -> sub g h -> sub g (FAnd l)
| sub_or h l : In h l -> sub g h -> sub g (FOr l).

(** No OR below an AND. *)
Definition no_or_below_and (f : formula) : Prop :=
  forall l h l', sub (FAnd l) f -> In h l -> ~ sub (FOr l') h.

(** The conjunctions of a formula in disjunctive form, as lists of names. *)
Fixpoint conjs (f : formula) : list (list string) :=
  match f with
  | FLeaf n _ => [[n]]
  | FAnd l => [names (FAnd l)]
  | FOr l => flat_map conjs l
  end.

(** A leaf; a leaf or an AND of leaves; one of those or an OR of those. *)
Definition is_leaf (f : formula) : bool := match f with FLeaf _ _ => true | _ => false end.
Definition is_conj (f : formula) : bool :=
  match f with FLeaf _ _ => true | FAnd l => forallb is_leaf l | FOr _ => false end.
Definition flat (f : formula) : bool :=
  match f with FOr l => forallb is_conj l | _ => is_conj f end.

(** ** The DNF test *)

Fixpoint or_free (f : formula) : bool :=
  match f with FLeaf _ _ => true | FAnd l => forallb or_free l | FOr _ => false end.
Fixpoint dnf_form (f : formula) : bool :=
  match f with FLeaf _ _ => true | FAnd l => forallb or_free l | FOr l => forallb dnf_form l end.

Lemma or_free_sub f : or_free f = true <-> forall l, ~ sub (FOr l) f.
Proof.
  induction f as [n p|l IH|l IH] using formula_ind'; cbn.
  - split; [|reflexivity]. intros _ l H. inversion H.
  - rewrite forallb_forall. rewrite Forall_forall in IH. split.
    + intros H l' S. inversion S; subst. now apply (proj1 (IH _ H1) (H _ H1) l').
    + intros H x I. apply IH; [exact I|]. intros l' S. apply (H l'). econstructor; eauto.
  - split; [discriminate|]. intros H. exfalso. apply (H l). constructor.
Qed.

Lemma dnf_form_sub f : dnf_form f = true <-> no_or_below_and f.
Proof.
  unfold no_or_below_and. induction f as [n p|l IH|l IH] using formula_ind'; cbn.
  - split; [|reflexivity]. intros _ l h l' H. inversion H.
  - rewrite forallb_forall. split.
    + intros H l0 h l' S I. inversion S; subst.
      * apply or_free_sub. now apply H.
      * intros S'. pose proof (proj1 (or_free_sub _) (H _ H1) l') as N. apply N.
        clear - H2 I S'. induction H2; [econstructor; eauto|econstructor 2; eauto|econstructor 3; eauto].
    + intros H x I. apply or_free_sub. intros l'. apply (H l x l'); [constructor|exact I].
  - rewrite forallb_forall. rewrite Forall_forall in IH. split.
    + intros H l0 h l' S I. inversion S; subst. exact (proj1 (IH _ H1) (H _ H1) _ _ _ H2 I).
    + intros H x I. apply IH; [exact I|]. intros l0 h l' S. apply H. econstructor 3; eauto.
Qed.

Lemma in_dnf_and f : forall par, policy_in_dnf (tree f) true par = or_free f.
Proof.
  induction f as [n p|l IH|l IH] using formula_ind'; intros par; cbn.
  - reflexivity.
  - rewrite forallb_map'. apply forallb_ext_Forall. eapply Forall_impl; [|exact IH]. cbn. auto.
  - reflexivity.
Qed.

Lemma in_dnf_tree f : forall par, policy_in_dnf (tree f) false par = dnf_form f.
Proof.
  induction f as [n p|l IH|l IH] using formula_ind'; intros par; cbn.
  - reflexivity.
  - rewrite forallb_map'. apply forallb_ext_Forall. apply Forall_forall. intros x _. apply in_dnf_and.
  - rewrite forallb_map'. apply forallb_ext_Forall. eapply Forall_impl; [|exact IH]. cbn. auto.
Qed.

Theorem policy_in_dnf_iff f : policy_in_dnf (tree f) false None = true <-> no_or_below_and f.
Proof. rewrite in_dnf_tree. apply dnf_form_sub. Qed.

Lemma flat_dnf f : flat f = true -> dnf_form f = true.
Proof.
  assert (L : forall x, is_leaf x = true -> or_free x = true) by (intros [|?|?]; cbn; congruence).
  assert (Cj : forall x, is_conj x = true -> dnf_form x = true).
  { intros [n p|l|l]; cbn; [auto| |discriminate]. rewrite !forallb_forall. auto. }
  destruct f as [n p|l|l]; cbn; [auto| |].
  - rewrite !forallb_forall. auto.
  - rewrite !forallb_forall. auto.
Qed.

Section Conversion.
Context {C : crypto}.
Variable pks : list (pak C).

(** The supplied keys for the names of a conjunction, in order. *)
Definition keys (ns : list string) : list (pak C) :=
  flat_map (fun n => filter (fun p => seqb (pak_attr p) n) pks) ns.

(** ** Where a key goes *)

Definition put (i : nat) (T : list (term C)) (p : pak C) : list (term C) :=
  if i <? length T then update_nth i (fun t => merge_term t p) T else T ++ [new_term p].

Lemma dnf_leaf_put n i : forall T,
  dnf_leaf pks n i T = fold_left (put i) (filter (fun p => seqb (pak_attr p) n) pks) T.
Proof.
  unfold dnf_leaf. generalize pks. intros l. induction l as [|p l IH]; intros T; cbn; [reflexivity|].
  destruct (seqb (pak_attr p) n); cbn; apply IH.
Qed.

Lemma leaves_loop i l : forallb is_leaf l = true -> forall T,
  (fix loop (l : list pvalue) (ret : bool) (terms : list (term C)) :=
     match l with
     | [] => (ret, terms)
     | c :: r => if ret then
                   let bt := dnf pks c i (Some And) terms in loop r (fst bt) (snd bt)
                 else loop r ret terms
     end) (map tree l) true T = (true, fold_left (put i) (keys (names (FAnd l))) T).
Proof.
  induction l as [|x l IH]; intros H T; [reflexivity|]. cbn in H. apply andb_prop in H as (Hx & H).
  destruct x as [n p|?|?]; try discriminate. cbn. rewrite IH by exact H.
  rewrite fold_left_app, dnf_leaf_put. reflexivity.
Qed.

Lemma false_loop i l : forall T,
  fst ((fix loop (l : list pvalue) (ret : bool) (terms : list (term C)) :=
     match l with
     | [] => (ret, terms)
     | c :: r => if ret then
                   let bt := dnf pks c i (Some And) terms in loop r (fst bt) (snd bt)
                 else loop r ret terms
     end) l false T) = false.
Proof. induction l as [|x l IH]; intros T; [reflexivity|]. apply IH. Qed.

Lemma and_loop_fst i l : forall T,
  fst ((fix loop (l : list pvalue) (ret : bool) (terms : list (term C)) :=
     match l with
     | [] => (ret, terms)
     | c :: r => if ret then
                   let bt := dnf pks c i (Some And) terms in loop r (fst bt) (snd bt)
                 else loop r ret terms
     end) (map tree l) true T) = forallb is_leaf l.
Proof.
  induction l as [|x l IH]; intros T; [reflexivity|].
  destruct x as [n p|?|?]; cbn; [apply IH| |]; apply false_loop.
Qed.

Lemma dnf_conj_fst c i T : fst (dnf pks (tree c) i (Some Or) T) = is_conj c.
Proof. destruct c as [n p|l|l]; cbn; [reflexivity| |reflexivity]. apply and_loop_fst. Qed.

Lemma dnf_conj c i par T : is_conj c = true -> par = None \/ par = Some Or ->
  dnf pks (tree c) i par T = (true, fold_left (put i) (keys (names c)) T).
Proof.
  intros H Hp. destruct c as [n p|l|l]; [| |discriminate].
  - cbn. rewrite dnf_leaf_put, app_nil_r. destruct Hp as [-> | ->]; reflexivity.
  - cbn [tree dnf]. destruct Hp as [-> | ->]; apply leaves_loop; exact H.
Qed.

(** ** The OR loop on lists of keys *)

(** The first [m] keys alone, the rest together. *)
Fixpoint split (m : nat) (c : list (pak C)) {struct c} : list (list (pak C)) :=
  match c with
  | [] => []
  | x :: r => match m with O => [c] | S m' => [x] :: split m' r end
  end.

(** The groups of keys that make up the terms: [k] is the number of the child,
    [n] the number of terms so far. *)
Fixpoint splits (k n : nat) (cs : list (list (pak C))) : list (list (pak C)) :=
  match cs with
  | [] => []
  | c :: r => let g := split (k + k - n) c in g ++ splits (S k) (n + length g) r
  end.

Definition mk_term (c : list (pak C)) : term C :=
  match c with
  | [] => Term [] (gtone C) (gtone C) (g1zero C) (g2zero C)
  | p :: r => fold_left merge_term r (new_term p)
  end.

Lemma mk_term_snoc c p : c <> [] -> mk_term (c ++ [p]) = merge_term (mk_term c) p.
Proof. destruct c as [|q r]; [congruence|]. intros _. cbn. now rewrite fold_left_app. Qed.

Lemma mk_term_attrs c : tm_attrs (mk_term c) = map pak_attr c.
Proof.
  induction c as [|p c IH] using rev_ind; [reflexivity|].
  destruct c as [|q r]; [reflexivity|]. rewrite mk_term_snoc by discriminate.
  rewrite map_app. cbn [tm_attrs merge_term]. now rewrite IH.
Qed.

Lemma update_last {A} (f : A -> A) l x : update_nth (length l) f (l ++ [x]) = l ++ [f x].
Proof. induction l as [|y l IH]; cbn; [reflexivity|now rewrite IH]. Qed.

Lemma put_last T g c : g <> [] -> fold_left (put (length T)) c (T ++ [mk_term g]) = T ++ [mk_term (g ++ c)].
Proof.
  revert g. induction c as [|p c IH]; intros g N; cbn; [now rewrite app_nil_r|].
  unfold put at 2. rewrite app_length. cbn [length].
  replace (length T <? length T + 1) with true by (symmetry; apply Nat.ltb_lt; lia).
  rewrite update_last, <- mk_term_snoc by exact N. rewrite IH by (destruct g; discriminate).
  now rewrite <- app_assoc.
Qed.

Lemma put_all i c : forall T, length T <= i ->
  fold_left (put i) c T = T ++ map mk_term (split (i - length T) c).
Proof.
  induction c as [|p c IH]; intros T H; cbn; [now rewrite app_nil_r|].
  unfold put at 2. replace (i <? length T) with false by (symmetry; apply Nat.ltb_ge; lia).
  destruct (i - length T) as [|m] eqn:E.
  - replace i with (length T) by lia. exact (put_last T [p] c ltac:(discriminate)).
  - rewrite IH by (rewrite app_length; cbn; lia). rewrite app_length. cbn [length].
    replace (i - (length T + 1)) with m by lia. cbn. now rewrite <- app_assoc.
Qed.

Lemma split_length m c : length (split m c) <= S m.
Proof. revert m. induction c as [|x c IH]; intros [|m]; cbn; try lia. specialize (IH m). lia. Qed.

Lemma or_loop l : forallb is_conj l = true -> forall k T, length T <= k + k ->
  (fix loop (l : list pvalue) (k : nat) (ret : bool) (terms : list (term C)) :=
     match l with
     | [] => (ret, terms)
     | c :: r => if ret then
                   let bt := dnf pks c (k + k) (Some Or) terms in loop r (S k) (fst bt) (snd bt)
                 else loop r (S k) ret terms
     end) (map tree l) k true T =
  (true, T ++ map mk_term (splits k (length T) (map (fun c => keys (names c)) l))).
Proof.
  induction l as [|x l IH]; intros H k T Hk; cbn [map splits]; [now rewrite app_nil_r|].
  cbn in H. apply andb_prop in H as (Hx & H). cbv zeta.
  rewrite dnf_conj by auto. cbn [fst snd]. rewrite put_all by exact Hk.
  pose proof (split_length (k + k - length T) (keys (names x))) as Ls.
  rewrite IH; [|exact H|rewrite app_length, map_length; lia].
  rewrite app_length, map_length, map_app, app_assoc. reflexivity.
Qed.

Lemma or_loop_fst l : forall k T ret,
  fst ((fix loop (l : list pvalue) (k : nat) (ret : bool) (terms : list (term C)) :=
     match l with
     | [] => (ret, terms)
     | c :: r => if ret then
                   let bt := dnf pks c (k + k) (Some Or) terms in loop r (S k) (fst bt) (snd bt)
                 else loop r (S k) ret terms
     end) (map tree l) k ret T) = ret && forallb is_conj l.
Proof.
  induction l as [|x l IH]; intros k T ret; cbn [map forallb]; [now rewrite andb_true_r|].
  destruct ret; [|rewrite IH; reflexivity]. cbv zeta. rewrite IH, dnf_conj_fst. reflexivity.
Qed.

(** The groups for a policy. *)
Definition groups (f : formula) : list (list (pak C)) :=
  match f with
  | FOr l => splits 0 0 (map (fun c => keys (names c)) l)
  | _ => split 0 (keys (names f))
  end.

Lemma dnf_fst f : fst (dnf pks (tree f) 0 None []) = flat f.
Proof.
  destruct f as [n p|l|l]; cbn [tree dnf flat is_conj]; [reflexivity| |].
  - apply and_loop_fst.
  - apply or_loop_fst.
Qed.

Lemma dnf_tree f : flat f = true -> dnf pks (tree f) 0 None [] = (true, map mk_term (groups f)).
Proof.
  intros H. destruct f as [n p|l|l].
  - rewrite dnf_conj by auto. rewrite put_all by reflexivity. reflexivity.
  - rewrite dnf_conj by auto. rewrite put_all by reflexivity. reflexivity.
  - cbn [tree dnf]. rewrite or_loop by (exact H || (cbn; lia)). reflexivity.
Qed.

Lemma insert_term_perm (x : term C) l : Permutation (x :: l) (insert_term x l).
Proof.
  induction l as [|y l IH]; cbn; [reflexivity|]. destruct (_ <=? _); [reflexivity|].
  etransitivity; [apply perm_swap|]. now constructor.
Qed.

Lemma sort_terms_perm (l : list (term C)) : Permutation l (sort_terms l).
Proof.
  induction l as [|x l IH]; cbn; [reflexivity|].
  etransitivity; [apply perm_skip; exact IH|apply insert_term_perm].
Qed.

Definition shorter (a b : term C) : Prop := length (tm_attrs a) <= length (tm_attrs b).

Lemma sort_terms_sorted (l : list (term C)) : Sorted shorter (sort_terms l).
Proof.
  induction l as [|x l IH]; [constructor|].
  change (Sorted shorter (insert_term x (sort_terms l))).
  revert IH. induction (sort_terms l) as [|y r IHr]; intros IH; cbn; [constructor; [exact IH|constructor]|].
  inversion IH; subst. destruct (_ <=? _) eqn:E.
  - apply Nat.leb_le in E. constructor; [exact IH|]. now constructor.
  - apply Nat.leb_gt in E. constructor; [now apply IHr|].
    destruct r as [|z r]; cbn; [constructor; unfold shorter; lia|].
    destruct (_ <=? _); constructor; [unfold shorter; lia|].
    now inversion H2.
Qed.

(** What the conversion returns. *)
Theorem json_to_dnf_flat f : flat f = true -> exists T, json_to_dnf (tree f) pks = Ok T /\
  Permutation (map mk_term (groups f)) T /\ Sorted shorter T.
Proof.
  intros H. unfold json_to_dnf. rewrite dnf_tree by exact H. cbn [fst snd].
  eexists. split; [reflexivity|]. split; [apply sort_terms_perm|apply sort_terms_sorted].
Qed.

Theorem json_to_dnf_nested f : flat f = false -> json_to_dnf (tree f) pks = Err.
Proof. intros H. unfold json_to_dnf. now rewrite dnf_fst, H. Qed.

(** ** Properties of the groups *)

Lemma split_concat m c : concat (split m c) = c.
Proof.
  revert m. induction c as [|x c IH]; intros [|m]; cbn; try reflexivity; [now rewrite app_nil_r|].
  now rewrite IH.
Qed.

Lemma split_nonempty m c g : In g (split m c) -> g <> [].
Proof.
  revert m. induction c as [|x c IH]; intros [|m]; cbn; try tauto.
  - intros [<-|[]]. discriminate.
  - intros [<-|I]; [discriminate|eauto].
Qed.

Lemma splits_In cs : forall k n g, In g (splits k n cs) ->
  g <> [] /\ exists c, In c cs /\ incl g c.
Proof.
  induction cs as [|c cs IH]; intros k n g; cbn; [tauto|]. intros I.
  apply in_app_or in I as [I|I].
  - split; [eapply split_nonempty; eauto|]. exists c. split; [now left|]. intros x Ix.
    rewrite <- (split_concat (k + k - n) c). apply in_concat. eauto.
  - apply IH in I as (N & c' & Ic & Ig). split; [exact N|]. exists c'. split; [now right|exact Ig].
Qed.

Lemma split_covers m c : c <> [] -> exists g, In g (split m c) /\ incl g c.
Proof.
  intros N. destruct (split m c) as [|g r] eqn:E.
  - exfalso. apply N. rewrite <- (split_concat m c), E. reflexivity.
  - exists g. split; [now left|]. intros x I. rewrite <- (split_concat m c), E. cbn. apply in_or_app. now left.
Qed.

Lemma splits_covers cs c : In c cs -> c <> [] -> forall k n, exists g, In g (splits k n cs) /\ incl g c.
Proof.
  induction cs as [|d cs IH]; [intros []|]; intros [<-|I] N k n; cbn.
  - destruct (split_covers (k + k - n) d N) as (g & Ig & Inc). exists g. split; [|exact Inc].
    apply in_or_app. now left.
  - destruct (IH I N (S k) (n + length (split (k + k - n) d))) as (g & Ig & Inc). exists g.
    split; [|exact Inc]. apply in_or_app. now right.
Qed.

(** Every later conjunction with at least two keys loses its first key to a
    term of its own. *)
Lemma splits_later cs a b r : In (a :: b :: r) cs -> forall k n, n < k + k -> In [a] (splits k n cs).
Proof.
  induction cs as [|d cs IH]; [intros []|]; intros [->|I] k n H; cbn [splits]; cbv zeta.
  - apply in_or_app. left. destruct (k + k - n) eqn:E; [lia|]. now left.
  - apply in_or_app. right. apply IH; [exact I|]. pose proof (split_length (k + k - n) d). lia.
Qed.

Lemma splits_first c cs : c <> [] -> splits 0 0 (c :: cs) = c :: splits 1 1 cs.
Proof. destruct c; [congruence|]. reflexivity. Qed.

Lemma splits_singletons cs : Forall (fun c => length c = 1) cs -> forall k n, splits k n cs = cs.
Proof.
  induction 1 as [|c cs H _ IH]; intros k n; cbn; [reflexivity|]. rewrite IH.
  destruct c as [|x [|y c]]; try discriminate. destruct (k + k - n); reflexivity.
Qed.

Lemma split_count m c : c <> [] -> 1 <= length (split m c).
Proof. destruct c; [congruence|]. destruct m; cbn; lia. Qed.

Lemma split_count2 m c : 2 <= length c -> 2 <= length (split (S m) c).
Proof. destruct c as [|x [|y c]]; cbn; try lia. destruct m; cbn; lia. Qed.

Lemma splits_count cs : Forall (fun c => c <> []) cs -> forall k n, n < k + k ->
  length cs <= length (splits k n cs) /\
  (length (splits k n cs) = length cs -> Forall (fun c => length c = 1) cs).
Proof.
  induction 1 as [|c cs N _ IH]; intros k n H; cbn [splits length]; [auto|]. cbv zeta.
  rewrite app_length. pose proof (split_length (k + k - n) c) as Ls.
  destruct (IH (S k) (n + length (split (k + k - n) c)) ltac:(lia)) as (I1 & I2).
  pose proof (split_count (k + k - n) c N). split; [lia|]. intros E.
  constructor; [|apply I2; lia].
  destruct (Nat.le_gt_cases 2 (length c)) as [G|G]; [|destruct c; cbn in *; [congruence|lia]].
  destruct (k + k - n) as [|m] eqn:Em; [lia|]. pose proof (split_count2 m c G). lia.
Qed.

(** ** With one key for each attribute *)

Definition one_key (f : formula) : Prop := forall n, In n (names f) ->
  exists p, filter (fun p => seqb (pak_attr p) n) pks = [p].

Lemma keys_attrs ns : (forall n, In n ns -> exists p, filter (fun p => seqb (pak_attr p) n) pks = [p]) ->
  map pak_attr (keys ns) = ns.
Proof.
  induction ns as [|n ns IH]; intros H; cbn; [reflexivity|].
  destruct (H n (or_introl eq_refl)) as (p & E). rewrite E. fold (keys ns). cbn [map app]. rewrite IH by (intros; apply H; now right).
  f_equal. assert (I : In p [p]) by now left. rewrite <- E in I. apply filter_In in I as (_ & I). now apply seqb_eq in I.
Qed.

Lemma names_In_child x l n : In x l -> In n (names x) -> In n (names (FOr l)).
Proof.
  unfold names. intros I H. apply in_map_iff in H as (y & E & Iy). apply in_map_iff. exists y.
  split; [exact E|]. cbn. apply in_flat_map. eauto.
Qed.

Lemma conjs_flat f : flat f = true -> conjs f = match f with FOr l => map names l | _ => [names f] end.
Proof.
  destruct f as [n p|l|l]; cbn; try reflexivity. intros H.
  induction l as [|x l IH]; cbn; [reflexivity|]. cbn in H. apply andb_prop in H as (Hx & H).
  rewrite IH by exact H. destruct x as [n p|m|m]; [reflexivity|reflexivity|discriminate].
Qed.

Lemma map_attrs_terms gs : map tm_attrs (map mk_term gs) = map (map pak_attr) gs.
Proof. rewrite map_map. apply map_ext. intros g. apply mk_term_attrs. Qed.


(** The terms are the conjunctions exactly when every conjunction but the first
    has a single attribute. *)
Theorem dnf_faithful_iff f T : flat f = true -> Forall (fun c => c <> []) (conjs f) -> one_key f ->
  json_to_dnf (tree f) pks = Ok T ->
  (Permutation (map tm_attrs T) (conjs f) <-> Forall (fun c => length c = 1) (tl (conjs f))).
Proof.
  intros Hf NE OK E. destruct (json_to_dnf_flat f Hf) as (T' & E' & P & _).
  rewrite E in E'. injection E' as <-. apply (Permutation_map tm_attrs) in P.
  rewrite map_attrs_terms in P. rewrite (conjs_flat f Hf) in *.
  assert (KA : forall l, f = FOr l -> map (map pak_attr) (map (fun c => keys (names c)) l) = map names l).
  { intros l ->. rewrite map_map. apply map_ext_in. intros x I. apply keys_attrs. intros n In'.
    apply OK. eapply names_In_child; eauto. }
  assert (Single : match f with FOr _ => False | _ => True end ->
            map (map pak_attr) (groups f) = [names f]).
  { intros Hs. assert (G : groups f = split 0 (keys (names f))) by (destruct f; [reflexivity|reflexivity|tauto]).
    assert (K := keys_attrs (names f) OK). rewrite G.
    assert (NN : names f <> []).
    { destruct f; try tauto; inversion NE; assumption. }
    destruct (keys (names f)) as [|p r] eqn:Ek; [cbn in K; congruence|]. cbn. cbn in K. now rewrite K. }
  destruct f as [n p|l|l].
  - rewrite Single in P by exact I. cbn [tl]. split; [constructor|]. intros _. now symmetry.
  - rewrite Single in P by exact I. cbn [tl]. split; [constructor|]. intros _. now symmetry.
  - specialize (KA l eq_refl). cbn [groups] in P.
    set (cs := map (fun c => keys (names c)) l) in *.
    assert (NEc : Forall (fun c => c <> []) cs).
    { rewrite <- KA in NE. rewrite Forall_forall in *. intros c Ic Z. subst c.
      apply (NE []); [exact (in_map (map pak_attr) cs [] Ic)|reflexivity]. }
    clearbody cs. destruct cs as [|c cs].
    { rewrite <- KA. cbn. cbn in P. split; [constructor|]. intros _. now symmetry. }
    rewrite splits_first in P by now inversion NEc.
    inversion NEc; subst. destruct (splits_count cs H2 1 1 ltac:(lia)) as (_ & Cnt).
    assert (Sz : Forall (fun c => length c = 1) (tl (map names l)) <-> Forall (fun c => length c = 1) cs).
    { rewrite <- KA. cbn. rewrite Forall_map. split; apply Forall_impl; intros x; now rewrite map_length. }
    rewrite Sz. split.
    + intros Pm. apply Cnt. assert (E1 := Permutation_length P). assert (E2 := Permutation_length Pm).
      rewrite <- KA in E2. cbn in E1, E2. rewrite !map_length in *. lia.
    + intros Hs. rewrite splits_singletons in P by exact Hs. symmetry. rewrite <- KA. exact P.
Qed.

(** In particular for a leaf, a conjunction of leaves and a disjunction of
    leaves. *)
Theorem dnf_flat_faithful f : one_key f ->
  (exists n p, f = FLeaf n p) \/
  (exists l, f = FAnd l /\ l <> [] /\ forallb is_leaf l = true) \/
  (exists l, f = FOr l /\ forallb is_leaf l = true) ->
  exists T, json_to_dnf (tree f) pks = Ok T /\ Permutation (map tm_attrs T) (conjs f).
Proof.
  intros OK Sh.
  assert (Hf : flat f = true).
  { destruct Sh as [(n & p & ->)|[(l & -> & _ & H)|(l & -> & H)]]; [reflexivity|exact H|].
    cbn. rewrite forallb_forall in *. intros x I. specialize (H x I). now destruct x. }
  destruct (json_to_dnf_flat f Hf) as (T & E & _). exists T. split; [exact E|].
  apply (dnf_faithful_iff f T Hf); auto; rewrite (conjs_flat f Hf);
    destruct Sh as [(n & p & ->)|[(l & -> & NE & H)|(l & -> & H)]].
  - constructor; [discriminate|constructor].
  - constructor; [|constructor]. destruct l as [|x l]; [congruence|]. cbn in H. destruct x; discriminate.
  - rewrite Forall_map, Forall_forall. intros x I. rewrite forallb_forall in H. specialize (H x I).
    destruct x; discriminate.
  - constructor.
  - constructor.
  - rewrite Forall_forall. intros c I.
    assert (In c (map names l)) by (destruct l; [destruct I|now right]).
    apply in_map_iff in H0 as (x & <- & Ix). rewrite forallb_forall in H. specialize (H x Ix).
    destruct x; [reflexivity|discriminate|discriminate].
Qed.

(** A later conjunction of two or more attributes leaves its first attribute
    alone in a term. *)
Theorem dnf_splits_conjunction f T x l c a b r : f = FOr (x :: l) -> flat f = true ->
  one_key f -> names x <> [] -> In c l -> names c = a :: b :: r ->
  json_to_dnf (tree f) pks = Ok T -> In [a] (map tm_attrs T).
Proof.
  intros -> Hf OK Nx Ic Ec E. destruct (json_to_dnf_flat _ Hf) as (T' & E' & P & _).
  rewrite E in E'. injection E' as <-. apply (Permutation_map tm_attrs) in P.
  rewrite map_attrs_terms in P. apply (Permutation_in _ P).
  assert (K : forall y, In y (x :: l) -> map pak_attr (keys (names y)) = names y).
  { intros y I. apply keys_attrs. intros n In'. apply OK. eapply names_In_child; eauto. }
  cbn [groups map]. rewrite splits_first.
  2:{ intros Z. specialize (K x (or_introl eq_refl)). rewrite Z in K. cbn in K. congruence. }
  right. specialize (K c (or_intror Ic)). rewrite Ec in K.
  destruct (keys (names c)) as [|p1 [|p2 pr]] eqn:Ek; rewrite Ec in Ek; rewrite Ek in K; try discriminate.
  injection K as Ka _ _. subst a. apply (in_map (map pak_attr) _ [p1]).
  apply (splits_later _ p1 p2 pr); [|lia]. rewrite <- Ek, <- Ec. apply (in_map (fun c => keys (names c))). exact Ic.
Qed.

(** A conjunction from which the keys of some attributes are missing becomes a
    conjunction of the other attributes. *)
Theorem dnf_drops_missing l T : forallb is_leaf l = true ->
  keys (names (FAnd l)) <> [] -> json_to_dnf (tree (FAnd l)) pks = Ok T ->
  map tm_attrs T = [map pak_attr (keys (names (FAnd l)))].
Proof.
  intros Hl N E. unfold json_to_dnf in E. rewrite dnf_tree in E by exact Hl. cbn [fst snd groups] in E.
  destruct (keys (names (FAnd l))) as [|p r]; [congruence|]. cbn in E. injection E as <-. cbn.
  f_equal. apply (mk_term_attrs (p :: r)).
Qed.

End Conversion.
