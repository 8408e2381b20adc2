(** * Decryption of arbitrary keys and ciphertexts: when exactly it aborts *)
From Coq Require Import String Ascii List Bool Arith Lia ZArith Field.
From Verif Require Import Base Crypto Policy Tools Sharing Spec PolicyProofs Poly
  SharingProofs Parse Symmetric SchemeLib CoreProofs Msp Dnf Bdabe Mke08 Bsw Ghw11 Lsw Yct14 Ac17 Aw11.
Import ListNotations.

(** ** Specification *)

(** Evaluation meets a node with fewer than two children: an AND looks at all
    its children, an OR at those up to the first true one. *)
Fixpoint aborts (own : string -> bool) (f : formula) : bool :=
  match f with
  | FLeaf _ _ => false
  | FAnd l => (length l <? 2) || existsb (aborts own) l
  | FOr l =>
      (length l <? 2) ||
      (fix go (l : list formula) :=
         match l with
         | [] => false
         | c :: r => aborts own c || (negb (sat own c) && go r)
         end) l
  end.

(** The leaves used for a true formula: all children of an AND, the first true
    child of an OR. *)
Fixpoint picks (own : string -> bool) (f : formula) : list (string * nat) :=
  match f with
  | FLeaf n p => [(n, p)]
  | FAnd l => flat_map (picks own) l
  | FOr l =>
      (fix go (l : list formula) :=
         match l with
         | [] => []
         | c :: r => if sat own c then picks own c else go r
         end) l
  end.

(** A name whose first byte is missing or not ASCII. *)
Definition odd_start (n : string) : Prop :=
  match n with EmptyString => True | String c _ => 128 <= nat_of_ascii c end.

(** ** Pruning *)

Definition picks_or (own : string -> bool) : list formula -> list (string * nat) :=
  fix go l := match l with
              | [] => []
              | c :: r => if sat own c then picks own c else go r
              end.

Lemma picks_sel own f : sat own f = true -> sel (pmask own f) (leaves f) = picks own f.
Proof.
  induction f as [n p|l IH|l IH] using formula_ind'.
  - cbn. now intros ->.
  - cbn [sat pmask leaves picks]. induction IH as [|c l H _ IHl]; [reflexivity|].
    cbn [forallb flat_map]. intros S. apply andb_prop in S as [S1 S2].
    rewrite sel_app by apply pmask_length. rewrite H, IHl by assumption. reflexivity.
  - change (pmask own (FOr l)) with (pmask_or own l). cbn [sat leaves].
    change (picks own (FOr l)) with (picks_or own l).
    induction IH as [|c l H _ IHl]; [reflexivity|].
    cbn [existsb flat_map pmask_or picks_or]. destruct (sat own c) eqn:S; cbn [orb]; intros T.
    + rewrite sel_app by apply pmask_length. rewrite sel_nomask, app_nil_r. now apply H.
    + rewrite sel_app by (unfold nomask; now rewrite map_length). rewrite sel_nomask. now apply IHl.
Qed.

Lemma aborts_exact attrs f : forall t,
  calc_pruned attrs (tree f) t = Panic <-> aborts (owns attrs) f = true.
Proof.
  induction f as [n p|l IH|l IH] using formula_ind'; intros t.
  - cbn [tree calc_pruned aborts]. destruct (contains attrs n); split; discriminate.
  - cbn [tree calc_pruned aborts]. rewrite map_length, Nat.ltb_antisym.
    destruct (2 <=? length l); cbn [negb orb]; [|tauto].
    set (loop := fix loop (l : list pvalue) (m : bool) (acc : list (string * string)) {struct l} :=
                     match l with
                     | [] => Ok (m, acc)
                     | c :: r =>
                         obind (unwrap_res (calc_pruned attrs c None)) (fun fl =>
                         let m' := m && fst fl in
                         loop r m' (if m' then acc ++ snd fl else acc))
                     end).
    assert (H : forall m acc, loop (map tree l) m acc <> Err /\
      (loop (map tree l) m acc = Panic <-> existsb (aborts (owns attrs)) l = true)).
    { induction IH as [|c l H _ IHl]; intros m acc.
      - cbn. split; [discriminate|split; discriminate].
      - cbn [map existsb]. cbn [loop]. specialize (H None).
        destruct (calc_pruned_total attrs c None) as [E|E]; rewrite E in *; cbn [unwrap_res obind].
        + rewrite (proj1 H eq_refl). cbn [orb]. split; [discriminate|tauto].
        + destruct (aborts (owns attrs) c); [exfalso; destruct H as [_ H]; discriminate (H eq_refl)|].
          cbn [orb]. apply IHl. }
    destruct (H true []) as [N P]. destruct (loop (map tree l) true []) as [[m acc]| |];
      [|congruence|tauto].
    split; [discriminate|]. intros A. apply P in A. discriminate.
  - cbn [tree calc_pruned aborts]. rewrite map_length, Nat.ltb_antisym.
    destruct (2 <=? length l); cbn [negb orb]; [|tauto].
    induction IH as [|c l H _ IHl]; [split; discriminate|].
    cbn [map]. specialize (H None).
    destruct (calc_pruned_total attrs c None) as [E|E]; rewrite E in *; cbn [unwrap_res obind fst snd].
    + rewrite (proj1 H eq_refl). cbn [orb]. tauto.
    + destruct (aborts (owns attrs) c); [exfalso; destruct H as [_ H]; discriminate (H eq_refl)|].
      cbn [orb]. destruct (sat (owns attrs) c); cbn [negb andb]; [split; discriminate|]. apply IHl.
Qed.

(** Pruning, for formulas of any shape. *)
Lemma prune_exact attrs f t :
  calc_pruned attrs (tree f) t =
  if aborts (owns attrs) f then Panic
  else Ok (sat (owns attrs) f,
           if sat (owns attrs) f then map leaf_pair (picks (owns attrs) f) else []).
Proof.
  destruct (aborts (owns attrs) f) eqn:A; [now apply aborts_exact|].
  destruct (calc_pruned_total attrs f t) as [E|E].
  - apply aborts_exact in E. congruence.
  - rewrite E. destruct (sat (owns attrs) f) eqn:S; [|reflexivity]. now rewrite picks_sel.
Qed.

Lemma picks_leaf own f n p : sat own f = true -> In (n, p) (picks own f) ->
  In (n, p) (leaves f) /\ own n = true.
Proof.
  intros S I. rewrite <- (picks_sel _ _ S) in I. split; [now apply sel_incl in I|now apply pmask_owned in I].
Qed.

(** ** Outcomes that are a value or a panic *)

Definition settled {A} (o : outcome A) (bad : Prop) : Prop :=
  (bad /\ o = Panic) \/ (~ bad /\ exists a, o = Ok a).

Lemma settled_panic {A} (o : outcome A) bad : settled o bad -> (o = Panic <-> bad).
Proof. intros [[B ->]|[B [a ->]]]; split; tauto || discriminate. Qed.

Lemma settled_bind {A B} (m : outcome A) (k : A -> outcome B) p q :
  settled m p -> (forall a, m = Ok a -> settled (k a) q) -> settled (obind m k) (p \/ q).
Proof.
  intros [[P ->]|[P [a ->]]] H; cbn; [left; tauto|].
  destruct (H a eq_refl) as [[Q E]|[Q E]]; [left|right]; tauto.
Qed.

Lemma settled_iff {A} (o : outcome A) p q : (p <-> q) -> settled o p -> settled o q.
Proof. unfold settled. tauto. Qed.

Lemma settled_Ok {A} (a : A) : settled (Ok a) False.
Proof. right. split; [tauto|eauto]. Qed.

Lemma settled_unwrap {A} (o : option A) : settled (unwrap o) (o = None).
Proof. destruct o; [right|left]; split; cbn; eauto; discriminate. Qed.

Lemma settled_ofold {A B} (step : B -> A -> outcome B) (bad : A -> Prop) l :
  (forall st x, In x l -> settled (step st x) (bad x)) ->
  forall st, settled (ofold step l st) (exists x, In x l /\ bad x).
Proof.
  induction l as [|x l IH]; intros H st.
  - right. split; [intros (x & [] & _)|cbn; eauto].
  - cbn [ofold]. eapply settled_iff; [|apply settled_bind].
    2: apply H; now left. 2: intros; apply IH; intros; apply H; now right.
    split.
    + intros [B0|(y & I & B0)]; [exists x|exists y]; cbn; auto.
    + intros (y & [<-|I] & B0); eauto.
Qed.

Lemma find_None_names {A} (nm : A -> string) k l :
  find (fun a => seqb (nm a) k) l = None <-> ~ In k (map nm l).
Proof.
  induction l as [|a l IH]; cbn; [tauto|]. destruct (seqb (nm a) k) eqn:E.
  - apply seqb_eq in E. split; [discriminate|]. intros H. exfalso. apply H. now left.
  - apply seqb_neq in E. rewrite IH. tauto.
Qed.

Lemma is_negative_settled n : settled (is_negative n) (odd_start n).
Proof.
  unfold is_negative, odd_start. destruct n as [|c r]; [left; tauto|].
  destruct (nat_of_ascii c <? 128) eqn:E.
  - apply Nat.ltb_lt in E. right. split; [lia|eauto].
  - apply Nat.ltb_ge in E. left. split; [lia|reflexivity].
Qed.

Lemma idx_settled {A} (l : list A) i : settled (idx l i) (length l <= i).
Proof.
  unfold idx. eapply settled_iff; [|apply settled_unwrap]. apply nth_error_None.
Qed.

Lemma ofold_cons {A B} (f : B -> A -> outcome B) x l acc :
  ofold f (x :: l) acc = obind (f acc x) (fun a => ofold f l a).
Proof. reflexivity. Qed.

Section Robust.
Context {C : crypto} (L : laws C).
Local Open Scope F_scope.
Notation F := (F C).

Lemma symmetric_panics (msg : GT C) data :
  decrypt_symmetric msg data = Panic <-> (String.length data < 12)%nat.
Proof.
  unfold decrypt_symmetric. destruct (String.length data <? 12) eqn:E.
  - apply Nat.ltb_lt in E. tauto.
  - apply Nat.ltb_ge in E. destruct (aead_dec C _ _ _); split; discriminate || lia.
Qed.

Lemma symmetric_error (msg : GT C) data : (12 <= String.length data)%nat ->
  decrypt_symmetric msg data <> Panic.
Proof. intros H E. apply symmetric_panics in E. lia. Qed.

(** The shape shared by the schemes: abort while folding, then on a short payload. *)
Lemma tail_panics {A} (m : outcome A) (k : A -> GT C) data bad : settled m bad ->
  (obind m (fun a => decrypt_symmetric (k a) data) = Panic <->
   bad \/ (String.length data < 12)%nat).
Proof.
  intros [[B ->]|[B [a ->]]]; cbn [obind]; [tauto|]. rewrite symmetric_panics. tauto.
Qed.

Lemma allowed_exact attrs f : traverse_policy attrs (tree f) Leaf = true <->
  attrs <> [] /\ sat (owns attrs) f = true.
Proof. apply access_exact. Qed.

Lemma bsw_panics (sk : bsw_sk C) ct f :
  parse (fst (bct_policy ct)) (snd (bct_policy ct)) = Ok (tree f) ->
  (bsw_decrypt sk ct = Panic <->
   map b_string (bsk_dj sk) <> [] /\ sat (owns (map b_string (bsk_dj sk))) f = true /\
   (aborts (owns (map b_string (bsk_dj sk))) f = true \/ (String.length (bct_data ct) < 12)%nat)).
Proof.
  intros P. unfold bsw_decrypt. rewrite P. cbn [obind].
  set (attrs := map b_string (bsk_dj sk)). pose proof (allowed_exact attrs f) as T.
  destruct (traverse_policy attrs (tree f) Leaf).
  2: { split; [discriminate|]. intros (N & S & _). destruct T as [_ T].
       discriminate (T (conj N S)). }
  destruct T as [T _]. destruct (T eq_refl) as [N S].
  rewrite prune_exact. destruct (aborts (owns attrs) f); cbn [obind fst snd]; [tauto|].
  rewrite S. cbn [fst snd]. rewrite (calc_coefficients_eq L). cbn [obind unwrap].
  rewrite symmetric_panics. intuition congruence.
Qed.

Lemma ghw_panics (tk : ghw_tk C) ct f :
  parse (fst (gct_policy ct)) (snd (gct_policy ct)) = Ok (tree f) ->
  (ghw_transform ct tk = Panic <->
   map fst (gtk_attr tk) <> [] /\ sat (owns (map fst (gtk_attr tk))) f = true /\
   (aborts (owns (map fst (gtk_attr tk))) f = true \/
    exists n p, In (n, p) (picks (owns (map fst (gtk_attr tk))) f) /\
                ~ In (node_index n p) (map fst (gct_cidi ct)))).
Proof.
  intros P. unfold ghw_transform. rewrite P. cbn [obind].
  set (attrs := map fst (gtk_attr tk)). pose proof (allowed_exact attrs f) as T.
  destruct (traverse_policy attrs (tree f) Leaf).
  2: { split; [discriminate|]. intros (N & S & _). destruct T as [_ T].
       discriminate (T (conj N S)). }
  destruct T as [T _]. destruct (T eq_refl) as [N S].
  rewrite prune_exact. destruct (aborts (owns attrs) f) eqn:A; cbn [obind]; [tauto|].
  rewrite (calc_coefficients_eq L). cbn [obind unwrap fst snd]. rewrite S.
  assert (H : settled
    (ofold (ghw_step tk ct ([] ++ gco f 1)) (map leaf_pair (picks (owns attrs) f)) (g1zero C, gtone C))
    (exists x, In x (map leaf_pair (picks (owns attrs) f)) /\ ~ In (snd x) (map fst (gct_cidi ct)))).
  { apply settled_ofold. intros st x I. apply in_map_iff in I as ([n p] & <- & I).
    apply (picks_leaf _ _ _ _ S) in I as [I O]. unfold ghw_step, leaf_pair; cbn [fst snd app].
    destruct (coeff_of_leaf f n p (f1 C) I) as (v & E).
    rewrite (find_assoc_id _ _ _ E). cbn [unwrap obind].
    destruct (find (fun a => seqb (fst a) n) (gtk_attr tk)) eqn:K.
    2: { apply (find_None_names fst) in K. apply smem_In in O. contradiction. }
    cbn [unwrap obind]. eapply settled_iff; [|apply settled_bind].
    2: apply settled_unwrap. 2: intros; apply settled_Ok.
    rewrite (find_None_names fst). tauto. }
  destruct H as [[B ->]|[B [st ->]]]; cbn [obind].
  - split; [intros _|reflexivity]. split; [exact N|]. split; [reflexivity|]. right.
    destruct B as (x & I & B). apply in_map_iff in I as ([n p] & <- & I). now exists n, p.
  - split; [discriminate|]. intros (_ & _ & [X|(n & p & I & X)]); [discriminate|]. exfalso.
    apply B. exists (leaf_pair (n, p)). split; [now apply in_map|exact X].
Qed.

Lemma ghw_out_panics (pct : ghw_tct C) z data :
  ghw_decrypt_out pct z data = Panic <-> (String.length data < 12)%nat.
Proof. apply symmetric_panics. Qed.

Lemma lsw_panics (sk : lsw_sk C) ct f :
  parse (fst (lsk_policy sk)) (snd (lsk_policy sk)) = Ok (tree f) ->
  (lsw_decrypt sk ct = Panic <->
   aborts (owns (map le_name (lct_ej ct))) f = true \/
   sat (owns (map le_name (lct_ej ct))) f = true /\
   ((exists n p, In (n, p) (picks (owns (map le_name (lct_ej ct))) f) /\
                 (~ In n (map ld_name (lsk_dj sk)) \/ odd_start n)) \/
    (String.length (lct_ct ct) < 12)%nat)).
Proof.
  intros P. unfold lsw_decrypt. rewrite P. cbn [obind].
  set (attrs := map le_name (lct_ej ct)).
  rewrite prune_exact. destruct (aborts (owns attrs) f) eqn:A; cbn [obind fst snd]; [tauto|].
  destruct (sat (owns attrs) f) eqn:S; cbn [fst snd]; [|intuition discriminate].
  rewrite (calc_coefficients_eq L). cbn [obind unwrap].
  assert (H : settled
    (ofold (lsw_step sk ct ([] ++ gco f 1)) (map leaf_pair (picks (owns attrs) f)) (gtone C, gtone C))
    (exists x, In x (map leaf_pair (picks (owns attrs) f)) /\
               (~ In (fst x) (map ld_name (lsk_dj sk)) \/ odd_start (fst x)))).
  { apply settled_ofold. intros st x I. apply in_map_iff in I as ([n p] & <- & I).
    apply (picks_leaf _ _ _ _ S) in I as [I O]. unfold lsw_step, leaf_pair; cbn [fst snd app].
    destruct (coeff_of_leaf f n p (f1 C) I) as (v & E).
    eapply settled_iff; [|apply settled_bind].
    2: apply settled_unwrap. rewrite (find_None_names ld_name). apply iff_refl.
    intros d _. cbn [obind].
    destruct (find (fun a => seqb (le_name a) n) (lct_ej ct)) eqn:K.
    2: { apply (find_None_names le_name) in K. apply smem_In in O. contradiction. }
    cbn [unwrap obind]. rewrite (find_assoc_id _ _ _ E). cbn [unwrap obind].
    eapply settled_iff; [|apply settled_bind].
    2: apply is_negative_settled. 2: intros; apply settled_Ok. tauto. }
  rewrite (tail_panics _ _ _ _ H). split.
  - intros [(x & I & B)|B]; right; (split; [reflexivity|]); [left|right; exact B].
    apply in_map_iff in I as ([n p] & <- & I). now exists n, p.
  - intros [X|[_ [(n & p & I & B)|B]]]; [discriminate| |right; exact B]. left.
    exists (leaf_pair (n, p)). split; [now apply in_map|exact B].
Qed.

(** The first entry with a name carries a private (public) part. *)
Definition first_private (l : list (yct_attr C)) (n : string) : Prop :=
  exists a x, find (fun a => seqb (y_name a) n) l = Some a /\ y_node a = Some (YPriv x).
Definition first_public (l : list (yct_attr C)) (n : string) : Prop :=
  exists a g, find (fun a => seqb (y_name a) n) l = Some a /\ y_node a = Some (YPub g).

Lemma yct_panics (sk : yct_sk C) ct f :
  parse (fst (ysk_policy sk)) (snd (ysk_policy sk)) = Ok (tree f) ->
  (yct_decrypt sk ct = Panic <->
   aborts (owns (map y_name (yct_attrs ct))) f = true \/
   sat (owns (map y_name (yct_attrs ct))) f = true /\
   ((exists n p, In (n, p) (picks (owns (map y_name (yct_attrs ct))) f) /\
                 (~ first_public (yct_attrs ct) n \/ ~ first_private (ysk_du sk) n)) \/
    (String.length (yct_data ct) < 12)%nat)).
Proof.
  intros P. unfold yct_decrypt. rewrite P. cbn [obind].
  set (attrs := map y_name (yct_attrs ct)).
  rewrite prune_exact. destruct (aborts (owns attrs) f) eqn:A; cbn [obind fst snd]; [tauto|].
  destruct (sat (owns attrs) f) eqn:S; cbn [fst snd]; [|intuition discriminate].
  rewrite (calc_coefficients_eq L). cbn [obind unwrap].
  assert (H : settled
    (ofold (yct_step sk ct ([] ++ gco f 1)) (map leaf_pair (picks (owns attrs) f)) (gtone C))
    (exists x, In x (map leaf_pair (picks (owns attrs) f)) /\
               (~ first_public (yct_attrs ct) (fst x) \/ ~ first_private (ysk_du sk) (fst x)))).
  { apply settled_ofold. intros st x I. apply in_map_iff in I as ([n p] & <- & I).
    apply (picks_leaf _ _ _ _ S) in I as [I O]. unfold yct_step, leaf_pair; cbn [fst snd app].
    destruct (coeff_of_leaf f n p (f1 C) I) as (v & E).
    apply settled_bind.
    - unfold ct_get_public, first_public.
      destruct (find (fun a => seqb (y_name a) n) (yct_attrs ct)) as [a|]; cbn.
      + unfold node_public. destruct (y_node a) as [[g|x]|] eqn:Y; cbn.
        * right. split; [|eauto]. intros X. apply X. eauto.
        * left. split; [|reflexivity]. intros (b & h & E1 & E2). congruence.
        * left. split; [|reflexivity]. intros (b & h & E1 & E2). congruence.
      + left. split; [|reflexivity]. intros (b & h & E1 & E2). congruence.
    - intros g _. eapply settled_iff; [|apply settled_bind].
      3: { intros x _. rewrite (find_assoc_id _ _ _ E). cbn [unwrap obind]. apply settled_Ok. }
      2: { instantiate (1 := ~ first_private (ysk_du sk) n).
        unfold sk_get_private, first_private.
        destruct (find (fun a => seqb (y_name a) n) (ysk_du sk)) as [a|]; cbn.
        + unfold node_private. destruct (y_node a) as [[h|x]|] eqn:Y; cbn.
          * left. split; [|reflexivity]. intros (b & h' & E1 & E2). congruence.
          * right. split; [|eauto]. intros X. apply X. eauto.
          * left. split; [|reflexivity]. intros (b & h' & E1 & E2). congruence.
        + left. split; [|reflexivity]. intros (b & h & E1 & E2). congruence. }
      tauto. }
  rewrite (tail_panics _ (fun x => x) _ _ H). split.
  - intros [(x & I & B)|B]; right; (split; [reflexivity|]); [left|right; exact B].
    apply in_map_iff in I as ([n p] & <- & I). now exists n, p.
  - intros [X|[_ [(n & p & I & B)|B]]]; [discriminate| |right; exact B]. left.
    exists (leaf_pair (n, p)). split; [now apply in_map|exact B].
Qed.

Lemma aw_panics gk (sk : aw_sk C) ct f :
  parse (fst (awct_policy ct)) (snd (awct_policy ct)) = Ok (tree f) ->
  (aw_decrypt gk sk ct = Panic <->
   map fst (awsk_attr sk) <> [] /\ sat (owns (map fst (awsk_attr sk))) f = true /\
   (aborts (owns (map fst (awsk_attr sk))) f = true \/
    (exists h, sha3_hash_g1 (agk_g1 gk) (awsk_gid sk) = Ok h) /\
    ((exists n p, In (n, p) (picks (owns (map fst (awsk_attr sk))) f) /\
                  ~ In (node_index n p) (map n4 (awct_c ct))) \/
     (String.length (awct_data ct) < 12)%nat))).
Proof.
  intros P. unfold aw_decrypt. rewrite P. cbn [obind].
  set (attrs := map fst (awsk_attr sk)). pose proof (allowed_exact attrs f) as T.
  destruct (traverse_policy attrs (tree f) Leaf).
  2: { split; [discriminate|]. intros (N & S & _). destruct T as [_ T].
       discriminate (T (conj N S)). }
  destruct T as [T _]. destruct (T eq_refl) as [N S].
  rewrite prune_exact. destruct (aborts (owns attrs) f) eqn:A; cbn [obind]; [tauto|].
  rewrite (calc_coefficients_eq L). cbn [obind unwrap fst snd]. rewrite S.
  destruct (sha3_hash_g1 (agk_g1 gk) (awsk_gid sk)) as [h| |] eqn:Hh; cbn [obind].
  2: { split; [discriminate|]. intros (_ & _ & [X|((h & X) & _)]); discriminate. }
  2: { unfold sha3_hash_g1 in Hh. destruct (hash C _); discriminate. }
  assert (H : settled
    (ofold (aw_step sk ct ([] ++ gco f 1) h) (map leaf_pair (picks (owns attrs) f)) (gtone C))
    (exists x, In x (map leaf_pair (picks (owns attrs) f)) /\ ~ In (snd x) (map n4 (awct_c ct)))).
  { apply settled_ofold. intros st x I. apply in_map_iff in I as ([n p] & <- & I).
    apply (picks_leaf _ _ _ _ S) in I as [I O]. unfold aw_step, leaf_pair; cbn [fst snd app].
    destruct (coeff_of_leaf f n p (f1 C) I) as (v & E).
    destruct (find (fun a => seqb (fst a) n) (awsk_attr sk)) eqn:K.
    2: { apply (find_None_names fst) in K. apply smem_In in O. contradiction. }
    cbn [unwrap obind]. eapply settled_iff; [|apply settled_bind].
    2: apply settled_unwrap.
    2: { intros c _. cbn zeta. rewrite (find_assoc_id _ _ _ E). cbn [unwrap obind]. apply settled_Ok. }
    rewrite (find_None_names n4). tauto. }
  rewrite (tail_panics _ (fun x => gtmul C (awct_c0 ct) (gtinv C x)) _ _ H). split.
  - intros B. split; [exact N|]. split; [reflexivity|]. right. split; [eauto|].
    destruct B as [(x & I & B)|B]; [left|right; exact B].
    apply in_map_iff in I as ([n p] & <- & I). now exists n, p.
  - intros (_ & _ & [X|[_ [(n & p & I & B)|B]]]); [discriminate| |right; exact B]. left.
    exists (leaf_pair (n, p)). split; [now apply in_map|exact B].
Qed.

Lemma bd_panics (sk : bd_uk C) ct f :
  parse (fst (Bdabe.bct_policy ct)) (snd (Bdabe.bct_policy ct)) = Ok (tree f) ->
  (bd_decrypt sk ct = Panic <->
   map bask_attr (buk_ska sk) <> [] /\ sat (owns (map bask_attr (buk_ska sk))) f = true /\
   (String.length (Bdabe.bct_data ct) < 12)%nat).
Proof.
  intros P. unfold bd_decrypt. rewrite P. cbn [obind].
  pose proof (allowed_exact (map bask_attr (buk_ska sk)) f) as T.
  destruct (traverse_policy _ _ _).
  - rewrite symmetric_panics. tauto.
  - split; [discriminate|]. intros (N & S & _). destruct T as [_ T]. discriminate (T (conj N S)).
Qed.

Lemma mk_panics (sk : mk_uk C) ct f :
  parse (fst (mct_policy ct)) (snd (mct_policy ct)) = Ok (tree f) ->
  (mk_decrypt sk ct = Panic <->
   map mask_attr (muk_ska sk) <> [] /\ sat (owns (map mask_attr (muk_ska sk))) f = true /\
   (String.length (mct_data ct) < 12)%nat).
Proof.
  intros P. unfold mk_decrypt. rewrite P. cbn [obind].
  pose proof (allowed_exact (map mask_attr (muk_ska sk)) f) as T.
  destruct (traverse_policy _ _ _).
  - rewrite symmetric_panics. tauto.
  - split; [discriminate|]. intros (N & S & _). destruct T as [_ T]. discriminate (T (conj N S)).
Qed.

(** ** AC17: the vectors must have three components *)

(** An entry that one of the selected names uses is shorter than three. *)
Definition short_entry (entries : list (string * list (G1 C))) (sel : list string) : Prop :=
  exists e, In e entries /\ In (fst e) sel /\ (length (snd e) < 3)%nat.

Lemma select_settled (entries : list (string * list (G1 C))) i sel :
  settled (select_sum entries i sel)
    (exists e, In e entries /\ In (fst e) (map fst sel) /\ (length (snd e) <= i)%nat).
Proof.
  unfold select_sum. eapply settled_iff.
  2: { apply (settled_ofold _ (fun cur => exists e, In e entries /\
              (fst e = fst cur /\ (length (snd e) <= i)%nat))).
       intros st cur _. apply (settled_ofold _ (fun e : string * list (G1 C) => fst e = fst cur /\ (length (snd e) <= i)%nat)).
       intros acc e _. destruct (seqb (fst e) (fst cur)) eqn:E.
       - apply seqb_eq in E. eapply settled_iff; [|apply settled_bind].
         2: apply idx_settled. 2: intros; apply settled_Ok. tauto.
       - apply seqb_neq in E. eapply settled_iff; [|apply settled_Ok]. tauto. }
  split.
  - intros (cur & Ic & e & Ie & E & H). exists e. rewrite E. split; [exact Ie|].
    split; [now apply in_map|exact H].
  - intros (e & Ie & I & H). apply in_map_iff in I as (cur & E & I).
    exists cur. split; [exact I|]. exists e. auto.
Qed.

Lemma products_settled (sk : ac_sk C) ct kp sel :
  settled (ac_products sk ct kp sel)
    (short_entry (act_c ct) (map fst sel) \/ short_entry (ask_k sk) (map fst sel) \/
     (kp = false /\ (length (ask_kp sk) < 3)%nat) \/
     (length (act_c0 ct) < 3)%nat \/ (length (ask_k0 sk) < 3)%nat).
Proof.
  unfold ac_products. eapply settled_iff.
  2: { apply (settled_ofold _ (fun i =>
         (exists e, In e (act_c ct) /\ In (fst e) (map fst sel) /\ (length (snd e) <= i)%nat) \/
         (exists e, In e (ask_k sk) /\ In (fst e) (map fst sel) /\ (length (snd e) <= i)%nat) \/
         (kp = false /\ (length (ask_kp sk) <= i)%nat) \/
         (length (act_c0 ct) <= i)%nat \/ (length (ask_k0 sk) <= i)%nat)).
       intros st i _. apply settled_bind; [apply select_settled|intros g _].
       apply settled_bind; [apply select_settled|intros h _].
       apply settled_bind.
       { destruct kp.
         - eapply settled_iff; [|apply settled_Ok]. intuition discriminate.
         - eapply settled_iff; [|apply settled_bind].
           2: apply idx_settled. 2: intros; apply settled_Ok. intuition. }
       intros u _. apply settled_bind; [apply idx_settled|intros c0 _].
       eapply settled_iff; [|apply settled_bind].
       2: apply idx_settled. 2: intros; apply settled_Ok. tauto. }
  assert (I : forall i, In i ls <-> (i < 3)%nat)
    by (intros i; cbn; split; [intuition lia|destruct i as [|[|[|i]]]; auto; lia]).
  unfold short_entry. split.
  - intros (i & Ii & H). apply I in Ii.
    destruct H as [(e & A & B & D)|[(e & A & B & D)|[[A D]|[D|D]]]].
    + left. exists e. repeat split; auto; lia.
    + right; left. exists e. repeat split; auto; lia.
    + right; right; left. split; [exact A|lia].
    + right; right; right; left. lia.
    + right; right; right; right. lia.
  - intros H. exists 2%nat. split; [apply I; lia|].
    destruct H as [(e & A & B & D)|[(e & A & B & D)|[[A D]|[D|D]]]].
    + left. exists e. repeat split; auto; lia.
    + right; left. exists e. repeat split; auto; lia.
    + right; right; left. split; [exact A|lia].
    + right; right; right; left. lia.
    + right; right; right; right. lia.
Qed.

Lemma ac_panics attrs policy (sk : ac_sk C) ct kp f :
  parse (fst policy) (snd policy) = Ok (tree f) ->
  (ac_open attrs policy sk ct kp = Panic <->
   attrs <> [] /\ sat (owns attrs) f = true /\
   (aborts (owns attrs) f = true \/
    short_entry (act_c ct) (map fst (picks (owns attrs) f)) \/
    short_entry (ask_k sk) (map fst (picks (owns attrs) f)) \/
    (kp = false /\ (length (ask_kp sk) < 3)%nat) \/
    (length (act_c0 ct) < 3)%nat \/ (length (ask_k0 sk) < 3)%nat \/
    (String.length (act_ct ct) < 12)%nat)).
Proof.
  intros P. unfold ac_open. rewrite P. cbn [obind].
  pose proof (allowed_exact attrs f) as T.
  destruct (traverse_policy attrs (tree f) Leaf).
  2: { split; [discriminate|]. intros (N & S & _). destruct T as [_ T].
       discriminate (T (conj N S)). }
  destruct T as [T _]. destruct (T eq_refl) as [N S].
  rewrite prune_exact. destruct (aborts (owns attrs) f) eqn:A; cbn [obind fst snd]; [tauto|].
  rewrite S. cbn [fst snd].
  pose proof (products_settled sk ct kp (map leaf_pair (picks (owns attrs) f))) as H.
  rewrite (tail_panics _ (fun ps => gtmul C (act_cp ct) (gtmul C (snd ps) (gtinv C (fst ps)))) _ _ H).
  rewrite map_map. cbn [leaf_pair fst]. change (map (fun x => fst (leaf_pair x))) with (map (@fst string nat)).
  intuition discriminate.
Qed.

End Robust.

(** ** Span programs of arbitrary policy values

    [PolicyValue] is a public type: values need not come from the parser. *)

Inductive convertible : pvalue -> option ptype -> Prop :=
| conv_str n p t : convertible (PStr n p) t
| conv_obj ty w t : convertible w (Some ty) -> convertible (PObj ty w) t
| conv_or l : 2 <= length l -> (forall q, In q l -> convertible q (Some Or)) ->
    convertible (PArr l) (Some Or)
| conv_and a b : convertible a (Some And) -> convertible b (Some And) ->
    convertible (PArr [a; b]) (Some And).

Inductive crashes : pvalue -> option ptype -> Prop :=
| crash_short l t : length l < 2 -> crashes (PArr l) t
| crash_obj ty w t : crashes w (Some ty) -> crashes (PObj ty w) t
| crash_or l q : In q l -> crashes q (Some Or) -> crashes (PArr l) (Some Or)
| crash_wide l : 2 < length l -> crashes (PArr l) (Some And)
| crash_left a b : crashes a (Some And) -> crashes (PArr [a; b]) (Some And)
| crash_right a b : convertible a (Some And) -> crashes b (Some And) ->
    crashes (PArr [a; b]) (Some And).

Lemma pvalue_ind' (P : pvalue -> Prop) :
  (forall n p, P (PStr n p)) -> (forall t w, P w -> P (PObj t w)) ->
  (forall l, Forall P l -> P (PArr l)) -> forall v, P v.
Proof.
  intros HS HO HA. fix IH 1. intros [t w|l|n p].
  - apply HO. apply IH.
  - apply HA. induction l as [|a l IHl]; constructor; [apply IH|exact IHl].
  - apply HS.
Qed.

Lemma lw_verdict p : forall v t m,
  match lw p v t m with
  | Ok (true, _) => convertible p t /\ ~ crashes p t
  | Ok (false, _) => ~ convertible p t /\ ~ crashes p t
  | Panic => crashes p t /\ ~ convertible p t
  | Err => False
  end.
Proof.
  induction p as [n p|ty w IH|l IH] using pvalue_ind'; intros v t m.
  - cbn. split; [constructor|]. intros H; inversion H.
  - cbn [lw]. specialize (IH v (Some ty) m).
    assert (A : convertible (PObj ty w) t <-> convertible w (Some ty))
      by (split; [now inversion 1|now constructor]).
    assert (B : crashes (PObj ty w) t <-> crashes w (Some ty))
      by (split; [now inversion 1|now constructor]).
    destruct (lw w v (Some ty) m) as [[[|] m']| |]; try rewrite A, B; exact IH.
  - cbn [lw]. destruct (length l <? 2) eqn:E.
    { apply Nat.ltb_lt in E. split; [now constructor|]. inversion 1; subst; cbn in *; lia. }
    apply Nat.ltb_ge in E. destruct t as [[| |]|].
    + destruct l as [|a [|b [|c l]]]; try (cbn in E; lia).
      2: { split; [apply crash_wide; cbn; lia|]. inversion 1. }
      inversion IH as [|? ? Ha IH']; subst. inversion IH' as [|? ? Hb _]; subst.
      cbn zeta. specialize (Ha (resize v (msp_c m) ++ [1%Z]) (Some And)
        (AbePolicy (msp_m m) (msp_pi m) (S (msp_c m)))).
      destruct (lw a _ _ _) as [[[|] ma]| |]; cbn [obind fst snd].
      * destruct Ha as [Ca Na].
        specialize (Hb (repeat 0%Z (msp_c m) ++ [(-1)%Z]) (Some And) ma).
        destruct (lw b _ _ _) as [[[|] mb]| |]; [| |exact Hb|].
        -- destruct Hb as [Cb Nb]. split; [now constructor|].
           inversion 1; subst; cbn in *; try lia; contradiction.
        -- destruct Hb as [Cb Nb]. split; [now inversion 1|].
           inversion 1; subst; cbn in *; try lia; contradiction.
        -- destruct Hb as [Cb Nb]. split; [now constructor|]. now inversion 1.
      * destruct Ha as [Ca Na]. split; [now inversion 1|].
        inversion 1; subst; cbn in *; try lia; contradiction.
      * exact Ha.
      * destruct Ha as [Ca Na]. split; [now constructor|]. now inversion 1.
    + assert (H : forall ret m,
        match (fix loop (l : list pvalue) (ret : bool) (msp : abe_policy) :=
             match l with
             | [] => Ok (ret, msp)
             | q :: r => obind (lw q v (Some Or) msp) (fun bm =>
                         loop r (ret && fst bm) (snd bm))
             end) l ret m with
        | Ok (true, _) => ret = true /\ (forall q, In q l -> convertible q (Some Or)) /\
                          (forall q, In q l -> ~ crashes q (Some Or))
        | Ok (false, _) => (ret = false \/ exists q, In q l /\ ~ convertible q (Some Or)) /\
                           (forall q, In q l -> ~ crashes q (Some Or))
        | Panic => exists q, In q l /\ crashes q (Some Or) /\ ~ convertible q (Some Or)
        | Err => False
        end).
      { clear E m. induction IH as [|q l Hq _ IHl]; intros ret m.
        - destruct ret; cbn; tauto.
        - specialize (Hq v (Some Or) m).
          destruct (lw q v (Some Or) m) as [[b mq]| |] eqn:Q; cbn [obind fst snd].
          + specialize (IHl (ret && b) mq).
            destruct ((fix loop (l : list pvalue) (ret : bool) (msp : abe_policy) {struct l} := _) l
              (ret && b) mq) as [[[|] m']| |].
            * destruct IHl as (R & A & B). apply andb_prop in R as [-> ->].
              destruct Hq as [C1 C2]. repeat split; intros q' [<-|I]; auto.
            * destruct IHl as (R & B). destruct b.
              -- rewrite andb_true_r in R. destruct Hq as [C1 C2]. split.
                 ++ destruct R as [R|(q' & I & R)]; [now left|right; exists q'; cbn; auto].
                 ++ intros q' [<-|I]; auto.
              -- destruct Hq as [C1 C2]. split; [right; exists q; cbn; auto|].
                 intros q' [<-|I]; auto.
            * exact IHl.
            * destruct IHl as (q' & I & A). exists q'. cbn; auto.
          + exact Hq.
          + exists q. cbn. tauto. }
      specialize (H true m).
      destruct ((fix loop (l : list pvalue) (ret : bool) (msp : abe_policy) {struct l} := _) l
        true m) as [[[|] m']| |].
      * destruct H as (_ & A & B). split; [now constructor|].
        inversion 1; subst; [lia|]. eapply B; eauto.
      * destruct H as (A & B). split.
        -- inversion 1; subst. destruct A as [A|(q & I & A)]; [discriminate|]. auto.
        -- inversion 1; subst; [lia|]. eapply B; eauto.
      * exact H.
      * destruct H as (q & I & A & B). split; [eapply crash_or; eauto|]. inversion 1; subst. auto.
    + split; [now inversion 1|]. inversion 1; subst. lia.
    + split; [now inversion 1|]. inversion 1; subst. lia.
Qed.

(** Conversion succeeds, aborts or reports an error exactly on these values. *)
Lemma msp_verdict p :
  ((exists m, calculate_msp p = Ok m) <-> convertible p None) /\
  (calculate_msp p = Panic <-> crashes p None) /\
  (calculate_msp p = Err <-> ~ convertible p None /\ ~ crashes p None).
Proof.
  unfold calculate_msp. pose proof (lw_verdict p [1%Z] None (AbePolicy [] [] 1)) as H.
  destruct (lw p [1%Z] None (AbePolicy [] [] 1)) as [[[|] m]| |]; cbn [obind fst snd].
  - destruct H as [A B]. split; [split; eauto|]. split; split; intros; try discriminate; intuition eauto.
  - destruct H as [A B]. split; [split; [intros (x & X); discriminate|tauto]|].
    split; split; intros; try discriminate; intuition eauto.
  - destruct H.
  - destruct H as [A B]. split; [split; [intros (x & X); discriminate|tauto]|].
    split; split; intros; try discriminate; intuition eauto.
Qed.
