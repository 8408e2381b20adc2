(** * Proofs about leaf identifiers, the access check and pruning *)
From Coq Require Import String Ascii List Bool Arith Lia.
From Coq Require Import DecimalString.
From Verif Require Import Base Policy Tools Crypto Sharing Spec.
Import ListNotations.

(** ** Lists *)

Lemma forallb_map' {A B} (f : A -> B) p l : forallb p (map f l) = forallb (fun x => p (f x)) l.
Proof. induction l; cbn; congruence. Qed.

Lemma existsb_map' {A B} (f : A -> B) p l : existsb p (map f l) = existsb (fun x => p (f x)) l.
Proof. induction l; cbn; congruence. Qed.

Lemma forallb_ext_Forall {A} (p q : A -> bool) l :
  Forall (fun x => p x = q x) l -> forallb p l = forallb q l.
Proof. induction 1; cbn; congruence. Qed.

Lemma existsb_ext_Forall {A} (p q : A -> bool) l :
  Forall (fun x => p x = q x) l -> existsb p l = existsb q l.
Proof. induction 1; cbn; congruence. Qed.

Lemma existsb_sym_seqb n l : existsb (fun x => seqb x n) l = smem n l.
Proof.
  induction l as [|a l IH]; cbn; [reflexivity|]. rewrite IH. f_equal.
  unfold seqb. apply String.eqb_sym.
Qed.

Lemma contains_smem l n : contains l n = smem n l.
Proof.
  unfold contains, smem. induction l as [|a l IH]; [reflexivity|].
  cbn [filter existsb]. replace (seqb a n) with (seqb n a) by apply String.eqb_sym.
  destruct (seqb n a); [reflexivity|exact IH].
Qed.

(** ** Leaf identifiers *)

Lemma no_us_dec n : no_us (dec n) = true.
Proof.
  unfold dec. generalize (Nat.to_uint n). clear.
  induction u; cbn; auto.
Qed.

Lemma no_us_app a b : no_us (a ++ b) = no_us a && no_us b.
Proof. induction a; cbn; [reflexivity|]. rewrite IHa. apply andb_assoc. Qed.

Lemma remove_index_no_us n : no_us n = true -> remove_index n = n.
Proof.
  induction n as [|c n IH]; cbn; [reflexivity|].
  destruct (Ascii.eqb c "_"); cbn; [discriminate|]. intros H. now rewrite IH.
Qed.

Lemma remove_index_node n p : remove_index (node_index n p) = remove_index n.
Proof.
  unfold node_index. change ("_" ++ dec p)%string with (String "_"%char (dec p)).
  generalize (dec p). intros d.
  induction n as [|c n IH]; cbn; [reflexivity|].
  destruct (Ascii.eqb c "_"); [reflexivity|]. now rewrite IH.
Qed.

Lemma remove_index_leaf n p : no_us n = true -> remove_index (node_index n p) = n.
Proof. intros H. rewrite remove_index_node. now apply remove_index_no_us. Qed.

Lemma us_split_inj n : forall n' d d', no_us d = true -> no_us d' = true ->
  (n ++ "_" ++ d)%string = (n' ++ "_" ++ d')%string -> n = n' /\ d = d'.
Proof.
  induction n as [|c n IH]; intros [|c' n'] d d' Hd Hd' E; cbn in E.
  - injection E as E. auto.
  - injection E as <- E. rewrite E in Hd. rewrite no_us_app in Hd. cbn in Hd.
    rewrite andb_false_r in Hd. discriminate.
  - injection E as -> E. rewrite <- E in Hd'. rewrite no_us_app in Hd'. cbn in Hd'.
    rewrite andb_false_r in Hd'. discriminate.
  - injection E as -> E. apply IH in E as [-> ->]; auto.
Qed.

Lemma node_index_inj n p n' p' : node_index n p = node_index n' p' -> n = n' /\ p = p'.
Proof.
  unfold node_index. intros E. apply us_split_inj in E as [-> E]; auto using no_us_dec.
  apply dec_inj in E. auto.
Qed.

(** ** The access check *)

Lemma traverse_tree attrs f : forall t,
  traverse_policy attrs (tree f) t = (0 <? length attrs) && sat (owns attrs) f.
Proof.
  induction f as [n p|l IH|l IH] using formula_ind'; intros t.
  - cbn. f_equal. apply existsb_sym_seqb.
  - cbn [tree traverse_policy sat]. rewrite forallb_map'.
    destruct (0 <? length attrs) eqn:E; [cbn|reflexivity].
    apply forallb_ext_Forall. eapply Forall_impl; [|exact IH].
    intros f H. apply (H Leaf).
  - cbn [tree traverse_policy sat]. rewrite existsb_map'.
    destruct (0 <? length attrs) eqn:E; [cbn|reflexivity].
    apply existsb_ext_Forall. eapply Forall_impl; [|exact IH].
    intros f H. apply (H Leaf).
Qed.

Lemma sat_mono (own own' : string -> bool) f :
  (forall n, own n = true -> own' n = true) -> sat own f = true -> sat own' f = true.
Proof.
  intros M. induction f as [n p|l IH|l IH] using formula_ind'; cbn.
  - apply M.
  - rewrite !forallb_forall. rewrite Forall_forall in IH. auto.
  - rewrite !existsb_exists. rewrite Forall_forall in IH.
    intros (x & Hx & S). eauto.
Qed.

Lemma owns_incl a b : (forall x, In x a -> In x b) ->
  forall n, owns a n = true -> owns b n = true.
Proof. unfold owns. intros H n. rewrite !smem_In. auto. Qed.

(** ** Pruning *)

(** Keep the entries whose mask bit is set. *)
Fixpoint sel {A} (m : list bool) (l : list A) : list A :=
  match m, l with
  | b :: m', x :: l' => if b then x :: sel m' l' else sel m' l'
  | _, _ => []
  end.

Definition nomask {A} (l : list A) : list bool := map (fun _ => false) l.

Section Mask.
Variable own : string -> bool.

(** The leaves that pruning keeps, as a mask over [leaves f]. *)
Fixpoint pmask (f : formula) : list bool :=
  match f with
  | FLeaf n _ => [own n]
  | FAnd l => flat_map pmask l
  | FOr l =>
      (fix go (l : list formula) :=
         match l with
         | [] => []
         | c :: r => if sat own c then pmask c ++ nomask (flat_map leaves r)
                     else nomask (leaves c) ++ go r
         end) l
  end.

Definition pmask_or : list formula -> list bool :=
  fix go (l : list formula) :=
         match l with
         | [] => []
         | c :: r => if sat own c then pmask c ++ nomask (flat_map leaves r)
                     else nomask (leaves c) ++ go r
         end.

Lemma pmask_length f : length (pmask f) = length (leaves f).
Proof.
  induction f as [n p|l IH|l IH] using formula_ind'; [reflexivity| |].
  - cbn. induction IH as [|c l H _ IHl]; cbn; [reflexivity|].
    rewrite !app_length. congruence.
  - change (length (pmask_or l) = length (flat_map leaves l)).
    induction IH as [|c l H _ IHl]; cbn; [reflexivity|].
    unfold nomask. destruct (sat own c); rewrite !app_length, map_length; lia.
Qed.

Lemma sel_app {A} (m1 m2 : list bool) (l1 l2 : list A) : length m1 = length l1 ->
  sel (m1 ++ m2) (l1 ++ l2) = sel m1 l1 ++ sel m2 l2.
Proof.
  revert l1. induction m1 as [|b m1 IH]; intros [|x l1] H; try discriminate; [reflexivity|].
  cbn. injection H as H. rewrite (IH _ H). now destruct b.
Qed.

Lemma sel_nomask {A B} (l : list A) : forall (k : list B), sel (nomask l) k = [].
Proof. unfold nomask. induction l as [|x l IH]; intros [|y k]; cbn; auto. Qed.

Lemma sel_incl {A} (m : list bool) : forall (l : list A), incl (sel m l) l.
Proof.
  induction m as [|b m IH]; intros [|x l] y; cbn; try tauto.
  destruct b; cbn; intros H; [destruct H; auto|]; right; now apply IH.
Qed.

Lemma sel_map {A B} (f : A -> B) m : forall l, sel m (map f l) = map f (sel m l).
Proof.
  induction m as [|b m IH]; intros [|x l]; cbn; auto. destruct b; cbn; now rewrite IH.
Qed.

Lemma pmask_owned f : forall n p, In (n, p) (sel (pmask f) (leaves f)) -> own n = true.
Proof.
  induction f as [n p|l IH|l IH] using formula_ind'.
  - cbn. intros n' p'. destruct (own n) eqn:E; cbn; [|tauto].
    intros [H|[]]. injection H as <- <-. exact E.
  - cbn [pmask leaves]. induction IH as [|c l H _ IHl]; cbn; [tauto|].
    intros n p. rewrite sel_app by apply pmask_length. rewrite in_app_iff.
    intros [I|I]; eauto.
  - change (pmask (FOr l)) with (pmask_or l). cbn [leaves].
    induction IH as [|c l H _ IHl]; cbn [pmask_or flat_map]; [cbn; tauto|].
    intros n p. destruct (sat own c).
    + rewrite sel_app by apply pmask_length. rewrite sel_nomask, app_nil_r. apply H.
    + rewrite sel_app by (unfold nomask; now rewrite map_length).
      rewrite sel_nomask. cbn. apply IHl.
Qed.

(** The selected names alone satisfy the formula. *)
Lemma pmask_sat f : sat own f = true ->
  sat (fun n => smem n (map fst (sel (pmask f) (leaves f)))) f = true.
Proof.
  induction f as [n p|l IH|l IH] using formula_ind'.
  - cbn. intros H. rewrite H. cbn. now rewrite seqb_refl.
  - cbn [sat pmask leaves]. rewrite !forallb_forall. intros H c Hc.
    rewrite Forall_forall in IH. specialize (IH c Hc (H c Hc)).
    eapply sat_mono; [|exact IH]. intros n. cbn. rewrite !smem_In.
    clear - Hc. intros I. induction l as [|d l IHl]; [contradiction|].
    cbn. rewrite sel_app by apply pmask_length. rewrite map_app, in_app_iff.
    destruct Hc as [->|Hc]; [now left|right; auto].
  - change (pmask (FOr l)) with (pmask_or l). cbn [sat leaves].
    induction IH as [|c l H _ IHl]; [cbn; auto|].
    cbn [existsb pmask_or flat_map]. destruct (sat own c) eqn:E.
    + intros _. rewrite sel_app by apply pmask_length. rewrite sel_nomask, app_nil_r.
      rewrite H; auto.
    + cbn [orb]. intros S. rewrite sel_app by (unfold nomask; now rewrite map_length).
      rewrite sel_nomask. cbn [app]. rewrite IHl by exact S. apply orb_true_r.
Qed.

End Mask.

Definition leaf_pair (x : string * nat) : string * string :=
  (fst x, node_index (fst x) (snd x)).

Lemma calc_pruned_tree attrs f : forall t, arity2 f = true ->
  calc_pruned attrs (tree f) t =
  Ok (sat (owns attrs) f,
      if sat (owns attrs) f
      then map leaf_pair (sel (pmask (owns attrs) f) (leaves f)) else []).
Proof.
  induction f as [n p|l IH|l IH] using formula_ind'; intros t A.
  - cbn [tree calc_pruned sat pmask leaves]. rewrite contains_smem.
    fold (owns attrs n). now destruct (owns attrs n).
  - cbn [arity2] in A. apply andb_prop in A as [A1 A2].
    cbn [tree calc_pruned]. rewrite map_length, A1.
    set (loop := fix loop (l : list pvalue) (m : bool) (acc : list (string * string)) {struct l} :=
                     match l with
                     | [] => Ok (m, acc)
                     | c :: r =>
                         obind (unwrap_res (calc_pruned attrs c None)) (fun fl =>
                         let m' := m && fst fl in
                         loop r m' (if m' then acc ++ snd fl else acc))
                     end).
    assert (H : forall m acc, exists acc',
      loop (map tree l) m acc = Ok (m && forallb (sat (owns attrs)) l, acc') /\
      (m && forallb (sat (owns attrs)) l = true ->
       acc' = acc ++ map leaf_pair (sel (flat_map (pmask (owns attrs)) l) (flat_map leaves l)))).
    { clear A1. rewrite forallb_forall in A2.
      induction IH as [|c l H _ IHl]; intros m acc.
      - exists acc. cbn. split; [now rewrite andb_true_r|]. intros _. now rewrite app_nil_r.
      - cbn [map forallb flat_map]. cbn [loop]. rewrite H by (apply A2; now left).
        cbn [unwrap_res obind fst snd].
        destruct (IHl (fun x Hx => A2 x (or_intror Hx)) (m && sat (owns attrs) c)
          (if m && sat (owns attrs) c
           then acc ++ (if sat (owns attrs) c then map leaf_pair (sel (pmask (owns attrs) c) (leaves c)) else [])
           else acc)) as (acc' & E & V).
        exists acc'. rewrite andb_assoc. split; [exact E|].
        intros T. rewrite V by exact T. apply andb_prop in T as [T _].
        rewrite T. apply andb_prop in T as [_ T]. rewrite T.
        rewrite sel_app by apply pmask_length. now rewrite map_app, app_assoc. }
    destruct (H true []) as (acc' & E & V). rewrite E. cbn [andb sat].
    cbn [andb] in V. f_equal. f_equal.
    destruct (forallb (sat (owns attrs)) l) eqn:S; [|reflexivity].
    now rewrite V.
  - cbn [arity2] in A. apply andb_prop in A as [A1 A2].
    cbn [tree calc_pruned]. rewrite map_length, A1. clear A1.
    rewrite forallb_forall in A2.
    change (pmask (owns attrs) (FOr l)) with (pmask_or (owns attrs) l).
    cbn [sat leaves].
    induction IH as [|c l H _ IHl]; [reflexivity|].
    cbn [map existsb flat_map pmask_or]. rewrite H by (apply A2; now left).
    cbn [unwrap_res obind fst snd].
    destruct (sat (owns attrs) c) eqn:S.
    + cbn [orb]. rewrite sel_app by apply pmask_length.
      now rewrite sel_nomask, app_nil_r.
    + cbn [orb]. rewrite IHl by (intros; apply A2; now right).
      rewrite sel_app by (unfold nomask; now rewrite map_length).
      now rewrite sel_nomask.
Qed.
