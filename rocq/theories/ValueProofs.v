(** * ValueProofs: the functions on policy values, for values that no parser built (C96)

    [PolicyValue] and the functions on it are public, so a caller can build
    values of other shapes than the parser does. *)
From Coq Require Import String List Bool Arith Lia ZArith.
From Verif Require Import Base Crypto Policy Tools Sharing Spec Msp Dnf RobustProofs.
Import ListNotations.

(** ** Specification: the policy a value stands for *)

Fixpoint all_some {A} (l : list (option A)) : option (list A) :=
  match l with
  | [] => Some []
  | None :: _ => None
  | Some x :: r => match all_some r with Some xs => Some (x :: xs) | None => None end
  end.

(** An array takes its kind from the nearest object around it. *)
Fixpoint reading (v : pvalue) (t : option ptype) : option formula :=
  match v with
  | PStr n c => Some (FLeaf n c)
  | PObj ty w => reading w (Some ty)
  | PArr l =>
      match t with
      | Some And => option_map FAnd (all_some (map (fun w => reading w None) l))
      | Some Or => option_map FOr (all_some (map (fun w => reading w None) l))
      | _ => None
      end
  end.

(** Objects of kind [Leaf] hold a name / do not occur. *)
Fixpoint named_leaves (v : pvalue) : bool :=
  match v with
  | PStr _ _ => true
  | PObj Leaf w => match w with PStr _ _ => true | _ => false end
  | PObj _ w => named_leaves w
  | PArr l => forallb named_leaves l
  end.
Fixpoint no_leaf_objects (v : pvalue) : bool :=
  match v with
  | PStr _ _ => true
  | PObj Leaf _ => false
  | PObj _ w => no_leaf_objects w
  | PArr l => forallb no_leaf_objects l
  end.

(** [u] occurs in [v]. *)
Inductive occurs (u : pvalue) : pvalue -> Prop :=
| occurs_here : occurs u u
| occurs_obj t w : occurs u w -> occurs u (PObj t w)
| occurs_arr l w : In w l -> occurs u w -> occurs u (PArr l).

(** ** Proofs *)

Lemma all_some_readings l fs : all_some (map (fun w => reading w None) l) = Some fs <->
  Forall2 (fun w f => reading w None = Some f) l fs.
Proof.
  revert fs. induction l as [|w l IH]; intros fs; cbn [map all_some].
  - split; [intros H; injection H as <-; constructor|inversion 1; reflexivity].
  - destruct (reading w None) as [f|] eqn:E.
    + destruct (all_some (map (fun w => reading w None) l)) as [gs|] eqn:G.
      * split; [intros H; injection H as <-; constructor; [exact E|now apply IH]|].
        inversion 1 as [|? ? ? ? A B]; subst. rewrite E in A. injection A as <-. apply IH in B. congruence.
      * split; [discriminate|]. inversion 1 as [|? ? ? ? A B]; subst. apply IH in B. discriminate.
    + split; [discriminate|]. inversion 1 as [|? ? ? ? A B]; subst. congruence.
Qed.

Lemma all_some_none l : all_some (map (fun w => reading w None) l) = None -> exists w, In w l /\ reading w None = None.
Proof.
  induction l as [|w l IH]; cbn [map all_some]; [discriminate|]. destruct (reading w None) eqn:E; [|eauto using in_eq].
  destruct (all_some (map (fun w => reading w None) l)); [discriminate|]. intros _. destruct (IH eq_refl) as (u & I & U). eauto using in_cons.
Qed.

Lemma reading_arr l t f : reading (PArr l) t = Some f -> exists ty fs,
  t = Some ty /\ Forall2 (fun w f => reading w None = Some f) l fs /\
  ((ty = And /\ f = FAnd fs) \/ (ty = Or /\ f = FOr fs)).
Proof.
  cbn [reading]. intros H. destruct t as [[]|]; try discriminate;
  (destruct (all_some (map (fun w => reading w None) l)) as [fs|] eqn:E; cbn in H; [|discriminate]; injection H as <-;
   apply all_some_readings in E; eauto 8).
Qed.

Lemma readings_length l fs : Forall2 (fun w f => reading w None = Some f) l fs -> length (map tree fs) = length l.
Proof. intros H. rewrite map_length. induction H as [|w f l fs _ _ IH]; cbn; [reflexivity|]. now rewrite IH. Qed.

Section Values.
Context {C : crypto}.
Notation F := (F C).

(** *** Sharing *)

Definition share_loop : list pvalue -> list F -> list (string * F) -> rand F (list (string * F)) :=
  fix loop (l : list pvalue) (sh : list F) (acc : list (string * F)) :=
    match l with
    | [] => rret acc
    | c :: r => match sh with
                | [] => rpanic
                | s :: sr => rbind (gen_shares_policy s c None) (fun items => loop r sr (acc ++ items))
                end
    end.

Lemma share_arr s l ty tp i : ty <> Leaf -> gen_shares_policy (C := C) s (PArr l) (Some ty) tp i =
  rbind (gen_shares s (match ty with And => length l | _ => 1 end) (length l))
        (fun shares => share_loop l (tl shares) []) tp i.
Proof. destruct ty; [reflexivity..|congruence]. Qed.

Theorem shares_read v : forall t f, reading v t = Some f -> forall s tp i,
  gen_shares_policy (C := C) s v t tp i = gen_shares_policy s (tree f) None tp i.
Proof.
  induction v as [n c|ty w IH|l IH] using pvalue_ind'; intros t f R s tp i.
  - injection R as <-. reflexivity.
  - cbn [reading gen_shares_policy] in *. now apply IH.
  - apply reading_arr in R as (ty & fs & -> & Fs & K).
    assert (Lp : forall sh acc tp i, share_loop l sh acc tp i = share_loop (map tree fs) sh acc tp i).
    { clear -IH Fs. induction Fs as [|w f l fs R _ IHl]; intros sh acc tp i; [reflexivity|].
      inversion IH as [|? ? Hw Hl]; subst. cbn [map share_loop]. destruct sh as [|x sh]; [reflexivity|].
      unfold rbind. rewrite (Hw None f R x tp i). destruct (gen_shares_policy x (tree f) None tp i) as [[a j]| |]; auto. }
    destruct K as [(-> & ->)|(-> & ->)]; cbn [tree]; rewrite share_arr by discriminate;
      change (gen_shares_policy s (PObj ?k ?a) None) with (gen_shares_policy s a (Some k));
      rewrite share_arr by discriminate; rewrite (readings_length _ _ Fs); unfold rbind;
      destruct (gen_shares _ _ _ tp i) as [[a j]| |]; auto.
Qed.

Lemma share_loop_panics l w : In w l -> (forall s tp i, gen_shares_policy (C := C) s w None tp i = Panic) ->
  (forall v, In v l -> forall s tp i, gen_shares_policy (C := C) s v None tp i <> Err) ->
  forall sh acc tp i, share_loop l sh acc tp i = Panic.
Proof.
  intros I P. induction l as [|c l IH]; [destruct I|]. intros N sh acc tp i. cbn [share_loop].
  destruct sh as [|x sh]; [reflexivity|]. unfold rbind. destruct I as [->|I]; [now rewrite P|].
  pose proof (N c (or_introl eq_refl) x tp i) as Nc.
  destruct (gen_shares_policy x c None tp i) as [[a j]| |]; [|congruence|reflexivity]. apply IH; [exact I|]. intros. apply N. now right.
Qed.

Lemma draws_ok n : forall (tp : nat -> F) i, exists l j, draws n tp i = Ok (l, j).
Proof.
  induction n as [|n IH]; intros tp i; [exists [], i; reflexivity|]. cbn [draws]. unfold rbind at 1, draw.
  destruct (IH tp (S i)) as (l & j & E). unfold rbind. rewrite E. eexists _, _. reflexivity.
Qed.
Lemma gen_shares_ok (s : F) k n tp i : exists l j, gen_shares s k n tp i = Ok (l, j).
Proof.
  unfold gen_shares. destruct (k <=? n); [|exists [], i; reflexivity].
  destruct (draws_ok (k - 1) tp i) as (l & j & E). unfold rbind. rewrite E. eexists _, _. reflexivity.
Qed.

Lemma share_loop_no_err l : (forall v, In v l -> forall s tp i, gen_shares_policy (C := C) s v None tp i <> Err) ->
  forall sh acc tp i, share_loop l sh acc tp i <> Err.
Proof.
  induction l as [|c l IH]; intros N sh acc tp i; [discriminate|]. cbn [share_loop]. destruct sh as [|x sh]; [discriminate|].
  unfold rbind. pose proof (N c (or_introl eq_refl) x tp i) as Nc.
  destruct (gen_shares_policy x c None tp i) as [[a j]| |]; [|congruence|discriminate]. apply IH. intros. apply N. now right.
Qed.

Lemma shares_no_err v : forall t s tp i, gen_shares_policy (C := C) s v t tp i <> Err.
Proof.
  induction v as [n c|ty w IH|l IH] using pvalue_ind'; intros t s tp i.
  - discriminate.
  - cbn [gen_shares_policy]. apply IH.
  - assert (N : forall v, In v l -> forall s tp i, gen_shares_policy (C := C) s v None tp i <> Err).
    { intros v I. rewrite Forall_forall in IH. intros. now apply IH. }
    destruct t as [[]|]; [| |discriminate..]; rewrite share_arr by discriminate; unfold rbind;
      edestruct gen_shares_ok as (x & j & ->); now apply share_loop_no_err.
Qed.

Theorem shares_unreadable v : forall t, reading v t = None -> forall s tp i, gen_shares_policy (C := C) s v t tp i = Panic.
Proof.
  induction v as [n c|ty w IH|l IH] using pvalue_ind'; intros t R s tp i.
  - discriminate.
  - cbn [reading gen_shares_policy] in *. now apply IH.
  - assert (K : all_some (map (fun w => reading w None) l) = None -> forall sh acc tp i, share_loop l sh acc tp i = Panic).
    { intros H. apply all_some_none in H as (w & I & E). apply (share_loop_panics l w I).
      - rewrite Forall_forall in IH. intros. now apply IH.
      - intros. apply shares_no_err. }
    destruct t as [[]|]; [| |reflexivity..]; rewrite share_arr by discriminate; unfold rbind; cbn [reading] in R;
      (destruct (all_some (map (fun w => reading w None) l)); [discriminate|]);
      edestruct gen_shares_ok as (x & j & ->); now apply K.
Qed.

(** *** Pruning *)

Definition prune_and (attr : list string) : list pvalue -> bool -> list (string * string) -> outcome (bool * list (string * string)) :=
  fix loop (l : list pvalue) (m : bool) (acc : list (string * string)) :=
    match l with
    | [] => Ok (m, acc)
    | c :: r => obind (unwrap_res (calc_pruned attr c None)) (fun fl =>
                let m' := m && fst fl in loop r m' (if m' then acc ++ snd fl else acc))
    end.
Definition prune_or (attr : list string) : list pvalue -> outcome (bool * list (string * string)) :=
  fix loop (l : list pvalue) :=
    match l with
    | [] => Ok (false, [])
    | c :: r => obind (unwrap_res (calc_pruned attr c None)) (fun fl => if fst fl then Ok (true, snd fl) else loop r)
    end.

Theorem pruned_read attr v : forall t f, reading v t = Some f -> calc_pruned attr v t = calc_pruned attr (tree f) None.
Proof.
  induction v as [n c|ty w IH|l IH] using pvalue_ind'; intros t f R.
  - injection R as <-. reflexivity.
  - cbn [reading calc_pruned] in *. now apply IH.
  - apply reading_arr in R as (ty & fs & -> & Fs & K).
    assert (E : Forall2 (fun w f => calc_pruned attr w None = calc_pruned attr (tree f) None) l fs).
    { clear -IH Fs. induction Fs as [|w f l fs R _ IHl]; inversion IH; subst; constructor; auto. }
    destruct K as [(-> & ->)|(-> & ->)]; cbn [tree].
    + change (calc_pruned attr (PArr l) (Some And)) with
        (if 2 <=? length l then match prune_and attr l true [] with Ok (m, acc) => Ok (m, if m then acc else []) | Err => Err | Panic => Panic end else Panic).
      change (calc_pruned attr (PObj And (PArr (map tree fs))) None) with
        (if 2 <=? length (map tree fs) then match prune_and attr (map tree fs) true [] with Ok (m, acc) => Ok (m, if m then acc else []) | Err => Err | Panic => Panic end else Panic).
      rewrite (readings_length _ _ Fs). destruct (2 <=? length l); [|reflexivity].
      assert (Lp : forall m acc, prune_and attr l m acc = prune_and attr (map tree fs) m acc).
      { clear -E. induction E as [|w f l fs R _ IHl]; intros m acc; [reflexivity|]. cbn [map prune_and]. rewrite R.
        destruct (unwrap_res (calc_pruned attr (tree f) None)) as [[]| |]; cbn [obind fst snd]; auto. }
      now rewrite Lp.
    + change (calc_pruned attr (PArr l) (Some Or)) with (if 2 <=? length l then prune_or attr l else Panic).
      change (calc_pruned attr (PObj Or (PArr (map tree fs))) None) with
        (if 2 <=? length (map tree fs) then prune_or attr (map tree fs) else Panic).
      rewrite (readings_length _ _ Fs). destruct (2 <=? length l); [|reflexivity].
      clear -E. induction E as [|w f l fs R _ IHl]; [reflexivity|]. cbn [map prune_or]. rewrite R.
      destruct (unwrap_res (calc_pruned attr (tree f) None)) as [[[] ]| |]; cbn [obind fst snd]; auto.
Qed.

(** *** Coefficients *)

Definition coeff_and (coeff : F) : list pvalue -> list F -> list (string * F) -> outcome (option (list (string * F))) :=
  fix loop (l : list pvalue) (cs : list F) (acc : list (string * F)) :=
    match l with
    | [] => Ok (Some acc)
    | c :: r => match cs with
                | [] => Panic
                | k :: ks => match calc_coefficients c (fmul C coeff k) acc None with
                             | Ok (Some acc') => loop r ks acc'
                             | Ok None => Ok None
                             | Err => Err
                             | Panic => Panic
                             end
                end
    end.
Definition coeff_or (coeff k : F) : list pvalue -> list (string * F) -> outcome (option (list (string * F))) :=
  fix loop (l : list pvalue) (acc : list (string * F)) :=
    match l with
    | [] => Ok (Some acc)
    | c :: r => match calc_coefficients c (fmul C coeff k) acc None with
                | Ok (Some acc') => loop r acc'
                | Ok None => Ok None
                | Err => Err
                | Panic => Panic
                end
    end.

Theorem coefficients_read v : named_leaves v = true -> forall t f, reading v t = Some f -> forall k acc,
  calc_coefficients (C := C) v k acc t = calc_coefficients (tree f) k acc None.
Proof.
  induction v as [n c|ty w IH|l IH] using pvalue_ind'; intros N t f R k acc.
  - injection R as <-. reflexivity.
  - destruct ty; cbn [named_leaves reading calc_coefficients] in *; [now apply IH..|].
    destruct w; try discriminate. injection R as <-. reflexivity.
  - apply reading_arr in R as (ty & fs & -> & Fs & K). cbn [named_leaves] in N.
    assert (E : Forall2 (fun w f => forall k acc, calc_coefficients (C := C) w k acc None = calc_coefficients (tree f) k acc None) l fs).
    { clear -IH Fs N. induction Fs as [|w f l fs R _ IHl]; inversion IH; subst; constructor; cbn in N; apply andb_prop in N as (N1 & N2); auto. }
    destruct K as [(-> & ->)|(-> & ->)]; cbn [tree].
    + change (calc_coefficients (PArr l) k acc (Some And)) with
        (obind (recover_coefficients (C := C) (and_points (length l))) (fun cs => coeff_and k l cs acc)).
      change (calc_coefficients (PObj And (PArr (map tree fs))) k acc None) with
        (obind (recover_coefficients (C := C) (and_points (length (map tree fs)))) (fun cs => coeff_and k (map tree fs) cs acc)).
      rewrite (readings_length _ _ Fs). destruct (recover_coefficients _) as [cs| |]; cbn [obind]; auto.
      revert cs acc. clear -E. induction E as [|w f l fs R _ IHl]; intros cs acc; [reflexivity|]. cbn [map coeff_and].
      destruct cs as [|x cs]; [reflexivity|]. rewrite R. destruct (calc_coefficients (tree f) _ acc None) as [[]| |]; auto.
    + change (calc_coefficients (PArr l) k acc (Some Or)) with
        (obind (recover_coefficients (C := C) [f1 C]) (fun cs => match cs with [] => Panic | x :: _ => coeff_or k x l acc end)).
      change (calc_coefficients (PObj Or (PArr (map tree fs))) k acc None) with
        (obind (recover_coefficients (C := C) [f1 C]) (fun cs => match cs with [] => Panic | x :: _ => coeff_or k x (map tree fs) acc end)).
      destruct (recover_coefficients _) as [[|x cs]| |]; cbn [obind]; auto.
      revert acc. clear -E. induction E as [|w f l fs R _ IHl]; intros acc; [reflexivity|]. cbn [map coeff_or].
      rewrite R. destruct (calc_coefficients (tree f) _ acc None) as [[]| |]; auto.
Qed.

End Values.

(** *** The satisfaction check *)

Theorem check_read attr v : no_leaf_objects v = true -> forall t f, reading v (Some t) = Some f -> forall t',
  traverse_policy attr v t = traverse_policy attr (tree f) t'.
Proof.
  assert (None_any : forall w f ty, reading w None = Some f -> reading w (Some ty) = Some f).
  { intros w f ty. destruct w; cbn [reading]; auto. discriminate. }
  induction v as [n c|ty w IH|l IH] using pvalue_ind'; intros N t f R t'.
  - injection R as <-. reflexivity.
  - destruct ty; cbn [no_leaf_objects reading traverse_policy] in *; try discriminate.
    + rewrite (IH N And f R t'). destruct (0 <? length attr) eqn:E; [reflexivity|]. destruct (tree f); cbn [traverse_policy]; now rewrite E.
    + rewrite (IH N Or f R t'). destruct (0 <? length attr) eqn:E; [reflexivity|]. destruct (tree f); cbn [traverse_policy]; now rewrite E.
  - apply reading_arr in R as (ty & fs & Et & Fs & K). injection Et as ->. cbn [no_leaf_objects] in N.
    assert (E : Forall2 (fun w f => traverse_policy attr w Leaf = traverse_policy attr (tree f) Leaf) l fs).
    { clear -IH Fs N None_any. induction Fs as [|w f l fs R _ IHl]; inversion IH; subst; constructor; cbn in N;
      apply andb_prop in N as (N1 & N2); auto. }
    destruct K as [(-> & ->)|(-> & ->)]; cbn [tree traverse_policy].
    + assert (A : forallb (fun x => traverse_policy attr x Leaf) l = forallb (fun x => traverse_policy attr x Leaf) (map tree fs)).
      { clear -E. induction E as [|w f l fs R _ IHl]; [reflexivity|]. cbn [map forallb]. now rewrite R, IHl. }
      rewrite A. now destruct (0 <? length attr).
    + assert (A : existsb (fun x => traverse_policy attr x Leaf) l = existsb (fun x => traverse_policy attr x Leaf) (map tree fs)).
      { clear -E. induction E as [|w f l fs R _ IHl]; [reflexivity|]. cbn [map existsb]. now rewrite R, IHl. }
      rewrite A. now destruct (0 <? length attr).
Qed.

(** An object of kind [Leaf] passes the check whatever it holds. *)
Theorem check_leaf_object attr w t : attr <> [] -> traverse_policy attr (PObj Leaf w) t = true.
Proof. destruct attr; [congruence|reflexivity]. Qed.

(** *** The span program *)

Definition lw_or : list pvalue -> list Z -> bool -> abe_policy -> outcome (bool * abe_policy) :=
  fun ps v => (fix loop (l : list pvalue) (ret : bool) (msp : abe_policy) :=
    match l with
    | [] => Ok (ret, msp)
    | q :: r => obind (lw q v (Some Or) msp) (fun bm => loop r (ret && fst bm) (snd bm))
    end) ps.

Lemma reading_any w f t : reading w None = Some f -> reading w t = Some f.
Proof. destruct w; cbn [reading]; auto. discriminate. Qed.

Lemma lw_tree_any f v m t t' : lw (tree f) v t m = lw (tree f) v t' m.
Proof. now destruct f. Qed.

Theorem msp_read p : forall t f, reading p t = Some f -> forall v m, lw p v t m = lw (tree f) v None m.
Proof.
  induction p as [n c|ty w IH|l IH] using pvalue_ind'; intros t f R v m.
  - injection R as <-. reflexivity.
  - cbn [reading lw] in *. now apply IH.
  - apply reading_arr in R as (ty & fs & -> & Fs & K).
    assert (E : Forall2 (fun w f => forall t v m, lw w v t m = lw (tree f) v t m) l fs).
    { clear -IH Fs. induction Fs as [|w f l fs R _ IHl]; inversion IH; subst; constructor; auto.
      intros t v m. rewrite (H1 t f (reading_any _ _ _ R) v m). apply lw_tree_any. }
    destruct K as [(-> & ->)|(-> & ->)]; cbn [tree].
    + cbn [lw]. rewrite (readings_length _ _ Fs). destruct (length l <? 2); [reflexivity|].
      destruct E as [|w0 f0 l fs R0 E]; [reflexivity|]. destruct E as [|w1 f1 l fs R1 E]; [reflexivity|].
      destruct E as [|w2 f2 l fs R2 E]; [|reflexivity]. cbn [map]. rewrite R0.
      destruct (lw (tree f0) _ _ _) as [[[] x]| |]; cbn [obind fst snd]; auto.
    + change (lw (PArr l) v (Some Or) m) with (if length l <? 2 then Panic else lw_or l v true m).
      change (lw (PObj Or (PArr (map tree fs))) v None m) with (if length (map tree fs) <? 2 then Panic else lw_or (map tree fs) v true m).
      rewrite (readings_length _ _ Fs). destruct (length l <? 2); [reflexivity|].
      generalize true. revert m. clear -E. induction E as [|w f l fs R _ IHl]; intros m b; [reflexivity|].
      cbn [map lw_or]. unfold lw_or in *. rewrite R. destruct (lw (tree f) v (Some Or) m) as [[b' m']| |]; cbn [obind fst snd]; auto.
Qed.

Theorem calculate_read p f : reading p None = Some f -> calculate_msp p = calculate_msp (tree f).
Proof. intros R. unfold calculate_msp. now rewrite (msp_read p None f R). Qed.

(** *** The test for disjunctive normal form *)

Lemma in_dnf_conjunction v : forall t, policy_in_dnf v true t = true -> forall l, ~ occurs (PObj Or (PArr l)) v.
Proof.
  induction v as [n c|ty w IH|l IH] using pvalue_ind'; intros t H k O.
  - inversion O.
  - inversion O as [|? ? O'|]; subst.
    + cbn in H. discriminate.
    + destruct ty; cbn [policy_in_dnf] in H; eapply IH; eauto.
  - inversion O as [| |? w I O']; subst. rewrite Forall_forall in IH. destruct t as [[]|]; cbn [policy_in_dnf] in H; try discriminate.
    rewrite forallb_forall in H. eapply IH; eauto.
Qed.

Theorem in_dnf_sound v c t : policy_in_dnf v c t = true ->
  forall w l, occurs (PObj And w) v -> ~ occurs (PObj Or (PArr l)) w.
Proof.
  revert c t. induction v as [n p|ty u IH|l IH] using pvalue_ind'; intros c t H w k O.
  - inversion O.
  - inversion O as [|? ? O'|]; subst.
    + cbn [policy_in_dnf] in H. now apply (in_dnf_conjunction _ _ H).
    + destruct ty; cbn [policy_in_dnf] in H; eapply IH; eauto.
  - inversion O as [| |? u I O']; subst. rewrite Forall_forall in IH. destruct t as [[]|]; cbn [policy_in_dnf] in H; try discriminate.
    + rewrite forallb_forall in H. eapply IH; eauto.
    + destruct c; [discriminate|]. rewrite forallb_forall in H. eapply IH; eauto.
Qed.

Theorem shares_all (C : crypto) v t :
  match reading v t with
  | Some f => forall (s : F C) tp i, gen_shares_policy s v t tp i = gen_shares_policy s (tree f) None tp i
  | None => forall (s : F C) tp i, gen_shares_policy s v t tp i = Panic
  end.
Proof. destruct (reading v t) eqn:E; intros s tp i; [now apply shares_read|now apply shares_unreadable]. Qed.
