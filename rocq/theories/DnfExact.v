(** * DnfExact: exactly who opens a BDABE or MKE08 ciphertext *)
From Coq Require Import String List Bool Arith Lia Permutation.
From Verif Require Import Base Crypto Policy Tools Spec PolicyProofs Parse ParseProofs Symmetric SchemeLib CoreProofs
  Dnf DnfProofs Bdabe BdabeProofs Mke08 Mke08Proofs.
Import ListNotations.

(** ** Specification *)

(** The supplied attribute names that occur in a list of names, in order. *)
Definition supplied (ks ns : list string) : list string :=
  flat_map (fun n => filter (fun k => seqb k n) ks) ns.

(** The first [m] names alone, the rest together. *)
Fixpoint pieces (m : nat) (c : list string) {struct c} : list (list string) :=
  match c with
  | [] => []
  | x :: r => match m with O => [c] | S m' => [x] :: pieces m' r end
  end.

(** The children of a disjunction: [k] of them came before and gave [n] blocks. *)
Fixpoint cut (k n : nat) (cs : list (list string)) : list (list string) :=
  match cs with
  | [] => []
  | c :: r => let g := pieces (k + k - n) c in g ++ cut (S k) (n + length g) r
  end.

(** The sets of attributes that open a ciphertext made for the policy [f] with
    public keys for the attributes [ks]. *)
Definition blocks (ks : list string) (f : formula) : list (list string) :=
  match f with
  | FOr l => cut 0 0 (map (fun c => supplied ks (names c)) l)
  | _ => pieces 0 (supplied ks (names f))
  end.

(** Some block lies within the attributes [own]. *)
Definition opens (ks own : list string) (f : formula) : bool :=
  existsb (forallb (fun n => smem n own)) (blocks ks f).

Lemma opens_iff ks own f : opens ks own f = true <-> exists b, In b (blocks ks f) /\ incl b own.
Proof.
  unfold opens. rewrite existsb_exists. split; intros (b & I & H); exists b; (split; [exact I|]).
  - rewrite forallb_forall in H. intros x Ix. now apply smem_In, H.
  - apply forallb_forall. intros x Ix. now apply smem_In, H.
Qed.

(** ** When a ciphertext opens for exactly the users who satisfy the policy *)

(** The attribute has exactly one supplied key. *)
Definition once (ks : list string) (n : string) : Prop := filter (fun k => seqb k n) ks = [n].

Lemma supplied_once ks ns : (forall n, In n ns -> once ks n) -> supplied ks ns = ns.
Proof.
  unfold supplied, once. induction ns as [|n ns IH]; intros H; cbn [flat_map]; [reflexivity|].
  rewrite H by now left. cbn. f_equal. apply IH. intros; apply H; now right.
Qed.

Lemma sat_conj own x : is_conj x = true -> sat (owns own) x = forallb (fun n => smem n own) (names x).
Proof.
  destruct x as [n p|l|l]; cbn [is_conj]; intros H; [| |discriminate].
  - cbn. now rewrite andb_true_r.
  - cbn [sat]. unfold names. cbn [leaves]. induction l as [|x l IH]; cbn; [reflexivity|].
    cbn in H. apply andb_prop in H as (Hx & H). destruct x; try discriminate. cbn. now rewrite (IH H).
Qed.

Lemma cut_singles cs : Forall (fun c => length c = 1) cs -> forall k n, cut k n cs = cs.
Proof.
  induction 1 as [|c cs H _ IH]; intros k n; cbn [cut]; [reflexivity|]. cbv zeta. rewrite IH.
  destruct c as [|a [|]]; try discriminate. now destruct (k + k - n).
Qed.

(** All later conjunctions have one name. *)
Definition no_late_conjunction (f : formula) : Prop :=
  match f with FOr (_ :: l) => Forall (fun c => length (names c) = 1) l | _ => True end.
Definition no_empty_conjunction (f : formula) : Prop :=
  match f with FOr l => Forall (fun c => names c <> []) l | _ => names f <> [] end.

Theorem opens_is_sat ks own f : flat f = true -> no_empty_conjunction f -> no_late_conjunction f ->
  (forall n, In n (names f) -> once ks n) -> opens ks own f = sat (owns own) f.
Proof.
  intros Hf NE NL K. unfold opens.
  assert (P0 : forall c : list string, c <> [] -> pieces 0 c = [c]) by (intros [|]; [congruence|reflexivity]).
  assert (S1 : is_conj f = true -> names f <> [] ->
    existsb (forallb (fun n => smem n own)) (pieces 0 (supplied ks (names f))) = sat (owns own) f).
  { intros Hc N. rewrite supplied_once by exact K. rewrite P0 by exact N. cbn. rewrite orb_false_r. now rewrite sat_conj. }
  destruct f as [n p|l|l]; [now apply S1..|]. clear S1. cbn [blocks sat]. cbn in Hf, NE.
  assert (E : map (fun c => supplied ks (names c)) l = map names l).
  { apply map_ext_in. intros c I. apply supplied_once. intros n In'. apply K. unfold names in *. cbn [leaves].
    apply in_map_iff in In' as (x & <- & Ix). apply in_map. apply in_flat_map. eauto. }
  rewrite E. assert (E2 : cut 0 0 (map names l) = map names l).
  { destruct l as [|x l]; [reflexivity|]. cbn [map cut]. cbv zeta. inversion NE; subst.
    rewrite P0 by assumption. cbn. f_equal. apply cut_singles. apply Forall_map. exact NL. }
  rewrite E2. clear - Hf. induction l as [|x l IH]; cbn; [reflexivity|]. cbn in Hf. apply andb_prop in Hf as (Hx & Hf).
  now rewrite (IH Hf), sat_conj.
Qed.

(** Otherwise the first attribute of a later conjunction is enough. *)
Theorem opens_more ks x l c a b r : (forall n, In n (names (FOr (x :: l))) -> once ks n) -> names x <> [] ->
  In c l -> names c = a :: b :: r -> opens ks [a] (FOr (x :: l)) = true.
Proof.
  intros K Nx Ic Ec. apply opens_iff. exists [a]. split; [|intros y [<-|[]]; now left].
  cbn [blocks].
  assert (E : map (fun c => supplied ks (names c)) (x :: l) = map names (x :: l)).
  { apply map_ext_in. intros d I. apply supplied_once. intros n In'. apply K. unfold names in *. cbn [leaves].
    apply in_map_iff in In' as (y & <- & Iy). apply in_map. apply in_flat_map. eauto. }
  rewrite E. cbn [map cut]. cbv zeta. destruct (names x) as [|n0 r0]; [congruence|]. cbn [pieces length Nat.add Nat.sub].
  right. assert (G : forall cs k n, n < k + k -> In (a :: b :: r) cs -> In [a] (cut k n cs)).
  { induction cs as [|d cs IH]; intros k n H I; [destruct I|]. cbn [cut]. cbv zeta. apply in_or_app.
    destruct I as [->|I].
    - left. destruct (k + k - n) eqn:E'; [lia|]. now left.
    - right. apply IH; [|exact I].
      assert (Lp : forall c m, length (pieces m c) <= S m) by
        (clear; induction c as [|y c IH]; intros [|m]; cbn; try lia; specialize (IH m); lia).
      specialize (Lp d (k + k - n)). lia. }
  apply G; [lia|]. rewrite <- Ec. now apply in_map.
Qed.

Section Groups.
Context {C : crypto}.
Variable pks : list (pak C).

Lemma keys_attr ns : map pak_attr (keys pks ns) = supplied (map pak_attr pks) ns.
Proof.
  unfold keys, supplied. induction ns as [|n ns IH]; cbn [flat_map map]; [reflexivity|].
  rewrite map_app, IH. f_equal. clear IH. induction pks as [|p l IH]; cbn; [reflexivity|].
  destruct (seqb (pak_attr p) n); cbn; now rewrite IH.
Qed.

Lemma split_attr c : forall m, map (map pak_attr) (split m c) = pieces m (map (@pak_attr C) c).
Proof. induction c as [|x c IH]; intros [|m]; cbn; [reflexivity..|]. now rewrite IH. Qed.

Lemma splits_attr cs : forall k n, map (map pak_attr) (splits k n cs) = cut k n (map (map (@pak_attr C)) cs).
Proof.
  induction cs as [|c cs IH]; intros k n; cbn [splits cut map]; [reflexivity|].
  cbv zeta. rewrite map_app, IH, split_attr. f_equal. f_equal. f_equal. now rewrite <- split_attr, map_length.
Qed.

Lemma groups_attr f : map (map pak_attr) (groups pks f) = blocks (map pak_attr pks) f.
Proof.
  destruct f as [n p|l|l]; cbn [groups blocks]; rewrite ?split_attr, ?splits_attr, ?keys_attr; try reflexivity.
  f_equal. rewrite map_map. apply map_ext. intros c. apply keys_attr.
Qed.

Lemma groups_cover own f : opens (map pak_attr pks) own f = true <->
  exists g, In g (groups pks f) /\ incl (map pak_attr g) own.
Proof.
  rewrite opens_iff, <- groups_attr. split.
  - intros (b & I & H). apply in_map_iff in I as (g & <- & I). eauto.
  - intros (g & I & H). exists (map pak_attr g). split; [now apply in_map|exact H].
Qed.
End Groups.

Section DnfExact.
Context {C : crypto} (L : laws C).
Notation F := (F C).

(** ** BDABE *)
Section Bd.
Variables (pk : bd_pk C) (msk : bd_msk C) (As : list (bd_auth C)) (ts : nat -> F) (is js : nat).
Hypothesis Hsetup : bd_setup ts is = Ok ((pk, msk), js).
Hypothesis HAs : Forall (bd_authority pk msk) As.
Hypothesis Huniq : bd_unique As.
Variables (nonce pol data : string) (lang : language) (apks : list (bd_apk C)) (ct : bd_ct C)
  (te : nat -> F) (ie je : nat) (f : formula).
Hypothesis Hpks : Forall (bd_pk_issued pk As) apks.
Hypothesis Henc : bd_encrypt nonce pk apks pol lang data te ie = Ok (ct, je).
Hypothesis Hparse : parse pol lang = Ok (tree f).
Hypothesis Hnonce : String.length nonce = 12%nat.

Lemma bd_attrs : map bapk_attr apks = map pak_attr (map bd_pak apks).
Proof. rewrite map_map. reflexivity. Qed.

(** No block within the user's attributes: no tuple is opened. *)
Lemma bd_first_none (uk : bd_uk C) :
  opens (map bapk_attr apks) (map bask_attr (buk_ska uk)) f = false -> bd_first uk (bct_j ct) = gtone C.
Proof.
  intros N. destruct (bd_encrypt_inv _ _ _ _ _ _ _ _ _ _ _ Henc Hparse) as (Hf & _ & msg & T & Hd & PT & F2 & _).
  assert (Src : forall tm, In tm T -> bd_satisfiable (tm_attrs tm) (buk_ska uk) = false).
  { intros tm I. apply (Permutation_in _ (Permutation_sym PT)) in I. apply in_map_iff in I as (g & <- & I).
    rewrite mk_term_attrs. destruct (bd_satisfiable _ _) eqn:E; [|reflexivity].
    apply bd_satisfiable_attrs in E. rewrite bd_attrs in N.
    rewrite (proj2 (groups_cover (map bd_pak apks) _ f)) in N; [discriminate|eauto]. }
  clear PT. induction F2 as [|tm tp T' J (a & b & Ht) F2 IH]; [reflexivity|].
  assert (E : bt_attr tp = tm_attrs tm) by (unfold bd_tuple_of, draw, rbind, rret in Ht; now injection Ht as <- _).
  cbn [bd_first]. rewrite E, Src by now left. apply IH. intros; apply Src; now right.
Qed.

(** The outcome for every policy text put in the place of the stored one. *)
Theorem bd_access uk ct' f' : bd_user pk As uk ->
  bct_j ct' = bct_j ct -> bct_data ct' = bct_data ct ->
  parse (fst (bct_policy ct')) (snd (bct_policy ct')) = Ok (tree f') ->
  bd_decrypt uk ct' =
    if (0 <? length (buk_ska uk)) && sat (owns (map bask_attr (buk_ska uk))) f' then
      if opens (map bapk_attr apks) (map bask_attr (buk_ska uk)) f then Ok data
      else decrypt_symmetric (gtone C) (bct_data ct)
    else Err.
Proof.
  intros U Ej Ed P'. unfold bd_decrypt. rewrite P'. cbn [obind]. rewrite traverse_tree, map_length, Ej, Ed.
  destruct (_ && _) eqn:S; [|reflexivity].
  destruct (opens _ _ f) eqn:O.
  - rewrite bd_attrs in O. apply groups_cover in O.
    destruct (bd_first_opens L _ _ _ _ _ _ Hsetup HAs Huniq _ _ _ _ _ _ _ _ _ _ Hpks Henc Hparse uk U O) as (msg & Hd & -> & _).
    eapply symmetric_roundtrip; eauto.
  - now rewrite bd_first_none.
Qed.

Theorem bd_decrypt_all uk : bd_user pk As uk ->
  bd_decrypt uk ct =
    if (0 <? length (buk_ska uk)) && sat (owns (map bask_attr (buk_ska uk))) f then
      if opens (map bapk_attr apks) (map bask_attr (buk_ska uk)) f then Ok data
      else decrypt_symmetric (gtone C) (bct_data ct)
    else Err.
Proof.
  intros U. apply bd_access; auto. destruct (bd_encrypt_inv _ _ _ _ _ _ _ _ _ _ _ Henc Hparse) as (_ & -> & _). exact Hparse.
Qed.
End Bd.

(** ** MKE08 *)
Section Mk.
Variables (pk : mk_pk C) (msk : mk_msk C) (As : list (mk_auth C)) (ts : nat -> F) (is js : nat).
Hypothesis Hsetup : mk_setup ts is = Ok ((pk, msk), js).
Hypothesis Huniq : mk_unique As.
Variables (nonce pol data : string) (lang : language) (apks : list (mk_apk C)) (ct : mk_ct C)
  (te : nat -> F) (ie je : nat) (f : formula).
Hypothesis Hpks : Forall (mk_pk_issued pk As) apks.
Hypothesis Henc : mk_encrypt nonce pk apks pol lang data te ie = Ok (ct, je).
Hypothesis Hparse : parse pol lang = Ok (tree f).
Hypothesis Hnonce : String.length nonce = 12%nat.

Lemma mk_attrs : map mapk_attr apks = map pak_attr (map mk_pak apks).
Proof. rewrite map_map. reflexivity. Qed.

Lemma mk_first_none (uk : mk_uk C) :
  opens (map mapk_attr apks) (map mask_attr (muk_ska uk)) f = false -> mk_first uk (mct_e ct) = gtone C.
Proof.
  intros N. destruct (mk_encrypt_inv _ _ _ _ _ _ _ _ _ _ _ Henc Hparse) as (Hf & _ & msg1 & msg2 & T & Hd & PT & F2 & _).
  assert (Src : forall tm, In tm T -> mk_satisfiable (tm_attrs tm) (muk_ska uk) = false).
  { intros tm I. apply (Permutation_in _ (Permutation_sym PT)) in I. apply in_map_iff in I as (g & <- & I).
    rewrite mk_term_attrs. destruct (mk_satisfiable _ _) eqn:E; [|reflexivity].
    apply mk_satisfiable_attrs in E. rewrite mk_attrs in N.
    rewrite (proj2 (groups_cover (map mk_pak apks) _ f)) in N; [discriminate|eauto]. }
  clear PT. induction F2 as [|tm tp T' J (a & b & Ht) F2 IH]; [reflexivity|].
  assert (E : mj_str tp = tm_attrs tm) by (unfold mk_conj_of, draw, rbind, rret in Ht; now injection Ht as <- _).
  cbn [mk_first]. rewrite E, Src by now left. apply IH. intros; apply Src; now right.
Qed.

Theorem mk_access uk ct' f' : mk_user pk msk As uk ->
  mct_e ct' = mct_e ct -> mct_data ct' = mct_data ct ->
  parse (fst (mct_policy ct')) (snd (mct_policy ct')) = Ok (tree f') ->
  mk_decrypt uk ct' =
    if (0 <? length (muk_ska uk)) && sat (owns (map mask_attr (muk_ska uk))) f' then
      if opens (map mapk_attr apks) (map mask_attr (muk_ska uk)) f then Ok data
      else decrypt_symmetric (gtone C) (mct_data ct)
    else Err.
Proof.
  intros U Ej Ed P'. unfold mk_decrypt. rewrite P'. cbn [obind]. rewrite traverse_tree, map_length, Ej, Ed.
  destruct (_ && _) eqn:S; [|reflexivity].
  destruct (opens _ _ f) eqn:O.
  - rewrite mk_attrs in O. apply groups_cover in O.
    destruct (mk_first_opens L _ _ _ _ _ _ Hsetup Huniq _ _ _ _ _ _ _ _ _ _ Hpks Henc Hparse uk U O) as (msg & Hd & -> & _).
    eapply symmetric_roundtrip; eauto.
  - now rewrite mk_first_none.
Qed.

Theorem mk_decrypt_all uk : mk_user pk msk As uk ->
  mk_decrypt uk ct =
    if (0 <? length (muk_ska uk)) && sat (owns (map mask_attr (muk_ska uk))) f then
      if opens (map mapk_attr apks) (map mask_attr (muk_ska uk)) f then Ok data
      else decrypt_symmetric (gtone C) (mct_data ct)
    else Err.
Proof.
  intros U. apply mk_access; auto. destruct (mk_encrypt_inv _ _ _ _ _ _ _ _ _ _ _ Henc Hparse) as (_ & -> & _). exact Hparse.
Qed.
End Mk.
End DnfExact.
