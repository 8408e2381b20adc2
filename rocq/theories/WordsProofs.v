(** * WordsProofs: proofs for C137 *)
From Coq Require Import String Ascii List Bool Arith Lia.
From Verif Require Import Base Crypto Policy Parse Spec Files Borsh Errors Messages Console ConsoleProofs CommandLine
  DependProofs WordProofs ConsolePrints ConsolePrintsProofs Words.
Import ListNotations.
Local Open Scope string_scope.

(** The positional arguments of a command in their order, without the one behind "--". *)
Definition places (c : command) : list string :=
  match c with
  | Setup => ["msk"; "pk"; "gp"]
  | Authgen => []
  | Keygen => ["gp"; "msk"; "pk"; "sk"; "skau"; "p"; "n"]
  | Delegate => ["sk"; "pk"; "a"]
  | Encrypt => ["f"; "p"; "gp"; "pk"; "a"]
  | Decrypt => ["f"; "gp"; "pk"; "sk"]
  | ReqAttrPk => ["pk"; "skau"; "pka"; "a"]
  | ReqAttrSk => ["sk"; "ska"; "skau"; "a"]
  end.

(** An argument that is given has all places before it given. *)
Definition gapless (c : command) (g : args) : Prop :=
  forall i j a b, i <= j -> nth_error (places c) i = Some a -> nth_error (places c) j = Some b ->
  g b <> None -> g a <> None.

Lemma seqb_refl x : seqb x x = true.
Proof. now apply seqb_eq. Qed.
Lemma seqb_neq x y : x <> y -> seqb x y = false.
Proof. intros N. destruct (seqb x y) eqn:H; [apply seqb_eq in H; contradiction|reflexivity]. Qed.

Lemma give_same k w g : give k w g k = Some (match g k with Some l => l ++ [w] | None => [w] end)%list.
Proof. unfold give. now rewrite seqb_refl. Qed.
Lemma give_other k w g x : x <> k -> give k w g x = g x.
Proof. intros N. unfold give. now rewrite seqb_neq. Qed.
Lemma give_given k w g x : g x <> None -> give k w g x <> None.
Proof.
  intros H. destruct (String.string_dec x k) as [->|N]; [rewrite give_same; discriminate|now rewrite give_other].
Qed.

(** ** What an accepted command line looks like *)

Section Take.
Variable os : list decl.
Variable multi : list string.
Hypothesis os_one : forall o, In o os -> ~ In (a_name o) multi.

(** Names of [ps] that are open: no word has been given to those that take one. *)
Definition fresh (ps : list decl) (g : args) : Prop :=
  forall p, In p ps -> a_multiple p = false -> g (a_name p) = None.

Lemma beyond_In ps p : In p (beyond ps) -> In p ps.
Proof.
  unfold beyond. destruct (filter a_last ps) as [|x l] eqn:F; [auto|]. rewrite <- F. intros I.
  now apply filter_In in I.
Qed.

(** Every argument is a declared one, and one that takes one word has one. *)
Definition orderly (names : list string) (g : args) : Prop :=
  (forall k, g k <> None -> In k names) /\
  (forall k vs, g k = Some vs -> ~ In k multi -> exists v, vs = [v]) /\
  (forall k vs, g k = Some vs -> vs <> []).

Lemma orderly_give names k w g : orderly names g -> In k names -> (g k = None \/ In k multi) -> orderly names (give k w g).
Proof.
  intros (A & B & D) I O. repeat split.
  - intros x H. destruct (String.string_dec x k) as [->|N]; [exact I|]. rewrite give_other in H by exact N. now apply A.
  - intros x vs H M. destruct (String.string_dec x k) as [->|N].
    + rewrite give_same in H. destruct O as [O|O]; [|contradiction]. rewrite O in H. injection H as <-. eauto.
    + rewrite give_other in H by exact N. now apply (B x).
  - intros x vs H. destruct (String.string_dec x k) as [->|N].
    + rewrite give_same in H. injection H as <-. destruct (g k) as [l|]; [destruct l|]; discriminate.
    + rewrite give_other in H by exact N. now apply (D x).
Qed.

Lemma take_orderly names ws : forall n ps after g g',
  length ws <= n ->
  (forall o, In o os -> In (a_name o) names) -> (forall p, In p ps -> In (a_name p) names) ->
  (forall p, In p ps -> a_multiple p = true -> In (a_name p) multi) ->
  (forall p o, In p ps -> In o os -> a_name o <> a_name p) ->
  NoDup (map a_name ps) -> fresh ps g -> orderly names g ->
  take os ps after g ws = Some g' -> orderly names g'.
Proof.
  intros n. revert ws. induction n as [|n IH]; intros ws ps after g g' Ln NO NP MU DI ND FR OR H.
  { destruct ws; [|cbn in Ln; lia]. now injection H as <-. }
  destruct ws as [|w r]; [now injection H as <-|]. cbn [length] in Ln. cbn [take] in H.
  destruct (negb after && seqb w "--").
  { apply (IH r (beyond ps) true g g'); auto; try lia.
    - intros p I. apply NP. now apply beyond_In.
    - intros p I. apply MU. now apply beyond_In.
    - intros p o I. apply DI. now apply beyond_In.
    - unfold beyond. destruct (filter a_last ps) as [|x l] eqn:F; [exact ND|]. rewrite <- F. clear -ND.
      induction ps as [|p ps IH]; [constructor|]. cbn. inversion ND as [|? ? A B]; subst.
      destruct (a_last p); [|now apply IH]. cbn. constructor; [|now apply IH]. intros I. apply A.
      apply in_map_iff in I as (q & E & I). apply filter_In in I as [I _]. rewrite <- E. now apply in_map.
    - intros p I. apply FR. now apply beyond_In. }
  destruct (negb after && dashed w).
  { destruct (find _ os) as [o|] eqn:F; [|discriminate]. apply find_some in F as [F _].
    destruct r as [|v r']; [discriminate|]. destruct (dashed v); [discriminate|].
    destruct (g (a_name o)) eqn:G; [discriminate|]. cbn [length] in Ln.
    apply (IH r' ps after (give (a_name o) v g) g'); auto; try lia.
    - intros p I M. rewrite give_other; [now apply FR|]. intros E. apply (DI p o I F). now symmetry.
    - apply orderly_give; auto. }
  destruct ps as [|p q]; [discriminate|]. destruct (a_last p && negb after); [discriminate|].
  cbn [map] in ND. inversion ND as [|? ? N1 N2]; subst.
  destruct (a_multiple p) eqn:M.
  - apply (IH r (p :: q) after (give (a_name p) w g) g'); auto; try lia.
    + intros x I Mx. destruct I as [<-|I]; [congruence|]. rewrite give_other; [apply FR; [now right|exact Mx]|].
      intros E. apply N1. rewrite <- E. now apply in_map.
    + apply orderly_give; [exact OR|apply NP; now left|]. right. apply MU; [now left|exact M].
  - apply (IH r q after (give (a_name p) w g) g'); auto; try lia.
    + intros x I. apply NP. now right.
    + intros x I. apply MU. now right.
    + intros x o I. apply DI. now right.
    + intros x I Mx. rewrite give_other; [apply FR; [now right|exact Mx]|].
      intros E. apply N1. rewrite <- E. now apply in_map.
    + apply orderly_give; [exact OR|apply NP; now left|]. left. apply FR; [now left|exact M].
Qed.

End Take.

Lemma words_take c ws g : words c ws = Some g ->
  c <> Authgen /\
  take (filter a_long (declared c)) (filter (fun a => negb (a_long a)) (declared c)) false (fun _ => None) ws = Some g /\
  (c = Encrypt \/ c = Decrypt -> g FILE <> None).
Proof.
  unfold words. destruct c; try discriminate; destruct (take _ _ _ _ _) as [h|]; try discriminate;
    intros H; (split; [discriminate|]).
  all: try (destruct (h FILE) eqn:G; [|discriminate H]); injection H as <-; split; try reflexivity.
  all: try (intros [X|X]; discriminate X).
  all: intros _; congruence.
Qed.

Lemma words_line c ws g : words c ws = Some g -> line_ok c g.
Proof.
  intros H. apply words_take in H as (N & H & R).
  assert (O : orderly (multiple c) (present c ++ optional c)%list g).
  { eapply take_orderly; [| apply le_n | | | | | | | | exact H].
    - destruct c; cbn; tauto.
    - destruct c; cbn; try tauto. intros o [<-|[]]. cbn. tauto.
    - destruct c; try congruence; cbn; intros p I; repeat (destruct I as [<-|I]; [cbn; tauto|]); contradiction.
    - destruct c; try congruence; cbn; intros p I M;
        repeat (destruct I as [<-|I]; [cbn in M |- *; try discriminate M; tauto|]); contradiction.
    - destruct c; try congruence; cbn; intros p o I J; try contradiction. destruct J as [<-|[]].
      repeat (destruct I as [<-|I]; [cbn; discriminate|]). contradiction.
    - destruct c; try congruence; cbn; repeat constructor; cbn; intuition discriminate.
    - intros p _ _. reflexivity.
    - repeat split; congruence. }
  destruct O as (A & B & D). repeat split; auto.
  intros k P Q. destruct (g k) eqn:G; [|reflexivity]. exfalso.
  assert (I : In k (present c ++ optional c)) by (apply A; congruence). apply in_app_or in I as [I|I]; auto.
Qed.

(** ** No gaps *)

Lemma nth_skipn {A} (l : list A) k j : nth_error (skipn k l) j = nth_error l (k + j).
Proof.
  revert l. induction k as [|k IH]; intros l; [reflexivity|]. destruct l as [|x l]; [now destruct j|]. apply IH.
Qed.

Section Gaps.
Variable os : list decl.
Variable pl : list string.
Hypothesis os_not : forall o, In o os -> ~ In (a_name o) pl.
Hypothesis pl_once : NoDup pl.

Definition solid (g : args) : Prop :=
  forall i j a b, i <= j -> nth_error pl i = Some a -> nth_error pl j = Some b -> g b <> None -> g a <> None.

(** Words for other arguments do not matter. *)
Lemma take_closed n : forall ws ps after g g', length ws <= n ->
  (forall p, In p ps -> ~ In (a_name p) pl) -> take os ps after g ws = Some g' -> forall k, In k pl -> g' k = g k.
Proof.
  induction n as [|n IH]; intros ws ps after g g' Ln NP H k K.
  { destruct ws; [|cbn in Ln; lia]. now injection H as <-. }
  destruct ws as [|w r]; [now injection H as <-|]. cbn [length] in Ln. cbn [take] in H.
  destruct (negb after && seqb w "--").
  { apply (IH r (beyond ps) true g g'); auto; try lia. intros p I. apply NP. now apply beyond_In. }
  destruct (negb after && dashed w).
  { destruct (find _ os) as [o|] eqn:F; [|discriminate]. apply find_some in F as [F _].
    destruct r as [|v r']; [discriminate|]. destruct (dashed v); [discriminate|].
    destruct (g (a_name o)) eqn:G; [discriminate|]. cbn [length] in Ln.
    rewrite (IH r' ps after (give (a_name o) v g) g'); auto; try lia.
    apply give_other. intros ->. now apply (os_not o F). }
  destruct ps as [|p q]; [discriminate|]. destruct (a_last p && negb after); [discriminate|].
  assert (NX : forall x, In x (if a_multiple p then p :: q else q) -> ~ In (a_name x) pl).
  { destruct (a_multiple p); [exact NP|]. intros x I. apply NP. now right. }
  rewrite (IH r _ after (give (a_name p) w g) g' ltac:(lia) NX H k K).
  apply give_other. intros ->. apply (NP p); [now left|exact K].
Qed.

Lemma solid_eq g g' : (forall k, In k pl -> g' k = g k) -> solid g -> solid g'.
Proof.
  intros E S i j a b L A B H. rewrite E in H by (eapply nth_error_In; exact B).
  rewrite E by (eapply nth_error_In; exact A). exact (S i j a b L A B H).
Qed.

(** The first [i] places are given, those after the [i]th are not. *)
Definition filled (i : nat) (g : args) : Prop :=
  (forall j a, j < i -> nth_error pl j = Some a -> g a <> None) /\
  (forall j a, i < j -> nth_error pl j = Some a -> g a = None).

Lemma filled_solid i g : filled i g -> solid g.
Proof.
  intros [A B] i1 j1 a b L Ha Hb H. destruct (Nat.lt_ge_cases i j1) as [X|X]; [exfalso; apply H; exact (B j1 b X Hb)|].
  destruct (Nat.eq_dec i1 j1) as [->|N]; [rewrite Ha in Hb; now injection Hb as <-|]. apply (A i1 a); [lia|exact Ha].
Qed.

Lemma take_open n : forall ws q r after g g' i, length ws <= n ->
  map a_name q = skipn i pl -> Forall (fun p => a_last p = false) q ->
  Forall (fun p => a_last p = true) r -> (forall p, In p r -> ~ In (a_name p) pl) ->
  (r <> [] -> after = false) ->
  filled i g -> (forall p, In p (tl q) -> g (a_name p) = None) ->
  take os (q ++ r) after g ws = Some g' -> solid g'.
Proof.
  induction n as [|n IH]; intros ws q r after g g' i Ln MQ LQ LR NR AF FI TL H.
  { destruct ws; [|cbn in Ln; lia]. injection H as <-. now apply (filled_solid i). }
  destruct ws as [|w rest]; [injection H as <-; now apply (filled_solid i)|]. cbn [length] in Ln. cbn [take] in H.
  assert (FL : filter a_last (q ++ r) = r).
  { rewrite filter_app. replace (filter a_last q) with (@nil decl).
    - cbn. clear -LR. induction r as [|x r IH]; [reflexivity|]. cbn. inversion LR as [|? ? A B]; subst.
      rewrite A. f_equal. now apply IH.
    - clear -LQ. induction q as [|x q IH]; [reflexivity|]. cbn. inversion LQ as [|? ? A B]; subst.
      rewrite A. now apply IH. }
  destruct (negb after && seqb w "--").
  { unfold beyond in H. rewrite FL in H. destruct r as [|x r].
    - apply (IH rest q [] true g g' i); auto; try lia; try congruence.
    - eapply solid_eq; [|apply (filled_solid i g FI)]. eapply take_closed; [apply le_n|exact NR|exact H]. }
  destruct (negb after && dashed w).
  { destruct (find _ os) as [o|] eqn:F; [|discriminate]. apply find_some in F as [F _].
    destruct rest as [|v r']; [discriminate|]. destruct (dashed v); [discriminate|].
    destruct (g (a_name o)) eqn:G; [discriminate|]. cbn [length] in Ln.
    apply (IH r' q r after (give (a_name o) v g) g' i); auto; try lia.
    - destruct FI as [A B]. split.
      + intros j a X Y. apply give_given. exact (A j a X Y).
      + intros j a X Y. rewrite give_other; [exact (B j a X Y)|]. intros ->. apply (os_not o F).
        eapply nth_error_In. exact Y.
    - intros p I. rewrite give_other; [now apply TL|]. intros E. apply (os_not o F). rewrite <- E.
      assert (J : In (a_name p) (map a_name q)) by (apply in_map; destruct q; [contradiction|now right]).
      rewrite MQ in J. rewrite <- (firstn_skipn i pl). apply in_or_app. now right. }
  destruct q as [|p q].
  { destruct r as [|x r]; cbn [List.app] in H; [discriminate|]. pose proof (AF ltac:(discriminate)) as AF'.
    pose proof (Forall_inv LR) as X. cbn in X. rewrite X, AF' in H. discriminate H. }
  cbn [List.app] in H. inversion LQ as [|? ? X LQ']; subst. rewrite X in H. cbn [andb] in H.
  cbn [map] in MQ.
  assert (HI : nth_error pl i = Some (a_name p)).
  { clear -MQ. revert pl MQ. induction i as [|i IHi]; intros [|z pl] MQ; cbn in MQ; try discriminate.
    - now injection MQ as -> _.
    - cbn. now apply IHi. }
  assert (SK : map a_name q = skipn (S i) pl).
  { clear -MQ. revert pl MQ. induction i as [|i IHi]; intros [|z pl] MQ; cbn in MQ; try discriminate.
    - now injection MQ as _ <-.
    - now apply IHi. }
  assert (ON : forall j a, nth_error pl j = Some a -> j <> i -> a <> a_name p).
  { intros j a Y N E. subst a. apply N. apply (proj1 (NoDup_nth_error pl) pl_once).
    - apply nth_error_Some. congruence.
    - congruence. }
  assert (OQ : forall x, In x q -> a_name x <> a_name p).
  { intros x I. assert (J : In (a_name x) (skipn (S i) pl)) by (rewrite <- SK; now apply in_map).
    apply In_nth_error in J as (j & J). assert (Y : nth_error pl (S i + j) = Some (a_name x)).
    { rewrite <- J. symmetry. apply nth_skipn. }
    apply (ON _ _ Y). lia. }
  destruct FI as [A B].
  destruct (a_multiple p) eqn:M.
  - apply (IH rest (p :: q) r after (give (a_name p) w g) g' i); auto; try lia.
    + split.
      * intros j a Y Z. apply give_given. exact (A j a Y Z).
      * intros j a Y Z. rewrite give_other; [exact (B j a Y Z)|]. apply (ON j); [exact Z|lia].
    + cbn [tl]. intros x I. rewrite give_other by (now apply OQ). now apply TL.
  - apply (IH rest q r after (give (a_name p) w g) g' (S i)); auto; try lia.
    + split.
      * intros j a Y Z. destruct (Nat.eq_dec j i) as [->|N].
        -- rewrite HI in Z. injection Z as <-. rewrite give_same. discriminate.
        -- apply give_given. apply (A j a); [lia|exact Z].
      * intros j a Y Z. rewrite give_other; [apply (B j a); [lia|exact Z]|]. apply (ON j); [exact Z|lia].
    + intros x I. assert (Ix : In x q) by (destruct q; [contradiction|now right]).
      rewrite give_other by (now apply OQ). now apply TL.
Qed.
End Gaps.

Lemma words_gapless c ws g : words c ws = Some g -> gapless c g.
Proof.
  intros H. apply words_take in H as (N & H & _). unfold gapless.
  change (solid (places c) g).
  pose (q := filter (fun a => negb (a_last a)) (filter (fun a => negb (a_long a)) (declared c))).
  pose (r := filter a_last (filter (fun a => negb (a_long a)) (declared c))).
  assert (E : filter (fun a => negb (a_long a)) (declared c) = (q ++ r)%list) by (destruct c; try congruence; reflexivity).
  rewrite E in H.
  eapply (take_open (filter a_long (declared c)) (places c)) with (i := 0); [| |apply le_n| | | | | | | |exact H].
  - destruct c; cbn; try tauto. intros o [<-|[]] I. cbn in I. intuition discriminate.
  - destruct c; cbn; repeat constructor; cbn; intuition discriminate.
  - destruct c; try congruence; reflexivity.
  - destruct c; try congruence; repeat constructor.
  - destruct c; try congruence; repeat constructor.
  - destruct c; try congruence; cbn; try tauto. intros p [<-|[]] I. cbn in I. intuition discriminate.
  - reflexivity.
  - split; [intros j a X; lia|reflexivity].
  - reflexivity.
Qed.

(** ** Every such command line can be written *)

Lemma take_plain os p q after g w r : dashed w = false ->
  take os (p :: q) after g (w :: r) =
  if a_last p && negb after then None
  else take os (if a_multiple p then p :: q else q) after (give (a_name p) w g) r.
Proof.
  intros D. cbn [take]. rewrite D, andb_false_r. replace (seqb w "--") with false; [now rewrite andb_false_r|].
  symmetry. apply seqb_neq. intros ->. discriminate D.
Qed.

Lemma take_behind os p q g w r :
  take os (p :: q) true g (w :: r) = take os (if a_multiple p then p :: q else q) true (give (a_name p) w g) r.
Proof. cbn [take negb andb]. now rewrite andb_false_r. Qed.

(** Many words for one argument. *)
Lemma take_many os p q after ws : a_multiple p = true -> (after = false -> a_last p = false) ->
  (after = false -> Forall (fun w => dashed w = false) ws) ->
  forall g rest, exists g', take os (p :: q) after g (ws ++ rest) = take os (p :: q) after g' rest /\
  (forall k, k <> a_name p -> g' k = g k) /\
  g' (a_name p) = match ws, g (a_name p) with
                  | [], o => o
                  | _, Some l => Some (l ++ ws)%list
                  | _, None => Some ws
                  end.
Proof.
  intros M LA. induction ws as [|w ws IH]; intros D g rest.
  - exists g. repeat split.
  - assert (D' : after = false -> Forall (fun w => dashed w = false) ws).
    { intros A. specialize (D A). now inversion D. }
    destruct (IH D' (give (a_name p) w g) rest) as (g' & T & O & S). exists g'. repeat split.
    + cbn [List.app]. destruct after.
      * rewrite take_behind, M. exact T.
      * rewrite take_plain by (specialize (D eq_refl); now inversion D). rewrite (LA eq_refl), M. exact T.
    + intros k N. rewrite O by exact N. now apply give_other.
    + rewrite S, give_same. destruct ws as [|w' ws']; destruct (g (a_name p)); try reflexivity.
      now rewrite <- app_assoc.
Qed.

Definition vals (g : args) (k : string) : list string := match g k with Some vs => vs | None => [] end.

Lemma take_places os r : forall q g0 g rest,
  NoDup (map a_name q) -> Forall (fun p => a_last p = false) q ->
  (forall x p y, q = (x ++ p :: y)%list -> a_multiple p = true -> y = []) ->
  (forall p, In p q -> g0 (a_name p) = None) ->
  (forall i j a b, i <= j -> nth_error (map a_name q) i = Some a -> nth_error (map a_name q) j = Some b -> g b <> None -> g a <> None) ->
  (forall p vs, In p q -> a_multiple p = false -> g (a_name p) = Some vs -> exists v, vs = [v]) ->
  (forall k vs, g k = Some vs -> vs <> []) ->
  (forall k vs v, g k = Some vs -> In v vs -> dashed v = false) ->
  exists q' g1, incl q' q /\
  take os (q ++ r) false g0 (flat_map (vals g) (map a_name q) ++ rest) = take os (q' ++ r) false g1 rest /\
  (forall k, In k (map a_name q) -> g1 k = g k) /\ (forall k, ~ In k (map a_name q) -> g1 k = g0 k).
Proof.
  induction q as [|p q IH]; intros g0 g rest ND LQ MU FR GA ON NE UD.
  { exists [], g0. split; [intros x []|]. split; [reflexivity|]. split; [intros k []|reflexivity]. }
  cbn [map] in ND. inversion ND as [|? ? N1 N2]; subst. inversion LQ as [|? ? L1 L2]; subst.
  destruct (g (a_name p)) as [vs|] eqn:G.
  - assert (UV : Forall (fun w => dashed w = false) vs).
    { apply Forall_forall. intros v I. exact (UD _ _ v G I). }
    cbn [map flat_map]. unfold vals at 1. rewrite G, <- app_assoc. cbn [List.app].
    destruct (a_multiple p) eqn:M.
    + assert (q = []) by (apply (MU [] p q); [reflexivity|exact M]). subst q. cbn [map flat_map List.app].
      destruct (take_many os p r false vs M (fun _ => L1) (fun _ => UV) g0 rest) as (g' & T & O & S).
      exists [p], g'. repeat split.
      * intros x I. exact I.
      * exact T.
      * intros k [<-|[]]. rewrite S, (FR p) by now left. rewrite G. specialize (NE _ _ G). now destruct vs.
      * intros k N. apply O. intros ->. apply N. now left.
    + destruct (ON p vs (or_introl eq_refl) M G) as [v ->]. cbn [List.app].
      rewrite take_plain by now inversion UV. rewrite L1, M. cbn [andb].
      destruct (IH (give (a_name p) v g0) g rest) as (q' & g1 & I1 & T & A & B); auto.
      * intros x y z E. apply (MU (p :: x) y z). cbn. now rewrite E.
      * intros x I. rewrite give_other; [apply FR; now right|]. intros E. apply N1. rewrite <- E. now apply in_map.
      * intros i j a b L X Y. apply (GA (S i) (S j) a b); [lia|exact X|exact Y].
      * intros x ws I. apply ON. now right.
      * exists q', g1. repeat split.
        -- intros x I. right. now apply I1.
        -- exact T.
        -- intros k [<-|I]; [|now apply A]. rewrite B by exact N1. rewrite give_same, (FR p) by now left. now rewrite G.
        -- intros k N. rewrite B by (intros I; apply N; now right). apply give_other. intros ->. apply N. now left.
  - assert (E0 : forall k, In k (map a_name (p :: q)) -> g k = None).
    { intros k J0. apply In_nth_error in J0 as (j & J). destruct (g k) eqn:K; [|reflexivity]. exfalso.
      refine (GA 0 j (a_name p) k _ eq_refl J _ G); [lia|congruence]. }
    exists (p :: q), g0. repeat split.
    + intros x I. exact I.
    + replace (flat_map (vals g) (map a_name (p :: q))) with (@nil string); [reflexivity|].
      clear -E0. induction (map a_name (p :: q)) as [|k l IHl]; [reflexivity|]. cbn. unfold vals at 1.
      rewrite E0 by now left. apply IHl. intros x I. apply E0. now right.
    + intros k I. rewrite (E0 k I). apply in_map_iff in I as (x & <- & I). now apply FR.
Qed.

Definition undashed (g : args) : Prop := forall k vs v, g k = Some vs -> In v vs -> dashed v = false.

(** The words for the arguments [g]. *)
Definition spelled (c : command) (g : args) : list string :=
  (flat_map (vals g) (places c) ++
   match c, g "a" with
   | Setup, Some vs => "--" :: vs
   | Keygen, Some vs => "--a" :: vs
   | _, _ => []
   end)%list.

Lemma words_complete c g : c <> Authgen -> line_ok c g -> gapless c g -> undashed g ->
  exists g', words c (spelled c g) = Some g' /\ forall k, g' k = g k.
Proof.
  intros NA (A & S & N & D) GA UD.
  pose (q := filter (fun a => negb (a_last a)) (filter (fun a => negb (a_long a)) (declared c))).
  pose (r := filter a_last (filter (fun a => negb (a_long a)) (declared c))).
  pose (os := filter a_long (declared c)).
  assert (E : filter (fun a => negb (a_long a)) (declared c) = (q ++ r)%list) by (destruct c; try congruence; reflexivity).
  assert (PL : map a_name q = places c) by (destruct c; try congruence; reflexivity).
  assert (T : exists g', take os (q ++ r) false (fun _ => None) (spelled c g) = Some g' /\ forall k, g' k = g k).
  { destruct (take_places os r q (fun _ => None) g (skipn (length (flat_map (vals g) (places c))) (spelled c g)))
      as (q' & g1 & I & T & B1 & B2).
    - rewrite PL. destruct c; try congruence; cbn; repeat constructor; cbn; intuition discriminate.
    - destruct c; try congruence; repeat constructor.
    - intros x p y Eq M. clear -Eq M NA. subst q.
      destruct c; try congruence; cbn in Eq;
        repeat (destruct x as [|? x]; [injection Eq as <- Eq; try discriminate M; now symmetry|injection Eq as _ Eq]);
        destruct x; discriminate Eq.
    - reflexivity.
    - rewrite PL. exact GA.
    - intros p vs Ip M G. apply (S (a_name p) vs G). clear -Ip M NA. subst q. intros J.
      destruct c; try congruence; cbn in Ip, J;
        repeat (destruct Ip as [<-|Ip]; [cbn in J, M; intuition discriminate|]); contradiction.
    - exact N.
    - exact UD.
    - rewrite PL in T, B1, B2.
      assert (SP : (flat_map (vals g) (places c) ++ skipn (length (flat_map (vals g) (places c))) (spelled c g))%list = spelled c g).
      { unfold spelled. rewrite skipn_app, skipn_all, Nat.sub_diag. reflexivity. }
      rewrite SP in T. rewrite T. clear T SP. unfold spelled. rewrite skipn_app, skipn_all, Nat.sub_diag. cbn [skipn List.app].
      assert (G1 : forall k, ~ In k (places c) -> k <> "a" -> g k = None).
      { intros k NP Na. apply A; intros J; destruct c; try congruence; cbv [present optional places In MSK_FILE PK_FILE GP_FILE SK_FILE
          AU_SK_FILE SKA_FILE PKA_FILE FILE POLICY NAME ATTRIBUTES] in NP, J; intuition congruence. }
      assert (F1 : (c <> Setup /\ c <> Keygen) \/ g "a" = None -> forall k, g1 k = g k).
      { intros Hc k. destruct (in_dec String.string_dec k (places c)) as [J|J]; [now apply B1|].
        rewrite B2 by exact J. symmetry. destruct (String.string_dec k "a") as [->|Na]; [|now apply G1].
        destruct Hc as [[H1 H2]|Hc]; [|exact Hc]. apply A; intros K; destruct c; try congruence; try (apply J; cbn; tauto); cbn in K; intuition discriminate. }
      destruct (g "a") as [vs|] eqn:Ga.
      + destruct c; try congruence.
        * cbn [take seqb andb negb]. replace (seqb "--" "--") with true by reflexivity. cbn [andb negb].
          replace (beyond (q' ++ r)) with r.
          2:{ unfold beyond. rewrite filter_app. replace (filter a_last q') with (@nil decl); [reflexivity|].
              assert (H : forall x, In x q' -> a_last x = false).
              { intros x J. apply I in J. cbn in J. repeat (destruct J as [<-|J]; [reflexivity|]). contradiction. }
              clear -H. induction q' as [|x l IHl]; [reflexivity|]. cbn. rewrite (H x) by now left. apply IHl.
              intros y J. apply H. now right. }
          destruct (take_many os (last_words ATTRIBUTES) [] true vs eq_refl (fun X => ltac:(discriminate X)) (fun X => ltac:(discriminate X)) g1 [])
            as (g' & T & O & Sm). rewrite app_nil_r in T. exists g'. split; [exact T|].
          intros k. destruct (String.string_dec k "a") as [->|Na].
          -- change (g' "a") with (g' (a_name (last_words ATTRIBUTES))). rewrite Sm.
             change (g1 (a_name (last_words ATTRIBUTES))) with (g1 "a"). rewrite B2 by (cbn; intuition discriminate). rewrite Ga.
             specialize (N _ _ Ga). now destruct vs.
          -- rewrite O by exact Na. destruct (in_dec String.string_dec k (places Setup)) as [J|J]; [now apply B1|].
             rewrite B2 by exact J. symmetry. now apply G1.
        * destruct (S "a" vs Ga ltac:(intros [])) as [v ->].
          assert (Dv : dashed v = false) by (apply (UD _ _ v Ga); now left).
          cbn. rewrite Dv.
          change (seqb "--a" "--") with false. change (seqb "--a" (String "-" (String "-" ATTRIBUTES))) with true.
          cbn iota beta. cbn [a_name option_word]. unfold ATTRIBUTES. rewrite B2 by (cbn; intuition discriminate).
          exists (give "a" v g1). split; [reflexivity|].
          intros k. destruct (String.string_dec k "a") as [->|Na].
          -- rewrite give_same, B2 by (cbn; intuition discriminate). now rewrite Ga.
          -- rewrite give_other by exact Na. destruct (in_dec String.string_dec k (places Keygen)) as [J|J]; [now apply B1|].
             rewrite B2 by exact J. symmetry. now apply G1.
        * exists g1. split; [reflexivity|]. apply F1. left. split; discriminate.
        * exists g1. split; [reflexivity|]. apply F1. left. split; discriminate.
        * exists g1. split; [reflexivity|]. apply F1. left. split; discriminate.
        * exists g1. split; [reflexivity|]. apply F1. left. split; discriminate.
        * exists g1. split; [reflexivity|]. apply F1. left. split; discriminate.
      + exists g1. split; [now destruct c|]. apply F1. now right. }
  destruct T as (g' & T & X). exists g'. split; [|exact X]. unfold words. fold os. rewrite E, T.
  destruct c; try congruence; cbn; rewrite X; destruct (g FILE) eqn:G; try reflexivity;
    exfalso; apply D; auto.
Qed.

(** ** A session *)

Section Session.
Context {C : crypto} (L : laws C) (E : env C) (OK : env_ok E).
Variable place : language -> string -> location.
Variable fe : field_error.
Variable pest : language -> string -> string.
Variable debug : string -> string.
Variable T : crate_texts.
Local Notation program := (program E place fe pest debug T).

Lemma program_zero t nonce ws s l name c g d o d' :
  command_line ws = Some (s, l, Some (name, g)) -> command_of name = Some c ->
  program t nonce ws d = Some (o, (d', 0)) ->
  exists text, run E t nonce text c (matches c g) (scheme_of s) (lang_of l) d = (d', Ok tt).
Proof.
  intros W N H0. unfold Words.program in H0. rewrite W in H0.
  assert (H : main E place fe pest debug T t nonce (Some s) l (Some (name, g)) d = (o, (d', 0))) by congruence. clear H0.
  destruct (main_app L E place fe pest debug T t nonce (Some s) l (Some (name, g)) d) as (text & M).
  cbn zeta in M. rewrite H in M. cbn [snd] in M. unfold CommandLine.app in M. rewrite N in M. exists text.
  destruct (run E t nonce text c (matches c g) (scheme_of s) (lang_of l) d) as [d2 [[]| |]]; cbn in M; congruence.
Qed.

Lemma dashed_ct file : dashed (file ++ ".ct") = false -> dashed file = false.
Proof. destruct file as [|a [|b r]]; cbn; auto. Qed.

Lemma line_keygen x r : command_line ["--s"; "AC17CP"; "keygen"; "--a"; x] = Some r ->
  r = ("AC17CP", None, Some ("keygen", give "a" x (fun _ => None))).
Proof.
  unfold command_line.
  change (front None None ["--s"; "AC17CP"; "keygen"; "--a"; x]) with
    (Some (Some "AC17CP", @None string, Some ("keygen", ["--a"; x]))).
  cbn iota. change (command_of "keygen") with (Some Keygen). cbn iota. unfold words.
  change (take _ _ _ _ ["--a"; x]) with (if dashed x then None else Some (give "a" x (fun _ => None))).
  destruct (dashed x); [discriminate|]. cbn iota. intros H. injection H as <-. reflexivity.
Qed.

Lemma line_encrypt l file policy r : dashed file = false -> dashed policy = false ->
  command_line ["--s"; "AC17CP"; "--l"; l; "encrypt"; file; policy] = Some r ->
  r = ("AC17CP", Some l, Some ("encrypt", give "p" policy (give "f" file (fun _ => None)))).
Proof.
  intros A B. unfold command_line.
  change (front None None ["--s"; "AC17CP"; "--l"; l; "encrypt"; file; policy]) with
    (if existsb (seqb l) lang_names then Some (Some "AC17CP", Some l, Some ("encrypt", [file; policy])) else None).
  destruct (existsb (seqb l) lang_names); [|discriminate]. cbn iota.
  change (command_of "encrypt") with (Some Encrypt). cbn iota. unfold words.
  change (take _ _ _ _ [file; policy]) with (take [] [one_word FILE; one_word POLICY; one_word GP_FILE; one_word PK_FILE;
    many_words ATTRIBUTES] false (fun _ => None) [file; policy]).
  rewrite take_plain by exact A. cbn [a_last a_multiple a_name one_word many_words andb].
  rewrite take_plain by exact B. cbn [a_last a_multiple a_name one_word many_words andb take].
  change (give POLICY policy (give FILE file (fun _ => None)) FILE) with (Some [file]). cbn iota.
  intros H. injection H as <-. reflexivity.
Qed.

Lemma line_decrypt file : dashed file = false ->
  command_line ["--s"; "AC17CP"; "decrypt"; file] = Some ("AC17CP", None, Some ("decrypt", give "f" file (fun _ => None))).
Proof.
  intros A. unfold command_line.
  change (front None None ["--s"; "AC17CP"; "decrypt"; file]) with
    (Some (Some "AC17CP", @None string, Some ("decrypt", [file]))).
  cbn iota. change (command_of "decrypt") with (Some Decrypt). cbn iota. unfold words.
  change (take _ _ _ _ [file]) with (take [] [one_word FILE; one_word GP_FILE; one_word PK_FILE; one_word SK_FILE]
    false (fun _ => None) [file]).
  rewrite take_plain by exact A. reflexivity.
Qed.

Lemma app_long (x y : string) : x ++ y = x -> y = "".
Proof. induction x as [|a x IH]; [auto|]. cbn. intros H. injection H as H. auto. Qed.

Fixpoint last_of (s : string) (c : ascii) : ascii := match s with EmptyString => c | String a r => last_of r a end.
Lemma last_app x y c : last_of (x ++ y) c = last_of y (last_of x c).
Proof. revert c. induction x as [|a x IH]; intros c; [reflexivity|]. apply IH. Qed.

Lemma ct_key file k : file ++ ".ct" <> k ++ ".key".
Proof.
  intros H. apply (f_equal (fun s => last_of s "x")) in H. rewrite !last_app in H. discriminate H.
Qed.

Theorem session ts tk te td n1 n2 n3 n4 x l file policy f data d d1 d2 d3 o1 o2 o3 :
  program ts n1 ["--s"; "AC17CP"; "setup"] d = Some (o1, (d1, 0)) ->
  program tk n2 ["--s"; "AC17CP"; "keygen"; "--a"; x] d1 = Some (o2, (d2, 0)) ->
  program te n3 ["--s"; "AC17CP"; "--l"; l; "encrypt"; file; policy] d2 = Some (o3, (d3, 0)) ->
  dashed (file ++ ".ct") = false -> dashed policy = false ->
  ~ In file [""; "msk.key"; "pk.key"; "sk.key"] ->
  Forall (readable d) ["msk.key"; "pk.key"; "sk.key"; file ++ ".ct"] ->
  fs_open d file = Some data ->
  valid x -> Forall valid (names f) -> valid policy ->
  parse policy (lang_of (Some l)) = Ok (tree f) -> String.length n3 = 12 ->
  binary_and f = true -> NoDup (names f) ->
  exists o4, program td n4 ["--s"; "AC17CP"; "decrypt"; file ++ ".ct"] d3 =
    Some (o4, (d3, if sat (owns [x]) f then (if seqb data "" then 0 else 101) else 1)).
Proof.
  intros H1 H2 H3 Df Dp NF RD FO VX VN VP P NL B ND.
  destruct (program_zero ts n1 ["--s"; "AC17CP"; "setup"] "AC17CP" None "setup" Setup (fun _ => None) d o1 d1 eq_refl eq_refl H1) as (t1 & R1).
  destruct (command_line ["--s"; "AC17CP"; "keygen"; "--a"; x]) as [r2|] eqn:W2.
  2:{ unfold Words.program in H2. rewrite W2 in H2. discriminate. }
  pose proof (line_keygen x r2 W2) as ->.
  destruct (program_zero tk n2 _ _ _ _ Keygen _ d1 o2 d2 W2 eq_refl H2) as (t2 & R2).
  destruct (command_line ["--s"; "AC17CP"; "--l"; l; "encrypt"; file; policy]) as [r3|] eqn:W3.
  2:{ unfold Words.program in H3. rewrite W3 in H3. discriminate. }
  pose proof (line_encrypt l file policy r3 (dashed_ct file Df) Dp W3) as ->.
  destruct (program_zero te n3 _ _ _ _ Encrypt _ d2 o3 d3 W3 eq_refl H3) as (t3 & R3).
  pose proof (line_decrypt (file ++ ".ct") Df) as W4.
  set (gk := give "a" x (fun _ => None)) in *. set (ge := give "p" policy (give "f" file (fun _ => None))) in *.
  set (gd := give "f" (file ++ ".ct") (fun _ => None)) in *.
  assert (Ct : enc_ct_file (matches Encrypt ge) = file ++ ".ct") by reflexivity.
  assert (O : snd (open_file E (matches Decrypt gd) AC17CP d3) = if sat (owns [x]) f then Ok data else Err).
  { change [x] with (attr_args (matches Keygen gk)).
    refine (cp_console L E OK ts tk te n3 t3 (matches Setup (fun _ => None)) (matches Keygen gk) (matches Encrypt ge)
      (matches Decrypt gd) (lang_of (Some l)) HumanPolicy d d1 d2 d3 data f R1 R2 R3 eq_refl eq_refl eq_refl eq_refl
      _ _ RD FO _ VN VP P NL B ND _).
    - change (NoDup ["msk.key"; "pk.key"; "sk.key"; file ++ ".ct"]).
      pose proof (ct_key file "msk") as K1. pose proof (ct_key file "pk") as K2. pose proof (ct_key file "sk") as K3.
      cbn in K1, K2, K3. repeat constructor; cbn; intuition congruence.
    - intros I. apply NF. now right.
    - repeat constructor. exact VX.
    - repeat constructor; auto. }
  assert (FI : fs_open d3 file = Some data).
  { assert (SA : fs_files d3 file = fs_files d file).
    { transitivity (fs_files d2 file); [|transitivity (fs_files d1 file)].
      - refine (run_frame E te n3 t3 Encrypt _ _ _ _ _ _ R3 file _). cbn [outputs]. rewrite Ct.
        intros [X|[]]. apply app_long in X. discriminate X.
      - refine (run_frame E tk n2 t2 Keygen _ _ _ _ _ _ R2 file _).
        change (~ In file ["sk.key"; ""]). intros [X|[X|[]]]; apply NF; cbn; auto.
      - refine (run_frame E ts n1 t1 Setup _ _ _ _ _ _ R1 file _). change (~ In file ["msk.key"; "pk.key"]).
        intros I. apply NF. cbn in I |- *. tauto. }
    unfold fs_open in *. now rewrite SA. }
  unfold Words.program. rewrite W4.
  destruct (main_app L E place fe pest debug T td n4 (Some "AC17CP") None (Some ("decrypt", gd)) d3) as (t4 & M).
  cbn zeta in M. unfold CommandLine.app in M. change (command_of "decrypt") with (Some Decrypt) in M. cbn iota in M.
  destruct (main E place fe pest debug T td n4 (Some "AC17CP") None (Some ("decrypt", gd)) d3) as [o4 r4].
  exists o4. f_equal. f_equal. cbn [snd] in M. rewrite M. cbn [run]. unfold run_decrypt, ibind.
  change (scheme_of "AC17CP") with AC17CP.
  destruct (open_file E (matches Decrypt gd) AC17CP d3) as [d4 r] eqn:Op.
  pose proof (quiet_open_file E _ _ _ _ _ Op) as ->. cbn [snd] in O. subst r.
  change (text_arg (matches Decrypt gd) FILE) with (file ++ ".ct"). rewrite pop_ct.
  destruct (sat (owns [x]) f); [|reflexivity].
  unfold write_from_vec. rewrite FI. destruct data as [|a data]; reflexivity.
Qed.
End Session.

(** ** The words before the subcommand *)

Definition rest_of (ws : list string) (x : option (string * list string)) : Prop :=
  match x with
  | None => ws = []
  | Some (w, r) => ws = (w :: r)%list /\ command_of w <> None
  end.

Lemma command_word w : command_of w <> None -> seqb w "--s" = false /\ seqb w "--l" = false.
Proof.
  intros N. split; destruct (seqb _ _) eqn:E; try reflexivity; apply seqb_eq in E; subst w; exfalso; apply N; reflexivity.
Qed.

Lemma known v l : existsb (seqb v) l = true <-> In v l.
Proof.
  rewrite existsb_exists. split; [intros (x & I & E); apply seqb_eq in E; now subst|]. intros I. exists v. split; [exact I|apply seqb_refl].
Qed.

Lemma rest_front s l ws x : rest_of ws x -> front s l ws = Some (s, l, x).
Proof.
  destruct x as [[w r]|]; cbn.
  - intros (-> & N). destruct (command_word w N) as (E1 & E2). cbn [front]. rewrite E1, E2. now destruct (command_of w).
  - now intros ->.
Qed.

Lemma front_both s l ws y : front (Some s) (Some l) ws = Some y -> exists x, y = (Some s, Some l, x) /\ rest_of ws x.
Proof.
  destruct ws as [|w r]; cbn [front].
  - intros H. injection H as <-. now exists None.
  - destruct (seqb w "--s"); [discriminate|]. destruct (seqb w "--l"); [discriminate|].
    destruct (command_of w) eqn:E; [|discriminate]. intros H. injection H as <-. exists (Some (w, r)). split; [reflexivity|]. cbn.
    split; [reflexivity|]. now rewrite E.
Qed.

Lemma front_scheme s ws y : front (Some s) None ws = Some y ->
  (exists x, y = (Some s, None, x) /\ rest_of ws x) \/
  exists l r x, ws = ("--l" :: l :: r)%list /\ In l lang_names /\ y = (Some s, Some l, x) /\ rest_of r x.
Proof.
  destruct ws as [|w r]; cbn [front].
  - intros H. injection H as <-. left. now exists None.
  - destruct (seqb w "--s"); [discriminate|]. destruct (seqb w "--l") eqn:E2.
    + apply seqb_eq in E2. subst w. destruct r as [|l r]; [discriminate|]. destruct (existsb (seqb l) lang_names) eqn:K; [|discriminate].
      apply known in K. intros H. apply front_both in H as (x & -> & R). right. now exists l, r, x.
    + destruct (command_of w) eqn:E; [|discriminate]. intros H. injection H as <-. left. exists (Some (w, r)). split; [reflexivity|]. cbn.
      split; [reflexivity|]. now rewrite E.
Qed.

Lemma front_lang l ws y : front None (Some l) ws = Some y ->
  (exists x, y = (None, Some l, x)) \/
  exists s r x, ws = ("--s" :: s :: r)%list /\ In s scheme_names /\ y = (Some s, Some l, x) /\ rest_of r x.
Proof.
  destruct ws as [|w r]; cbn [front].
  - intros H. injection H as <-. left. now exists None.
  - destruct (seqb w "--s") eqn:E1.
    + apply seqb_eq in E1. subst w. destruct r as [|s r]; [discriminate|]. destruct (existsb (seqb s) scheme_names) eqn:K; [|discriminate].
      apply known in K. intros H. apply front_both in H as (x & -> & R). right. now exists s, r, x.
    + destruct (seqb w "--l"); [discriminate|]. destruct (command_of w) eqn:E; [|discriminate]. intros H. injection H as <-. left. eauto.
Qed.

(** What stands before the subcommand: the scheme, and the language, in any order, if at all. *)
Definition options_before (s : string) (l : option string) (ws : list string) : Prop :=
  In s ["AC17CP"; "AC17KP"; "AW11"; "BDABE"; "BSW"; "LSW"; "MKE08"; "YCT14"] /\
  match l with
  | None => ws = ["--s"; s]
  | Some l => In l ["HUMAN"; "JSON"] /\ (ws = ["--s"; s; "--l"; l] \/ ws = ["--l"; l; "--s"; s])
  end.

Lemma front_none ws s l x : front None None ws = Some (Some s, l, x) <->
  exists before r, ws = (before ++ r)%list /\ options_before s l before /\ rest_of r x.
Proof.
  split.
  - destruct ws as [|w r]; cbn [front]; [discriminate|]. destruct (seqb w "--s") eqn:E1; [|destruct (seqb w "--l") eqn:E2].
    + apply seqb_eq in E1. subst w. destruct r as [|s' r]; [discriminate|]. destruct (existsb (seqb s') scheme_names) eqn:K; [|discriminate].
      apply known in K. intros H. apply front_scheme in H as [(x' & E & R)|(l' & r' & x' & -> & Il & E & R)]; injection E as -> -> ->.
      * exists ["--s"; s'], r. split; [reflexivity|]. split; [|exact R]. split; [exact K|reflexivity].
      * exists ["--s"; s'; "--l"; l'], r'. split; [reflexivity|]. split; [|exact R]. split; [exact K|]. split; [exact Il|now left].
    + apply seqb_eq in E2. subst w. destruct r as [|l' r]; [discriminate|]. destruct (existsb (seqb l') lang_names) eqn:K; [|discriminate].
      apply known in K. intros H. apply front_lang in H as [(x' & E)|(s' & r' & x' & -> & Is & E & R)]; [discriminate|]. injection E as -> -> ->.
      exists ["--l"; l'; "--s"; s'], r'. split; [reflexivity|]. split; [|exact R]. split; [exact Is|]. split; [exact K|now right].
    + destruct (command_of w); discriminate.
  - intros (b & r & -> & (Is & H) & R). change (In s scheme_names) in Is. apply known in Is. destruct l as [l|].
    + destruct H as (Il & H). change (In l lang_names) in Il. apply known in Il.
      destruct H as [-> | ->]; cbn [List.app front]; change (seqb "--s" "--s") with true; change (seqb "--l" "--s") with false;
        change (seqb "--l" "--l") with true; cbn iota; rewrite Is, Il; now apply rest_front.
    + subst b. cbn [List.app front]. change (seqb "--s" "--s") with true. cbn iota. rewrite Is. now apply rest_front.
Qed.

Theorem line_exact ws s l sub : command_line ws = Some (s, l, sub) <->
  exists before r, ws = (before ++ r)%list /\ options_before s l before /\
  match sub with
  | None => r = []
  | Some (w, g) => exists c r', r = (w :: r')%list /\ command_of w = Some c /\ words c r' = Some g
  end.
Proof.
  unfold command_line. split.
  - destruct (front None None ws) as [[[[s'|] l'] x]|] eqn:E; try discriminate. intros H.
    apply front_none in E as (b & r & -> & O & R). destruct x as [[w r']|].
    + destruct (command_of w) as [c|] eqn:Ec; [|discriminate]. destruct (words c r') as [g|] eqn:W; [|discriminate].
      injection H as <- <- <-. destruct R as (-> & _). exists b, (w :: r')%list. split; [reflexivity|]. split; [exact O|]. now exists c, r'.
    + injection H as <- <- <-. exists b, r. auto.
  - intros (b & r & -> & O & R). destruct sub as [[w g]|].
    + destruct R as (c & r' & -> & Ec & W).
      rewrite (proj2 (front_none (b ++ w :: r') s l (Some (w, r')))); [now rewrite Ec, W|].
      exists b, (w :: r')%list. split; [reflexivity|]. split; [exact O|]. cbn. split; [reflexivity|]. now rewrite Ec.
    + subst r. rewrite (proj2 (front_none (b ++ []) s l None)); [reflexivity|]. exists b, []. repeat split; apply O.
Qed.
