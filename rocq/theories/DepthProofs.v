(** * DepthProofs: how deep the parser recurses (C97)

    The matcher calls itself for every rule inside a rule, and a pair of tokens
    lies inside the pair of the rule that called it; so a policy of height [n]
    needs at least [n] nested calls. *)
From Coq Require Import String Ascii List Bool Arith Lia.
From Verif Require Import Base Policy Spec Peg Grammar Parse PegProofs ParseProofs ParseText ParseHuman
  Layout SerializeExact.
Import ListNotations.
Local Open Scope string_scope.

(** Specification: how deep the operators of a policy are nested. *)
Fixpoint height (f : formula) : nat :=
  match f with
  | FLeaf _ _ => 0
  | FAnd l => S (list_max (map height l))
  | FOr l => S (list_max (map height l))
  end.

(** Nesting of token pairs. *)
Fixpoint nesting (t : tok rule) : nat :=
  match t with Tok _ _ _ l => S (list_max (map nesting l)) end.

Definition deepest (l : list (tok rule)) : nat := list_max (map nesting l).

Lemma deepest_app l l' : deepest (l ++ l') = Nat.max (deepest l) (deepest l').
Proof. unfold deepest. now rewrite map_app, list_max_app. Qed.

Lemma deepest_one r c x l : deepest [Tok r c x l] = S (deepest l).
Proof. reflexivity. Qed.

Lemma deepest_nil : deepest [] = 0.
Proof. reflexivity. Qed.

Lemma nesting_fuel (g : grammar rule) n : forall a e s s' t, run g n a e s = Done s' t -> deepest t <= n.
Proof.
  induction n as [|n IH]; intros a e s s' t H; [discriminate|].
  cbn [run] in H. cbv zeta in H.
  destruct e as [x|c| |p| |r|e1 e2|e1 e2|e1|e1|e1|e1|r];
    repeat match type of H with
    | context [match ?x with _ => _ end] => destruct x eqn:?; try discriminate
    end; unfold of_opt in *;
    repeat match type of H with
    | context [match ?x with _ => _ end] => destruct x eqn:?; try discriminate
    end;
    repeat match goal with E : run g n _ _ _ = Done _ _ |- _ => apply IH in E end;
    try (injection H as _ <-); rewrite ?deepest_app, ?deepest_one, ?deepest_nil; lia.
Qed.

Lemma build_children l vs : build_all l = Ok vs -> Forall2 (fun t v => build t = Ok v) l vs.
Proof.
  revert vs. induction l as [|t l IH]; intros vs H; cbn [build_all] in H.
  - injection H as <-. constructor.
  - destruct (build t) as [v| |] eqn:B; try discriminate. cbn [obind] in H.
    change (obind (build_all l) (fun vs => Ok (v :: vs)) = Ok vs) in H.
    destruct (build_all l) as [ws| |]; try discriminate. injection H as <-. constructor; auto.
Qed.

Lemma height_nesting : forall t f, build t = Ok (tree f) -> height f <= nesting t.
Proof.
  fix IH 1. intros [r c x l] f H.
  assert (K : forall fs, build_all l = Ok (map tree fs) -> list_max (map height fs) <= deepest l).
  { intros fs E. apply build_children in E. clear H. revert l fs E. fix IL 1. intros [|t l] [|f' fs] E; inversion E; subst.
    - reflexivity.
    - specialize (IH t f' ltac:(assumption)). specialize (IL l fs ltac:(assumption)).
      unfold deepest in *. cbn [map list_max fold_right] in *. fold (list_max (map height fs)) (list_max (map nesting l)). lia. }
  change (nesting (Tok r c x l)) with (S (deepest l)).
  assert (A : obind (build_all l) (fun vs => Ok (PObj And (PArr vs))) = Ok (tree f) -> height f <= S (deepest l)).
  { intros E. destruct (build_all l) as [vs| |]; try discriminate. destruct f as [|fs|fs]; try discriminate.
    injection E as ->. specialize (K fs eq_refl). cbn [height]. lia. }
  assert (O : obind (build_all l) (fun vs => Ok (PObj Or (PArr vs))) = Ok (tree f) -> height f <= S (deepest l)).
  { intros E. destruct (build_all l) as [vs| |]; try discriminate. destruct f as [|fs|fs]; try discriminate.
    injection E as ->. specialize (K fs eq_refl). cbn [height]. lia. }
  clear K IH. destruct r; try discriminate H; try (now apply A); try (now apply O);
    cbn in H; destruct l as [|[r' c' x' l'] l]; try discriminate; destruct f; try discriminate; cbn [height]; lia.
Qed.

(** Less fuel than the height of the policy is not enough. *)
Theorem depth_needed pol lang f n :
  parse pol lang = Ok (tree f) -> n < height f ->
  run (grammar_of lang) n NonAtomic (ERule content) (St 1 pol) = Fuel.
Proof.
  intros P Hn. destruct (run (grammar_of lang) n NonAtomic (ERule content) (St 1 pol)) as [|s' ts|] eqn:R; [| |reflexivity]; exfalso.
  - destruct (parse_cases pol lang) as [(E & _)|(t & s' & (m & s1 & ts & A) & B & _)]; [congruence|].
    destruct (Nat.le_ge_cases n m) as [Hl|Hl].
    + rewrite (run_mono _ _ _ _ _ _ Hl) in A by congruence. congruence.
    + rewrite (run_mono _ _ _ _ _ _ Hl) in R by congruence. congruence.
  - destruct (parse_cases pol lang) as [(E & _)|(t & s1' & (m & s1 & ts1 & A) & B & _)]; [congruence|].
    assert (E : ts = t :: ts1).
    { destruct (Nat.le_ge_cases n m) as [Hl|Hl].
      - rewrite (run_mono _ _ _ _ _ _ Hl) in A by congruence. congruence.
      - rewrite (run_mono _ _ _ _ _ _ Hl) in R by congruence. congruence. }
    subst ts. apply nesting_fuel in R. rewrite P in B. symmetry in B. apply height_nesting in B.
    unfold deepest in R. cbn [map list_max fold_right] in R. lia.
Qed.

(** *** Short texts of every height *)
Fixpoint deep (n : nat) : formula :=
  match n with
  | 0 => FLeaf "A" 0
  | S n => FAnd [deep n; FLeaf "A" 0]
  end.

Lemma deep_height n : height (deep n) = n.
Proof. induction n as [|n IH]; [reflexivity|]. cbn. rewrite IH. lia. Qed.

Lemma deep_names n : Forall quotable (names (deep n)).
Proof.
  assert (A : quotable "A") by (constructor; [reflexivity|constructor]).
  induction n as [|n IH].
  - constructor; [exact A|constructor].
  - change (names (deep (S n))) with (map fst (leaves (deep n) ++ (leaves (FLeaf "A" 0) ++ []))).
    rewrite map_app. apply Forall_app. split; [exact IH|]. constructor; [exact A|constructor].
Qed.

Lemma deep_arity2 n : arity2 (deep n) = true.
Proof. induction n as [|n IH]; [reflexivity|]. cbn. now rewrite IH. Qed.

Lemma erase_height f : height (erase f) = height f.
Proof.
  induction f as [n p|l IH|l IH] using formula_ind'; [reflexivity| |];
  (cbn [erase height]; f_equal; rewrite map_map; f_equal;
   induction IH as [|a l0 E _ IHl]; cbn [map]; [reflexivity|]; now rewrite E, IHl).
Qed.

Lemma slen x y : String.length (x ++ y) = (String.length x + String.length y)%nat.
Proof. induction x; cbn; [reflexivity|]. now rewrite IHx. Qed.

Lemma deep_json n : String.length (json_text (deep n)) = (46 * n + 13)%nat.
Proof.
  induction n as [|n IH]; [reflexivity|]. cbn [deep json_text map String.concat]. rewrite !slen, IH.
  cbn. lia.
Qed.

Lemma deep_human n : String.length (human_text (deep n)) = (10 * n + 3)%nat.
Proof.
  induction n as [|n IH]; [reflexivity|]. cbn [deep human_text map String.concat]. unfold sep. rewrite !slen, IH.
  cbn. lia.
Qed.

Theorem deep_texts lang n : exists pol f,
  parse pol lang = Ok (tree f) /\ height f = n /\ String.length pol <= 100 * (n + 1).
Proof.
  destruct lang.
  - destruct (json_back (deep n)) as (txt & S & B).
    rewrite serialize_json in S. injection S as <-.
    destruct (proj2 B (deep_names n)) as (g & P & E).
    exists (json_text (deep n)), g. split; [exact P|]. split; [|rewrite deep_json; lia].
    now rewrite <- erase_height, E, erase_height, deep_height.
  - destruct (proj2 (human_back _ (deep_arity2 n)) (deep_names n)) as (g & P & E).
    exists (human_text (deep n)), g. split; [exact P|]. split; [|rewrite deep_human; lia].
    now rewrite <- erase_height, E, erase_height, deep_height.
Qed.

(** No depth is enough for all texts, in either language. *)
Theorem depth_unbounded lang n : exists pol f,
  parse pol lang = Ok (tree f) /\ String.length pol <= 100 * (n + 2) /\
  run (grammar_of lang) n NonAtomic (ERule content) (St 1 pol) = Fuel.
Proof.
  destruct (deep_texts lang (n + 1)) as (pol & f & P & H & Hl). exists pol, f. split; [exact P|]. split; [lia|].
  eapply depth_needed; [exact P|lia].
Qed.

(** A depth linear in the length is enough. *)
Theorem depth_enough pol lang n : 3000 * (String.length pol + 1) <= n ->
  run (grammar_of lang) n NonAtomic (ERule content) (St 1 pol) <> Fuel.
Proof.
  intros Hn. destruct (parse_total pol lang) as (r & N & E). rewrite E; [exact N|]. unfold fuel_of. lia.
Qed.

(** So the height of an accepted policy is linear in its text. *)
Theorem height_bound pol lang f : parse pol lang = Ok (tree f) -> height f <= 3000 * (String.length pol + 1).
Proof.
  intros P. destruct (Nat.le_gt_cases (height f) (3000 * (String.length pol + 1))) as [H|H]; [exact H|].
  exfalso. now apply (depth_enough pol lang _ (le_n _)), (depth_needed _ _ f).
Qed.
