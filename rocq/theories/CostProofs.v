(** * CostProofs: how long parsing takes *)
From Coq Require Import String Ascii List Bool Arith Lia.
From Verif Require Import Base Policy Spec Peg Grammar Parse PegProofs ParseProofs ParseText ParseHuman Cost.
Import ListNotations.
Local Open Scope string_scope.

Section Work.
Variable g : grammar rule.

(** More fuel does not change the work. *)
Lemma cost_S n : forall a e s, run g n a e s <> Fuel -> cost g (S n) a e s = cost g n a e s.
Proof.
  induction n as [|n IH]; intros a e s H; [now cbn in H|].
  assert (RS : forall a e s, run g n a e s <> Fuel -> run g (S n) a e s = run g n a e s) by (intros; now apply run_S).
  assert (IH' : forall a e s r, run g n a e s = r -> r <> Fuel -> cost g (S n) a e s = cost g n a e s)
    by (intros; subst; now apply IH).
  assert (RS' : forall a e s r, run g n a e s = r -> r <> Fuel -> run g (S n) a e s = r)
    by (intros; subst; now apply RS).
  rewrite run_step in H. unfold step in H. cbv zeta in H.
  change (cost g (S (S n)) a e s) with
    (let skip (s : st) : res rule :=
      match a with NonAtomic => run g (S n) Atomic (g_skip g) s | _ => Done s [] end in
    let skip_cost (s : st) : nat :=
      match a with NonAtomic => cost g (S n) Atomic (g_skip g) s | _ => 0 end in
    S match e with
      | EStr _ | EStrI _ | EAny | EClass _ | ESoi | EEoi _ => 0
      | ESeq e1 e2 =>
          cost g (S n) a e1 s +
          match run g (S n) a e1 s with
          | Done s1 _ => skip_cost s1 +
              match skip s1 with Done s2 _ => cost g (S n) a e2 s2 | _ => 0 end
          | _ => 0
          end
      | EAlt e1 e2 =>
          cost g (S n) a e1 s + match run g (S n) a e1 s with Fail => cost g (S n) a e2 s | _ => 0 end
      | EStar e1 =>
          cost g (S n) a e1 s + match run g (S n) a e1 s with Done s1 _ => cost g (S n) a (EMore e1) s1 | _ => 0 end
      | EMore e1 =>
          skip_cost s +
          match skip s with
          | Done s1 _ => cost g (S n) a e1 s1 +
              match run g (S n) a e1 s1 with Done s2 _ => cost g (S n) a (EMore e1) s2 | _ => 0 end
          | _ => 0
          end
      | EOpt e1 | ENot e1 => cost g (S n) a e1 s
      | ERule r =>
          match g_kind g r with
          | KSilent | KNormal => cost g (S n) a (g_body g r) s
          | KSilentAtomic | KAtomic => cost g (S n) Atomic (g_body g r) s
          | KCompound => cost g (S n) Compound (g_body g r) s
          end
      end).
  change (cost g (S n) a e s) with
    (let skip (s : st) : res rule :=
      match a with NonAtomic => run g n Atomic (g_skip g) s | _ => Done s [] end in
    let skip_cost (s : st) : nat :=
      match a with NonAtomic => cost g n Atomic (g_skip g) s | _ => 0 end in
    S match e with
      | EStr _ | EStrI _ | EAny | EClass _ | ESoi | EEoi _ => 0
      | ESeq e1 e2 =>
          cost g n a e1 s +
          match run g n a e1 s with
          | Done s1 _ => skip_cost s1 +
              match skip s1 with Done s2 _ => cost g n a e2 s2 | _ => 0 end
          | _ => 0
          end
      | EAlt e1 e2 =>
          cost g n a e1 s + match run g n a e1 s with Fail => cost g n a e2 s | _ => 0 end
      | EStar e1 =>
          cost g n a e1 s + match run g n a e1 s with Done s1 _ => cost g n a (EMore e1) s1 | _ => 0 end
      | EMore e1 =>
          skip_cost s +
          match skip s with
          | Done s1 _ => cost g n a e1 s1 +
              match run g n a e1 s1 with Done s2 _ => cost g n a (EMore e1) s2 | _ => 0 end
          | _ => 0
          end
      | EOpt e1 | ENot e1 => cost g n a e1 s
      | ERule r =>
          match g_kind g r with
          | KSilent | KNormal => cost g n a (g_body g r) s
          | KSilentAtomic | KAtomic => cost g n Atomic (g_body g r) s
          | KCompound => cost g n Compound (g_body g r) s
          end
      end).
  cbv zeta. f_equal. destruct e; try reflexivity; destruct a;
    repeat match goal with
    | H : context [match run g n ?a ?e ?s with _ => _ end] |- _ =>
        let E := fresh "E" in
        destruct (run g n a e s) eqn:E; try congruence;
        rewrite ?(IH' _ _ _ _ E), ?(RS' _ _ _ _ E) by discriminate
    | H : context [match g_kind g ?r with _ => _ end] |- _ => destruct (g_kind g r)
    end; rewrite ?IH; try reflexivity; try assumption; try congruence.
Qed.

Lemma cost_mono n m a e s : n <= m -> run g n a e s <> Fuel -> cost g m a e s = cost g n a e s.
Proof.
  induction 1 as [|m Hm IH]; intros H; [reflexivity|].
  rewrite cost_S; [now apply IH|]. rewrite (run_mono g n m) by assumption. exact H.
Qed.

(** Matching [e] on the text [x] takes at least [k] attempts. *)
Definition CG (a : atomicity) (e : expr rule) (x : string) (k : nat) : Prop :=
  forall c, exists N, forall n, N <= n -> k <= cost g n a e (St c x).

Lemma cg_weak a e x k k' : k' <= k -> CG a e x k -> CG a e x k'.
Proof. intros H P c. destruct (P c) as (N & Q). exists N. intros n Hn. specialize (Q n Hn). lia. Qed.

Lemma cg_one a e x : CG a e x 1.
Proof. intros c. exists 1. intros [|n] H; [lia|]. cbn. lia. Qed.

Lemma cg_seq1 a e1 e2 x k : CG a e1 x k -> CG a (e1 ~~ e2) x k.
Proof.
  intros H c. destruct (H c) as (N & Q). exists (S N). intros [|n] Hn; [lia|]. cbn [cost].
  specialize (Q n ltac:(lia)). lia.
Qed.

Lemma cg_seq2 a e1 e2 x y z P k : PT g a e1 x y P -> SK g a y z -> CG a e2 z k -> CG a (e1 ~~ e2) x k.
Proof.
  intros H1 H2 H3 c. destruct (H1 c) as (c1 & t & R1 & _). destruct (H2 c1) as (c2 & S2).
  destruct (H3 c2) as (N3 & Q). apply Runs_le in R1 as (N1 & R1). apply skips_le in S2 as (N2 & t2 & S2).
  exists (S (N1 + N2 + N3)). intros [|n] Hn; [lia|]. cbn [cost]. rewrite (R1 n) by lia.
  specialize (S2 n ltac:(lia)). unfold skip_res in S2. rewrite S2. specialize (Q n ltac:(lia)). lia.
Qed.

Lemma cg_left a e1 e2 x k : CG a e1 x k -> CG a (e1 // e2) x k.
Proof.
  intros H c. destruct (H c) as (N & Q). exists (S N). intros [|n] Hn; [lia|]. cbn [cost].
  specialize (Q n ltac:(lia)). lia.
Qed.

Lemma cg_right a e1 e2 x k1 k2 : PF g a e1 x -> CG a e1 x k1 -> CG a e2 x k2 -> CG a (e1 // e2) x (k1 + k2).
Proof.
  intros H1 H2 H3 c. specialize (H1 c). destruct (H2 c) as (N2 & Q2), (H3 c) as (N3 & Q3).
  apply Runs_le in H1 as (N1 & R1). exists (S (N1 + N2 + N3)). intros [|n] Hn; [lia|]. cbn [cost].
  rewrite (R1 n) by lia. specialize (Q2 n ltac:(lia)). specialize (Q3 n ltac:(lia)). lia.
Qed.

Lemma cg_rule a r x k : CG (mode g a r) (g_body g r) x k -> CG a (ERule r) x k.
Proof.
  intros H c. destruct (H c) as (N & Q). exists (S N). intros [|n] Hn; [lia|]. cbn [cost].
  specialize (Q n ltac:(lia)). unfold mode in Q. destruct (g_kind g r); lia.
Qed.
End Work.

(** The work of the whole parser. *)
Lemma cg_parse lang x k : SK (grammar_of lang) NonAtomic x x ->
  CG (grammar_of lang) NonAtomic (ERule node) x k -> k <= parse_cost x lang.
Proof.
  intros S1 H.
  assert (P : CG (grammar_of lang) NonAtomic (ERule content) x k).
  { apply cg_rule. replace (g_body (grammar_of lang) content) with e_content by (now destruct lang).
    replace (mode (grammar_of lang) NonAtomic content) with NonAtomic by (now destruct lang). unfold e_content.
    eapply cg_seq2; [|exact S1|].
    - intros c. exists c, []. split; [apply Runs_soi|]. instantiate (1 := fun _ => True). exact I.
    - now apply cg_seq1. }
  destruct (P 1) as (N & Q). unfold parse_cost. destruct (parse_total x lang) as (r & NF & E).
  pose proof (E (fuel_of x) (le_n _)) as Ef.
  rewrite <- (cost_mono (grammar_of lang) (fuel_of x) (Nat.max N (fuel_of x))) by (lia || congruence).
  apply Q. lia.
Qed.

(** [n] copies of a character. *)
Fixpoint copies (n : nat) (c : string) : string :=
  match n with O => "" | S k => c ++ copies k c end.

Lemma copies_length n b : String.length (copies n (String b "")) = n.
Proof. induction n; cbn; auto. Qed.

(** ** Nested parentheses *)

Definition nested (n : nat) (x : string) : string := copies n "(" ++ x ++ copies n ")".

Lemma nested_S n x : nested (S n) x = "(" ++ nested n x ++ ")".
Proof.
  unfold nested. cbn [copies]. rewrite !sapp_assoc. do 3 f_equal.
  induction n as [|n IH]; [reflexivity|]. cbn [copies]. rewrite sapp_assoc. cbn. now f_equal.
Qed.

Lemma node_body : g_body human node = ERule and_ // ERule or_ // ERule term_. Proof. reflexivity. Qed.

(** A node that is a term is matched three times. *)
Lemma cg_node x y z P k : PT human NonAtomic (ERule term_) x y P -> SK human NonAtomic y z ->
  PF human NonAtomic (ERule andinner) z -> PF human NonAtomic (ERule orinner) z ->
  CG human NonAtomic (ERule term_) x k -> CG human NonAtomic (ERule node) x (k + (k + k)).
Proof.
  intros H S1 A O K. apply cg_rule. rewrite node_body.
  assert (X : forall t, PF human NonAtomic (ERule (kids_rule t)) x /\ CG human NonAtomic (ERule (kids_rule t)) x k).
  { intros t. split.
    - apply pf_rule. replace (mode human NonAtomic (kids_rule t)) with NonAtomic by (now destruct t).
      replace (g_body human (kids_rule t)) with
        (ERule term_ ~~ (ERule (op_rule t) ~~ ERule term_) ~~ EStar (ERule (op_rule t) ~~ ERule term_)) by (now destruct t).
      eapply pf_seq2; [exact H|exact S1|]. apply pf_seq1, pf_seq1. now destruct t.
    - apply cg_rule. replace (mode human NonAtomic (kids_rule t)) with NonAtomic by (now destruct t).
      replace (g_body human (kids_rule t)) with
        (ERule term_ ~~ (ERule (op_rule t) ~~ ERule term_) ~~ EStar (ERule (op_rule t) ~~ ERule term_)) by (now destruct t).
      now apply cg_seq1. }
  destruct (X true), (X false). cbn [kids_rule] in *. change (mode human NonAtomic node) with NonAtomic.
  apply cg_right; auto. apply cg_right; auto.
Qed.

Lemma cg_paren x k : solid x = true -> CG human NonAtomic (ERule node) x k ->
  CG human NonAtomic (ERule term_) ("(" ++ x) k.
Proof.
  intros So K. apply cg_rule. change (g_body human term_) with (ERule value // EStr "(" ~~ ERule node ~~ EStr ")").
  change (mode human NonAtomic term_) with NonAtomic. apply cg_left, cg_rule.
  change (g_body human value) with (ERule string_ // ERule number // ERule BRACEOPEN ~~ ERule node ~~ ERule BRACECLOSE).
  change (mode human NonAtomic value) with NonAtomic.
  change k with (0 + (0 + k)). apply cg_right; [now apply (pf_string HumanPolicy)|eapply cg_weak; [|apply cg_one]; lia|].
  apply cg_right; [apply pf_number_paren|eapply cg_weak; [|apply cg_one]; lia|].
  eapply cg_seq2; [apply pt_BRACEOPEN|apply (sk_solid HumanPolicy), So|]. now apply cg_seq1.
Qed.

Lemma nested_solid n x y : solid (x ++ y) = true -> solid (copies n "(" ++ x ++ y) = true.
Proof. destruct n; auto. Qed.

(** A term in front of something that is no operator, as a node. *)
Lemma pt_node_of_term x y z Q : PT human NonAtomic (ERule term_) x y Q -> SK human NonAtomic y z ->
  PF human NonAtomic (ERule andinner) z -> PF human NonAtomic (ERule orinner) z ->
  PT human NonAtomic (ERule node) x y Q.
Proof.
  intros H S1 A O. apply pt_silent; [reflexivity|]. rewrite node_body.
  assert (X : forall t, PF human NonAtomic (ERule (kids_rule t)) x).
  { intros t. apply pf_rule. replace (mode human NonAtomic (kids_rule t)) with NonAtomic by (now destruct t).
    replace (g_body human (kids_rule t)) with
      (ERule term_ ~~ (ERule (op_rule t) ~~ ERule term_) ~~ EStar (ERule (op_rule t) ~~ ERule term_)) by (now destruct t).
    eapply pf_seq2; [exact H|exact S1|]. apply pf_seq1, pf_seq1. now destruct t. }
  apply pt_right; [apply (X true)|]. apply pt_right; [apply (X false)|exact H].
Qed.

Lemma nested_term f n : reads_term f -> forall y,
  PT human NonAtomic (ERule term_) (nested n (human_text f) ++ y) y (one f) /\
  solid (nested n (human_text f) ++ y) = true /\
  CG human NonAtomic (ERule term_) (nested n (human_text f) ++ y) (3 ^ n).
Proof.
  intros Hf. induction n as [|n IH]; intros y.
  - unfold nested. cbn [copies]. rewrite app_empty. change ("" ++ human_text f) with (human_text f).
    split; [apply Hf|]. split; [apply human_solid|apply cg_one].
  - rewrite nested_S, !sapp_assoc. destruct (IH (")" ++ y)) as (P & So & K).
    destruct (stops_close true y) as (S1 & _ & A). destruct (stops_close false y) as (_ & _ & O).
    split; [|split; [reflexivity|]].
    + eapply pt_paren; [exact So| |exact S1]. eapply pt_node_of_term; eauto.
    + apply cg_paren; [exact So|]. eapply cg_weak; [|eapply cg_node; eauto]. cbn [Nat.pow]. lia.
Qed.

(** *** Parentheses around any policy *)
Theorem nested_cost f n : adm f = true -> arity2 f = true ->
  (exists g, parse (nested n (human_text f)) HumanPolicy = Ok (tree g) /\ erase g = erase f) /\
  3 ^ S n <= parse_cost (nested n (human_text f)) HumanPolicy.
Proof.
  intros A R. pose proof (human_term f A R) as Hf. destruct (nested_term f n Hf "") as (P & So & K).
  rewrite app_empty in *.
  assert (Z : SK human NonAtomic "" "") by (now apply (sk_solid HumanPolicy)).
  assert (A0 : PF human NonAtomic (ERule andinner) "") by (now apply (pf_op HumanPolicy true)).
  assert (O0 : PF human NonAtomic (ERule orinner) "") by (now apply (pf_op HumanPolicy false)).
  split.
  - apply pt_content; [apply (sk_solid HumanPolicy), So|]. eapply pt_node_of_term; eauto.
  - apply (cg_parse HumanPolicy); [apply (sk_solid HumanPolicy), So|].
    eapply cg_weak; [|eapply cg_node; eauto]. cbn [Nat.pow]. lia.
Qed.

Lemma pf_node_of_term x : PF human NonAtomic (ERule term_) x -> PF human NonAtomic (ERule node) x.
Proof.
  intros H. apply pf_rule. rewrite node_body. apply pf_alt; [|apply pf_alt; [|exact H]]; apply pf_rule; now apply pf_seq1.
Qed.

Lemma cg_node_fail x k : PF human NonAtomic (ERule term_) x -> CG human NonAtomic (ERule term_) x k ->
  CG human NonAtomic (ERule node) x (k + (k + k)).
Proof.
  intros H K. apply cg_rule. rewrite node_body.
  apply cg_right; [apply pf_rule; now apply pf_seq1|apply cg_rule; now apply cg_seq1|].
  apply cg_right; [apply pf_rule; now apply pf_seq1|apply cg_rule; now apply cg_seq1|exact K].
Qed.

Lemma pf_number_empty : PF human NonAtomic (ERule number) "".
Proof.
  apply pf_rule. unfold mode. cbn [human g_kind human_kind g_body human_body]. unfold e_number.
  eapply pf_seq2; [apply pt_opt0; now apply pf_str|now apply sk_atomic|].
  apply pf_seq1, pf_alt; [now apply pf_str|]. apply pf_seq1. now apply pf_class.
Qed.

(** Opening parentheses that are never closed: every one doubles the attempts
    again. *)
Lemma opens_term n : PF human NonAtomic (ERule term_) (copies n "(") /\
  CG human NonAtomic (ERule term_) (copies n "(") (6 ^ n).
Proof.
  induction n as [|n (P & K)].
  - split; [|apply cg_one]. apply pf_rule. cbn [g_body human human_body]. apply pf_alt.
    + apply pf_rule. cbn [g_body human human_body]. apply pf_alt; [now apply (pf_string HumanPolicy)|].
      apply pf_alt; [apply pf_number_empty|]. apply pf_seq1, pf_rule. repeat apply pf_alt; now apply pf_str.
    + now apply pf_seq1, pf_str.
  - cbn [copies].
    assert (So : solid (copies n "(") = true) by (destruct n; reflexivity).
    assert (S1 : SK human NonAtomic (copies n "(") (copies n "(")) by (apply (sk_solid HumanPolicy), So).
    pose proof (pf_node_of_term _ P) as PN. pose proof (cg_node_fail _ _ P K) as KN.
    assert (PV : PF human NonAtomic (ERule value) ("(" ++ copies n "(")).
    { apply pf_rule. cbn [g_body human human_body]. apply pf_alt; [now apply (pf_string HumanPolicy)|].
      apply pf_alt; [apply pf_number_paren|]. eapply pf_seq2; [apply pt_BRACEOPEN|exact S1|]. now apply pf_seq1. }
    split.
    + apply pf_rule. cbn [g_body human human_body]. apply pf_alt; [exact PV|].
      eapply pf_seq2; [apply pt_str|exact S1|]. now apply pf_seq1.
    + apply cg_rule. cbn [g_body human human_body]. change (mode human NonAtomic term_) with NonAtomic.
      eapply cg_weak; [|apply cg_right; [exact PV| |]].
      * instantiate (1 := 6 ^ n + (6 ^ n + 6 ^ n)). instantiate (1 := 6 ^ n + (6 ^ n + 6 ^ n)). cbn [Nat.pow]. lia.
      * apply cg_rule. cbn [g_body human human_body]. change (mode human NonAtomic value) with NonAtomic.
        set (k := 6 ^ n + (6 ^ n + 6 ^ n)) in *. change k with (0 + (0 + k)).
        apply cg_right; [now apply (pf_string HumanPolicy)|eapply cg_weak; [|apply cg_one]; lia|].
        apply cg_right; [apply pf_number_paren|eapply cg_weak; [|apply cg_one]; lia|].
        eapply cg_seq2; [apply pt_BRACEOPEN|exact S1|]. now apply cg_seq1.
      * eapply cg_seq2; [apply pt_str|exact S1|]. now apply cg_seq1.
Qed.

(** *** A text of [n] opening parentheses *)
Theorem opens_cost n : parse (copies n "(") HumanPolicy = Err /\
  3 * 6 ^ n <= parse_cost (copies n "(") HumanPolicy.
Proof.
  destruct (opens_term n) as (P & K).
  assert (S1 : SK human NonAtomic (copies n "(") (copies n "(")) by (apply (sk_solid HumanPolicy); destruct n; reflexivity).
  split.
  - apply (pf_content_node HumanPolicy); [exact S1|]. now apply pf_node_of_term.
  - apply (cg_parse HumanPolicy); [exact S1|]. eapply cg_weak; [|apply cg_node_fail; eauto]. lia.
Qed.

(** *** OR nested to the left, as the printer of C04 writes it *)
Fixpoint left_or (n : nat) (f h : formula) : formula :=
  match n with O => f | S k => FOr [left_or k f h; h] end.

Lemma left_or_adm n f h : adm f = true -> adm h = true -> arity2 f = true -> arity2 h = true ->
  adm (left_or n f h) = true /\ arity2 (left_or n f h) = true.
Proof.
  intros A1 A2 R1 R2. induction n as [|n (IA & IR)]; [auto|]. cbn [left_or]. split.
  - unfold adm in *. unfold names in *. cbn [leaves flat_map]. rewrite app_nil_r, map_app, forallb_app. now rewrite IA.
  - cbn. now rewrite IR, R2.
Qed.

Lemma left_or_term n f h : adm f = true -> adm h = true -> arity2 f = true -> arity2 h = true -> forall y,
  CG human NonAtomic (ERule term_) (human_text (left_or n f h) ++ y) (2 ^ n).
Proof.
  intros A1 A2 R1 R2. induction n as [|n IH]; intros y; [apply cg_one|].
  destruct (left_or_adm n f h A1 A2 R1 R2) as (IA & IR).
  pose proof (human_term _ IA IR) as P.
  cbn [left_or human_text map String.concat]. rewrite !sapp_assoc.
  apply cg_paren; [apply human_solid|]. unfold sep. rewrite !sapp_assoc. cbn [op_text].
  set (w := "or" ++ " " ++ human_text h ++ ")" ++ y).
  apply cg_rule. rewrite node_body. change (mode human NonAtomic node) with NonAtomic.
  eapply cg_weak; [|apply cg_right].
  - instantiate (1 := 2 ^ n). instantiate (1 := 2 ^ n). cbn [Nat.pow]. lia.
  - eapply (pf_terms true); [exact P|apply (sk_space HumanPolicy); reflexivity|]. apply (pf_op_other true).
  - apply cg_rule. apply cg_seq1, IH.
  - apply cg_left, cg_rule. apply cg_seq1, IH.
Qed.

Theorem left_or_cost n f h : adm f = true -> adm h = true -> arity2 f = true -> arity2 h = true ->
  (exists g, parse (human_text (left_or n f h)) HumanPolicy = Ok (tree g) /\ erase g = erase (left_or n f h)) /\
  2 ^ n <= parse_cost (human_text (left_or n f h)) HumanPolicy.
Proof.
  intros A1 A2 R1 R2. destruct (left_or_adm n f h A1 A2 R1 R2) as (IA & IR). split.
  - now apply human_roundtrip.
  - pose proof (left_or_term n f h A1 A2 R1 R2 "") as K. rewrite app_empty in K.
    apply (cg_parse HumanPolicy); [apply (sk_solid HumanPolicy); rewrite <- (app_empty (human_text _)); apply human_solid|].
    change (grammar_of HumanPolicy) with human. apply cg_rule. rewrite node_body. apply cg_left, cg_rule. now apply cg_seq1.
Qed.

(** ** No polynomial bounds the work *)

Lemma square_pow n : 4 <= n -> n * n <= 2 ^ n.
Proof.
  induction 1 as [|n H IH]; [cbn; lia|]. cbn [Nat.pow]. nia.
Qed.

Lemma lt_pow2 n : n < 2 ^ n.
Proof. induction n as [|n IH]; cbn [Nat.pow]; lia. Qed.

Lemma exponential_wins c k : exists n, c * (n + 1) ^ k < 6 ^ n.
Proof.
  set (j := 4 * k + c + 4). exists (2 ^ j).
  assert (H1 : c * (2 ^ j + 1) ^ k <= 2 ^ (c + (j + 1) * k)).
  { rewrite Nat.pow_add_r, Nat.pow_mul_r. apply Nat.mul_le_mono; [pose proof (lt_pow2 c); lia|].
    apply Nat.pow_le_mono_l. rewrite Nat.pow_add_r. cbn [Nat.pow]. pose proof (lt_pow2 j). lia. }
  assert (H2 : c + (j + 1) * k < 2 ^ j).
  { pose proof (square_pow j ltac:(lia)). subst j. nia. }
  assert (H3 : 2 ^ (c + (j + 1) * k) < 2 ^ (2 ^ j)) by (apply Nat.pow_lt_mono_r; lia).
  assert (H4 : 2 ^ (2 ^ j) <= 6 ^ (2 ^ j)) by (apply Nat.pow_le_mono_l; lia).
  lia.
Qed.

Theorem human_not_polynomial c k : exists pol, 
  c * (String.length pol + 1) ^ k < parse_cost pol HumanPolicy.
Proof.
  destruct (exponential_wins c k) as (n & H). exists (copies n "("). rewrite copies_length.
  destruct (opens_cost n) as (_ & K). lia.
Qed.
