(** * ParseHuman: policies in the human language *)
From Coq Require Import String Ascii List Bool Arith Lia.
From Verif Require Import Base Policy Spec Peg Grammar Parse PegProofs ParseProofs ParseText.
Import ListNotations.
Local Open Scope string_scope.

(** ** C04: fully parenthesised text *)

Definition sep (t : bool) : string := " " ++ op_text t ++ " ".

(** A policy written with quoted names and all parentheses. *)
Fixpoint human_text (f : formula) : string :=
  match f with
  | FLeaf n _ => quote_s ++ n ++ quote_s
  | FAnd l => "(" ++ String.concat (sep true) (map human_text l) ++ ")"
  | FOr l => "(" ++ String.concat (sep false) (map human_text l) ++ ")"
  end.

Lemma human_solid f y : solid (human_text f ++ y) = true.
Proof. destruct f; reflexivity. Qed.

Definition reads_term (f : formula) : Prop := forall y,
  PT human NonAtomic (ERule term_) (human_text f ++ y) y (one f).

(** Where a sequence of terms joined by one operator ends. *)
Definition stops (t : bool) (y z : string) : Prop :=
  SK human NonAtomic y z /\ solid z = true /\ PF human NonAtomic (ERule (op_rule t)) z.

Lemma pt_more_terms t l y z : Forall reads_term l -> stops t y z ->
  PT human NonAtomic (EMore (ERule (op_rule t) ~~ ERule term_)) (tails (sep t) (map human_text l) ++ y) y (many l).
Proof.
  intros H (Sz & _ & Pz). induction H as [|f l H _ IH].
  - eapply PT_weak; [apply many_nil|]. eapply pt_more0; [exact Sz|]. now apply pf_seq1.
  - cbn [map tails]. unfold sep at 1. rewrite !sapp_assoc.
    eapply PT_weak; [apply (many_app [f] l)|].
    eapply pt_more1; [apply (sk_space HumanPolicy); destruct t; reflexivity| |exact IH].
    eapply PT_weak; [apply one_many|].
    eapply pt_seq_l; [apply (pt_op HumanPolicy)|apply (sk_space HumanPolicy), human_solid|]. apply H.
Qed.

Lemma pt_first_op t h w : reads_term h ->
  PT human NonAtomic (ERule (op_rule t) ~~ ERule term_) (op_text t ++ " " ++ human_text h ++ w) w (many [h]).
Proof.
  intros Hh. eapply PT_weak; [apply one_many|].
  eapply pt_seq_l; [apply (pt_op HumanPolicy)|apply (sk_space HumanPolicy), human_solid|]. apply Hh.
Qed.

(** Two or more terms joined by [t]; with exactly two, blanks behind them are
    consumed too. *)
Lemma pt_terms t f h l y z : Forall reads_term (f :: h :: l) -> stops t y z -> exists y', (y' = y \/ y' = z) /\
  PT human NonAtomic (ERule (kids_rule t)) (String.concat (sep t) (map human_text (f :: h :: l)) ++ y) y'
     (one (mk t (f :: h :: l))).
Proof.
  intros H (Sz & So & Pz). cbn [map]. rewrite concat_tails. cbn [tails]. unfold sep at 1. rewrite !sapp_assoc.
  inversion H as [|? ? Hf Hl']; subst. inversion Hl' as [|? ? Hh Hl]; subst.
  set (txt := human_text f ++ " " ++ op_text t ++ " " ++ human_text h ++ tails (sep t) (map human_text l) ++ y).
  assert (X : forall y', PT human NonAtomic
      (ERule term_ ~~ (ERule (op_rule t) ~~ ERule term_) ~~ EStar (ERule (op_rule t) ~~ ERule term_)) txt y' (many (f :: h :: l)) ->
      PT human NonAtomic (ERule (kids_rule t)) txt y' (one (mk t (f :: h :: l)))).
  { intros y' P. eapply PT_weak; [|apply (pt_rule human NonAtomic (kids_rule t) txt y' (many (f :: h :: l)))].
    - intros ts (c & c' & u & (gs & B & E) & ->).
      exists (Tok (kids_rule t) c (between (St c txt) (St c' y')) u), (mk t gs).
      split; [now destruct t|]. destruct t.
      + split; [apply (build_and _ _ u gs B)|]. cbn [mk erase]. now rewrite E.
      + split; [apply (build_or _ _ u gs B)|]. cbn [mk erase]. now rewrite E.
    - now destruct t. }
  destruct l as [|k l].
  - exists z. split; [auto|]. apply X. eapply PT_weak; [apply (many_app [f] [h])|].
    eapply pt_seq; [eapply PT_weak; [apply one_many|apply Hf]|apply (sk_space HumanPolicy); destruct t; reflexivity|].
    eapply pt_seq_r; [apply pt_first_op; exact Hh|exact Sz|]. apply pt_star0. now apply pf_seq1.
  - exists y. split; [auto|]. apply X. eapply PT_weak; [apply (many_app [f] (h :: k :: l))|].
    eapply pt_seq; [eapply PT_weak; [apply one_many|apply Hf]|apply (sk_space HumanPolicy); destruct t; reflexivity|].
    eapply PT_weak; [apply (many_app [h] (k :: l))|].
    inversion Hl as [|? ? Hk Hl2]; subst. cbn [map tails]. unfold sep at 1. rewrite !sapp_assoc.
    eapply pt_seq; [apply pt_first_op; exact Hh|apply (sk_space HumanPolicy); destruct t; reflexivity|].
    eapply PT_weak; [apply (many_app [k] l)|].
    eapply pt_star1; [apply pt_first_op; exact Hk|]. eapply pt_more_terms; [exact Hl2|]. split; [exact Sz|auto].
Qed.

(** A single term is no conjunction and no disjunction. *)
Lemma pf_terms t f y z : reads_term f -> SK human NonAtomic y z -> PF human NonAtomic (ERule (op_rule t)) z ->
  PF human NonAtomic (ERule (kids_rule t)) (human_text f ++ y).
Proof.
  intros Hf Sz Pz. apply pf_rule. replace (mode human NonAtomic (kids_rule t)) with NonAtomic by (now destruct t).
  replace (g_body human (kids_rule t)) with
      (ERule term_ ~~ (ERule (op_rule t) ~~ ERule term_) ~~ EStar (ERule (op_rule t) ~~ ERule term_)) by (now destruct t).
  eapply pf_seq2; [apply Hf|exact Sz|]. now apply pf_seq1, pf_seq1.
Qed.

Lemma pf_op_other t x : PF human NonAtomic (ERule (op_rule t)) (op_text (negb t) ++ x).
Proof. destruct t; apply (pf_op HumanPolicy); reflexivity. Qed.

(** Terms joined by one operator, as a node. *)
Lemma pt_node_terms t f h l y z : Forall reads_term (f :: h :: l) -> stops t y z -> exists y', (y' = y \/ y' = z) /\
  PT human NonAtomic (ERule node) (String.concat (sep t) (map human_text (f :: h :: l)) ++ y) y'
     (one (mk t (f :: h :: l))).
Proof.
  intros H St. destruct (pt_terms t f h l y z H St) as (y' & Y & P). exists y'. split; [exact Y|].
  apply pt_silent; [reflexivity|]. cbn [g_body human human_body]. destruct t.
  - apply pt_left, P.
  - apply pt_right; [|apply pt_left, P]. cbn [map]. rewrite concat_tails. cbn [tails]. unfold sep at 1. rewrite !sapp_assoc.
    inversion H; subst. eapply (pf_terms true); [assumption|apply (sk_space HumanPolicy); reflexivity|].
    apply (pf_op_other true).
Qed.

(** A single term, as a node, in front of something that is no operator. *)
Lemma pt_node_term f y z : reads_term f -> SK human NonAtomic y z ->
  PF human NonAtomic (ERule andinner) z -> PF human NonAtomic (ERule orinner) z ->
  PT human NonAtomic (ERule node) (human_text f ++ y) y (one f).
Proof.
  intros H S1 A O. apply pt_silent; [reflexivity|]. cbn [g_body human human_body].
  apply pt_right; [eapply (pf_terms true); eauto|]. apply pt_right; [eapply (pf_terms false); eauto|apply H].
Qed.

Lemma pf_number_paren y : PF human NonAtomic (ERule number) ("(" ++ y).
Proof.
  apply pf_rule. cbn [mode human g_kind human_kind g_body human_body]. unfold mode, e_number. cbn.
  eapply pf_seq2; [apply pt_opt0; now apply pf_str|now apply sk_atomic|].
  apply pf_seq1, pf_alt; [now apply pf_str|]. apply pf_seq1. now apply pf_class.
Qed.

Lemma pt_BRACEOPEN y : PT human NonAtomic (ERule BRACEOPEN) ("(" ++ y) y nil.
Proof. apply pt_silent; [reflexivity|]. apply pt_left, pt_str. Qed.
Lemma pt_BRACECLOSE y : PT human NonAtomic (ERule BRACECLOSE) (")" ++ y) y nil.
Proof. apply pt_silent; [reflexivity|]. apply pt_left, pt_str. Qed.

(** A node in parentheses is a term. *)
Lemma pt_paren x y y' Q : solid x = true -> PT human NonAtomic (ERule node) x y' Q -> SK human NonAtomic y' (")" ++ y) ->
  PT human NonAtomic (ERule term_) ("(" ++ x) y Q.
Proof.
  intros So P S2. apply pt_silent; [reflexivity|]. cbn [g_body human human_body]. apply pt_left.
  apply pt_silent; [reflexivity|]. cbn [g_body human human_body].
  apply pt_right; [now apply (pf_string HumanPolicy)|]. apply pt_right; [apply pf_number_paren|].
  eapply pt_seq_l; [apply pt_BRACEOPEN|apply (sk_solid HumanPolicy); exact So|].
  eapply pt_seq_r; [exact P|exact S2|apply pt_BRACECLOSE].
Qed.

Lemma stops_close t y : stops t (")" ++ y) (")" ++ y).
Proof.
  split; [apply (sk_solid HumanPolicy); reflexivity|]. split; [reflexivity|].
  apply (pf_op HumanPolicy); destruct t; reflexivity.
Qed.

Lemma concat_solid t f l y : solid (String.concat (sep t) (map human_text (f :: l)) ++ y) = true.
Proof. cbn [map]. rewrite concat_tails, sapp_assoc. apply human_solid. Qed.

Lemma human_term f : adm f = true -> arity2 f = true -> reads_term f.
Proof.
  induction f as [n p|l IH|l IH] using formula_ind'; intros A R y.
  - cbn [human_text]. rewrite !sapp_assoc.
    apply pt_silent; [reflexivity|]. cbn [g_body human human_body]. apply pt_left.
    apply pt_silent; [reflexivity|]. cbn [g_body human human_body]. apply pt_left.
    eapply PT_weak; [|apply (pt_string HumanPolicy)].
    + intros t (c & x & c' & ->). eexists _, (FLeaf n c'). split; [reflexivity|]. split; reflexivity.
    + unfold adm, names in A. cbn in A. now rewrite andb_true_r in A.
  - apply adm_children in A. cbn [arity2] in R. apply andb_prop in R as (Len & R).
    assert (F : Forall reads_term l).
    { rewrite forallb_forall in A, R. apply Forall_forall. intros f I.
      eapply Forall_forall in IH; [|exact I]. apply IH; auto. }
    destruct l as [|f [|h l]]; try discriminate.
    destruct (pt_node_terms true f h l (")" ++ y) (")" ++ y) F (stops_close true y)) as (y' & Y & P).
    cbn [human_text]. rewrite !sapp_assoc. eapply pt_paren; [apply concat_solid|exact P|].
    destruct Y as [->| ->]; now apply (sk_solid HumanPolicy).
  - apply adm_children in A. cbn [arity2] in R. apply andb_prop in R as (Len & R).
    assert (F : Forall reads_term l).
    { rewrite forallb_forall in A, R. apply Forall_forall. intros f I.
      eapply Forall_forall in IH; [|exact I]. apply IH; auto. }
    destruct l as [|f [|h l]]; try discriminate.
    destruct (pt_node_terms false f h l (")" ++ y) (")" ++ y) F (stops_close false y)) as (y' & Y & P).
    cbn [human_text]. rewrite !sapp_assoc. eapply pt_paren; [apply concat_solid|exact P|].
    destruct Y as [->| ->]; now apply (sk_solid HumanPolicy).
Qed.

Lemma app_empty x : x ++ "" = x.
Proof. induction x; cbn; congruence. Qed.

(** *** C04 *)
Theorem human_roundtrip f : adm f = true -> arity2 f = true -> exists g,
  parse (human_text f) HumanPolicy = Ok (tree g) /\ erase g = erase f.
Proof.
  intros A R. rewrite <- (app_empty (human_text f)). apply pt_content.
  - apply sk_solid, human_solid.
  - eapply (pt_node_term f ""); [now apply human_term|now apply (sk_solid HumanPolicy)| |].
    + now apply (pf_op HumanPolicy true).
    + now apply (pf_op HumanPolicy false).
Qed.

(** The outermost parentheses may be left out. *)
Theorem human_roundtrip_open t l : forallb adm l = true -> forallb arity2 l = true -> 2 <= length l ->
  exists g, parse (String.concat (sep t) (map human_text l)) HumanPolicy = Ok (tree g) /\ erase g = erase (mk t l).
Proof.
  intros A R Len. destruct l as [|f [|h l]]; cbn in Len; try lia.
  assert (F : Forall reads_term (f :: h :: l)).
  { rewrite forallb_forall in A, R. apply Forall_forall. intros k I. apply human_term; auto. }
  rewrite <- (app_empty (String.concat _ _)). apply pt_content.
  - apply sk_solid, concat_solid.
  - destruct (pt_node_terms t f h l "" "" F) as (y' & [->| ->] & P); try exact P.
    split; [now apply (sk_solid HumanPolicy)|]. split; [reflexivity|].
    destruct t; now apply (pf_op HumanPolicy).
Qed.

(** *** C06: at least two terms joined by one operator, then the other
    operator; whatever follows, the text is rejected. *)
Theorem mixed_rejected t l rest : forallb adm l = true -> forallb arity2 l = true -> 2 <= length l ->
  parse (String.concat (sep t) (map human_text l) ++ sep (negb t) ++ rest) HumanPolicy = Err.
Proof.
  intros A R Len. destruct l as [|f [|h l]]; cbn in Len; try lia.
  assert (F : Forall reads_term (f :: h :: l)).
  { rewrite forallb_forall in A, R. apply Forall_forall. intros k I. apply human_term; auto. }
  set (z := op_text (negb t) ++ " " ++ rest).
  assert (Y : sep (negb t) ++ rest = " " ++ z) by (unfold sep, z; now rewrite !sapp_assoc). rewrite Y.
  assert (St : stops t (" " ++ z) z).
  { split; [apply (sk_space HumanPolicy); destruct t; reflexivity|]. split; [destruct t; reflexivity|]. apply pf_op_other. }
  destruct (pt_node_terms t f h l _ _ F St) as (y' & Hy & P). destruct St as (S1 & S2 & _).
  eapply pf_content_rest; [apply sk_solid, concat_solid|exact P| |].
  - destruct Hy as [->| ->]; [exact S1|now apply (sk_solid HumanPolicy)].
  - unfold z. destruct t; discriminate.
Qed.

(** A text that no term starts is no node. *)
Lemma pf_node x : PF human NonAtomic (ERule term_) x -> PF human NonAtomic (ERule node) x.
Proof.
  intros H. apply pf_rule. cbn [g_body human human_body]. repeat apply pf_alt; try exact H.
  - apply pf_rule. now apply pf_seq1.
  - apply pf_rule. now apply pf_seq1.
Qed.

(** An opening parenthesis must be followed by a node and a closing one. *)
Lemma pf_paren x : solid x = true ->
  PF human NonAtomic (ERule node) x \/
  (exists y z Q, PT human NonAtomic (ERule node) x y Q /\ SK human NonAtomic y z /\
     String.prefix ")" z = false /\ String.prefix "]" z = false /\ String.prefix "}" z = false) ->
  PF human NonAtomic (ERule term_) ("(" ++ x).
Proof.
  intros So H. apply pf_rule. cbn [g_body human human_body]. apply pf_alt.
  - apply pf_rule. cbn [g_body human human_body]. apply pf_alt; [now apply (pf_string HumanPolicy)|].
    apply pf_alt; [apply pf_number_paren|].
    eapply pf_seq2; [apply pt_BRACEOPEN|apply (sk_solid HumanPolicy); exact So|].
    destruct H as [H|(y & z & Q & P & Sk & A & B & C)]; [now apply pf_seq1|].
    eapply pf_seq2; [exact P|exact Sk|]. apply pf_rule. cbn [g_body human human_body].
    repeat apply pf_alt; now apply pf_str.
  - eapply pf_seq2; [apply pt_str|apply (sk_solid HumanPolicy); exact So|].
    destruct H as [H|(y & z & Q & P & Sk & A & B & C)]; [now apply pf_seq1|].
    eapply pf_seq2; [exact P|exact Sk|]. now apply pf_str.
Qed.

Fixpoint opens (k : nat) : string := match k with O => "" | S k => "(" ++ opens k end.

(** The same inside any number of parentheses. *)
Theorem mixed_rejected_nested k t l rest : forallb adm l = true -> forallb arity2 l = true -> 2 <= length l ->
  parse (opens k ++ String.concat (sep t) (map human_text l) ++ sep (negb t) ++ rest) HumanPolicy = Err.
Proof.
  intros A R Len. destruct k as [|k]; [now apply mixed_rejected|].
  destruct l as [|f [|h l]]; cbn in Len; try lia.
  assert (F : Forall reads_term (f :: h :: l)).
  { rewrite forallb_forall in A, R. apply Forall_forall. intros i I. apply human_term; auto. }
  set (z := op_text (negb t) ++ " " ++ rest).
  assert (Y : sep (negb t) ++ rest = " " ++ z) by (unfold sep, z; now rewrite !sapp_assoc). rewrite Y.
  assert (St : stops t (" " ++ z) z).
  { split; [apply (sk_space HumanPolicy); destruct t; reflexivity|]. split; [destruct t; reflexivity|]. apply pf_op_other. }
  destruct (pt_node_terms t f h l _ _ F St) as (y' & Hy & P). destruct St as (S1 & S2 & _).
  set (x := String.concat (sep t) (map human_text (f :: h :: l)) ++ " " ++ z) in *.
  assert (Sx : solid x = true) by apply concat_solid.
  assert (G : forall k, solid (opens k ++ x) = true /\ PF human NonAtomic (ERule node) (opens (S k) ++ x)).
  { induction k0 as [|k0 (IH1 & IH2)].
    - split; [exact Sx|]. apply pf_node. cbn. apply pf_paren; [exact Sx|]. right. exists y', z. eexists. split; [exact P|].
      split; [destruct Hy as [->| ->]; [exact S1|now apply (sk_solid HumanPolicy)]|]. unfold z; destruct t; auto.
    - split; [reflexivity|]. apply pf_node. apply (pf_paren (opens (S k0) ++ x)); [reflexivity|]. left. exact IH2. }
  apply pf_content_node; [now apply sk_solid|]. apply G.
Qed.

(** ** C05: the human serialiser leaves out the quotes *)

Fixpoint bare_text (f : formula) : string :=
  match f with
  | FLeaf n _ => n
  | FAnd l => "(" ++ String.concat (sep true) (map bare_text l) ++ ")"
  | FOr l => "(" ++ String.concat (sep false) (map bare_text l) ++ ")"
  end.

Lemma serialize_human f : serialize_policy (tree f) HumanPolicy None = Ok (bare_text f).
Proof.
  induction f as [n p|l IH|l IH] using formula_ind'.
  - reflexivity.
  - assert (A : serialize_all HumanPolicy (map tree l) = Ok (map bare_text l)).
    { induction IH as [|f l Hf _ IHl]; [reflexivity|]. cbn. fold (serialize_all HumanPolicy). rewrite Hf. cbn. now rewrite IHl. }
    cbn. fold (serialize_all HumanPolicy). rewrite A. reflexivity.
  - assert (A : serialize_all HumanPolicy (map tree l) = Ok (map bare_text l)).
    { induction IH as [|f l Hf _ IHl]; [reflexivity|]. cbn. fold (serialize_all HumanPolicy). rewrite Hf. cbn. now rewrite IHl. }
    cbn. fold (serialize_all HumanPolicy). rewrite A. reflexivity.
Qed.

Definition is_letter (b : ascii) : bool :=
  let n := nat_of_ascii b in
  ((65 <=? n) && (n <=? 90) || (97 <=? n) && (n <=? 122))%nat.
Definition letter_first (n : string) : bool :=
  match n with EmptyString => false | String b _ => is_letter b end.

Lemma letter_not b c : is_letter b = true -> is_letter c = false -> Ascii.eqb c b = false.
Proof. intros A B. destruct (Ascii.eqb_spec c b) as [->|]; [congruence|reflexivity]. Qed.

(** No term starts with a letter. *)
Lemma pf_letter b x : is_letter b = true ->
  solid (String b x) = true /\ PF human NonAtomic (ERule term_) (String b x).
Proof.
  intros L.
  assert (N : forall c s, is_letter c = false -> String.prefix (String c s) (String b x) = false).
  { intros c s Hc. apply prefix_head. cbn. now rewrite (letter_not b c). }
  split.
  - unfold solid, head_not. now rewrite !(letter_not b _ L) by reflexivity.
  - assert (D : is_nzdigit b = false).
    { unfold is_letter, is_nzdigit in *. apply orb_prop in L as [L|L]; apply andb_prop in L as (L1 & L2);
        apply Nat.leb_le in L1, L2; apply andb_false_iff; right; apply Nat.leb_gt; lia. }
    apply pf_rule. cbn [g_body human human_body]. apply pf_alt.
    + apply pf_rule. cbn [g_body human human_body]. apply pf_alt; [now apply (pf_string HumanPolicy), N|].
      apply pf_alt.
      * apply pf_rule. cbn [g_body human human_body]. unfold mode, e_number; cbn.
        eapply pf_seq2; [apply pt_opt0; now apply pf_str, N|now apply sk_atomic|].
        apply pf_seq1, pf_alt; [now apply pf_str, N|]. apply pf_seq1. apply pf_class. cbn. now rewrite D.
      * apply pf_seq1. apply pf_rule. cbn [g_body human human_body]. repeat apply pf_alt; now apply pf_str, N.
    + apply pf_seq1. now apply pf_str, N.
Qed.

Lemma pf_bare f : arity2 f = true -> forallb letter_first (names f) = true ->
  forall y, solid (bare_text f ++ y) = true /\ PF human NonAtomic (ERule term_) (bare_text f ++ y).
Proof.
  unfold names. induction f as [n p|l IH|l IH] using formula_ind'; intros R A y.
  - cbn in A. rewrite andb_true_r in A. destruct n as [|b n]; [discriminate|]. now apply pf_letter.
  - cbn [arity2 leaves] in *. apply andb_prop in R as (Len & R). destruct l as [|f l]; [discriminate|].
    inversion IH as [|? ? Hf _]; subst. cbn in R. apply andb_prop in R as (R & _).
    cbn [flat_map] in A. rewrite map_app, forallb_app in A. apply andb_prop in A as (A & _).
    split; [reflexivity|]. cbn [bare_text map]. rewrite concat_tails, !sapp_assoc.
    destruct (Hf R A (tails (sep true) (map bare_text l) ++ ")" ++ y)) as (S1 & P).
    apply pf_paren; [exact S1|]. left. now apply pf_node.
  - cbn [arity2 leaves] in *. apply andb_prop in R as (Len & R). destruct l as [|f l]; [discriminate|].
    inversion IH as [|? ? Hf _]; subst. cbn in R. apply andb_prop in R as (R & _).
    cbn [flat_map] in A. rewrite map_app, forallb_app in A. apply andb_prop in A as (A & _).
    split; [reflexivity|]. cbn [bare_text map]. rewrite concat_tails, !sapp_assoc.
    destruct (Hf R A (tails (sep false) (map bare_text l) ++ ")" ++ y)) as (S1 & P).
    apply pf_paren; [exact S1|]. left. now apply pf_node.
Qed.

(** *** C05: for every policy whose names begin with letters, the serialised
    text is rejected by the parser. *)
Theorem human_serialized_rejected f : arity2 f = true -> forallb letter_first (names f) = true ->
  exists txt, serialize_policy (tree f) HumanPolicy None = Ok txt /\ parse txt HumanPolicy = Err.
Proof.
  intros R A. exists (bare_text f). split; [apply serialize_human|].
  destruct (pf_bare f R A "") as (S1 & P). rewrite app_empty in *.
  apply pf_content_node; [now apply sk_solid|now apply pf_node].
Qed.

(** ** C07: numeric leaves *)

Fixpoint all_digits (x : string) : bool :=
  match x with EmptyString => true | String b r => is_digit b && all_digits r end.

(** Numeric literals: sign, integer part, fraction, exponent. *)
Definition sign_text (x : string) : Prop := x = "" \/ x = "-".
Definition int_text (x : string) : Prop :=
  x = "0" \/ exists b r, x = String b r /\ is_nzdigit b = true /\ all_digits r = true.
Definition frac_text (x : string) : Prop := x = "" \/ exists r, x = "." ++ r /\ all_digits r = true.
Definition exp_text (x : string) : Prop :=
  x = "" \/ exists e s b r, x = String e (s ++ String b r) /\ (e = "e" \/ e = "E")%char /\
            (s = "" \/ s = "+" \/ s = "-") /\ is_digit b = true /\ all_digits r = true.
Definition numeral (x : string) : Prop :=
  exists s i f e, x = s ++ i ++ f ++ e /\ sign_text s /\ int_text i /\ frac_text f /\ exp_text e.

Section Numbers.
Variable g : grammar rule.

Lemma pt_digits x y : all_digits x = true -> head_not is_digit y = true ->
  PT g Atomic (EMore (EClass is_digit)) (x ++ y) y nil.
Proof.
  intros D H. induction x as [|b x IH]; cbn [all_digits append] in *.
  - eapply pt_more0; [now apply sk_atomic|]. now apply pf_class.
  - apply andb_prop in D as (D1 & D2). eapply PT_weak; [|eapply pt_more1; [now apply sk_atomic|now apply pt_class|now apply IH]].
    intros t (t1 & t2 & -> & -> & ->). reflexivity.
Qed.
Lemma pt_star_digits x y : all_digits x = true -> head_not is_digit y = true ->
  PT g Atomic (EStar (EClass is_digit)) (x ++ y) y nil.
Proof.
  intros D H. destruct x as [|b x]; cbn [all_digits append] in *.
  - apply pt_star0. now apply pf_class.
  - apply andb_prop in D as (D1 & D2). eapply PT_weak; [|eapply pt_star1; [now apply pt_class|now apply pt_digits]].
    intros t (t1 & t2 & -> & -> & ->). reflexivity.
Qed.

(** What may follow a number. *)
Definition ends_number (y : string) : bool :=
  head_not (fun b => is_digit b || Ascii.eqb "." b || Ascii.eqb (upper1 b) (upper1 "e"))%char y.

Lemma pt_stri b y : Ascii.eqb (upper1 b) (upper1 "e"%char) = true -> PT g Atomic (EStrI "e"%char) (String b y) y nil.
Proof.
  intros H c. eexists _, []. split; [|reflexivity]. apply Runs_stri. unfold strip1. cbn [st_rest st_col]. rewrite H. reflexivity.
Qed.
Lemma pf_stri y : head_not (fun b => Ascii.eqb (upper1 b) (upper1 "e"%char)) y = true -> PF g Atomic (EStrI "e"%char) y.
Proof.
  intros H c. apply Runs_stri_fail. unfold strip1. cbn [st_rest st_col]. destruct y as [|b y]; [reflexivity|].
  cbn in H. destruct (Ascii.eqb (upper1 b) _); [discriminate|reflexivity].
Qed.

Lemma pt_exp e y : exp_text e -> ends_number y = true ->
  PT g Atomic (EOpt (EStrI "e"%char ~~ EOpt (EStr "+" // EStr "-") ~~ EPlus (EClass is_digit))) (e ++ y) y nil.
Proof.
  intros [->|(c & s & b & r & -> & Hc & Hs & Hb & Hr)] Hy.
  - apply pt_opt0, pf_seq1, pf_stri. unfold ends_number, head_not in *. destruct y as [|b y]; [reflexivity|].
    cbn in Hy |- *. rewrite negb_orb in Hy. apply andb_prop in Hy as (_ & Hy). exact Hy.
  - apply pt_opt1. cbn [append]. rewrite sapp_assoc. eapply pt_seq_l; [apply pt_stri|now apply sk_atomic|].
    { destruct Hc as [->| ->]; reflexivity. }
    assert (Hd : PT g Atomic (EPlus (EClass is_digit)) (String b r ++ y) y nil).
    { eapply pt_seq_l; [now apply pt_class|now apply sk_atomic|]. apply pt_star_digits; [exact Hr|].
      unfold ends_number, head_not in *. destruct y as [|d y]; [reflexivity|]. cbn in Hy |- *. rewrite !negb_orb in Hy.
      apply andb_prop in Hy as (Hy & _). apply andb_prop in Hy as (Hy & _). exact Hy. }
    assert (Db : forall c, is_digit c = false -> Ascii.eqb c b = false).
    { intros c' Hc'. destruct (Ascii.eqb_spec c' b) as [->|]; [congruence|reflexivity]. }
    destruct Hs as [->|[->| ->]]; (eapply (pt_seq_l g Atomic _ _ _ (String b r ++ y) (String b r ++ y)); [|now apply sk_atomic|exact Hd]); cbn [append].
    + apply pt_opt0, pf_alt; apply pf_str, prefix_head; unfold head_not; now rewrite Db.
    + apply pt_opt1, pt_left. apply (pt_str g Atomic "+").
    + apply pt_opt1, pt_right; [now apply pf_str|]. apply (pt_str g Atomic "-").
Qed.

Lemma exp_head e y p : exp_text e -> ends_number y = true -> p "e"%char = false -> p "E"%char = false ->
  head_not p y = true -> head_not p (e ++ y) = true.
Proof.
  intros [->|(c & s & b & r & -> & Hc & _)] Hy P1 P2 Hp; [exact Hp|]. cbn. destruct Hc as [->| ->]; now rewrite ?P1, ?P2.
Qed.

Lemma pt_number x y : numeral x -> ends_number y = true -> PT g Atomic e_number (x ++ y) y nil.
Proof.
  intros (s & i & f & e & -> & Hs & Hi & Hf & He) Hy. rewrite !sapp_assoc. unfold e_number.
  assert (Yd : head_not is_digit y = true /\ head_not (Ascii.eqb "."%char) y = true).
  { unfold ends_number, head_not in *. destruct y as [|d y]; [auto|]. cbn in Hy |- *. rewrite !negb_orb in Hy.
    apply andb_prop in Hy as (Hy & _). now apply andb_prop in Hy. }
  destruct Yd as (Yd & Yp).
  apply (pt_seq_l g Atomic _ _ _ (i ++ f ++ e ++ y) (i ++ f ++ e ++ y)); [|now apply sk_atomic|].
  { destruct Hs as [->| ->].
    - apply pt_opt0, pf_str, prefix_head. destruct Hi as [->|(b & r & -> & Hb & _)]; [reflexivity|].
      unfold head_not; cbn [append]. destruct (Ascii.eqb_spec "-"%char b) as [<-|]; [discriminate|reflexivity].
    - apply pt_opt1, pt_str. }
  assert (Ed : head_not is_digit (e ++ y) = true) by (apply exp_head; auto).
  assert (Ep : head_not (Ascii.eqb "."%char) (e ++ y) = true) by (apply exp_head; auto).
  assert (Fd : head_not is_digit (f ++ e ++ y) = true).
  { destruct Hf as [->|(r & -> & _)]; [exact Ed|reflexivity]. }
  apply (pt_seq_l g Atomic _ _ _ (f ++ e ++ y) (f ++ e ++ y)); [|now apply sk_atomic|].
  { destruct Hi as [->|(b & r & -> & Hb & Hr)].
    - apply pt_left, pt_str.
    - apply pt_right.
      + apply pf_str, prefix_head. unfold head_not; cbn [append]. destruct (Ascii.eqb_spec "0"%char b) as [<-|]; [discriminate|reflexivity].
      + cbn [append]. eapply pt_seq_l; [now apply pt_class|now apply sk_atomic|]. now apply pt_star_digits. }
  apply (pt_seq_l g Atomic _ _ _ (e ++ y) (e ++ y)); [|now apply sk_atomic|now apply pt_exp].
  destruct Hf as [->|(r & -> & Hr)].
  - apply pt_opt0, pf_seq1, pf_str, prefix_head. exact Ep.
  - apply pt_opt1. rewrite sapp_assoc. eapply pt_seq_l; [apply pt_str|now apply sk_atomic|]. now apply pt_star_digits.
Qed.
End Numbers.

Lemma numeral_head x y : numeral x -> exists b r, x ++ y = String b r /\ (b = "-"%char \/ is_digit b = true).
Proof.
  intros (s & i & f & e & -> & Hs & Hi & Hf & He). destruct Hs as [->| ->]; [|cbn; eauto].
  destruct Hi as [->|(b & r & -> & Hb & _)]; cbn; eexists _, _; (split; [reflexivity|]); right; auto.
  unfold is_nzdigit, is_digit in *. apply andb_prop in Hb as (A & B). apply Nat.leb_le in A, B.
  apply andb_true_intro; split; apply Nat.leb_le; lia.
Qed.

Definition numtok : toks := fun ts => exists c x, ts = [Tok number c x []].

(** A numeric literal as the rule [value]. *)
Lemma pt_value_number lang x y : numeral x -> ends_number y = true ->
  solid (x ++ y) = true /\ String.prefix quote_s (x ++ y) = false /\
  PT (grammar_of lang) NonAtomic (ERule value) (x ++ y) y numtok.
Proof.
  intros Hx Hy. pose proof (pt_number (grammar_of lang) x y Hx Hy) as P.
  destruct (numeral_head x y Hx) as (b & r & E & Hb).
  assert (N : forall c, Ascii.eqb c "-" || is_digit c = false -> Ascii.eqb c b = false).
  { intros c Hc. apply orb_false_iff in Hc as (H1 & H2).
    destruct (Ascii.eqb_spec c b) as [->|]; [|reflexivity]. destruct Hb as [->|Hb]; [discriminate|congruence]. }
  assert (Sl : solid (x ++ y) = true) by (rewrite E; unfold solid, head_not; now rewrite !N by reflexivity).
  assert (Q : String.prefix quote_s (x ++ y) = false).
  { rewrite E. unfold quote_s. apply prefix_head. unfold head_not. now rewrite N by reflexivity. }
  split; [exact Sl|]. split; [exact Q|].
  apply pt_silent; [now destruct lang|].
  assert (P2 : PT (grammar_of lang) NonAtomic (ERule number) (x ++ y) y numtok).
  { eapply PT_weak; [|apply (pt_rule (grammar_of lang) NonAtomic number _ _ nil)].
    - intros t (c & c' & u & -> & ->). destruct lang; cbn; unfold numtok; eauto.
    - now destruct lang. }
  pose proof (pf_string lang _ Q) as Pq.
  destruct lang; cbn [grammar_of g_body json human json_body human_body] in *.
  - apply pt_right; [exact Pq|exact P2].
  - apply pt_right; [exact Pq|]. apply pt_left, P2.
Qed.

Lemma content_panics lang x : SK (grammar_of lang) NonAtomic x x ->
  PT (grammar_of lang) NonAtomic (ERule node) x "" numtok -> parse x lang = Panic.
Proof.
  intros S1 H.
  assert (P : PT (grammar_of lang) NonAtomic (ERule content) x ""
                (fun ts => exists c y u, ts = Tok number c y [] :: u)).
  { apply pt_silent; [now destruct lang|].
    replace (g_body (grammar_of lang) content) with e_content by (now destruct lang). unfold e_content.
    eapply pt_seq_l; [|exact S1|].
    - intros c. exists c, []. split; [apply Runs_soi|reflexivity].
    - eapply PT_weak; [|eapply pt_seq; [exact H|now apply sk_solid|]].
      + intros t (t1 & t2 & -> & (c & y & ->) & _). cbn. eauto.
      + intros c. exists c, [Tok EOI c "" []]. split; [now apply Runs_eoi|]. instantiate (1 := fun _ => True). exact I. }
  destruct (P 1) as (c' & ts & R & c & y & u & ->). unfold parse. now rewrite (parse_runs _ _ _ R).
Qed.

(** *** C07: every policy that is a number makes the parser panic *)
Theorem number_panics_human x : numeral x -> parse x HumanPolicy = Panic.
Proof.
  intros Hx. destruct (pt_value_number HumanPolicy x "" Hx eq_refl) as (So & Q & P). rewrite app_empty in *.
  apply content_panics; [now apply sk_solid|].
  assert (T : PT human NonAtomic (ERule term_) x "" numtok) by (apply pt_silent; [reflexivity|]; apply pt_left; exact P).
  apply pt_silent; [reflexivity|]. cbn [g_body grammar_of human human_body].
  apply pt_right; [|apply pt_right; [|exact T]]; apply pf_rule;
    (eapply pf_seq2; [exact T|now apply (sk_solid HumanPolicy)|]; apply pf_seq1, pf_seq1).
  - now apply (pf_op HumanPolicy true).
  - now apply (pf_op HumanPolicy false).
Qed.

Theorem number_panics_json x : numeral x ->
  parse ("{" ++ quote_s ++ "name" ++ quote_s ++ ": " ++ x ++ "}") JsonPolicy = Panic.
Proof.
  intros Hx. destruct (pt_value_number JsonPolicy x "}" Hx eq_refl) as (So & Q & P).
  apply content_panics; [now apply sk_solid|].
  apply pt_silent; [reflexivity|]. cbn [g_body grammar_of json json_body]. apply pt_left.
  apply (pt_head _ (x ++ "}")); [exact So|]. eapply pt_seq_r; [exact P|now apply (sk_solid JsonPolicy)|].
  apply (pt_str json NonAtomic "}" "").
Qed.

(** ** C09: two lines *)

(** ["a" and<newline>"a"]: both leaves are at column 2 of their line. *)
Definition two_lines : string :=
  quote_s ++ "a" ++ quote_s ++ " and" ++ lf_s ++ quote_s ++ "a" ++ quote_s.

Theorem multi_line_collision :
  parse two_lines HumanPolicy = Ok (tree (FAnd [FLeaf "a" 2; FLeaf "a" 2])) /\
  ~ NoDup (leaves (FAnd [FLeaf "a" 2; FLeaf "a" 2])).
Proof.
  split; [vm_compute; reflexivity|]. intros H. inversion H as [|? ? N]; subst. apply N. now left.
Qed.

Definition two_lines_json : string :=
  "{" ++ quote_s ++ "name" ++ quote_s ++ ":" ++ quote_s ++ "or" ++ quote_s ++ "," ++ quote_s ++ "children" ++ quote_s ++ ":["
  ++ lf_s ++ "{" ++ quote_s ++ "name" ++ quote_s ++ ":" ++ quote_s ++ "a" ++ quote_s ++ "},"
  ++ lf_s ++ "{" ++ quote_s ++ "name" ++ quote_s ++ ":" ++ quote_s ++ "a" ++ quote_s ++ "}]}".

Theorem multi_line_collision_json :
  parse two_lines_json JsonPolicy = Ok (tree (FOr [FLeaf "a" 10; FLeaf "a" 10])).
Proof. vm_compute. reflexivity. Qed.

(** Non-trivial cases of the theorems above. *)
Example ex_policy : formula := FAnd [FLeaf "A" 0; FOr [FLeaf "B" 0; FLeaf "C 1" 0; FAnd [FLeaf "D" 0; FLeaf "and" 0]]].
Example ex_adm : adm ex_policy = true /\ arity2 ex_policy = true /\ forallb letter_first (names ex_policy) = true.
Proof. vm_compute. auto. Qed.
Example ex_human_text : parse (human_text ex_policy) HumanPolicy =
  Ok (tree (FAnd [FLeaf "A" 3; FOr [FLeaf "B" 12; FLeaf "C 1" 19; FAnd [FLeaf "D" 29; FLeaf "and" 37]]])).
Proof. vm_compute. reflexivity. Qed.
Example ex_numeral : numeral "-12.50e+7".
Proof.
  exists "-", "12", ".50", "e+7". split; [reflexivity|]. split; [now right|].
  split; [right; exists "1"%char, "2"; auto|]. split; [right; exists "50"; auto|].
  right. exists "e"%char, "+", "7"%char, "". auto 8.
Qed.
Example ex_mixed : parse (human_text (FLeaf "A" 0) ++ " and " ++ human_text (FLeaf "B" 0) ++ " or " ++ human_text (FLeaf "C" 0))
  HumanPolicy = Err.
Proof. exact (mixed_rejected true [FLeaf "A" 0; FLeaf "B" 0] (human_text (FLeaf "C" 0)) eq_refl eq_refl (le_n _)). Qed.
