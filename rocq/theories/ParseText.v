(** * ParseText: parsing written policies *)
From Coq Require Import String Ascii List Bool Arith Lia.
From Verif Require Import Base Policy Spec Peg Grammar Parse PegProofs ParseProofs.
Import ListNotations.
Local Open Scope string_scope.

(** ** Composition of successful and failing matches *)

Section Compose.
Variable g : grammar rule.

Lemma Runs_le a e s r : Runs g a e s r -> exists N, forall n, N <= n -> run g n a e s = r.
Proof. intros (H & n & E). exists n. intros m Hm. rewrite (run_mono g n m) by (congruence || lia). exact E. Qed.

Definition skips (a : atomicity) (s s' : st) : Prop :=
  match a with
  | NonAtomic => exists t, Runs g Atomic (g_skip g) s (Done s' t)
  | _ => s = s'
  end.

Definition skip_res (n : nat) (a : atomicity) (s : st) : res rule :=
  match a with NonAtomic => run g n Atomic (g_skip g) s | _ => Done s [] end.

Lemma skips_le a s s' : skips a s s' -> exists N t, forall n, N <= n -> skip_res n a s = Done s' t.
Proof.
  destruct a; cbn.
  - intros (t & H). apply Runs_le in H as (N & H). eauto.
  - intros ->. exists 0, []. auto.
  - intros ->. exists 0, []. auto.
Qed.

Ltac fuel N := split; [discriminate|exists (S N); rewrite run_step; unfold step; cbv zeta].

Lemma Runs_str x s s' a : strip x s = Some s' -> Runs g a (EStr x) s (Done s' []).
Proof. intros H. fuel 0. unfold of_opt. now rewrite H. Qed.
Lemma Runs_str_fail x s a : strip x s = None -> Runs g a (EStr x) s Fail.
Proof. intros H. fuel 0. unfold of_opt. now rewrite H. Qed.
Lemma Runs_stri c s s' a : strip1 (fun b => Ascii.eqb (upper1 b) (upper1 c)) s = Some s' -> Runs g a (EStrI c) s (Done s' []).
Proof. intros H. fuel 0. unfold of_opt. now rewrite H. Qed.
Lemma Runs_stri_fail c s a : strip1 (fun b => Ascii.eqb (upper1 b) (upper1 c)) s = None -> Runs g a (EStrI c) s Fail.
Proof. intros H. fuel 0. unfold of_opt. now rewrite H. Qed.
Lemma Runs_any s s' a : strip1 (fun _ => true) s = Some s' -> Runs g a EAny s (Done s' []).
Proof. intros H. fuel 0. unfold of_opt. now rewrite H. Qed.
Lemma Runs_class p s s' a : strip1 p s = Some s' -> Runs g a (EClass p) s (Done s' []).
Proof. intros H. fuel 0. unfold of_opt. now rewrite H. Qed.
Lemma Runs_class_fail p s a : strip1 p s = None -> Runs g a (EClass p) s Fail.
Proof. intros H. fuel 0. unfold of_opt. now rewrite H. Qed.
Lemma Runs_soi s a : Runs g a ESoi s (Done s []).
Proof. fuel 0. reflexivity. Qed.
Lemma Runs_eoi r s a : st_rest s = "" -> Runs g a (EEoi r) s (Done s [Tok r (st_col s) "" []]).
Proof. intros H. fuel 0. now rewrite H. Qed.
Lemma Runs_eoi_fail r s a : st_rest s <> "" -> Runs g a (EEoi r) s Fail.
Proof. intros H. fuel 0. destruct (st_rest s); congruence. Qed.

Lemma Runs_seq a e1 e2 s s1 s2 s3 t1 t3 :
  Runs g a e1 s (Done s1 t1) -> skips a s1 s2 -> Runs g a e2 s2 (Done s3 t3) ->
  Runs g a (e1 ~~ e2) s (Done s3 (t1 ++ t3)).
Proof.
  intros H1 H2 H3. apply Runs_le in H1 as (N1 & H1), H3 as (N3 & H3). apply skips_le in H2 as (N2 & t2 & H2).
  set (N := N1 + N2 + N3). fuel N. rewrite (H1 N) by lia. specialize (H2 N ltac:(lia)). unfold skip_res in H2.
  rewrite H2. rewrite (H3 N) by lia. reflexivity.
Qed.
Lemma Runs_seq_fail1 a e1 e2 s : Runs g a e1 s Fail -> Runs g a (e1 ~~ e2) s Fail.
Proof. intros H1. apply Runs_le in H1 as (N & H1). fuel N. now rewrite (H1 N) by lia. Qed.
Lemma Runs_seq_fail2 a e1 e2 s s1 s2 t1 :
  Runs g a e1 s (Done s1 t1) -> skips a s1 s2 -> Runs g a e2 s2 Fail -> Runs g a (e1 ~~ e2) s Fail.
Proof.
  intros H1 H2 H3. apply Runs_le in H1 as (N1 & H1), H3 as (N3 & H3). apply skips_le in H2 as (N2 & t2 & H2).
  set (N := N1 + N2 + N3). fuel N. rewrite (H1 N) by lia. specialize (H2 N ltac:(lia)). unfold skip_res in H2.
  rewrite H2. rewrite (H3 N) by lia. reflexivity.
Qed.
Lemma Runs_left a e1 e2 s s' t : Runs g a e1 s (Done s' t) -> Runs g a (e1 // e2) s (Done s' t).
Proof. intros H1. apply Runs_le in H1 as (N & H1). fuel N. now rewrite (H1 N) by lia. Qed.
Lemma Runs_right a e1 e2 s r : Runs g a e1 s Fail -> Runs g a e2 s r -> Runs g a (e1 // e2) s r.
Proof.
  intros H1 H2. pose proof (proj1 H2) as NF. apply Runs_le in H1 as (N1 & H1), H2 as (N2 & H2). split; [exact NF|].
  exists (S (N1 + N2)). rewrite run_step; unfold step; cbv zeta. rewrite (H1 (N1+N2)) by lia. apply H2. lia.
Qed.
Lemma Runs_star0 a e s : Runs g a e s Fail -> Runs g a (EStar e) s (Done s []).
Proof. intros H1. apply Runs_le in H1 as (N & H1). fuel N. now rewrite (H1 N) by lia. Qed.
Lemma Runs_star1 a e s s1 s2 t1 t2 :
  Runs g a e s (Done s1 t1) -> Runs g a (EMore e) s1 (Done s2 t2) -> Runs g a (EStar e) s (Done s2 (t1 ++ t2)).
Proof.
  intros H1 H2. apply Runs_le in H1 as (N1 & H1), H2 as (N2 & H2). fuel (N1 + N2).
  rewrite (H1 (N1+N2)) by lia. now rewrite (H2 (N1+N2)) by lia.
Qed.
Lemma Runs_more0 a e s s1 : skips a s s1 -> Runs g a e s1 Fail -> Runs g a (EMore e) s (Done s []).
Proof.
  intros H2 H1. apply Runs_le in H1 as (N1 & H1). apply skips_le in H2 as (N2 & t2 & H2).
  fuel (N1 + N2). specialize (H2 (N1 + N2) ltac:(lia)). unfold skip_res in H2. rewrite H2. now rewrite (H1 (N1+N2)) by lia.
Qed.
Lemma Runs_more1 a e s s1 s2 s3 t2 t3 : skips a s s1 -> Runs g a e s1 (Done s2 t2) ->
  Runs g a (EMore e) s2 (Done s3 t3) -> Runs g a (EMore e) s (Done s3 (t2 ++ t3)).
Proof.
  intros H2 H1 H3. apply Runs_le in H1 as (N1 & H1), H3 as (N3 & H3). apply skips_le in H2 as (N2 & u & H2).
  set (N := N1 + N2 + N3). fuel N. specialize (H2 N ltac:(lia)). unfold skip_res in H2. rewrite H2.
  rewrite (H1 N) by lia. now rewrite (H3 N) by lia.
Qed.
Lemma Runs_opt0 a e s : Runs g a e s Fail -> Runs g a (EOpt e) s (Done s []).
Proof. intros H1. apply Runs_le in H1 as (N & H1). fuel N. now rewrite (H1 N) by lia. Qed.
Lemma Runs_opt1 a e s s' t : Runs g a e s (Done s' t) -> Runs g a (EOpt e) s (Done s' t).
Proof. intros H1. apply Runs_le in H1 as (N & H1). fuel N. now rewrite (H1 N) by lia. Qed.
Lemma Runs_not0 a e s : Runs g a e s Fail -> Runs g a (ENot e) s (Done s []).
Proof. intros H1. apply Runs_le in H1 as (N & H1). fuel N. now rewrite (H1 N) by lia. Qed.
Lemma Runs_not1 a e s s' t : Runs g a e s (Done s' t) -> Runs g a (ENot e) s Fail.
Proof. intros H1. apply Runs_le in H1 as (N & H1). fuel N. now rewrite (H1 N) by lia. Qed.
Lemma Runs_rule a r s s' t : Runs g (mode g a r) (g_body g r) s (Done s' t) ->
  Runs g a (ERule r) s (Done s' (wrap g a r s s' t)).
Proof.
  intros H1. apply Runs_le in H1 as (N & H1). fuel N. specialize (H1 N (le_n _)). unfold mode, wrap in *.
  destruct (g_kind g r); now rewrite H1.
Qed.
Lemma Runs_rule_fail a r s : Runs g (mode g a r) (g_body g r) s Fail -> Runs g a (ERule r) s Fail.
Proof.
  intros H1. apply Runs_le in H1 as (N & H1). fuel N. specialize (H1 N (le_n _)). unfold mode in *.
  destruct (g_kind g r); now rewrite H1.
Qed.

(** ** Matches of texts, columns left aside *)

Definition toks := list (tok rule) -> Prop.

(** From every column, [e] matches the text [x] up to [y] and emits tokens in [Q]. *)
Definition PT (a : atomicity) (e : expr rule) (x y : string) (Q : toks) : Prop :=
  forall c, exists c' ts, Runs g a e (St c x) (Done (St c' y) ts) /\ Q ts.

(** From every column, [e] does not match the text [x]. *)
Definition PF (a : atomicity) (e : expr rule) (x : string) : Prop :=
  forall c, Runs g a e (St c x) Fail.

Definition nil : toks := fun ts => ts = [].
Definition cat (P Q : toks) : toks := fun ts => exists t1 t2, ts = (t1 ++ t2)%list /\ P t1 /\ Q t2.

(** Implicit whitespace. *)
Definition SK (a : atomicity) (x y : string) : Prop := forall c, exists c', skips a (St c x) (St c' y).

Lemma PT_weak a e x y (P Q : toks) : (forall t, P t -> Q t) -> PT a e x y P -> PT a e x y Q.
Proof. intros I H c. destruct (H c) as (c' & t & A & B). eauto. Qed.

Lemma strip_app x : forall c y, exists c', strip x (St c (x ++ y)) = Some (St c' y).
Proof.
  induction x as [|b x IH]; intros c y; cbn; [eauto|]. rewrite Ascii.eqb_refl. apply IH.
Qed.

Lemma strip_none x : forall c y, String.prefix x y = false -> strip x (St c y) = None.
Proof.
  induction x as [|b x IH]; intros c y H; cbn in *; [destruct y; discriminate|].
  destruct y as [|d y]; [reflexivity|]. destruct (Ascii.eqb_spec b d) as [->|N].
  - apply IH. cbn in H. destruct (ascii_dec d d) in H; [exact H|congruence].
  - reflexivity.
Qed.

Lemma pt_str a x y : PT a (EStr x) (x ++ y) y nil.
Proof. intros c. destruct (strip_app x c y) as (c' & E). exists c', []. split; [now apply Runs_str|reflexivity]. Qed.

Lemma pf_str a x y : String.prefix x y = false -> PF a (EStr x) y.
Proof. intros H c. apply Runs_str_fail. now apply strip_none. Qed.

Lemma pt_class a p b y : p b = true -> PT a (EClass p) (String b y) y nil.
Proof. intros H c. eexists _, []. split; [apply Runs_class; unfold strip1; cbn; rewrite H; reflexivity|reflexivity]. Qed.

Definition head_not (p : ascii -> bool) (x : string) : bool :=
  match x with EmptyString => true | String b _ => negb (p b) end.

Lemma pf_class a p y : head_not p y = true -> PF a (EClass p) y.
Proof.
  intros H c. apply Runs_class_fail. unfold strip1. cbn. destruct y as [|b y]; [reflexivity|].
  cbn in H. destruct (p b); [discriminate|reflexivity].
Qed.

Lemma pt_seq a e1 e2 x y z w P Q : PT a e1 x y P -> SK a y z -> PT a e2 z w Q -> PT a (e1 ~~ e2) x w (cat P Q).
Proof.
  intros H1 H2 H3 c. destruct (H1 c) as (c1 & t1 & A & B). destruct (H2 c1) as (c2 & S2). destruct (H3 c2) as (c3 & t3 & C & D).
  exists c3, (t1 ++ t3)%list. split; [eapply Runs_seq; eauto|]. exists t1, t3. auto.
Qed.

(** A part that emits nothing, before or after. *)
Lemma pt_seq_l a e1 e2 x y z w Q : PT a e1 x y nil -> SK a y z -> PT a e2 z w Q -> PT a (e1 ~~ e2) x w Q.
Proof.
  intros H1 H2 H3. eapply PT_weak; [|eapply pt_seq; eauto]. intros t (t1 & t2 & -> & -> & H). exact H.
Qed.
Lemma pt_seq_r a e1 e2 x y z w Q : PT a e1 x y Q -> SK a y z -> PT a e2 z w nil -> PT a (e1 ~~ e2) x w Q.
Proof.
  intros H1 H2 H3. eapply PT_weak; [|eapply pt_seq; eauto]. intros t (t1 & t2 & -> & H & ->). now rewrite app_nil_r.
Qed.
Lemma pf_seq1 a e1 e2 x : PF a e1 x -> PF a (e1 ~~ e2) x.
Proof. intros H c. now apply Runs_seq_fail1. Qed.
Lemma pf_seq2 a e1 e2 x y z P : PT a e1 x y P -> SK a y z -> PF a e2 z -> PF a (e1 ~~ e2) x.
Proof.
  intros H1 H2 H3 c. destruct (H1 c) as (c1 & t1 & A & B). destruct (H2 c1) as (c2 & S2).
  eapply Runs_seq_fail2; eauto.
Qed.
Lemma pt_left a e1 e2 x y Q : PT a e1 x y Q -> PT a (e1 // e2) x y Q.
Proof. intros H c. destruct (H c) as (c1 & t & A & B). exists c1, t. split; [now apply Runs_left|exact B]. Qed.
Lemma pt_right a e1 e2 x y Q : PF a e1 x -> PT a e2 x y Q -> PT a (e1 // e2) x y Q.
Proof. intros F H c. destruct (H c) as (c1 & t & A & B). exists c1, t. split; [apply Runs_right; [apply F|exact A]|exact B]. Qed.
Lemma pf_alt a e1 e2 x : PF a e1 x -> PF a e2 x -> PF a (e1 // e2) x.
Proof. intros F H c. apply Runs_right; [apply F|apply H]. Qed.
Lemma pt_star0 a e x : PF a e x -> PT a (EStar e) x x nil.
Proof. intros H c. exists c, []. split; [apply Runs_star0, H|reflexivity]. Qed.
Lemma pt_star1 a e x y z P Q : PT a e x y P -> PT a (EMore e) y z Q -> PT a (EStar e) x z (cat P Q).
Proof.
  intros H1 H2 c. destruct (H1 c) as (c1 & t1 & A & B). destruct (H2 c1) as (c2 & t2 & C & D).
  exists c2, (t1 ++ t2)%list. split; [eapply Runs_star1; eauto|]. exists t1, t2. auto.
Qed.
Lemma pt_more0 a e x y : SK a x y -> PF a e y -> PT a (EMore e) x x nil.
Proof. intros S1 H c. destruct (S1 c) as (c' & S1'). exists c, []. split; [eapply Runs_more0; [eauto|apply H]|reflexivity]. Qed.
Lemma pt_more1 a e x y z w P Q : SK a x y -> PT a e y z P -> PT a (EMore e) z w Q -> PT a (EMore e) x w (cat P Q).
Proof.
  intros S1 H1 H2 c. destruct (S1 c) as (c0 & S1'). destruct (H1 c0) as (c1 & t1 & A & B). destruct (H2 c1) as (c2 & t2 & C & D).
  exists c2, (t1 ++ t2)%list. split; [eapply Runs_more1; eauto|]. exists t1, t2. auto.
Qed.
Lemma pt_opt0 a e x : PF a e x -> PT a (EOpt e) x x nil.
Proof. intros H c. exists c, []. split; [apply Runs_opt0, H|reflexivity]. Qed.
Lemma pt_opt1 a e x y Q : PT a e x y Q -> PT a (EOpt e) x y Q.
Proof. intros H c. destruct (H c) as (c1 & t & A & B). exists c1, t. split; [now apply Runs_opt1|exact B]. Qed.
Lemma pt_not a e x : PF a e x -> PT a (ENot e) x x nil.
Proof. intros H c. exists c, []. split; [apply Runs_not0, H|reflexivity]. Qed.
Lemma pf_not a e x y Q : PT a e x y Q -> PF a (ENot e) x.
Proof. intros H c. destruct (H c) as (c1 & t & A & B). eapply Runs_not1; eauto. Qed.
Lemma pt_silent a r x y Q : g_kind g r = KSilent -> PT a (g_body g r) x y Q -> PT a (ERule r) x y Q.
Proof.
  intros K H c. destruct (H c) as (c1 & t & A & B). exists c1, t. split; [|exact B].
  pose proof (Runs_rule a r (St c x) (St c1 y) t) as R. unfold mode, wrap in R. rewrite K in R. auto.
Qed.
Lemma pt_rule a r x y Q : PT (mode g a r) (g_body g r) x y Q ->
  PT a (ERule r) x y (fun ts => exists c c' t, Q t /\ ts = wrap g a r (St c x) (St c' y) t).
Proof.
  intros H c. destruct (H c) as (c1 & t & A & B). eexists c1, _. split; [apply Runs_rule; exact A|]. eauto 6.
Qed.
Lemma pf_rule a r x : PF (mode g a r) (g_body g r) x -> PF a (ERule r) x.
Proof. intros H c. apply Runs_rule_fail, H. Qed.

Lemma sk_atomic a x : a <> NonAtomic -> SK a x x.
Proof. intros H c. exists c. destruct a; [congruence|reflexivity|reflexivity]. Qed.
End Compose.

(** ** Whitespace and quoted names, in both grammars *)

(** Does not start with a blank or a comment. *)
Definition solid (x : string) : bool :=
  head_not (fun b => Ascii.eqb " " b || Ascii.eqb (ascii_of_nat 9) b || Ascii.eqb (ascii_of_nat 13) b
                     || Ascii.eqb (ascii_of_nat 10) b || Ascii.eqb "/" b)%char x.

(** Made of ordinary characters: no quote, no backslash. *)
Definition ordinary (b : ascii) : bool :=
  negb (Ascii.eqb (ascii_of_nat 34) b) && negb (Ascii.eqb (ascii_of_nat 92) b).
Fixpoint admissible (n : string) : bool :=
  match n with
  | EmptyString => true
  | String b r => ordinary b && admissible r
  end.

Lemma prefix_head a x y : head_not (Ascii.eqb a) y = true -> String.prefix (String a x) y = false.
Proof.
  destruct y as [|b y]; [reflexivity|]. cbn. intros H. destruct (ascii_dec a b) as [->|N]; [|reflexivity].
  rewrite Ascii.eqb_refl in H. discriminate.
Qed.

Lemma length_app (x y : string) : String.length (x ++ y) = String.length x + String.length y.
Proof. induction x as [|b x IH]; cbn; [reflexivity|]. now rewrite IH. Qed.
Lemma substring_head n y : String.substring 0 (String.length n) (n ++ y) = n.
Proof. induction n as [|b n IH]; cbn; [now destruct y|]. now rewrite IH. Qed.

Section Shared.
Variable lang : language.
Notation g := (grammar_of lang).

Lemma skip_is : g_skip g = e_skip.
Proof. now destruct lang. Qed.

Lemma ws_kind r : r = WHITESPACE \/ r = COMMENT -> g_kind g r = KSilentAtomic.
Proof. intros [->| ->]; now destruct lang. Qed.

Lemma ws_body : g_body g WHITESPACE = e_whitespace /\ g_body g COMMENT = e_comment.
Proof. now destruct lang. Qed.

Lemma pf_ws x : solid x = true -> PF g Atomic (ERule WHITESPACE) x.
Proof.
  intros H. apply pf_rule. unfold mode. rewrite ws_kind by auto. rewrite (proj1 ws_body).
  unfold e_whitespace. destruct x as [|b x].
  - repeat apply pf_alt; apply pf_str; reflexivity.
  - cbn in H. rewrite !negb_orb in H. repeat (apply andb_prop in H as (H & ?)).
    repeat apply pf_alt; apply pf_str, prefix_head; cbn; assumption.
Qed.

Lemma pf_comment x : solid x = true -> PF g Atomic (ERule COMMENT) x.
Proof.
  intros H. apply pf_rule. unfold mode. rewrite ws_kind by auto. rewrite (proj2 ws_body).
  unfold e_comment. apply pf_seq1. destruct x as [|b x].
  - apply pf_str; reflexivity.
  - cbn in H. rewrite !negb_orb in H. repeat (apply andb_prop in H as (H & ?)). apply pf_str, prefix_head; cbn; assumption.
Qed.

Lemma pt_ws b x : Ascii.eqb " " b || Ascii.eqb (ascii_of_nat 10) b = true ->
  PT g Atomic (ERule WHITESPACE) (String b x) x nil.
Proof.
  intros H. eapply PT_weak; [|apply pt_rule].
  - intros t (c & c' & u & Hu & ->). unfold wrap. rewrite ws_kind by auto. exact Hu.
  - unfold mode. rewrite ws_kind by auto. rewrite (proj1 ws_body). unfold e_whitespace.
    apply orb_prop in H as [H|H]; apply Ascii.eqb_eq in H; subst b.
    + apply pt_left. apply (pt_str g Atomic " " x).
    + apply pt_right; [now apply pf_str|]. apply pt_right; [now apply pf_str|]. apply pt_right; [now apply pf_str|].
      apply (pt_str g Atomic lf_s x).
Qed.

Lemma sk_pt x y P : PT g Atomic e_skip x y P -> SK g NonAtomic x y.
Proof. intros H c. destruct (H c) as (c' & t & A & B). exists c'. exists t. now rewrite skip_is. Qed.

Lemma sk_solid x : solid x = true -> SK g NonAtomic x x.
Proof.
  intros H. eapply sk_pt. unfold e_skip. eapply pt_seq; [|now apply sk_atomic|].
  - apply pt_star0. now apply pf_ws.
  - apply pt_star0, pf_seq1. now apply pf_comment.
Qed.

Lemma sk_blank b x : Ascii.eqb " " b || Ascii.eqb (ascii_of_nat 10) b = true -> solid x = true ->
  SK g NonAtomic (String b x) x.
Proof.
  intros Hb H. eapply sk_pt. unfold e_skip. eapply pt_seq; [|now apply sk_atomic|].
  - eapply pt_star1; [now apply pt_ws|]. eapply pt_more0; [now apply sk_atomic|]. now apply pf_ws.
  - apply pt_star0, pf_seq1. now apply pf_comment.
Qed.

Lemma sk_space x : solid x = true -> SK g NonAtomic (" " ++ x) x.
Proof. now apply sk_blank. Qed.

(** A character of a name. *)
Lemma pt_char b y : ordinary b = true -> PT g Atomic (ERule char_) (String b y) y nil.
Proof.
  intros H. unfold ordinary in H. apply andb_prop in H as (H1 & H2).
  eapply PT_weak; [|apply (pt_rule g Atomic char_ _ _ nil)].
  - intros t (c & c' & u & Hu & ->). now destruct lang.
  - assert (E : mode g Atomic char_ = Atomic /\ g_body g char_ = e_char) by (now destruct lang).
    destruct E as (-> & ->). unfold e_char. apply pt_left. eapply pt_seq_l; [|now apply sk_atomic|].
    + apply pt_not, pf_alt; apply pf_str, prefix_head; cbn; assumption.
    + intros c. eexists _, []. split; [now apply Runs_any|reflexivity].
Qed.

Lemma pf_char y : PF g Atomic (ERule char_) (quote_s ++ y).
Proof.
  apply pf_rule. assert (E : mode g Atomic char_ = Atomic /\ g_body g char_ = e_char) by (now destruct lang).
  destruct E as (-> & ->). unfold e_char. apply pf_alt; [|apply pf_alt].
  - apply pf_seq1. eapply pf_not. apply pt_left, pt_str.
  - now apply pf_seq1, pf_str.
  - now apply pf_seq1, pf_str.
Qed.

Lemma pt_more_char n y : admissible n = true ->
  PT g Atomic (EMore (ERule char_)) (n ++ quote_s ++ y) (quote_s ++ y) nil.
Proof.
  induction n as [|b n IH]; cbn [admissible]; intros H.
  - eapply pt_more0; [now apply sk_atomic|]. apply pf_char.
  - apply andb_prop in H as (H1 & H2). eapply PT_weak; [|eapply pt_more1; [now apply sk_atomic|apply pt_char; exact H1|apply IH; exact H2]].
    intros t (t1 & t2 & -> & -> & ->). reflexivity.
Qed.

Lemma pt_inner n y : admissible n = true ->
  PT g Compound (ERule inner) (n ++ quote_s ++ y) (quote_s ++ y)
     (fun ts => exists c, ts = [Tok inner c n []]).
Proof.
  intros H. eapply PT_weak; [|apply (pt_rule g Compound inner _ _ nil)].
  - intros t (c & c' & u & -> & ->). exists c.
    assert (E : wrap g Compound inner (St c (n ++ quote_s ++ y)) (St c' (quote_s ++ y)) [] =
                [Tok inner c (between (St c (n ++ quote_s ++ y)) (St c' (quote_s ++ y))) []]) by (now destruct lang).
    rewrite E. unfold between. cbn [st_rest].
    replace (String.length (n ++ quote_s ++ y) - String.length (quote_s ++ y)) with (String.length n).
    + now rewrite substring_head.
    + rewrite (length_app n). lia.
  - assert (E : mode g Compound inner = Atomic /\ g_body g inner = e_inner) by (now destruct lang).
    destruct E as (-> & ->). unfold e_inner. destruct n as [|b n].
    + apply pt_star0, pf_char.
    + cbn in H. apply andb_prop in H as (H1 & H2). eapply PT_weak; [|eapply pt_star1; [apply pt_char; exact H1|apply pt_more_char; exact H2]].
      intros t (t1 & t2 & -> & -> & ->). reflexivity.
Qed.

Lemma pt_quote a y : PT g a (ERule QUOTE) (quote_s ++ y) y nil.
Proof.
  apply pt_silent; [now destruct lang|]. replace (g_body g QUOTE) with (EStr (R := rule) quote_s) by (now destruct lang).
  apply pt_str.
Qed.
Lemma pf_quote a y : String.prefix quote_s y = false -> PF g a (ERule QUOTE) y.
Proof.
  intros H. apply pf_rule. replace (g_body g QUOTE) with (EStr (R := rule) quote_s) by (now destruct lang).
  now apply pf_str.
Qed.

(** A quoted name. *)
Lemma pt_string n y : admissible n = true ->
  PT g NonAtomic (ERule string_) (quote_s ++ n ++ quote_s ++ y) y
     (fun ts => exists c x c', ts = [Tok string_ c x [Tok inner c' n []]]).
Proof.
  intros H. eapply PT_weak; [|apply (pt_rule g NonAtomic string_ _ _ (fun ts => exists c, ts = [Tok inner c n []]))].
  - intros t (c & c' & u & (d & ->) & ->). destruct lang; cbn; eauto.
  - assert (E : mode g NonAtomic string_ = Compound) by (now destruct lang). rewrite E.
    pose proof (pt_quote Compound) as Hq. pose proof (pt_inner n y H) as Hi. clear E.
    destruct lang; cbn [g_body grammar_of json human json_body human_body] in *.
    + eapply pt_seq_l; [apply Hq|now apply sk_atomic|].
      eapply pt_seq_r; [exact Hi|now apply sk_atomic|apply Hq].
    + eapply pt_seq_l; [apply pt_str|now apply sk_atomic|].
      eapply pt_seq_r; [exact Hi|now apply sk_atomic|apply pt_str].
Qed.
Lemma pf_string y : String.prefix quote_s y = false -> PF g NonAtomic (ERule string_) y.
Proof.
  intros H. apply pf_rule. assert (E : mode g NonAtomic string_ = Compound) by (now destruct lang). rewrite E.
  destruct lang eqn:El; cbn [g_body grammar_of json human json_body human_body].
  - apply pf_seq1. now apply (pf_rule json), pf_str.
  - now apply pf_seq1, pf_str.
Qed.

(** The operators. *)
Definition op_text (t : bool) : string := if t then "and" else "or".
Definition op_rule (t : bool) : rule := if t then andinner else orinner.

Lemma op_body t : g_body g andvalue = e_andvalue /\ g_body g orvalue = e_orvalue /\
  g_body g (op_rule t) = (if t then e_andinner else e_orinner) /\ g_kind g andvalue = KSilent /\
  g_kind g orvalue = KSilent /\ g_kind g (op_rule t) = KSilent.
Proof. destruct t; now destruct lang. Qed.

Lemma pt_value (t : bool) a y : PT g a (ERule (if t then andvalue else orvalue)) (op_text t ++ y) y nil.
Proof.
  destruct (op_body t) as (A & B & _ & D & E & _). destruct t.
  - apply pt_silent; [exact D|]. rewrite A. apply pt_left, pt_str.
  - apply pt_silent; [exact E|]. rewrite B. apply pt_left, pt_str.
Qed.
Lemma pf_value (t : bool) a y :
  String.prefix (if t then "and" else "or") y = false -> String.prefix (if t then "AND" else "OR") y = false ->
  String.prefix (if t then "&&" else "||") y = false ->
  PF g a (ERule (if t then andvalue else orvalue)) y.
Proof.
  intros H1 H2 H3. destruct (op_body t) as (A & B & _). apply pf_rule. destruct t; rewrite ?A, ?B;
    repeat apply pf_alt; now apply pf_str.
Qed.

Lemma pt_op t y : PT g NonAtomic (ERule (op_rule t)) (op_text t ++ y) y nil.
Proof.
  destruct (op_body t) as (_ & _ & C & _ & _ & F). apply pt_silent; [exact F|]. rewrite C.
  destruct t; apply pt_left; [apply (pt_value true)|apply (pt_value false)].
Qed.

(** The other operator, or anything that is no operator and no quote. *)
Lemma pf_op (t : bool) y :
  String.prefix (if t then "and" else "or") y = false -> String.prefix (if t then "AND" else "OR") y = false ->
  String.prefix (if t then "&&" else "||") y = false -> String.prefix quote_s y = false ->
  PF g NonAtomic (ERule (op_rule t)) y.
Proof.
  intros H1 H2 H3 H4. apply pf_rule. destruct (op_body t) as (_ & _ & C & _ & _ & F). unfold mode. rewrite F, C.
  destruct t; (apply pf_alt; [|apply pf_seq1, pf_quote, H4]); [apply (pf_value true)|apply (pf_value false)]; assumption.
Qed.
End Shared.

(** ** Trees up to positions *)

Fixpoint erase (f : formula) : formula :=
  match f with
  | FLeaf n _ => FLeaf n 0
  | FAnd l => FAnd (map erase l)
  | FOr l => FOr (map erase l)
  end.

(** One node token that reads as [f], and a list of them. *)
Definition one (f : formula) : toks := fun ts =>
  exists t g, ts = [t] /\ build t = Ok (tree g) /\ erase g = erase f.
Definition many (fs : list formula) : toks := fun ts =>
  exists gs, build_all ts = Ok (map tree gs) /\ map erase gs = map erase fs.

Lemma build_all_app t1 : forall t2 l1 l2, build_all t1 = Ok l1 -> build_all t2 = Ok l2 ->
  build_all (t1 ++ t2) = Ok (l1 ++ l2)%list.
Proof.
  induction t1 as [|t t1 IH]; intros t2 l1 l2 H1 H2.
  - injection H1 as <-. exact H2.
  - cbn in H1. fold build_all in H1. cbn. fold build_all. apply obind_Ok in H1 as (v & -> & H1).
    apply obind_Ok in H1 as (vs & A & H1). injection H1 as <-. cbn. rewrite (IH t2 vs l2 A H2). reflexivity.
Qed.

Lemma many_nil ts : nil ts -> many [] ts.
Proof. intros ->. exists []. auto. Qed.
Lemma one_many f ts : one f ts -> many [f] ts.
Proof. intros (t & g & -> & B & E). exists [g]. cbn. rewrite B. cbn. now rewrite E. Qed.
Lemma many_app fs fs' ts : cat (many fs) (many fs') ts -> many (fs ++ fs') ts.
Proof.
  intros (t1 & t2 & -> & (g1 & A1 & B1) & (g2 & A2 & B2)). exists (g1 ++ g2)%list. rewrite !map_app, B1, B2.
  split; [|reflexivity]. now apply build_all_app.
Qed.

Lemma build_string c x c' n : build (Tok string_ c x [Tok inner c' n []]) = Ok (tree (FLeaf n c')).
Proof. reflexivity. Qed.

Lemma build_and c x ts gs : build_all ts = Ok (map tree gs) -> build (Tok and_ c x ts) = Ok (tree (FAnd gs)).
Proof. intros H. change (obind (build_all ts) (fun vs => Ok (PObj And (PArr vs))) = Ok (tree (FAnd gs))). now rewrite H. Qed.
Lemma build_or c x ts gs : build_all ts = Ok (map tree gs) -> build (Tok or_ c x ts) = Ok (tree (FOr gs)).
Proof. intros H. change (obind (build_all ts) (fun vs => Ok (PObj Or (PArr vs))) = Ok (tree (FOr gs))). now rewrite H. Qed.

Lemma sapp_assoc (x y z : string) : (x ++ y) ++ z = x ++ y ++ z.
Proof. induction x as [|b x IH]; cbn; [reflexivity|]. now rewrite IH. Qed.

(** All names of the policy are made of ordinary characters. *)
Definition adm (f : formula) : bool := forallb admissible (names f).

Lemma adm_children l : forallb admissible (map fst (flat_map leaves l)) = true -> forallb adm l = true.
Proof.
  induction l as [|f l IH]; [reflexivity|]. cbn [flat_map]. rewrite map_app, forallb_app. intros H.
  apply andb_prop in H as (H1 & H2). cbn. now rewrite IH, andb_true_r.
Qed.

(** The content rule around a node. *)
Lemma pt_content lang x f : SK (grammar_of lang) NonAtomic x x ->
  PT (grammar_of lang) NonAtomic (ERule node) x "" (one f) ->
  exists g, parse x lang = Ok (tree g) /\ erase g = erase f.
Proof.
  intros S1 H.
  assert (P : PT (grammar_of lang) NonAtomic (ERule content) x ""
                (fun ts => exists t u g, ts = [t; u] /\ build t = Ok (tree g) /\ erase g = erase f)).
  { apply pt_silent; [now destruct lang|].
    replace (g_body (grammar_of lang) content) with e_content by (now destruct lang). unfold e_content.
    eapply pt_seq_l; [|exact S1|].
    - intros c. exists c, []. split; [apply Runs_soi|reflexivity].
    - eapply PT_weak; [|eapply pt_seq; [exact H|now apply sk_solid|]].
      + intros t (t1 & t2 & -> & (u & g & -> & B & E) & Q). 
        instantiate (1 := fun ts => exists u, ts = [u]) in Q. destruct Q as (v & ->). cbn. eauto 8.
      + intros c. exists c, [Tok EOI c "" []]. split; [now apply Runs_eoi|eauto]. }
  destruct (P 1) as (c' & ts & R & t & u & g & -> & B & E). exists g. split; [|exact E].
  unfold parse. now rewrite (parse_runs _ _ _ R).
Qed.

Lemma pf_content_node lang x : SK (grammar_of lang) NonAtomic x x ->
  PF (grammar_of lang) NonAtomic (ERule node) x -> parse x lang = Err.
Proof.
  intros S1 H.
  assert (P : PF (grammar_of lang) NonAtomic (ERule content) x).
  { apply pf_rule. replace (g_body (grammar_of lang) content) with e_content by (now destruct lang).
    replace (mode (grammar_of lang) NonAtomic content) with NonAtomic by (now destruct lang). unfold e_content.
    eapply pf_seq2; [|exact S1|].
    - intros c. exists c, []. split; [apply Runs_soi|]. instantiate (1 := fun _ => True). exact I.
    - now apply pf_seq1. }
  unfold parse. now rewrite (parse_runs _ _ _ (P 1)).
Qed.

(** Text is left after the node. *)
Lemma pf_content_rest lang x y z Q : SK (grammar_of lang) NonAtomic x x ->
  PT (grammar_of lang) NonAtomic (ERule node) x y Q -> SK (grammar_of lang) NonAtomic y z -> z <> "" ->
  parse x lang = Err.
Proof.
  intros S1 H S2 Nz.
  assert (P : PF (grammar_of lang) NonAtomic (ERule content) x).
  { apply pf_rule. replace (g_body (grammar_of lang) content) with e_content by (now destruct lang).
    replace (mode (grammar_of lang) NonAtomic content) with NonAtomic by (now destruct lang). unfold e_content.
    eapply pf_seq2; [|exact S1|].
    - intros c. exists c, []. split; [apply Runs_soi|]. instantiate (1 := fun _ => True). exact I.
    - eapply pf_seq2; [exact H|exact S2|]. intros c. now apply Runs_eoi_fail. }
  unfold parse. now rewrite (parse_runs _ _ _ (P 1)).
Qed.

(** ** C03: JSON *)

Fixpoint tails (sep : string) (l : list string) : string :=
  match l with
  | [] => ""
  | x :: r => sep ++ x ++ tails sep r
  end.
Lemma concat_tails sep l : forall x, String.concat sep (x :: l) = x ++ tails sep l.
Proof.
  induction l as [|y l IH]; intros x.
  - cbn. clear. induction x; cbn; congruence.
  - cbn [tails]. rewrite <- (IH y). reflexivity.
Qed.

Fixpoint json_text (f : formula) : string :=
  match f with
  | FLeaf n _ => "{" ++ quote_s ++ "name" ++ quote_s ++ ": " ++ quote_s ++ n ++ quote_s ++ "}"
  | FAnd l => "{" ++ quote_s ++ "name" ++ quote_s ++ ": " ++ quote_s ++ "and" ++ quote_s ++ ", "
                ++ quote_s ++ "children" ++ quote_s ++ ": [" ++ String.concat ", " (map json_text l) ++ "]" ++ "}"
  | FOr l => "{" ++ quote_s ++ "name" ++ quote_s ++ ": " ++ quote_s ++ "or" ++ quote_s ++ ", "
                ++ quote_s ++ "children" ++ quote_s ++ ": [" ++ String.concat ", " (map json_text l) ++ "]" ++ "}"
  end.

Definition serialize_all (lang : language) : list pvalue -> outcome (list string) :=
  fix loop (l : list pvalue) : outcome (list string) :=
    match l with
    | [] => Ok []
    | c :: r => obind (serialize_policy c lang None) (fun s =>
                obind (loop r) (fun ss => Ok (s :: ss)))
    end.

Lemma serialize_json f : forall parent, serialize_policy (tree f) JsonPolicy parent = Ok (json_text f).
Proof.
  induction f as [n p|l IH|l IH] using formula_ind'; intros parent.
  - reflexivity.
  - assert (A : serialize_all JsonPolicy (map tree l) = Ok (map json_text l)).
    { induction IH as [|f l Hf _ IHl]; [reflexivity|]. cbn. fold (serialize_all JsonPolicy). rewrite (Hf None). cbn. now rewrite IHl. }
    cbn. fold (serialize_all JsonPolicy). rewrite A. cbn. unfold join.
    now rewrite ?sapp_assoc.
  - assert (A : serialize_all JsonPolicy (map tree l) = Ok (map json_text l)).
    { induction IH as [|f l Hf _ IHl]; [reflexivity|]. cbn. fold (serialize_all JsonPolicy). rewrite (Hf None). cbn. now rewrite IHl. }
    cbn. fold (serialize_all JsonPolicy). rewrite A. cbn. unfold join.
    now rewrite ?sapp_assoc.
Qed.

Ltac solid := (apply (sk_solid JsonPolicy) || apply (sk_solid HumanPolicy)); reflexivity.

Lemma pt_opq lang t y : PT (grammar_of lang) NonAtomic (ERule (op_rule t)) (quote_s ++ op_text t ++ quote_s ++ y) y nil.
Proof.
  destruct (op_body lang t) as (_ & _ & C & _ & _ & F). apply pt_silent; [exact F|]. rewrite C.
  destruct t; (apply pt_right; [apply (pf_value lang true) || apply (pf_value lang false); reflexivity|]).
  - eapply pt_seq_l; [apply pt_quote|now apply sk_solid|]. eapply pt_seq_l; [apply (pt_value lang true)|now apply sk_solid|apply pt_quote].
  - eapply pt_seq_l; [apply pt_quote|now apply sk_solid|]. eapply pt_seq_l; [apply (pt_value lang false)|now apply sk_solid|apply pt_quote].
Qed.

Lemma pf_opq lang t y : PF (grammar_of lang) NonAtomic (ERule (op_rule t)) (quote_s ++ op_text (negb t) ++ y).
Proof.
  destruct (op_body lang t) as (_ & _ & C & _ & _ & F). apply pf_rule. unfold mode. rewrite F, C.
  destruct t; (apply pf_alt; [apply (pf_value lang true) || apply (pf_value lang false); reflexivity|]).
  - eapply pf_seq2; [apply pt_quote|now apply sk_solid|]. apply pf_seq1. now apply (pf_value lang true).
  - eapply pf_seq2; [apply pt_quote|now apply sk_solid|]. apply pf_seq1. now apply (pf_value lang false).
Qed.

Lemma pt_NAME y : PT json NonAtomic (ERule NAME) (quote_s ++ "name" ++ quote_s ++ y) y nil.
Proof.
  apply pt_silent; [reflexivity|]. cbn [g_body json json_body].
  apply pt_right; [now apply pf_str|]. apply pt_right; [now apply pf_str|]. apply pt_left.
  eapply pt_seq_l; [apply (pt_quote JsonPolicy)|solid|]. eapply pt_seq_l; [apply pt_str|solid|apply (pt_quote JsonPolicy)].
Qed.
Lemma pt_CHILDREN y : PT json NonAtomic (ERule CHILDREN) (quote_s ++ "children" ++ quote_s ++ y) y nil.
Proof.
  apply pt_silent; [reflexivity|]. cbn [g_body json json_body].
  apply pt_right; [now apply pf_str|]. apply pt_right; [now apply pf_str|]. apply pt_left.
  eapply pt_seq_l; [apply (pt_quote JsonPolicy)|solid|]. eapply pt_seq_l; [apply pt_str|solid|apply (pt_quote JsonPolicy)].
Qed.

(** [{"name": ] *)
Definition head_text (x : string) : string := "{" ++ quote_s ++ "name" ++ quote_s ++ ":" ++ " " ++ x.
Lemma pt_head e x y Q : solid x = true -> PT json NonAtomic e x y Q ->
  PT json NonAtomic (EStr "{" ~~ ERule NAME ~~ EStr ":" ~~ e) (head_text x) y Q.
Proof.
  intros S1 H. unfold head_text. eapply pt_seq_l; [apply pt_str|solid|].
  eapply pt_seq_l; [apply pt_NAME|solid|]. eapply pt_seq_l; [apply pt_str|apply (sk_space JsonPolicy); exact S1|exact H].
Qed.
Lemma pf_head e x : solid x = true -> PF json NonAtomic e x ->
  PF json NonAtomic (EStr "{" ~~ ERule NAME ~~ EStr ":" ~~ e) (head_text x).
Proof.
  intros S1 H. unfold head_text. eapply pf_seq2; [apply pt_str|solid|].
  eapply pf_seq2; [apply pt_NAME|solid|]. eapply pf_seq2; [apply pt_str|apply (sk_space JsonPolicy); exact S1|exact H].
Qed.

(** ["and", "children": [] *)
Definition kids_text (t : bool) (x : string) : string :=
  quote_s ++ op_text t ++ quote_s ++ "," ++ " " ++ quote_s ++ "children" ++ quote_s ++ ":" ++ " " ++ "[" ++ x.
Lemma pt_kids t e x y Q : solid x = true -> PT json NonAtomic e x y Q ->
  PT json NonAtomic (ERule (op_rule t) ~~ EStr "," ~~ ERule CHILDREN ~~ EStr ":" ~~ EStr "[" ~~ e) (kids_text t x) y Q.
Proof.
  intros S1 H. unfold kids_text. eapply pt_seq_l; [apply (pt_opq JsonPolicy)|solid|].
  eapply pt_seq_l; [apply pt_str|apply (sk_space JsonPolicy); reflexivity|].
  eapply pt_seq_l; [apply pt_CHILDREN|solid|].
  eapply pt_seq_l; [apply pt_str|apply (sk_space JsonPolicy); reflexivity|].
  eapply pt_seq_l; [apply pt_str|apply (sk_solid JsonPolicy); exact S1|exact H].
Qed.
Lemma pf_kids t e x : solid x = true -> PF json NonAtomic e x ->
  PF json NonAtomic (ERule (op_rule t) ~~ EStr "," ~~ ERule CHILDREN ~~ EStr ":" ~~ EStr "[" ~~ e) (kids_text t x).
Proof.
  intros S1 H. unfold kids_text. eapply pf_seq2; [apply (pt_opq JsonPolicy)|solid|].
  eapply pf_seq2; [apply pt_str|apply (sk_space JsonPolicy); reflexivity|].
  eapply pf_seq2; [apply pt_CHILDREN|solid|].
  eapply pf_seq2; [apply pt_str|apply (sk_space JsonPolicy); reflexivity|].
  eapply pf_seq2; [apply pt_str|apply (sk_solid JsonPolicy); exact S1|exact H].
Qed.

Definition kids_rule (t : bool) : rule := if t then and_ else or_.
Definition mk (t : bool) (l : list formula) : formula := if t then FAnd l else FOr l.

(** The children between brackets. *)
Definition list_expr : expr rule := ERule node ~~ EStar (EStr "," ~~ ERule node) ~~ EStr "]".

Lemma json_text_solid f y : solid (json_text f ++ y) = true /\ String.prefix "]" (json_text f ++ y) = false.
Proof. destruct f; split; reflexivity. Qed.

Definition reads_json (f : formula) : Prop := adm f = true -> forall y,
  PT json NonAtomic (ERule node) (json_text f ++ y) y (one f).

Lemma pt_more_kids l y : Forall (fun f => forall y, PT json NonAtomic (ERule node) (json_text f ++ y) y (one f)) l ->
  PT json NonAtomic (EMore (EStr "," ~~ ERule node)) (tails ", " (map json_text l) ++ "]" ++ y) ("]" ++ y) (many l).
Proof.
  induction 1 as [|f l H _ IH].
  - eapply PT_weak; [apply many_nil|]. eapply pt_more0; [apply (sk_solid JsonPolicy)|]; [reflexivity|]. now apply pf_seq1, pf_str.
  - cbn [map tails]. rewrite !sapp_assoc. eapply PT_weak; [apply (many_app [f] l)|].
    eapply pt_more1; [apply (sk_solid JsonPolicy); reflexivity| |exact IH].
    eapply PT_weak; [apply one_many|]. change (", " ++ json_text f ++ tails ", " (map json_text l) ++ "]" ++ y)
      with ("," ++ " " ++ json_text f ++ tails ", " (map json_text l) ++ "]" ++ y).
    eapply pt_seq_l; [apply pt_str|apply (sk_space JsonPolicy), json_text_solid|]. apply H.
Qed.

Lemma tails_solid l y : solid (tails ", " l ++ "]" ++ y) = true.
Proof. destruct l; reflexivity. Qed.

Lemma pt_list f l y : Forall (fun f => forall y, PT json NonAtomic (ERule node) (json_text f ++ y) y (one f)) (f :: l) ->
  PT json NonAtomic list_expr (String.concat ", " (map json_text (f :: l)) ++ "]" ++ y) y (many (f :: l)).
Proof.
  intros H. inversion H as [|? ? Hf Hl]; subst. cbn [map]. rewrite concat_tails, sapp_assoc. unfold list_expr.
  eapply PT_weak; [apply (many_app [f] l)|]. eapply pt_seq; [|apply (sk_solid JsonPolicy)|].
  - eapply PT_weak; [apply one_many|]. apply Hf.
  - apply tails_solid.
  - apply (pt_seq_r json NonAtomic _ _ _ ("]" ++ y) ("]" ++ y)); [|solid|apply pt_str]. destruct l as [|h l].
    + eapply PT_weak; [apply many_nil|]. apply pt_star0. now apply pf_seq1, pf_str.
    + inversion Hl as [|? ? Hh Hl']; subst. cbn [map tails]. rewrite !sapp_assoc.
      eapply PT_weak; [apply (many_app [h] l)|]. eapply pt_star1; [|now apply pt_more_kids].
      eapply PT_weak; [apply one_many|].
      change (", " ++ json_text h ++ tails ", " (map json_text l) ++ "]" ++ y)
        with ("," ++ " " ++ json_text h ++ tails ", " (map json_text l) ++ "]" ++ y).
      eapply pt_seq_l; [apply pt_str|apply (sk_space JsonPolicy), json_text_solid|]. apply Hh.
Qed.

(** An AND/OR object. *)
Lemma pt_andor t l y : Forall (fun f => forall y, PT json NonAtomic (ERule node) (json_text f ++ y) y (one f)) l ->
  PT json NonAtomic (ERule (kids_rule t)) (kids_text t (String.concat ", " (map json_text l) ++ "]" ++ y)) y (one (mk t l)).
Proof.
  intros H. eapply PT_weak; [|apply (pt_rule json NonAtomic (kids_rule t) _ _ (many l))].
  - intros ts (c & c' & u & (gs & B & E) & ->).
    exists (Tok (kids_rule t) c (between (St c (kids_text t (String.concat ", " (map json_text l) ++ "]" ++ y))) (St c' y)) u), (mk t gs).
    split; [now destruct t|]. destruct t.
    + split; [apply (build_and _ _ u gs B)|]. cbn. now rewrite E.
    + split; [apply (build_or _ _ u gs B)|]. cbn. now rewrite E.
  - replace (mode json NonAtomic (kids_rule t)) with NonAtomic by (now destruct t).
    replace (g_body json (kids_rule t)) with
      (ERule (op_rule t) ~~ EStr "," ~~ ERule CHILDREN ~~ EStr ":" ~~ EStr "[" ~~ EStr "]"
       // ERule (op_rule t) ~~ EStr "," ~~ ERule CHILDREN ~~ EStr ":" ~~ EStr "[" ~~ list_expr) by (now destruct t).
    destruct l as [|f l].
    + apply pt_left. cbn [map String.concat append]. eapply PT_weak; [apply many_nil|].
      apply pt_kids; [reflexivity|]. apply (pt_str json NonAtomic "]" y).
    + pose proof (pt_list f l y H) as P.
      assert (Sx : solid (String.concat ", " (map json_text (f :: l)) ++ "]" ++ y) = true /\
                   String.prefix "]" (String.concat ", " (map json_text (f :: l)) ++ "]" ++ y) = false).
      { cbn [map]. rewrite concat_tails, sapp_assoc. apply json_text_solid. }
      destruct Sx as (S1 & S2). apply pt_right.
      * apply pf_kids; [exact S1|]. now apply pf_str.
      * apply pt_kids; [exact S1|exact P].
Qed.

Lemma text_json_and l y : json_text (FAnd l) ++ y =
  head_text (kids_text true (String.concat ", " (map json_text l) ++ "]" ++ "}" ++ y)).
Proof. cbn. now rewrite !sapp_assoc. Qed.
Lemma text_json_or l y : json_text (FOr l) ++ y =
  head_text (kids_text false (String.concat ", " (map json_text l) ++ "]" ++ "}" ++ y)).
Proof. cbn. now rewrite !sapp_assoc. Qed.
Lemma text_json_leaf n p y : json_text (FLeaf n p) ++ y = head_text (quote_s ++ n ++ quote_s ++ "}" ++ y).
Proof. cbn. now rewrite !sapp_assoc. Qed.

(** The quoted operator also reads as a name, but no brace follows. *)
Lemma pf_value_brace t x : PF json NonAtomic (ERule value ~~ EStr "}") (kids_text t x).
Proof.
  unfold kids_text. eapply pf_seq2.
  - apply pt_silent; [reflexivity|]. apply pt_left. apply (pt_string JsonPolicy). now destruct t.
  - solid.
  - now apply pf_str.
Qed.

Lemma kids_rule_fail t x : PF json NonAtomic (ERule (kids_rule t)) (kids_text (negb t) x).
Proof.
  apply pf_rule. replace (mode json NonAtomic (kids_rule t)) with NonAtomic by (now destruct t).
  replace (g_body json (kids_rule t)) with
      (ERule (op_rule t) ~~ EStr "," ~~ ERule CHILDREN ~~ EStr ":" ~~ EStr "[" ~~ EStr "]"
       // ERule (op_rule t) ~~ EStr "," ~~ ERule CHILDREN ~~ EStr ":" ~~ EStr "[" ~~ list_expr) by (now destruct t).
  unfold kids_text. apply pf_alt; apply pf_seq1, (pf_opq JsonPolicy).
Qed.

Lemma json_node f : reads_json f.
Proof.
  induction f as [n p|l IH|l IH] using formula_ind'; intros A y.
  - rewrite text_json_leaf. apply pt_silent; [reflexivity|]. apply pt_left. apply pt_head; [reflexivity|].
    apply (pt_seq_r json NonAtomic _ _ _ ("}" ++ y) ("}" ++ y)); [|solid|apply pt_str].
    apply pt_silent; [reflexivity|]. apply pt_left.
    eapply PT_weak; [|apply (pt_string JsonPolicy)].
    + intros t (c & x & c' & ->). eexists _, (FLeaf n c'). split; [reflexivity|]. split; reflexivity.
    + unfold adm, names in A. cbn in A. now rewrite andb_true_r in A.
  - assert (F : Forall (fun f => forall y, PT json NonAtomic (ERule node) (json_text f ++ y) y (one f)) l).
    { apply adm_children in A. rewrite forallb_forall in A. apply Forall_forall. intros f I.
      eapply Forall_forall in IH; [|exact I]. now apply IH, A. }
    rewrite text_json_and. apply pt_silent; [reflexivity|]. apply pt_right.
    + apply pf_head; [reflexivity|]. apply pf_value_brace.
    + apply pt_left. apply pt_head; [reflexivity|].
      eapply pt_seq_r; [apply (pt_andor true); exact F|solid|apply (pt_str json NonAtomic "}" y)].
  - assert (F : Forall (fun f => forall y, PT json NonAtomic (ERule node) (json_text f ++ y) y (one f)) l).
    { apply adm_children in A. rewrite forallb_forall in A. apply Forall_forall. intros f I.
      eapply Forall_forall in IH; [|exact I]. now apply IH, A. }
    rewrite text_json_or. apply pt_silent; [reflexivity|]. apply pt_right.
    + apply pf_head; [reflexivity|]. apply pf_value_brace.
    + apply pt_right.
      * apply pf_head; [reflexivity|]. apply pf_seq1, (kids_rule_fail true).
      * apply pt_head; [reflexivity|].
        eapply pt_seq_r; [apply (pt_andor false); exact F|solid|apply (pt_str json NonAtomic "}" y)].
Qed.

(** *** C03 *)
Theorem json_roundtrip f : adm f = true -> exists txt g,
  serialize_policy (tree f) JsonPolicy None = Ok txt /\
  parse txt JsonPolicy = Ok (tree g) /\ erase g = erase f.
Proof.
  intros A. exists (json_text f).
  assert (T : json_text f = json_text f ++ "") by (clear; induction (json_text f); cbn; congruence).
  destruct (pt_content JsonPolicy (json_text f) f) as (g & P & E).
  - apply sk_solid. rewrite T. apply json_text_solid.
  - rewrite T. now apply json_node.
  - exists g. split; [apply serialize_json|auto].
Qed.
