(** * LexProofs: words, gaps and numbers of both policy languages

    What the rules WHITESPACE, COMMENT, string, number and the keywords match:
    exactly the texts of the specification in Layout.v. *)
From Coq Require Import String Ascii List Bool Arith Lia.
From Verif Require Import Base Policy Spec Peg Grammar Parse PegProofs ParseProofs ParseText ParseHuman Layout.
Import ListNotations.
Local Open Scope string_scope.

(** ** Reading a successful match backwards *)

Section Inversion.
Variable g : grammar rule.

Lemma inv_str n a x s s' t : run g n a (EStr x) s = Done s' t -> st_rest s = x ++ st_rest s' /\ t = [].
Proof.
  destruct n as [|n]; [discriminate|]. cbn [run]. cbv zeta. unfold of_opt. destruct (strip x s) eqn:E; [|discriminate].
  intros H. injection H as <- <-. apply strip_reach in E as (A & _). auto.
Qed.
Lemma inv_class n a p s s' t : run g n a (EClass p) s = Done s' t ->
  exists b, p b = true /\ st_rest s = String b (st_rest s') /\ t = [].
Proof.
  destruct n as [|n]; [discriminate|]. cbn [run]. cbv zeta. unfold of_opt. destruct (strip1 p s) eqn:E; [|discriminate].
  intros H. injection H as <- <-. apply strip1_reach in E as (b & A & B & _). eauto.
Qed.
Lemma inv_stri n a c s s' t : run g n a (EStrI c) s = Done s' t ->
  exists b, Ascii.eqb (upper1 b) (upper1 c) = true /\ st_rest s = String b (st_rest s') /\ t = [].
Proof.
  destruct n as [|n]; [discriminate|]. cbn [run]. cbv zeta. unfold of_opt.
  destruct (strip1 (fun b => Ascii.eqb (upper1 b) (upper1 c)) s) eqn:E; [|discriminate].
  intros H. injection H as <- <-. apply strip1_reach in E as (b & A & B & _). eauto.
Qed.
Lemma inv_any n a s s' t : run g n a EAny s = Done s' t ->
  exists b, st_rest s = String b (st_rest s') /\ t = [].
Proof.
  destruct n as [|n]; [discriminate|]. cbn [run]. cbv zeta. unfold of_opt.
  destruct (strip1 (fun _ => true) s) eqn:E; [|discriminate].
  intros H. injection H as <- <-. apply strip1_reach in E as (b & A & B & _). eauto.
Qed.
Lemma inv_soi n a s s' t : run g n a ESoi s = Done s' t -> s' = s /\ t = [].
Proof. destruct n as [|n]; [discriminate|]. cbn [run]. intros H. injection H as <- <-. auto. Qed.
Lemma inv_eoi n a r s s' t : run g n a (EEoi r) s = Done s' t -> s' = s /\ st_rest s = "" /\ exists u, t = [u].
Proof.
  destruct n as [|n]; [discriminate|]. cbn [run]. cbv zeta. destruct (st_rest s) eqn:E; [|discriminate].
  intros H. injection H as <- <-. eauto.
Qed.
Lemma inv_seq n a e1 e2 s s' t : run g n a (e1 ~~ e2) s = Done s' t ->
  exists m s1 t1 s2 t2 t3, n = S m /\ run g m a e1 s = Done s1 t1 /\ skip_res g m a s1 = Done s2 t2 /\
    run g m a e2 s2 = Done s' t3 /\ t = (t1 ++ t3)%list.
Proof.
  destruct n as [|n]; [discriminate|]. cbn [run]. cbv zeta. intros H.
  destruct (run g n a e1 s) as [|s1 t1|] eqn:E1; try discriminate.
  change (match a with NonAtomic => run g n Atomic (g_skip g) s1 | _ => Done s1 [] end) with (skip_res g n a s1) in H.
  destruct (skip_res g n a s1) as [|s2 t2|] eqn:E2; try discriminate.
  destruct (run g n a e2 s2) as [|s3 t3|] eqn:E3; try discriminate. injection H as <- <-.
  exists n, s1, t1, s2, t2, t3. auto.
Qed.
Lemma inv_alt n a e1 e2 s s' t : run g n a (e1 // e2) s = Done s' t ->
  exists m, n = S m /\ (run g m a e1 s = Done s' t \/ run g m a e1 s = Fail /\ run g m a e2 s = Done s' t).
Proof.
  destruct n as [|n]; [discriminate|]. cbn [run]. cbv zeta. intros H. exists n. split; [reflexivity|].
  destruct (run g n a e1 s) as [|s1 t1|] eqn:E1; try discriminate; auto.
Qed.
Lemma inv_star n a e s s' t : run g n a (EStar e) s = Done s' t ->
  exists m, n = S m /\ ((s' = s /\ t = []) \/
    exists s1 t1 t2, run g m a e s = Done s1 t1 /\ run g m a (EMore e) s1 = Done s' t2 /\ t = (t1 ++ t2)%list).
Proof.
  destruct n as [|n]; [discriminate|]. cbn [run]. cbv zeta. intros H. exists n. split; [reflexivity|].
  destruct (run g n a e s) as [|s1 t1|] eqn:E1; try discriminate.
  - injection H as <- <-. auto.
  - destruct (run g n a (EMore e) s1) as [|s2 t2|] eqn:E2; try discriminate. injection H as <- <-. right. eauto 8.
Qed.
Lemma inv_more n a e s s' t : run g n a (EMore e) s = Done s' t ->
  exists m, n = S m /\ ((s' = s /\ t = []) \/
    exists s1 u s2 t2 t3, skip_res g m a s = Done s1 u /\ run g m a e s1 = Done s2 t2 /\
      run g m a (EMore e) s2 = Done s' t3 /\ t = (t2 ++ t3)%list).
Proof.
  destruct n as [|n]; [discriminate|]. cbn [run]. cbv zeta. intros H. exists n. split; [reflexivity|].
  change (match a with NonAtomic => run g n Atomic (g_skip g) s | _ => Done s [] end) with (skip_res g n a s) in H.
  destruct (skip_res g n a s) as [|s1 u|] eqn:E1; try discriminate; [injection H as <- <-; auto|].
  destruct (run g n a e s1) as [|s2 t2|] eqn:E2; try discriminate; [injection H as <- <-; auto|].
  destruct (run g n a (EMore e) s2) as [|s3 t3|] eqn:E3; try discriminate. injection H as <- <-.
  right. exists s1, u, s2, t2, t3. auto.
Qed.
Lemma inv_opt n a e s s' t : run g n a (EOpt e) s = Done s' t ->
  exists m, n = S m /\ ((s' = s /\ t = []) \/ run g m a e s = Done s' t).
Proof.
  destruct n as [|n]; [discriminate|]. cbn [run]. cbv zeta. intros H. exists n. split; [reflexivity|].
  destruct (run g n a e s) as [|s1 t1|] eqn:E1; try discriminate; injection H as <- <-; auto.
Qed.
Lemma inv_not n a e s s' t : run g n a (ENot e) s = Done s' t ->
  s' = s /\ t = [] /\ exists m, n = S m /\ run g m a e s = Fail.
Proof.
  destruct n as [|n]; [discriminate|]. cbn [run]. cbv zeta. intros H.
  destruct (run g n a e s) as [|s1 t1|] eqn:E1; try discriminate; injection H as <- <-; eauto.
Qed.
Lemma inv_rule n a r s s' t : run g n a (ERule r) s = Done s' t ->
  exists m t', n = S m /\ run g m (mode g a r) (g_body g r) s = Done s' t' /\ t = wrap g a r s s' t'.
Proof.
  destruct n as [|n]; [discriminate|]. cbn [run]. cbv zeta. intros H. exists n. unfold mode, wrap.
  destruct (g_kind g r).
  - destruct (run g n a (g_body g r) s) as [|s1 t1|] eqn:E; try discriminate. injection H as <- <-. eauto.
  - eauto.
  - eauto.
  - destruct (run g n Atomic (g_body g r) s) as [|s1 t1|] eqn:E; try discriminate. injection H as <- <-. eauto.
  - destruct (run g n Compound (g_body g r) s) as [|s1 t1|] eqn:E; try discriminate. injection H as <- <-. eauto.
Qed.

(** The column after a match is the one of the text read. *)
Lemma run_reach n a e s s' t : run g n a e s = Done s' t -> reach s s'.
Proof.
  intros H. set (P := fun (_ : atomicity) (_ : rule) (s s' : st) (_ : list (tok rule)) => reach s s').
  assert (X : emits P a e s s' t).
  { eapply (run_emits g P); [|intros; eapply (emits_reach P)|exact H]; unfold P; auto.
    eassumption. }
  eapply (emits_reach P); [|exact X]. unfold P; auto.
Qed.

Lemma app_cancel (u w y : string) : u ++ y = w ++ y -> u = w.
Proof.
  intros H. assert (L : String.length u = String.length w).
  { apply (f_equal String.length) in H. rewrite !length_app in H. lia. }
  revert w H L. induction u as [|b u IH]; intros [|d w] H L; try discriminate; [reflexivity|].
  cbn in *. injection H as -> H. f_equal. apply IH; [exact H|lia].
Qed.

Lemma run_col n a e s s' t u : run g n a e s = Done s' t -> st_rest s = u ++ st_rest s' ->
  st_col s' = adv u (st_col s).
Proof.
  intros H E. apply run_reach in H as (w & A & B). rewrite E in A. apply app_cancel in A as ->. exact B.
Qed.
End Inversion.

Lemma adv_column x : forall c, adv x c = column_after x c.
Proof.
  induction x as [|b x IH]; intros c; cbn; [reflexivity|]. rewrite IH. f_equal. unfold adv_col, newline, is_cont, in_range.
  destruct (Ascii.eqb_spec b (ascii_of_nat 10)) as [->|N]; [reflexivity|].
  destruct (Nat.eqb_spec (nat_of_ascii b) 10) as [E|E].
  - exfalso. apply N. rewrite <- E. now rewrite ascii_nat_embedding.
  - replace (nat_of_ascii b <? 192)%nat with (nat_of_ascii b <=? 191)%nat; [reflexivity|].
    unfold Nat.ltb. reflexivity.
Qed.

Lemma eqb_in b l : existsb (Ascii.eqb b) l = true <-> In b l.
Proof.
  rewrite existsb_exists. split.
  - intros (x & I & E). apply Ascii.eqb_eq in E. now subst.
  - intros I. exists b. split; [exact I|apply Ascii.eqb_refl].
Qed.

(** ** Gaps *)

Lemma gap_app x y : gap x -> gap y -> gap (x ++ y).
Proof.
  intros H K. induction H as [|b x B H IH|u x O H IH]; cbn [append]; [exact K|now constructor|].
  rewrite !sapp_assoc. now constructor.
Qed.

Section Lexical.
Variable lang : language.
Notation g := (grammar_of lang).

Lemma ws_inv n a s s' t : run g n a (ERule WHITESPACE) s = Done s' t ->
  exists b, blank b = true /\ st_rest s = String b (st_rest s').
Proof.
  intros H. apply inv_rule in H as (m & t' & -> & H & _). rewrite (proj1 (ws_body lang)) in H. unfold e_whitespace in H.
  apply inv_alt in H as (m1 & -> & [H|(_ & H)]); [apply inv_str in H as (H & _); exists " "%char; auto|].
  apply inv_alt in H as (m2 & -> & [H|(_ & H)]); [apply inv_str in H as (H & _); exists (ascii_of_nat 9); auto|].
  apply inv_alt in H as (m3 & -> & [H|(_ & H)]); [apply inv_str in H as (H & _); exists (ascii_of_nat 13); auto|].
  apply inv_str in H as (H & _). exists (ascii_of_nat 10). auto.
Qed.

Lemma strip_prefix x : forall c y, strip x (St c y) = None -> String.prefix x y = false.
Proof.
  induction x as [|b x IH]; intros c y H; [discriminate|]. destruct y as [|d y]; [reflexivity|]. cbn in *.
  destruct (Ascii.eqb_spec b d) as [->|N].
  - apply IH in H. destruct (ascii_dec d d); [exact H|congruence].
  - destruct (ascii_dec b d); [congruence|reflexivity].
Qed.

Lemma str_fail_prefix n a x s : run g n a (EStr x) s = Fail -> String.prefix x (st_rest s) = false.
Proof.
  destruct n as [|n]; [discriminate|]. cbn [run]. unfold of_opt. destruct (strip x s) eqn:E; [discriminate|]. intros _.
  destruct s as [c y]. eapply strip_prefix, E.
Qed.

(** The inside of a comment. *)
Lemma prefix_app_long x : forall u y, String.prefix x (u ++ y) = false -> String.prefix x u = false.
Proof.
  induction x as [|b x IH]; intros u y H; [destruct u, y; discriminate|].
  destruct u as [|d u]; [reflexivity|]. cbn in *. destruct (ascii_dec b d); [eapply IH; exact H|reflexivity].
Qed.

Lemma comment_more_inv n : forall s s' t, run g n Atomic (EMore (ENot (EStr "*/") ~~ EAny)) s = Done s' t ->
  exists u, open_comment u = true /\ st_rest s = u ++ st_rest s'.
Proof.
  induction n as [n IH] using lt_wf_ind. intros s s' t H.
  apply inv_more in H as (m & -> & [(-> & _)|(s1 & u & s2 & t2 & t3 & A & B & C & _)]).
  - exists "". auto.
  - cbn in A. injection A as <- _. apply inv_seq in B as (m' & x1 & y1 & x2 & y2 & y3 & -> & B1 & B2 & B3 & _).
    apply inv_not in B1 as (-> & _ & k & -> & B1). cbn in B2. injection B2 as <- _.
    apply inv_any in B3 as (b & B3 & _). apply str_fail_prefix in B1.
    apply IH in C as (v & V & E); [|lia]. exists (String b v). rewrite B3, E in *. split; [|reflexivity].
    cbn [open_comment]. rewrite V, andb_true_r. apply negb_true_iff.
    apply (prefix_app_long "*/" (String b v) (st_rest s')). exact B1.
Qed.

Lemma comment_star_inv n s s' t : run g n Atomic (EStar (ENot (EStr "*/") ~~ EAny)) s = Done s' t ->
  exists u, open_comment u = true /\ st_rest s = u ++ st_rest s'.
Proof.
  intros H. apply inv_star in H as (m & -> & [(-> & _)|(s1 & t1 & t2 & B & C & _)]); [exists ""; auto|].
  apply inv_seq in B as (m' & x1 & y1 & x2 & y2 & y3 & -> & B1 & B2 & B3 & _).
  apply inv_not in B1 as (-> & _ & k & -> & B1). cbn in B2. injection B2 as <- _.
  apply inv_any in B3 as (b & B3 & _). apply str_fail_prefix in B1.
  apply comment_more_inv in C as (v & V & E). exists (String b v). rewrite B3, E in *. split; [|reflexivity].
  cbn [open_comment]. rewrite V, andb_true_r. apply negb_true_iff.
  apply (prefix_app_long "*/" (String b v) (st_rest s')). exact B1.
Qed.

Lemma comment_inv n a s s' t : run g n a (ERule COMMENT) s = Done s' t ->
  exists u, open_comment u = true /\ st_rest s = "/*" ++ u ++ "*/" ++ st_rest s'.
Proof.
  intros H. apply inv_rule in H as (m & t' & -> & H & _). rewrite (proj2 (ws_body lang)) in H.
  assert (M : mode g a COMMENT = Atomic) by (unfold mode; now rewrite ws_kind by auto). rewrite M in H. unfold e_comment in H.
  apply inv_seq in H as (m1 & s1 & t1 & s2 & t2 & t3 & -> & A & B & H & _). cbn in B. injection B as <- _.
  apply inv_seq in H as (m2 & s3 & t4 & s4 & t5 & t6 & -> & C & B & D & _). cbn in B. injection B as <- _.
  apply inv_str in A as (A & _), D as (D & _). apply comment_star_inv in C as (u & U & C). exists u. split; [exact U|].
  now rewrite A, C, D.
Qed.

Lemma ws_more_inv n : forall s s' t, run g n Atomic (EMore (ERule WHITESPACE)) s = Done s' t ->
  exists u, gap u /\ st_rest s = u ++ st_rest s'.
Proof.
  induction n as [n IH] using lt_wf_ind. intros s s' t H.
  apply inv_more in H as (m & -> & [(-> & _)|(s1 & u & s2 & t2 & t3 & A & B & C & _)]); [exists ""; split; [constructor|auto]|].
  cbn in A. injection A as <- _. apply ws_inv in B as (b & Hb & B). apply IH in C as (v & V & C); [|lia].
  exists (String b v). split; [now constructor|]. now rewrite B, C.
Qed.
Lemma ws_star_inv n s s' t : run g n Atomic (EStar (ERule WHITESPACE)) s = Done s' t ->
  exists u, gap u /\ st_rest s = u ++ st_rest s'.
Proof.
  intros H. apply inv_star in H as (m & -> & [(-> & _)|(s1 & t1 & t2 & B & C & _)]); [exists ""; split; [constructor|auto]|].
  apply ws_inv in B as (b & Hb & B). apply ws_more_inv in C as (v & V & C).
  exists (String b v). split; [now constructor|]. now rewrite B, C.
Qed.

Lemma comment_ws_inv n s s' t : run g n Atomic (ERule COMMENT ~~ EStar (ERule WHITESPACE)) s = Done s' t ->
  exists u, gap u /\ st_rest s = u ++ st_rest s'.
Proof.
  intros H. apply inv_seq in H as (m1 & s1 & t1 & s2 & t2 & t3 & -> & A & B & H & _). cbn in B. injection B as <- _.
  apply comment_inv in A as (u & U & A). apply ws_star_inv in H as (v & V & H).
  exists ("/*" ++ u ++ "*/" ++ v). split; [now constructor|]. rewrite A, H. now rewrite !sapp_assoc.
Qed.
Lemma comments_more_inv n : forall s s' t,
  run g n Atomic (EMore (ERule COMMENT ~~ EStar (ERule WHITESPACE))) s = Done s' t ->
  exists u, gap u /\ st_rest s = u ++ st_rest s'.
Proof.
  induction n as [n IH] using lt_wf_ind. intros s s' t H.
  apply inv_more in H as (m & -> & [(-> & _)|(s1 & u & s2 & t2 & t3 & A & B & C & _)]); [exists ""; split; [constructor|auto]|].
  cbn in A. injection A as <- _. apply comment_ws_inv in B as (w & W & B). apply IH in C as (v & V & C); [|lia].
  exists (w ++ v). split; [now apply gap_app|]. rewrite B, C. now rewrite sapp_assoc.
Qed.

(** What is skipped is a gap. *)
Lemma skip_inv n s s' t : skip_res g n NonAtomic s = Done s' t ->
  exists u, gap u /\ st_rest s = u ++ st_rest s' /\ st_col s' = adv u (st_col s).
Proof.
  intros H. cbn [skip_res] in H. pose proof (fun u => run_col _ _ _ _ _ _ _ u H) as Col. rewrite skip_is in H.
  enough (exists u, gap u /\ st_rest s = u ++ st_rest s') as (u & U & E) by eauto. unfold e_skip in H.
  apply inv_seq in H as (m1 & s1 & t1 & s2 & t2 & t3 & -> & A & B & H & _). cbn in B. injection B as <- _.
  apply ws_star_inv in A as (u & U & A).
  apply inv_star in H as (m & -> & [(-> & _)|(s3 & t4 & t5 & B & C & _)]); [eauto|].
  apply comment_ws_inv in B as (w & W & B). apply comments_more_inv in C as (v & V & C).
  exists (u ++ w ++ v). split; [auto using gap_app|]. rewrite A, B, C. now rewrite !sapp_assoc.
Qed.

(** Gaps are skipped. *)
Lemma pf_ws' x : head_not blank x = true -> PF g Atomic (ERule WHITESPACE) x.
Proof.
  intros H. apply pf_rule. unfold mode. rewrite ws_kind by auto. rewrite (proj1 (ws_body lang)).
  unfold e_whitespace. destruct x as [|b x]; [repeat apply pf_alt; apply pf_str; reflexivity|].
  cbn [head_not blank existsb] in H. rewrite !negb_orb in H. repeat (apply andb_prop in H as (? & H)).
  repeat apply pf_alt; apply pf_str, prefix_head; cbn [head_not]; rewrite Ascii.eqb_sym; assumption.
Qed.

Lemma pt_ws' b x : blank b = true -> PT g Atomic (ERule WHITESPACE) (String b x) x nil.
Proof.
  intros H. apply eqb_in in H. eapply PT_weak; [|apply pt_rule].
  - intros t (c & c' & u & Hu & ->). unfold wrap. rewrite ws_kind by auto. exact Hu.
  - unfold mode. rewrite ws_kind by auto. rewrite (proj1 (ws_body lang)). unfold e_whitespace.
    destruct H as [<-|[<-|[<-|[<-|[]]]]].
    + apply pt_left. apply (pt_str g Atomic " " x).
    + apply pt_right; [now apply pf_str|]. apply pt_left. apply (pt_str g Atomic tab_s x).
    + apply pt_right; [now apply pf_str|]. apply pt_right; [now apply pf_str|]. apply pt_left. apply (pt_str g Atomic cr_s x).
    + apply pt_right; [now apply pf_str|]. apply pt_right; [now apply pf_str|]. apply pt_right; [now apply pf_str|].
      apply (pt_str g Atomic lf_s x).
Qed.

Fixpoint blanks (x : string) : bool := match x with EmptyString => true | String b r => blank b && blanks r end.

Lemma pt_ws_more x y : blanks x = true -> head_not blank y = true ->
  PT g Atomic (EMore (ERule WHITESPACE)) (x ++ y) y nil.
Proof.
  intros H N. induction x as [|b x IH]; cbn [blanks append] in *.
  - eapply pt_more0; [now apply sk_atomic|]. now apply pf_ws'.
  - apply andb_prop in H as (Hb & H). eapply PT_weak; [|eapply pt_more1; [now apply sk_atomic|apply pt_ws'; exact Hb|now apply IH]].
    intros t (t1 & t2 & -> & -> & ->). reflexivity.
Qed.
Lemma pt_ws_star x y : blanks x = true -> head_not blank y = true ->
  PT g Atomic (EStar (ERule WHITESPACE)) (x ++ y) y nil.
Proof.
  intros H N. destruct x as [|b x]; cbn [blanks append] in *.
  - apply pt_star0. now apply pf_ws'.
  - apply andb_prop in H as (Hb & H). eapply PT_weak; [|eapply pt_star1; [apply pt_ws'; exact Hb|now apply pt_ws_more]].
    intros t (t1 & t2 & -> & -> & ->). reflexivity.
Qed.

Lemma prefix_cons a x b y : String.prefix (String a x) (String b y) = Ascii.eqb a b && String.prefix x y.
Proof.
  cbn [String.prefix]. destruct (ascii_dec a b) as [->|N]; [now rewrite Ascii.eqb_refl|].
  now rewrite (proj2 (Ascii.eqb_neq a b) N).
Qed.

Lemma prefix_nil y : String.prefix "" y = true.
Proof. now destruct y. Qed.

Lemma open_prefix u y : u <> "" -> open_comment u = true -> String.prefix "*/" (u ++ "*/" ++ y) = false.
Proof.
  destruct u as [|b u]; [congruence|]. intros _ H. cbn [open_comment] in H. apply andb_prop in H as (H & _).
  apply negb_true_iff in H. cbn [append]. rewrite prefix_cons in *. destruct (Ascii.eqb "*" b); [|reflexivity].
  cbn [andb] in *. destruct u as [|d u]; [reflexivity|]. cbn [append]. rewrite prefix_cons in *.
  destruct (Ascii.eqb "/" d); [|reflexivity]. destruct u; discriminate.
Qed.

Lemma pt_comment_step b u y : open_comment (String b u) = true ->
  PT g Atomic (ENot (EStr "*/") ~~ EAny) (String b u ++ "*/" ++ y) (u ++ "*/" ++ y) nil.
Proof.
  intros H. eapply pt_seq_l; [|now apply sk_atomic|].
  - apply pt_not, pf_str. apply open_prefix; [discriminate|exact H].
  - intros c. eexists _, []. split; [now apply Runs_any|reflexivity].
Qed.
Lemma pf_comment_step y : PF g Atomic (ENot (EStr "*/") ~~ EAny) ("*/" ++ y).
Proof. apply pf_seq1. eapply pf_not, pt_str. Qed.

Lemma pt_comment_more u y : open_comment u = true ->
  PT g Atomic (EMore (ENot (EStr "*/") ~~ EAny)) (u ++ "*/" ++ y) ("*/" ++ y) nil.
Proof.
  intros H. induction u as [|b u IH].
  - eapply pt_more0; [now apply sk_atomic|]. apply pf_comment_step.
  - eapply PT_weak; [|eapply pt_more1; [now apply sk_atomic|apply pt_comment_step; exact H|apply IH]].
    + intros t (t1 & t2 & -> & -> & ->). reflexivity.
    + cbn [open_comment] in H. now apply andb_prop in H.
Qed.
Lemma pt_comment u y : open_comment u = true ->
  PT g Atomic (ERule COMMENT) ("/*" ++ u ++ "*/" ++ y) y nil.
Proof.
  intros H. eapply PT_weak; [|apply pt_rule].
  - intros t (c & c' & v & Hu & ->). unfold wrap. rewrite ws_kind by auto. exact Hu.
  - unfold mode. rewrite ws_kind by auto. rewrite (proj2 (ws_body lang)). unfold e_comment.
    eapply pt_seq_l; [apply pt_str|now apply sk_atomic|]. eapply pt_seq_l; [|now apply sk_atomic|apply pt_str].
    destruct u as [|b u]; [apply pt_star0, pf_comment_step|].
    eapply PT_weak; [|eapply pt_star1; [apply pt_comment_step; exact H|apply pt_comment_more]].
    + intros t (t1 & t2 & -> & -> & ->). reflexivity.
    + cbn [open_comment] in H. now apply andb_prop in H.
Qed.

(** Comments, each followed by blanks. *)
Inductive remarks : string -> Prop :=
| remarks_nil : remarks ""
| remarks_cons u b x : open_comment u = true -> blanks b = true -> remarks x ->
    remarks ("/*" ++ u ++ "*/" ++ b ++ x).

Lemma gap_split x : gap x -> exists b y, x = b ++ y /\ blanks b = true /\ remarks y.
Proof.
  induction 1 as [|b x B H (c & y & -> & C & R)|u x O H (c & y & -> & C & R)].
  - exists "", "". repeat split. constructor.
  - exists (String b c), y. cbn [blanks append]. now rewrite B, C.
  - exists "", ("/*" ++ u ++ "*/" ++ c ++ y). repeat split. now constructor.
Qed.

Lemma solid_head y : solid y = true -> head_not blank y = true.
Proof.
  unfold solid, head_not. destruct y as [|b y]; [reflexivity|]. rewrite !negb_orb. intros H.
  repeat (apply andb_prop in H as (H & ?)). unfold blank, existsb. rewrite !negb_orb.
  rewrite !(Ascii.eqb_sym b). change (ascii_of_nat 32) with " "%char. repeat match goal with E : negb _ = true |- _ => try rewrite E; clear E end. reflexivity.
Qed.
Lemma remarks_head x y : remarks x -> head_not blank y = true -> head_not blank (x ++ y) = true.
Proof. intros [|u b z _ _ _] H; [exact H|reflexivity]. Qed.

Lemma pt_remark u b x y : open_comment u = true -> blanks b = true -> remarks x -> solid y = true ->
  PT g Atomic (ERule COMMENT ~~ EStar (ERule WHITESPACE)) (("/*" ++ u ++ "*/" ++ b ++ x) ++ y) (x ++ y) nil.
Proof.
  intros U B R S. rewrite !sapp_assoc. eapply pt_seq_l; [now apply pt_comment|now apply sk_atomic|].
  apply pt_ws_star; [exact B|]. apply remarks_head; [exact R|now apply solid_head].
Qed.
Lemma pt_remarks_more x y : remarks x -> solid y = true ->
  PT g Atomic (EMore (ERule COMMENT ~~ EStar (ERule WHITESPACE))) (x ++ y) y nil.
Proof.
  intros R S. induction R as [|u b x U B R IH].
  - eapply pt_more0; [now apply sk_atomic|]. apply pf_seq1. now apply pf_comment.
  - eapply PT_weak; [|eapply pt_more1; [now apply sk_atomic|now apply pt_remark|exact IH]].
    intros t (t1 & t2 & -> & -> & ->). reflexivity.
Qed.

Lemma sk_gap w y : gap w -> solid y = true -> SK g NonAtomic (w ++ y) y.
Proof.
  intros H S. apply gap_split in H as (b & x & -> & B & R). eapply sk_pt. rewrite sapp_assoc. unfold e_skip.
  eapply pt_seq_l with (Q := nil); [apply pt_ws_star; [exact B|]|now apply sk_atomic|].
  - apply remarks_head; [exact R|now apply solid_head].
  - destruct R as [|u c x U C R].
    + apply pt_star0, pf_seq1. now apply pf_comment.
    + eapply PT_weak; [|eapply pt_star1; [now apply pt_remark|now apply pt_remarks_more]].
      intros t (t1 & t2 & -> & -> & ->). reflexivity.
Qed.

(** ** Quoted names *)

Lemma char_body : g_body g char_ = e_char.
Proof. now destruct lang. Qed.
Lemma char_mode : mode g Atomic char_ = Atomic.
Proof. now destruct lang. Qed.

Lemma hex4 a b c d : is_hex a && (is_hex b && (is_hex c && (is_hex d && true))) = true <->
  forallb hexadecimal [a; b; c; d] = true.
Proof. reflexivity. Qed.

(** One character or escape. *)
Definition one_char (x : string) : Prop :=
  (exists b, x = String b "" /\ is_ordinary b = true) \/
  (exists b, x = String backslash (String b "") /\ is_escape b = true) \/
  (exists a b c d, x = String backslash (String "u" (String a (String b (String c (String d ""))))) /\
     forallb hexadecimal [a; b; c; d] = true).

Lemma one_char_quotable x y : one_char x -> quotable y -> quotable (x ++ y).
Proof.
  intros [(b & -> & B)|[(b & -> & B)|(a & b & c & d & -> & B)]] H; cbn [append].
  - now apply quotable_char.
  - now apply quotable_escape.
  - now apply quotable_unicode.
Qed.

Lemma char_inv n s s' t : run g n Atomic (ERule char_) s = Done s' t ->
  exists x, one_char x /\ st_rest s = x ++ st_rest s'.
Proof.
  intros H. apply inv_rule in H as (m & t' & -> & H & _). rewrite char_body, char_mode in H. unfold e_char in H.
  apply inv_alt in H as (m1 & -> & [H|(_ & H)]).
  - apply inv_seq in H as (m2 & s1 & t1 & s2 & t2 & t3 & -> & A & B & H & _). cbn in B. injection B as <- _.
    apply inv_not in A as (-> & _ & k & -> & A). apply inv_any in H as (b & E & _).
    exists (String b ""). split; [|exact E]. left. exists b. split; [reflexivity|].
    destruct k as [|k]; [discriminate|]. cbn [run] in A. cbv zeta in A.
    destruct (run g k Atomic (EStr quote_s) s) as [| |] eqn:E1; try discriminate.
    apply str_fail_prefix in E1, A. rewrite E in E1, A. unfold quote_s, bslash_s in *. rewrite prefix_cons, prefix_nil, andb_true_r in E1, A.
    unfold is_ordinary, backslash, existsb. rewrite !(Ascii.eqb_sym b). now rewrite E1, A.
  - apply inv_alt in H as (m2 & -> & [H|(_ & H)]).
    + apply inv_seq in H as (m3 & s1 & t1 & s2 & t2 & t3 & -> & A & B & H & _). cbn in B. injection B as <- _.
      apply inv_str in A as (A & _).
      assert (X : exists b, is_escape b = true /\ st_rest s1 = String b (st_rest s')).
      { repeat (apply inv_alt in H as (? & -> & [H|(_ & H)]); [apply inv_str in H as (H & _); eexists; split; [|exact H]; reflexivity|]).
        apply inv_str in H as (H & _). eexists; split; [|exact H]; reflexivity. }
      destruct X as (b & Hb & X). exists (String backslash (String b "")). split; [right; left; eauto|].
      rewrite A, X. reflexivity.
    + apply inv_seq in H as (m3 & s1 & t1 & s2 & t2 & t3 & -> & A & B & H & _). cbn in B. injection B as <- _.
      apply inv_str in A as (A & _).
      apply inv_seq in H as (m4 & s3 & t4 & s4 & t5 & t6 & -> & A1 & B & H & _). cbn in B. injection B as <- _.
      apply inv_seq in H as (m5 & s5 & t7 & s6 & t8 & t9 & -> & A2 & B & H & _). cbn in B. injection B as <- _.
      apply inv_seq in H as (m6 & s7 & t10 & s8 & t11 & t12 & -> & A3 & B & H & _). cbn in B. injection B as <- _.
      apply inv_seq in H as (m7 & s9 & t13 & s10 & t14 & t15 & -> & A4 & B & H & _). cbn in B. injection B as <- _.
      apply inv_str in A1 as (A1 & _). apply inv_class in A2 as (a & Ha & A2 & _). apply inv_class in A3 as (b & Hb & A3 & _).
      apply inv_class in A4 as (c & Hc & A4 & _). apply inv_class in H as (d & Hd & H & _).
      exists (String backslash (String "u" (String a (String b (String c (String d "")))))). split.
      * right. right. exists a, b, c, d. split; [reflexivity|]. apply (proj1 (hex4 a b c d)). now rewrite Ha, Hb, Hc, Hd.
      * rewrite A, A1, A2, A3, A4, H. reflexivity.
Qed.

Lemma chars_more_inv n : forall s s' t, run g n Atomic (EMore (ERule char_)) s = Done s' t ->
  exists x, quotable x /\ st_rest s = x ++ st_rest s'.
Proof.
  induction n as [n IH] using lt_wf_ind. intros s s' t H.
  apply inv_more in H as (m & -> & [(-> & _)|(s1 & u & s2 & t2 & t3 & A & B & C & _)]); [exists ""; split; [constructor|auto]|].
  cbn in A. injection A as <- _. apply char_inv in B as (w & W & B). apply IH in C as (v & V & C); [|lia].
  exists (w ++ v). split; [now apply one_char_quotable|]. rewrite B, C. now rewrite sapp_assoc.
Qed.

Lemma inner_inv n s s' t : run g n Compound (ERule inner) s = Done s' t ->
  exists x, quotable x /\ st_rest s = x ++ st_rest s' /\ t = [Tok inner (st_col s) x []].
Proof.
  intros H. apply inv_rule in H as (m & t' & -> & H & Ht).
  assert (E : mode g Compound inner = Atomic /\ g_body g inner = e_inner) by (now destruct lang).
  destruct E as (E1 & E2). rewrite E1, E2 in H. unfold e_inner in H.
  assert (X : exists x, quotable x /\ st_rest s = x ++ st_rest s').
  { apply inv_star in H as (k & -> & [(-> & _)|(s1 & t1 & t2 & B & C & _)]); [exists ""; split; [constructor|auto]|].
    apply char_inv in B as (w & W & B). apply chars_more_inv in C as (v & V & C).
    exists (w ++ v). split; [now apply one_char_quotable|]. rewrite B, C. now rewrite sapp_assoc. }
  destruct X as (x & Q & X). exists x. split; [exact Q|]. split; [exact X|].
  assert (T : t' = []).
  { apply (run_emits g (post lang) (post_reach lang) (body_ok lang)) in H. now apply quiet_emits in H. }
  subst t' t. assert (W : wrap g Compound inner s s' [] = [Tok inner (st_col s) (between s s') []]) by (now destruct lang).
  rewrite W. unfold between. rewrite X, length_app.
  replace (String.length x + String.length (st_rest s') - String.length (st_rest s'))%nat with (String.length x) by lia.
  now rewrite substring_head.
Qed.

(** A quoted name as it is matched. *)
Lemma string_inv n s s' t : run g n NonAtomic (ERule string_) s = Done s' t ->
  exists x y, quotable x /\ st_rest s = dquote ++ x ++ dquote ++ st_rest s' /\
    t = [Tok string_ (st_col s) y [Tok inner (S (st_col s)) x []]].
Proof.
  intros H. apply inv_rule in H as (m & t' & -> & H & Ht).
  assert (E : mode g NonAtomic string_ = Compound) by (now destruct lang). rewrite E in H. clear E.
  assert (Q : forall k u u' v, run g k Compound (if match lang with JsonPolicy => true | _ => false end then ERule QUOTE else EStr quote_s) u = Done u' v ->
              st_rest u = dquote ++ st_rest u' /\ v = []).
  { intros k u u' v Hu. destruct lang; cbn in Hu.
    - apply inv_rule in Hu as (k' & v' & -> & Hu & ->). apply inv_str in Hu as (A & ->). auto.
    - apply inv_str in Hu as (A & ->). auto. }
  assert (B : exists q, g_body g string_ = q ~~ ERule inner ~~ q /\ forall k u u' v, run g k Compound q u = Done u' v ->
              st_rest u = dquote ++ st_rest u' /\ v = []).
  { destruct lang; eexists; (split; [reflexivity|exact Q]). }
  clear Q. destruct B as (q & B & Q). rewrite B in H.
  apply inv_seq in H as (m1 & s1 & t1 & s2 & t2 & t3 & -> & A & E & H & ->). cbn in E. injection E as <- _.
  apply inv_seq in H as (m2 & s3 & t4 & s4 & t5 & t6 & -> & C & E & D & ->). cbn in E. injection E as <- _.
  pose proof (run_col _ _ _ _ _ _ _ dquote A (proj1 (Q _ _ _ _ A))) as Col.
  apply Q in A as (A & ->), D as (D & ->). apply inner_inv in C as (x & X & C & ->).
  exists x, (between s s'). split; [exact X|]. split; [now rewrite A, C, D|]. subst t.
  rewrite Col. now destruct lang.
Qed.

(** A quoted name is matched. *)
Lemma ordinary_is b : ordinary b = is_ordinary b.
Proof.
  unfold ordinary, is_ordinary, backslash, existsb. rewrite !(Ascii.eqb_sym b).
  now rewrite orb_false_r, negb_orb.
Qed.

Lemma pt_escape b y : is_escape b = true -> PT g Atomic (ERule char_) (String backslash (String b y)) y nil.
Proof.
  intros H. eapply PT_weak; [|apply (pt_rule g Atomic char_ _ _ nil)].
  - intros t (c & c' & u & Hu & ->). now destruct lang.
  - rewrite char_body, char_mode. unfold e_char. apply pt_right; [|apply pt_left].
    + apply pf_seq1. eapply pf_not. apply pt_right; [now apply pf_str|]. apply (pt_str g Atomic bslash_s).
    + eapply (pt_seq_l g Atomic _ _ _ (String b y)); [apply (pt_str g Atomic bslash_s)|now apply sk_atomic|].
      apply eqb_in in H.
      repeat (destruct H as [<-|H]; [repeat (apply pt_right; [now apply pf_str|]); try apply pt_left; match goal with |- PT _ _ (EStr ?z) _ _ _ => apply (pt_str g Atomic z) end|]).
      destruct H.
Qed.

Lemma pt_unicode a b c d y : forallb hexadecimal [a; b; c; d] = true ->
  PT g Atomic (ERule char_) (String backslash (String "u" (String a (String b (String c (String d y)))))) y nil.
Proof.
  intros H. apply (proj2 (hex4 a b c d)) in H. repeat (apply andb_prop in H as (? & H)).
  eapply PT_weak; [|apply (pt_rule g Atomic char_ _ _ nil)].
  - intros t (e & c' & u & Hu & ->). now destruct lang.
  - rewrite char_body, char_mode. unfold e_char. apply pt_right; [|apply pt_right].
    + apply pf_seq1. eapply pf_not. apply pt_right; [now apply pf_str|]. apply (pt_str g Atomic bslash_s).
    + eapply (pf_seq2 g Atomic _ _ _ (String "u" _)); [apply (pt_str g Atomic bslash_s)|now apply sk_atomic|].
      repeat apply pf_alt; now apply pf_str.
    + eapply (pt_seq_l g Atomic _ _ _ (String "u" _)); [apply (pt_str g Atomic bslash_s)|now apply sk_atomic|].
      eapply (pt_seq_l g Atomic); [apply (pt_str g Atomic "u")|now apply sk_atomic|].
      eapply (pt_seq_l g Atomic); [now apply pt_class|now apply sk_atomic|].
      eapply (pt_seq_l g Atomic); [now apply pt_class|now apply sk_atomic|].
      eapply (pt_seq_l g Atomic); [now apply pt_class|now apply sk_atomic|]. now apply pt_class.
Qed.

Lemma pt_chars_more x y : quotable x ->
  PT g Atomic (EMore (ERule char_)) (x ++ dquote ++ y) (dquote ++ y) nil.
Proof.
  induction 1 as [|b x B H IH|b x B H IH|a b c d x B H IH].
  - eapply pt_more0; [now apply sk_atomic|]. apply pf_char.
  - eapply PT_weak; [|eapply pt_more1; [now apply sk_atomic|apply pt_char; rewrite ordinary_is; exact B|exact IH]].
    intros t (t1 & t2 & -> & -> & ->). reflexivity.
  - eapply PT_weak; [|eapply pt_more1; [now apply sk_atomic|apply pt_escape; exact B|exact IH]].
    intros t (t1 & t2 & -> & -> & ->). reflexivity.
  - eapply PT_weak; [|eapply pt_more1; [now apply sk_atomic|apply pt_unicode; exact B|exact IH]].
    intros t (t1 & t2 & -> & -> & ->). reflexivity.
Qed.
Lemma pt_chars x y : quotable x -> PT g Atomic (EStar (ERule char_)) (x ++ dquote ++ y) (dquote ++ y) nil.
Proof.
  intros [|b z B H|b z B H|a b c d z B H].
  - apply pt_star0, pf_char.
  - eapply PT_weak; [|eapply pt_star1; [apply pt_char; rewrite ordinary_is; exact B|now apply pt_chars_more]].
    intros t (t1 & t2 & -> & -> & ->). reflexivity.
  - eapply PT_weak; [|eapply pt_star1; [apply pt_escape; exact B|now apply pt_chars_more]].
    intros t (t1 & t2 & -> & -> & ->). reflexivity.
  - eapply PT_weak; [|eapply pt_star1; [apply pt_unicode; exact B|now apply pt_chars_more]].
    intros t (t1 & t2 & -> & -> & ->). reflexivity.
Qed.
Lemma pt_name x y : quotable x ->
  PT g NonAtomic (ERule string_) (dquote ++ x ++ dquote ++ y) y (fun ts => True).
Proof.
  intros H. eapply PT_weak; [|apply (pt_rule g NonAtomic string_ _ _ (fun ts => True))]; [auto|].
  assert (E : mode g NonAtomic string_ = Compound) by (now destruct lang). rewrite E. clear E.
  assert (Hi : PT g Compound (ERule inner) (x ++ dquote ++ y) (dquote ++ y) (fun _ => True)).
  { eapply PT_weak; [|apply (pt_rule g Compound inner _ _ nil)]; [auto|].
    assert (E : mode g Compound inner = Atomic /\ g_body g inner = e_inner) by (now destruct lang).
    destruct E as (-> & ->). now apply pt_chars. }
  assert (X : forall (P : toks), PT g Compound (ERule inner) (x ++ dquote ++ y) (dquote ++ y) P ->
     PT g Compound (g_body g string_) (dquote ++ x ++ dquote ++ y) y P).
  { intros P HP. pose proof (pt_quote lang Compound) as Hq.
    destruct lang; cbn [g_body grammar_of json human json_body human_body] in *.
    + eapply pt_seq_l; [apply Hq|now apply sk_atomic|].
      eapply pt_seq_r; [exact HP|now apply sk_atomic|apply Hq].
    + eapply pt_seq_l; [apply pt_str|now apply sk_atomic|].
      eapply pt_seq_r; [exact HP|now apply sk_atomic|apply pt_str]. }
  now apply X.
Qed.

(** ** Numbers *)

Lemma decimal_is x : decimal x = all_digits x.
Proof. induction x as [|b x IH]; [reflexivity|]. cbn [decimal all_digits]. now rewrite IH. Qed.

Lemma numeral_is x : numeral x <-> number_text x.
Proof.
  unfold numeral, number_text, sign_text, int_text, frac_text, exp_text.
  setoid_rewrite decimal_is. cbn [all_digits].
  split; intros (s & i & f & e & E & Hs & Hi & Hf & He); exists s, i, f, e.
  - repeat (split; [assumption|]). destruct He as [->|(a & b & c & d & -> & A & B & C & D)]; [now left|].
    right. exists a, b, c, d. now rewrite C, D.
  - repeat (split; [assumption|]). destruct He as [->|(a & b & c & d & -> & A & B & C)]; [now left|].
    apply andb_prop in C as (C & D). right. exists a, b, c, d. auto.
Qed.

Lemma digits_more_inv n : forall s s' t, run g n Atomic (EMore (EClass is_digit)) s = Done s' t ->
  exists x, all_digits x = true /\ st_rest s = x ++ st_rest s'.
Proof.
  induction n as [n IH] using lt_wf_ind. intros s s' t H.
  apply inv_more in H as (m & -> & [(-> & _)|(s1 & u & s2 & t2 & t3 & A & B & C & _)]); [exists ""; auto|].
  cbn in A. injection A as <- _. apply inv_class in B as (b & Hb & B & _). apply IH in C as (v & V & C); [|lia].
  exists (String b v). cbn [all_digits]. rewrite Hb, V, B, C. auto.
Qed.
Lemma digits_inv n s s' t : run g n Atomic (EStar (EClass is_digit)) s = Done s' t ->
  exists x, all_digits x = true /\ st_rest s = x ++ st_rest s'.
Proof.
  intros H. apply inv_star in H as (m & -> & [(-> & _)|(s1 & t1 & t2 & B & C & _)]); [exists ""; auto|].
  apply inv_class in B as (b & Hb & B & _). apply digits_more_inv in C as (v & V & C).
  exists (String b v). cbn [all_digits]. rewrite Hb, V, B, C. auto.
Qed.

Lemma upper_e b : Ascii.eqb (upper1 b) (upper1 "e"%char) = true -> b = "e"%char \/ b = "E"%char.
Proof.
  intros H. apply Ascii.eqb_eq in H. unfold upper1 in H. change (upper1 "e"%char) with "E"%char in H.
  destruct ((97 <=? nat_of_ascii b) && (nat_of_ascii b <=? 122))%nat eqn:E.
  - left. apply andb_prop in E as (E1 & E2). apply Nat.leb_le in E1, E2.
    apply (f_equal nat_of_ascii) in H. rewrite nat_ascii_embedding in H by lia.
    change (nat_of_ascii _) with 69%nat in H at 2. rewrite <- (ascii_nat_embedding b).
    replace (nat_of_ascii b) with 101%nat by lia. reflexivity.
  - right. exact H.
Qed.

Lemma number_inv n s s' t : run g n Atomic e_number s = Done s' t ->
  exists x, number_text x /\ st_rest s = x ++ st_rest s' /\ t = [].
Proof.
  intros H. assert (T : t = []).
  { apply (run_emits g (post lang) (post_reach lang) (body_ok lang)) in H. now apply quiet_emits in H. }
  enough (exists x, numeral x /\ st_rest s = x ++ st_rest s') as (x & X & E).
  { exists x. now rewrite <- numeral_is. }
  unfold e_number in H.
  apply inv_seq in H as (m1 & s1 & t1 & s2 & t2 & t3 & -> & A & E & H & _). cbn in E. injection E as <- _.
  apply inv_seq in H as (m2 & s3 & t4 & s4 & t5 & t6 & -> & B & E & H & _). cbn in E. injection E as <- _.
  apply inv_seq in H as (m3 & s5 & t7 & s6 & t8 & t9 & -> & C & E & D & _). cbn in E. injection E as <- _.
  assert (A' : exists x, sign_text x /\ st_rest s = x ++ st_rest s1).
  { apply inv_opt in A as (k & _ & [(-> & _)|A]); [exists ""; split; [now left|auto]|].
    apply inv_str in A as (A & _). exists "-". split; [now right|exact A]. }
  assert (B' : exists x, int_text x /\ st_rest s1 = x ++ st_rest s3).
  { apply inv_alt in B as (k & _ & [B|(_ & B)]).
    - apply inv_str in B as (B & _). exists "0". split; [now left|exact B].
    - apply inv_seq in B as (k1 & u1 & v1 & u2 & v2 & v3 & -> & B1 & E & B2 & _). cbn in E. injection E as <- _.
      apply inv_class in B1 as (b & Hb & B1 & _). apply digits_inv in B2 as (r & Hr & B2).
      exists (String b r). split; [right; eauto|]. now rewrite B1, B2. }
  assert (C' : exists x, frac_text x /\ st_rest s3 = x ++ st_rest s5).
  { apply inv_opt in C as (k & _ & [(-> & _)|C]); [exists ""; split; [now left|auto]|].
    apply inv_seq in C as (k1 & u1 & v1 & u2 & v2 & v3 & -> & C1 & E & C2 & _). cbn in E. injection E as <- _.
    apply inv_str in C1 as (C1 & _). apply digits_inv in C2 as (r & Hr & C2).
    exists ("." ++ r). split; [right; eauto|]. now rewrite C1, C2. }
  assert (D' : exists x, exp_text x /\ st_rest s5 = x ++ st_rest s').
  { apply inv_opt in D as (k & _ & [(-> & _)|D]); [exists ""; split; [now left|auto]|].
    apply inv_seq in D as (k1 & u1 & v1 & u2 & v2 & v3 & -> & D1 & E & D & _). cbn in E. injection E as <- _.
    apply inv_seq in D as (k2 & u3 & v4 & u4 & v5 & v6 & -> & D2 & E & D & _). cbn in E. injection E as <- _.
    unfold EPlus in D. apply inv_seq in D as (k3 & u5 & v7 & u6 & v8 & v9 & -> & D3 & E & D & _). cbn in E. injection E as <- _.
    apply inv_stri in D1 as (e & He & D1 & _). apply inv_class in D3 as (b & Hb & D3 & _). apply digits_inv in D as (r & Hr & D).
    assert (D2' : exists x, (x = "" \/ x = "+" \/ x = "-") /\ st_rest u1 = x ++ st_rest u3).
    { apply inv_opt in D2 as (k & _ & [(-> & _)|D2]); [exists ""; auto|].
      apply inv_alt in D2 as (k4 & -> & [D2|(_ & D2)]); apply inv_str in D2 as (D2 & _); [exists "+"|exists "-"]; auto. }
    destruct D2' as (x & Hx & D2'). exists (String e (x ++ String b r)). split.
    - right. exists e, x, b, r. split; [reflexivity|]. split; [now apply upper_e|auto].
    - rewrite D1, D2', D3, D. cbn [append]. now rewrite sapp_assoc. }
  destruct A' as (x1 & X1 & ->), B' as (x2 & X2 & ->), C' as (x3 & X3 & ->), D' as (x4 & X4 & ->).
  exists (x1 ++ x2 ++ x3 ++ x4). split; [exists x1, x2, x3, x4; auto|]. now rewrite !sapp_assoc.
Qed.

Lemma number_tok n s s' t : run g n NonAtomic (ERule number) s = Done s' t ->
  exists x y, number_text x /\ st_rest s = x ++ st_rest s' /\ t = [Tok number (st_col s) y []].
Proof.
  intros H. apply inv_rule in H as (m & t' & -> & H & ->).
  assert (E : mode g NonAtomic number = Atomic /\ g_body g number = e_number) by (now destruct lang).
  destruct E as (E1 & E2). rewrite E1, E2 in H. apply number_inv in H as (x & X & H & ->).
  exists x, (between s s'). split; [exact X|]. split; [exact H|]. now destruct lang.
Qed.

(** ** Keywords *)

(** A choice between literal words. *)
Fixpoint choice (w : string) (l : list string) : expr rule :=
  match l with
  | [] => EStr w
  | v :: l => EStr w // choice v l
  end.

Lemma choice_inv l : forall w n a s s' t, run g n a (choice w l) s = Done s' t ->
  exists v, In v (w :: l) /\ st_rest s = v ++ st_rest s' /\ t = [].
Proof.
  induction l as [|v l IH]; cbn [choice]; intros w n a s s' t H.
  - apply inv_str in H as (H & ->). exists w. repeat split; auto. now left.
  - apply inv_alt in H as (m & -> & [H|(_ & H)]).
    + apply inv_str in H as (H & ->). exists w. repeat split; auto. now left.
    + apply IH in H as (x & I & H & ->). exists x. repeat split; auto. now right.
Qed.

(** The words exclude each other: two of them differ before either ends. *)
Fixpoint differ (w v : string) : bool :=
  match w, v with
  | String a x, String b y => negb (Ascii.eqb a b) || differ x y
  | _, _ => false
  end.
Fixpoint exclusive (l : list string) : bool :=
  match l with
  | [] => true
  | w :: l => forallb (differ w) l && exclusive l
  end.

Lemma differ_prefix w : forall v y, differ w v = true -> String.prefix w (v ++ y) = false.
Proof.
  induction w as [|a w IH]; intros v y H; [discriminate|]. destruct v as [|b v]; [discriminate|].
  cbn [differ append] in *. rewrite prefix_cons. destruct (Ascii.eqb a b); [|reflexivity]. cbn in *. now apply IH.
Qed.
Lemma differ_sym w : forall v, differ w v = differ v w.
Proof. induction w as [|a w IH]; intros [|b v]; try reflexivity. cbn. now rewrite Ascii.eqb_sym, IH. Qed.

Lemma pt_choice l a y : forall w v, exclusive (w :: l) = true -> In v (w :: l) -> PT g a (choice w l) (v ++ y) y nil.
Proof.
  induction l as [|u l IH]; intros w v E I.
  - destruct I as [->|[]]. apply pt_str.
  - cbn [choice]. destruct I as [->|I]; [apply pt_left, pt_str|].
    cbn [exclusive] in E. apply andb_prop in E as (D & E). apply pt_right; [|now apply IH].
    apply pf_str, differ_prefix. rewrite forallb_forall in D. now apply D.
Qed.

Lemma pf_choice l a y : forall w, forallb (fun v => negb (String.prefix v y)) (w :: l) = true -> PF g a (choice w l) y.
Proof.
  induction l as [|u l IH]; intros w E; cbn [forallb] in E; apply andb_prop in E as (D & E); apply negb_true_iff in D.
  - now apply pf_str.
  - cbn [choice]. apply pf_alt; [now apply pf_str|]. apply IH. exact E.
Qed.

(** A keyword, bare or quoted. *)
Definition e_keyword (body : expr rule) : expr rule := body // ERule QUOTE ~~ body ~~ ERule QUOTE.

Lemma quote_inv n a s s' t : run g n a (ERule QUOTE) s = Done s' t -> st_rest s = dquote ++ st_rest s' /\ t = [].
Proof.
  intros H. apply inv_rule in H as (m & t' & -> & H & ->).
  replace (g_body g QUOTE) with (EStr (R := rule) quote_s) in H by (now destruct lang).
  apply inv_str in H as (H & ->). split; [exact H|now destruct lang].
Qed.

Lemma keyword_inv body words n s s' t :
  (forall n s s' t, run g n NonAtomic body s = Done s' t -> exists v, In v words /\ st_rest s = v ++ st_rest s' /\ t = []) ->
  run g n NonAtomic (e_keyword body) s = Done s' t ->
  exists x, spelled words x /\ st_rest s = x ++ st_rest s' /\ t = [].
Proof.
  intros HB H. apply inv_alt in H as (m & -> & [H|(_ & H)]).
  - apply HB in H as (v & I & H & ->). exists v. split; [now constructor|auto].
  - apply inv_seq in H as (m1 & s1 & t1 & s2 & t2 & t3 & -> & A & E1 & H & ->).
    apply inv_seq in H as (m2 & s3 & t4 & s4 & t5 & t6 & -> & B & E2 & C & ->).
    apply quote_inv in A as (A & ->), C as (C & ->). apply skip_inv in E1 as (g1 & G1 & E1 & _), E2 as (g2 & G2 & E2 & _).
    apply HB in B as (v & I & B & ->). exists (dquote ++ g1 ++ v ++ g2 ++ dquote). split; [now apply spelled_quoted|].
    split; [|reflexivity]. rewrite A, E1, B, E2, C. now rewrite !sapp_assoc.
Qed.

Lemma pt_keyword body words x y :
  (forall v z, In v words -> PT g NonAtomic body (v ++ z) z nil) ->
  (forall z, PF g NonAtomic body (dquote ++ z)) ->
  (forall v z, In v words -> solid (v ++ z) = true) ->
  spelled words x -> PT g NonAtomic (e_keyword body) (x ++ y) y nil.
Proof.
  intros HB HQ HS [v I|v g1 g2 I G1 G2].
  - apply pt_left. now apply HB.
  - apply pt_right.
    + rewrite !sapp_assoc. apply HQ.
    + rewrite !sapp_assoc. eapply pt_seq_l; [apply (pt_quote lang)|apply (sk_gap g1); [exact G1|now apply HS]|].
      eapply pt_seq_l; [now apply HB|apply (sk_gap g2); [exact G2|reflexivity]|]. apply (pt_quote lang).
Qed.

(** Another keyword, or no keyword at all. *)
Lemma pf_keyword body words x y :
  (forall v z, In v words -> PF g NonAtomic body (v ++ z)) ->
  (forall z, PF g NonAtomic body (dquote ++ z)) ->
  (forall v z, In v words -> solid (v ++ z) = true /\ String.prefix dquote (v ++ z) = false) ->
  spelled words x -> PF g NonAtomic (e_keyword body) (x ++ y).
Proof.
  intros HB HQ HS [v I|v g1 g2 I G1 G2].
  - apply pf_alt; [now apply HB|]. apply pf_seq1, pf_quote. now apply HS.
  - rewrite !sapp_assoc. apply pf_alt; [apply HQ|].
    eapply pf_seq2; [apply (pt_quote lang)|apply (sk_gap g1); [exact G1|now apply HS]|]. apply pf_seq1. now apply HB.
Qed.

Lemma op_choice (t : bool) : g_body g (if t then andvalue else orvalue) =
    (if t then choice "and" ["AND"; "&&"] else choice "or" ["OR"; "||"]) /\
  g_body g (op_rule t) = e_keyword (ERule (if t then andvalue else orvalue)).
Proof. destruct t; now destruct lang. Qed.

Lemma op_value_inv (t : bool) n s s' ts :
  run g n NonAtomic (ERule (if t then andvalue else orvalue)) s = Done s' ts ->
  exists v, In v (op_words t) /\ st_rest s = v ++ st_rest s' /\ ts = [].
Proof.
  intros H. apply inv_rule in H as (m & t' & -> & H & ->). destruct (op_choice t) as (B & _). rewrite B in H.
  assert (X : exists v, In v (op_words t) /\ st_rest s = v ++ st_rest s' /\ t' = []).
  { destruct t; now apply choice_inv in H. }
  destruct X as (v & I & E & ->). exists v. repeat split; auto. destruct t; now destruct lang.
Qed.

Lemma op_inv t n s s' ts : run g n NonAtomic (ERule (op_rule t)) s = Done s' ts ->
  exists x, spelled (op_words t) x /\ st_rest s = x ++ st_rest s' /\ ts = [].
Proof.
  intros H. apply inv_rule in H as (m & t' & -> & H & ->). destruct (op_choice t) as (_ & B). rewrite B in H.
  replace (mode g NonAtomic (op_rule t)) with NonAtomic in H by (destruct t; now destruct lang).
  apply (keyword_inv _ _ _ _ _ _ (op_value_inv t)) in H as (x & X & E & ->). exists x. repeat split; auto.
  destruct t; now destruct lang.
Qed.

Lemma op_words_solid t v (z : string) : In v (op_words t) -> solid (v ++ z) = true /\ String.prefix dquote (v ++ z) = false.
Proof. destruct t; cbn [op_words In]; intros [<-|[<-|[<-|[]]]]; auto. Qed.

Lemma op_words_exclusive t : exclusive (op_words t) = true.
Proof. now destruct t. Qed.

Lemma pt_value' (t : bool) v z : In v (op_words t) -> PT g NonAtomic (ERule (if t then andvalue else orvalue)) (v ++ z) z nil.
Proof.
  intros I. apply pt_silent; [destruct t; now destruct lang|]. destruct (op_choice t) as (B & _). rewrite B.
  destruct t; now apply pt_choice.
Qed.
Lemma pf_value_quote (t : bool) z : PF g NonAtomic (ERule (if t then andvalue else orvalue)) (dquote ++ z).
Proof.
  apply pf_rule. destruct (op_choice t) as (B & _). rewrite B. destruct t; now apply pf_choice.
Qed.
Lemma pf_value_other (t : bool) v z : In v (op_words (negb t)) -> PF g NonAtomic (ERule (if t then andvalue else orvalue)) (v ++ z).
Proof.
  intros I. apply pf_rule. destruct (op_choice t) as (B & _). rewrite B.
  destruct t; cbn [op_words In negb] in I; destruct I as [<-|[<-|[<-|[]]]]; now apply pf_choice.
Qed.

Lemma pt_op' t x y : spelled (op_words t) x -> PT g NonAtomic (ERule (op_rule t)) (x ++ y) y nil.
Proof.
  intros H. apply pt_silent; [destruct t; now destruct lang|]. destruct (op_choice t) as (_ & B). rewrite B.
  eapply pt_keyword with (words := op_words t); [intros; now apply pt_value'|apply pf_value_quote|intros; now apply (op_words_solid t)|exact H].
Qed.
Lemma pf_op' t x y : spelled (op_words (negb t)) x -> PF g NonAtomic (ERule (op_rule t)) (x ++ y).
Proof.
  intros H. apply pf_rule. destruct (op_choice t) as (_ & B). rewrite B.
  replace (mode g NonAtomic (op_rule t)) with NonAtomic by (destruct t; now destruct lang).
  eapply pf_keyword with (words := op_words (negb t)); [intros; now apply (pf_value_other t)|apply pf_value_quote|intros; now apply (op_words_solid (negb t))|exact H].
Qed.

Lemma spelled_solid t x (y : string) : spelled (op_words t) x -> solid (x ++ y) = true.
Proof. intros [v I|v g1 g2 I G1 G2]; [now apply (op_words_solid t)|reflexivity]. Qed.

(** ** Matches with columns *)

Lemma column_app x : forall y c, column_after (x ++ y) c = column_after y (column_after x c).
Proof. intros y c. rewrite <- !adv_column. apply adv_app. Qed.

(** From every column, [e] reads the text [u] in front of [y] and emits tokens in [T]. *)
Definition RD (a : atomicity) (e : expr rule) (u y : string) (T : nat -> toks) : Prop :=
  forall c, exists ts, Runs g a e (St c (u ++ y)) (Done (St (column_after u c) y) ts) /\ T c ts.

Lemma Runs_col a e c u y c' ts : Runs g a e (St c (u ++ y)) (Done (St c' y) ts) -> c' = column_after u c.
Proof. intros (_ & n & H). apply (run_col _ _ _ _ _ _ _ u) in H; [|reflexivity]. now rewrite <- adv_column. Qed.

Lemma rd_pt a e u y Q : PT g a e (u ++ y) y Q -> RD a e u y (fun _ => Q).
Proof. intros H c. destruct (H c) as (c' & ts & R & q). pose proof (Runs_col _ _ _ _ _ _ _ R) as ->. eauto. Qed.
Lemma pt_rd a e u y T : RD a e u y T -> PT g a e (u ++ y) y (fun _ => True).
Proof. intros H c. destruct (H c) as (ts & R & _). eauto. Qed.
Lemma rd_weak a e u y (T T' : nat -> toks) : (forall c ts, T c ts -> T' c ts) -> RD a e u y T -> RD a e u y T'.
Proof. intros I H c. destruct (H c) as (ts & R & q). eauto. Qed.

Lemma skips_gap w y c : gap w -> solid y = true -> skips g NonAtomic (St c (w ++ y)) (St (column_after w c) y).
Proof.
  intros G S. destruct (sk_gap w y G S c) as (c' & t & H). exists t.
  replace (column_after w c) with c'; [exact H|]. eapply Runs_col, H.
Qed.

Lemma rd_seq e1 e2 u w v y T1 T2 : RD NonAtomic e1 u (w ++ v ++ y) T1 -> gap w -> solid (v ++ y) = true ->
  RD NonAtomic e2 v y T2 ->
  RD NonAtomic (e1 ~~ e2) (u ++ w ++ v) y (fun c => cat (T1 c) (T2 (column_after (u ++ w) c))).
Proof.
  intros H1 G S H2 c. destruct (H1 c) as (t1 & R1 & Q1).
  destruct (H2 (column_after (u ++ w) c)) as (t2 & R2 & Q2). exists (t1 ++ t2)%list. split; [|exists t1, t2; auto].
  rewrite !sapp_assoc. rewrite !column_app in *. eapply Runs_seq; [exact R1|now apply skips_gap|exact R2].
Qed.
Lemma rd_left a e1 e2 u y T : RD a e1 u y T -> RD a (e1 // e2) u y T.
Proof. intros H c. destruct (H c) as (ts & R & q). exists ts. split; [now apply Runs_left|exact q]. Qed.
Lemma rd_right a e1 e2 u y T : PF g a e1 (u ++ y) -> RD a e2 u y T -> RD a (e1 // e2) u y T.
Proof. intros F H c. destruct (H c) as (ts & R & q). exists ts. split; [apply Runs_right; [apply F|exact R]|exact q]. Qed.
Lemma rd_silent a r u y T : g_kind g r = KSilent -> RD a (g_body g r) u y T -> RD a (ERule r) u y T.
Proof.
  intros K H c. destruct (H c) as (ts & R & q). exists ts. split; [|exact q].
  pose proof (Runs_rule g a r (St c (u ++ y)) (St (column_after u c) y) ts) as X. unfold mode, wrap in X. rewrite K in X. auto.
Qed.

End Lexical.
Arguments rd_pt {lang}. Arguments pt_rd {lang}. Arguments rd_weak {lang}. Arguments skips_gap {lang}.
Arguments rd_seq {lang}. Arguments rd_left {lang}. Arguments rd_right {lang}. Arguments rd_silent {lang}.
Arguments Runs_col {lang}.
