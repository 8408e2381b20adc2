(** * LayoutProofs: the parser of the human language reads exactly the texts of
    Layout.v, each with its meaning *)
From Coq Require Import String Ascii List Bool Arith Lia.
From Verif Require Import Base Policy Spec Peg Grammar Parse PegProofs ParseProofs ParseText ParseHuman Layout LexProofs.
Import ListNotations.
Local Open Scope string_scope.

(** What [build] makes of the tokens. *)
Definition val (c : nat) (w : written) : outcome pvalue :=
  if without_numbers w then Ok (tree (meaning c w)) else Panic.
Definition vals (c : nat) (r : links) : outcome (list pvalue) :=
  if without_numbers_links r then Ok (map tree (meaning_links c r)) else Panic.

Definition kind_of (t : bool) : ptype := if t then And else Or.

Lemma build_junction t c x ts : build (Tok (kids_rule t) c x ts) =
  obind (build_all ts) (fun vs => Ok (PObj (kind_of t) (PArr vs))).
Proof. now destruct t. Qed.

Lemma build_all_cons k ts : build_all (k :: ts) = obind (build k) (fun v => obind (build_all ts) (fun vs => Ok (v :: vs))).
Proof. reflexivity. Qed.

Lemma tree_junction t l : tree (junction t l) = PObj (kind_of t) (PArr (map tree l)).
Proof. now destruct t. Qed.

Lemma build_chain t c c' x k ts w r : build k = val c w -> build_all ts = vals (column_after (show w) c) r ->
  build (Tok (kids_rule t) c' x (k :: ts)) = val c (WChain t w r).
Proof.
  intros B Bs. rewrite build_junction, build_all_cons, B, Bs. unfold val, vals. cbn [without_numbers meaning].
  rewrite tree_junction. destruct (without_numbers w); [|reflexivity]. now destruct (without_numbers_links r).
Qed.
Lemma build_links c g op h k ts w r : build k = val (column_after (g ++ op ++ h) c) w ->
  build_all ts = vals (column_after (show w) (column_after (g ++ op ++ h) c)) r ->
  build_all (k :: ts) = vals c (LCons g op h w r).
Proof.
  intros B Bs. rewrite build_all_cons, B, Bs. unfold val, vals. cbn [without_numbers_links meaning_links].
  destruct (without_numbers w); [|reflexivity]. now destruct (without_numbers_links r).
Qed.

(** ** Every accepted text is a written policy *)

Definition term_res (s s' : st) (ts : list (tok rule)) : Prop :=
  exists w k, wellformed w /\ is_chain w = false /\ st_rest s = show w ++ st_rest s' /\
    ts = [k] /\ build k = val (st_col s) w.
Definition node_res (s s' : st) (ts : list (tok rule)) : Prop :=
  exists w h k, wellformed w /\ gap h /\ st_rest s = show w ++ h ++ st_rest s' /\
    ts = [k] /\ build k = val (st_col s) w.

Lemma open_inv n a s s' t : run human n a (ERule BRACEOPEN) s = Done s' t ->
  exists b, opening b = true /\ st_rest s = String b (st_rest s') /\ t = [].
Proof.
  intros H. apply inv_rule in H as (m & t' & -> & H & ->).
  apply (choice_inv HumanPolicy ["["; "{"] "(") in H as (v & I & E & ->).
  destruct I as [<-|[<-|[<-|[]]]]; cbn [append] in E; eexists; (split; [|split; [exact E|reflexivity]]); reflexivity.
Qed.
Lemma close_inv n a s s' t : run human n a (ERule BRACECLOSE) s = Done s' t ->
  exists b, closing b = true /\ st_rest s = String b (st_rest s') /\ t = [].
Proof.
  intros H. apply inv_rule in H as (m & t' & -> & H & ->).
  apply (choice_inv HumanPolicy ["]"; "}"] ")") in H as (v & I & E & ->).
  destruct I as [<-|[<-|[<-|[]]]]; cbn [append] in E; eexists; (split; [|split; [exact E|reflexivity]]); reflexivity.
Qed.

Lemma group_res n (e1 e2 : expr rule) s s' t :
  (forall m s s' t, m < n -> run human m NonAtomic (ERule node) s = Done s' t -> node_res s s' t)%nat ->
  (forall m s s' t, run human m NonAtomic e1 s = Done s' t -> exists b, opening b = true /\ st_rest s = String b (st_rest s') /\ t = []) ->
  (forall m s s' t, run human m NonAtomic e2 s = Done s' t -> exists b, closing b = true /\ st_rest s = String b (st_rest s') /\ t = []) ->
  run human n NonAtomic (e1 ~~ ERule node ~~ e2) s = Done s' t -> term_res s s' t.
Proof.
  intros IH O C H.
  apply inv_seq in H as (m1 & s1 & t1 & s2 & t2 & t3 & -> & A & E1 & H & ->).
  apply inv_seq in H as (m2 & s3 & t4 & s4 & t5 & t6 & -> & B & E2 & D & ->).
  pose proof (fun u => run_col _ _ _ _ _ _ _ u A) as Col.
  apply O in A as (o & Ho & A & ->). apply C in D as (c & Hc & D & ->).
  apply (skip_inv HumanPolicy) in E1 as (g1 & G1 & E1 & K1), E2 as (g2 & G2 & E2 & _).
  apply IH in B as (w & h & k & W & Gh & B & -> & Bk); [|lia].
  exists (WGroup o g1 w (h ++ g2) c), k. cbn [wellformed is_chain show].
  split; [auto 6 using gap_app|]. split; [reflexivity|]. split.
  { rewrite A, E1, B, E2, D. cbn [append]. now rewrite !sapp_assoc. }
  split; [reflexivity|]. rewrite Bk. unfold val. cbn [without_numbers meaning].
  replace (st_col s2) with (column_after (String o g1) (st_col s)); [reflexivity|].
  rewrite K1, (Col (String o "")) by exact A. rewrite <- !adv_column. reflexivity.
Qed.

Lemma links_more_inv t n :
  (forall m s s' ts, m < n -> run human m NonAtomic (ERule term_) s = Done s' ts -> term_res s s' ts)%nat ->
  forall m s s' ts, (m <= n)%nat -> run human m NonAtomic (EMore (ERule (op_rule t) ~~ ERule term_)) s = Done s' ts ->
  exists r, wellformed_links t r /\ st_rest s = show_links r ++ st_rest s' /\ build_all ts = vals (st_col s) r.
Proof.
  intros IH. induction m as [m IHm] using lt_wf_ind. intros s s' ts L H.
  apply inv_more in H as (k & -> & [(-> & ->)|(s1 & u & s2 & t2 & t3 & A & B & C & ->)]).
  - exists LNil. cbn. auto.
  - apply (skip_inv HumanPolicy) in A as (g1 & G1 & A & K1).
    apply inv_seq in B as (k1 & s3 & t4 & s4 & t5 & t6 & -> & B & E & D & ->).
    pose proof (fun u => run_col _ _ _ _ _ _ _ u B) as Col.
    apply (op_inv HumanPolicy) in B as (op & Op & B & ->).
    apply (skip_inv HumanPolicy) in E as (h1 & H1 & E & K2).
    pose proof (fun u => run_col _ _ _ _ _ _ _ u D) as Col2.
    apply IH in D as (w & kk & W & NC & D & -> & Bk); [|lia].
    apply IHm in C as (r & R & C & Br); [|lia|lia].
    exists (LCons g1 op h1 w r). cbn [wellformed_links show_links]. split; [auto 7|]. split.
    { rewrite A, B, E, D, C. now rewrite !sapp_assoc. }
    assert (Kc : st_col s4 = column_after (g1 ++ op ++ h1) (st_col s)).
    { rewrite K2, (Col op B), K1, <- adv_column, !adv_app. reflexivity. }
    cbn [app]. apply build_links; [now rewrite <- Kc|]. rewrite Br, <- Kc. f_equal. rewrite (Col2 (show w) D).
    apply adv_column.
Qed.

Lemma chain_inv t n s s' ts :
  (forall m s s' ts, m < n -> run human m NonAtomic (ERule term_) s = Done s' ts -> term_res s s' ts)%nat ->
  run human n NonAtomic (ERule (kids_rule t)) s = Done s' ts -> node_res s s' ts.
Proof.
  intros IH H. apply inv_rule in H as (m & t' & -> & H & ->).
  replace (mode human NonAtomic (kids_rule t)) with NonAtomic in H by (now destruct t).
  replace (g_body human (kids_rule t)) with
    (ERule term_ ~~ (ERule (op_rule t) ~~ ERule term_) ~~ EStar (ERule (op_rule t) ~~ ERule term_)) in H by (now destruct t).
  apply inv_seq in H as (m1 & s1 & t1 & s2 & t2 & t3 & -> & A & E1 & H & ->).
  apply inv_seq in H as (m2 & s3 & t4 & s4 & t5 & t6 & -> & B & E2 & D & ->).
  apply inv_seq in B as (m3 & s5 & t7 & s6 & t8 & t9 & -> & B & E3 & C & ->).
  pose proof (fun u => run_col _ _ _ _ _ _ _ u A) as ColA.
  pose proof (fun u => run_col _ _ _ _ _ _ _ u B) as ColB.
  pose proof (fun u => run_col _ _ _ _ _ _ _ u C) as ColC.
  apply IH in A as (w & k & W & NC & A & -> & Bk); [|lia].
  apply (op_inv HumanPolicy) in B as (op & Op & B & ->).
  apply IH in C as (w2 & k2 & W2 & NC2 & C & -> & Bk2); [|lia].
  apply (skip_inv HumanPolicy) in E1 as (g1 & G1 & E1 & K1), E2 as (g2 & G2 & E2 & K2), E3 as (g3 & G3 & E3 & K3).
  assert (K6 : st_col s6 = column_after (g1 ++ op ++ g3) (column_after (show w) (st_col s))).
  { rewrite K3, (ColB op B), K1, (ColA _ A), <- !adv_column, !adv_app. reflexivity. }
  assert (K3' : st_col s3 = column_after (show w2) (st_col s6)) by (rewrite (ColC _ C); apply adv_column).
  (* the repetition *)
  assert (X : exists r h, wellformed_links t r /\ gap h /\ st_rest s3 = show_links r ++ h ++ st_rest s' /\
                build_all t6 = vals (st_col s3) r).
  { apply inv_star in D as (m4 & D0 & [(-> & ->)|(s7 & t10 & t11 & D1 & D2 & ->)]).
    - exists LNil, g2. cbn. auto.
    - apply inv_seq in D1 as (m5 & s8 & t12 & s9 & t13 & t14 & -> & F1 & E4 & F2 & ->).
      pose proof (fun u => run_col _ _ _ _ _ _ _ u F1) as ColF1.
      pose proof (fun u => run_col _ _ _ _ _ _ _ u F2) as ColF2.
      apply (op_inv HumanPolicy) in F1 as (op' & Op' & F1 & ->).
      apply (skip_inv HumanPolicy) in E4 as (g4 & G4 & E4 & K4).
      apply IH in F2 as (w3 & k3 & W3 & NC3 & F2 & -> & Bk3); [|lia].
      apply (links_more_inv t _ IH) in D2 as (r & R & D2 & Br); [|lia].
      exists (LCons g2 op' g4 w3 r), "". cbn [wellformed_links show_links]. split; [auto 7|]. split; [constructor|]. split.
      { rewrite E2, F1, E4, F2, D2. now rewrite !sapp_assoc. }
      assert (K9 : st_col s9 = column_after (g2 ++ op' ++ g4) (st_col s3)).
      { rewrite K4, (ColF1 _ F1), K2, <- !adv_column, !adv_app. reflexivity. }
      cbn [app]. apply build_links; [now rewrite <- K9|]. rewrite Br, <- K9. f_equal. rewrite (ColF2 _ F2). apply adv_column. }
  destruct X as (r & h & R & Gh & X & Br).
  exists (WChain t w (LCons g1 op g3 w2 r)), h. eexists. cbn [wellformed show show_links wellformed_links].
  split; [repeat split; auto; discriminate|]. split; [exact Gh|]. split.
  { rewrite A, E1, B, E3, C, X. now rewrite !sapp_assoc. }
  split; [destruct t; reflexivity|]. apply build_chain; [exact Bk|]. cbn [app].
  apply build_links; [now rewrite <- K6|]. now rewrite Br, K3', K6.
Qed.

Lemma human_inv n : (forall s s' t, run human n NonAtomic (ERule term_) s = Done s' t -> term_res s s' t) /\
  (forall s s' t, run human n NonAtomic (ERule node) s = Done s' t -> node_res s s' t).
Proof.
  induction n as [n IH] using lt_wf_ind.
  assert (IHn : (forall m s s' t, m < n -> run human m NonAtomic (ERule node) s = Done s' t -> node_res s s' t)%nat).
  { intros m s s' t L. now apply IH. }
  assert (T : forall s s' t, run human n NonAtomic (ERule term_) s = Done s' t -> term_res s s' t).
  { intros s s' t H. apply inv_rule in H as (m & t' & -> & H & ->).
    change (wrap human NonAtomic term_ s s' t') with t'. change (mode human NonAtomic term_) with NonAtomic in H.
    cbn [g_body human human_body] in H. apply inv_alt in H as (m1 & -> & [H|(_ & H)]).
    - apply inv_rule in H as (m2 & t'' & -> & H & ->). change (wrap human NonAtomic value s s' t'') with t''.
      change (mode human NonAtomic value) with NonAtomic in H. cbn [g_body human human_body] in H.
      apply inv_alt in H as (m3 & -> & [H|(_ & H)]).
      { apply (string_inv HumanPolicy) in H as (x & y & Q & E & ->). exists (WName x). eexists.
        split; [exact Q|]. split; [reflexivity|]. split; [cbn [show]; now rewrite !sapp_assoc|]. split; reflexivity. }
      apply inv_alt in H as (m4 & -> & [H|(_ & H)]).
      { apply (number_tok HumanPolicy) in H as (x & y & Q & E & ->). exists (WNumber x). eexists.
        split; [exact Q|]. split; [reflexivity|]. split; [exact E|]. split; reflexivity. }
      eapply group_res; [| | |exact H].
      + intros k u u' v L. apply IHn. lia.
      + intros; eapply open_inv; eassumption.
      + intros; eapply close_inv; eassumption.
    - eapply group_res; [| | |exact H].
      + intros k u u' v L. apply IHn. lia.
      + intros k u u' v Hu. apply inv_str in Hu as (Hu & ->). exists "("%char. auto.
      + intros k u u' v Hu. apply inv_str in Hu as (Hu & ->). exists ")"%char. auto. }
  split; [exact T|].
  assert (IHt : (forall m s s' t, m <= n -> run human m NonAtomic (ERule term_) s = Done s' t -> term_res s s' t)%nat).
  { intros m s s' t L. destruct (Nat.eq_dec m n) as [->|]; [apply T|]. apply IH. lia. }
  intros s s' t H. apply inv_rule in H as (m & t' & -> & H & ->).
  change (wrap human NonAtomic node s s' t') with t'. change (mode human NonAtomic node) with NonAtomic in H.
  cbn [g_body human human_body] in H. apply inv_alt in H as (m1 & -> & [H|(_ & H)]).
  { apply (chain_inv true) in H; [exact H|]. intros; apply (IHt m); [lia|assumption]. }
  apply inv_alt in H as (m2 & -> & [H|(_ & H)]).
  { apply (chain_inv false) in H; [exact H|]. intros; apply (IHt m); [lia|assumption]. }
  apply IHt in H as (w & k & W & _ & E & -> & B); [|lia].
  exists w, "", k. split; [exact W|]. split; [constructor|]. auto.
Qed.

Theorem human_sound pol s' t ts : run human (fuel_of pol) NonAtomic (ERule content) (St 1 pol) = Done s' (t :: ts) ->
  exists g w, human_layout pol g w /\ build t = val (column_after g 1) w.
Proof.
  intros H. apply inv_rule in H as (m & t' & Em & H & Ht). clear Em.
  change (wrap human NonAtomic content (St 1 pol) s' t') with t' in Ht. change (mode human NonAtomic content) with NonAtomic in H.
  cbn [g_body human human_body] in H. unfold e_content in H.
  apply inv_seq in H as (m1 & s1 & t1 & s2 & t2 & t3 & -> & A & E1 & H & ->).
  apply inv_seq in H as (m2 & s3 & t4 & s4 & t5 & t6 & -> & B & E2 & D & ->).
  apply inv_soi in A as (-> & ->). apply inv_eoi in D as (-> & D & u & ->).
  apply (skip_inv HumanPolicy) in E1 as (g1 & G1 & E1 & K1), E2 as (g2 & G2 & E2 & _).
  apply human_inv in B as (w & h & k & W & Gh & B & -> & Bk). cbn [app] in Ht. injection Ht as -> ->.
  exists g1, w. split.
  - exists (h ++ g2). split; [exact G1|]. split; [exact W|]. split; [now apply gap_app|].
    cbn [st_rest] in E1. rewrite E1, B, E2, D. now rewrite app_empty.
  - rewrite Bk. cbn [st_col] in K1. now rewrite K1, adv_column.
Qed.

(** ** Every written policy is accepted, with its meaning *)

(** One token with the value of [w]; the tokens of [r]. *)
Definition reads_as (w : written) (c : nat) : toks := fun ts => exists k, ts = [k] /\ build k = val c w.
Definition reads_all (r : links) (c : nat) : toks := fun ts => build_all ts = vals c r.

(** What follows a policy: the end or a closing bracket. *)
Definition stop (z : string) : Prop := z = "" \/ exists b x, z = String b x /\ closing b = true.

Lemma stop_solid z : stop z -> solid z = true.
Proof.
  intros [->|(b & x & -> & B)]; [reflexivity|]. apply eqb_in in B. destruct B as [<-|[<-|[<-|[]]]]; reflexivity.
Qed.
Lemma stop_op t z : stop z -> PF human NonAtomic (ERule (op_rule t)) z.
Proof.
  intros [->|(b & x & -> & B)]; [apply (pf_op HumanPolicy); destruct t; reflexivity|].
  apply eqb_in in B. destruct B as [<-|[<-|[<-|[]]]]; apply (pf_op HumanPolicy); destruct t; reflexivity.
Qed.
Lemma stop_ends z : stop z -> ends_number z = true.
Proof.
  intros [->|(b & x & -> & B)]; [reflexivity|]. apply eqb_in in B. destruct B as [<-|[<-|[<-|[]]]]; reflexivity.
Qed.
Lemma gap_ends g y : gap g -> ends_number y = true -> ends_number (g ++ y) = true.
Proof.
  intros [|b x B H|u x B H] E; [exact E| |reflexivity].
  apply eqb_in in B. destruct B as [<-|[<-|[<-|[<-|[]]]]]; reflexivity.
Qed.
Lemma op_ends t op (y : string) : spelled (op_words t) op -> ends_number (op ++ y) = true.
Proof.
  intros [v I|v g h I _ _]; [|reflexivity]. destruct t; cbn [op_words In] in I; destruct I as [<-|[<-|[<-|[]]]]; reflexivity.
Qed.

Lemma links_ends t r y : wellformed_links t r -> ends_number y = true -> ends_number (show_links r ++ y) = true.
Proof.
  destruct r as [|g op h k r]; [auto|]. intros (G & Op & _) _. cbn [show_links]. rewrite !sapp_assoc.
  apply gap_ends; [exact G|]. now apply (op_ends t).
Qed.

(** A term begins with a quote, a digit, a sign or a bracket. *)
Lemma term_solid w y : wellformed w -> solid (show w ++ y) = true.
Proof.
  revert y. induction w as [raw|x|o g w IH h c|t w IH r]; intros y W.
  - reflexivity.
  - cbn [wellformed show] in *. apply numeral_is in W. destruct (numeral_head x y W) as (b & r & -> & Hb).
    unfold solid, head_not. destruct Hb as [->|Hb]; [reflexivity|].
    unfold is_digit in Hb. apply andb_prop in Hb as (H1 & H2). apply Nat.leb_le in H1, H2.
    assert (N : forall k, (k < 48)%nat -> Ascii.eqb (ascii_of_nat k) b = false).
    { intros k K. destruct (Ascii.eqb_spec (ascii_of_nat k) b) as [<-|]; [|reflexivity].
      rewrite nat_ascii_embedding in H1 by lia. lia. }
    change " "%char with (ascii_of_nat 32). change "/"%char with (ascii_of_nat 47). now rewrite !N by lia.
  - cbn [wellformed show] in *. destruct W as (O & _). apply eqb_in in O. destruct O as [<-|[<-|[<-|[]]]]; reflexivity.
  - cbn [wellformed show] in *. destruct W as (W & _). rewrite sapp_assoc. now apply IH.
Qed.

Definition term_ok (w : written) : Prop := forall y, ends_number y = true ->
  RD HumanPolicy NonAtomic (ERule term_) (show w) y (reads_as w).
Fixpoint terms_ok (r : links) : Prop :=
  match r with
  | LNil => True
  | LCons _ _ _ k r => term_ok k /\ terms_ok r
  end.

(** An operator and the next term. *)
Lemma rd_op_term t op h w y : spelled (op_words t) op -> gap h -> wellformed w -> term_ok w -> ends_number y = true ->
  RD HumanPolicy NonAtomic (ERule (op_rule t) ~~ ERule term_) (op ++ h ++ show w) y (fun c => reads_as w (column_after (op ++ h) c)).
Proof.
  intros Op G W T E. eapply rd_weak; [|eapply rd_seq; [apply rd_pt, (pt_op' HumanPolicy); exact Op|exact G|now apply term_solid|now apply T]].
  intros c ts (t1 & t2 & -> & -> & H). exact H.
Qed.

Lemma rd_more t r h z : wellformed_links t r -> terms_ok r -> gap h -> stop z ->
  RD HumanPolicy NonAtomic (EMore (ERule (op_rule t) ~~ ERule term_)) (show_links r) (h ++ z) (reads_all r).
Proof.
  intros W T G S. induction r as [|g op k w r IH].
  - intros c. exists []. split; [|reflexivity]. cbn [show_links append column_after].
    eapply Runs_more0; [apply skips_gap; [exact G|now apply stop_solid]|]. apply pf_seq1, stop_op, S.
  - cbn [wellformed_links terms_ok show_links] in *. destruct W as (G1 & Op & G2 & Ww & NC & Wr), T as (Tw & Tr).
    specialize (IH Wr Tr). intros c.
    pose proof (rd_op_term t op k w (show_links r ++ h ++ z) Op G2 Ww Tw) as X.
    destruct (X (links_ends t r (h ++ z) Wr (gap_ends h z G (stop_ends z S))) (column_after g c)) as (t1 & R1 & kk & -> & B1).
    destruct (IH (column_after (op ++ k ++ show w) (column_after g c))) as (t2 & R2 & B2).
    exists ([kk] ++ t2)%list. split.
    + replace ((g ++ op ++ k ++ show w ++ show_links r) ++ h ++ z) with (g ++ (op ++ k ++ show w) ++ show_links r ++ h ++ z)
        by (now rewrite !sapp_assoc).
      replace (column_after (g ++ op ++ k ++ show w ++ show_links r) c)
        with (column_after (show_links r) (column_after (op ++ k ++ show w) (column_after g c)))
        by (now rewrite !column_app).
      eapply Runs_more1; [apply skips_gap; [exact G1|]|exact R1|exact R2].
      rewrite !sapp_assoc. now apply (spelled_solid t).
    + cbn [app]. apply build_links.
      * rewrite B1, !column_app. reflexivity.
      * rewrite B2, !column_app. reflexivity.
Qed.

(** A conjunction or disjunction. *)
Lemma rd_chain t f g op k w r h z : wellformed (WChain t f (LCons g op k w r)) ->
  term_ok f -> term_ok w -> terms_ok r -> gap h -> stop z ->
  exists h1 h2, h = h1 ++ h2 /\ gap h2 /\
    RD HumanPolicy NonAtomic (ERule (kids_rule t)) (show (WChain t f (LCons g op k w r)) ++ h1) (h2 ++ z)
       (reads_as (WChain t f (LCons g op k w r))).
Proof.
  intros (Wf & NCf & _ & G1 & Op & G2 & Ww & NCw & Wr) Tf Tw Tr Gh S.
  pose proof (gap_ends h z Gh (stop_ends z S)) as Eh.
  (* the repetition, and the blanks in front of it *)
  assert (X : exists h1 h2 v x, h = h1 ++ h2 /\ gap h2 /\ gap v /\ show_links r ++ h1 = v ++ x /\
    solid (x ++ h2 ++ z) = true /\
    RD HumanPolicy NonAtomic (EStar (ERule (op_rule t) ~~ ERule term_)) x (h2 ++ z)
      (fun c ts => forall c0, c = column_after v c0 -> reads_all r c0 ts)).
  { destruct r as [|g' op' k' w' r].
    - exists h, "", h, "". rewrite app_empty. cbn [append show_links]. repeat (split; [solve [auto using gap_nil]|]).
      split; [now apply stop_solid|]. intros c. exists []. split; [|reflexivity].
      cbn [append column_after]. apply Runs_star0, pf_seq1, stop_op, S.
    - cbn [wellformed_links terms_ok] in *. destruct Wr as (G1' & Op' & G2' & Ww' & NC' & Wr), Tr as (Tw' & Tr).
      exists "", h, g', (op' ++ k' ++ show w' ++ show_links r). cbn [append show_links]. rewrite app_empty.
      repeat (split; [solve [auto]|]). split; [rewrite !sapp_assoc; now apply (spelled_solid t)|]. intros c.
      pose proof (rd_op_term t op' k' w' (show_links r ++ h ++ z) Op' G2' Ww' Tw' (links_ends t r (h ++ z) Wr Eh)) as X.
      destruct (X c) as (t1 & R1 & kk & -> & B1).
      destruct (rd_more t r h z Wr Tr Gh S (column_after (op' ++ k' ++ show w') c)) as (t2 & R2 & B2).
      exists ([kk] ++ t2)%list. split.
      + replace ((op' ++ k' ++ show w' ++ show_links r) ++ h ++ z) with ((op' ++ k' ++ show w') ++ show_links r ++ h ++ z)
          by (now rewrite !sapp_assoc).
        replace (column_after (op' ++ k' ++ show w' ++ show_links r) c)
          with (column_after (show_links r) (column_after (op' ++ k' ++ show w') c)) by (now rewrite !column_app).
        eapply Runs_star1; [exact R1|exact R2].
      + intros c0 ->. cbn [app]. apply build_links; [rewrite B1|rewrite B2]; now rewrite !column_app. }
  destruct X as (h1 & h2 & v & x & -> & G2h & Gv & Es & So & X). exists h1, h2. split; [reflexivity|]. split; [exact G2h|].
  assert (En : ends_number (v ++ x ++ h2 ++ z) = true).
  { rewrite <- sapp_assoc, <- Es, !sapp_assoc, <- (sapp_assoc h1). now apply (links_ends t). }
  pose proof (rd_op_term t op k w _ Op G2 Ww Tw En) as X1.
  pose proof (rd_seq _ _ _ _ _ _ _ _ X1 Gv So X) as X2.
  assert (Hs : solid (((op ++ k ++ show w) ++ v ++ x) ++ h2 ++ z) = true).
  { rewrite !sapp_assoc. now apply (spelled_solid t). }
  assert (Ef : ends_number (g ++ ((op ++ k ++ show w) ++ v ++ x) ++ h2 ++ z) = true).
  { apply gap_ends; [exact G1|]. rewrite !sapp_assoc. now apply (op_ends t). }
  pose proof (rd_seq _ _ _ _ _ _ _ _ (Tf _ Ef) G1 Hs X2) as X3.
  intros c. destruct (X3 c) as (ts & R & t1 & t2 & -> & (kf & -> & Bf) & t3 & t4 & -> & (kw & -> & Bw) & B).
  assert (Et : show f ++ g ++ (op ++ k ++ show w) ++ v ++ x = show (WChain t f (LCons g op k w r)) ++ h1).
  { cbn [show show_links]. now rewrite !sapp_assoc, Es. }
  rewrite Et in R. exists [Tok (kids_rule t) c (between (St c ((show (WChain t f (LCons g op k w r)) ++ h1) ++ h2 ++ z))
     (St (column_after (show (WChain t f (LCons g op k w r)) ++ h1) c) (h2 ++ z))) ([kf] ++ [kw] ++ t4)].
  split.
  - pose proof (Runs_rule human NonAtomic (kids_rule t)) as RR.
    replace (mode human NonAtomic (kids_rule t)) with NonAtomic in RR by (now destruct t).
    replace (g_body human (kids_rule t)) with
      (ERule term_ ~~ (ERule (op_rule t) ~~ ERule term_) ~~ EStar (ERule (op_rule t) ~~ ERule term_)) in RR by (now destruct t).
    specialize (RR _ _ _ R). destruct t; exact RR.
  - eexists. split; [reflexivity|]. cbn [app]. apply build_chain; [exact Bf|].
    apply build_links; [rewrite Bw; now rewrite !column_app|].
    apply (B (column_after (show w) (column_after (g ++ op ++ k) (column_after (show f) c)))). now rewrite !column_app.
Qed.

(** A chain is no single term: the other operator's rule fails. *)
Lemma pf_kids t f op y g : term_ok f -> gap g -> (forall x, ends_number (g ++ op ++ x) = true) ->
  solid (op ++ y) = true -> PF human NonAtomic (ERule (op_rule t)) (op ++ y) ->
  PF human NonAtomic (ERule (kids_rule t)) (show f ++ g ++ op ++ y).
Proof.
  intros T G E S P. apply pf_rule. replace (mode human NonAtomic (kids_rule t)) with NonAtomic by (now destruct t).
  replace (g_body human (kids_rule t)) with
      (ERule term_ ~~ (ERule (op_rule t) ~~ ERule term_) ~~ EStar (ERule (op_rule t) ~~ ERule term_)) by (now destruct t).
  eapply pf_seq2; [eapply (pt_rd (lang := HumanPolicy)), T, E|apply (sk_gap HumanPolicy); [exact G|exact S]|]. now apply pf_seq1, pf_seq1.
Qed.

Lemma pf_kids_stop t f h z : term_ok f -> gap h -> stop z ->
  PF human NonAtomic (ERule (kids_rule t)) (show f ++ h ++ z).
Proof.
  intros T G S. apply pf_rule. replace (mode human NonAtomic (kids_rule t)) with NonAtomic by (now destruct t).
  replace (g_body human (kids_rule t)) with
      (ERule term_ ~~ (ERule (op_rule t) ~~ ERule term_) ~~ EStar (ERule (op_rule t) ~~ ERule term_)) by (now destruct t).
  eapply pf_seq2; [eapply (pt_rd (lang := HumanPolicy)), T; now apply gap_ends, stop_ends|apply (sk_gap HumanPolicy); [exact G|now apply stop_solid]|].
  now apply pf_seq1, pf_seq1, stop_op.
Qed.

Definition node_ok (w : written) : Prop := forall h z, gap h -> stop z ->
  exists h1 h2, h = h1 ++ h2 /\ gap h2 /\ RD HumanPolicy NonAtomic (ERule node) (show w ++ h1) (h2 ++ z) (reads_as w).

Lemma node_of_term w : term_ok w -> node_ok w.
Proof.
  intros T h z G S. exists "", h. split; [reflexivity|]. split; [exact G|]. rewrite app_empty.
  apply rd_silent; [reflexivity|]. cbn [g_body human human_body].
  apply rd_right; [now apply (pf_kids_stop true)|]. apply rd_right; [now apply (pf_kids_stop false)|].
  apply T. now apply gap_ends, stop_ends.
Qed.

Lemma node_of_chain t f r : wellformed (WChain t f r) -> term_ok f -> terms_ok r -> node_ok (WChain t f r).
Proof.
  intros W Tf Tr h z G S. destruct r as [|g op k w r]; [destruct W as (_ & _ & X & _); congruence|].
  cbn [terms_ok] in Tr. destruct Tr as (Tw & Tr).
  destruct (rd_chain t f g op k w r h z W Tf Tw Tr G S) as (h1 & h2 & E & G2 & R). exists h1, h2.
  split; [exact E|]. split; [exact G2|]. apply rd_silent; [reflexivity|]. cbn [g_body human human_body].
  destruct t; [now apply rd_left|]. apply rd_right; [|now apply rd_left].
  destruct W as (_ & _ & _ & G1 & Op & _). cbn [show show_links]. rewrite !sapp_assoc.
  apply (pf_kids true); [exact Tf|exact G1| | |].
  - intros x. apply gap_ends; [exact G1|now apply (op_ends false)].
  - now apply (spelled_solid false).
  - now apply (pf_op' HumanPolicy true).
Qed.

(** Brackets. *)
Lemma rd_open o y : opening o = true -> RD HumanPolicy NonAtomic (ERule BRACEOPEN) (String o "") y (fun _ => nil).
Proof.
  intros O. apply rd_pt. apply pt_silent; [reflexivity|]. apply (pt_choice HumanPolicy ["["; "{"] NonAtomic y "("); [reflexivity|].
  apply eqb_in in O. destruct O as [<-|[<-|[<-|[]]]]; cbn; auto.
Qed.
Lemma rd_close o y : closing o = true -> RD HumanPolicy NonAtomic (ERule BRACECLOSE) (String o "") y (fun _ => nil).
Proof.
  intros O. apply rd_pt. apply pt_silent; [reflexivity|]. apply (pt_choice HumanPolicy ["]"; "}"] NonAtomic y ")"); [reflexivity|].
  apply eqb_in in O. destruct O as [<-|[<-|[<-|[]]]]; cbn; auto.
Qed.

Lemma pf_number_open o y : opening o = true -> PF human NonAtomic (ERule number) (String o y).
Proof.
  intros O. apply pf_rule. change (mode human NonAtomic number) with Atomic. cbn [g_body human human_body]. unfold e_number.
  apply eqb_in in O.
  destruct O as [<-|[<-|[<-|[]]]]; (eapply pf_seq2; [apply pt_opt0; now apply pf_str|now apply sk_atomic|];
    apply pf_seq1, pf_alt; [now apply pf_str|]; apply pf_seq1; now apply pf_class).
Qed.
Lemma pf_string_open o y : opening o = true -> PF human NonAtomic (ERule string_) (String o y).
Proof.
  intros O. apply (pf_string HumanPolicy). apply eqb_in in O. destruct O as [<-|[<-|[<-|[]]]]; reflexivity.
Qed.

Lemma term_group o g w h c : wellformed (WGroup o g w h c) -> node_ok w -> term_ok (WGroup o g w h c).
Proof.
  intros (O & G & W & H & Cl) N y _.
  destruct (N h (String c y) H) as (h1 & h2 & E & G2 & R); [right; eauto|].
  assert (S1 : solid (String c y) = true) by (apply stop_solid; right; eauto).
  pose proof (rd_seq _ _ _ h2 (String c "") y _ _ R G2 S1 (rd_close c y Cl)) as X.
  assert (S2 : solid (((show w ++ h1) ++ h2 ++ String c "") ++ y) = true) by (rewrite !sapp_assoc; now apply term_solid).
  pose proof (rd_seq _ _ (String o "") g _ y _ _ (rd_open o _ O) G S2 X) as Y.
  assert (Et : String o "" ++ g ++ (show w ++ h1) ++ h2 ++ String c "" = show (WGroup o g w h c)).
  { cbn [show append]. rewrite E. now rewrite !sapp_assoc. }
  rewrite Et in Y. apply rd_silent; [reflexivity|]. cbn [g_body human human_body]. apply rd_left.
  apply rd_silent; [reflexivity|]. cbn [g_body human human_body].
  apply rd_right; [now apply pf_string_open|]. apply rd_right; [now apply pf_number_open|].
  eapply rd_weak; [|exact Y]. intros col ts (t1 & t2 & -> & -> & t3 & t4 & -> & (k & -> & B) & ->).
  exists k. split; [reflexivity|]. rewrite B. unfold val. cbn [without_numbers meaning append column_after].
  reflexivity.
Qed.

Lemma term_name raw : quotable raw -> term_ok (WName raw).
Proof.
  intros Q y _. apply rd_silent; [reflexivity|]. cbn [g_body human human_body]. apply rd_left.
  apply rd_silent; [reflexivity|]. cbn [g_body human human_body]. apply rd_left.
  intros c. pose proof (pt_name HumanPolicy raw y Q c) as (c' & ts & R & _).
  assert (E : dquote ++ raw ++ dquote ++ y = show (WName raw) ++ y) by (cbn [show]; now rewrite !sapp_assoc).
  rewrite E in R. pose proof (Runs_col _ _ _ _ _ _ _ R) as ->. exists ts. split; [exact R|].
  destruct R as (_ & n & R). apply (string_inv HumanPolicy) in R as (x & z & _ & X & ->). cbn [st_rest st_col] in *.
  eexists. split; [reflexivity|]. unfold val. cbn [without_numbers meaning].
  assert (raw = x) as <-; [|reflexivity]. rewrite <- E in X. unfold dquote in X. cbn [append] in X. injection X as X.
  now apply app_cancel in X.
Qed.

Lemma term_number x : number_text x -> term_ok (WNumber x).
Proof.
  intros Q y E. apply numeral_is in Q. destruct (pt_value_number HumanPolicy x y Q E) as (_ & Pq & P).
  apply rd_silent; [reflexivity|]. cbn [g_body human human_body]. apply rd_left.
  eapply rd_weak; [|apply rd_pt, P]. intros c ts (c' & z & ->). eexists. split; [reflexivity|]. reflexivity.
Qed.

Scheme written_mut := Induction for written Sort Prop with links_mut := Induction for links Sort Prop.

Lemma human_reads w : wellformed w -> (is_chain w = false -> term_ok w) /\ node_ok w.
Proof.
  apply (written_mut
    (fun w => wellformed w -> (is_chain w = false -> term_ok w) /\ node_ok w)
    (fun r => forall t, wellformed_links t r -> terms_ok r)); clear w.
  - intros raw W. assert (T : term_ok (WName raw)) by (now apply term_name). split; [auto|now apply node_of_term].
  - intros x W. assert (T : term_ok (WNumber x)) by (now apply term_number). split; [auto|now apply node_of_term].
  - intros o g w IH h c W. destruct (IH (proj1 (proj2 (proj2 W)))) as (_ & N).
    assert (T : term_ok (WGroup o g w h c)) by (now apply term_group). split; [auto|now apply node_of_term].
  - intros t f IHf r IHr W. split; [discriminate|]. pose proof W as (Wf & NC & _ & Wr).
    apply node_of_chain; [exact W|apply IHf; assumption|eapply IHr; exact Wr].
  - intros t _. exact I.
  - intros g op h w IHw r IHr t (_ & _ & _ & W & NC & Wr). split; [apply IHw; assumption|eapply IHr; exact Wr].
Qed.

Theorem human_complete pol g w : human_layout pol g w -> parse pol HumanPolicy = val (column_after g 1) w.
Proof.
  intros (h & G & W & H & ->). destruct (human_reads w W) as (_ & N).
  destruct (N h "" H) as (h1 & h2 & -> & G2 & R); [now left|].
  destruct (R (column_after g 1)) as (ts & R1 & k & -> & B).
  assert (X : Runs human NonAtomic e_content (St 1 (g ++ (show w ++ h1) ++ h2 ++ ""))
     (Done (St (column_after h2 (column_after (show w ++ h1) (column_after g 1))) "")
        ([] ++ [k] ++ [Tok EOI (column_after h2 (column_after (show w ++ h1) (column_after g 1))) "" []]))).
  { unfold e_content. eapply Runs_seq; [apply Runs_soi|apply (skips_gap (lang := HumanPolicy)); [exact G|]|].
    - rewrite !sapp_assoc. now apply term_solid.
    - eapply Runs_seq; [exact R1|apply (skips_gap (lang := HumanPolicy)); [exact G2|reflexivity]|now apply Runs_eoi]. }
  assert (Y : parse (g ++ (show w ++ h1) ++ h2 ++ "") HumanPolicy = build k).
  { unfold parse. erewrite (parse_runs _ HumanPolicy); [|apply (Runs_rule human NonAtomic content); exact X]. reflexivity. }
  rewrite <- B, <- Y. now rewrite app_empty, !sapp_assoc.
Qed.

(** *** C91 *)

(** The outcome of the parser on every text. *)
Theorem human_language pol :
  (forall g w, human_layout pol g w ->
     parse pol HumanPolicy = if without_numbers w then Ok (tree (meaning (column_after g 1) w)) else Panic) /\
  ((forall g w, ~ human_layout pol g w) -> parse pol HumanPolicy = Err).
Proof.
  split; [intros g w H; now rewrite (human_complete pol g w H)|]. intros N.
  destruct (parse_cases pol HumanPolicy) as [(E & _)|(t & s' & (n & s2 & ts & A) & _)]; [exact E|exfalso].
  assert (F : run human (fuel_of pol) NonAtomic (ERule content) (St 1 pol) = Done s2 (t :: ts)).
  { apply (parse_runs pol HumanPolicy). split; [discriminate|]. eauto. }
  apply human_sound in F as (g & w & L & _). now apply (N g w).
Qed.

Theorem human_accepted pol : parse pol HumanPolicy <> Err <-> exists g w, human_layout pol g w.
Proof.
  split.
  - intros N. destruct (parse_cases pol HumanPolicy) as [(E & _)|(t & s' & (n & s2 & ts & A) & _)]; [congruence|].
    assert (F : run human (fuel_of pol) NonAtomic (ERule content) (St 1 pol) = Done s2 (t :: ts)).
    { apply (parse_runs pol HumanPolicy). split; [discriminate|]. eauto. }
    apply human_sound in F as (g & w & L & _). eauto.
  - intros (g & w & L). rewrite (human_complete _ _ _ L). unfold val. destruct (without_numbers w); discriminate.
Qed.

Theorem human_ok pol f : parse pol HumanPolicy = Ok (tree f) <->
  exists g w, human_layout pol g w /\ without_numbers w = true /\ f = meaning (column_after g 1) w.
Proof.
  split.
  - intros E. destruct (proj1 (human_accepted pol)) as (g & w & L); [congruence|]. exists g, w. split; [exact L|].
    rewrite (human_complete _ _ _ L) in E. unfold val in E. destruct (without_numbers w); [|discriminate].
    split; [reflexivity|]. apply tree_inj. congruence.
  - intros (g & w & L & N & ->). rewrite (human_complete _ _ _ L). unfold val. now rewrite N.
Qed.

Theorem human_panics pol : parse pol HumanPolicy = Panic <->
  exists g w, human_layout pol g w /\ without_numbers w = false.
Proof.
  split.
  - intros E. destruct (proj1 (human_accepted pol)) as (g & w & L); [congruence|]. exists g, w. split; [exact L|].
    rewrite (human_complete _ _ _ L) in E. unfold val in E. destruct (without_numbers w); [discriminate|reflexivity].
  - intros (g & w & L & N). rewrite (human_complete _ _ _ L). unfold val. now rewrite N.
Qed.

(** One text has one meaning. *)
Theorem human_unambiguous pol g w g' w' : human_layout pol g w -> human_layout pol g' w' ->
  without_numbers w = without_numbers w' /\
  (without_numbers w = true -> meaning (column_after g 1) w = meaning (column_after g' 1) w').
Proof.
  intros L L'. apply human_complete in L, L'. rewrite L in L'. unfold val in L'.
  destruct (without_numbers w), (without_numbers w'); try discriminate; split; auto; try discriminate.
  intros _. apply tree_inj. congruence.
Qed.

Theorem human_rejected pol : parse pol HumanPolicy = Err <-> (forall g w, ~ human_layout pol g w).
Proof.
  split; [|apply human_language]. intros E g w L. rewrite (human_complete _ _ _ L) in E. unfold val in E.
  destruct (without_numbers w); discriminate.
Qed.

Theorem human_brackets (o c : ascii) (g1 g h g2 : string) w :
  opening o = true -> closing c = true -> gap g1 -> gap g -> gap h -> gap g2 -> wellformed w -> without_numbers w = true ->
  parse (g1 ++ String o (g ++ show w ++ h ++ String c "") ++ g2) HumanPolicy =
    Ok (tree (meaning (column_after (g1 ++ String o g) 1) w)).
Proof.
  intros O C G1 G H G2 W N. rewrite (human_complete _ g1 (WGroup o g w h c)).
  - unfold val. cbn [without_numbers meaning]. now rewrite N, column_app.
  - exists g2. cbn [wellformed show]. auto 8.
Qed.

Theorem human_same_column x y : quotable x -> quotable y ->
  parse (dquote ++ x ++ dquote ++ lf_s ++ "or" ++ lf_s ++ dquote ++ y ++ dquote) HumanPolicy =
    Ok (tree (FOr [FLeaf x 2; FLeaf y 2])).
Proof.
  intros X Y. rewrite (human_complete _ "" (WChain false (WName x) (LCons lf_s "or" lf_s (WName y) LNil))).
  - unfold val. cbn [without_numbers without_numbers_links andb meaning meaning_links].
    rewrite column_app. reflexivity.
  - exists "". split; [constructor|]. split; [|split; [constructor|]].
    + assert (gap lf_s) by (repeat constructor).
      cbn [wellformed wellformed_links is_chain]. repeat apply conj; auto; try discriminate. constructor. cbn. auto.
    + cbn [show show_links append]. now rewrite !app_empty, !sapp_assoc.
Qed.
