(** * JsonLayoutProofs: the parser of the JSON language reads exactly the texts
    of Layout.v, each with its meaning *)
From Coq Require Import String Ascii List Bool Arith Lia.
From Verif Require Import Base Policy Spec Peg Grammar Parse PegProofs ParseProofs ParseText ParseHuman Layout LexProofs LayoutProofs.
Import ListNotations.
Local Open Scope string_scope.

(** What [build] makes of the tokens. *)
Definition jval (c : nat) (w : jwritten) : outcome pvalue :=
  if jwithout_numbers w then Ok (tree (jmeaning c w)) else Panic.
Definition jval_body (c : nat) (b : jbody) : outcome pvalue :=
  if jwithout_numbers_body b then Ok (tree (jmeaning_body c b)) else Panic.
Definition jvals_kids (c : nat) (i : jkids) : outcome (list pvalue) :=
  if jwithout_numbers_kids i then Ok (map tree (jmeaning_kids c i)) else Panic.
Definition jvals (c : nat) (r : jmore) : outcome (list pvalue) :=
  if jwithout_numbers_more r then Ok (map tree (jmeaning_more c r)) else Panic.

Lemma build_kids t c0 c x ts op g h key k l i :
  build_all ts = jvals_kids (column_after (op ++ g ++ "," ++ h ++ key ++ k ++ ":" ++ l ++ "[") c) i ->
  build (Tok (kids_rule t) c0 x ts) = jval_body c (JKids t op g h key k l i).
Proof.
  intros B. rewrite build_junction, B. unfold jvals_kids, jval_body. cbn [jwithout_numbers_body jmeaning_body].
  rewrite tree_junction. now destruct (jwithout_numbers_kids i).
Qed.
Lemma build_some c g k ts w r h : build k = jval (column_after g c) w ->
  build_all ts = jvals (column_after (jshow w) (column_after g c)) r ->
  build_all (k :: ts) = jvals_kids c (JSome g w r h).
Proof.
  intros B Bs. rewrite build_all_cons, B, Bs. unfold jval, jvals, jvals_kids. cbn [jwithout_numbers_kids jmeaning_kids].
  destruct (jwithout_numbers w); [|reflexivity]. now destruct (jwithout_numbers_more r).
Qed.
Lemma build_next c g h k ts w r : build k = jval (column_after (g ++ "," ++ h) c) w ->
  build_all ts = jvals (column_after (jshow w) (column_after (g ++ "," ++ h) c)) r ->
  build_all (k :: ts) = jvals c (JNext g h w r).
Proof.
  intros B Bs. rewrite build_all_cons, B, Bs. unfold jval, jvals. cbn [jwithout_numbers_more jmeaning_more].
  destruct (jwithout_numbers w); [|reflexivity]. now destruct (jwithout_numbers_more r).
Qed.

(** ** The keywords [name] and [children] *)

Definition e_key (w v : string) : expr rule :=
  EStr w // EStr v // ERule QUOTE ~~ EStr w ~~ ERule QUOTE // ERule QUOTE ~~ EStr v ~~ ERule QUOTE.

Lemma quoted_inv n w s s' t : run json n NonAtomic (ERule QUOTE ~~ EStr w ~~ ERule QUOTE) s = Done s' t ->
  exists g h, gap g /\ gap h /\ st_rest s = (dquote ++ g ++ w ++ h ++ dquote) ++ st_rest s' /\ t = [].
Proof.
  intros H.
  apply inv_seq in H as (m1 & s1 & t1 & s2 & t2 & t3 & _ & A & E1 & H & ->).
  apply inv_seq in H as (m2 & s3 & t4 & s4 & t5 & t6 & _ & B & E2 & D & ->).
  apply (quote_inv JsonPolicy) in A as (A & ->), D as (D & ->). apply inv_str in B as (B & ->).
  apply (skip_inv JsonPolicy) in E1 as (g & G & E1 & _), E2 as (h & Gh & E2 & _).
  exists g, h. split; [exact G|]. split; [exact Gh|]. split; [|reflexivity].
  rewrite A, E1, B, E2, D. now rewrite !sapp_assoc.
Qed.

Lemma key_inv n w v s s' t : run json n NonAtomic (e_key w v) s = Done s' t ->
  exists x, spelled [w; v] x /\ st_rest s = x ++ st_rest s' /\ t = [].
Proof.
  intros H. unfold e_key in H. apply inv_alt in H as (m & _ & [H|(_ & H)]).
  { apply inv_str in H as (H & ->). exists w. split; [constructor; now left|auto]. }
  apply inv_alt in H as (m1 & _ & [H|(_ & H)]).
  { apply inv_str in H as (H & ->). exists v. split; [constructor; right; now left|auto]. }
  apply inv_alt in H as (m2 & _ & [H|(_ & H)]); apply quoted_inv in H as (g & h & G & Gh & E & ->);
    (eexists; split; [|split; [exact E|reflexivity]]); apply spelled_quoted; auto; cbn; auto.
Qed.

Lemma pt_key w v x y : differ w v = true ->
  (forall z, solid (w ++ z) = true /\ solid (v ++ z) = true /\
     String.prefix w (dquote ++ z) = false /\ String.prefix v (dquote ++ z) = false) ->
  spelled [w; v] x -> PT json NonAtomic (e_key w v) (x ++ y) y nil.
Proof.
  intros D K [u I|u g h I G H]; unfold e_key.
  - destruct I as [<-|[<-|[]]]; [apply pt_left, pt_str|].
    apply pt_right; [apply pf_str; now apply differ_prefix|]. apply pt_left, pt_str.
  - rewrite !sapp_assoc. apply pt_right; [apply pf_str; apply K|]. apply pt_right; [apply pf_str; apply K|].
    assert (X : forall u, In u [w; v] -> PT json NonAtomic (ERule QUOTE ~~ EStr u ~~ ERule QUOTE)
       (dquote ++ g ++ u ++ h ++ dquote ++ y) y nil).
    { intros u' I'. eapply pt_seq_l; [apply (pt_quote JsonPolicy)|apply (sk_gap JsonPolicy g); [exact G|]|].
      - destruct I' as [<-|[<-|[]]]; apply K.
      - eapply pt_seq_l; [apply pt_str|apply (sk_gap JsonPolicy h); [exact H|reflexivity]|apply (pt_quote JsonPolicy)]. }
    destruct I as [<-|[<-|[]]]; [apply pt_left, X; now left|].
    apply pt_right; [|apply X; right; now left].
    eapply pf_seq2; [apply (pt_quote JsonPolicy)|apply (sk_gap JsonPolicy g); [exact G|apply K]|].
    apply pf_seq1, pf_str. now apply differ_prefix.
Qed.

Lemma name_inv n s s' t : run json n NonAtomic (ERule NAME) s = Done s' t ->
  exists x, spelled name_words x /\ st_rest s = x ++ st_rest s' /\ t = [].
Proof. intros H. apply inv_rule in H as (m & t' & _ & H & ->). now apply key_inv in H. Qed.
Lemma children_inv n s s' t : run json n NonAtomic (ERule CHILDREN) s = Done s' t ->
  exists x, spelled children_words x /\ st_rest s = x ++ st_rest s' /\ t = [].
Proof. intros H. apply inv_rule in H as (m & t' & _ & H & ->). now apply key_inv in H. Qed.

Lemma rd_name x y : spelled name_words x -> RD JsonPolicy NonAtomic (ERule NAME) x y (fun _ => nil).
Proof.
  intros H. apply rd_pt. apply pt_silent; [reflexivity|]. apply (pt_key "name" "NAME"); [reflexivity| |exact H].
  intros z. repeat split; reflexivity.
Qed.
Lemma rd_children x y : spelled children_words x -> RD JsonPolicy NonAtomic (ERule CHILDREN) x y (fun _ => nil).
Proof.
  intros H. apply rd_pt. apply pt_silent; [reflexivity|]. apply (pt_key "children" "CHILDREN"); [reflexivity| |exact H].
  intros z. repeat split; reflexivity.
Qed.
Lemma name_solid x (y : string) : spelled name_words x -> solid (x ++ y) = true.
Proof. intros [v [<-|[<-|[]]]|v g h _ _ _]; reflexivity. Qed.
Lemma children_solid x (y : string) : spelled children_words x -> solid (x ++ y) = true.
Proof. intros [v [<-|[<-|[]]]|v g h _ _ _]; reflexivity. Qed.

(** ** Objects: [{ name : ... }] *)

Definition e_object (e : expr rule) : expr rule := EStr "{" ~~ ERule NAME ~~ EStr ":" ~~ e ~~ EStr "}".

Lemma rd_str x y : RD JsonPolicy NonAtomic (EStr x) x y (fun _ => nil).
Proof. apply rd_pt, pt_str. Qed.

(** Like [rd_seq] when the first part emits nothing. *)
Lemma rd_then e1 e2 u w v y T : RD JsonPolicy NonAtomic e1 u (w ++ v ++ y) (fun _ => nil) -> gap w -> solid (v ++ y) = true ->
  RD JsonPolicy NonAtomic e2 v y T ->
  RD JsonPolicy NonAtomic (e1 ~~ e2) (u ++ w ++ v) y (fun c => T (column_after (u ++ w) c)).
Proof.
  intros H1 G S H2. eapply rd_weak; [|eapply rd_seq; eauto]. intros c ts (t1 & t2 & -> & -> & H). exact H.
Qed.

Lemma rd_object e g key h k x l y T :
  gap g -> spelled name_words key -> gap h -> gap k -> gap l -> solid (x ++ l ++ "}" ++ y) = true ->
  RD JsonPolicy NonAtomic e x (l ++ "}" ++ y) T ->
  RD JsonPolicy NonAtomic (e_object e) ("{" ++ g ++ key ++ h ++ ":" ++ k ++ x ++ l ++ "}") y
     (fun c => T (column_after ("{" ++ g ++ key ++ h ++ ":" ++ k) c)).
Proof.
  intros G N H K Lg S X. unfold e_object.
  assert (Y : RD JsonPolicy NonAtomic (e ~~ EStr "}") (x ++ l ++ "}") y T).
  { eapply rd_weak; [|eapply rd_seq; [exact X|exact Lg|reflexivity|apply rd_str]].
    intros c ts (t1 & t2 & -> & Q & ->). now rewrite app_nil_r. }
  eapply rd_weak; [|eapply rd_then; [apply rd_str|exact G|rewrite !sapp_assoc; now apply name_solid|
    eapply rd_then; [now apply rd_name|exact H|reflexivity|
    eapply rd_then; [apply rd_str|exact K|rewrite !sapp_assoc; exact S|exact Y]]]].
  cbn beta. intros c ts Q. rewrite !column_app in *. exact Q.
Qed.

Lemma pf_object e g key h k x :
  gap g -> spelled name_words key -> gap h -> gap k -> solid x = true ->
  PF json NonAtomic (e ~~ EStr "}") x ->
  PF json NonAtomic (e_object e) ("{" ++ g ++ key ++ h ++ ":" ++ k ++ x).
Proof.
  intros G N H K S X. unfold e_object.
  eapply pf_seq2; [apply pt_str|apply (sk_gap JsonPolicy g); [exact G|now apply name_solid]|].
  eapply pf_seq2; [eapply (pt_rd (lang := JsonPolicy)); now apply rd_name|apply (sk_gap JsonPolicy h); [exact H|reflexivity]|].
  eapply pf_seq2; [apply pt_str|apply (sk_gap JsonPolicy k); [exact K|exact S]|exact X].
Qed.

Lemma object_inv e n s s' ts : run json n NonAtomic (e_object e) s = Done s' ts ->
  exists g key h k l m s1 s2, (m < n)%nat /\ gap g /\ spelled name_words key /\ gap h /\ gap k /\ gap l /\
    st_rest s = "{" ++ g ++ key ++ h ++ ":" ++ k ++ st_rest s1 /\
    st_col s1 = column_after ("{" ++ g ++ key ++ h ++ ":" ++ k) (st_col s) /\
    run json m NonAtomic e s1 = Done s2 ts /\ st_rest s2 = l ++ "}" ++ st_rest s'.
Proof.
  intros H. unfold e_object in H.
  apply inv_seq in H as (m1 & s1 & t1 & s2 & t2 & t3 & -> & A & E1 & H & ->).
  apply inv_seq in H as (m2 & s3 & t4 & s4 & t5 & t6 & -> & B & E2 & H & ->).
  apply inv_seq in H as (m3 & s5 & t7 & s6 & t8 & t9 & -> & C & E3 & H & ->).
  apply inv_seq in H as (m4 & s7 & t10 & s8 & t11 & t12 & -> & D & E4 & F & ->).
  pose proof (fun u => run_col _ _ _ _ _ _ _ u A) as ColA. pose proof (fun u => run_col _ _ _ _ _ _ _ u B) as ColB.
  pose proof (fun u => run_col _ _ _ _ _ _ _ u C) as ColC.
  apply inv_str in A as (A & ->). apply name_inv in B as (key & N & B & ->). apply inv_str in C as (C & ->).
  apply inv_str in F as (F & ->).
  apply (skip_inv JsonPolicy) in E1 as (g & G & E1 & K1), E2 as (h & Gh & E2 & K2), E3 as (k & Gk & E3 & K3),
    E4 as (l & Gl & E4 & _).
  exists g, key, h, k, l, m4, s6, s7. split; [lia|]. do 5 (split; [assumption|]). split.
  { rewrite A, E1, B, E2, C, E3. reflexivity. }
  split.
  { rewrite K3, (ColC _ C), K2, (ColB _ B), K1, (ColA _ A), <- !adv_column, !adv_app. reflexivity. }
  rewrite E4, F. cbn [app]. rewrite app_nil_r. auto.
Qed.

(** ** Lists of children: [op , children : [ ... ]] *)

Definition e_list (t : bool) (e : expr rule) : expr rule :=
  ERule (op_rule t) ~~ EStr "," ~~ ERule CHILDREN ~~ EStr ":" ~~ EStr "[" ~~ e.
Definition e_nodes : expr rule := ERule node ~~ EStar (EStr "," ~~ ERule node) ~~ EStr "]".

Lemma kids_body t : g_body json (kids_rule t) = (e_list t (EStr "]") // e_list t e_nodes).
Proof. now destruct t. Qed.
Lemma node_body : g_body json node =
  (e_object (ERule value) // e_object (ERule (kids_rule true)) // e_object (ERule (kids_rule false))).
Proof. reflexivity. Qed.

Lemma rd_list t e op g h key k l i x y T :
  spelled (op_words t) op -> gap g -> gap h -> spelled children_words key -> gap k -> gap l -> gap i ->
  solid (x ++ y) = true -> RD JsonPolicy NonAtomic e x y T ->
  RD JsonPolicy NonAtomic (e_list t e) (op ++ g ++ "," ++ h ++ key ++ k ++ ":" ++ l ++ "[" ++ i ++ x) y
     (fun c => T (column_after i (column_after (op ++ g ++ "," ++ h ++ key ++ k ++ ":" ++ l ++ "[") c))).
Proof.
  intros O G H N K Lg Gi S X. unfold e_list.
  eapply rd_weak; [|
    eapply rd_then; [apply rd_pt, (pt_op' JsonPolicy); exact O|exact G|reflexivity|
    eapply rd_then; [apply rd_str|exact H|rewrite !sapp_assoc; now apply children_solid|
    eapply rd_then; [now apply rd_children|exact K|reflexivity|
    eapply rd_then; [apply rd_str|exact Lg|reflexivity|
    eapply rd_then; [apply rd_str|exact Gi|exact S|exact X]]]]]].
  cbn beta. intros c ts Q. rewrite !column_app in *. exact Q.
Qed.

Lemma pf_list t e op g h key k l i x :
  spelled (op_words t) op -> gap g -> gap h -> spelled children_words key -> gap k -> gap l -> gap i ->
  solid x = true -> PF json NonAtomic e x ->
  PF json NonAtomic (e_list t e) (op ++ g ++ "," ++ h ++ key ++ k ++ ":" ++ l ++ "[" ++ i ++ x).
Proof.
  intros O G H N K Lg Gi S X. unfold e_list.
  eapply pf_seq2; [apply (pt_op' JsonPolicy); exact O|apply (sk_gap JsonPolicy g); [exact G|reflexivity]|].
  eapply pf_seq2; [apply pt_str|apply (sk_gap JsonPolicy h); [exact H|now apply children_solid]|].
  eapply pf_seq2; [eapply (pt_rd (lang := JsonPolicy)); now apply rd_children|apply (sk_gap JsonPolicy k); [exact K|reflexivity]|].
  eapply pf_seq2; [apply pt_str|apply (sk_gap JsonPolicy l); [exact Lg|reflexivity]|].
  eapply pf_seq2; [apply pt_str|apply (sk_gap JsonPolicy i); [exact Gi|exact S]|exact X].
Qed.

Lemma list_inv t e n s s' ts : run json n NonAtomic (e_list t e) s = Done s' ts ->
  exists op g h key k l i m s1, (m < n)%nat /\ spelled (op_words t) op /\ gap g /\ gap h /\ spelled children_words key /\
    gap k /\ gap l /\ gap i /\
    st_rest s = op ++ g ++ "," ++ h ++ key ++ k ++ ":" ++ l ++ "[" ++ i ++ st_rest s1 /\
    st_col s1 = column_after i (column_after (op ++ g ++ "," ++ h ++ key ++ k ++ ":" ++ l ++ "[") (st_col s)) /\
    run json m NonAtomic e s1 = Done s' ts.
Proof.
  intros H. unfold e_list in H.
  apply inv_seq in H as (m1 & s1 & t1 & s2 & t2 & t3 & -> & A & E1 & H & ->).
  apply inv_seq in H as (m2 & s3 & t4 & s4 & t5 & t6 & -> & B & E2 & H & ->).
  apply inv_seq in H as (m3 & s5 & t7 & s6 & t8 & t9 & -> & C & E3 & H & ->).
  apply inv_seq in H as (m4 & s7 & t10 & s8 & t11 & t12 & -> & D & E4 & H & ->).
  apply inv_seq in H as (m5 & s9 & t13 & s10 & t14 & t15 & -> & F & E5 & H & ->).
  pose proof (fun u => run_col _ _ _ _ _ _ _ u A) as ColA. pose proof (fun u => run_col _ _ _ _ _ _ _ u B) as ColB.
  pose proof (fun u => run_col _ _ _ _ _ _ _ u C) as ColC. pose proof (fun u => run_col _ _ _ _ _ _ _ u D) as ColD.
  pose proof (fun u => run_col _ _ _ _ _ _ _ u F) as ColF.
  apply (op_inv JsonPolicy) in A as (op & Op & A & ->). apply inv_str in B as (B & ->).
  apply children_inv in C as (key & N & C & ->). apply inv_str in D as (D & ->), F as (F & ->).
  apply (skip_inv JsonPolicy) in E1 as (g & G & E1 & K1), E2 as (h & Gh & E2 & K2), E3 as (k & Gk & E3 & K3),
    E4 as (l & Gl & E4 & K4), E5 as (i & Gi & E5 & K5).
  exists op, g, h, key, k, l, i, m5, s10. split; [lia|]. do 7 (split; [assumption|]). split.
  { rewrite A, E1, B, E2, C, E3, D, E4, F, E5. reflexivity. }
  split; [|exact H].
  rewrite K5, (ColF _ F), K4, (ColD _ D), K3, (ColC _ C), K2, (ColB _ B), K1, (ColA _ A), <- !adv_column, !adv_app. reflexivity.
Qed.

(** ** Every accepted text is a written policy *)

Definition jnode_res (s s' : st) (ts : list (tok rule)) : Prop :=
  exists w k, jwellformed w /\ st_rest s = jshow w ++ st_rest s' /\ preferred (st_rest s') w /\
    ts = [k] /\ build k = jval (st_col s) w.

Lemma jmore_inv n :
  (forall m s s' ts, m < n -> run json m NonAtomic (ERule node) s = Done s' ts -> jnode_res s s' ts)%nat ->
  forall m s s' ts, (m <= n)%nat -> run json m NonAtomic (EMore (EStr "," ~~ ERule node)) s = Done s' ts ->
  exists r, jwellformed_more r /\ st_rest s = jshow_more r ++ st_rest s' /\ preferred_more (st_rest s') r /\
    build_all ts = jvals (st_col s) r.
Proof.
  intros IH. induction m as [m IHm] using lt_wf_ind. intros s s' ts L H.
  apply inv_more in H as (k & -> & [(-> & ->)|(s1 & u & s2 & t2 & t3 & A & B & C & ->)]).
  - exists JStop. cbn. auto.
  - apply (skip_inv JsonPolicy) in A as (g1 & G1 & A & K1).
    apply inv_seq in B as (k1 & s3 & t4 & s4 & t5 & t6 & -> & B & E & D & ->).
    pose proof (fun u => run_col _ _ _ _ _ _ _ u B) as Col.
    apply inv_str in B as (B & ->).
    apply (skip_inv JsonPolicy) in E as (h1 & H1 & E & K2).
    pose proof (fun u => run_col _ _ _ _ _ _ _ u D) as Col2.
    apply IH in D as (w & kk & W & D & Pw & -> & Bk); [|lia].
    apply IHm in C as (r & R & C & Pr & Br); [|lia|lia].
    exists (JNext g1 h1 w r). cbn [jwellformed_more jshow_more preferred_more]. split; [auto|]. split.
    { rewrite A, B, E, D, C. now rewrite !sapp_assoc. }
    split; [rewrite <- C; auto|].
    assert (Kc : st_col s4 = column_after (g1 ++ "," ++ h1) (st_col s)).
    { rewrite K2, (Col _ B), K1, <- adv_column, !adv_app. reflexivity. }
    cbn [app]. apply build_next; [now rewrite <- Kc|]. rewrite Br, <- Kc. f_equal. rewrite (Col2 (jshow w) D).
    apply adv_column.
Qed.

Lemma nodes_inv n s s' ts :
  (forall m s s' ts, m < n -> run json m NonAtomic (ERule node) s = Done s' ts -> jnode_res s s' ts)%nat ->
  run json n NonAtomic e_nodes s = Done s' ts ->
  exists w r h k us, jwellformed w /\ jwellformed_more r /\ gap h /\
    st_rest s = jshow w ++ jshow_more r ++ h ++ "]" ++ st_rest s' /\
    preferred (jshow_more r ++ h ++ "]" ++ st_rest s') w /\ preferred_more (h ++ "]" ++ st_rest s') r /\
    ts = k :: us /\ build k = jval (st_col s) w /\ build_all us = jvals (column_after (jshow w) (st_col s)) r.
Proof.
  intros IH H. unfold e_nodes in H.
  apply inv_seq in H as (m1 & s1 & t1 & s2 & t2 & t3 & -> & A & E1 & H & ->).
  apply inv_seq in H as (m2 & s3 & t4 & s4 & t5 & t6 & -> & B & E2 & C & ->).
  pose proof (fun u => run_col _ _ _ _ _ _ _ u A) as ColA.
  apply IH in A as (w & k & W & A & Pw & -> & Bk); [|lia]. apply inv_str in C as (C & ->).
  apply (skip_inv JsonPolicy) in E1 as (g1 & G1 & E1 & K1), E2 as (g2 & G2 & E2 & _).
  assert (X : exists r h, jwellformed_more r /\ gap h /\ st_rest s1 = jshow_more r ++ h ++ "]" ++ st_rest s' /\
                preferred_more (h ++ "]" ++ st_rest s') r /\ build_all t4 = jvals (st_col s1) r).
  { apply inv_star in B as (m4 & Em4 & [(-> & ->)|(s7 & t10 & t11 & D1 & D2 & ->)]).
    - exists JStop, (g1 ++ g2). cbn [jwellformed_more preferred_more jshow_more].
      repeat (split; [solve [auto using gap_app]|]). split; [rewrite E1, E2, C; now rewrite !sapp_assoc|]. auto.
    - apply inv_seq in D1 as (m5 & s8 & t12 & s9 & t13 & t14 & Em & F1 & E4 & F2 & ->).
      pose proof (fun u => run_col _ _ _ _ _ _ _ u F1) as ColF1.
      pose proof (fun u => run_col _ _ _ _ _ _ _ u F2) as ColF2.
      apply inv_str in F1 as (F1 & ->).
      apply (skip_inv JsonPolicy) in E4 as (g4 & G4 & E4 & K4).
      apply IH in F2 as (w3 & k3 & W3 & F2 & P3 & -> & Bk3); [|lia].
      apply (jmore_inv _ IH) in D2 as (r & R & D2 & Pr & Br); [|lia].
      exists (JNext g1 g4 w3 r), g2. cbn [jwellformed_more jshow_more preferred_more].
      rewrite C in E2. split; [auto|]. split; [exact G2|]. split.
      { rewrite E1, F1, E4, F2, D2, E2. now rewrite !sapp_assoc. }
      rewrite E2 in *. rewrite D2 in P3. split; [auto|].
      assert (K9 : st_col s9 = column_after (g1 ++ "," ++ g4) (st_col s1)).
      { rewrite K4, (ColF1 _ F1), K1, <- !adv_column, !adv_app. reflexivity. }
      cbn [app]. apply build_next; [now rewrite <- K9|]. rewrite Br, <- K9. f_equal. rewrite (ColF2 _ F2). apply adv_column. }
  destruct X as (r & h & R & Gh & X & Pr & Br). exists w, r, h, k, t4.
  split; [exact W|]. split; [exact R|]. split; [exact Gh|]. split; [now rewrite A, X|].
  split; [now rewrite <- X|]. split; [exact Pr|]. split; [cbn [app]; now rewrite app_nil_r|]. split; [exact Bk|].
  rewrite Br. f_equal. rewrite (ColA _ A). apply adv_column.
Qed.

Lemma kids_inv t n s s' ts :
  (forall m s s' ts, m < n -> run json m NonAtomic (ERule node) s = Done s' ts -> jnode_res s s' ts)%nat ->
  run json n NonAtomic (ERule (kids_rule t)) s = Done s' ts ->
  exists op g h key k l i u, let b := JKids t op g h key k l i in
    jwellformed_body b /\ st_rest s = jshow_body b ++ st_rest s' /\ preferred_kids ("]" ++ st_rest s') i /\
    ts = [u] /\ build u = jval_body (st_col s) b.
Proof.
  intros IH H. apply inv_rule in H as (m & t' & -> & H & Et).
  replace (mode json NonAtomic (kids_rule t)) with NonAtomic in H by (now destruct t). rewrite kids_body in H.
  assert (Et' : ts = [Tok (kids_rule t) (st_col s) (between s s') t']) by (now destruct t). clear Et. subst ts.
  apply inv_alt in H as (m1 & -> & [H|(_ & H)]).
  - apply list_inv in H as (op & g & h & key & k & l & i & m2 & s1 & Lm & O & G & Gh & N & K & Gl & Gi & E & Ec & H).
    apply inv_str in H as (H & ->). exists op, g, h, key, k, l, (JNone i). eexists. cbv zeta.
    cbn [jwellformed_body jshow_body jshow_kids preferred_kids jwellformed_kids].
    split; [auto 8|]. split; [rewrite E, H; now rewrite !sapp_assoc|]. split; [exact I|]. split; [reflexivity|].
    now apply build_kids.
  - apply list_inv in H as (op & g & h & key & k & l & i & m2 & s1 & Lm & O & G & Gh & N & K & Gl & Gi & E & Ec & H).
    apply nodes_inv in H as (w & r & j & u & us & W & R & Gj & E' & Pw & Pr & -> & B & Bs); [|intros; apply (IH m); [lia|assumption]].
    exists op, g, h, key, k, l, (JSome i w r j). eexists. cbv zeta.
    cbn [jwellformed_body jshow_body jshow_kids preferred_kids jwellformed_kids].
    split; [auto 12|]. split; [rewrite E, E'; now rewrite !sapp_assoc|]. split; [auto|]. split; [reflexivity|].
    apply build_kids. apply build_some; [now rewrite <- Ec|now rewrite <- Ec].
Qed.

(** A quoted name with its column. *)
Lemma rd_value_name raw y : quotable raw ->
  RD JsonPolicy NonAtomic (ERule value) (dquote ++ raw ++ dquote) y
    (fun c ts => exists k, ts = [k] /\ build k = jval_body c (JName raw)).
Proof.
  intros Q. apply rd_silent; [reflexivity|]. cbn [g_body json json_body]. apply rd_left.
  intros c. pose proof (pt_name JsonPolicy raw y Q c) as (c' & ts & R & _).
  assert (E : dquote ++ raw ++ dquote ++ y = (dquote ++ raw ++ dquote) ++ y) by (now rewrite !sapp_assoc).
  rewrite E in R. pose proof (Runs_col _ _ _ _ _ _ _ R) as ->. exists ts. split; [exact R|].
  destruct R as (_ & n & R). apply (string_inv JsonPolicy) in R as (x & z & _ & X & ->). cbn [st_rest st_col] in *.
  eexists. split; [reflexivity|]. unfold jval_body. cbn [jwithout_numbers_body jmeaning_body].
  assert (raw = x) as <-; [|reflexivity]. rewrite <- E in X. unfold dquote in X. cbn [append] in X. injection X as X.
  now apply app_cancel in X.
Qed.

(** If the reading as a name fails, the text is no [named_object]. *)
Lemma not_named g key h k x c n : gap g -> spelled name_words key -> gap h -> gap k ->
  run json n NonAtomic (e_object (ERule value)) (St c ("{" ++ g ++ key ++ h ++ ":" ++ k ++ x)) = Fail -> ~ named_object x.
Proof.
  intros G N H K F (raw & l & r & Q & Gl & ->).
  destruct (rd_object (ERule value) g key h k (dquote ++ raw ++ dquote) l r _ G N H K Gl eq_refl
     (rd_value_name raw (l ++ "}" ++ r) Q) c) as (ts & R & _).
  assert (X : Runs json NonAtomic (e_object (ERule value)) (St c ("{" ++ g ++ key ++ h ++ ":" ++ k ++ dquote ++ raw ++ dquote ++ l ++ "}" ++ r)) Fail).
  { split; [discriminate|eauto]. }
  rewrite !sapp_assoc in R. pose proof (Runs_det _ _ _ _ _ _ X R). discriminate.
Qed.

Lemma json_inv n : forall s s' t, run json n NonAtomic (ERule node) s = Done s' t -> jnode_res s s' t.
Proof.
  induction n as [n IH] using lt_wf_ind. intros s s' ts H.
  assert (IHn : (forall m s s' t, m < n -> run json m NonAtomic (ERule node) s = Done s' t -> jnode_res s s' t)%nat).
  { intros m u u' t L. now apply IH. } clear IH.
  apply inv_rule in H as (m & t' & -> & H & ->). change (wrap json NonAtomic node s s' t') with t'.
  change (mode json NonAtomic node) with NonAtomic in H. rewrite node_body in H.
  assert (X : forall t q' q, run json q' NonAtomic (e_object (ERule value)) s = Fail -> (q <= m)%nat ->
    run json q NonAtomic (e_object (ERule (kids_rule t))) s = Done s' t' -> jnode_res s s' t').
  { intros t q' q F Lq R. apply object_inv in R as (g & key & h & k & l & m2 & s1 & s2 & Lm & G & N & Gh & Gk & Gl & E & Ec & R & E2).
    apply kids_inv in R as (op & g' & h' & key' & k' & l' & i & u & Wb & Eb & Pk & -> & B); [|intros; apply (IHn m0); [lia|assumption]].
    exists (JObject g key h k (JKids t op g' h' key' k' l' i) l), u. cbn [jwellformed jshow preferred].
    split; [auto 8|]. split; [rewrite E, Eb, E2; now rewrite !sapp_assoc|]. split; [|split; [reflexivity|]].
    - cbn [preferred_body]. rewrite E2 in Pk. split; [|exact Pk]. rewrite <- E2, <- Eb.
      destruct s as [c y]. cbn [st_rest] in E. subst y. now apply (not_named g key h k _ c q').
    - rewrite B, Ec. reflexivity. }
  apply inv_alt in H as (m1 & -> & [H|(F & H)]).
  - apply object_inv in H as (g & key & h & k & l & m2 & s1 & s2 & Lm & G & N & Gh & Gk & Gl & E & Ec & H & E2).
    apply inv_rule in H as (m3 & t'' & -> & H & ->). change (wrap json NonAtomic value s1 s2 t'') with t''.
    change (mode json NonAtomic value) with NonAtomic in H. cbn [g_body json json_body] in H.
    apply inv_alt in H as (m4 & -> & [H|(_ & H)]).
    + apply (string_inv JsonPolicy) in H as (x & y & Q & Ex & ->). exists (JObject g key h k (JName x) l). eexists.
      cbn [jwellformed jwellformed_body jshow jshow_body preferred preferred_body].
      split; [auto 8|]. split; [rewrite E, Ex, E2; now rewrite !sapp_assoc|]. split; [exact I|]. split; [reflexivity|].
      unfold jval. cbn [jwithout_numbers jwithout_numbers_body jmeaning jmeaning_body]. now rewrite <- Ec.
    + apply (number_tok JsonPolicy) in H as (x & y & Q & Ex & ->). exists (JObject g key h k (JNumber x) l). eexists.
      cbn [jwellformed jwellformed_body jshow jshow_body preferred preferred_body].
      split; [auto 8|]. split; [rewrite E, Ex, E2; now rewrite !sapp_assoc|]. split; [exact I|]. split; reflexivity.
  - apply inv_alt in H as (m2 & -> & [H|(_ & H)]).
    + apply (X true _ _ F) in H; [exact H|lia].
    + apply (X false _ _ F) in H; [exact H|lia].
Qed.

Theorem json_sound pol s' t ts : run json (fuel_of pol) NonAtomic (ERule content) (St 1 pol) = Done s' (t :: ts) ->
  exists g w, json_layout pol g w /\ build t = jval (column_after g 1) w.
Proof.
  intros H. apply inv_rule in H as (m & t' & Em & H & Ht). clear Em.
  change (wrap json NonAtomic content (St 1 pol) s' t') with t' in Ht. change (mode json NonAtomic content) with NonAtomic in H.
  cbn [g_body json json_body] in H. unfold e_content in H.
  apply inv_seq in H as (m1 & s1 & t1 & s2 & t2 & t3 & -> & A & E1 & H & ->).
  apply inv_seq in H as (m2 & s3 & t4 & s4 & t5 & t6 & -> & B & E2 & D & ->).
  apply inv_soi in A as (-> & ->). apply inv_eoi in D as (-> & D & u & ->).
  apply (skip_inv JsonPolicy) in E1 as (g1 & G1 & E1 & K1), E2 as (g2 & G2 & E2 & _).
  apply json_inv in B as (w & k & W & B & Pw & -> & Bk). cbn [app] in Ht. injection Ht as -> ->.
  rewrite D, app_empty in E2. rewrite E2 in *. exists g1, w. split.
  - exists g2. cbn [st_rest] in E1. rewrite E1, B. auto.
  - rewrite Bk. cbn [st_col] in K1. now rewrite K1, adv_column.
Qed.

(** ** Every written policy is accepted, with its meaning *)

Definition jreads_as (w : jwritten) (c : nat) : toks := fun ts => exists k, ts = [k] /\ build k = jval c w.
Definition jreads_body (b : jbody) (c : nat) : toks := fun ts => exists k, ts = [k] /\ build k = jval_body c b.
Definition jreads_kids (i : jkids) (c : nat) : toks := fun ts => build_all ts = jvals_kids c i.
Definition jreads_more (r : jmore) (c : nat) : toks := fun ts => build_all ts = jvals c r.

Lemma op_not_number t op (y : string) m s' ts c : spelled (op_words t) op ->
  run json m NonAtomic (ERule number) (St c (op ++ y)) = Done s' ts -> False.
Proof.
  intros O H. apply (number_tok JsonPolicy) in H as (x & z & Q & E & _). cbn [st_rest] in E.
  apply numeral_is in Q. destruct (numeral_head x (st_rest s') Q) as (b & r & Eb & Hb). rewrite Eb in E.
  destruct O as [v I|v g h I _ _].
  - destruct t; cbn [op_words In] in I; destruct I as [<-|[<-|[<-|[]]]]; cbn [append] in E; injection E as <- _;
      destruct Hb as [Hb|Hb]; discriminate.
  - unfold dquote in E. cbn [append] in E. injection E as <- _. destruct Hb as [Hb|Hb]; discriminate.
Qed.

(** The reading as a name fails on operators. *)
Lemma pf_value_op t op (y : string) : spelled (op_words t) op -> ~ named_object (op ++ y) ->
  PF json NonAtomic (ERule value ~~ EStr "}") (op ++ y).
Proof.
  intros O N c. set (e := ERule value ~~ EStr "}"). set (s := St c (op ++ y)).
  set (n := (len s * B kmax m_non + kmax * M m_atomic m_non NonAtomic + size sk_bound NonAtomic e)%nat).
  assert (F : run json n NonAtomic e s <> Fuel) by (apply enough_json; [reflexivity|apply Nat.le_refl]).
  clearbody n. destruct (run json n NonAtomic e s) as [|s' ts|] eqn:R; [split; [discriminate|eauto]|exfalso|congruence].
  unfold e in R. apply inv_seq in R as (m & s1 & t1 & s2 & t2 & t3 & _ & A & E1 & D & _).
  apply inv_str in D as (D & _). apply (skip_inv JsonPolicy) in E1 as (l & G & E1 & _).
  apply inv_rule in A as (m1 & t' & _ & A & _). change (mode json NonAtomic value) with NonAtomic in A.
  cbn [g_body json json_body] in A. apply inv_alt in A as (m2 & _ & [A|(_ & A)]).
  - apply (string_inv JsonPolicy) in A as (x & z & Q & E & _). apply N. exists x, l, (st_rest s').
    split; [exact Q|]. split; [exact G|]. rewrite <- D, <- E1. exact E.
  - eapply op_not_number; eassumption.
Qed.

Lemma pf_kids_op t op (y : string) : spelled (op_words (negb t)) op -> PF json NonAtomic (ERule (kids_rule t) ~~ EStr "}") (op ++ y).
Proof.
  intros O. apply pf_seq1, pf_rule. rewrite kids_body. replace (mode json NonAtomic (kids_rule t)) with NonAtomic by (now destruct t).
  apply pf_alt; apply pf_seq1; now apply (pf_op' JsonPolicy t).
Qed.

Definition jnode_ok (w : jwritten) : Prop := jwellformed w -> forall y, preferred y w ->
  RD JsonPolicy NonAtomic (ERule node) (jshow w) y (jreads_as w).
(** The body alone, for the alternative that applies. *)
Definition jbody_rule (b : jbody) : rule := match b with JKids t _ _ _ _ _ _ _ => kids_rule t | _ => value end.
Definition jbody_ok (b : jbody) : Prop := jwellformed_body b -> forall y, ends_number y = true -> preferred_body y b ->
  solid (jshow_body b ++ y) = true /\
  RD JsonPolicy NonAtomic (ERule (jbody_rule b)) (jshow_body b) y (jreads_body b).
Definition jkids_ok (i : jkids) : Prop := jwellformed_kids i -> forall t op g h key k l y,
  spelled (op_words t) op -> gap g -> gap h -> spelled children_words key -> gap k -> gap l -> preferred_kids ("]" ++ y) i ->
  RD JsonPolicy NonAtomic (g_body json (kids_rule t)) (op ++ g ++ "," ++ h ++ key ++ k ++ ":" ++ l ++ "[" ++ jshow_kids i ++ "]") y
    (fun c => jreads_kids i (column_after (op ++ g ++ "," ++ h ++ key ++ k ++ ":" ++ l ++ "[") c)).
Definition jmore_ok (r : jmore) : Prop := jwellformed_more r -> forall h y, gap h -> preferred_more (h ++ "]" ++ y) r ->
  RD JsonPolicy NonAtomic (EMore (EStr "," ~~ ERule node)) (jshow_more r) (h ++ "]" ++ y) (jreads_more r) /\
  (exists u v, gap u /\ jshow_more r ++ h = u ++ v /\ solid (v ++ "]" ++ y) = true /\
     RD JsonPolicy NonAtomic (EStar (EStr "," ~~ ERule node) ~~ EStr "]") (v ++ "]") y
       (fun c ts => forall c0, c = column_after u c0 -> jreads_more r c0 ts)).

Lemma jshow_solid w (y : string) : solid (jshow w ++ y) = true.
Proof. destruct w. reflexivity. Qed.

Lemma object_ok g key h k b l : jbody_ok b -> jnode_ok (JObject g key h k b l).
Proof.
  intros Hb (G & N & Gh & Gk & Wb & Gl) y Pb. cbn [preferred] in Pb.
  destruct (Hb Wb (l ++ "}" ++ y)) as (S & X); [apply gap_ends; [exact Gl|reflexivity]|exact Pb|].
  pose proof (rd_object _ g key h k (jshow_body b) l y _ G N Gh Gk Gl S X) as Y.
  apply rd_silent; [reflexivity|]. change (g_body (grammar_of JsonPolicy) node) with (g_body json node). rewrite node_body. cbn [jshow].
  assert (Z : RD JsonPolicy NonAtomic (e_object (ERule (jbody_rule b))) ("{" ++ g ++ key ++ h ++ ":" ++ k ++ jshow_body b ++ l ++ "}") y
    (jreads_as (JObject g key h k b l))).
  { eapply rd_weak; [|exact Y]. intros c ts (u & -> & B). exists u. split; [reflexivity|exact B]. }
  clear Y. destruct b as [raw|x|t op g' h' key' k' l' i]; cbn [jbody_rule] in Z; [now apply rd_left|now apply rd_left|].
  cbn [jwellformed_body preferred_body] in Wb, Pb. destruct Wb as (O & _), Pb as (Pn & _).
  assert (Sx : forall z : string, solid (op ++ z) = true) by (intros z; now apply (spelled_solid t)).
  set (b := JKids t op g' h' key' k' l' i) in *.
  assert (Eb : exists z, jshow_body b ++ l ++ "}" ++ y = op ++ z).
  { unfold b. cbn [jshow_body]. rewrite !sapp_assoc. eauto. }
  destruct Eb as (z & Ez). rewrite Ez in Pn. apply rd_right.
  { rewrite !sapp_assoc, Ez. apply pf_object; auto. now apply (pf_value_op t). }
  destruct t; [now apply rd_left|]. apply rd_right; [|exact Z].
  rewrite !sapp_assoc, Ez. apply pf_object; auto. now apply (pf_kids_op true).
Qed.

Lemma name_ok raw : jbody_ok (JName raw).
Proof. intros Q y _ _. split; [reflexivity|]. now apply rd_value_name. Qed.
Lemma number_ok x : jbody_ok (JNumber x).
Proof.
  intros Q y E _. apply numeral_is in Q. destruct (pt_value_number JsonPolicy x y Q E) as (S & _ & P). split; [exact S|].
  eapply rd_weak; [|apply rd_pt, P]. intros c ts (c' & z & ->). eexists. split; reflexivity.
Qed.

Lemma kids_ok t op g h key k l i : jkids_ok i -> jbody_ok (JKids t op g h key k l i).
Proof.
  intros Hi (O & G & Gh & N & K & Gl & Wi) y _ (_ & Pi). cbn [jshow_body jbody_rule].
  split; [rewrite !sapp_assoc; now apply (spelled_solid t)|].
  pose proof (Hi Wi t op g h key k l y O G Gh N K Gl Pi) as X. intros c. destruct (X c) as (ts & R & B).
  eexists. split.
  - eapply (Runs_rule json NonAtomic (kids_rule t)). replace (mode json NonAtomic (kids_rule t)) with NonAtomic by (now destruct t).
    exact R.
  - eexists. split; [destruct t; reflexivity|]. now apply build_kids.
Qed.

Lemma none_ok g : jkids_ok (JNone g).
Proof.
  intros Gi t op g' h key k l y O G Gh N K Gl _. rewrite kids_body. apply rd_left. cbn [jshow_kids].
  eapply rd_weak; [|apply (rd_list t (EStr "]") op g' h key k l g "]" y _ O G Gh N K Gl Gi eq_refl (rd_str _ _))]. intros c ts ->. reflexivity.
Qed.

Lemma some_ok g w r h : jnode_ok w -> jmore_ok r -> jkids_ok (JSome g w r h).
Proof.
  intros Hw Hr (Gi & Ww & Wr & Gj) t op g' h' key k l y O G Gh N K Gl (Pw & Pr). rewrite kids_body. cbn [jshow_kids].
  rewrite !sapp_assoc. apply rd_right.
  { rewrite !sapp_assoc. apply pf_list; auto; [apply jshow_solid|]. apply pf_str. destruct w. reflexivity. }
  destruct (Hr Wr h y Gj Pr) as (_ & u & v & Gu & E & S & X).
  assert (Sv : solid ((v ++ "]") ++ y) = true) by (rewrite sapp_assoc; exact S).
  assert (Ey : jshow_more r ++ h ++ "]" ++ y = u ++ (v ++ "]") ++ y).
  { rewrite sapp_assoc, <- (sapp_assoc u), <- E, !sapp_assoc. reflexivity. }
  pose proof (Hw Ww _ Pw) as Xw. rewrite Ey in Xw.
  pose proof (rd_seq _ _ _ u (v ++ "]") y _ _ Xw Gu Sv X) as Y.
  assert (Ex : jshow w ++ u ++ v ++ "]" = jshow w ++ jshow_more r ++ h ++ "]").
  { f_equal. rewrite <- (sapp_assoc u), <- E, !sapp_assoc. reflexivity. }
  rewrite Ex in Y.
  eapply rd_weak; [|eapply (rd_list t e_nodes); [..|exact Y]; auto; rewrite !sapp_assoc; apply jshow_solid].
  cbn beta. intros c ts (t1 & t2 & -> & (kk & -> & B) & Q). unfold jreads_kids. cbn [app].
  apply build_some; [exact B|]. apply Q. now rewrite column_app.
Qed.

Lemma stop_ok : jmore_ok JStop.
Proof.
  intros _ h y G _. cbn [jshow_more append]. split.
  - intros c. exists []. split; [|reflexivity]. cbn [append column_after].
    eapply Runs_more0; [apply (skips_gap (lang := JsonPolicy)); [exact G|reflexivity]|]. apply pf_seq1, pf_str. reflexivity.
  - exists h, "". split; [exact G|]. rewrite app_empty. split; [reflexivity|]. split; [reflexivity|].
    assert (X : RD JsonPolicy NonAtomic (EStar (EStr "," ~~ ERule node)) "" ("" ++ "]" ++ y) (fun _ => nil)).
    { apply rd_pt. apply pt_star0, pf_seq1, pf_str. reflexivity. }
    eapply rd_weak; [|apply (rd_seq _ _ "" "" "]" y _ _ X gap_nil eq_refl (rd_str "]" y))].
    intros c ts (t1 & t2 & -> & -> & ->) c0 _. reflexivity.
Qed.

Lemma next_ok g h w r : jnode_ok w -> jmore_ok r -> jmore_ok (JNext g h w r).
Proof.
  intros Hw Hr (G & Gh & Ww & Wr) j y Gj (Pw & Pr). cbn [jshow_more].
  destruct (Hr Wr j y Gj Pr) as (X & _).
  pose proof (Hw Ww _ Pw) as Xw.
  pose proof (rd_then _ _ "," h (jshow w) _ _ (rd_str "," _) Gh (jshow_solid w _) Xw) as Y. cbn beta in Y.
  split.
  - intros c. destruct (Y (column_after g c)) as (t1 & R1 & kk & -> & B1).
    destruct (X (column_after ("," ++ h ++ jshow w) (column_after g c))) as (t2 & R2 & B2).
    exists ([kk] ++ t2)%list. split.
    + replace ((g ++ "," ++ h ++ jshow w ++ jshow_more r) ++ j ++ "]" ++ y)
        with (g ++ ("," ++ h ++ jshow w) ++ jshow_more r ++ j ++ "]" ++ y) by (now rewrite !sapp_assoc).
      replace (column_after (g ++ "," ++ h ++ jshow w ++ jshow_more r) c)
        with (column_after (jshow_more r) (column_after ("," ++ h ++ jshow w) (column_after g c)))
        by (now rewrite !column_app).
      eapply Runs_more1; [apply (skips_gap (lang := JsonPolicy)); [exact G|reflexivity]|exact R1|exact R2].
    + unfold jreads_more in *. cbn [app]. apply build_next; [rewrite B1|rewrite B2]; now rewrite !column_app.
  - exists g, ("," ++ h ++ jshow w ++ jshow_more r ++ j). split; [exact G|].
    split; [now rewrite !sapp_assoc|]. split; [reflexivity|].
    assert (Z : RD JsonPolicy NonAtomic (EStar (EStr "," ~~ ERule node)) ("," ++ h ++ jshow w ++ jshow_more r) (j ++ "]" ++ y)
      (fun c ts => forall c0, c = column_after g c0 -> jreads_more (JNext g h w r) c0 ts)).
    { intros c. destruct (Y c) as (t1 & R1 & kk & -> & B1).
      destruct (X (column_after ("," ++ h ++ jshow w) c)) as (t2 & R2 & B2).
      exists ([kk] ++ t2)%list. split.
      - replace (("," ++ h ++ jshow w ++ jshow_more r) ++ j ++ "]" ++ y)
          with (("," ++ h ++ jshow w) ++ jshow_more r ++ j ++ "]" ++ y) by (now rewrite !sapp_assoc).
        replace (column_after ("," ++ h ++ jshow w ++ jshow_more r) c)
          with (column_after (jshow_more r) (column_after ("," ++ h ++ jshow w) c)) by (now rewrite !column_app).
        eapply Runs_star1; [exact R1|exact R2].
      - intros c0 ->. unfold jreads_more in *. cbn [app]. apply build_next; [rewrite B1|rewrite B2]; now rewrite !column_app. }
    pose proof (rd_seq _ _ _ j "]" y _ _ Z Gj eq_refl (rd_str "]" y)) as V.
    replace (("," ++ h ++ jshow w ++ jshow_more r) ++ j ++ "]") with (("," ++ h ++ jshow w ++ jshow_more r ++ j) ++ "]") in V
      by (now rewrite !sapp_assoc).
    eapply rd_weak; [|exact V]. intros c ts (t1 & t2 & -> & Q & ->). now rewrite app_nil_r.
Qed.

Scheme jwritten_mut := Induction for jwritten Sort Prop with jbody_mut := Induction for jbody Sort Prop
  with jkids_mut := Induction for jkids Sort Prop with jmore_mut := Induction for jmore Sort Prop.

Lemma json_reads w : jnode_ok w.
Proof.
  apply (jwritten_mut jnode_ok jbody_ok jkids_ok jmore_ok).
  - intros. now apply object_ok.
  - apply name_ok.
  - apply number_ok.
  - intros. now apply kids_ok.
  - apply none_ok.
  - intros. now apply some_ok.
  - apply stop_ok.
  - intros. now apply next_ok.
Qed.

Theorem json_complete pol g w : json_layout pol g w -> parse pol JsonPolicy = jval (column_after g 1) w.
Proof.
  intros (h & G & W & H & -> & Pw). pose proof (json_reads w W h Pw) as R.
  destruct (R (column_after g 1)) as (ts & R1 & k & -> & B).
  assert (X : Runs json NonAtomic e_content (St 1 (g ++ jshow w ++ h))
     (Done (St (column_after h (column_after (jshow w) (column_after g 1))) "")
        ([] ++ [k] ++ [Tok EOI (column_after h (column_after (jshow w) (column_after g 1))) "" []]))).
  { unfold e_content. eapply Runs_seq; [apply Runs_soi|apply (skips_gap (lang := JsonPolicy)); [exact G|apply jshow_solid]|].
    pose proof (skips_gap (lang := JsonPolicy) h "" (column_after (jshow w) (column_after g 1)) H eq_refl) as K.
    rewrite app_empty in K. eapply Runs_seq; [exact R1|exact K|now apply Runs_eoi]. }
  rewrite <- B. unfold parse. erewrite (parse_runs _ JsonPolicy); [|apply (Runs_rule json NonAtomic content); exact X]. reflexivity.
Qed.

(** *** C92 *)

Theorem json_accepted pol : parse pol JsonPolicy <> Err <-> exists g w, json_layout pol g w.
Proof.
  split.
  - intros N. destruct (parse_cases pol JsonPolicy) as [(E & _)|(t & s' & (n & s2 & ts & A) & _)]; [congruence|].
    assert (F : run json (fuel_of pol) NonAtomic (ERule content) (St 1 pol) = Done s2 (t :: ts)).
    { apply (parse_runs pol JsonPolicy). split; [discriminate|]. eauto. }
    apply json_sound in F as (g & w & L & _). eauto.
  - intros (g & w & L). rewrite (json_complete _ _ _ L). unfold jval. destruct (jwithout_numbers w); discriminate.
Qed.

Theorem json_rejected pol : parse pol JsonPolicy = Err <-> (forall g w, ~ json_layout pol g w).
Proof.
  split.
  - intros E g w L. rewrite (json_complete _ _ _ L) in E. unfold jval in E. destruct (jwithout_numbers w); discriminate.
  - intros N. destruct (parse_cases pol JsonPolicy) as [(E & _)|(t & s' & (n & s2 & ts & A) & _)]; [exact E|exfalso].
    assert (F : run json (fuel_of pol) NonAtomic (ERule content) (St 1 pol) = Done s2 (t :: ts)).
    { apply (parse_runs pol JsonPolicy). split; [discriminate|]. eauto. }
    apply json_sound in F as (g & w & L & _). now apply (N g w).
Qed.

(** The outcome of the parser on every text. *)
Theorem json_language pol :
  (forall g w, json_layout pol g w ->
     parse pol JsonPolicy = if jwithout_numbers w then Ok (tree (jmeaning (column_after g 1) w)) else Panic) /\
  ((forall g w, ~ json_layout pol g w) -> parse pol JsonPolicy = Err).
Proof. split; [intros g w H; now rewrite (json_complete pol g w H)|]. apply json_rejected. Qed.

Theorem json_ok pol f : parse pol JsonPolicy = Ok (tree f) <->
  exists g w, json_layout pol g w /\ jwithout_numbers w = true /\ f = jmeaning (column_after g 1) w.
Proof.
  split.
  - intros E. destruct (proj1 (json_accepted pol)) as (g & w & L); [congruence|]. exists g, w. split; [exact L|].
    rewrite (json_complete _ _ _ L) in E. unfold jval in E. destruct (jwithout_numbers w); [|discriminate].
    split; [reflexivity|]. apply tree_inj. congruence.
  - intros (g & w & L & N & ->). rewrite (json_complete _ _ _ L). unfold jval. now rewrite N.
Qed.

Theorem json_panics pol : parse pol JsonPolicy = Panic <->
  exists g w, json_layout pol g w /\ jwithout_numbers w = false.
Proof.
  split.
  - intros E. destruct (proj1 (json_accepted pol)) as (g & w & L); [congruence|]. exists g, w. split; [exact L|].
    rewrite (json_complete _ _ _ L) in E. unfold jval in E. destruct (jwithout_numbers w); [discriminate|reflexivity].
  - intros (g & w & L & N). rewrite (json_complete _ _ _ L). unfold jval. now rewrite N.
Qed.

(** One text has one meaning. *)
Theorem json_unambiguous pol g w g' w' : json_layout pol g w -> json_layout pol g' w' ->
  jwithout_numbers w = jwithout_numbers w' /\
  (jwithout_numbers w = true -> jmeaning (column_after g 1) w = jmeaning (column_after g' 1) w').
Proof.
  intros L L'. apply json_complete in L, L'. rewrite L in L'. unfold jval in L'.
  destruct (jwithout_numbers w), (jwithout_numbers w'); try discriminate; split; auto; try discriminate.
  intros _. apply tree_inj. congruence.
Qed.

(** ** When every layout is read *)

Fixpoint last_char (x : string) : option ascii :=
  match x with
  | EmptyString => None
  | String b r => match last_char r with None => Some b | o => o end
  end.
Lemma last_app x y : last_char (x ++ y) = match last_char y with None => last_char x | o => o end.
Proof.
  induction x as [|b x IH]; cbn [append last_char]; [now destruct (last_char y)|]. rewrite IH.
  destruct (last_char y); [reflexivity|]. reflexivity.
Qed.
Lemma gap_last g : gap g -> last_char g <> Some backslash.
Proof.
  induction 1 as [|b x B H IH|u x O H IH]; [discriminate| |].
  - cbn [last_char]. destruct (last_char x); [exact IH|]. intros E. injection E as ->. discriminate.
  - rewrite !last_app. destruct (last_char x); [exact IH|]. discriminate.
Qed.
Lemma op_last t op : In op (op_words t) -> last_char op <> Some backslash /\ last_char op <> None.
Proof. destruct t; cbn [op_words In]; intros [<-|[<-|[<-|[]]]]; split; discriminate. Qed.

Lemma quotable_last x : quotable x -> forall u v, x = u ++ dquote ++ v -> last_char u = Some backslash.
Proof.
  induction 1 as [|b x B H IH|b x B H IH|a b c d x B H IH]; intros u v E.
  - destruct u; discriminate.
  - destruct u as [|e u]; unfold dquote in *; cbn [append] in E.
    + injection E as -> _. discriminate.
    + injection E as -> E. cbn [last_char]. now rewrite (IH _ _ E).
  - destruct u as [|e u]; [discriminate|]. cbn [append] in E. injection E as <- E.
    destruct u as [|e u]; [reflexivity|]. cbn [append] in E. injection E as <- E. cbn [last_char]. now rewrite (IH _ _ E).
  - destruct u as [|e u]; [discriminate|]. cbn [append] in E. injection E as <- E.
    cbn [forallb] in B. apply andb_prop in B as (Ba & B). apply andb_prop in B as (Bb & B). apply andb_prop in B as (Bc & B).
    apply andb_prop in B as (Bd & _).
    destruct u as [|e u]; [discriminate|]. cbn [append] in E. injection E as <- E.
    destruct u as [|e u]; [unfold dquote in E; cbn [append] in E; injection E as -> _; discriminate|]. cbn [append] in E. injection E as <- E.
    destruct u as [|e u]; [unfold dquote in E; cbn [append] in E; injection E as -> _; discriminate|]. cbn [append] in E. injection E as <- E.
    destruct u as [|e u]; [unfold dquote in E; cbn [append] in E; injection E as -> _; discriminate|]. cbn [append] in E. injection E as <- E.
    destruct u as [|e u]; [unfold dquote in E; cbn [append] in E; injection E as -> _; discriminate|]. cbn [append] in E. injection E as <- E.
    cbn [last_char]. now rewrite (IH _ _ E).
Qed.

Lemma gap_unique g h x y : gap g -> gap h -> solid x = true -> solid y = true -> g ++ x = h ++ y -> x = y.
Proof.
  intros G H Sx Sy E. destruct (skips_gap (lang := JsonPolicy) g x 1 G Sx) as (t1 & R1).
  destruct (skips_gap (lang := JsonPolicy) h y 1 H Sy) as (t2 & R2). rewrite E in R1.
  pose proof (Runs_det _ _ _ _ _ _ R1 R2) as X. congruence.
Qed.

Lemma quoteless_app x y : quoteless (x ++ y) = quoteless x && quoteless y.
Proof. induction x as [|b x IH]; cbn; [reflexivity|]. now rewrite IH, andb_assoc. Qed.

Lemma split_app (u : string) : forall v x y, u ++ x = v ++ y ->
  (exists w, v = u ++ w /\ x = w ++ y) \/ (exists w, w <> "" /\ u = v ++ w /\ y = w ++ x).
Proof.
  induction u as [|a u IH]; intros v x y E.
  - left. exists v. auto.
  - destruct v as [|b v]; [right; exists (String a u); cbn [append] in *; repeat split; auto; discriminate|].
    cbn [append] in E. injection E as <- E. apply IH in E as [(w & -> & ->)|(w & N & -> & ->)]; [left|right]; exists w; auto.
Qed.

Lemma tidy_not_named t op g x : spelled (op_words t) op -> tidy_word (op_words t) op -> gap g ->
  ~ named_object (op ++ g ++ "," ++ x).
Proof.
  intros O T G (raw & l & r & Q & Gl & E). destruct O as [v I|v g1 g2 I G1 G2].
  - destruct t; cbn [op_words In] in I; destruct I as [<-|[<-|[<-|[]]]]; discriminate.
  - set (u := g1 ++ v ++ g2) in *.
    assert (Eu : dquote ++ g1 ++ v ++ g2 ++ dquote = dquote ++ u ++ dquote) by (unfold u; now rewrite !sapp_assoc).
    rewrite Eu in *. clear Eu.
    assert (Lu : last_char u <> Some backslash).
    { unfold u. rewrite !last_app. destruct (op_last t v I) as (N1 & N2). pose proof (gap_last g2 G2).
      destruct (last_char g2); [assumption|]. destruct (last_char v); congruence. }
    assert (Qu : quoteless u = true).
    { destruct T as [T|(u' & Eu & Qu)].
      - destruct t; cbn [op_words In] in T; destruct T as [T|[T|[T|[]]]]; discriminate.
      - unfold dquote in Eu. cbn [append] in Eu. injection Eu as Eu. apply app_cancel in Eu as ->. exact Qu. }
    unfold dquote in E at 1 3. rewrite !sapp_assoc in E. cbn [append] in E. injection E as E. fold dquote in E.
    apply split_app in E as [(w & -> & E)|(w & Nw & E1 & E)].
    + destruct w as [|b w]; unfold dquote in E; cbn [append] in E.
      * injection E as E. apply gap_unique in E; auto. discriminate.
      * injection E as <- E. apply Lu. apply (quotable_last _ Q u w). reflexivity.
    + destruct w as [|b w]; [congruence|]. unfold dquote in E. cbn [append] in E. injection E as <- E.
      rewrite E1, quoteless_app in Qu. cbn [quoteless] in Qu. rewrite Ascii.eqb_refl in Qu. cbn in Qu.
      rewrite andb_false_r in Qu. discriminate.
Qed.

Lemma tidy_preferred w : jwellformed w -> tidy w -> forall y, preferred y w.
Proof.
  apply (jwritten_mut
    (fun w => jwellformed w -> tidy w -> forall y, preferred y w)
    (fun b => jwellformed_body b -> tidy_body b -> forall y, preferred_body y b)
    (fun i => jwellformed_kids i -> tidy_kids i -> forall y, preferred_kids y i)
    (fun r => jwellformed_more r -> tidy_more r -> forall y, preferred_more y r)); clear w.
  - intros g key h k b IH l (_ & _ & _ & _ & W & _) T y. cbn [preferred tidy] in *. auto.
  - intros. exact I.
  - intros. exact I.
  - intros t op g h key k l i IH (O & G & _ & _ & _ & _ & W) (T & Ti) y. cbn [preferred_body]. split; [|auto].
    cbn [jshow_body]. rewrite !sapp_assoc. now apply (tidy_not_named t).
  - intros. exact I.
  - intros g f IHf r IHr h (_ & Wf & Wr & _) (Tf & Tr) y. cbn [preferred_kids]. auto.
  - intros. exact I.
  - intros g h n IHn r IHr (_ & _ & Wn & Wr) (Tn & Tr) y. cbn [preferred_more]. auto.
Qed.

Theorem json_tidy g w h : gap g -> jwellformed w -> tidy w -> gap h ->
  parse (g ++ jshow w ++ h) JsonPolicy = if jwithout_numbers w then Ok (tree (jmeaning (column_after g 1) w)) else Panic.
Proof.
  intros G W T H. apply (json_complete _ g w). exists h. repeat (split; [solve [auto]|]). now apply tidy_preferred.
Qed.

(** A comment with a quote and a brace, between the quotes of an operator. *)
Definition stray : jwritten :=
  JObject "" (dquote ++ "name" ++ dquote) "" " "
    (JKids true (dquote ++ "/*""}*/and" ++ dquote) "" " " (dquote ++ "children" ++ dquote) "" " " (JNone "")) "".

Theorem json_stray : jwellformed stray /\ jwithout_numbers stray = true /\ parse (jshow stray) JsonPolicy = Err.
Proof.
  split; [|split; [reflexivity|vm_compute; reflexivity]].
  assert (B : gap " ") by (repeat constructor).
  cbn [stray jwellformed jwellformed_body jwellformed_kids]. repeat apply conj; auto using gap_nil.
  - apply (spelled_quoted name_words "name" "" ""); auto using gap_nil. now left.
  - apply (spelled_quoted (op_words true) "and" "/*""}*/" ""); auto using gap_nil; [now left|].
    apply (gap_comment """}" ""); [reflexivity|constructor].
  - apply (spelled_quoted children_words "children" "" ""); auto using gap_nil. now left.
Qed.

(** The grammar read without precedence is ambiguous: a second comment mark
    inside the quotes of an operator. *)
Definition leaf_text (n : string) : jwritten := JObject "" "name" "" "" (JName n) "".
Definition two_kids : jkids := JSome "" (leaf_text "X") (JNext "" "" (leaf_text "Y") JStop) "".
Definition outer (i : jkids) : jwritten := JObject "" "name" "" "" (JKids true "and" "" "" "children" "" "" i) "".
Definition one_child : jwritten :=
  outer (JSome "" (JObject "" "name" "" "" (JKids true (dquote ++ "/*""},{name:""/**/and" ++ dquote) "" "" "children" "" "" two_kids) "") JStop "").
Definition two_children : jwritten :=
  outer (JSome "" (leaf_text "/*")
    (JNext "" "" (JObject "" "name" "" "" (JKids true (dquote ++ "/**/and" ++ dquote) "" "" "children" "" "" two_kids) "") JStop) "").

Theorem json_ambiguous :
  jwellformed one_child /\ jwellformed two_children /\ jshow one_child = jshow two_children /\
  jmeaning 1 one_child <> jmeaning 1 two_children /\
  parse (jshow one_child) JsonPolicy = Ok (tree (jmeaning 1 two_children)).
Proof.
  assert (X : forall n, quotable n -> jwellformed (leaf_text n)).
  { intros n Q. cbn. repeat apply conj; auto using gap_nil. constructor. now left. }
  assert (T : jwellformed_kids two_kids).
  { assert (Q : forall b, is_ordinary b = true -> quotable (String b "")) by (intros b B; constructor; [exact B|constructor]).
    exact (conj gap_nil (conj (X "X" (Q "X"%char eq_refl)) (conj (conj gap_nil (conj gap_nil (conj (X "Y" (Q "Y"%char eq_refl)) I))) gap_nil))). }
  assert (O : forall i, jwellformed_kids i -> jwellformed (outer i)).
  { intros i Wi. cbn [outer jwellformed jwellformed_body]. repeat apply conj; auto using gap_nil; constructor; now left. }
  assert (N : forall op i, spelled (op_words true) op -> jwellformed_kids i ->
    jwellformed (JObject "" "name" "" "" (JKids true op "" "" "children" "" "" i) "")).
  { intros op i Wo Wi. cbn [jwellformed jwellformed_body]. repeat apply conj; auto using gap_nil; constructor; now left. }
  split; [|split; [|split; [reflexivity|split; [discriminate|vm_compute; reflexivity]]]].
  - apply O. refine (conj gap_nil (conj _ (conj I gap_nil))). apply N; [|exact T].
    apply (spelled_quoted (op_words true) "and" "/*""},{name:""/**/" ""); auto using gap_nil; [now left|].
    apply (gap_comment """},{name:""/*" ""); [reflexivity|constructor].
  - apply O. refine (conj gap_nil (conj _ (conj (conj gap_nil (conj gap_nil (conj _ I))) gap_nil))).
    + apply X. constructor; [reflexivity|]. constructor; [reflexivity|constructor].
    + apply N; [|exact T]. apply (spelled_quoted (op_words true) "and" "/**/" ""); auto using gap_nil; [now left|].
      apply (gap_comment "" ""); [reflexivity|constructor].
Qed.
