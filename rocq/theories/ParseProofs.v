(** * ParseProofs: parsing terminates; what a successful parse looks like *)
From Coq Require Import String Ascii List Bool Arith Lia.
From Verif Require Import Base Policy Spec Peg Grammar Parse PegProofs.
Import ListNotations.

(** ** C01: the fuel is always enough *)

Definition null_human (r : rule) : bool := match r with inner => true | NAME | CHILDREN | EOI => true | _ => false end.
Definition null_json (r : rule) : bool :=
  match r with inner => true | BRACEOPEN | BRACECLOSE | term_ | EOI => true | _ => false end.

Definition rank_human (r : rule) : nat :=
  match r with
  | andinner | orinner | inner | string_ => 1
  | value => 2 | term_ => 3 | and_ | or_ => 4 | node => 5 | content => 6
  | _ => 0
  end.
Definition rank_json (r : rule) : nat :=
  match r with
  | NAME | CHILDREN | andinner | orinner | inner | string_ => 1
  | value | and_ | or_ => 2 | node => 5 | content => 6
  | _ => 0
  end.

Definition kmax : nat := 7.
Definition m_atomic : nat := 40.
Definition m_non : nat := 150.
Definition sk_bound : nat := 60.

Lemma fuel_bound n : n * B kmax m_non + kmax * m_non + 1 <= (n + 1) * 3000.
Proof. unfold B, kmax, m_non. lia. Qed.

Lemma enough_human a e s n :
  wfs null_human e = true -> len s * B kmax m_non + kmax * M m_atomic m_non a + size sk_bound a e <= n ->
  run human n a e s <> Fuel.
Proof.
  intros W. eapply (enough human null_human) with (rank := rank_human);
    try (intros r; destruct r; vm_compute; reflexivity);
    try (intros r []; destruct r; vm_compute; lia);
    try (intros r; destruct r; vm_compute; (discriminate || lia)); try (vm_compute; reflexivity).
  - vm_compute. lia.
  - vm_compute. lia.
  - apply lc_top. intros []; vm_compute; lia.
  - exact W.
Qed.

Lemma enough_json a e s n :
  wfs null_json e = true -> len s * B kmax m_non + kmax * M m_atomic m_non a + size sk_bound a e <= n ->
  run json n a e s <> Fuel.
Proof.
  intros W. eapply (enough json null_json) with (rank := rank_json);
    try (intros r; destruct r; vm_compute; reflexivity);
    try (intros r []; destruct r; vm_compute; lia);
    try (intros r; destruct r; vm_compute; (discriminate || lia)); try (vm_compute; reflexivity).
  - vm_compute. lia.
  - vm_compute. lia.
  - apply lc_top. intros []; vm_compute; lia.
  - exact W.
Qed.

(** For every text the interpreter reaches an answer, and every larger fuel
    gives the same one. *)
Theorem parse_total pol lang : exists r, r <> Fuel /\
  forall n, fuel_of pol <= n ->
    run (grammar_of lang) n NonAtomic (ERule content) (St 1 pol) = r.
Proof.
  assert (E : run (grammar_of lang) (fuel_of pol) NonAtomic (ERule content) (St 1 pol) <> Fuel).
  { pose proof (fuel_bound (len (St 1 pol))) as Fb.
    destruct lang; [apply enough_json|apply enough_human]; try reflexivity;
      unfold fuel_of, len in *; cbn [M size st_rest] in *; lia. }
  eexists. split; [exact E|]. intros n Hn. now apply run_mono.
Qed.

Lemma parse_runs pol lang r :
  Runs (grammar_of lang) NonAtomic (ERule content) (St 1 pol) r ->
  run (grammar_of lang) (fuel_of pol) NonAtomic (ERule content) (St 1 pol) = r.
Proof.
  intros H. destruct (parse_total pol lang) as (r' & N & E). specialize (E (fuel_of pol) (le_n _)).
  apply Runs_run; [exact H|congruence].
Qed.

(** ** The token trees of successful matches *)

(** Shape of a token that stands for a policy node. *)
Inductive good (lang : language) : tok rule -> Prop :=
| good_str c x c' y : good lang (Tok string_ c x [Tok inner c' y []])
| good_num c x : good lang (Tok number c x [])
| good_and c x l : Forall (good lang) l -> (lang = HumanPolicy -> 2 <= length l) -> good lang (Tok and_ c x l)
| good_or c x l : Forall (good lang) l -> (lang = HumanPolicy -> 2 <= length l) -> good lang (Tok or_ c x l).

(** Columns of the leaves, from left to right. *)
Fixpoint cols (t : tok rule) : list nat :=
  match t with
  | Tok inner c _ _ => [c]
  | Tok _ _ _ l => flat_map cols l
  end.

(** Strictly increasing between two columns. *)
Fixpoint chain (lo : nat) (l : list nat) (hi : nat) : Prop :=
  match l with
  | [] => lo <= hi
  | x :: r => lo < x /\ chain x r hi
  end.

Lemma chain_le lo l hi : chain lo l hi -> lo <= hi.
Proof.
  revert lo. induction l as [|x l IH]; cbn; intros lo H; [exact H|].
  destruct H as (A & B). apply IH in B. lia.
Qed.

Lemma chain_lo lo lo' l hi : lo' <= lo -> chain lo l hi -> chain lo' l hi.
Proof. destruct l; cbn; intros; intuition lia. Qed.

Lemma chain_hi lo l : forall hi hi', hi <= hi' -> chain lo l hi -> chain lo l hi'.
Proof. revert lo. induction l as [|x l IH]; cbn; intros lo hi hi' H A; [lia|]. destruct A. split; eauto. Qed.

Lemma chain_app l l' mid hi : forall lo, chain lo l mid -> chain mid l' hi -> chain lo (l ++ l') hi.
Proof.
  induction l as [|x l IH]; cbn; intros lo A B; [eauto using chain_lo|]. destruct A. split; auto.
Qed.

Lemma chain_NoDup l : forall lo hi, chain lo l hi -> NoDup l /\ Forall (fun x => lo < x) l.
Proof.
  induction l as [|x l IH]; cbn; intros lo hi H; [split; constructor|].
  destruct H as (A & B). apply IH in B as (N & F). split; constructor; auto.
  - intros I. eapply Forall_forall in F; eauto. lia.
  - eapply Forall_impl; [|exact F]. cbn. lia.
Qed.

(** No line break in the text. *)
Fixpoint one_line (x : string) : Prop :=
  match x with
  | EmptyString => True
  | String c r => c <> newline /\ one_line r
  end.

Lemma one_line_app x y : one_line (x ++ y) <-> one_line x /\ one_line y.
Proof. induction x as [|c x IH]; cbn; [tauto|]. rewrite IH. tauto. Qed.

Lemma adv_col_le c n : c <> newline -> n <= adv_col c n.
Proof. intros H. unfold adv_col. rewrite (proj2 (Ascii.eqb_neq _ _) H). destruct (is_cont c); lia. Qed.

Lemma adv_le w : forall c, one_line w -> c <= adv w c.
Proof.
  induction w as [|b w IH]; cbn; intros c H; [lia|]. destruct H as (A & B).
  pose proof (adv_col_le b c A). specialize (IH (adv_col b c) B). lia.
Qed.

Lemma reach_one_line s s' : reach s s' -> one_line (st_rest s) ->
  one_line (st_rest s') /\ st_col s <= st_col s'.
Proof.
  intros (w & A & B) H. rewrite A in H. apply one_line_app in H as (H1 & H2).
  split; [exact H2|]. rewrite B. now apply adv_le.
Qed.

Definition within (s s' : st) (l : list nat) : Prop :=
  one_line (st_rest s) -> chain (st_col s) l (st_col s').

Lemma within_app s s1 s2 s' l l' : reach s s1 -> reach s1 s2 ->
  within s s1 l -> within s2 s' l' -> within s s' (l ++ l').
Proof.
  intros R1 R2 A B H. pose proof (reach_one_line _ _ R1 H) as (H1 & _).
  pose proof (reach_one_line _ _ R2 H1) as (H2 & L2). specialize (A H). specialize (B H2).
  eapply chain_app; [exact A|]. eapply chain_lo; [|exact B]. exact L2.
Qed.

Lemma within_nil s s' : reach s s' -> within s s' [].
Proof. intros R H. apply reach_one_line in R; [|exact H]. cbn. tauto. Qed.

(** What each rule may emit. *)
Definition node_toks (lang : language) (s s' : st) (ts : list (tok rule)) : Prop :=
  exists t, ts = [t] /\ good lang t /\ within s s' (cols t).

Definition nodes (lang : language) (s s' : st) (ts : list (tok rule)) : Prop :=
  Forall (good lang) ts /\ within s s' (flat_map cols ts).

Definition post (lang : language) (a : atomicity) (r : rule) (s s' : st) (ts : list (tok rule)) : Prop :=
  reach s s' /\
  match r with
  | node | term_ | value | and_ | or_ | string_ | number => a = NonAtomic -> node_toks lang s s' ts
  | inner => a = Compound -> exists y, ts = [Tok inner (st_col s) y []]
  | char_ => a <> Atomic \/ ts = []
  | content => a = NonAtomic -> exists t c, ts = [t; Tok EOI c EmptyString []] /\ good lang t /\ within s s' (cols t)
  | QUOTE => ts = [] /\ st_col s' = S (st_col s)
  | EOI => True
  | _ => ts = []
  end.

Lemma node_nodes lang s s' ts : node_toks lang s s' ts -> nodes lang s s' ts.
Proof. intros (t & -> & G & W). split; [auto|]. cbn. now rewrite app_nil_r. Qed.

Lemma nodes_nil lang s s' : reach s s' -> nodes lang s s' [].
Proof. intros R. split; [constructor|]. now apply within_nil. Qed.

Lemma nodes_app lang s s1 s2 s' t1 t2 : reach s s1 -> reach s1 s2 ->
  nodes lang s s1 t1 -> nodes lang s2 s' t2 -> nodes lang s s' (t1 ++ t2).
Proof.
  intros R1 R2 (A & B) (C & D). split; [apply Forall_app; auto|]. rewrite flat_map_app. eapply within_app; eauto.
Qed.

Lemma nodes_lo lang s s1 s' t : reach s s1 -> nodes lang s1 s' t -> nodes lang s s' t.
Proof. intros R H. apply (nodes_app lang s s1 s1 s' []); auto using reach_refl, nodes_nil. Qed.

(** Expressions built only from literals emit nothing. *)
Fixpoint quiet (a : atomicity) (e : expr rule) : bool :=
  match e with
  | ESeq x y | EAlt x y => quiet a x && quiet a y
  | EStar x | EMore x | EOpt x | ENot x => quiet a x
  | EEoi _ => false
  | ERule r => match r with
               | WHITESPACE | COMMENT | QUOTE | NAME | CHILDREN | andvalue | orvalue | andinner | orinner
               | BRACEOPEN | BRACECLOSE => true
               | char_ => match a with Atomic => true | _ => false end
               | _ => false
               end
  | _ => true
  end.

Lemma quiet_emits lang a e s s' t : emits (post lang) a e s s' t -> quiet a e = true -> t = [].
Proof.
  induction 1; cbn; intros Q; try reflexivity; try discriminate; try (apply andb_prop in Q as (Q1 & Q2)); auto.
  - rewrite IHemits1, IHemits2 by auto. reflexivity.
  - rewrite IHemits1, IHemits2 by auto. reflexivity.
  - rewrite IHemits1, IHemits2 by auto. reflexivity.
  - destruct H as (_ & H). destruct r; try discriminate; auto; [apply H|].
    destruct H as [H|H]; [destruct a; congruence|exact H].
Qed.

Lemma post_reach lang a r s s' t : post lang a r s s' t -> reach s s'.
Proof. now intros (H & _). Qed.

Lemma ereach lang a e s s' t : emits (post lang) a e s s' t -> reach s s'.
Proof. apply emits_reach. apply post_reach. Qed.

(** Expressions over literals and node rules emit nodes. *)
Definition is_node (r : rule) : bool :=
  match r with node | term_ | value | and_ | or_ | string_ | number => true | _ => false end.
Fixpoint plain (e : expr rule) : bool :=
  match e with
  | ESeq x y | EAlt x y => plain x && plain y
  | EStar x | EMore x | EOpt x => plain x
  | EEoi _ => false
  | ERule r => quiet NonAtomic e || is_node r
  | _ => true
  end.

Lemma plain_nodes lang e s s' t : emits (post lang) NonAtomic e s s' t -> plain e = true -> nodes lang s s' t.
Proof.
  induction 1; cbn [plain]; intros Q; try discriminate; try (apply andb_prop in Q as (Q1 & Q2));
    try (apply nodes_nil, reach_refl); auto.
  - apply nodes_nil. apply (ereach lang NonAtomic (EStr x) s s' []). now constructor.
  - apply nodes_nil. apply (ereach lang NonAtomic (EStrI c) s s' []). now constructor.
  - apply nodes_nil. apply (ereach lang NonAtomic (EAny) s s' []). now constructor.
  - apply nodes_nil. apply (ereach lang NonAtomic (EClass p) s s' []). now constructor.
  - eapply nodes_app; eauto using ereach.
  - eapply nodes_app; [eauto using ereach|apply reach_refl| |]; auto.
  - eapply nodes_lo; [eassumption|]. eapply nodes_app; [eauto using ereach|apply reach_refl| |]; auto.
  - apply orb_prop in Q as [Q|Q].
    + assert (E : t = []) by (apply (quiet_emits lang NonAtomic (ERule r) s s' t); [apply m_rule; exact H|exact Q]). subst t.
      apply nodes_nil. exact (post_reach _ _ _ _ _ _ H).
    + destruct H as (_ & H). apply node_nodes. destruct r; try discriminate; auto.
Qed.

(** Bounds on the number of tokens. *)
Fixpoint least (e : expr rule) : nat :=
  match e with
  | ESeq x y => least x + least y
  | EAlt x y => Nat.min (least x) (least y)
  | ERule r => if is_node r then 1 else 0
  | _ => 0
  end.
Fixpoint most (e : expr rule) : option nat :=
  match e with
  | ESeq x y => match most x, most y with Some n, Some m => Some (n + m) | _, _ => None end
  | EAlt x y => match most x, most y with Some n, Some m => Some (Nat.max n m) | _, _ => None end
  | EStar _ | EMore _ => None
  | EOpt x => most x
  | EEoi _ => None
  | ERule r => if is_node r then Some 1 else if quiet NonAtomic e then Some 0 else None
  | _ => Some 0
  end.

Lemma count_toks lang e s s' t : emits (post lang) NonAtomic e s s' t ->
  least e <= length t /\ (forall n, most e = Some n -> length t <= n).
Proof.
  induction 1; cbn [least most]; rewrite ?app_length; cbn [length];
    try (split; [lia|intros; try discriminate; lia]).
  - destruct IHemits1 as (A & B), IHemits2 as (C & D). split; [lia|]. intros n E.
    destruct (most e1), (most e2); try discriminate. injection E as <-.
    specialize (B _ eq_refl). specialize (D _ eq_refl). lia.
  - destruct IHemits as (A & B). split; [lia|]. intros n E.
    destruct (most e1), (most e2); try discriminate. injection E as <-. specialize (B _ eq_refl). lia.
  - destruct IHemits as (A & B). split; [lia|]. intros n E.
    destruct (most e1), (most e2); try discriminate. injection E as <-. specialize (B _ eq_refl). lia.
  - destruct IHemits as (A & B). split; [lia|exact B].
  - destruct (is_node r) eqn:Er.
    + destruct H as (_ & H). assert (X : node_toks lang s s' t) by (destruct r; try discriminate; auto).
      destruct X as (u & -> & _). cbn. split; [lia|]. intros n E. injection E as <-. lia.
    + split; [lia|]. intros n E. destruct (quiet NonAtomic (ERule r)) eqn:Q; [|discriminate].
      assert (t = []) as -> by (apply (quiet_emits lang NonAtomic (ERule r) s s' t); [apply m_rule; exact H|exact Q]). cbn. lia.
Qed.

Lemma one_node lang e s s' t : emits (post lang) NonAtomic e s s' t ->
  plain e = true -> least e = 1 -> most e = Some 1 -> node_toks lang s s' t.
Proof.
  intros H P L M. pose proof (count_toks _ _ _ _ _ H) as (A & B). rewrite L in A. specialize (B 1 M).
  pose proof (plain_nodes _ _ _ _ _ H P) as (C & D).
  destruct t as [|x [|y t]]; cbn in A, B; try lia. exists x. split; [reflexivity|].
  inversion C; subst. cbn in D. rewrite app_nil_r in D. auto.
Qed.

Lemma seq_inv lang a e1 e2 s s' t : emits (post lang) a (e1 ~~ e2) s s' t ->
  exists s1 s2 t1 t2, emits (post lang) a e1 s s1 t1 /\ reach s1 s2 /\ emits (post lang) a e2 s2 s' t2 /\ t = t1 ++ t2.
Proof. intros H. inversion H; subst. do 4 eexists. eauto. Qed.

Lemma rule_inv lang a r s s' t : emits (post lang) a (ERule r) s s' t -> post lang a r s s' t.
Proof. intros H. now inversion H; subst. Qed.

(** A quoted name: its column lies strictly after the quote. *)
Lemma string_toks lang q s s' t :
  emits (post lang) Compound (q ~~ ERule inner ~~ q) s s' t -> quiet Compound q = true ->
  (forall s s' t, emits (post lang) Compound q s s' t -> one_line (st_rest s) -> st_col s < st_col s') ->
  exists c y, t = [Tok inner c y []] /\ within s s' [c].
Proof.
  intros H Q Hq. apply seq_inv in H as (s1 & s2 & t1 & t2 & A & R1 & H & ->).
  apply seq_inv in H as (s3 & s4 & t3 & t4 & I & R2 & Z & ->).
  pose proof (ereach _ _ _ _ _ _ A) as RA. pose proof (ereach _ _ _ _ _ _ I) as RI. pose proof (ereach _ _ _ _ _ _ Z) as RZ.
  pose proof (quiet_emits _ _ _ _ _ _ A Q) as ->. pose proof (quiet_emits _ _ _ _ _ _ Z Q) as ->.
  apply rule_inv in I as (_ & H1). destruct (H1 eq_refl) as (y & ->).
  exists (st_col s2), y. split; [reflexivity|]. intros O. cbn.
  pose proof (Hq _ _ _ A O) as L. pose proof (reach_one_line _ _ RA O) as (O1 & _).
  pose proof (reach_one_line _ _ R1 O1) as (O2 & L2). split; [lia|].
  assert (R : reach s2 s') by eauto using reach_trans. now apply reach_one_line in R as (_ & R).
Qed.

Lemma adv_quote c : adv_col (ascii_of_nat 34) c = S c.
Proof. reflexivity. Qed.

Lemma quote_col s s' : strip quote_s s = Some s' -> st_col s' = S (st_col s).
Proof. intros H. apply strip_reach in H as (_ & H). exact H. Qed.

Lemma andor_post lang r s s' t : (r = and_ \/ r = or_) ->
  nodes lang s s' t -> (lang = HumanPolicy -> 2 <= length t) ->
  node_toks lang s s' [Tok r (st_col s) (between s s') t].
Proof.
  intros Hr (A & B) C. eexists. split; [reflexivity|]. destruct Hr as [->| ->]; split; try (constructor; auto); exact B.
Qed.

Lemma none_emits lang a s s' t : ~ emits (post lang) a e_none s s' t.
Proof.
  intros H. inversion H; subst. unfold strip1 in *. destruct (st_rest s); discriminate.
Qed.

Lemma content_post lang s s' t :
  emits (post lang) NonAtomic e_content s s' t ->
  exists u c, t = [u; Tok EOI c EmptyString []] /\ good lang u /\ within s s' (cols u).
Proof.
  intros H. apply seq_inv in H as (s1 & s2 & t1 & t2 & A & R1 & H & ->).
  apply seq_inv in H as (s3 & s4 & t3 & t4 & N & R2 & Z & ->).
  inversion A; subst. inversion Z; subst. apply rule_inv in N as (R3 & X). destruct (X eq_refl) as (u & -> & G & W).
  exists u, (st_col s'). split; [reflexivity|]. split; [exact G|].
  intros O. pose proof (reach_one_line _ _ R1 O) as (O2 & L2). specialize (W O2).
  pose proof (reach_one_line _ _ R3 O2) as (O3 & _). pose proof (reach_one_line _ _ R2 O3) as (_ & L4).
  eapply chain_lo; [exact L2|]. eapply chain_hi; [exact L4|exact W].
Qed.

Lemma body_ok lang : forall a r s s' t,
  emits (post lang) (mode (grammar_of lang) a r) (g_body (grammar_of lang) r) s s' t ->
  post lang a r s s' (wrap (grammar_of lang) a r s s' t).
Proof.
  intros a r s s' t H. split; [eapply ereach; exact H|].
  assert (Num : quiet Atomic e_number = true) by reflexivity.
  assert (Nt : forall x, node_toks lang s s' [Tok number (st_col s) x []]).
  { intros x. eexists. split; [reflexivity|]. split; [constructor|]. cbn. apply within_nil. eapply ereach; exact H. }
  assert (St : forall x c y, within s s' [c] -> node_toks lang s s' [Tok string_ (st_col s) x [Tok inner c y []]]).
  { intros x c y W. eexists. split; [reflexivity|]. split; [constructor|exact W]. }
  destruct lang; cbn [grammar_of json human g_body g_kind] in H; unfold mode, wrap in *; cbn [grammar_of json human g_body g_kind] in H |- *.
  - destruct r; cbn [json_kind json_body] in *; try exact I;
      try (exfalso; revert H; apply none_emits);
      try (apply quiet_emits in H; [exact H|reflexivity]).
    + inversion H; subst. split; [reflexivity|]. now apply quote_col.
    + intros ->. apply (one_node _ _ _ _ _ H); reflexivity.
    + intros ->. apply andor_post; auto; [apply plain_nodes in H; [exact H|reflexivity]|discriminate].
    + intros ->. apply andor_post; auto; [apply plain_nodes in H; [exact H|reflexivity]|discriminate].
    + intros ->. apply (one_node _ _ _ _ _ H); reflexivity.
    + intros ->. apply string_toks in H as (c & y & -> & W); [now apply St|reflexivity|].
      intros u u' v Q _. apply rule_inv in Q as (_ & _ & H1). lia.
    + intros ->. apply quiet_emits in H; [|reflexivity]. subst t. eauto.
    + destruct a; [left; discriminate|right|left; discriminate]. apply quiet_emits in H; [exact H|reflexivity].
    + intros ->. apply quiet_emits in H; [|reflexivity]. subst t. apply Nt.
    + intros ->. now apply content_post.
  - destruct r; cbn [human_kind human_body] in *; try exact I;
      try (exfalso; revert H; apply none_emits);
      try (apply quiet_emits in H; [exact H|reflexivity]).
    + inversion H; subst. split; [reflexivity|]. now apply quote_col.
    + intros ->. apply (one_node _ _ _ _ _ H); reflexivity.
    + intros ->. apply andor_post; auto; [apply plain_nodes in H; [exact H|reflexivity]|].
      intros _. apply count_toks in H as (H & _). exact H.
    + intros ->. apply andor_post; auto; [apply plain_nodes in H; [exact H|reflexivity]|].
      intros _. apply count_toks in H as (H & _). exact H.
    + intros ->. apply (one_node _ _ _ _ _ H); reflexivity.
    + intros ->. apply (one_node _ _ _ _ _ H); reflexivity.
    + intros ->. apply string_toks in H as (c & y & -> & W); [now apply St|reflexivity|].
      intros u u' v Q _. inversion Q; subst. rewrite (quote_col u u') by assumption. lia.
    + intros ->. apply quiet_emits in H; [|reflexivity]. subst t. eauto.
    + destruct a; [left; discriminate|right|left; discriminate]. apply quiet_emits in H; [exact H|reflexivity].
    + intros ->. apply quiet_emits in H; [|reflexivity]. subst t. apply Nt.
    + intros ->. now apply content_post.
Qed.

(** A text accepted by the grammar is a node followed by the end. *)
Lemma content_done lang pol n s' ts :
  run (grammar_of lang) n NonAtomic (ERule content) (St 1 pol) = Done s' ts ->
  exists t c, ts = [t; Tok EOI c EmptyString []] /\ good lang t /\ within (St 1 pol) s' (cols t).
Proof.
  intros H. apply (run_emits (grammar_of lang) (post lang) (post_reach lang) (body_ok lang)) in H.
  apply rule_inv in H as (_ & H1). apply (H1 eq_refl).
Qed.

(** A leaf that is a number occurs in the token tree. *)
Fixpoint numeric (t : tok rule) : bool :=
  match t with
  | Tok number _ _ _ => true
  | Tok and_ _ _ l | Tok or_ _ _ l => existsb numeric l
  | _ => false
  end.

Lemma good_ind' lang (Q : tok rule -> Prop) :
  (forall c x c' y, Q (Tok string_ c x [Tok inner c' y []])) ->
  (forall c x, Q (Tok number c x [])) ->
  (forall c x l, Forall (good lang) l -> Forall Q l -> (lang = HumanPolicy -> 2 <= length l) -> Q (Tok and_ c x l)) ->
  (forall c x l, Forall (good lang) l -> Forall Q l -> (lang = HumanPolicy -> 2 <= length l) -> Q (Tok or_ c x l)) ->
  forall t, good lang t -> Q t.
Proof.
  intros Hs Hn Ha Ho. fix IH 2. intros t [c x c' y|c x|c x l Fl Len|c x l Fl Len].
  - apply Hs.
  - apply Hn.
  - apply Ha; auto. clear Len. induction Fl; constructor; auto.
  - apply Ho; auto. clear Len. induction Fl; constructor; auto.
Qed.

(** The formula of a token tree without numbers. *)
Definition reads (lang : language) (t : tok rule) : Prop :=
  (numeric t = true /\ build t = Panic) \/
  (numeric t = false /\ exists f, build t = Ok (tree f) /\ map snd (leaves f) = cols t /\
     (lang = HumanPolicy -> arity2 f = true)).

Definition build_all : list (tok rule) -> outcome (list pvalue) :=
  fix loop (l : list (tok rule)) : outcome (list pvalue) :=
    match l with
    | [] => Ok []
    | c :: l' => obind (build c) (fun v => obind (loop l') (fun vs => Ok (v :: vs)))
    end.

Lemma build_all_reads lang l : Forall (reads lang) l ->
  (existsb numeric l = true /\ build_all l = Panic) \/
  (existsb numeric l = false /\ exists fs, build_all l = Ok (map tree fs) /\
     map snd (flat_map leaves fs) = flat_map cols l /\ length fs = length l /\
     (lang = HumanPolicy -> forallb arity2 fs = true)).
Proof.
  induction 1 as [|t l H _ IH].
  - right. split; [reflexivity|]. exists []. auto.
  - cbn [existsb build_all flat_map]. destruct H as [(A & B)|(A & f & B & C & D)]; rewrite A, B; cbn [obind orb].
    + left. auto.
    + destruct IH as [(E & F)|(E & fs & F & G & Hl & Ha)].
      * left. split; [exact E|]. change (obind (build_all l) (fun vs => Ok (tree f :: vs)) = Panic). now rewrite F.
      * right. split; [exact E|]. exists (f :: fs). repeat split.
        -- change (obind (build_all l) (fun vs => Ok (tree f :: vs)) = Ok (map tree (f :: fs))). now rewrite F.
        -- cbn [flat_map]. now rewrite map_app, C, G.
        -- cbn. now rewrite Hl.
        -- intros X. cbn. now rewrite D, Ha.
Qed.

Lemma good_reads lang t : good lang t -> reads lang t.
Proof.
  revert t. apply good_ind'.
  - intros c x c' y. right. split; [reflexivity|]. exists (FLeaf y c'). auto.
  - intros c x. left. auto.
  - intros c x l _ F Len. apply build_all_reads in F as [(E & F)|(E & fs & F & G & Hl & Ha)].
    + left. split; [exact E|]. change (obind (build_all l) (fun vs => Ok (PObj And (PArr vs))) = Panic). now rewrite F.
    + right. split; [exact E|]. exists (FAnd fs). repeat split.
      * change (obind (build_all l) (fun vs => Ok (PObj And (PArr vs))) = Ok (tree (FAnd fs))). now rewrite F.
      * exact G.
      * intros X. cbn [arity2]. rewrite Ha by exact X. rewrite Hl. apply andb_true_intro. split; [|reflexivity].
        apply Nat.leb_le. auto.
  - intros c x l _ F Len. apply build_all_reads in F as [(E & F)|(E & fs & F & G & Hl & Ha)].
    + left. split; [exact E|]. change (obind (build_all l) (fun vs => Ok (PObj Or (PArr vs))) = Panic). now rewrite F.
    + right. split; [exact E|]. exists (FOr fs). repeat split.
      * change (obind (build_all l) (fun vs => Ok (PObj Or (PArr vs))) = Ok (tree (FOr fs))). now rewrite F.
      * exact G.
      * intros X. cbn [arity2]. rewrite Ha by exact X. rewrite Hl. apply andb_true_intro. split; [|reflexivity].
        apply Nat.leb_le. auto.
Qed.

(** The grammar accepts the text with this token tree. *)
Definition accepts (pol : string) (lang : language) (t : tok rule) : Prop :=
  exists n s' ts, run (grammar_of lang) n NonAtomic (ERule content) (St 1 pol) = Done s' (t :: ts).

Lemma parse_cases pol lang :
  parse pol lang = Err /\ (forall t, ~ accepts pol lang t) \/
  exists t s', accepts pol lang t /\ parse pol lang = build t /\ good lang t /\ within (St 1 pol) s' (cols t).
Proof.
  destruct (parse_total pol lang) as (r & N & E). pose proof (E _ (le_n _)) as E0. unfold parse. rewrite E0.
  destruct r as [|s' ts|]; [left| |congruence].
  - split; [reflexivity|]. intros t (n & s' & ts & H).
    pose proof (E (Nat.max n (fuel_of pol)) ltac:(lia)) as E1.
    rewrite (run_mono _ n) in E1 by (try lia; congruence). congruence.
  - right. pose proof (content_done _ _ _ _ _ E0) as (t & c & -> & G & W).
    exists t, s'. split; [|auto]. exists (fuel_of pol), s', [Tok EOI c EmptyString []]. exact E0.
Qed.

(** *** C01 *)
Theorem parse_outcome pol lang :
  (exists f, parse pol lang = Ok (tree f) /\ exists t, accepts pol lang t) \/
  (parse pol lang = Err /\ forall t, ~ accepts pol lang t) \/
  (parse pol lang = Panic /\ exists t, accepts pol lang t /\ numeric t = true).
Proof.
  destruct (parse_cases pol lang) as [H|(t & s' & A & P & G & W)]; [auto|].
  destruct (good_reads _ _ G) as [(N & B)|(N & f & B & _)].
  - right. right. rewrite P. eauto.
  - left. exists f. rewrite P. eauto.
Qed.

(** *** C02 *)
Theorem parse_shape pol lang v : parse pol lang = Ok v ->
  exists f, v = tree f /\ (lang = HumanPolicy -> arity2 f = true).
Proof.
  intros H. destruct (parse_cases pol lang) as [(E & _)|(t & s' & A & P & G & W)]; [congruence|].
  destruct (good_reads _ _ G) as [(N & B)|(N & f & B & _ & D)]; [congruence|].
  exists f. split; [congruence|exact D].
Qed.

Lemma tree_inj f : forall g, tree f = tree g -> f = g.
Proof.
  induction f as [n p|l IH|l IH] using formula_ind'; intros [m q|k|k] H; try discriminate; cbn in H.
  - congruence.
  - injection H as H. f_equal. revert k H. induction IH as [|f l Hf _ IHl]; intros [|g k] H; try discriminate; [reflexivity|].
    cbn in H. injection H as A B. f_equal; auto.
  - injection H as H. f_equal. revert k H. induction IH as [|f l Hf _ IHl]; intros [|g k] H; try discriminate; [reflexivity|].
    cbn in H. injection H as A B. f_equal; auto.
Qed.

(** *** C08 *)
Theorem one_line_columns pol lang f : one_line pol -> parse pol lang = Ok (tree f) ->
  NoDup (map snd (leaves f)).
Proof.
  intros O H. destruct (parse_cases pol lang) as [(E & _)|(t & s' & A & P & G & W)]; [congruence|].
  destruct (good_reads _ _ G) as [(N & B)|(N & g & B & C & D)]; [congruence|].
  assert (f = g) as -> by (apply tree_inj; congruence). rewrite C.
  specialize (W O). now apply chain_NoDup in W.
Qed.

Corollary one_line_leaves pol lang f : one_line pol -> parse pol lang = Ok (tree f) -> NoDup (leaves f).
Proof. intros O H. eapply NoDup_map_inv, one_line_columns; eauto. Qed.
