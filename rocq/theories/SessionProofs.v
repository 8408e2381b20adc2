(** * SessionProofs: whole sessions

    The correctness theorems of the schemes assume that every step succeeded.
    Here the steps run on one tape of non-zero draws, every step is shown to
    succeed, and the session answers exactly what the policy says: the
    plaintext when the attributes satisfy it and an error otherwise. *)
From Coq Require Import String List Bool Arith Lia.
From Verif Require Import Base Crypto Policy Tools Sharing Spec Poly PolicyProofs SharingProofs Msp MspProofs
  Parse ParseProofs SchemeLib CoreProofs Dnf DnfProofs Bdabe BdabeProofs Mke08 Mke08Proofs Bsw BswProofs Ghw11 Ghw11Proofs
  Lsw LswProofs Yct14 Yct14Proofs Ac17 Ac17Proofs Aw11 Aw11Proofs Sessions.
Import ListNotations.

Section SessionProofs.
Context {C : crypto} (L : laws C).
Local Open Scope F_scope.
Add Field sess_field : (f_theory L).
Notation F := (F C).

(** Hashing never fails, as with [Fr::from_slice] of a full digest reduced. *)
Definition hash_total : Prop := forall s, hash C s <> None.

(** No draw is zero. *)
Definition live (t : nat -> F) : Prop := forall n, t n <> 0.

Ltac step E := erewrite rbind_run by exact E; cbv beta iota.
Ltac lifted := erewrite rbind_run by reflexivity; cbv beta iota.

Lemma Forall2_map {A B D} (P : A -> B -> Prop) (g : A -> D) (h : B -> D) l m :
  (forall a b, P a b -> h b = g a) -> Forall2 P l m -> map h m = map g l.
Proof. intros H. induction 1 as [|a b l m E _ IH]; [reflexivity|]. cbn. now rewrite IH, (H a b E). Qed.

Lemma Forall2_names {A B} (P : A -> B -> Prop) (h : B -> A) l m :
  (forall a b, P a b -> h b = a) -> Forall2 P l m -> map h m = l.
Proof. intros H F. rewrite (Forall2_map P (fun x => x) h l m H F). apply map_id. Qed.

Lemma bsw_beta t i (pk : bsw_pk C) msk j : bsw_setup t i = Ok ((pk, msk), j) -> bmsk_beta msk <> 0.
Proof. intros H. destruct (bsw_setup_keys L _ _ _ _ _ H) as (al & K). apply K. Qed.

Theorem bsw_session_exact nonce attrs pol lang data f (t : nat -> F) i :
  hash_total -> live t -> parse pol lang = Ok (tree f) -> String.length nonce = 12%nat ->
  arity2 f = true -> NoDup (leaves f) -> plain_names f = true -> small_ok C (and_width f) ->
  attrs <> [] ->
  exists j, bsw_session nonce attrs pol lang data t i =
            Ok (if sat (owns attrs) f then Ok data else Err, j).
Proof.
  intros HT LT P HN A ND PN SO NE. unfold bsw_session.
  destruct (bsw_setup_runs L t i (LT _)) as (pk & msk & E1). step E1.
  destruct (bsw_keygen_runs L pk msk attrs t (i + 4)%nat) as (sk & j2 & E2);
    [exact NE | exact (bsw_beta _ _ _ _ _ E1) | auto |].
  step E2. lifted.
  destruct (bsw_encrypt_runs L nonce pk pol lang data f t j2 P HT) as (ct & j3 & E3). step E3.
  eexists. unfold rret. do 2 f_equal. destruct (sat (owns attrs) f) eqn:SA.
  2:{ destruct (bsw_encrypt_inv L _ _ _ _ _ _ _ _ _ _ P E3) as (s & m & i' & Ep & _).
      apply bsw_reject with (f := f); rewrite ?Ep; [exact P|].
      destruct (bsw_keygen_ok L _ _ _ _ _ _ _ E2) as (_ & _ & K).
      rewrite (Forall2_names _ _ _ _ (fun a b H => proj1 H) K). exact SA. }
  rewrite (bsw_correct L nonce pk msk attrs sk pol lang data ct f t i _ t _ _ t _ _ E1 E2 E3); auto.
Qed.

Theorem bsw_delegated_session_exact nonce attrs subset pol lang data f (t : nat -> F) i :
  hash_total -> live t -> parse pol lang = Ok (tree f) -> String.length nonce = 12%nat ->
  arity2 f = true -> NoDup (leaves f) -> plain_names f = true -> small_ok C (and_width f) ->
  incl subset attrs -> subset <> [] ->
  exists j, bsw_delegated_session nonce attrs subset pol lang data t i =
            Ok (if sat (owns subset) f then Ok data else Err, j).
Proof.
  intros HT LT P HN A ND PN SO I NE. unfold bsw_delegated_session.
  destruct (bsw_setup_runs L t i (LT _)) as (pk & msk & E1). step E1.
  destruct (bsw_keygen_runs L pk msk attrs t (i + 4)%nat) as (sk & j2 & E2);
    [intros ->; destruct subset as [|a r]; [auto|]; exact (I a (or_introl eq_refl))
    | exact (bsw_beta _ _ _ _ _ E1) | auto |].
  step E2. lifted.
  destruct (proj2 (bsw_delegate_iff pk sk subset t j2 (fun a _ => HT a))) as (dk & j3 & E3).
  { split; [exact NE|]. intros a Ia.
    replace (map b_string (bsk_dj sk)) with attrs; [auto|].
    destruct (bsw_keygen_ok L _ _ _ _ _ _ _ E2) as (_ & _ & K).
    symmetry. exact (Forall2_names _ _ _ _ (fun a b H => proj1 H) K). }
  step E3. lifted.
  destruct (bsw_encrypt_runs L nonce pk pol lang data f t j3 P HT) as (ct & j4 & E4). step E4.
  eexists. unfold rret. do 2 f_equal. destruct (sat (owns subset) f) eqn:SA.
  2:{ destruct (bsw_encrypt_inv L _ _ _ _ _ _ _ _ _ _ P E4) as (s & m & i' & Ep & _).
      apply bsw_reject with (f := f); rewrite ?Ep; [exact P|].
      rewrite (bsw_delegate_attrs _ _ _ _ _ _ _ E3). exact SA. }
  rewrite (bsw_delegate_correct L nonce pk msk attrs sk subset dk pol lang data ct f
             t i _ t _ _ t _ _ t _ _ E1 E2 E3 E4); auto.
Qed.

Theorem ghw_session_exact nonce attrs pol lang data f (t : nat -> F) i :
  hash_total -> live t -> parse pol lang = Ok (tree f) -> String.length nonce = 12%nat ->
  arity2 f = true -> NoDup (leaves f) -> plain_names f = true -> small_ok C (and_width f) ->
  attrs <> [] ->
  exists j, ghw_session nonce attrs pol lang data t i =
            Ok (if sat (owns attrs) f then Ok data else Err, j).
Proof.
  intros HT LT P HN A ND PN SO NE. unfold ghw_session.
  destruct (ghw_setup_runs t i) as (pk & msk & j1 & E1). step E1.
  destruct (ghw_keygen_runs pk msk attrs t j1) as (sk & j2 & E2);
    [exact NE | auto |].
  step E2. lifted.
  destruct (ghw_tkgen_runs L sk t j2 (LT _)) as (tk & z & j3 & E3). step E3.
  destruct (ghw_encrypt_runs L nonce pk pol lang data f t j3 P HT) as (ct & j4 & E4). step E4.
  eexists. unfold rret. do 2 f_equal. destruct (sat (owns attrs) f) eqn:SA.
  2:{ destruct (ghw_encrypt_inv L _ _ _ _ _ _ _ _ _ _ P E4) as (s & m & i' & Ep & _).
      rewrite (ghw_reject tk ct f); [reflexivity|rewrite Ep; exact P|].
      pose proof (ghw_keygen_ok L _ _ _ _ _ _ _ E2) as (_ & _ & K).
      pose proof (ghw_tkgen_ok L _ _ _ _ _ _ E3) as TK.
      replace (map fst (gtk_attr tk)) with attrs; [exact SA|].
      destruct TK as (_ & _ & _ & ->). rewrite map_map. cbn [fst].
      symmetry. exact (Forall2_names _ _ _ _ (fun a b H => proj1 H) K). }
  destruct (ghw_correct L nonce pk msk attrs sk tk z pol lang data ct f
             t i _ t _ _ t _ _ t _ _ E1 E2 E3 E4) as (tct & -> & D); auto.
Qed.

Theorem lsw_session_exact nonce pol lang attrs data f (t : nat -> F) i :
  hash_total -> parse pol lang = Ok (tree f) -> String.length nonce = 12%nat ->
  data <> EmptyString -> arity2 f = true -> NoDup (names f) -> plain_names f = true ->
  (forall n, In n (names f) -> is_negative n = Ok false) ->
  small_ok C (and_width f) -> attrs <> [] ->
  exists j, lsw_session nonce pol lang attrs data t i =
            Ok (if sat (owns attrs) f then Ok data else Err, j).
Proof.
  intros HT P HN NE A ND PN NG SO NA. unfold lsw_session.
  destruct (lsw_setup_runs t i) as (pk & msk & j1 & E1). step E1.
  destruct (lsw_keygen_runs L pk msk pol lang f t j1 P PN) as (sk & j2 & E2);
    [intros n I; rewrite (NG n I); discriminate | exact HT |].
  step E2.
  destruct (lsw_encrypt_runs nonce pk attrs data t j2) as (ct & j3 & E3);
    [exact NA | exact NE | auto |].
  step E3. eexists. unfold rret. do 2 f_equal. destruct (sat (owns attrs) f) eqn:SA.
  2:{ destruct (lsw_keygen_inv L _ _ _ _ _ _ _ _ _ P E2) as (Ep & _).
      destruct (lsw_encrypt_inv L _ _ _ _ _ _ _ _ E3) as (s & m & _ & _ & _ & _ & _ & K).
      apply lsw_reject with (f := f); rewrite ?Ep; auto.
      rewrite (Forall2_names _ _ _ _ (fun a b H => proj1 H) K). exact SA. }
  rewrite (lsw_correct L nonce pk msk attrs sk pol lang data ct f t i _ t _ _ t _ _ E1 E2 E3); auto.
  apply forallb_forall. intros n I. now rewrite <- (is_negative_Ok _ _ (NG n I)).
Qed.

Lemma yct_nonzero U t i (pk : yct_pk C) msk j : live t -> yct_setup U t i = Ok ((pk, msk), j) ->
  forall n, msk_get_private msk n <> Ok 0.
Proof.
  intros LT H n. unfold yct_setup in H.
  apply rbind_Ok in H as (s & i1 & _ & H). apply rbind_Ok in H as (g & i2 & _ & H).
  apply rbind_Ok in H as (l & i3 & Hl & H). apply rret_Ok in H as [H _]. injection H as _ <-.
  unfold msk_get_private. cbn [ymsk_attrs].
  assert (X : Forall (fun a => exists k, y_node a = Some (YPriv (t k))) (map snd l)).
  { revert i2 i3 l Hl. induction U as [|u U IH]; intros i2 i3 l Hl; cbn [rmap] in Hl.
    - apply rret_Ok in Hl as [<- _]. constructor.
    - apply rbind_Ok in Hl as (b & k & Hb & Hl). apply rbind_Ok in Hl as (bs & k2 & Hbs & Hl).
      apply rret_Ok in Hl as [<- _]. cbn [map]. constructor; [|eapply IH; eauto].
      unfold yct_new, rbind, draw, rret in Hb. injection Hb as <- _. cbn. eauto. }
  destruct (find _ (map snd l)) as [a|] eqn:E; [|discriminate].
  apply find_some in E as [I _]. rewrite Forall_forall in X. destruct (X a I) as (k & Hk).
  unfold node_private. rewrite Hk. intros Z. injection Z as Z. exact (LT k Z).
Qed.

Theorem yct_session_exact nonce U pol lang attrs data f (t : nat -> F) i :
  live t -> parse pol lang = Ok (tree f) -> String.length nonce = 12%nat ->
  data <> EmptyString -> arity2 f = true -> NoDup (names f) -> plain_names f = true ->
  small_ok C (and_width f) -> incl attrs U -> attrs <> [] ->
  exists j, yct_session nonce U pol lang attrs data t i =
            Ok (if sat (owns attrs) f then Ok data else Err, j).
Proof.
  intros LT P HN NE A ND PN SO I NA. unfold yct_session.
  destruct (yct_setup_runs U t i) as (pk & msk & j1 & E1). step E1.
  destruct (yct_setup_keys L _ _ _ _ _ _ E1) as (G & K).
  destruct (yct_keygen_runs L G U pk msk pol lang f t j1 K P (yct_nonzero _ _ _ _ _ _ LT E1))
    as (sk & j2 & E2). step E2.
  destruct (yct_encrypt_runs L nonce G U pk msk attrs data t j2 K) as (ct & j3 & E3);
    [exact NA | exact NE | exact I |].
  step E3. eexists. unfold rret. do 2 f_equal. destruct (sat (owns attrs) f) eqn:SA.
  2:{ destruct (yct_keygen_inv L _ _ _ _ _ _ _ _ P E2) as (Ep & _).
      destruct (yct_encrypt_inv L _ _ _ _ _ _ _ _ _ _ _ K E3) as (_ & _ & _ & _ & En & _).
      apply yct_reject with (f := f); rewrite ?Ep, ?En; auto. }
  rewrite (yct_correct L nonce U pk msk attrs sk pol lang data ct f t i _ t _ _ t _ _ E1 E2 E3); auto.
Qed.

Lemma ac_setup_live t i (pk : ac_pk C) msk j : live t -> ac_setup t i = Ok ((pk, msk), j) ->
  exists a0 a1 b0 b1 k0 k1 k2, ac_keys pk msk a0 a1 b0 b1 k0 k1 k2 /\ a0 <> 0 /\ a1 <> 0.
Proof.
  intros LT. unfold ac_setup, draw_g1, draw_g2, rbind, rret, rlift, draw. cbn.
  intros H. injection H as <- <- _. do 7 eexists. split.
  - unfold ac_keys. do 2 eexists. split; reflexivity.
  - split; apply LT.
Qed.

Lemma binary_and_arity2 f : binary_and f = true -> arity2 f = true.
Proof.
  induction f as [n p|l IH|l IH] using formula_ind'; cbn; [auto| |];
    intros H; apply andb_prop in H as [H1 H2]; apply andb_true_intro; split.
  - apply Nat.eqb_eq in H1. rewrite H1. reflexivity.
  - rewrite forallb_forall in *. rewrite Forall_forall in IH. auto.
  - exact H1.
  - rewrite forallb_forall in *. rewrite Forall_forall in IH. auto.
Qed.

Theorem cp_session_exact nonce attrs pol lang data f (t : nat -> F) i :
  hash_total -> live t -> parse pol lang = Ok (tree f) -> String.length nonce = 12%nat ->
  binary_and f = true -> NoDup (names f) -> NoDup attrs -> attrs <> [] ->
  exists j, cp_session nonce attrs pol lang data t i =
            Ok (if sat (owns attrs) f then Ok data else Err, j).
Proof.
  intros HT LT P HN B ND NA NE. unfold cp_session.
  destruct (ac_setup_runs t i) as (pk & msk & j1 & E1). step E1.
  destruct (ac_setup_live _ _ _ _ _ LT E1) as (a0 & a1 & b0 & b1 & k0 & k1 & k2 & K & N0 & N1).
  destruct (cp_keygen_runs L pk msk _ _ _ _ _ _ _ attrs t j1 K N0 N1 HT NE) as (sk & j2 & E2). step E2.
  destruct (cp_encrypt_runs L nonce pk msk _ _ _ _ _ _ _ pol lang data f t j2 K P B HT)
    as (ct & j3 & E3). step E3.
  eexists. unfold rret. do 2 f_equal. destruct (sat (owns attrs) f) eqn:SA.
  2:{ destruct (cp_keygen_inv L _ _ _ _ _ _ _ _ _ _ _ _ _ _ K E2) as (_ & _ & _ & ? & ? & ? & ? & ? & ? & ? & Ea & _).
      destruct (cp_encrypt_inv L _ _ _ _ _ _ _ _ _ _ _ _ _ _ _ _ _ _ K P B E3) as (? & ? & ? & ? & ? & ? & Ep & _).
      apply cp_reject with (f := f); rewrite ?Ep, ?Ea; auto. }
  rewrite (cp_correct L nonce pk msk attrs sk pol lang data ct f t i _ t _ _ t _ _ E1 E2 E3); auto.
Qed.

Theorem kp_session_exact nonce pol lang attrs data f (t : nat -> F) i :
  hash_total -> live t -> parse pol lang = Ok (tree f) -> String.length nonce = 12%nat ->
  binary_and f = true -> NoDup (names f) -> NoDup attrs ->
  exists j, kp_session nonce pol lang attrs data t i =
            Ok (if sat (owns attrs) f then Ok data else Err, j).
Proof.
  intros HT LT P HN B ND NA. unfold kp_session.
  destruct (ac_setup_runs t i) as (pk & msk & j1 & E1). step E1.
  destruct (ac_setup_live _ _ _ _ _ LT E1) as (a0 & a1 & b0 & b1 & k0 & k1 & k2 & K & N0 & N1).
  destruct (kp_keygen_runs L pk msk _ _ _ _ _ _ _ pol lang f t j1 K N0 N1 P B HT)
    as (sk & j2 & E2). step E2.
  destruct (kp_encrypt_runs nonce pk msk _ _ _ _ _ _ _ attrs data t j2 K HT)
    as (ct & j3 & E3). step E3.
  eexists. unfold rret. do 2 f_equal. destruct (sat (owns attrs) f) eqn:SA.
  2:{ destruct (kp_encrypt_inv L _ _ _ _ _ _ _ _ _ _ _ _ _ _ _ _ K E3) as (? & ? & ? & ? & ? & ? & Ea & _).
      destruct (kp_keygen_inv L _ _ _ _ _ _ _ _ _ _ _ _ _ _ _ _ K P B E2) as (? & ? & ? & ? & Ep & _).
      apply kp_reject with (f := f); rewrite ?Ep, ?Ea; auto. }
  rewrite (kp_correct L nonce pk msk attrs sk pol lang data ct f t i _ t _ _ t _ _ E1 E2 E3); auto.
Qed.

Theorem aw_session_exact nonce U gid attrs pol lang data f (t : nat -> F) i :
  hash_total -> parse pol lang = Ok (tree f) -> String.length nonce = 12%nat -> gid <> ""%string ->
  (forall a, In a attrs -> a <> ""%string /\ In a (map (upper C) U)) ->
  binary_and f = true -> NoDup (leaves f) -> plain_names f = true -> upper_names C f ->
  small_ok C (and_width f) -> attrs <> [] ->
  exists j, aw_session nonce U gid attrs pol lang data t i =
            Ok (if sat (owns attrs) f then Ok data else Err, j).
Proof.
  intros HT P HN NG HA B ND PN UP SO NE. unfold aw_session.
  assert (E1 : exists gk j1, aw_setup (C := C) t i = Ok (gk, j1)).
  { unfold aw_setup, draw_g1, draw_g2, rbind, rret, draw. eexists _, _. reflexivity. }
  destruct E1 as (gk & j1 & E1). step E1.
  assert (NU : U <> []).
  { intros ->. destruct attrs as [|a r]; [auto|]. destruct (HA a (or_introl eq_refl)) as [_ []]. }
  destruct (aw_authgen_runs gk U t j1 NU) as (pk & msk & j2 & E2). step E2. lifted.
  assert (E3 : exists sk, aw_keygen gk msk gid attrs = Ok sk).
  { destruct (aw_issue_runs L gk gid (map (pair msk) attrs) NG (HT gid)) as (sk & Esk).
    - intros m a I. apply in_map_iff in I as (a' & E & I). injection E as <- <-.
      destruct (HA a' I) as (Na & Iu). split; [exact Na|].
      destruct (aw_authgen_inv L _ _ _ _ _ _ _ E2) as (_ & -> & _). exact Iu.
    - exists sk. unfold aw_keygen. destruct attrs as [|a0 r]; [congruence|].
      destruct (seqb gid "") eqn:Eg; [apply seqb_eq in Eg; congruence|].
      unfold aw_issue in Esk. revert Esk. generalize (AwSk (C := C) gid []).
      generalize (a0 :: r). intros l. induction l as [|a l IH]; intros s0; cbn [map ofold fst snd]; [auto|].
      destruct (aw_add gk msk a s0); cbn [obind]; auto. }
  destruct E3 as (sk & E3).
  erewrite rbind_run by (unfold rlift; rewrite E3; reflexivity).
  destruct (aw_encrypt_runs L nonce gk [pk] pol lang data f t j2 P B) as (ct & j3 & E4). step E4.
  eexists. unfold rret. do 2 f_equal. destruct (sat (owns attrs) f) eqn:SA.
  2:{ destruct (aw_encrypt_inv L _ _ _ _ _ _ _ _ _ _ _ P E4) as (_ & ? & ? & ? & ? & Ep & _).
      apply aw_reject with (f := f); rewrite ?Ep; [exact P|].
      pose proof (aw_keygen_issue _ _ _ _ _ E3) as Is.
      destruct (aw_issue_inv L _ _ _ _ Is) as (_ & _ & K).
      destruct (hash C gid) as [h|] eqn:Eh; [|exfalso; exact (HT gid Eh)].
      specialize (K h eq_refl).
      rewrite (Forall2_map _ (fun x => upper C (snd x)) fst _ _ (fun a b H => match H with ex_intro _ m Hm => proj1 (proj2 Hm) end) K).
      rewrite map_map. cbn [snd]. rewrite (map_ext_in _ (fun a => a)); [now rewrite map_id|].
      intros a Ia. destruct (HA a Ia) as (_ & Iu). apply in_map_iff in Iu as (u & <- & _). apply (upper_idem L). }
  rewrite (aw_correct L nonce gk [(U, (pk, msk))] gid (map (pair msk) attrs) sk pol lang data ct f t i _ t j2 j3 E1); auto.
  - constructor; [|constructor]. cbn. eauto.
  - intros [|[|k]] [|[|l]] A A' n; cbn; try discriminate; auto.
    all: try (destruct k; discriminate). all: try (destruct l; discriminate).
  - intros m a I. apply in_map_iff in I as (a' & E & I). injection E as <- <-.
    exists (U, (pk, msk)). cbn. auto.
  - exact (aw_keygen_issue _ _ _ _ _ E3).
  - rewrite map_map. cbn. rewrite map_id. exact SA.
Qed.

(** The attributes handed to the two multi-authority sessions all belong to
    the one authority. *)
Definition served (auth : string) (l : list string) : Prop :=
  forall a, In a l -> from_authority a auth = true.

Theorem bd_session_exact nonce auth user pubs attrs pol lang data f (t : nat -> F) i :
  hash_total -> parse pol lang = Ok (tree f) -> String.length nonce = 12%nat -> flat f = true ->
  served auth pubs -> served auth attrs ->
  (forall c, In c (conjs f) -> exists n, In n c /\ In n pubs) ->
  exists j, bd_session nonce auth user pubs attrs pol lang data t i =
            Ok (if sat (owns attrs) f then Ok data else Err, j).
Proof.
  intros HT P HN FL SP SV NC. unfold bd_session.
  destruct (bd_setup_runs t i) as (pk & msk & j1 & E1). step E1.
  destruct (bd_authgen_runs pk msk auth t j1) as (A & j2 & E2). step E2.
  assert (NA : bau_name A = auth).
  { unfold bd_authgen, rbind, draw, rret in E2. now injection E2 as <- _. }
  destruct (bd_keygen_runs pk A user t j2) as (uk & j3 & E3). step E3.
  assert (E4 : exists apks, omap (bd_request_pk pk A) pubs = Ok apks).
  { apply omap_runs. intros n I. apply (bd_request_pk_iff pk A n HT). rewrite NA. auto. }
  destruct E4 as (apks & E4). erewrite rbind_run by (unfold rlift; rewrite E4; reflexivity).
  assert (E5 : exists asks, omap (bd_request_sk (buk_pk uk) A) attrs = Ok asks).
  { apply omap_runs. intros n I. apply (bd_request_sk_iff (buk_pk uk) A n HT). rewrite NA. auto. }
  destruct E5 as (asks & E5). erewrite rbind_run by (unfold rlift; rewrite E5; reflexivity).
  destruct (bd_encrypt_runs nonce pk apks pol lang data f t j3 P FL) as (ct & j4 & E6). step E6.
  assert (Npub : map bapk_attr apks = pubs).
  { apply omap_Forall2 in E4. clear - E4.
    induction E4 as [|n k l m E _ IH]; [reflexivity|]. cbn. rewrite IH. f_equal.
    unfold bd_request_pk in E. destruct (from_authority n (bau_name A)); [|discriminate].
    apply obind_Ok in E as (? & _ & E). apply obind_Ok in E as (? & _ & E). now injection E as <-. }
  assert (Natt : map bask_attr asks = attrs).
  { apply omap_Forall2 in E5. clear - E5.
    induction E5 as [|n k l m E _ IH]; [reflexivity|]. cbn. rewrite IH. f_equal.
    unfold bd_request_sk in E. destruct (from_authority n (bau_name A)); [|discriminate].
    apply obind_Ok in E as (? & _ & E). apply obind_Ok in E as (? & _ & E). now injection E as <-. }
  assert (U0 : buk_ska uk = []).
  { unfold bd_keygen, rbind, draw, rret in E3. now injection E3 as <- _. }
  eexists. unfold rret. do 2 f_equal. destruct (sat (owns attrs) f) eqn:SA.
  2:{ destruct (bd_encrypt_inv _ _ _ _ _ _ _ _ _ _ _ E6 P) as (_ & Ep & _).
      apply bd_reject with (f := f); rewrite ?Ep; [exact P|].
      rewrite fold_bd_add, U0. cbn [buk_ska app]. rewrite Natt. exact SA. }
  apply (bd_correct L pk msk [A] t i j1 E1) with (nonce := nonce) (pol := pol) (lang := lang)
    (apks := apks) (te := t) (ie := j3) (je := j4) (f := f); auto.
  - constructor; [|constructor]. exists auth, t, j1, j2. exact E2.
  - intros X Y [<-|[]] [<-|[]] _. reflexivity.
  - rewrite Forall_forall. intros k I. apply omap_Forall2 in E4.
    clear - E4 I. induction E4 as [|n x l m E _ IH]; [contradiction|].
    destruct I as [->|I]; [|auto]. exists A, n. split; [now left|exact E].
  - exists A, user, t, j2, j3, uk, asks. split; [now left|]. split; [exact E3|]. split; [|reflexivity].
    rewrite Forall_forall. intros k I. apply omap_Forall2 in E5.
    clear - E5 I. induction E5 as [|n x l m E _ IH]; [contradiction|].
    destruct I as [->|I]; [|auto]. exists A, n. split; [now left|exact E].
  - rewrite Npub. exact NC.
  - rewrite fold_bd_add, U0. cbn [buk_ska app]. rewrite Natt. exact SA.
Qed.

Theorem mk_session_exact nonce auth user pubs attrs pol lang data f (t : nat -> F) i :
  hash_total -> parse pol lang = Ok (tree f) -> String.length nonce = 12%nat -> flat f = true ->
  served auth pubs -> served auth attrs ->
  (forall c, In c (conjs f) -> exists n, In n c /\ In n pubs) ->
  exists j, mk_session nonce auth user pubs attrs pol lang data t i =
            Ok (if sat (owns attrs) f then Ok data else Err, j).
Proof.
  intros HT P HN FL SP SV NC. unfold mk_session.
  destruct (mk_setup_runs t i) as (pk & msk & j1 & E1). step E1.
  destruct (mk_keygen_runs pk msk user t j1) as (uk & j3 & E3). step E3.
  destruct (mk_authgen_runs auth t j3) as (A & j2 & E2). step E2.
  assert (NA : mau_name A = auth).
  { unfold mk_authgen, rbind, draw, rret in E2. now injection E2 as <- _. }
  assert (E4 : exists apks, omap (fun a => mk_request_pk pk a A) pubs = Ok apks).
  { apply omap_runs. intros n I. apply (mk_request_pk_iff pk A n HT). rewrite NA. auto. }
  destruct E4 as (apks & E4). erewrite rbind_run by (unfold rlift; rewrite E4; reflexivity).
  assert (E5 : exists asks, omap (fun a => mk_request_sk (muk_pk uk) a A) attrs = Ok asks).
  { apply omap_runs. intros n I. apply (mk_request_sk_iff (muk_pk uk) A n HT). rewrite NA. auto. }
  destruct E5 as (asks & E5). erewrite rbind_run by (unfold rlift; rewrite E5; reflexivity).
  destruct (mk_encrypt_runs nonce pk apks pol lang data f t j2 P FL) as (ct & j4 & E6). step E6.
  assert (Npub : map mapk_attr apks = pubs).
  { apply omap_Forall2 in E4. clear - E4.
    induction E4 as [|n k l m E _ IH]; [reflexivity|]. cbn. rewrite IH. f_equal.
    unfold mk_request_pk in E. destruct (from_authority n (mau_name A)); [|discriminate].
    apply obind_Ok in E as (? & _ & E). apply obind_Ok in E as (? & _ & E). now injection E as <-. }
  assert (Natt : map mask_attr asks = attrs).
  { apply omap_Forall2 in E5. clear - E5.
    induction E5 as [|n k l m E _ IH]; [reflexivity|]. cbn. rewrite IH. f_equal.
    unfold mk_request_sk in E. destruct (from_authority n (mau_name A)); [|discriminate].
    apply obind_Ok in E as (? & _ & E). apply obind_Ok in E as (? & _ & E). now injection E as <-. }
  assert (U0 : muk_ska uk = []).
  { unfold mk_keygen, rbind, draw, rret in E3. now injection E3 as <- _. }
  eexists. unfold rret. do 2 f_equal. destruct (sat (owns attrs) f) eqn:SA.
  2:{ destruct (mk_encrypt_inv _ _ _ _ _ _ _ _ _ _ _ E6 P) as (_ & Ep & _).
      apply mk_reject with (f := f); rewrite ?Ep; [exact P|].
      rewrite fold_mk_add, U0. cbn [muk_ska app]. rewrite Natt. exact SA. }
  apply (mk_correct L pk msk [A] t i j1 E1) with (nonce := nonce) (pol := pol) (lang := lang)
    (apks := apks) (te := t) (ie := j2) (je := j4) (f := f); auto.
  - intros X Y [<-|[]] [<-|[]] _. reflexivity.
  - rewrite Forall_forall. intros k I. apply omap_Forall2 in E4.
    clear - E4 I. induction E4 as [|n x l m E _ IH]; [contradiction|].
    destruct I as [->|I]; [|auto]. exists A, n. split; [now left|exact E].
  - exists user, t, j1, j3, uk, asks. split; [exact E3|]. split; [|reflexivity].
    rewrite Forall_forall. intros k I. apply omap_Forall2 in E5.
    clear - E5 I. induction E5 as [|n x l m E _ IH]; [contradiction|].
    destruct I as [->|I]; [|auto]. exists A, n. split; [now left|exact E].
  - rewrite Npub. exact NC.
  - rewrite fold_mk_add, U0. cbn [muk_ska app]. rewrite Natt. exact SA.
Qed.

(** For a human-language text on one line the two shape conditions hold by
    themselves. *)
Theorem bsw_human_session nonce attrs pol data f (t : nat -> F) i :
  hash_total -> live t -> one_line pol -> parse pol HumanPolicy = Ok (tree f) ->
  String.length nonce = 12%nat -> plain_names f = true -> small_ok C (and_width f) -> attrs <> [] ->
  exists j, bsw_session nonce attrs pol HumanPolicy data t i =
            Ok (if sat (owns attrs) f then Ok data else Err, j).
Proof.
  intros HT LT OL P HN PN SO NE.
  destruct (parse_shape _ _ _ P) as (g & E & A). apply tree_inj in E. subst g.
  apply bsw_session_exact; auto. exact (one_line_leaves _ _ _ OL P).
Qed.

Theorem ghw_human_session nonce attrs pol data f (t : nat -> F) i :
  hash_total -> live t -> one_line pol -> parse pol HumanPolicy = Ok (tree f) ->
  String.length nonce = 12%nat -> plain_names f = true -> small_ok C (and_width f) -> attrs <> [] ->
  exists j, ghw_session nonce attrs pol HumanPolicy data t i =
            Ok (if sat (owns attrs) f then Ok data else Err, j).
Proof.
  intros HT LT OL P HN PN SO NE.
  destruct (parse_shape _ _ _ P) as (g & E & A). apply tree_inj in E. subst g.
  apply ghw_session_exact; auto. exact (one_line_leaves _ _ _ OL P).
Qed.

End SessionProofs.
