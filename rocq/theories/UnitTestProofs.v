(** * UnitTestProofs: the tests pass whatever is drawn

    A run of a test tries one random tape and one nonce.  Here the tests are
    shown to pass on every tape without a zero, with every nonce of twelve bytes
    and over every group with the laws of a pairing. *)
From Coq Require Import String Ascii List Bool Arith ZArith Lia Field.
From Verif Require Import Base Crypto Policy Tools Sharing Spec Poly PolicyProofs SharingProofs Msp MspProofs
  Parse ParseProofs Symmetric Sha3 Gcm SchemeLib CoreProofs Dnf DnfProofs Bdabe BdabeProofs Mke08 Mke08Proofs DnfExact Bsw BswProofs
  Ghw11 Ghw11Proofs Lsw LswProofs Yct14 Yct14Proofs Ac17 Ac17Proofs Aw11 Aw11Proofs Sessions SessionProofs PrimitiveProofs UnitTests.
From Verif Require Witnesses.
Import ListNotations.

Section UnitTestProofs.
Context {C : crypto} (L : laws C).
Local Open Scope F_scope.
Notation F := (F C).
Add Field ut_field : (f_theory L).

(** ** Specification *)

(** The program ends normally on every tape without a zero. *)
Definition passes (m : rand F unit) : Prop := forall t i, live t -> exists j, m t i = Ok (tt, j).

Lemma gives_same s : gives (Ok s) s = Ok tt.
Proof. unfold gives. cbn. now rewrite seqb_refl. Qed.

Lemma runwrap_run {A} (m : rand F A) t i r : m t i = Ok r -> runwrap m t i = Ok r.
Proof. unfold runwrap. now intros ->. Qed.

Ltac step E := erewrite rbind_run by exact E; cbv beta iota.
Ltac wstep E := erewrite rbind_run by exact (runwrap_run _ _ _ _ E); cbv beta iota.
Ltac lifted := erewrite rbind_run by reflexivity; cbv beta iota.
Ltac checked E := erewrite rbind_run by (unfold rlift; rewrite E, ?gives_same; reflexivity); cbv beta iota.
Ltac done E := unfold rlift; rewrite E, ?gives_same; eexists; reflexivity.

(** ** BSW *)

Theorem bsw_test_passes nonce pol ma no f :
  @hash_total C -> parse pol JsonPolicy = Ok (tree f) -> String.length nonce = 12%nat ->
  arity2 f = true -> NoDup (leaves f) -> plain_names f = true -> small_ok C (and_width f) ->
  ma <> [] -> no <> [] -> sat (owns ma) f = true -> sat (owns no) f = false ->
  passes (bsw_test nonce pol ma no).
Proof.
  intros HT P HN A ND PN SO NE NE' SA SN t i LT. unfold bsw_test.
  destruct (bsw_setup_runs L t i (LT _)) as (pk & msk & E1). step E1.
  destruct (bsw_encrypt_runs L nonce pk pol JsonPolicy dance f t (i + 4)%nat P HT) as (ct & j3 & E3). wstep E3.
  destruct (bsw_keygen_runs L pk msk ma t j3) as (sk & j2 & E2);
    [exact NE | exact (bsw_beta L _ _ _ _ _ E1) | auto |].
  step E2. lifted.
  checked (bsw_correct L nonce pk msk ma sk pol JsonPolicy dance ct f t i _ t _ _ t _ _ E1 E2 E3 P HN A ND PN SO SA).
  destruct (bsw_keygen_runs L pk msk no t j2) as (sk' & j4 & E4);
    [exact NE' | exact (bsw_beta L _ _ _ _ _ E1) | auto |].
  step E4. lifted.
  assert (R : bsw_decrypt sk' ct = Err).
  { destruct (bsw_encrypt_inv L _ _ _ _ _ _ _ _ _ _ P E3) as (s & m & i' & Ep & _).
    apply bsw_reject with (f := f); rewrite ?Ep; [exact P|].
    destruct (bsw_keygen_ok L _ _ _ _ _ _ _ E4) as (_ & _ & K).
    rewrite (Forall2_names _ _ _ _ (fun a b H => proj1 H) K). exact SN. }
  done R.
Qed.

Theorem bsw_example_passes nonce pol lang data attrs f :
  @hash_total C -> parse pol lang = Ok (tree f) -> String.length nonce = 12%nat ->
  arity2 f = true -> NoDup (leaves f) -> plain_names f = true -> small_ok C (and_width f) ->
  attrs <> [] -> sat (owns attrs) f = true -> passes (bsw_example nonce pol lang data attrs).
Proof.
  intros HT P HN A ND PN SO NE SA t i LT. unfold bsw_example.
  destruct (bsw_setup_runs L t i (LT _)) as (pk & msk & E1). step E1.
  destruct (bsw_encrypt_runs L nonce pk pol lang data f t (i + 4)%nat P HT) as (ct & j3 & E3). wstep E3.
  destruct (bsw_keygen_runs L pk msk attrs t j3) as (sk & j2 & E2);
    [exact NE | exact (bsw_beta L _ _ _ _ _ E1) | auto |].
  step E2. lifted.
  done (bsw_correct L nonce pk msk attrs sk pol lang data ct f t i _ t _ _ t _ _ E1 E2 E3 P HN A ND PN SO SA).
Qed.

Theorem bsw_delegation_passes nonce pol attrs subset f :
  @hash_total C -> parse pol JsonPolicy = Ok (tree f) -> String.length nonce = 12%nat ->
  arity2 f = true -> NoDup (leaves f) -> plain_names f = true -> small_ok C (and_width f) ->
  incl subset attrs -> subset <> [] -> sat (owns subset) f = true ->
  passes (bsw_delegation nonce pol attrs subset).
Proof.
  intros HT P HN A ND PN SO I NE SA t i LT. unfold bsw_delegation.
  destruct (bsw_setup_runs L t i (LT _)) as (pk & msk & E1). step E1.
  destruct (bsw_encrypt_runs L nonce pk pol JsonPolicy dance f t (i + 4)%nat P HT) as (ct & j3 & E3). wstep E3.
  destruct (bsw_keygen_runs L pk msk attrs t j3) as (sk & j2 & E2);
    [intros ->; destruct subset as [|a r]; [auto|]; exact (I a (or_introl eq_refl))
    | exact (bsw_beta L _ _ _ _ _ E1) | auto |].
  step E2. lifted.
  destruct (proj2 (bsw_delegate_iff pk sk subset t j2 (fun a _ => HT a))) as (dk & j4 & E4).
  { split; [exact NE|]. intros a Ia.
    replace (map b_string (bsk_dj sk)) with attrs; [auto|].
    destruct (bsw_keygen_ok L _ _ _ _ _ _ _ E2) as (_ & _ & K).
    symmetry. exact (Forall2_names _ _ _ _ (fun a b H => proj1 H) K). }
  step E4. lifted.
  assert (D : bsw_decrypt dk ct = Ok dance).
  { apply (bsw_delegate_correct L nonce pk msk attrs sk subset dk pol JsonPolicy dance ct f
             t i _ t _ _ t _ _ t _ _ E1 E2 E4 E3); auto. }
  done D.
Qed.

(** ** GHW11 *)

Lemma ghw_key_attrs (pk : ghw_pk C) msk attrs sk tk z t i j t' i' j' :
  ghw_keygen pk msk attrs t i = Ok (Some sk, j) -> ghw_tkgen sk t' i' = Ok ((tk, z), j') ->
  map fst (gtk_attr tk) = attrs.
Proof.
  intros E2 E3. pose proof (ghw_keygen_ok L _ _ _ _ _ _ _ E2) as (_ & _ & K).
  destruct (ghw_tkgen_ok L _ _ _ _ _ _ E3) as (_ & _ & _ & ->). rewrite map_map. cbn [fst].
  exact (Forall2_names _ _ _ _ (fun a b H => proj1 H) K).
Qed.

Theorem ghw_test_passes nonce pol ma no f :
  @hash_total C -> parse pol JsonPolicy = Ok (tree f) -> String.length nonce = 12%nat ->
  arity2 f = true -> NoDup (leaves f) -> plain_names f = true -> small_ok C (and_width f) ->
  ma <> [] -> no <> [] -> sat (owns ma) f = true -> sat (owns no) f = false ->
  passes (ghw_test nonce pol ma no).
Proof.
  intros HT P HN A ND PN SO NE NE' SA SN t i LT. unfold ghw_test.
  destruct (ghw_setup_runs t i) as (pk & msk & j1 & E1). step E1.
  destruct (ghw_keygen_runs pk msk ma t j1) as (sk & j2 & E2); [exact NE | auto |]. step E2. lifted.
  destruct (ghw_keygen_runs pk msk no t j2) as (sk' & j3 & E3); [exact NE' | auto |]. step E3. lifted.
  destruct (ghw_encrypt_runs L nonce pk pol JsonPolicy dance f t j3 P HT) as (ct & j4 & E4). wstep E4.
  destruct (ghw_tkgen_runs L sk t j4 (LT _)) as (tk & z & j5 & E5). wstep E5.
  destruct (ghw_tkgen_runs L sk' t j5 (LT _)) as (tk' & z' & j6 & E6). wstep E6.
  assert (D : exists tct, ghw_transform ct tk = Ok tct /\ ghw_decrypt_out tct z (gct_data ct) = Ok dance).
  { apply (ghw_correct L nonce pk msk ma sk tk z pol JsonPolicy dance ct f
             t i _ t _ _ t _ _ t _ _ E1 E2 E5 E4); auto. }
  destruct D as (tct & D1 & D2). checked D1.
  assert (R : ghw_transform ct tk' = Err).
  { destruct (ghw_encrypt_inv L _ _ _ _ _ _ _ _ _ _ P E4) as (s & m & i' & Ep & _).
    apply (ghw_reject tk' ct f); [rewrite Ep; exact P|]. now rewrite (ghw_key_attrs _ _ _ _ _ _ _ _ _ _ _ _ E3 E6). }
  checked R. done D2.
Qed.

Theorem ghw_plain_passes nonce pol data attrs f :
  @hash_total C -> parse pol JsonPolicy = Ok (tree f) -> String.length nonce = 12%nat ->
  arity2 f = true -> NoDup (leaves f) -> plain_names f = true -> small_ok C (and_width f) ->
  attrs <> [] -> sat (owns attrs) f = true -> passes (ghw_plain nonce pol data attrs).
Proof.
  intros HT P HN A ND PN SO NE SA t i LT. unfold ghw_plain.
  destruct (ghw_setup_runs t i) as (pk & msk & j1 & E1). step E1.
  destruct (ghw_keygen_runs pk msk attrs t j1) as (sk & j2 & E2); [exact NE | auto |]. step E2. lifted.
  destruct (ghw_encrypt_runs L nonce pk pol JsonPolicy data f t j2 P HT) as (ct & j4 & E4). wstep E4.
  destruct (ghw_tkgen_runs L sk t j4 (LT _)) as (tk & z & j5 & E5). wstep E5.
  assert (D : exists tct, ghw_transform ct tk = Ok tct /\ ghw_decrypt_out tct z (gct_data ct) = Ok data).
  { apply (ghw_correct L nonce pk msk attrs sk tk z pol JsonPolicy data ct f
             t i _ t _ _ t _ _ t _ _ E1 E2 E5 E4); auto. }
  destruct D as (tct & D1 & D2). checked D1. done D2.
Qed.

(** ** LSW *)

(** What a check must accept for a test to pass. *)
Definition accepts (check : outcome string -> outcome unit) (ok : bool) (data : string) : Prop :=
  check (if ok then Ok data else Err) = Ok tt.

Theorem lsw_test_passes nonce pol lang data attrs check f :
  @hash_total C -> parse pol lang = Ok (tree f) -> String.length nonce = 12%nat ->
  data <> EmptyString -> arity2 f = true -> NoDup (names f) -> plain_names f = true ->
  (forall n, In n (names f) -> is_negative n = Ok false) ->
  small_ok C (and_width f) -> attrs <> [] -> accepts check (sat (owns attrs) f) data ->
  passes (lsw_test nonce pol lang data attrs check).
Proof.
  intros HT P HN NE A ND PN NG SO NA AC t i LT. unfold lsw_test.
  destruct (lsw_setup_runs t i) as (pk & msk & j1 & E1). step E1.
  destruct (lsw_encrypt_runs nonce pk attrs data t j1) as (ct & j3 & E3); [exact NA | exact NE | auto |]. wstep E3.
  destruct (lsw_keygen_runs L pk msk pol lang f t j3 P PN) as (sk & j2 & E2);
    [intros n I; rewrite (NG n I); discriminate | exact HT |].
  wstep E2.
  assert (D : lsw_decrypt sk ct = if sat (owns attrs) f then Ok data else Err).
  { destruct (sat (owns attrs) f) eqn:SA.
    - apply (lsw_correct L nonce pk msk attrs sk pol lang data ct f t i _ t _ _ t _ _ E1 E2 E3); auto.
      apply forallb_forall. intros n I. now rewrite <- (is_negative_Ok _ _ (NG n I)).
    - destruct (lsw_keygen_inv L _ _ _ _ _ _ _ _ _ P E2) as (Ep & _).
      destruct (lsw_encrypt_inv L _ _ _ _ _ _ _ _ E3) as (s & m & _ & _ & _ & _ & _ & K).
      apply lsw_reject with (f := f); rewrite ?Ep; auto.
      rewrite (Forall2_names _ _ _ _ (fun a b H => proj1 H) K). exact SA. }
  unfold rlift. rewrite D, AC. eexists. reflexivity.
Qed.

(** ** YCT14 *)

Theorem yct_test_passes nonce pol lang data U attrs f :
  parse pol lang = Ok (tree f) -> String.length nonce = 12%nat ->
  data <> EmptyString -> arity2 f = true -> NoDup (names f) -> plain_names f = true ->
  small_ok C (and_width f) -> incl attrs U -> attrs <> [] -> sat (owns attrs) f = true ->
  passes (yct_test nonce pol lang data U attrs).
Proof.
  intros P HN NE A ND PN SO I NA SA t i LT. unfold yct_test.
  destruct (yct_setup_runs U t i) as (pk & msk & j1 & E1). step E1.
  destruct (yct_setup_keys L _ _ _ _ _ _ E1) as (G & K).
  destruct (yct_encrypt_runs L nonce G U pk msk attrs data t j1 K) as (ct & j3 & E3);
    [exact NA | exact NE | exact I |]. wstep E3.
  destruct (yct_keygen_runs L G U pk msk pol lang f t j3 K P (yct_nonzero _ _ _ _ _ _ LT E1))
    as (sk & j2 & E2). wstep E2.
  assert (D : yct_decrypt sk ct = Ok data).
  { apply (yct_correct L nonce U pk msk attrs sk pol lang data ct f t i _ t _ _ t _ _ E1 E2 E3); auto. }
  done D.
Qed.

(** ** AC17 *)

Theorem kp_round_passes nonce pol lang data attrs check f t i (pk : ac_pk C) msk i0 j0 :
  @hash_total C -> live t -> ac_setup t i0 = Ok ((pk, msk), j0) ->
  parse pol lang = Ok (tree f) -> String.length nonce = 12%nat ->
  binary_and f = true -> NoDup (names f) -> NoDup attrs -> accepts check (sat (owns attrs) f) data ->
  exists j, kp_round nonce pol lang data pk msk attrs check t i = Ok (tt, j).
Proof.
  intros HT LT E1 P HN B ND NA AC. unfold kp_round.
  destruct (ac_setup_live _ _ _ _ _ LT E1) as (a0 & a1 & b0 & b1 & k0 & k1 & k2 & K & N0 & N1).
  destruct (kp_encrypt_runs nonce pk msk _ _ _ _ _ _ _ attrs data t i K HT) as (ct & j3 & E3). wstep E3.
  destruct (kp_keygen_runs L pk msk _ _ _ _ _ _ _ pol lang f t j3 K N0 N1 P B HT) as (sk & j2 & E2). wstep E2.
  assert (D : kp_decrypt sk ct = if sat (owns attrs) f then Ok data else Err).
  { destruct (sat (owns attrs) f) eqn:SA.
    - apply (kp_correct L nonce pk msk attrs sk pol lang data ct f t i0 _ t _ _ t _ _ E1 E2 E3); auto.
    - destruct (kp_encrypt_inv L _ _ _ _ _ _ _ _ _ _ _ _ _ _ _ _ K E3) as (? & ? & ? & ? & ? & ? & Ea & _).
      destruct (kp_keygen_inv L _ _ _ _ _ _ _ _ _ _ _ _ _ _ _ _ K P B E2) as (? & ? & ? & ? & Ep & _).
      apply kp_reject with (f := f); rewrite ?Ep, ?Ea; auto. }
  unfold rlift. rewrite D, AC. eexists. reflexivity.
Qed.

Theorem kp_one_passes nonce pol lang data attrs check f :
  @hash_total C -> parse pol lang = Ok (tree f) -> String.length nonce = 12%nat ->
  binary_and f = true -> NoDup (names f) -> NoDup attrs -> accepts check (sat (owns attrs) f) data ->
  passes (rbind ac_setup (fun ks => let '(pk, msk) := ks in kp_round nonce pol lang data pk msk attrs check)).
Proof.
  intros HT P HN B ND NA AC t i LT.
  destruct (ac_setup_runs t i) as (pk & msk & j1 & E1). step E1.
  exact (kp_round_passes nonce pol lang data attrs check f t j1 pk msk i j1 HT LT E1 P HN B ND NA AC).
Qed.

Theorem kp_two_passes nonce nonce' pol lang data attrs attrs' check f :
  @hash_total C -> parse pol lang = Ok (tree f) -> String.length nonce = 12%nat -> String.length nonce' = 12%nat ->
  binary_and f = true -> NoDup (names f) -> NoDup attrs -> NoDup attrs' ->
  accepts check (sat (owns attrs) f) data -> accepts check (sat (owns attrs') f) data ->
  passes (rbind ac_setup (fun ks => let '(pk, msk) := ks in
    rbind (kp_round nonce pol lang data pk msk attrs check) (fun _ => kp_round nonce' pol lang data pk msk attrs' check))).
Proof.
  intros HT P HN HN' B ND NA NA' AC AC' t i LT.
  destruct (ac_setup_runs t i) as (pk & msk & j1 & E1). step E1.
  destruct (kp_round_passes nonce pol lang data attrs check f t j1 pk msk i j1 HT LT E1 P HN B ND NA AC) as (j2 & E2). step E2.
  exact (kp_round_passes nonce' pol lang data attrs' check f t j2 pk msk i j1 HT LT E1 P HN' B ND NA' AC').
Qed.

Theorem cp_test_passes nonce pol lang data attrs f :
  @hash_total C -> parse pol lang = Ok (tree f) -> String.length nonce = 12%nat ->
  binary_and f = true -> NoDup (names f) -> NoDup attrs -> attrs <> [] -> sat (owns attrs) f = true ->
  passes (cp_test nonce pol lang data attrs).
Proof.
  intros HT P HN B ND NA NE SA t i LT. unfold cp_test.
  destruct (ac_setup_runs t i) as (pk & msk & j1 & E1). step E1.
  destruct (ac_setup_live _ _ _ _ _ LT E1) as (a0 & a1 & b0 & b1 & k0 & k1 & k2 & K & N0 & N1).
  destruct (cp_encrypt_runs L nonce pk msk _ _ _ _ _ _ _ pol lang data f t j1 K P B HT) as (ct & j3 & E3). wstep E3.
  destruct (cp_keygen_runs L pk msk _ _ _ _ _ _ _ attrs t j3 K N0 N1 HT NE) as (sk & j2 & E2). wstep E2.
  assert (D : cp_decrypt sk ct = Ok data).
  { apply (cp_correct L nonce pk msk attrs sk pol lang data ct f t i _ t _ _ t _ _ E1 E2 E3); auto. }
  done D.
Qed.

(** ** AW11 *)

(** Capital letters are their own upper case. *)
Lemma capital c : In c (list_ascii_of_string "ABCDEFGHIJKLMNOPQRSTUVWXYZ") -> upper C (String c "") = String c "".
Proof.
  intros I. apply (proj1 (proj2 (aw_upper_letters L))); cbn in I;
    repeat (destruct I as [<-|I]; [reflexivity|]); destruct I.
Qed.

(** The user holds the attributes of [issued]; all names are in upper case. *)
Lemma aw_answer nonce (gk : aw_gk C) As gid issued sk pol lang data f t i js t' i' :
  @hash_total C -> aw_setup t i = Ok (gk, js) ->
  Forall (fun A => exists t i j, aw_authgen gk (fst A) t i = Ok (Some (snd A), j)) As ->
  separate As -> (forall m a, In (m, a) issued -> exists A, In A As /\ m = snd (snd A)) ->
  (forall m a, In (m, a) issued -> upper C a = a) ->
  aw_issue gk gid issued = Ok sk ->
  parse pol lang = Ok (tree f) -> String.length nonce = 12%nat ->
  binary_and f = true -> NoDup (leaves f) -> plain_names f = true -> upper_names C f -> small_ok C (and_width f) ->
  exists ct j, aw_encrypt nonce gk (map (fun A => fst (snd A)) As) pol lang data t' i' = Ok (ct, j) /\
    aw_decrypt gk sk ct = if sat (owns (map snd issued)) f then Ok data else Err.
Proof.
  intros HT E1 FA Sep Own Up Is P HN B ND PN UP SO.
  destruct (aw_encrypt_runs L nonce gk (map (fun A => fst (snd A)) As) pol lang data f t' i' P B) as (ct & j & E4).
  exists ct, j. split; [exact E4|]. destruct (sat _ f) eqn:SA.
  - exact (aw_correct L nonce gk As gid issued sk pol lang data ct f t i _ t' i' j E1 FA Sep Own Is E4 P HN ND PN UP SO SA).
  - destruct (aw_encrypt_inv L _ _ _ _ _ _ _ _ _ _ _ P E4) as (_ & ? & ? & ? & ? & Ep & _).
    apply aw_reject with (f := f); rewrite ?Ep; [exact P|].
    destruct (aw_issue_inv L _ _ _ _ Is) as (_ & _ & K).
    destruct (hash C gid) as [h|] eqn:Eh; [|exfalso; exact (HT gid Eh)].
    specialize (K h eq_refl).
    rewrite (Forall2_map _ (fun x => upper C (snd x)) fst _ _ (fun a b H => match H with ex_intro _ m Hm => proj1 (proj2 Hm) end) K).
    rewrite (map_ext_in _ snd); [exact SA|]. intros [m a] I. cbn [snd]. exact (Up m a I).
Qed.

Definition capitals : list string := map (fun c => String c "") (list_ascii_of_string "ABCDEFGHIJKLMNOPQRSTUVWXYZ").
Lemma capitals_upper l : forallb (fun n => smem n capitals) l = true -> forall n, In n l -> upper C n = n.
Proof.
  rewrite forallb_forall. intros H n I. apply H, smem_In, in_map_iff in I as (c & <- & I). now apply capital.
Qed.
Lemma capitals_map l : forallb (fun n => smem n capitals) l = true -> map (upper C) l = l.
Proof.
  intros H. rewrite (map_ext_in _ (fun n => n)); [apply map_id|]. exact (capitals_upper l H).
Qed.

Lemma aw_keygen_is_issue (gk : aw_gk C) msk gid attrs : attrs <> [] -> gid <> ""%string ->
  aw_keygen gk msk gid attrs = aw_issue gk gid (map (pair msk) attrs).
Proof.
  intros NE NG. unfold aw_keygen. destruct attrs as [|a0 r]; [congruence|]. apply seqb_neq in NG. rewrite NG.
  unfold aw_issue. generalize (AwSk (C := C) gid []). generalize (a0 :: r). intros l.
  induction l as [|a l IH]; intros s0; cbn [map ofold fst snd]; [reflexivity|].
  destruct (aw_add gk msk a s0); cbn [obind]; auto.
Qed.

Lemma ofold_pair (gk : aw_gk C) msk l : forall b,
  ofold (fun sk x => aw_add gk (fst x) (snd x) sk) (map (pair msk) l) b = ofold (fun b a => aw_add gk msk a b) l b.
Proof.
  induction l as [|a l IH]; intros b; cbn [map ofold fst snd]; [reflexivity|].
  destruct (aw_add gk msk a b); cbn [obind]; auto.
Qed.

(** Two different authorities of a list never share a capital letter. *)
Lemma separate_two (A B : list string * (aw_pk C * aw_msk C)) :
  forallb (fun n => smem n capitals) (fst A) = true -> forallb (fun n => smem n capitals) (fst B) = true ->
  forallb (fun n => negb (smem n (fst B))) (fst A) = true -> separate [A; B].
Proof.
  intros HA HB D k l X Y n Hk Hl IX IY.
  assert (Q : In n (fst A) -> In n (fst B) -> False).
  { intros I J. rewrite forallb_forall in D. specialize (D n I). apply smem_In in J. now rewrite J in D. }
  destruct k as [|[|k]]; [..|destruct k; discriminate Hk]; (destruct l as [|[|l]]; [..|destruct l; discriminate Hl]);
    try reflexivity; cbn in Hk, Hl; injection Hk as <-; injection Hl as <-;
    rewrite capitals_map in IX, IY by assumption; exfalso; auto.
Qed.

Ltac authority gk U t i E pk msk j :=
  destruct (aw_authgen_runs gk U t i ltac:(discriminate)) as (pk & msk & j & E); step E; lifted.
Lemma aw_setup_some t i : exists gk j, aw_setup (C := C) t i = Ok (gk, j).
Proof. unfold aw_setup, draw_g1, draw_g2, rbind, rret, draw. eexists _, _. reflexivity. Qed.

Lemma issued_names (gk : aw_gk C) U t i pk msk j : aw_authgen gk U t i = Ok (Some (pk, msk), j) ->
  forallb (fun n => smem n capitals) U = true -> map n3 (amsk_attr msk) = U.
Proof. intros E H. destruct (aw_authgen_inv L _ _ _ _ _ _ _ E) as (_ & -> & _). now apply capitals_map. Qed.

Theorem aw_test_passes nonce pol more check f :
  @hash_total C -> parse pol JsonPolicy = Ok (tree f) -> String.length nonce = 12%nat ->
  binary_and f = true -> NoDup (leaves f) -> plain_names f = true ->
  forallb (fun n => smem n capitals) (names f) = true -> small_ok C (and_width f) ->
  incl more ["C"; "D"]%string -> accepts check (sat (owns ("A"%string :: more)) f) dance ->
  passes (aw_test nonce pol more check).
Proof.
  intros HT P HN B ND PN UP SO I AC t i LT. unfold aw_test.
  destruct (aw_setup_some t i) as (gk & j0 & E0). step E0.
  authority gk ["A"; "B"]%string t j0 E1 pk1 msk1 j1. authority gk ["C"; "D"]%string t j1 E2 pk2 msk2 j2.
  pose proof (issued_names _ _ _ _ _ _ _ E1 eq_refl) as N1. pose proof (issued_names _ _ _ _ _ _ _ E2 eq_refl) as N2.
  set (issued := map (pair msk1) ["A"%string] ++ map (pair msk2) more).
  assert (Iss : forall m a, In (m, a) issued -> (m = msk1 /\ a = "A"%string) \/ (m = msk2 /\ In a more)).
  { intros m a J. apply in_app_or in J as [J|J]; apply in_map_iff in J as (x & X & J); injection X as <- <-; [|auto].
    destruct J as [<-|[]]. auto. }
  assert (Ok1 : exists bob, aw_issue gk "bob" (map (pair msk1) ["A"%string]) = Ok bob).
  { apply (aw_issue_runs L); [discriminate|apply HT|]. intros m a [X|[]]. injection X as <- <-.
    split; [discriminate|]. rewrite N1. now left. }
  destruct Ok1 as (bob & Eb).
  assert (Ok2 : exists bob', aw_issue gk "bob" issued = Ok bob').
  { apply (aw_issue_runs L); [discriminate|apply HT|]. intros m a J. destruct (Iss m a J) as [(-> & ->)|(-> & K)].
    - split; [discriminate|]. rewrite N1. now left.
    - apply I in K. rewrite N2. split; [|exact K]. destruct K as [<-|[<-|[]]]; discriminate. }
  destruct Ok2 as (bob' & Eb').
  assert (K1 : aw_keygen gk msk1 "bob" ["A"%string] = Ok bob) by
    (rewrite aw_keygen_is_issue by discriminate; exact Eb).
  checked K1.
  assert (K2 : ofold (fun b a => aw_add gk msk2 a b) more bob = Ok bob').
  { unfold issued, aw_issue in Eb'. rewrite ofold_app in Eb'. unfold aw_issue in Eb. rewrite Eb in Eb'.
    cbn [obind] in Eb'. now rewrite ofold_pair in Eb'. }
  checked K2.
  destruct (aw_answer nonce gk [(["C"; "D"]%string, (pk2, msk2)); (["A"; "B"]%string, (pk1, msk1))] "bob" issued bob'
    pol JsonPolicy dance f t i j0 t j2 HT E0) as (ct & j & E & D); auto.
  { constructor; [|constructor; [|constructor]]; cbn [fst snd]; eauto. }
  { now apply separate_two. }
  { intros m a J. destruct (Iss m a J) as [(-> & _)|(-> & _)].
    - exists (["A"; "B"]%string, (pk1, msk1)). cbn. auto.
    - exists (["C"; "D"]%string, (pk2, msk2)). cbn. auto. }
  { intros m a J. apply (capitals_upper ["A"; "C"; "D"]%string eq_refl).
    destruct (Iss m a J) as [(_ & ->)|(_ & K)]; [now left|right; exact (I a K)]. }
  { exact (capitals_upper _ UP). }
  cbn [map fst snd] in E. wstep E. unfold issued in D.
  assert (Ns : map snd (map (pair msk1) ["A"%string] ++ map (pair msk2) more) = "A"%string :: more).
  { rewrite map_app, !map_map. cbn [snd map app]. now rewrite map_id. }
  rewrite Ns in D. unfold rlift. rewrite D, AC. eexists. reflexivity.
Qed.

Theorem aw_and_passes nonce : @hash_total C -> String.length nonce = 12%nat -> small_ok C 2 -> passes (test_aw_and nonce).
Proof.
  intros HT HN SO t i LT. unfold test_aw_and.
  destruct (aw_setup_some t i) as (gk & j0 & E0). step E0.
  authority gk ["A"; "B"; "C"]%string t j0 E1 pk1 msk1 j1. authority gk ["D"; "E"; "F"]%string t j1 E2 pk2 msk2 j2.
  authority gk ["G"; "H"; "I"]%string t j2 E3 pk3 msk3 j3.
  pose proof (issued_names _ _ _ _ _ _ _ E1 eq_refl) as N1. pose proof (issued_names _ _ _ _ _ _ _ E3 eq_refl) as N3.
  set (first := map (pair msk3) ["H"; "I"]%string).
  assert (Ok1 : exists bob, aw_issue gk "bob" first = Ok bob).
  { apply (aw_issue_runs L); [discriminate|apply HT|].
    intros m a [X|[X|[]]]; injection X as <- <-; (split; [discriminate|]); rewrite N3; cbn; auto. }
  destruct Ok1 as (bob & Eb).
  assert (Ok2 : exists bob', aw_issue gk "bob" (first ++ [(msk1, "B"%string)]) = Ok bob').
  { apply (aw_issue_runs L); [discriminate|apply HT|].
    intros m a [X|[X|[X|[]]]]; injection X as <- <-; (split; [discriminate|]); rewrite ?N3, ?N1; cbn; auto. }
  destruct Ok2 as (bob' & Eb').
  assert (K1 : aw_keygen gk msk3 "bob" ["H"; "I"]%string = Ok bob) by
    (rewrite aw_keygen_is_issue by discriminate; exact Eb).
  checked K1.
  assert (K2 : aw_add gk msk1 "B" bob = Ok bob').
  { unfold aw_issue in Eb'. rewrite ofold_app in Eb'. unfold aw_issue in Eb. rewrite Eb in Eb'.
    cbn [obind ofold fst snd] in Eb'. destruct (aw_add gk msk1 "B" bob); cbn [obind] in Eb'; [exact Eb'|discriminate..]. }
  checked K2.
  match goal with |- context [aw_encrypt _ _ _ ?p _ _] => set (pol := p) end.
  destruct (aw_answer nonce gk [(["G"; "H"; "I"]%string, (pk3, msk3)); (["A"; "B"; "C"]%string, (pk1, msk1))] "bob"
    (first ++ [(msk1, "B"%string)]) bob' pol JsonPolicy dance (FAnd [FLeaf "H" 40; FLeaf "B" 55]) t i j0 t j3 HT E0) as (ct & j & E & D); auto.
  { constructor; [|constructor; [|constructor]]; cbn [fst snd]; eauto. }
  { now apply separate_two. }
  { intros m a [X|[X|[X|[]]]]; injection X as <- <-;
      [exists (["G"; "H"; "I"]%string, (pk3, msk3))..|exists (["A"; "B"; "C"]%string, (pk1, msk1))]; cbn; auto. }
  { intros m a [X|[X|[X|[]]]]; injection X as <- <-; now apply capital; cbn; auto 30. }
  { apply Witnesses.nodup_leaves. reflexivity. }
  { unfold upper_names. apply capitals_upper. reflexivity. }
  cbn [map fst snd] in E. wstep E. cbn in D. done D.
Qed.

Theorem aw_doc_passes nonce : @hash_total C -> String.length nonce = 12%nat -> small_ok C 0 -> passes (doc_aw nonce).
Proof.
  intros HT HN SO t i LT. unfold doc_aw.
  destruct (aw_setup_some t i) as (gk & j0 & E0). step E0.
  authority gk ["A"; "B"]%string t j0 E1 pk1 msk1 j1.
  pose proof (issued_names _ _ _ _ _ _ _ E1 eq_refl) as N1.
  assert (Ok1 : exists bob, aw_issue gk "bob" (map (pair msk1) ["A"%string]) = Ok bob).
  { apply (aw_issue_runs L); [discriminate|apply HT|].
    intros m a [X|[]]; injection X as <- <-; (split; [discriminate|]); rewrite N1; cbn; auto. }
  destruct Ok1 as (bob & Eb).
  assert (K1 : aw_keygen gk msk1 "bob" ["A"%string] = Ok bob) by
    (rewrite aw_keygen_is_issue by discriminate; exact Eb).
  checked K1.
  match goal with |- context [aw_encrypt _ _ _ ?p _ _] => set (pol := p) end.
  destruct (aw_answer nonce gk [(["A"; "B"]%string, (pk1, msk1))] "bob"
    (map (pair msk1) ["A"%string]) bob pol HumanPolicy "our plaintext!" (FOr [FLeaf "A" 2; FLeaf "B" 9]) t i j0 t j1 HT E0) as (ct & j & E & D); auto.
  { constructor; [|constructor]; cbn [fst snd]; eauto. }
  { intros [|[|k]] [|[|l]] A A' n; cbn; try discriminate; auto. all: try (destruct k; discriminate). all: try (destruct l; discriminate). }
  { intros m a [X|[]]; injection X as <- <-; exists (["A"; "B"]%string, (pk1, msk1)); cbn; auto. }
  { intros m a [X|[]]; injection X as <- <-; now apply capital; cbn; auto 30. }
  { apply Witnesses.nodup_leaves. reflexivity. }
  { unfold upper_names. apply capitals_upper. reflexivity. }
  cbn [map fst snd] in E. wstep E. cbn in D. done D.
Qed.

(** ** BDABE *)

(** Every attribute is named after the authority with its number. *)
Definition placed (auths : list string) (atts : list (nat * string)) : bool :=
  forallb (fun a => match nth_error auths (fst a) with Some u => from_authority (snd a) u | None => false end) atts.

(** The attributes with the given numbers. *)
Definition chosen (atts : list (nat * string)) (used : list nat) : list string := map (fun k => nth k (map snd atts) ""%string) used.

Lemma placed_at auths {B} (nm : B -> string) As atts a : map nm As = auths -> placed auths atts = true -> In a atts ->
  exists A, nth_error As (fst a) = Some A /\ In A As /\ from_authority (snd a) (nm A) = true.
Proof.
  intros E H I. unfold placed in H. rewrite forallb_forall in H. specialize (H a I). rewrite <- E, nth_error_map in H.
  destruct (nth_error As (fst a)) as [A|] eqn:EA; [|discriminate]. exists A. split; [reflexivity|].
  split; [exact (nth_error_In _ _ EA)|exact H].
Qed.

Lemma chosen_runs {B} (nm : B -> string) ks atts used : map nm ks = map snd atts ->
  forallb (fun k => k <? length atts)%nat used = true ->
  exists l, omap (fun k => unwrap (nth_error ks k)) used = Ok l /\ incl l ks /\ map nm l = chosen atts used.
Proof.
  intros E. induction used as [|k used IH]; intros H; [exists []; repeat split; intros ? []|].
  cbn in H. apply andb_prop in H as (Hk & H). destruct (IH H) as (l & El & Il & Nl).
  apply Nat.ltb_lt in Hk. rewrite <- (map_length snd), <- E, map_length in Hk.
  destruct (nth_error ks k) as [b|] eqn:Eb; [|apply nth_error_None in Eb; lia].
  exists (b :: l). cbn [omap]. rewrite Eb. cbn [unwrap obind]. rewrite El. cbn [obind]. split; [reflexivity|].
  split; [intros x [<-|X]; [exact (nth_error_In _ _ Eb)|auto]|].
  cbn [map chosen]. rewrite Nl. unfold chosen. f_equal. rewrite <- E.
  apply (f_equal (option_map nm)) in Eb. rewrite <- nth_error_map in Eb. symmetry. now apply nth_error_nth.
Qed.

Lemma names_unique {B} (nm : B -> string) As : NoDup (map nm As) -> forall A A', In A As -> In A' As -> nm A = nm A' -> A = A'.
Proof.
  induction As as [|x l IH]; intros H A A' [] []; cbn in H; inversion H as [|? ? N H']; subst; intros E; try contradiction; auto.
  - exfalso. apply N. rewrite E. now apply in_map.
  - exfalso. apply N. rewrite <- E. now apply in_map.
Qed.

Theorem bd_test_passes nonce pol lang data auths home atts used check f :
  @hash_total C -> parse pol lang = Ok (tree f) -> String.length nonce = 12%nat -> flat f = true ->
  NoDup auths -> (home < length auths)%nat -> atts <> [] -> placed auths atts = true ->
  forallb (fun k => k <? length atts)%nat used = true ->
  accepts check (sat (owns (map snd atts)) f) data ->
  (sat (owns (map snd atts)) f = true -> opens (chosen atts used) (map snd atts) f = true) ->
  passes (bd_test nonce pol lang data auths home atts used check).
Proof.
  intros HT P HN FL ND Hh NEA PL US AC OP t i LT. unfold bd_test.
  destruct (bd_setup_runs t i) as (pk & msk & j1 & E1). step E1.
  destruct (rmap_runs (bd_authgen pk msk) auths) with (t := t) (i := j1) as (As & j2 & E2).
  { intros x t' i' _. apply bd_authgen_runs. }
  step E2. pose proof (rmap_Forall2 _ _ _ _ _ _ E2) as FA.
  assert (NA : map bau_name As = auths).
  { refine (Forall2_names _ _ _ _ _ FA). intros n x (a & b & E).
    unfold bd_authgen, rbind, draw, rret in E. now injection E as <- _. }
  assert (HA : exists A, nth_error As home = Some A).
  { rewrite <- NA, map_length in Hh. destruct (nth_error As home) eqn:E; [eauto|]. apply nth_error_None in E. lia. }
  destruct HA as (A & HA). erewrite rbind_run by (unfold rlift; rewrite HA; reflexivity); cbv beta iota.
  destruct (bd_keygen_runs pk A "u1" t j2) as (uk & j3 & E3). step E3.
  assert (E4 : exists pks, omap (fun a => obind (unwrap (nth_error As (fst a))) (fun A => unwrap_res (bd_request_pk pk A (snd a)))) atts = Ok pks).
  { apply omap_runs. intros a I. destruct (placed_at _ _ As _ _ NA PL I) as (B & -> & _ & Fr).
    destruct (proj2 (bd_request_pk_iff pk B (snd a) HT) Fr) as (k & Ek). cbn [unwrap obind]. rewrite Ek. cbn. eauto. }
  destruct E4 as (pks & E4). erewrite rbind_run by (unfold rlift; rewrite E4; reflexivity); cbv beta iota.
  assert (E5 : exists sks, omap (fun a => obind (unwrap (nth_error As (fst a))) (fun A => unwrap_res (bd_request_sk (buk_pk uk) A (snd a)))) atts = Ok sks).
  { apply omap_runs. intros a I. destruct (placed_at _ _ As _ _ NA PL I) as (B & -> & _ & Fr).
    destruct (proj2 (bd_request_sk_iff (buk_pk uk) B (snd a) HT) Fr) as (k & Ek). cbn [unwrap obind]. rewrite Ek. cbn. eauto. }
  destruct E5 as (sks & E5). erewrite rbind_run by (unfold rlift; rewrite E5; reflexivity); cbv beta iota.
  assert (Npk : map bapk_attr pks = map snd atts /\ Forall (bd_pk_issued pk As) pks).
  { apply omap_Forall2 in E4. clear - E4. induction E4 as [|a k l m E _ (IH & IHF)]; [split; [reflexivity|constructor]|].
    apply obind_Ok in E as (B & EB & E). destruct (nth_error As (fst a)) as [B'|] eqn:En; [|discriminate]. injection EB as ->.
    destruct (bd_request_pk pk B (snd a)) as [k'| |] eqn:Er; try discriminate. injection E as <-. split.
    - cbn. rewrite IH. f_equal. unfold bd_request_pk in Er. destruct (from_authority _ _); [|discriminate].
      apply obind_Ok in Er as (? & _ & Er). apply obind_Ok in Er as (? & _ & Er). now injection Er as <-.
    - constructor; [|exact IHF]. exists B, (snd a). split; [exact (nth_error_In _ _ En)|exact Er]. }
  destruct Npk as (Npk & Ipk).
  assert (Nsk : map bask_attr sks = map snd atts /\ Forall (bd_sk_issued (buk_pk uk) As) sks).
  { apply omap_Forall2 in E5. clear - E5. induction E5 as [|a k l m E _ (IH & IHF)]; [split; [reflexivity|constructor]|].
    apply obind_Ok in E as (B & EB & E). destruct (nth_error As (fst a)) as [B'|] eqn:En; [|discriminate]. injection EB as ->.
    destruct (bd_request_sk (buk_pk uk) B (snd a)) as [k'| |] eqn:Er; try discriminate. injection E as <-. split.
    - cbn. rewrite IH. f_equal. unfold bd_request_sk in Er. destruct (from_authority _ _); [|discriminate].
      apply obind_Ok in Er as (? & _ & Er). apply obind_Ok in Er as (? & _ & Er). now injection Er as <-.
    - constructor; [|exact IHF]. exists B, (snd a). split; [exact (nth_error_In _ _ En)|exact Er]. }
  destruct Nsk as (Nsk & Isk).
  destruct (chosen_runs bapk_attr pks atts used Npk US) as (apks & E6 & Il & Nch).
  erewrite rbind_run by (unfold rlift; rewrite E6; reflexivity); cbv beta iota.
  destruct (bd_encrypt_runs nonce pk apks pol lang data f t j3 P FL) as (ct & j4 & E7). wstep E7.
  assert (U0 : buk_ska uk = []).
  { unfold bd_keygen, rbind, draw, rret in E3. now injection E3 as <- _. }
  assert (D : bd_decrypt (fold_left bd_add sks uk) ct = if sat (owns (map snd atts)) f then Ok data else Err).
  { destruct (sat (owns (map snd atts)) f) eqn:SA.
    - rewrite (bd_decrypt_all L pk msk As t i j1 E1) with (nonce := nonce) (pol := pol) (lang := lang) (data := data)
        (apks := apks) (te := t) (ie := j3) (je := j4) (f := f); auto.
      + rewrite fold_bd_add, U0. cbn [buk_ska app]. rewrite Nsk, Nch, SA, (OP eq_refl).
        destruct sks as [|k sks']; [|reflexivity]. destruct atts as [|a atts']; [congruence|discriminate Nsk].
      + rewrite Forall_forall. intros X IX.
        clear - FA IX. induction FA as [|n x l m (a & b & E) _ IH]; [contradiction|].
        destruct IX as [->|IX]; [exists n, t, a, b; exact E|auto].
      + intros X Y IX IY. apply (names_unique bau_name As); auto. rewrite NA. exact ND.
      + rewrite Forall_forall in *. auto.
      + exists A, "u1"%string, t, j2, j3, uk, sks. split; [exact (nth_error_In _ _ HA)|]. auto.
    - destruct (bd_encrypt_inv _ _ _ _ _ _ _ _ _ _ _ E7 P) as (_ & Ep & _).
      apply bd_reject with (f := f); rewrite ?Ep; [exact P|].
      rewrite fold_bd_add, U0. cbn [buk_ska app]. rewrite Nsk. exact SA. }
  unfold rlift. rewrite D, AC. eexists. reflexivity.
Qed.

(** ** MKE08 *)

Theorem mk_test_passes nonce pol lang data name1 name2 atts f :
  @hash_total C -> parse pol lang = Ok (tree f) -> String.length nonce = 12%nat -> flat f = true ->
  name1 <> name2 -> atts <> [] -> placed [name1; name2] atts = true ->
  sat (owns (map snd atts)) f = true -> opens (map snd atts) (map snd atts) f = true ->
  passes (mk_test nonce pol lang data name1 name2 atts).
Proof.
  intros HT P HN FL ND NEA PL SA OP t i LT. unfold mk_test.
  destruct (mk_setup_runs t i) as (pk & msk & j1 & E1). step E1.
  destruct (mk_keygen_runs pk msk "user1" t j1) as (uk & j2 & E2). step E2.
  destruct (mk_authgen_runs name1 t j2) as (A1 & j3 & E3). step E3.
  destruct (mk_authgen_runs name2 t j3) as (A2 & j4 & E4). step E4. cbv zeta.
  assert (NA : map mau_name [A1; A2] = [name1; name2]).
  { cbn. unfold mk_authgen, rbind, draw, rret in E3, E4. injection E3 as <- _. now injection E4 as <- _. }
  remember [A1; A2] as As eqn:EAs.
  assert (E5 : exists pks, omap (fun a => obind (unwrap (nth_error As (fst a))) (fun A => unwrap_res (mk_request_pk pk (snd a) A))) atts = Ok pks).
  { apply omap_runs. intros a I. destruct (placed_at _ _ As _ _ NA PL I) as (B & -> & _ & Fr).
    destruct (proj2 (mk_request_pk_iff pk B (snd a) HT) Fr) as (k & Ek). cbn [unwrap obind]. rewrite Ek. cbn. eauto. }
  destruct E5 as (pks & E5). erewrite rbind_run by (unfold rlift; rewrite E5; reflexivity); cbv beta iota.
  assert (E6 : exists sks, omap (fun a => obind (unwrap (nth_error As (fst a))) (fun A => unwrap_res (mk_request_sk (muk_pk uk) (snd a) A))) atts = Ok sks).
  { apply omap_runs. intros a I. destruct (placed_at _ _ As _ _ NA PL I) as (B & -> & _ & Fr).
    destruct (proj2 (mk_request_sk_iff (muk_pk uk) B (snd a) HT) Fr) as (k & Ek). cbn [unwrap obind]. rewrite Ek. cbn. eauto. }
  destruct E6 as (sks & E6). erewrite rbind_run by (unfold rlift; rewrite E6; reflexivity); cbv beta iota.
  assert (Npk : map mapk_attr pks = map snd atts /\ Forall (mk_pk_issued pk As) pks).
  { apply omap_Forall2 in E5. clear - E5. induction E5 as [|a k l m E _ (IH & IHF)]; [split; [reflexivity|constructor]|].
    apply obind_Ok in E as (B & EB & E). destruct (nth_error As (fst a)) as [B'|] eqn:En; [|discriminate]. injection EB as ->.
    destruct (mk_request_pk pk (snd a) B) as [k'| |] eqn:Er; try discriminate. injection E as <-. split.
    - cbn. rewrite IH. f_equal. unfold mk_request_pk in Er. destruct (from_authority _ _); [|discriminate].
      apply obind_Ok in Er as (? & _ & Er). apply obind_Ok in Er as (? & _ & Er). now injection Er as <-.
    - constructor; [|exact IHF]. exists B, (snd a). split; [exact (nth_error_In _ _ En)|exact Er]. }
  destruct Npk as (Npk & Ipk).
  assert (Nsk : map mask_attr sks = map snd atts /\ Forall (mk_sk_issued (muk_pk uk) As) sks).
  { apply omap_Forall2 in E6. clear - E6. induction E6 as [|a k l m E _ (IH & IHF)]; [split; [reflexivity|constructor]|].
    apply obind_Ok in E as (B & EB & E). destruct (nth_error As (fst a)) as [B'|] eqn:En; [|discriminate]. injection EB as ->.
    destruct (mk_request_sk (muk_pk uk) (snd a) B) as [k'| |] eqn:Er; try discriminate. injection E as <-. split.
    - cbn. rewrite IH. f_equal. unfold mk_request_sk in Er. destruct (from_authority _ _); [|discriminate].
      apply obind_Ok in Er as (? & _ & Er). apply obind_Ok in Er as (? & _ & Er). now injection Er as <-.
    - constructor; [|exact IHF]. exists B, (snd a). split; [exact (nth_error_In _ _ En)|exact Er]. }
  destruct Nsk as (Nsk & Isk).
  destruct (mk_encrypt_runs nonce pk pks pol lang data f t j4 P FL) as (ct & j5 & E7). wstep E7.
  assert (U0 : muk_ska uk = []).
  { unfold mk_keygen, rbind, draw, rret in E2. now injection E2 as <- _. }
  assert (D : mk_decrypt (fold_left mk_add sks uk) ct = Ok data).
  { rewrite (mk_decrypt_all L pk msk As t i j1 E1) with (nonce := nonce) (pol := pol) (lang := lang) (data := data)
        (apks := pks) (te := t) (ie := j4) (je := j5) (f := f); auto.
    - rewrite fold_mk_add, U0. cbn [muk_ska app]. rewrite Nsk, Npk, SA, OP.
      destruct sks as [|k sks']; [|reflexivity]. destruct atts as [|a atts']; [congruence|discriminate Nsk].
    - intros X Y IX IY. apply (names_unique mau_name As); auto. rewrite NA.
      constructor; [intros [X'|[]]; congruence|]. constructor; [intros []|constructor].
    - exists "user1"%string, t, j1, j2, uk, sks. auto. }
  done D.
Qed.

(** ** Secret sharing *)

Theorem sharing_or_passes : passes test_secret_sharing_or.
Proof.
  intros t i LT. unfold test_secret_sharing_or.
  erewrite rbind_run by reflexivity. step (gen_shares_eq L (t i) 1 2 t (S i) ltac:(lia)).
  lifted. lifted. unfold recover.
  match goal with |- context [parse ?p JsonPolicy] =>
    assert (P : parse p JsonPolicy = Ok (tree (FOr [FLeaf "A" 38; FLeaf "B" 53]))) by (vm_compute; reflexivity); rewrite P end.
  cbn [unwrap_res obind]. unfold recover_secret. rewrite (calc_coefficients_eq L). cbn -[feqb].
  eexists. unfold rlift, assert.
  match goal with |- context [feqb C ?x ?y] => assert (E : feqb C x y = true) by (apply (feqb_eq L); ring); rewrite E end.
  reflexivity.
Qed.

Theorem sharing_and_passes : passes test_secret_sharing_and.
Proof.
  intros t i LT. unfold test_secret_sharing_and.
  erewrite rbind_run by reflexivity. step (gen_shares_eq L (t i) 2 2 t (S i) ltac:(lia)).
  lifted. lifted. lifted. unfold recover.
  match goal with |- context [parse ?p JsonPolicy] =>
    assert (P : parse p JsonPolicy = Ok (tree (FAnd [FLeaf "A" 40; FLeaf "B" 55]))) by (vm_compute; reflexivity); rewrite P end.
  cbn [unwrap_res obind]. unfold recover_secret. rewrite (calc_coefficients_eq L). cbn -[feqb].
  assert (O : (1 : F) <> 0) by exact (F_1_neq_0 (f_theory L)).
  assert (T : forall x y : F, x = y -> feqb C x y = true) by (intros x y; apply (feqb_eq L)).
  assert (N : forall x y : F, x <> y -> feqb C x y = false).
  { intros x y H. destruct (feqb C x y) eqn:E; [|reflexivity]. apply (feqb_eq L) in E. congruence. }
  rewrite (T (0 + 1) 1) by ring. rewrite (N (0 + 1) (1 + 1)).
  2:{ intros E. apply O. transitivity ((1 + 1) - (0 + 1) : F); [ring|]. rewrite E. ring. }
  rewrite (N (0 + 1 + 1) 1).
  2:{ intros E. apply O. transitivity ((0 + 1 + 1) - 1 : F); [ring|]. rewrite E. ring. }
  rewrite (T (0 + 1 + 1) (1 + 1)) by ring.
  eexists. unfold rlift, assert. rewrite T; [reflexivity|]. field. split; [exact O|].
  change (fopp C (f1 C) <> f0 C). intros E. apply O.
  transitivity (fopp C (fopp C (f1 C))); [ring|]. rewrite E. ring.
Qed.

Theorem gen_shares_json_passes : passes test_gen_shares_json.
Proof.
  intros t i LT. unfold test_gen_shares_json. lifted.
  match goal with |- context [parse ?p JsonPolicy] =>
    assert (P : parse p JsonPolicy = Ok (tree (FAnd [FLeaf "A" 40; FLeaf "B" 55; FLeaf "C" 70; FLeaf "D" 85]))) by (vm_compute; reflexivity); rewrite P end.
  step (gen_shares_policy_eq L (FAnd [FLeaf "A" 40; FLeaf "B" 55; FLeaf "C" 70; FLeaf "D" 85]) (t i) None t (S i)).
  erewrite rbind_run by (unfold rlift; rewrite (calc_coefficients_eq L); reflexivity). lifted.
  eexists. unfold rlift. cbn. reflexivity.
Qed.

(** ** The rest draws nothing *)

Theorem dnf_passes : test_dnf_from (C := C) = Ok tt.
Proof. vm_compute. reflexivity. Qed.

End UnitTestProofs.

(** ** The constants of the tests *)

(** The formula of a tree. *)
Fixpoint form (v : pvalue) : formula :=
  match v with
  | PStr n p => FLeaf n p
  | PObj And (PArr l) => FAnd (map form l)
  | PObj Or (PArr l) => FOr (map form l)
  | _ => FAnd []
  end.
Definition policy_of (pol : string) (lang : language) : formula :=
  match parse pol lang with Ok v => form v | _ => FAnd [] end.

(** Closes a side condition on constants. *)
Ltac side :=
  match goal with
  | |- parse _ _ = _ => vm_compute; reflexivity
  | |- NoDup (leaves _) => apply Witnesses.nodup_leaves; vm_compute; reflexivity
  | |- NoDup _ => apply Witnesses.nodup_strings; vm_compute; reflexivity
  | SO : small_ok ?C 10 |- small_ok ?C _ =>
      let k := fresh in let Hk := fresh in intros k Hk; apply SO; vm_compute in Hk; lia
  | |- _ <> _ => discriminate
  | |- incl _ _ => let x := fresh in let H := fresh in intros x H; cbn in *; tauto
  | |- forall n, In n _ -> is_negative n = _ =>
      let H := fresh in let n := fresh in intros n H; cbn in H; repeat (destruct H as [<-|H]; [reflexivity|]); destruct H
  | |- (_ < _)%nat => cbn; lia
  | |- _ -> _ => let H := fresh in intros H; first [vm_compute in H; discriminate H | clear H; vm_compute; reflexivity]
  | |- _ => vm_compute; reflexivity
  end.


Theorem parsing_passes : test_single_parsing = Ok tt /\ test_children_parsing = Ok tt /\ test_sub_children_parsing = Ok tt /\
  test_msp_from = Ok tt /\ test_traverse = Ok tt /\ test_pruning = Ok tt.
Proof. repeat apply conj; vm_compute; reflexivity. Qed.

Theorem aes_passes nonce : String.length nonce = 12 -> test_aes_correctness1 nonce = Ok tt.
Proof.
  intros Hn. unfold test_aes_correctness1, text_encrypt, text_decrypt. cbn [unwrap_res obind]. cbv zeta.
  set (k := sha3_256 _). set (b := gcm_enc k nonce dance). destruct (append_cut nonce b 12 Hn) as [E1 E2].
  assert (Lb : String.length (nonce ++ b) = 12 + String.length b) by (rewrite append_len; lia).
  rewrite Lb. replace (12 + String.length b <? 12) with false by (symmetry; apply Nat.ltb_ge; lia).
  replace (12 + String.length b - 12) with (String.length b) by lia.
  rewrite E1, E2. unfold b. rewrite gcm_ok. apply gives_same.
Qed.

Section Instances.
Context {C : crypto} (L : laws C) (HT : @hash_total C) (SO : small_ok C 10).
Variables nonce nonce' : string.
Hypotheses (HN : String.length nonce = 12) (HN' : String.length nonce' = 12).

Ltac close := first [assumption | side].
Ltac body :=
  match goal with
  | |- passes (bsw_test _ ?p ?ma ?no) =>
      let g := eval vm_compute in (policy_of p JsonPolicy) in apply (bsw_test_passes L nonce p ma no g); close
  | |- passes (bsw_example _ ?p ?l ?d ?a) =>
      let g := eval vm_compute in (policy_of p l) in apply (bsw_example_passes L nonce p l d a g); close
  | |- passes (bsw_delegation _ ?p ?a ?b) =>
      let g := eval vm_compute in (policy_of p JsonPolicy) in apply (bsw_delegation_passes L nonce p a b g); close
  | |- passes (ghw_test _ ?p ?ma ?no) =>
      let g := eval vm_compute in (policy_of p JsonPolicy) in apply (ghw_test_passes L nonce p ma no g); close
  | |- passes (ghw_plain _ ?p ?d ?a) =>
      let g := eval vm_compute in (policy_of p JsonPolicy) in apply (ghw_plain_passes L nonce p d a g); close
  | |- passes (lsw_test _ ?p ?l ?d ?a ?c) =>
      let g := eval vm_compute in (policy_of p l) in apply (lsw_test_passes L nonce p l d a c g); close
  | |- passes (yct_test _ ?p ?l ?d ?u ?a) =>
      let g := eval vm_compute in (policy_of p l) in apply (yct_test_passes L nonce p l d u a g); close
  | |- passes (cp_test _ ?p ?l ?d ?a) =>
      let g := eval vm_compute in (policy_of p l) in apply (cp_test_passes L nonce p l d a g); close
  | |- passes (aw_test _ ?p ?m ?c) =>
      let g := eval vm_compute in (policy_of p JsonPolicy) in apply (aw_test_passes L nonce p m c g); close
  | |- passes (bd_test _ ?p ?l ?d ?u ?h ?a ?k ?c) =>
      let g := eval vm_compute in (policy_of p l) in apply (bd_test_passes L nonce p l d u h a k c g); close
  | |- passes (mk_test _ ?p ?l ?d ?n ?m ?a) =>
      let g := eval vm_compute in (policy_of p l) in apply (mk_test_passes L nonce p l d n m a g); close
  end.

Theorem bsw_tests_pass :
  passes (test_bsw_or (C := C) nonce) /\
  passes (test_bsw_and10 (C := C) nonce) /\
  passes (test_bsw_nested (C := C) nonce) /\
  passes (test_bsw_or3 (C := C) nonce) /\
  passes (test_bsw_and (C := C) nonce) /\
  passes (test_bsw_dual_attributes (C := C) nonce) /\
  passes (test_bsw_and3 (C := C) nonce) /\
  passes (test_bsw_or_and (C := C) nonce) /\
  passes (test_bsw_delegate_ab (C := C) nonce) /\
  passes (doc_bsw (C := C) nonce).
Proof.
  clear HN' nonce'.
  repeat apply conj; unfold test_bsw_or, test_bsw_and10, test_bsw_nested, test_bsw_or3, test_bsw_and, test_bsw_dual_attributes, test_bsw_and3, test_bsw_or_and, test_bsw_delegate_ab, doc_bsw; body.
Qed.

Theorem ghw_tests_pass :
  passes (test_ghw_or (C := C) nonce) /\
  passes (test_ghw_and10 (C := C) nonce) /\
  passes (test_ghw_and2 (C := C) nonce).
Proof.
  clear HN' nonce'.
  repeat apply conj; unfold test_ghw_or, test_ghw_and10, test_ghw_and2; body.
Qed.

Theorem lsw_tests_pass :
  passes (test_lsw_and (C := C) nonce) /\
  passes (test_lsw_or (C := C) nonce) /\
  passes (test_lsw_or_and (C := C) nonce) /\
  passes (test_lsw_not (C := C) nonce) /\
  passes (doc_lsw (C := C) nonce).
Proof.
  clear HN' nonce'.
  repeat apply conj; unfold test_lsw_and, test_lsw_or, test_lsw_or_and, test_lsw_not, doc_lsw; body.
Qed.

Theorem yct_tests_pass :
  passes (test_yct_or (C := C) nonce) /\
  passes (doc_yct (C := C) nonce).
Proof.
  clear HN' nonce' HT.
  repeat apply conj; unfold test_yct_or, doc_yct; body.
Qed.

Theorem ac_tests_pass :
  passes (test_kp_and (C := C) nonce) /\
  passes (test_kp_or_and (C := C) nonce nonce') /\
  passes (test_kp_or (C := C) nonce) /\
  passes (test_kp_not (C := C) nonce) /\
  passes (doc_kp (C := C) nonce) /\
  passes (test_cp_and (C := C) nonce) /\
  passes (test_cp_or (C := C) nonce) /\
  passes (test_cp_or_and_and (C := C) nonce) /\
  passes (doc_cp (C := C) nonce).
Proof.
  clear SO.
  assert (One : forall p l d a c f, policy_of p l = f -> parse p l = Ok (tree f) ->
    binary_and f = true -> NoDup (names f) -> NoDup a -> accepts c (sat (owns a) f) d ->
    passes (C := C) (rbind ac_setup (fun ks => let '(pk, msk) := ks in kp_round nonce p l d pk msk a c))).
  { intros p l d a c f _. intros. now apply (kp_one_passes L) with (f := f). }
  repeat apply conj;
    unfold test_kp_and, test_kp_or, test_kp_not, doc_kp, test_cp_and, test_cp_or, test_cp_or_and_and, doc_cp; try body;
    try (eapply One; [vm_compute; reflexivity|close..]).
  unfold test_kp_or_and. cbv zeta.
  match goal with |- context [kp_round _ ?p _ _ _ _ _ _] => set (pol := p) end.
  let g := eval vm_compute in (policy_of pol JsonPolicy) in
    apply (kp_two_passes L nonce nonce' pol JsonPolicy dance _ _ _ g); close.
Qed.

Theorem aw_tests_pass :
  passes (test_aw_and (C := C) nonce) /\
  passes (test_aw_or (C := C) nonce) /\
  passes (test_aw_or_and (C := C) nonce) /\
  passes (test_aw_not (C := C) nonce) /\
  passes (doc_aw (C := C) nonce).
Proof.
  clear HN' nonce'.
  repeat apply conj; [apply (aw_and_passes L); close| | | |apply (aw_doc_passes L); close].
  all: unfold test_aw_or, test_aw_or_and, test_aw_not; body.
Qed.

Theorem bd_tests_pass :
  passes (test_bd_and (C := C) nonce) /\
  passes (test_bd_or (C := C) nonce) /\
  passes (test_bd_or_and (C := C) nonce) /\
  passes (test_bd_not (C := C) nonce) /\
  passes (doc_bd (C := C) nonce).
Proof.
  clear HN' nonce' SO.
  repeat apply conj; unfold test_bd_and, test_bd_or, test_bd_or_and, test_bd_not, doc_bd; body.
Qed.

Theorem mk_tests_pass :
  passes (test_mk_and (C := C) nonce) /\
  passes (test_mk_or (C := C) nonce) /\
  passes (test_mk_or_and (C := C) nonce) /\
  passes (doc_mk (C := C) nonce).
Proof.
  clear HN' nonce' SO.
  repeat apply conj; unfold test_mk_and, test_mk_or, test_mk_or_and, doc_mk; body.
Qed.

End Instances.
