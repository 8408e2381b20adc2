(** * ConsoleTraces: AC17CP through the tool, with other calls in between *)
From Coq Require Import String Ascii List Bool Arith NArith ZArith Lia.
From Verif Require Import Base Crypto Policy Tools Sharing Spec Parse ParseProofs SchemeLib CoreProofs
  Files FilesProofs Instance Borsh BorshProofs Console ConsoleProofs.
From Verif Require Bsw Lsw Yct14 Ac17 Aw11 Bdabe Mke08 Msp MspProofs Ac17Proofs LayoutNames.
Import Ac17 Ac17Proofs.
Import ListNotations.
Local Open Scope nat_scope.
Local Open Scope string_scope.
Local Open Scope io_scope.

(** ** Files stay readable *)
Section Keeps.
Context {C : crypto} (E : env C) (p : string).

Definition keeps {A} (m : io A) : Prop := forall d d' r, m d = (d', r) -> readable d p -> readable d' p.

Lemma quiet_keeps {A} (m : io A) : quiet m -> keeps m.
Proof. intros H d d' r X. apply H in X as ->. exact (fun x => x). Qed.
Lemma keeps_bind {A B} (m : io A) (k : A -> io B) : keeps m -> (forall a, keeps (k a)) -> keeps (ibind m k).
Proof.
  intros H K d d' r X. unfold ibind in X. destruct (m d) as [d1 [a| |]] eqn:M; intros R; apply (H _ _ _ M) in R.
  - exact (K a _ _ _ X R).
  - injection X as <- _. exact R.
  - injection X as <- _. exact R.
Qed.
Lemma save_keeps q s : keeps (isave q s).
Proof.
  intros d d' r X. destruct r as [[]| |].
  - exact (isave_readable _ _ _ _ _ X).
  - unfold isave in X. destruct (write_file d q s) as [[b x]| |]; [discriminate| |discriminate].
    injection X as <-. exact (fun x => x).
  - unfold isave in X. destruct (write_file d q s) as [[b x]| |]; [discriminate|discriminate|].
    injection X as <-. exact (fun x => x).
Qed.
Lemma store_keeps {A} q (c : codec A) v w : keeps (store E q c v w).
Proof. apply keeps_bind; [apply quiet_keeps, quiet_lift | intros; apply save_keeps]. Qed.
Lemma store_result_keeps {A} q (c : codec A) t v : keeps (store_result E q c t v).
Proof. apply keeps_bind; [apply quiet_keeps, quiet_lift | intros; apply save_keeps]. Qed.

Ltac quiets := repeat first
  [ apply quiet_dec | apply quiet_run | apply quiet_lift | apply quiet_ret | apply quiet_read
  | apply quiet_map; intros | apply quiet_unwrap | apply quiet_try ].
Ltac cases := repeat match goal with
  | |- context [match ?x with _ => _ end] => destruct x
  end.
Ltac kept := repeat first
  [ apply store_keeps | apply store_result_keeps
  | apply quiet_keeps; solve [quiets]
  | apply keeps_bind; [|intros; cases] ].

Theorem run_keeps t nonce text c m s lang : keeps (run E t nonce text c m s lang).
Proof.
  destruct c; cbn [run].
  - unfold run_setup. destruct s; try destruct (attr_args m); kept.
  - unfold run_authgen. destruct s; kept.
  - unfold run_keygen. destruct s; kept.
  - unfold run_delegate. destruct (value_of m SK_FILE); destruct s; kept.
  - unfold run_encrypt. destruct s; destruct (enc_pk_files m) as [|? [|? ?]]; kept.
  - apply quiet_keeps. intros d d' r H. exact (decrypt_state _ _ _ _ _ _ H).
  - unfold run_req_attr_pk. destruct (req_attrs m) as [|? [|? ?]]; destruct s; kept.
  - unfold run_req_attr_sk. destruct (req_attrs m) as [|? [|? ?]]; destruct s; kept.
Qed.

Lemma calls_keep l d d' : calls E l d d' -> readable d p -> readable d' p.
Proof.
  induction 1 as [|t nonce text c m s lang r l d d1 d2 R _ IH]; intros Q; [exact Q|].
  apply IH. exact (run_keeps t nonce text c m s lang _ _ _ R Q).
Qed.
End Keeps.

(** ** What a session needs of the files between its calls *)
Section Traces.
Context {C : crypto} (L : laws C) (E : env C) (OK : env_ok E).
Local Notation W := (e_wire E).

(** [d1] is what setup leaves, key generation takes [a] to [a'], encryption takes
    [b] to [b'], and the ciphertext is opened in [z]. *)
Theorem cp_states ts tk te nonce text ms mk me md lang lang' d d1 a a' b b' z data f :
  let msk := file_arg ms MSK_FILE in let pk := file_arg ms PK_FILE in
  let sk := file_arg mk SK_FILE in let ct := enc_ct_file me in
  run_setup E ts ms AC17CP d = (d1, Ok tt) ->
  run_keygen E tk mk AC17CP lang' a = (a', Ok tt) ->
  run_encrypt E te nonce text me AC17CP lang b = (b', Ok tt) ->
  file_arg mk MSK_FILE = msk -> enc_pk_files me = [pk] ->
  file_arg md SK_FILE = sk -> text_arg md FILE = ct ->
  msk <> pk ->
  same_at d1 a msk -> same_at d1 b pk -> same_at a' z sk -> same_at b' z ct ->
  readable d msk -> readable d pk -> readable a sk -> readable b ct ->
  fs_open b (text_arg me FILE) = Some data ->
  Forall valid (attr_args mk) -> valid (text_arg me POLICY) ->
  parse (text_arg me POLICY) lang = Ok (tree f) -> String.length nonce = 12%nat ->
  NoDup (names f) -> NoDup (attr_args mk) ->
  snd (open_file E md AC17CP z) = if sat (owns (attr_args mk)) f then Ok data else Err.
Proof.
  intros msk pk sk ct HS HK HE Fm Fp Fs Fc NE SA SB SS SC Q1 Q2 Q3 Q4 FO VA VP P NL NN NA.
  unfold run_setup in HS. fold msk pk in HS.
  apply ibind_Ok in HS as (d0 & [kp km] & R1 & HS). apply irun_Ok in R1 as [-> [js R1]].
  apply ibind_Ok in HS as (e1 & [] & S1 & S2).
  unfold run_keygen in HK. rewrite Fm in HK. fold sk in HK.
  apply ibind_Ok in HK as (e2 & km' & D1 & HK). apply iunwrap_Ok in D1.
  apply ibind_Ok in HK as (e3 & kk & R2 & S3). apply iunwrap_Ok, irun_Ok in R2 as [-> [jk R2]].
  unfold run_encrypt in HE. rewrite Fp in HE. fold ct in HE.
  apply ibind_Ok in HE as (e4 & buf & D2 & HE).
  apply ibind_Ok in HE as (e5 & kp' & D3 & HE).
  apply ibind_Ok in HE as (e6 & c & R3 & S4). apply irun_Ok in R3 as [-> [je R3]].
  assert (B : binary_and f = true).
  { destruct (binary_and f) eqn:B; [reflexivity|]. rewrite (cp_encrypt_wide_and _ _ _ _ _ _ _ _ P B) in R3. discriminate. }
  pose proof (LayoutNames.parsed_utf8 _ _ _ P VP) as VN.
  assert (S1' := S1). apply store_Ok in S1' as (b1 & B1 & _).
  assert (S2' := S2). apply store_Ok in S2' as (b2 & B2 & _).
  assert (S3' := S3). apply store_Ok in S3' as (b3 & B3 & _).
  assert (S4' := S4). apply store_Ok in S4' as (b4 & B4 & _).
  pose proof (ser_dec_state _ _ _ _ _ _ D1) as X; subst e2.
  assert (km' = km).
  { assert (X : ser_dec E (c_ac_msk W) msk e1 = (e1, Ok km)).
    { apply (store_load E OK _ _ _ "MSK" d); [cbn; tauto | exact Q1 | | exact S1].
      exact (sound_survives _ _ _ _ (ac_msk_sound E OK) I B1). }
    apply (ser_dec_same E) with (d' := d1) in X; [|exact (store_other _ _ _ _ _ _ _ _ S2 NE)].
    apply (ser_dec_same E) with (d' := a) in X; [congruence | exact SA]. }
  subst km'.
  unfold iread in D2. injection D2 as -> D2.
  assert (buf = data).
  { unfold read_to_vec in D2. rewrite FO in D2. congruence. }
  subst buf.
  pose proof (ser_dec_state _ _ _ _ _ _ D3) as X; subst e5.
  assert (kp' = kp).
  { assert (X : ser_dec E (c_ac_pk W) pk d1 = (d1, Ok kp)).
    { apply (store_load E OK _ _ _ "PK" e1); [cbn; tauto | | | exact S2].
      - exact (store_readable _ _ _ _ _ _ _ _ S1 Q2).
      - exact (sound_survives _ _ _ _ (ac_pk_sound E OK) I B2). }
    apply (ser_dec_same E) with (d' := e4) in X; [congruence | exact SB]. }
  subst kp'.
  assert (LK : ser_dec E (c_ac_cpsk W) sk z = (z, Ok kk)).
  { apply (ser_dec_same E) with (d := a'); [exact SS|].
    apply (store_load E OK _ _ _ "SK" a); [cbn; tauto | exact Q3 | | exact S3].
    apply (sound_survives _ _ _ _ (ac_cpsk_sound E OK)) with (2 := B3).
    destruct (cp_keygen_names _ _ _ _ _ _ R2) as [-> K2]. split; [exact VA|].
    rewrite <- K2 in VA. exact (proj1 (Forall_map _ _ _) VA). }
  assert (LC : ser_dec E (c_ac_cpct W) ct z = (z, Ok c)).
  { apply (ser_dec_same E) with (d := b'); [exact SC|].
    apply (store_load E OK _ _ _ "CT" e4); [cbn; tauto | exact Q4 | | exact S4].
    apply (sound_survives _ _ _ _ (ac_cpct_sound E OK)) with (2 := B4).
    destruct (cp_encrypt_names _ _ _ _ _ _ _ _ _ _ P B R3) as [-> K2]. split; [exact VP|].
    revert K2. apply Forall_impl. intros e. rewrite Forall_forall in VN. apply VN. }
  unfold open_file. rewrite Fs, Fc.
  unfold ibind at 1. rewrite LK. unfold ibind at 1. rewrite LC. cbn [snd ilift].
  destruct (sat (owns (attr_args mk)) f) eqn:S.
  - eapply (cp_correct L); eassumption.
  - destruct (cp_encrypt_names _ _ _ _ _ _ _ _ _ _ P B R3) as [K1 _].
    destruct (cp_keygen_names _ _ _ _ _ _ R2) as [K2 _].
    eapply cp_reject; rewrite ?K1, ?K2; eassumption.
Qed.

(** ** Any calls in between *)

(** The calls of [l] write none of the files [ps]. *)
Definition leave (ps : list string) (l : list (command * args)) : Prop :=
  forall c m p, In (c, m) l -> In p ps -> ~ In p (outputs c m).

Lemma leave_spares ps l p : leave ps l -> In p ps -> Forall (spares p) l.
Proof. intros H I. apply Forall_forall. intros [c m] J. exact (H c m p J I). Qed.

Lemma leave_same ps l d d' p : calls E l d d' -> leave ps l -> In p ps -> same_at d d' p.
Proof. intros K H I. exact (calls_frame E l d d' p K (leave_spares _ _ _ H I)). Qed.

Lemma same_trans d d' d'' p : same_at d d' p -> same_at d' d'' p -> same_at d d'' p.
Proof. unfold same_at. intros H1 H2. now rewrite H2. Qed.

Lemma setup_read ts ms s d d' r p : run_setup E ts ms s d = (d', r) -> readable d p -> readable d' p.
Proof. exact (run_keeps E p ts "" "" Setup ms s HumanPolicy d d' r). Qed.
Lemma keygen_read tk mk s lang d d' r p : run_keygen E tk mk s lang d = (d', r) -> readable d p -> readable d' p.
Proof. exact (run_keeps E p tk "" "" Keygen mk s lang d d' r). Qed.
Lemma encrypt_read t nonce text m s lang d d' r p :
  run_encrypt E t nonce text m s lang d = (d', r) -> readable d p -> readable d' p.
Proof. exact (run_keeps E p t nonce text Encrypt m s lang d d' r). Qed.

Lemma keygen_other tk mk lang d d' p :
  run_keygen E tk mk AC17CP lang d = (d', Ok tt) -> p <> file_arg mk SK_FILE -> same_at d d' p.
Proof.
  intros H N. unfold run_keygen in H.
  apply ibind_Ok in H as (e2 & km & D & H). apply iunwrap_Ok in D. apply ser_dec_state in D as ->.
  apply ibind_Ok in H as (e3 & kk & R & H). apply iunwrap_Ok, irun_Ok in R as [-> _].
  exact (store_other _ _ _ _ _ _ _ _ H N).
Qed.
Lemma encrypt_other t nonce text m lang d d' r p :
  run_encrypt E t nonce text m AC17CP lang d = (d', r) -> p <> enc_ct_file m -> same_at d d' p.
Proof.
  intros H N. apply (run_frame E t nonce text Encrypt m AC17CP lang _ _ _ H). cbn [outputs In].
  intros [X|[]]. exact (N (eq_sym X)).
Qed.

(** The key is made before the document is encrypted. *)
Theorem cp_trace ts tk te nonce text ms mk me md lang lang' d d1 a a' b b' z l1 l2 l3 data f :
  let msk := file_arg ms MSK_FILE in let pk := file_arg ms PK_FILE in
  let sk := file_arg mk SK_FILE in let ct := enc_ct_file me in
  run_setup E ts ms AC17CP d = (d1, Ok tt) -> calls E l1 d1 a ->
  run_keygen E tk mk AC17CP lang' a = (a', Ok tt) -> calls E l2 a' b ->
  run_encrypt E te nonce text me AC17CP lang b = (b', Ok tt) -> calls E l3 b' z ->
  file_arg mk MSK_FILE = msk -> enc_pk_files me = [pk] ->
  file_arg md SK_FILE = sk -> text_arg md FILE = ct ->
  NoDup [msk; pk; sk; ct] ->
  leave [msk; pk] l1 -> leave [pk; sk] l2 -> leave [sk; ct] l3 ->
  Forall (readable d) [msk; pk; sk; ct] ->
  fs_open b (text_arg me FILE) = Some data ->
  Forall valid (attr_args mk) -> valid (text_arg me POLICY) ->
  parse (text_arg me POLICY) lang = Ok (tree f) -> String.length nonce = 12%nat ->
  NoDup (names f) -> NoDup (attr_args mk) ->
  snd (open_file E md AC17CP z) = if sat (owns (attr_args mk)) f then Ok data else Err.
Proof.
  intros msk pk sk ct HS C1 HK C2 HE C3 Fm Fp Fs Fc ND L1 L2 L3 RD FO VA VP P NL NN NA.
  inversion ND as [|? ? N1 ND1]; subst. inversion ND1 as [|? ? N2 ND2]; subst.
  inversion ND2 as [|? ? N3 _]; subst. cbn [In] in N1, N2, N3.
  inversion RD as [|? ? Q1 RD1]; subst. inversion RD1 as [|? ? Q2 RD2]; subst.
  inversion RD2 as [|? ? Q3 RD3]; subst. inversion RD3 as [|? ? Q4 _]; subst.
  assert (Ra : forall p, readable d p -> readable a p)
    by (intros p R; exact (calls_keep E p _ _ _ C1 (setup_read _ _ _ _ _ _ _ HS R))).
  assert (Rb : forall p, readable d p -> readable b p)
    by (intros p R; exact (calls_keep E p _ _ _ C2 (keygen_read _ _ _ _ _ _ _ _ HK (Ra p R)))).
  apply (cp_states ts tk te nonce text ms mk me md lang lang' d d1 a a' b b'); try assumption; try (apply Ra; assumption); try (apply Rb; assumption).
  - intros X. apply N1. left. symmetry. exact X.
  - exact (leave_same _ _ _ _ _ C1 L1 (or_introl eq_refl)).
  - apply (same_trans d1 a); [exact (leave_same _ _ _ _ _ C1 L1 (or_intror (or_introl eq_refl)))|].
    apply (same_trans a a'); [|exact (leave_same _ _ _ _ _ C2 L2 (or_introl eq_refl))].
    apply (keygen_other _ _ _ _ _ _ HK). intros X. apply N2. left. symmetry. exact X.
  - apply (same_trans a' b); [exact (leave_same _ _ _ _ _ C2 L2 (or_intror (or_introl eq_refl)))|].
    apply (same_trans b b'); [|exact (leave_same _ _ _ _ _ C3 L3 (or_introl eq_refl))].
    apply (encrypt_other _ _ _ _ _ _ _ _ _ HE). intros X. apply N3. left. symmetry. exact X.
  - exact (leave_same _ _ _ _ _ C3 L3 (or_intror (or_introl eq_refl))).
Qed.

(** The document is encrypted before the key is made. *)
Theorem cp_trace_late ts tk te nonce text ms mk me md lang lang' d d1 a a' b b' z l1 l2 l3 data f :
  let msk := file_arg ms MSK_FILE in let pk := file_arg ms PK_FILE in
  let sk := file_arg mk SK_FILE in let ct := enc_ct_file me in
  run_setup E ts ms AC17CP d = (d1, Ok tt) -> calls E l1 d1 b ->
  run_encrypt E te nonce text me AC17CP lang b = (b', Ok tt) -> calls E l2 b' a ->
  run_keygen E tk mk AC17CP lang' a = (a', Ok tt) -> calls E l3 a' z ->
  file_arg mk MSK_FILE = msk -> enc_pk_files me = [pk] ->
  file_arg md SK_FILE = sk -> text_arg md FILE = ct ->
  NoDup [msk; pk; sk; ct] ->
  leave [msk; pk] l1 -> leave [msk; ct] l2 -> leave [sk; ct] l3 ->
  Forall (readable d) [msk; pk; sk; ct] ->
  fs_open b (text_arg me FILE) = Some data ->
  Forall valid (attr_args mk) -> valid (text_arg me POLICY) ->
  parse (text_arg me POLICY) lang = Ok (tree f) -> String.length nonce = 12%nat ->
  NoDup (names f) -> NoDup (attr_args mk) ->
  snd (open_file E md AC17CP z) = if sat (owns (attr_args mk)) f then Ok data else Err.
Proof.
  intros msk pk sk ct HS C1 HE C2 HK C3 Fm Fp Fs Fc ND L1 L2 L3 RD FO VA VP P NL NN NA.
  inversion ND as [|? ? N1 ND1]; subst. inversion ND1 as [|? ? N2 ND2]; subst.
  inversion ND2 as [|? ? N3 _]; subst. cbn [In] in N1, N2, N3.
  inversion RD as [|? ? Q1 RD1]; subst. inversion RD1 as [|? ? Q2 RD2]; subst.
  inversion RD2 as [|? ? Q3 RD3]; subst. inversion RD3 as [|? ? Q4 _]; subst.
  assert (Rb : forall p, readable d p -> readable b p)
    by (intros p R; exact (calls_keep E p _ _ _ C1 (setup_read _ _ _ _ _ _ _ HS R))).
  assert (Ra : forall p, readable d p -> readable a p)
    by (intros p R; exact (calls_keep E p _ _ _ C2 (encrypt_read _ _ _ _ _ _ _ _ _ _ HE (Rb p R)))).
  apply (cp_states ts tk te nonce text ms mk me md lang lang' d d1 a a' b b'); try assumption; try (apply Ra; assumption); try (apply Rb; assumption).
  - intros X. apply N1. left. symmetry. exact X.
  - apply (same_trans d1 b); [exact (leave_same _ _ _ _ _ C1 L1 (or_introl eq_refl))|].
    apply (same_trans b b'); [|exact (leave_same _ _ _ _ _ C2 L2 (or_introl eq_refl))].
    apply (encrypt_other _ _ _ _ _ _ _ _ _ HE). intros X. apply N1. right. right. left. symmetry. exact X.
  - exact (leave_same _ _ _ _ _ C1 L1 (or_intror (or_introl eq_refl))).
  - exact (leave_same _ _ _ _ _ C3 L3 (or_introl eq_refl)).
  - apply (same_trans b' a); [exact (leave_same _ _ _ _ _ C2 L2 (or_intror (or_introl eq_refl)))|].
    apply (same_trans a a'); [|exact (leave_same _ _ _ _ _ C3 L3 (or_intror (or_introl eq_refl)))].
    apply (keygen_other _ _ _ _ _ _ HK). intros X. apply N3. left. exact X.
Qed.
End Traces.
