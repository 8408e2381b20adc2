(** * ConsoleProofs: what the command line tool does *)
From Coq Require Import String Ascii List Bool Arith NArith ZArith Lia.
From Verif Require Import Base Crypto Policy Tools Sharing Spec Parse ParseProofs SchemeLib CoreProofs
  Files FilesProofs Instance Borsh BorshProofs Console.
From Verif Require Bsw Lsw Yct14 Ac17 Aw11 Bdabe Mke08 Msp MspProofs Ac17Proofs.
Import ListNotations.
Local Open Scope string_scope.
Local Open Scope io_scope.

(** ** Specification *)

(** What the libraries below are trusted for. *)
Definition env_ok {C : crypto} (E : env C) : Prop :=
  wire_ok (e_wire E) /\ forall b, e_inflate E (e_deflate E b) = Some b.

(** There is nothing at the empty path and nothing can be created there. *)
Definition posix (d : fs) : Prop := fs_files d "" = None /\ fs_may_create d "" = false.

(** A file already at the path can be read. *)
Definition readable (d : fs) (path : string) : Prop :=
  forall f, fs_files d path = Some f -> f_readable f = true.

(** The labels in the first and last line of a key file. *)
Definition labels : list string :=
  ["GP"; "SK"; "MSK"; "PK"; "CT"; "SAK"; "PAK"; "PAUK"; "SAUK"].

(** Two file systems agree at a path. *)
Definition same_at (d d' : fs) (path : string) : Prop := fs_files d' path = fs_files d path.

(** ** Hexadecimal text *)

Lemma hex_value_digit n : (n < 16)%N -> hex_value (hex_digit n) = Some n.
Proof.
  intros H. unfold hex_value, hex_digit.
  assert (A : forall m, (m < 256)%N -> N_of_ascii (ascii_of_N m) = m) by exact N_ascii_embedding.
  destruct (N.ltb_spec n 10) as [L|L].
  - rewrite A by lia.
    replace (48 <=? 48 + n)%N with true by (symmetry; apply N.leb_le; lia).
    replace (48 + n <=? 57)%N with true by (symmetry; apply N.leb_le; lia). cbn [andb].
    f_equal. lia.
  - rewrite A by lia.
    replace (87 + n <=? 57)%N with false by (symmetry; apply N.leb_gt; lia). rewrite andb_false_r.
    replace (87 + n <=? 70)%N with false by (symmetry; apply N.leb_gt; lia). rewrite andb_false_r.
    replace (97 <=? 87 + n)%N with true by (symmetry; apply N.leb_le; lia).
    replace (87 + n <=? 102)%N with true by (symmetry; apply N.leb_le; lia). cbn [andb].
    f_equal. lia.
Qed.

(** Every digit is printable. *)
Lemma hex_digit_range n : (n < 16)%N -> (48 <= N_of_ascii (hex_digit n) < 128)%N.
Proof.
  intros H. unfold hex_digit. destruct (N.ltb_spec n 10); rewrite N_ascii_embedding; lia.
Qed.

Lemma hex_not_blank n : (n < 16)%N -> hex_blank (hex_digit n) = false.
Proof.
  intros H. apply hex_digit_range in H. unfold hex_blank.
  destruct (N_of_ascii (hex_digit n)) as [|p]; [lia|].
  do 7 (destruct p as [p|p|]; try reflexivity; try lia).
Qed.

Lemma byte_parts b : (N_of_ascii b / 16 < 16)%N /\ (N_of_ascii b mod 16 < 16)%N.
Proof.
  pose proof (N_ascii_bounded b). split; [apply N.div_lt_upper_bound; lia | apply N.mod_lt; lia].
Qed.

Lemma hex_back s : from_hex (to_hex s) = Some s.
Proof.
  unfold from_hex. induction s as [|b s IH]; [reflexivity|].
  destruct (byte_parts b) as [H1 H2]. cbn [to_hex from_hex_at].
  rewrite !hex_not_blank, !hex_value_digit by assumption. cbn [bind].
  rewrite IH. cbn [bind]. rewrite <- N.div_mod by lia. now rewrite ascii_N_embedding.
Qed.

(** Strings of printable characters. *)
Fixpoint printable (s : string) : bool :=
  match s with
  | EmptyString => true
  | String c r => ((32 <=? N_of_ascii c) && (N_of_ascii c <? 128))%N && printable r
  end.

Lemma printable_app a b : printable (a ++ b) = printable a && printable b.
Proof. induction a; cbn; [reflexivity|]. rewrite IHa. now rewrite andb_assoc. Qed.

Lemma hex_printable s : printable (to_hex s) = true.
Proof.
  induction s as [|b s IH]; [reflexivity|]. cbn [to_hex printable].
  destruct (byte_parts b) as [H1 H2]. apply hex_digit_range in H1. apply hex_digit_range in H2.
  rewrite IH, andb_true_r. rewrite !andb_true_iff, !N.leb_le, !N.ltb_lt. lia.
Qed.

Lemma printable_line s : printable s = true -> no_break s = true.
Proof.
  induction s as [|c s IH]; [reflexivity|]. cbn [printable no_break]. intros H.
  apply andb_prop in H as [H1 H2]. rewrite (IH H2), andb_true_r.
  apply andb_prop in H1 as [H1 _]. apply N.leb_le in H1.
  destruct (Ascii.eqb_spec c nl) as [->|]; [cbn in H1; lia|].
  destruct (Ascii.eqb_spec c cr) as [->|]; [cbn in H1; lia|]. reflexivity.
Qed.

Lemma ascii_utf8 c r : (N_of_ascii c < 128)%N -> utf8 (String c r) = utf8 r.
Proof.
  intros H. cbn [utf8]. unfold between at 1.
  replace (nat_of_ascii c <=? 127)%nat with true; [reflexivity|].
  symmetry. apply Nat.leb_le. unfold nat_of_ascii. lia.
Qed.

Lemma printable_utf8 s r : printable s = true -> utf8 (s ++ r) = utf8 r.
Proof.
  induction s as [|c s IH]; [reflexivity|]. cbn [printable append]. intros H.
  apply andb_prop in H as [H1 H2]. apply andb_prop in H1 as [_ H1]. apply N.ltb_lt in H1.
  rewrite ascii_utf8 by exact H1. now apply IH.
Qed.

Lemma labels_printable w : In w labels -> printable w = true.
Proof. cbn. intros H. repeat destruct H as [<-|H]; try reflexivity. contradiction. Qed.

(** The text of a key file. *)
Lemma key_text w payload : printable w = true -> printable payload = true ->
  let s := begin_ w ++ payload ++ end_ w in
  utf8 s = true /\ read_raw s = Ok payload.
Proof.
  intros Hw Hp s.
  assert (E : s = ("-----BEGIN " ++ w ++ "-----") ++ String nl (payload ++ String nl ("-----END " ++ w ++ "-----"))).
  { unfold s, begin_, end_, nls. repeat (cbn [append]; rewrite ?sapp_ass). reflexivity. }
  rewrite E. split.
  - rewrite printable_utf8 by (rewrite !printable_app, Hw; reflexivity).
    rewrite ascii_utf8 by reflexivity.
    rewrite printable_utf8 by exact Hp. rewrite ascii_utf8 by reflexivity.
    rewrite <- (sapp_nil ("-----END " ++ w ++ "-----")).
    rewrite printable_utf8 by (rewrite !printable_app, Hw; reflexivity). reflexivity.
  - apply read_raw_middle; [|now apply printable_line].
    apply printable_line. now rewrite !printable_app, Hw.
Qed.

(** ** Actions *)

Lemma ibind_Ok {A B} (m : io A) (k : A -> io B) d d' b :
  ibind m k d = (d', Ok b) -> exists d1 a, m d = (d1, Ok a) /\ k a d1 = (d', Ok b).
Proof.
  unfold ibind. destruct (m d) as [d1 [a| |]]; try discriminate. eauto.
Qed.

Lemma ilift_Ok {A} (o : outcome A) d d' a : ilift o d = (d', Ok a) -> d' = d /\ o = Ok a.
Proof. unfold ilift. intros H. injection H as <- <-. auto. Qed.

Lemma irun_Ok {F A} t (m : rand F A) d d' a : irun t m d = (d', Ok a) ->
  d' = d /\ exists j, m t 0 = Ok (a, j).
Proof.
  unfold irun, ilift. destruct (m t 0) as [[x j]| |]; intros H; inversion H; subst. eauto.
Qed.

Lemma iunwrap_Ok {A} (m : io A) d d' a : iunwrap m d = (d', Ok a) -> m d = (d', Ok a).
Proof.
  unfold iunwrap. destruct (m d) as [d1 [x| |]]; cbn; intros H; inversion H; now subst.
Qed.

Lemma itry_Ok {A} (m : io A) d d' o : itry m d = (d', Ok o) ->
  (exists a, o = Some a /\ m d = (d', Ok a)) \/ (o = None /\ m d = (d', Err)).
Proof.
  unfold itry. destruct (m d) as [d1 [x| |]]; cbn; intros H; inversion H; subst; eauto.
Qed.

Lemma isave_Ok path s d d' : isave path s d = (d', Ok tt) ->
  fs_may_create d path = true /\ write_file d path s = Ok (true, d') /\ fs_may_create d' = fs_may_create d.
Proof.
  unfold isave, write_file, fs_create. destruct (fs_may_create d path); [|discriminate].
  intros H. injection H as <-. auto.
Qed.

Lemma isave_other path s d d' q : isave path s d = (d', Ok tt) -> q <> path -> same_at d d' q.
Proof. intros H N. apply isave_Ok in H as (_ & H & _). exact (write_file_other _ _ _ _ _ _ H N). Qed.

Lemma isave_readable path s d d' q : isave path s d = (d', Ok tt) -> readable d q -> readable d' q.
Proof.
  unfold isave, write_file, fs_create. destruct (fs_may_create d path); [|discriminate].
  intros H R. injection H as <-. intros f. cbn. destruct (seqb q path) eqn:E; [|apply R].
  intros X. injection X as <-. cbn. unfold seqb in E. apply String.eqb_eq in E as ->.
  specialize (R). unfold readable in R. destruct (fs_files d path); [now apply R|reflexivity].
Qed.

Section Store.
Context {C : crypto} (E : env C) (OK : env_ok E).

Lemma ser_dec_state {A} (c : codec A) p d d' o : ser_dec E c p d = (d', o) -> d' = d.
Proof. unfold ser_dec. intros H. now injection H as <- _. Qed.

Lemma ser_dec_same {A} (c : codec A) p d d' o :
  same_at d d' p -> ser_dec E c p d = (d, o) -> ser_dec E c p d' = (d', o).
Proof.
  unfold same_at, ser_dec, ser_dec_bin, read_file, fs_open. intros S H. injection H as <-. now rewrite S.
Qed.

Lemma ser_dec_at {A} (c : codec A) p d d' :
  same_at d d' p -> snd (ser_dec E c p d') = snd (ser_dec E c p d).
Proof. unfold same_at, ser_dec, ser_dec_bin, read_file, fs_open. intros ->. reflexivity. Qed.

(** A missing file stops the program. *)
Lemma ser_dec_missing {A} (c : codec A) p d : fs_files d p = None -> ser_dec E c p d = (d, Panic).
Proof. intros H. unfold ser_dec, ser_dec_bin, read_file, fs_open. now rewrite H. Qed.

Lemma store_Ok {A} p (c : codec A) v w d d' : store E p c v w d = (d', Ok tt) ->
  exists b, enc c v = Some b /\ isave p (begin_ w ++ to_hex (e_deflate E b) ++ end_ w) d = (d', Ok tt).
Proof.
  unfold store. intros H. apply ibind_Ok in H as (d1 & s & H1 & H).
  apply ilift_Ok in H1 as [-> H1]. unfold ser_enc, ser_bytes in H1.
  destruct (enc c v) as [b|]; [|discriminate]. injection H1 as <-. eauto.
Qed.

Lemma store_other {A} p (c : codec A) v w d d' q :
  store E p c v w d = (d', Ok tt) -> q <> p -> same_at d d' q.
Proof. intros H. apply store_Ok in H as (b & _ & H). intros N. exact (isave_other _ _ _ _ _ H N). Qed.

Lemma store_readable {A} p (c : codec A) v w d d' q :
  store E p c v w d = (d', Ok tt) -> readable d q -> readable d' q.
Proof. intros H. apply store_Ok in H as (b & _ & H). exact (isave_readable _ _ _ _ _ H). Qed.

(** Bytes saved between the two lines are found again. *)
Lemma saved_bytes p b w d d' : In w labels -> readable d p ->
  isave p (begin_ w ++ to_hex (e_deflate E b) ++ end_ w) d = (d', Ok tt) ->
  ser_dec_bin E d' p = Ok b.
Proof.
  intros Hw R H. apply isave_Ok in H as (_ & H & _).
  destruct (key_text w (to_hex (e_deflate E b))) as [U X]; [now apply labels_printable | apply hex_printable|].
  destruct (write_read_back _ _ _ _ _ H R) as (_ & _ & K). specialize (K U).
  unfold ser_dec_bin. rewrite K. cbn [obind]. rewrite X. cbn [obind].
  rewrite hex_back. destruct OK as [_ D]. now rewrite D.
Qed.

(** What is stored is loaded again. *)
Lemma store_load {A} p (c : codec A) v w d d' : In w labels -> readable d p ->
  survives c v -> store E p c v w d = (d', Ok tt) -> ser_dec E c p d' = (d', Ok v).
Proof.
  intros Hw R (s & E1 & E2) H. apply store_Ok in H as (b & E3 & H).
  rewrite E1 in E3. injection E3 as <-.
  unfold ser_dec. rewrite (saved_bytes _ _ _ _ _ Hw R H). cbn [obind]. now rewrite E2.
Qed.

(** A [Result] that is stored is never loaded as the value in it. *)
Lemma result_differs {A} p (c : codec A) v text d d' : readable d p -> sized c ->
  store_result E p c text (Some v) d = (d', Ok tt) -> snd (ser_dec E c p d') <> Ok v.
Proof.
  intros R S H. unfold store_result in H. apply ibind_Ok in H as (d1 & s & H1 & H).
  apply ilift_Ok in H1 as [-> H1]. unfold ser_bytes, enc_result in H1.
  destruct (enc c v) as [b|] eqn:E1; cbn [bind] in H1; [|discriminate]. injection H1 as <-.
  assert (X : ser_dec_bin E d' p = Ok (String (ascii_of_N 1) b))
    by (apply (saved_bytes p _ "CT" d d'); [cbn; tauto | exact R | exact H]).
  unfold ser_dec. rewrite X. cbn [obind snd]. now apply shifted_differs.
Qed.
End Store.

(** ** Arguments *)

Lemma clap_value c m k : clap_ok c m -> In k (present c) -> exists v, value_of m k = Some v.
Proof.
  intros (P & _ & _ & N) I. unfold value_of. specialize (P k I). specialize (N k).
  destruct (m k) as [[|v l]|]; [now specialize (N _ eq_refl) | eauto | congruence].
Qed.

Lemma clap_single c m k v : clap_ok c m -> ~ In k (multiple c) -> value_of m k = Some v -> m k = Some [v].
Proof.
  intros (_ & _ & S & _) N. unfold value_of. specialize (S k).
  destruct (m k) as [[|x l]|]; try discriminate. intros H. injection H as ->.
  destruct (S _ eq_refl N) as [y Y]. congruence.
Qed.

(** ** Commands that cannot work *)
Section Broken.
Context {C : crypto} (E : env C).

(** Delegation: the key is written to a file without name. *)
Lemma delegate_never t m s d d' r : clap_ok Delegate m -> posix d ->
  run_delegate E t m s d = (d', r) -> d' = d /\ r <> Ok tt.
Proof.
  intros K [_ P]. destruct (clap_value _ m SK_FILE K ltac:(cbn; tauto)) as [sk Hsk].
  unfold run_delegate. rewrite Hsk.
  destruct s; unfold ilift; try (intros H; injection H as <- <-; split; [reflexivity|discriminate]).
  unfold ibind at 1. unfold ser_dec at 1.
  destruct (obind (ser_dec_bin E d _) _) as [pk| |];
    try (intros H; injection H as <- <-; split; [reflexivity|discriminate]).
  unfold ibind at 1. unfold ser_dec at 1.
  destruct (obind (ser_dec_bin E d _) _) as [msk| |];
    try (intros H; injection H as <- <-; split; [reflexivity|discriminate]).
  unfold ibind at 1. unfold irun, ilift.
  destruct (Bsw.bsw_delegate pk msk _ t 0) as [[[del|] j]| |];
    try (intros H; injection H as <- <-; split; [reflexivity|discriminate]).
  unfold store, ibind, ilift. destruct (ser_enc E _ del "SK") as [x| |];
    try (intros H; injection H as <- <-; split; [reflexivity|discriminate]).
  unfold isave, write_file, fs_create. rewrite P.
  intros H; injection H as <- <-; split; [reflexivity|discriminate].
Qed.

(** Encryption with AC17KP, BDABE and MKE08: the public key is looked for in a
    file without name. *)
Lemma encrypt_never t nonce text m s lang d : clap_ok Encrypt m -> posix d ->
  In s [AC17KP; BDABE; MKE08] -> run_encrypt E t nonce text m s lang d = (d, Panic).
Proof.
  intros K [P _] I. destruct (clap_value _ m PK_FILE K ltac:(cbn; tauto)) as [pk Hpk].
  assert (S : m PK_FILE = Some [pk]).
  { apply (clap_single Encrypt); [exact K | | exact Hpk]. cbn. unfold ATTRIBUTES, PK_FILE. intros [H|[]]. discriminate. }
  unfold run_encrypt, iread, enc_pk_file, enc_pk_files. rewrite Hpk, S.
  unfold ibind at 1. unfold read_to_vec.
  destruct (fs_open d _) as [buf|]; [|reflexivity].
  cbn in I. repeat destruct I as [<-|I]; try contradiction;
    unfold ibind at 1; now rewrite ser_dec_missing.
Qed.

(** Decryption leaves the file system alone, and succeeds for the empty
    plaintext only. *)
Lemma open_file_state m s d d' r : open_file E m s d = (d', r) -> d' = d.
Proof.
  unfold open_file, ibind, ser_dec, ilift.
  destruct s; repeat match goal with
    |- context [obind (ser_dec_bin E d ?p) ?k] => destruct (obind (ser_dec_bin E d p) k)
  end; intros H; now injection H as <- _.
Qed.

Lemma decrypt_state m s d d' r : run_decrypt E m s d = (d', r) -> d' = d.
Proof.
  unfold run_decrypt, ibind. destruct (open_file E m s d) as [d1 [pt| |]] eqn:O;
    apply open_file_state in O as ->; try (intros H; now injection H as <- _).
  destruct (write_from_vec d _ pt) as [d2| |] eqn:W; try (intros H; now injection H as <- _).
  apply write_from_vec_noop in W as [_ ->]. intros H; now injection H as <- _.
Qed.

Lemma decrypt_panics m s d pt : snd (open_file E m s d) = Ok pt -> pt <> EmptyString ->
  run_decrypt E m s d = (d, Panic).
Proof.
  intros H N. unfold run_decrypt, ibind. destruct (open_file E m s d) as [d1 o] eqn:O.
  apply open_file_state in O as ->. cbn in H. subst o. now rewrite write_from_vec_never.
Qed.

Lemma decrypt_success m s d d' : run_decrypt E m s d = (d', Ok tt) ->
  d' = d /\ snd (open_file E m s d) = Ok EmptyString.
Proof.
  intros H. split; [exact (decrypt_state _ _ _ _ _ H)|].
  apply ibind_Ok in H as (d1 & pt & O & H). rewrite O. cbn.
  destruct (write_from_vec d1 _ pt) eqn:W; try discriminate.
  now apply write_from_vec_noop in W as [-> _].
Qed.

(** AW11: the global parameters are written to the file of the master key. *)
Lemma aw11_lost t t' m m' d d' : clap_ok Setup m -> clap_ok Authgen m' ->
  file_arg m MSK_FILE <> file_arg m' GP_FILE -> fs_files d (file_arg m' GP_FILE) = None ->
  run_setup E t m AW11 d = (d', Ok tt) -> run_authgen E t' m' AW11 d' = (d', Panic).
Proof.
  intros _ _ N A H. unfold run_setup in H. apply ibind_Ok in H as (d1 & gp & H1 & H).
  apply irun_Ok in H1 as [-> _]. pose proof (store_other _ _ _ _ _ _ _ _ H (not_eq_sym N)) as S.
  unfold same_at in S. rewrite A in S.
  unfold run_authgen, ibind at 1. now rewrite ser_dec_missing.
Qed.

(** Key generation is given at most one attribute. *)
Lemma keygen_single m : clap_ok Keygen m -> attr_args m = [] \/ exists a, attr_args m = [a].
Proof.
  intros (_ & _ & S & _). unfold attr_args. specialize (S ATTRIBUTES).
  destruct (m ATTRIBUTES) as [l|]; [|auto]. destruct (S l eq_refl) as [a ->]; [|eauto].
  cbn. tauto.
Qed.
End Broken.

(** ** Values that could be written are read back

    Only that the texts in them are valid is needed: lengths are checked when
    writing. *)
Definition sound {A} (P : A -> Prop) (c : codec A) : Prop :=
  forall v s r, P v -> enc c v = Some s -> dec_ c (s ++ r) = Some (v, r).

Definition any {A} (_ : A) : Prop := True.
Definition valid (s : string) : Prop := utf8 s = true.

Lemma good_sound {A} (P : A -> Prop) c : good P c -> sound P c.
Proof.
  intros H v s r p E. destruct (H v r p) as (s' & E1 & E2). rewrite E in E1. now injection E1 as <-.
Qed.

Lemma sound_weaken {A} (P Q : A -> Prop) c : sound P c -> (forall v, Q v -> P v) -> sound Q c.
Proof. intros H I v s r q. apply H, I, q. Qed.

Lemma bytes_sound : sound any c_bytes.
Proof.
  intros v s r _ E. apply (good_sound _ _ bytes_good); [|exact E].
  unfold bytes, fits. cbn -[c_len] in E. unfold c_len in E. cbn [enc] in E.
  destruct (N.ltb_spec (N.of_nat (String.length v)) two32) as [H|]; [exact H|discriminate].
Qed.

Lemma string_sound : sound valid c_string.
Proof.
  intros v s r U E. pose proof (bytes_sound v s r I E) as X.
  cbn -[c_bytes]. rewrite X. cbn. unfold valid in U. now rewrite U.
Qed.

Lemma pair_sound {A B} (P : A -> Prop) (Q : B -> Prop) a b : sound P a -> sound Q b ->
  sound (fun v => P (fst v) /\ Q (snd v)) (c_pair a b).
Proof.
  intros Ha Hb [x y] s r [HP HQ] E. cbn in *.
  destruct (enc a x) as [sx|] eqn:E1; [|discriminate]. destruct (enc b y) as [sy|] eqn:E2; [|discriminate].
  cbn in E. injection E as <-. rewrite sapp_ass, (Ha x sx _ HP E1). cbn.
  now rewrite (Hb y sy _ HQ E2).
Qed.

Lemma as_sound {A B} (P : A -> Prop) (f : B -> A) (g : A -> B) c :
  sound P c -> sound (fun v => P (f v) /\ g (f v) = v) (c_as f g c).
Proof.
  intros H v s r [HP G] E. cbn in *. rewrite (H _ _ r HP E). cbn. now rewrite G.
Qed.

Lemma list_sound {A} (P : A -> Prop) c : sound P c -> sound (Forall P) (c_list c).
Proof.
  intros H l s r F E. cbn -[c_len] in *.
  destruct (enc c_len _) as [n|] eqn:E1; [|discriminate]. cbn [bind] in E.
  destruct (enc_all c l) as [q|] eqn:E2; [|discriminate]. cbn [bind] in E. injection E as <-.
  assert (B : (N.of_nat (List.length l) < 4294967296)%N).
  { unfold c_len in E1. cbn [enc] in E1.
    destruct (N.ltb_spec (N.of_nat (List.length l)) two32) as [X|]; [exact X|discriminate]. }
  rewrite (len_enc _ B) in E1. injection E1 as <-. rewrite sapp_ass, (len_dec _ _ B). cbn [bind fst snd].
  rewrite Nat2N.id. clear B. revert q E2. induction F as [|x l p F IH]; intros q E2; cbn in *.
  - injection E2 as <-. reflexivity.
  - destruct (enc c x) as [sx|] eqn:E; [|discriminate]. cbn in E2.
    destruct (enc_all c l) as [sl|]; [|discriminate]. injection E2 as <-.
    rewrite sapp_ass, (H x sx _ p E). cbn. now rewrite (IH sl eq_refl).
Qed.

Lemma policy_sound : sound (fun p => valid (fst p) /\ any (snd p)) c_policy.
Proof. apply pair_sound; [apply string_sound | exact (good_sound _ _ lang_good)]. Qed.

Lemma sound_survives {A} (P : A -> Prop) c v s : sound P c -> P v -> enc c v = Some s -> survives c v.
Proof.
  intros H p E. exists s. split; [exact E|]. unfold try_from_slice.
  pose proof (H v s "" p E) as X. rewrite sapp_nil in X. now rewrite X.
Qed.

Section Sound.
Context {C : crypto} (E : env C) (OK : env_ok E).
Local Notation W := (e_wire E).

Ltac wires := destruct OK as [[(Kf & K1 & K2 & Kt) _] _];
  apply good_sound in Kf; apply good_sound in K1; apply good_sound in K2; apply good_sound in Kt.
Lemma all_any {A} (l : list A) : Forall any l.
Proof. induction l; constructor; [exact I|assumption]. Qed.
Lemma all_any' {A} (l : list A) : Forall (fun _ => True) l.
Proof. induction l; constructor; auto. Qed.
Ltac sounds := repeat first
  [ eassumption | eapply policy_sound | eapply pair_sound | eapply list_sound | eapply string_sound
  | eapply bytes_sound | eapply as_sound ].

Lemma ac_pk_sound : sound any (c_ac_pk W).
Proof.
  wires. eapply sound_weaken; [sounds|]. intros [] _. cbn. auto 10 using (@all_any'), I.
Qed.

Lemma ac_msk_sound : sound any (c_ac_msk W).
Proof.
  wires. eapply sound_weaken; [sounds|]. intros [] _. cbn. auto 10 using (@all_any'), I.
Qed.

Import Ac17.
Lemma ac_cpsk_sound :
  sound (fun sk => Forall valid (acps_attr sk) /\ Forall (fun e => valid (fst e)) (ask_k (acps_sk sk))) (c_ac_cpsk W).
Proof.
  wires. eapply sound_weaken; [unfold c_ac_cpsk, c_ac_sk; sounds|]. intros v [A B]. destruct v as [l k]. destruct k. cbn in *.
  repeat split; auto using (@all_any'), I.
  revert B. apply Forall_impl. auto using (@all_any').
Qed.

Lemma ac_cpct_sound :
  sound (fun ct => valid (fst (acp_policy ct)) /\ Forall (fun e => valid (fst e)) (act_c (acp_ct ct))) (c_ac_cpct W).
Proof.
  wires. eapply sound_weaken; [unfold c_ac_cpct, c_ac_ct; sounds|]. intros v [A B]. destruct v as [[p l] k]. destruct k. cbn in *.
  unfold any. repeat split; auto using (@all_any'), I.
  revert B. apply Forall_impl. auto using (@all_any').
Qed.
End Sound.

(** ** AC17 ciphertext-policy through files *)
Section Cp.
Context {C : crypto} (L : laws C) (E : env C) (OK : env_ok E).
Import Ac17 Ac17Proofs Msp MspProofs.
Local Notation W := (e_wire E).

Lemma cp_keygen_names msk attrs t i (sk : ac_cpsk C) j : cp_keygen msk attrs t i = Ok (sk, j) ->
  acps_attr sk = attrs /\ map fst (ask_k (acps_sk sk)) = attrs.
Proof.
  intros H. unfold cp_keygen in H. destruct attrs as [|a attrs]; [discriminate|].
  apply rbind_Ok in H as (br & i1 & _ & H). apply rbind_Ok in H as (k0 & i2 & _ & H).
  apply rbind_Ok in H as (k & i3 & Hk & H). apply rbind_Ok in H as (sg & i4 & _ & H).
  apply rbind_Ok in H as (kp & i5 & _ & H). apply rbind_Ok in H as (gk & i6 & _ & H).
  apply rret_Ok in H as [<- _]. cbn [acps_attr acps_sk ask_k]. split; [reflexivity|].
  apply rmap_Forall2 in Hk. induction Hk as [|x y l r (i' & j' & E1) _ IH]; [reflexivity|].
  cbn [map]. rewrite IH. f_equal.
  apply rbind_Ok in E1 as (s1 & ? & _ & E1). apply rbind_Ok in E1 as (s2 & ? & _ & E1).
  apply rret_Ok in E1 as [<- _]. reflexivity.
Qed.

Lemma cp_encrypt_names nonce pk pol data lang t i (ct : ac_cpct C) j f :
  parse pol lang = Ok (tree f) -> binary_and f = true ->
  cp_encrypt nonce pk pol data lang t i = Ok (ct, j) ->
  acp_policy ct = (pol, lang) /\ Forall (fun e => In (fst e) (names f)) (act_c (acp_ct ct)).
Proof.
  intros P B H. unfold cp_encrypt in H. rewrite P in H.
  apply rbind_Ok in H as (v & i1 & Hv & H). apply rlift_Ok in Hv as [Hv <-]. injection Hv as <-.
  rewrite (calculate_msp_eq f B) in H.
  apply rbind_Ok in H as (msp & i2 & Hm & H). apply rlift_Ok in Hm as [Hm <-]. injection Hm as <-.
  apply rbind_Ok in H as (row0 & i3 & _ & H). apply rbind_Ok in H as ([s c0] & i4 & _ & H).
  apply rbind_Ok in H as (tb & i5 & _ & H). apply rbind_Ok in H as (c & i6 & Hc & H).
  apply rbind_Ok in H as (cp & i7 & _ & H). apply rbind_Ok in H as (msg & i8 & _ & H).
  apply rbind_Ok in H as (x & i9 & _ & H). apply rret_Ok in H as [<- _].
  cbn [acp_policy acp_ct act_c]. split; [reflexivity|].
  apply rlift_Ok in Hc as [Hc _]. apply omap_Forall2 in Hc.
  apply Forall_forall. intros e I.
  assert (X : exists k n, nth_error (map fst (sort_rows (rev (msp_rows f)))) k = Some n /\ fst e = n).
  { clear -Hc I. induction Hc as [|k y l r E1 _ IH]; [contradiction|]. destruct I as [->|I]; [|now apply IH].
    apply obind_Ok in E1 as (n & E1 & E2). apply obind_Ok in E2 as (row & _ & E2).
    apply obind_Ok in E2 as (q & _ & E2). injection E2 as <-. cbn [msp_pi] in E1.
    exists k, n. split; [now apply idx_Ok|reflexivity]. }
  destruct X as (k & n & Hn & ->). apply nth_error_In in Hn.
  rewrite <- (msp_rows_names f B). apply in_map_iff in Hn as (r & <- & Ir).
  apply in_map. now apply sorted_In.
Qed.

(** Setup, key generation, encryption and decryption through files. *)
Theorem cp_console ts tk te nonce text ms mk me md lang lang' d d1 d2 d3 data f :
  let msk := file_arg ms MSK_FILE in let pk := file_arg ms PK_FILE in
  let sk := file_arg mk SK_FILE in let ct := enc_ct_file me in
  run_setup E ts ms AC17CP d = (d1, Ok tt) ->
  run_keygen E tk mk AC17CP lang' d1 = (d2, Ok tt) ->
  run_encrypt E te nonce text me AC17CP lang d2 = (d3, Ok tt) ->
  (* the commands are given the same files *)
  file_arg mk MSK_FILE = msk -> enc_pk_files me = [pk] ->
  file_arg md SK_FILE = sk -> text_arg md FILE = ct ->
  NoDup [msk; pk; sk; ct] -> ~ In (text_arg me FILE) [msk; pk; sk] ->
  Forall (readable d) [msk; pk; sk; ct] ->
  fs_open d (text_arg me FILE) = Some data ->
  (* texts are UTF-8 *)
  Forall valid (attr_args mk) -> Forall valid (names f) -> valid (text_arg me POLICY) ->
  parse (text_arg me POLICY) lang = Ok (tree f) -> String.length nonce = 12%nat ->
  binary_and f = true -> NoDup (names f) -> NoDup (attr_args mk) ->
  snd (open_file E md AC17CP d3) = if sat (owns (attr_args mk)) f then Ok data else Err.
Proof.
  intros msk pk sk ct HS HK HE Fm Fp Fs Fc ND NF RD FO VA VN VP P NL B NN NA.
  (* setup *)
  unfold run_setup in HS. fold msk pk in HS.
  apply ibind_Ok in HS as (d0 & [kp km] & R1 & HS). apply irun_Ok in R1 as [-> [js R1]].
  apply ibind_Ok in HS as (e1 & [] & S1 & S2).
  (* key generation *)
  unfold run_keygen in HK. rewrite Fm in HK. fold sk in HK.
  apply ibind_Ok in HK as (e2 & km' & D1 & HK). apply iunwrap_Ok in D1.
  apply ibind_Ok in HK as (e3 & kk & R2 & S3). apply iunwrap_Ok, irun_Ok in R2 as [-> [jk R2]].
  (* encryption *)
  unfold run_encrypt in HE. rewrite Fp in HE. fold ct in HE.
  apply ibind_Ok in HE as (e4 & buf & D2 & HE).
  apply ibind_Ok in HE as (e5 & kp' & D3 & HE).
  apply ibind_Ok in HE as (e6 & c & R3 & S4). apply irun_Ok in R3 as [-> [je R3]].
  (* what the files hold *)
  inversion ND as [|? ? N1 ND1]; subst. inversion ND1 as [|? ? N2 ND2]; subst.
  inversion ND2 as [|? ? N3 _]; subst. cbn [In] in N1, N2, N3, NF.
  inversion RD as [|? ? Q1 RD1]; subst. inversion RD1 as [|? ? Q2 RD2]; subst.
  inversion RD2 as [|? ? Q3 RD3]; subst. inversion RD3 as [|? ? Q4 _]; subst.
  assert (S1' := S1). apply store_Ok in S1' as (b1 & B1 & _).
  assert (S2' := S2). apply store_Ok in S2' as (b2 & B2 & _).
  assert (S3' := S3). apply store_Ok in S3' as (b3 & B3 & _).
  assert (S4' := S4). apply store_Ok in S4' as (b4 & B4 & _).
  pose proof (ser_dec_state _ _ _ _ _ _ D1) as X; subst e2.
  assert (km' = km).
  { assert (X : ser_dec E (c_ac_msk W) msk e1 = (e1, Ok km)).
    { apply (store_load E OK _ _ _ "MSK" d); [cbn; tauto | exact Q1 | | exact S1].
      exact (sound_survives _ _ _ _ (ac_msk_sound E OK) I B1). }
    apply (ser_dec_same E) with (d' := d1) in X; [congruence|].
    apply (store_other _ _ _ _ _ _ _ _ S2). intuition congruence. }
  subst km'.
  unfold iread in D2. injection D2 as -> D2.
  assert (buf = data).
  { assert (X : forall A (c : codec A) v w p x y, store E p c v w x = (y, Ok tt) ->
      p <> text_arg me FILE -> fs_files y (text_arg me FILE) = fs_files x (text_arg me FILE))
      by (intros A c0 v w p x y H N; exact (store_other _ _ _ _ _ _ _ _ H (not_eq_sym N))).
    unfold read_to_vec, fs_open in D2.
    rewrite (X _ _ _ _ _ _ _ S3), (X _ _ _ _ _ _ _ S2), (X _ _ _ _ _ _ _ S1) in D2 by tauto.
    unfold fs_open in FO. rewrite FO in D2. congruence. }
  subst buf.
  pose proof (ser_dec_state _ _ _ _ _ _ D3) as X; subst e5.
  assert (kp' = kp).
  { assert (X : ser_dec E (c_ac_pk W) pk d1 = (d1, Ok kp)).
    { apply (store_load E OK _ _ _ "PK" e1); [cbn; tauto | | | exact S2].
      - exact (store_readable _ _ _ _ _ _ _ _ S1 Q2).
      - exact (sound_survives _ _ _ _ (ac_pk_sound E OK) I B2). }
    apply (ser_dec_same E) with (d' := e4) in X; [congruence|].
    apply (store_other _ _ _ _ _ _ _ _ S3). intuition congruence. }
  subst kp'.
  assert (LK : ser_dec E (c_ac_cpsk W) sk d3 = (d3, Ok kk)).
  { apply (ser_dec_same E) with (d := e4).
    - apply (store_other _ _ _ _ _ _ _ _ S4). intuition congruence.
    - apply (store_load E OK _ _ _ "SK" d1); [cbn; tauto | | | exact S3].
      + exact (store_readable _ _ _ _ _ _ _ _ S2 (store_readable _ _ _ _ _ _ _ _ S1 Q3)).
      + apply (sound_survives _ _ _ _ (ac_cpsk_sound E OK)) with (2 := B3).
        destruct (cp_keygen_names _ _ _ _ _ _ R2) as [-> K2]. split; [exact VA|].
        rewrite <- K2 in VA. exact (proj1 (Forall_map _ _ _) VA). }
  assert (LC : ser_dec E (c_ac_cpct W) ct d3 = (d3, Ok c)).
  { apply (store_load E OK _ _ _ "CT" e4); [cbn; tauto | | | exact S4].
    - exact (store_readable _ _ _ _ _ _ _ _ S3 (store_readable _ _ _ _ _ _ _ _ S2
              (store_readable _ _ _ _ _ _ _ _ S1 Q4))).
    - apply (sound_survives _ _ _ _ (ac_cpct_sound E OK)) with (2 := B4).
      destruct (cp_encrypt_names _ _ _ _ _ _ _ _ _ _ P B R3) as [-> K2]. split; [exact VP|].
      revert K2. apply Forall_impl. intros e. rewrite Forall_forall in VN. apply VN. }
  unfold open_file. rewrite Fs, Fc.
  unfold ibind at 1. rewrite LK. unfold ibind at 1. rewrite LC. cbn [snd ilift].
  destruct (sat (owns (attr_args mk)) f) eqn:S.
  - eapply (cp_correct L); eassumption.
  - destruct (cp_encrypt_names _ _ _ _ _ _ _ _ _ _ P B R3) as [K1 _].
    destruct (cp_keygen_names _ _ _ _ _ _ R2) as [K2 _].
    eapply cp_reject; rewrite ?K1, ?K2; eassumption.
Qed.
End Cp.

(** ** Ciphertexts that are not ciphertexts *)
Section Results.
Context {C : crypto} (E : env C) (OK : env_ok E).
Local Notation W := (e_wire E).

Lemma enc_files m pk : clap_ok Encrypt m -> value_of m PK_FILE = Some pk -> enc_pk_files m = [pk].
Proof.
  intros K H. unfold enc_pk_files. rewrite H.
  now rewrite (clap_single Encrypt m PK_FILE pk K ltac:(cbn; intros [X|[]]; discriminate) H).
Qed.

(** The public key and the plaintext that the command reads. *)
Definition reads_pk {A} (c : codec A) (m : args) (d : fs) (pk : A) : Prop :=
  ser_dec E c (file_arg m PK_FILE) d = (d, Ok pk).
Definition reads_data (m : args) (d : fs) (data : string) : Prop :=
  read_to_vec d (text_arg m FILE) = Ok data.

Lemma wrap_bsw t nonce text m lang d d' pk data ct j :
  clap_ok Encrypt m -> reads_pk (c_bsw_pk W) m d pk -> reads_data m d data ->
  Bsw.bsw_encrypt nonce pk (text_arg m POLICY) lang data t 0 = Ok (ct, j) ->
  readable d (enc_ct_file m) ->
  run_encrypt E t nonce text m BSW lang d = (d', Ok tt) ->
  snd (ser_dec E (c_bsw_ct W) (enc_ct_file m) d') <> Ok ct.
Proof.
  intros K RP RD X R H. destruct (clap_value _ m PK_FILE K ltac:(cbn; tauto)) as [f Hf].
  unfold run_encrypt in H. unfold ibind at 1 in H. unfold iread, reads_data in *. rewrite RD in H.
  rewrite (enc_files m f K Hf) in H. unfold reads_pk, file_arg in RP. rewrite Hf in RP.
  unfold ibind at 1 in H. rewrite RP in H. unfold ibind at 1 in H.
  unfold itry, irun, ilift in H. rewrite X in H.
  refine (result_differs E OK _ _ _ _ _ _ R _ H). exact (bsw_ct_sized W (proj1 OK)).
Qed.

Lemma wrap_lsw t nonce text m lang d d' pk data ct j :
  clap_ok Encrypt m -> reads_pk (c_lsw_pk W) m d pk -> reads_data m d data ->
  Lsw.lsw_encrypt nonce pk (attr_args m) data t 0 = Ok (ct, j) ->
  readable d (enc_ct_file m) ->
  run_encrypt E t nonce text m LSW lang d = (d', Ok tt) ->
  snd (ser_dec E (c_lsw_ct W) (enc_ct_file m) d') <> Ok ct.
Proof.
  intros K RP RD X R H. destruct (clap_value _ m PK_FILE K ltac:(cbn; tauto)) as [f Hf].
  unfold run_encrypt in H. unfold ibind at 1 in H. unfold iread, reads_data in *. rewrite RD in H.
  rewrite (enc_files m f K Hf) in H. unfold reads_pk, file_arg in RP. rewrite Hf in RP.
  unfold ibind at 1 in H. rewrite RP in H. unfold ibind at 1 in H.
  unfold itry, irun, ilift in H. rewrite X in H.
  refine (result_differs E OK _ _ _ _ _ _ R _ H). exact (lsw_ct_sized W (proj1 OK)).
Qed.

Lemma wrap_aw11 t nonce text m lang d d' gp pk data ct j :
  clap_ok Encrypt m -> ser_dec E (c_aw_gk W) (file_arg m GP_FILE) d = (d, Ok gp) ->
  reads_pk (c_aw_pk W) m d pk -> reads_data m d data ->
  Aw11.aw_encrypt nonce gp [pk] (text_arg m POLICY) lang data t 0 = Ok (ct, j) ->
  readable d (enc_ct_file m) ->
  run_encrypt E t nonce text m AW11 lang d = (d', Ok tt) ->
  snd (ser_dec E (c_aw_ct W) (enc_ct_file m) d') <> Ok ct.
Proof.
  intros K RG RP RD X R H. destruct (clap_value _ m PK_FILE K ltac:(cbn; tauto)) as [f Hf].
  unfold run_encrypt in H. unfold ibind at 1 in H. unfold iread, reads_data in *. rewrite RD in H.
  unfold ibind at 1 in H. rewrite RG in H.
  rewrite (enc_files m f K Hf) in H. unfold reads_pk, file_arg in RP. rewrite Hf in RP.
  assert (IM : imap (ser_dec E (c_aw_pk W)) [f] d = (d, Ok [pk]))
    by (cbn [imap]; unfold ibind; rewrite RP; reflexivity).
  unfold ibind at 1 in H. rewrite IM in H. unfold ibind at 1 in H. unfold itry, irun, ilift in H. rewrite X in H.
  refine (result_differs E OK _ _ _ _ _ _ R _ H). exact (aw_ct_sized W (proj1 OK)).
Qed.

(** A refused encryption is reported as a success, and a file is left behind. *)
Lemma stores_error {A} p (c : codec A) text d s : fs_may_create d p = true -> enc c_string text = Some s ->
  exists d', store_result E p c text None d = (d', Ok tt) /\ fs_files d' p <> None.
Proof.
  intros P X. unfold store_result, ibind, ilift, ser_bytes, enc_result. rewrite X. cbn [bind].
  unfold isave, write_file, fs_create. rewrite P. eexists. split; [reflexivity|]. cbn.
  unfold seqb. now rewrite String.eqb_refl.
Qed.

Lemma refused_bsw t nonce text m lang d pk data s :
  clap_ok Encrypt m -> reads_pk (c_bsw_pk W) m d pk -> reads_data m d data ->
  Bsw.bsw_encrypt nonce pk (text_arg m POLICY) lang data t 0 = Err ->
  fs_may_create d (enc_ct_file m) = true -> enc c_string text = Some s ->
  exists d', run_encrypt E t nonce text m BSW lang d = (d', Ok tt) /\ fs_files d' (enc_ct_file m) <> None.
Proof.
  intros K RP RD X M S. destruct (clap_value _ m PK_FILE K ltac:(cbn; tauto)) as [f Hf].
  unfold run_encrypt. unfold ibind at 1. unfold iread, reads_data in *. rewrite RD.
  rewrite (enc_files m f K Hf). unfold reads_pk, file_arg in RP. rewrite Hf in RP.
  unfold ibind at 1. rewrite RP. unfold ibind at 1. unfold itry, irun, ilift. rewrite X.
  now apply (stores_error _ _ _ _ s).
Qed.

Lemma refused_lsw t nonce text m lang d pk data s :
  clap_ok Encrypt m -> reads_pk (c_lsw_pk W) m d pk -> reads_data m d data ->
  Lsw.lsw_encrypt nonce pk (attr_args m) data t 0 = Err ->
  fs_may_create d (enc_ct_file m) = true -> enc c_string text = Some s ->
  exists d', run_encrypt E t nonce text m LSW lang d = (d', Ok tt) /\ fs_files d' (enc_ct_file m) <> None.
Proof.
  intros K RP RD X M S. destruct (clap_value _ m PK_FILE K ltac:(cbn; tauto)) as [f Hf].
  unfold run_encrypt. unfold ibind at 1. unfold iread, reads_data in *. rewrite RD.
  rewrite (enc_files m f K Hf). unfold reads_pk, file_arg in RP. rewrite Hf in RP.
  unfold ibind at 1. rewrite RP. unfold ibind at 1. unfold itry, irun, ilift. rewrite X.
  now apply (stores_error _ _ _ _ s).
Qed.
End Results.

(** ** YCT14: nothing written by the tool is of use to it *)
Section Yct.
Context {C : crypto} (E : env C) (OK : env_ok E).
Import Yct14.
Local Notation W := (e_wire E).

(** A loaded value has lost the values of its attributes. *)
Lemma forget_once (a : yct_attr C) : forget (forget a) = forget a.
Proof. reflexivity. Qed.

Lemma yattrs_lost : forall n s l r, dec_all (@c_yattr C) n s = Some (l, r) -> map forget l = l.
Proof.
  induction n as [|n IH]; intros s l r H; cbn -[c_yattr] in H; [injection H as <- _; reflexivity|].
  destruct (dec_ c_yattr s) as [[a q]|] eqn:D; [|discriminate]. cbn -[c_yattr] in H.
  destruct (dec_all c_yattr n q) as [[l' q']|] eqn:D'; [|discriminate]. cbn in H. injection H as <- _.
  cbn [map]. rewrite (IH _ _ _ D'). f_equal.
  cbn -[c_string] in D. destruct (dec_ c_string s) as [[x y]|]; [|discriminate].
  cbn in D. injection D as <- _. reflexivity.
Qed.

Lemma ylist_lost s l r : dec_ (c_list (@c_yattr C)) s = Some (l, r) -> map forget l = l.
Proof.
  intros H. cbn -[c_len c_yattr] in H. destruct (dec_ c_len s) as [[n q]|]; [|discriminate].
  exact (yattrs_lost _ _ _ _ H).
Qed.

Lemma loaded_dec {A} (c : codec A) p d d' v : ser_dec E c p d = (d', Ok v) ->
  exists s, dec_ c s = Some (v, EmptyString).
Proof.
  unfold ser_dec. intros H. injection H as <- H. apply obind_Ok in H as (b & _ & H).
  unfold try_from_slice in H. exists b. destruct (dec_ c b) as [[x [|]]|]; try discriminate.
  now injection H as ->.
Qed.

Lemma loaded_pk p d d' pk : ser_dec E (c_yct_pk W) p d = (d', Ok pk) -> forget_pk pk = pk.
Proof.
  intros H. apply loaded_dec in H as (s & H). cbn -[c_list c_yattr] in H.
  destruct (dec_ (w_t W) s) as [[g q]|]; [|discriminate]. cbn -[c_list c_yattr] in H.
  destruct (dec_ (c_list c_yattr) q) as [[l r]|] eqn:D; [|discriminate]. cbn in H. injection H as <- _.
  unfold forget_pk. cbn. now rewrite (ylist_lost _ _ _ D).
Qed.

Lemma loaded_msk p d d' msk : ser_dec E (c_yct_msk W) p d = (d', Ok msk) -> forget_msk msk = msk.
Proof.
  intros H. apply loaded_dec in H as (s & H). cbn -[c_list c_yattr] in H.
  destruct (dec_ (w_f W) s) as [[g q]|]; [|discriminate]. cbn -[c_list c_yattr] in H.
  destruct (dec_ (c_list c_yattr) q) as [[l r]|] eqn:D; [|discriminate]. cbn in H. injection H as <- _.
  unfold forget_msk. cbn. now rewrite (ylist_lost _ _ _ D).
Qed.

Lemma loaded_sk p d d' (sk : yct_sk C) : ser_dec E c_yct_sk p d = (d', Ok sk) -> forget_sk sk = sk.
Proof.
  intros H. apply loaded_dec in H as (s & H). cbn -[c_list c_yattr c_policy] in H.
  destruct (dec_ c_policy s) as [[g q]|]; [|discriminate]. cbn -[c_list c_yattr] in H.
  destruct (dec_ (c_list c_yattr) q) as [[l r]|] eqn:D; [|discriminate]. cbn in H. injection H as <- _.
  unfold forget_sk. cbn. now rewrite (ylist_lost _ _ _ D).
Qed.

(** The tool never encrypts with YCT14, *)
Theorem yct_console_encrypt t nonce text m lang d d' r :
  run_encrypt E t nonce text m YCT14 lang d = (d', r) -> r <> Ok tt.
Proof.
  intros H ->. unfold run_encrypt in H. apply ibind_Ok in H as (d1 & buf & _ & H).
  destruct (enc_pk_files m) as [|f [|? ?]]; try discriminate.
  apply ibind_Ok in H as (d2 & pk & D & H). apply ibind_Ok in H as (d3 & ct & R & _).
  apply loaded_pk in D. apply irun_Ok in R as [_ [j R]]. rewrite <- D in R.
  destruct (attr_args m) as [|a l] eqn:A; [discriminate|]. destruct buf as [|c buf]; [discriminate|].
  rewrite lost_encrypt in R; discriminate.
Qed.

(** the keys it issues are empty, *)
Theorem yct_console_keygen t m lang d d' : run_keygen E t m YCT14 lang d = (d', Ok tt) ->
  exists sk : yct_sk C, ysk_du sk = [] /\ store E (file_arg m SK_FILE) c_yct_sk sk "SK" d = (d', Ok tt).
Proof.
  intros H. unfold run_keygen in H. apply ibind_Ok in H as (d1 & pk & D1 & H).
  apply ser_dec_state in D1 as ->.
  apply ibind_Ok in H as (d2 & msk & D & H). pose proof (ser_dec_state _ _ _ _ _ _ D) as ->.
  apply ibind_Ok in H as (d3 & sk & R & H). apply iunwrap_Ok, irun_Ok in R as [-> [j R]].
  exists sk. split; [|exact H]. apply loaded_msk in D. rewrite <- D in R. exact (lost_keygen _ _ _ _ _ _ _ R).
Qed.

(** and it never decrypts with YCT14. *)
Theorem yct_console_decrypt m d data : snd (open_file E m YCT14 d) <> Ok data.
Proof.
  intros H. destruct (open_file E m YCT14 d) as [d' o] eqn:O. cbn in H. subst o.
  unfold open_file in O. apply ibind_Ok in O as (d1 & sk & D & O).
  apply ibind_Ok in O as (d2 & ct & _ & O). apply ilift_Ok in O as [_ O].
  apply loaded_sk in D. rewrite <- D in O. exact (lost_sk _ _ _ O).
Qed.
End Yct.

(** ** BDABE and MKE08: a user key made by the tool holds no attribute keys *)
Section Users.
Context {C : crypto} (E : env C) (OK : env_ok E).
Local Notation W := (e_wire E).

Lemma traverse_none v t : traverse_policy [] v t = false.
Proof. now destruct v. Qed.

Lemma bd_no_keys (uk : Bdabe.bd_uk C) ct data : Bdabe.buk_ska uk = [] -> Bdabe.bd_decrypt uk ct <> Ok data.
Proof.
  intros H. unfold Bdabe.bd_decrypt. rewrite H. cbn [map]. intros X.
  apply obind_Ok in X as (v & _ & X). rewrite traverse_none in X. discriminate.
Qed.

Lemma mk_no_keys (uk : Mke08.mk_uk C) ct data : Mke08.muk_ska uk = [] -> Mke08.mk_decrypt uk ct <> Ok data.
Proof.
  intros H. unfold Mke08.mk_decrypt. rewrite H. cbn [map]. intros X.
  apply obind_Ok in X as (v & _ & X). rewrite traverse_none in X. discriminate.
Qed.

(** As long as the file is the one that key generation wrote, it opens nothing. *)
Theorem bd_console_user t m lang md d d1 d2 data :
  run_keygen E t m BDABE lang d = (d1, Ok tt) -> readable d (named_file m) -> valid (text_arg m NAME) ->
  file_arg md SK_FILE = named_file m -> same_at d1 d2 (named_file m) ->
  snd (open_file E md BDABE d2) <> Ok data.
Proof.
  intros H R V F S O. unfold run_keygen in H.
  apply ibind_Ok in H as (e1 & pk & D1 & H). apply ser_dec_state in D1 as ->.
  apply ibind_Ok in H as (e2 & msk & D2 & H). apply ser_dec_state in D2 as ->.
  apply ibind_Ok in H as (e3 & uk & U & H). apply irun_Ok in U as [-> [j U]].
  assert (K : Bdabe.buk_ska uk = [] /\ Bdabe.bupk_u (Bdabe.buk_pk uk) = text_arg m NAME).
  { unfold Bdabe.bd_keygen in U. apply rbind_Ok in U as (r & i & _ & U). apply rret_Ok in U as [<- _]. auto. }
  destruct K as [K1 K2].
  assert (Sv : survives (c_bd_uk W) uk).
  { assert (H' := H). apply store_Ok in H' as (b & B & _).
    destruct OK as [[(_ & G1 & G2 & _) _] _]. apply good_sound in G1. apply good_sound in G2.
    eapply (sound_survives (fun k => valid (Bdabe.bupk_u (Bdabe.buk_pk k)) /\ Bdabe.buk_ska k = []));
      [|split; [rewrite K2; exact V | exact K1] | exact B].
    unfold c_bd_uk, c_bd_usk, c_bd_upk, c_bd_ask.
    eapply sound_weaken;
      [repeat first [eassumption | eapply pair_sound | eapply list_sound | eapply string_sound | eapply as_sound]|].
    intros [us up ska] [A B']. cbn in A, B' |- *. subst ska. destruct us, up. cbn in *. auto 10. }
  assert (LU : ser_dec E (c_bd_uk W) (named_file m) d2 = (d2, Ok uk)).
  { apply (ser_dec_same E) with (d := d1); [exact S|].
    apply (store_load E OK _ _ _ "SK" d); [cbn; tauto | exact R | exact Sv | exact H]. }
  destruct (open_file E md BDABE d2) as [e o] eqn:X. cbn in O. subst o. unfold open_file in X.
  apply ibind_Ok in X as (f1 & p & D1 & X). apply ser_dec_state in D1 as ->.
  rewrite F in X. unfold ibind at 1 in X. rewrite LU in X.
  apply ibind_Ok in X as (f2 & ct & D2 & X). apply ilift_Ok in X as [_ X].
  exact (bd_no_keys _ _ _ K1 X).
Qed.

Theorem mk_console_user t m lang md d d1 d2 data :
  run_keygen E t m MKE08 lang d = (d1, Ok tt) -> readable d (named_file m) -> valid (text_arg m NAME) ->
  file_arg md SK_FILE = named_file m -> same_at d1 d2 (named_file m) ->
  snd (open_file E md MKE08 d2) <> Ok data.
Proof.
  intros H R V F S O. unfold run_keygen in H.
  apply ibind_Ok in H as (e1 & pk & D1 & H). apply ser_dec_state in D1 as ->.
  apply ibind_Ok in H as (e2 & msk & D2 & H). apply ser_dec_state in D2 as ->.
  destruct (seqb (text_arg m NAME) "") eqn:N; [discriminate|].
  apply ibind_Ok in H as (e3 & uk & U & H). apply irun_Ok in U as [-> [j U]].
  assert (K : Mke08.muk_ska uk = [] /\ Mke08.mupk_name (Mke08.muk_pk uk) = text_arg m NAME).
  { unfold Mke08.mk_keygen in U. apply rbind_Ok in U as (r & i & _ & U). apply rret_Ok in U as [<- _]. auto. }
  destruct K as [K1 K2].
  assert (Sv : survives (c_mk_uk W) uk).
  { assert (H' := H). apply store_Ok in H' as (b & B & _).
    destruct OK as [[(_ & G1 & G2 & _) _] _]. apply good_sound in G1. apply good_sound in G2.
    eapply (sound_survives (fun k => valid (Mke08.mupk_name (Mke08.muk_pk k)) /\ Mke08.muk_ska k = []));
      [|split; [rewrite K2; exact V | exact K1] | exact B].
    unfold c_mk_uk, c_mk_usk, c_mk_upk, c_mk_ask.
    eapply sound_weaken;
      [repeat first [eassumption | eapply pair_sound | eapply list_sound | eapply string_sound | eapply as_sound]|].
    intros [us up ska] [A B']. cbn in A, B' |- *. subst ska. destruct us, up. cbn in *. auto 10. }
  assert (LU : ser_dec E (c_mk_uk W) (named_file m) d2 = (d2, Ok uk)).
  { apply (ser_dec_same E) with (d := d1); [exact S|].
    apply (store_load E OK _ _ _ "SK" d); [cbn; tauto | exact R | exact Sv | exact H]. }
  destruct (open_file E md MKE08 d2) as [e o] eqn:X. cbn in O. subst o. unfold open_file in X.
  apply ibind_Ok in X as (f1 & p & D1 & X). apply ser_dec_state in D1 as ->.
  rewrite F in X. unfold ibind at 1 in X. rewrite LU in X.
  apply ibind_Ok in X as (f2 & ct & D2 & X). apply ilift_Ok in X as [_ X].
  exact (mk_no_keys _ _ _ K1 X).
Qed.
End Users.

(** ** What a command may change *)

(** The files a command writes. *)
Definition outputs (c : command) (m : args) : list string :=
  match c with
  | Setup => [file_arg m MSK_FILE; file_arg m PK_FILE]
  | Authgen => [file_arg m MSK_FILE; file_arg m PK_FILE; named_file m]
  | Keygen => [file_arg m SK_FILE; named_file m]
  | Delegate => [""; SK_FILE ++ ".del.key"]
  | Encrypt => [enc_ct_file m]
  | Decrypt => []
  | ReqAttrPk => [file_arg m PKA_FILE]
  | ReqAttrSk => [file_arg m SKA_FILE]
  end.

(** All other files stay, and an error changes nothing at all. *)
Definition frame {A} (outs : list string) (m : io A) : Prop :=
  forall d d' r, m d = (d', r) -> forall p, ~ In p outs -> same_at d d' p.
Definition quiet {A} (m : io A) : Prop := forall d d' r, m d = (d', r) -> d' = d.
Definition clean {A} (m : io A) : Prop := forall d d', m d = (d', Err) -> d' = d.

Section Frames.
Context {C : crypto} (E : env C).

Lemma quiet_frame {A} outs (m : io A) : quiet m -> frame outs m.
Proof. intros H d d' r X p _. apply H in X as ->. reflexivity. Qed.
Lemma quiet_clean {A} (m : io A) : quiet m -> clean m.
Proof. intros H d d' X. exact (H _ _ _ X). Qed.

Lemma frame_bind {A B} outs (m : io A) (k : A -> io B) :
  frame outs m -> (forall a, frame outs (k a)) -> frame outs (ibind m k).
Proof.
  intros H K d d' r X p N. unfold ibind in X. destruct (m d) as [d1 [a| |]] eqn:M.
  - unfold same_at. rewrite (K a _ _ _ X p N : fs_files _ _ = _). exact (H _ _ _ M p N).
  - injection X as <- _. exact (H _ _ _ M p N).
  - injection X as <- _. exact (H _ _ _ M p N).
Qed.

Lemma clean_bind {A B} (m : io A) (k : A -> io B) :
  quiet m -> (forall a, clean (k a)) -> clean (ibind m k).
Proof.
  intros H K d d' X. unfold ibind in X. destruct (m d) as [d1 [a| |]] eqn:M; apply H in M as ->.
  - exact (K a _ _ X).
  - now injection X as <-.
  - discriminate.
Qed.

(** An action that cannot err may come first. *)
Definition sure {A} (m : io A) : Prop := forall d d', m d <> (d', Err).
Lemma sure_clean {A} (m : io A) : sure m -> clean m.
Proof. intros H d d' X. now apply H in X. Qed.
Lemma sure_bind {A B} (m : io A) (k : A -> io B) : sure m -> (forall a, sure (k a)) -> sure (ibind m k).
Proof.
  intros H K d d' X. unfold ibind in X. destruct (m d) as [d1 [a| |]] eqn:M.
  - exact (K a _ _ X).
  - exact (H _ _ M).
  - discriminate.
Qed.

Lemma quiet_dec {A} (c : codec A) p : quiet (ser_dec E c p).
Proof. intros d d' r H. exact (ser_dec_state _ _ _ _ _ _ H). Qed.
Lemma quiet_lift {A} (o : outcome A) : quiet (ilift o).
Proof. intros d d' r H. now injection H as <- _. Qed.
Lemma quiet_run {F A} t (m : rand F A) : quiet (irun t m).
Proof. apply quiet_lift. Qed.
Lemma quiet_ret {A} (a : A) : quiet (iret a).
Proof. intros d d' r H. now injection H as <- _. Qed.
Lemma quiet_read p : quiet (iread p).
Proof. intros d d' r H. now injection H as <- _. Qed.
Lemma quiet_unwrap {A} (m : io A) : quiet m -> quiet (iunwrap m).
Proof. intros H d d' r. unfold iunwrap. destruct (m d) as [x o] eqn:M. apply H in M as ->. intros X. now injection X as <- _. Qed.
Lemma quiet_try {A} (m : io A) : quiet m -> quiet (itry m).
Proof. intros H d d' r. unfold itry. destruct (m d) as [x [a| |]] eqn:M; apply H in M as ->; intros X; now injection X as <- _. Qed.
Lemma quiet_bind {A B} (m : io A) (k : A -> io B) : quiet m -> (forall a, quiet (k a)) -> quiet (ibind m k).
Proof.
  intros H K d d' r X. unfold ibind in X. destruct (m d) as [d1 [a| |]] eqn:M; apply H in M as ->.
  - exact (K a _ _ _ X).
  - now injection X as <- _.
  - now injection X as <- _.
Qed.
Lemma quiet_map {A B} (f : A -> io B) l : (forall a, quiet (f a)) -> quiet (imap f l).
Proof.
  intros H. induction l as [|x l IH]; cbn [imap]; [apply quiet_ret|].
  apply quiet_bind; [apply H|]. intros y. apply quiet_bind; [exact IH|]. intros; apply quiet_ret.
Qed.

Lemma save_sure p s : sure (isave p s).
Proof. intros d d'. unfold isave, write_file. destruct (fs_create d p s); discriminate. Qed.
Lemma save_frame outs p s : In p outs -> frame outs (isave p s).
Proof.
  intros I d d' r. unfold isave. destruct (write_file d p s) as [[b x]| |] eqn:W; intros H; injection H as <- _; intros q N.
  - refine (write_file_other _ _ _ _ _ _ W _). intros ->. exact (N I).
  - reflexivity.
  - reflexivity.
Qed.
Lemma ser_sure b w : sure (ilift (ser_bytes E b w)).
Proof. intros d d'. unfold ilift, ser_bytes. destruct b; discriminate. Qed.
Lemma store_sure {A} p (c : codec A) v w : sure (store E p c v w).
Proof. apply sure_bind; [apply ser_sure | intros; apply save_sure]. Qed.
Lemma store_result_sure {A} p (c : codec A) t v : sure (store_result E p c t v).
Proof. apply sure_bind; [apply ser_sure | intros; apply save_sure]. Qed.
Lemma store_frame {A} outs p (c : codec A) v w : In p outs -> frame outs (store E p c v w).
Proof. intros I. apply frame_bind; [apply quiet_frame, quiet_lift | intros; now apply save_frame]. Qed.
Lemma store_result_frame {A} outs p (c : codec A) t v : In p outs -> frame outs (store_result E p c t v).
Proof. intros I. apply frame_bind; [apply quiet_frame, quiet_lift | intros; now apply save_frame]. Qed.

Ltac quiets := repeat first
  [ apply quiet_dec | apply quiet_run | apply quiet_lift | apply quiet_ret | apply quiet_read
  | apply quiet_map; intros | apply quiet_unwrap | apply quiet_try ].
Ltac cases := repeat match goal with
  | |- context [match ?x with _ => _ end] => destruct x
  end.
Ltac framed := repeat first
  [ apply store_frame; cbn; tauto | apply store_result_frame; cbn; tauto
  | apply quiet_frame; solve [quiets]
  | apply frame_bind; [|intros; cases] ].
Ltac cleaned := repeat first
  [ apply sure_clean; first [apply store_sure | apply store_result_sure]
  | apply quiet_clean; solve [quiets]
  | apply sure_clean, sure_bind; [apply store_sure | intros; apply store_sure]
  | apply clean_bind; [solve [quiets]|intros; cases] ].

Theorem run_frame t nonce text c m s lang : frame (outputs c m) (run E t nonce text c m s lang).
Proof.
  destruct c; cbn [run outputs].
  - unfold run_setup. destruct s; try destruct (attr_args m); framed.
  - unfold run_authgen. destruct s; framed.
  - unfold run_keygen. destruct s; framed.
  - unfold run_delegate. destruct (value_of m SK_FILE); destruct s; framed.
  - unfold run_encrypt. destruct s; destruct (enc_pk_files m) as [|? [|? ?]]; framed.
  - apply quiet_frame. intros d d' r H. exact (decrypt_state _ _ _ _ _ _ H).
  - unfold run_req_attr_pk. destruct (req_attrs m) as [|? [|? ?]]; destruct s; framed.
  - unfold run_req_attr_sk. destruct (req_attrs m) as [|? [|? ?]]; destruct s; framed.
Qed.

Theorem run_clean t nonce text c m s lang : clean (run E t nonce text c m s lang).
Proof.
  destruct c; cbn [run].
  - unfold run_setup. destruct s; try destruct (attr_args m); cleaned.
  - unfold run_authgen. destruct s; cleaned.
  - unfold run_keygen. destruct s; cleaned.
  - unfold run_delegate. destruct s; cleaned.
  - unfold run_encrypt. destruct s; destruct (enc_pk_files m) as [|? [|? ?]]; cleaned.
  - intros d d' H. exact (decrypt_state _ _ _ _ _ _ H).
  - unfold run_req_attr_pk. destruct (req_attrs m) as [|? [|? ?]]; destruct s; cleaned.
  - unfold run_req_attr_sk. destruct (req_attrs m) as [|? [|? ?]]; destruct s; cleaned.
Qed.
End Frames.

(** ** One attribute per key *)

(** The owner of one attribute cannot satisfy a policy that needs two, so no key
    that [keygen] writes for such a policy opens the file. *)
Theorem cp_single {C : crypto} (L : laws C) (E : env C) (OK : env_ok E)
    ts tk te nonce text (ms mk me md : args) lang lang' (d d1 d2 d3 : fs) data f :
  let msk := file_arg ms MSK_FILE in let pk := file_arg ms PK_FILE in
  let sk := file_arg mk SK_FILE in let ct := enc_ct_file me in
  clap_ok Keygen mk ->
  (forall a, sat (owns [a]) f = false) ->
  run_setup E ts ms AC17CP d = (d1, Ok tt) ->
  run_keygen E tk mk AC17CP lang' d1 = (d2, Ok tt) ->
  run_encrypt E te nonce text me AC17CP lang d2 = (d3, Ok tt) ->
  file_arg mk MSK_FILE = msk -> enc_pk_files me = [pk] -> file_arg md SK_FILE = sk -> text_arg md FILE = ct ->
  NoDup [msk; pk; sk; ct] -> ~ In (text_arg me FILE) [msk; pk; sk] ->
  Forall (readable d) [msk; pk; sk; ct] -> fs_open d (text_arg me FILE) = Some data ->
  Forall valid (attr_args mk) -> Forall valid (names f) -> valid (text_arg me POLICY) ->
  parse (text_arg me POLICY) lang = Ok (tree f) -> String.length nonce = 12 ->
  binary_and f = true -> NoDup (names f) ->
  snd (open_file E md AC17CP d3) = Err.
Proof.
  intros msk pk sk ct K S H1 H2 H3 A1 A2 A3 A4 N1 N2 R O V1 V2 V3 P LN B ND.
  assert (D : NoDup (attr_args mk)).
  { destruct (keygen_single _ K) as [->|[a ->]]; repeat constructor; auto. }
  rewrite (cp_console L E OK ts tk te nonce text ms mk me md lang lang' d d1 d2 d3 data f); auto.
  replace (sat (owns (attr_args mk)) f) with false; [reflexivity|]. symmetry.
  destruct (keygen_single _ K) as [->|[a ->]]; [|apply S].
  destruct (sat (owns []) f) eqn:X; [|reflexivity]. rewrite <- (S ""). symmetry.
  eapply PolicyProofs.sat_mono; [|exact X]. intros n. discriminate.
Qed.

(** ** Sequences of calls *)

(** The tool is called any number of times, with any results. *)
Inductive calls {C : crypto} (E : env C) : list (command * args) -> fs -> fs -> Prop :=
| calls_nil d : calls E [] d d
| calls_cons t nonce text c m s lang r l d d1 d2 :
    run E t nonce text c m s lang d = (d1, r) -> calls E l d1 d2 -> calls E ((c, m) :: l) d d2.

Section Calls.
Context {C : crypto} (E : env C).

Definition spares (p : string) (x : command * args) : Prop := ~ In p (outputs (fst x) (snd x)).

Theorem calls_frame l d d' p : calls E l d d' -> Forall (spares p) l -> same_at d d' p.
Proof.
  induction 1 as [|t nonce text c m s lang r l d d1 d2 R _ IH]; intros S; [reflexivity|].
  inversion S as [|? ? S1 S2]; subst. unfold same_at. rewrite (IH S2 : fs_files _ _ = _).
  exact (run_frame E t nonce text c m s lang _ _ _ R p S1).
Qed.

Theorem bd_console_calls (OK : env_ok E) t m lang md l (d d1 d2 : fs) data :
  run_keygen E t m BDABE lang d = (d1, Ok tt) ->
  calls E l d1 d2 -> Forall (spares (named_file m)) l ->
  readable d (named_file m) -> valid (text_arg m NAME) -> file_arg md SK_FILE = named_file m ->
  snd (open_file E md BDABE d2) <> Ok data.
Proof.
  intros K H S R V F. apply (bd_console_user E OK t m lang md d d1 d2); auto. now apply (calls_frame l).
Qed.

Theorem mk_console_calls (OK : env_ok E) t m lang md l (d d1 d2 : fs) data :
  run_keygen E t m MKE08 lang d = (d1, Ok tt) ->
  calls E l d1 d2 -> Forall (spares (named_file m)) l ->
  readable d (named_file m) -> valid (text_arg m NAME) -> file_arg md SK_FILE = named_file m ->
  snd (open_file E md MKE08 d2) <> Ok data.
Proof.
  intros K H S R V F. apply (mk_console_user E OK t m lang md d d1 d2); auto. now apply (calls_frame l).
Qed.
End Calls.
