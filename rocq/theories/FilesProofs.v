(** * Proofs about files and the symmetric layer *)
From Coq Require Import String Ascii List Bool Arith Lia.
From Verif Require Import Base Crypto Symmetric SchemeLib Files.
Import ListNotations.
Local Open Scope string_scope.

(** ** Writing and reading back *)

Lemma write_read_back d path content b d' :
  write_file d path content = Ok (b, d') ->
  (forall f, fs_files d path = Some f -> f_readable f = true) ->
  b = true /\ read_to_vec d' path = Ok content /\
  (utf8 content = true -> read_file d' path = Ok content).
Proof.
  unfold write_file, fs_create. destruct (fs_may_create d path); [|discriminate].
  intros H R. injection H as <- <-. split; [reflexivity|].
  assert (E : fs_open (Fs (fun p => if seqb p path then Some (File content
      (match fs_files d path with Some f => f_readable f | None => true end)) else fs_files d p)
      (fs_may_create d)) path = Some content).
  { unfold fs_open. cbn [fs_files]. rewrite seqb_refl. cbn [f_readable f_bytes].
    destruct (fs_files d path) as [f|] eqn:Ef; [|reflexivity]. now rewrite (R f eq_refl). }
  unfold read_to_vec, read_file. rewrite E. split; [reflexivity|]. now intros ->.
Qed.

Lemma write_file_other d path content b d' q :
  write_file d path content = Ok (b, d') -> q <> path -> fs_files d' q = fs_files d q.
Proof.
  unfold write_file, fs_create. destruct (fs_may_create d path); [|discriminate].
  intros H N. injection H as <- <-. cbn. destruct (seqb q path) eqn:E; [|reflexivity].
  apply seqb_eq in E. contradiction.
Qed.

Lemma write_from_vec_never d path data : data <> EmptyString ->
  write_from_vec d path data = Panic.
Proof.
  intros N. unfold write_from_vec. destruct (fs_open d path); [|reflexivity].
  destruct data; [congruence|reflexivity].
Qed.

Lemma write_from_vec_noop d path data d' : write_from_vec d path data = Ok d' ->
  data = EmptyString /\ d' = d.
Proof.
  unfold write_from_vec. destruct (fs_open d path); [|discriminate].
  destruct data; [|discriminate]. intros H. injection H as <-. auto.
Qed.

(** ** The middle line *)

(** A text without line break characters. *)
Fixpoint no_break (s : string) : bool :=
  match s with
  | EmptyString => true
  | String c r => negb (Ascii.eqb c nl) && negb (Ascii.eqb c cr) && no_break r
  end.

Lemma strip_cr_no_break s : no_break s = true -> strip_cr s = s.
Proof.
  induction s as [|c s IH]; [reflexivity|]. cbn [no_break strip_cr]. intros H.
  apply andb_prop in H as [H H2]. apply andb_prop in H as [_ H1]. apply negb_true_iff in H1.
  rewrite IH by exact H2. destruct s; [now rewrite H1|reflexivity].
Qed.

Lemma sapp_nil s : s ++ "" = s.
Proof. induction s; cbn; congruence. Qed.

Lemma sapp_ass a b c : (a ++ b) ++ c = a ++ (b ++ c).
Proof. induction a; cbn; congruence. Qed.

Lemma lines_run s : forall cur rest, no_break s = true ->
  lines_from cur (s ++ String nl rest) = strip_cr (cur ++ s) :: lines_from "" rest.
Proof.
  induction s as [|c s IH]; intros cur rest H.
  - rewrite sapp_nil. cbn [append lines_from]. now rewrite Ascii.eqb_refl.
  - cbn [no_break] in H. apply andb_prop in H as [H H2]. apply andb_prop in H as [H1 _].
    apply negb_true_iff in H1. cbn [append lines_from]. rewrite H1.
    rewrite IH by exact H2. now rewrite sapp_ass.
Qed.

(** Header line, payload line, anything after. *)
Lemma read_raw_middle head payload tail :
  no_break head = true -> no_break payload = true ->
  read_raw (head ++ String nl (payload ++ String nl tail)) = Ok payload.
Proof.
  intros H P. unfold read_raw, lines. rewrite lines_run by exact H.
  rewrite lines_run by exact P. cbn [nth_error unwrap append]. now rewrite strip_cr_no_break.
Qed.

Lemma read_raw_short raw : no_break raw = true -> read_raw raw = Panic.
Proof.
  intros H. unfold read_raw, lines.
  assert (X : forall s cur, no_break s = true ->
    exists l, lines_from cur s = l /\ (length l <= 1)%nat).
  { induction s as [|c s IH]; intros cur Hs.
    - cbn. destruct cur; eexists; split; try reflexivity; cbn; lia.
    - cbn [no_break] in Hs. apply andb_prop in Hs as [Hs H2]. apply andb_prop in Hs as [H1 _].
      apply negb_true_iff in H1. cbn [lines_from]. rewrite H1. apply IH. exact H2. }
  destruct (X raw "" H) as (l & -> & Hl).
  destruct l as [|x [|y l]]; cbn in *; [reflexivity|reflexivity|lia].
Qed.

(** ** The symmetric layer *)

Section Sym.
Context {C : crypto} (L : laws C).

Lemma symmetric_form nonce (m : GT C) data ct :
  encrypt_symmetric nonce m data = Ok ct ->
  ct = nonce ++ aead_enc C (kdf C m) nonce data.
Proof. intros H. now injection H as <-. Qed.

Lemma symmetric_total nonce (m : GT C) data : exists ct, encrypt_symmetric nonce m data = Ok ct.
Proof. eexists. reflexivity. Qed.

Lemma symmetric_short (m : GT C) ct : (String.length ct < 12)%nat -> decrypt_symmetric m ct = Panic.
Proof. intros H. unfold decrypt_symmetric. apply Nat.ltb_lt in H. now rewrite H. Qed.

Lemma symmetric_long (m : GT C) ct : (12 <= String.length ct)%nat -> decrypt_symmetric m ct <> Panic.
Proof.
  intros H. unfold decrypt_symmetric. apply Nat.ltb_ge in H. rewrite H.
  destruct (aead_dec C _ _ _); discriminate.
Qed.

End Sym.
