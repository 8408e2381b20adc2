(** * Refusals: requests to authorities (C46), hexadecimal text (C93) and
    encryption that aborts (C100) *)
From Coq Require Import String Ascii List Bool Arith NArith Lia.
From Verif Require Import Base Crypto Policy Parse ParseText Files FilesProofs Borsh Console ConsoleProofs ConsoleFiles.
From Verif Require Bsw Lsw Yct14 Ac17 Aw11 Bdabe Mke08.
Import ListNotations.
Local Open Scope string_scope.
Local Open Scope io_scope.

(** ** Requests *)
Section Requests.
Context {C : crypto}.

(** A request is answered or refused, and what decides is the name alone. *)
Definition decided {A} (o : outcome A) (name attr : string) : Prop :=
  (Bdabe.from_authority attr name = true /\ hash C attr <> None /\ hash C name <> None -> exists k, o = Ok k) /\
  (~ (Bdabe.from_authority attr name = true /\ hash C attr <> None /\ hash C name <> None) -> o = Err).

Ltac request := unfold decided;
  destruct (Bdabe.from_authority _ _); cbn [andb]; [|split; [intros (? & _); discriminate|reflexivity]];
  unfold Bdabe.is_eligible; unfold sha3_hash_fr;
  repeat match goal with |- context [hash C ?x] => destruct (hash C x); cbn [obind] end;
  split; intros N; try reflexivity; try (eexists; reflexivity); exfalso;
  try (destruct N as (_ & ? & ?); congruence); apply N; repeat split; discriminate.

Theorem request_decided :
  (forall (pk : Bdabe.bd_pk C) A n, decided (Bdabe.bd_request_pk pk A n) (Bdabe.bau_name A) n) /\
  (forall (pku : Bdabe.bd_upk C) A n, decided (Bdabe.bd_request_sk pku A n) (Bdabe.bau_name A) n) /\
  (forall (pk : Mke08.mk_pk C) A n, decided (Mke08.mk_request_pk pk n A) (Mke08.mau_name A) n) /\
  (forall (pku : Mke08.mk_upk C) A n, decided (Mke08.mk_request_sk pku n A) (Mke08.mau_name A) n).
Proof.
  refine (conj _ (conj _ (conj _ _))); intros p A n.
  - unfold Bdabe.bd_request_pk. request.
  - unfold Bdabe.bd_request_sk. request.
  - unfold Mke08.mk_request_pk. request.
  - unfold Mke08.mk_request_sk. request.
Qed.
End Requests.

(** ** Hexadecimal text *)

(** Specification: letters in either case, white space anywhere. *)
Definition lower_char (c : ascii) : ascii :=
  let n := nat_of_ascii c in if ((65 <=? n) && (n <=? 90))%nat then ascii_of_nat (n + 32) else c.
Definition is_gap (c : ascii) : bool :=
  existsb (Ascii.eqb c) [" "%char; "009"%char; "010"%char; "013"%char].
Fixpoint plain_hex (s : string) : string :=
  match s with
  | EmptyString => EmptyString
  | String c r => if is_gap c then plain_hex r else String (lower_char c) (plain_hex r)
  end.

Lemma gap_blank c : hex_blank c = is_gap c.
Proof. destruct c as [[] [] [] [] [] [] [] []]; reflexivity. Qed.

Lemma value_lower c : hex_value (lower_char c) = hex_value c.
Proof. destruct c as [[] [] [] [] [] [] [] []]; reflexivity. Qed.

Lemma value_digit c v : hex_value c = Some v -> (v < 16)%N /\ lower_char c = hex_digit v.
Proof.
  destruct c as [[] [] [] [] [] [] [] []]; vm_compute; intros H; try discriminate H; injection H as <-;
    (split; [reflexivity|reflexivity]).
Qed.

Lemma digit_value v : (v < 16)%N -> hex_value (hex_digit v) = Some v.
Proof.
  intros H. assert (K : forallb (fun k => match hex_value (hex_digit (N.of_nat k)) with
     | Some w => (w =? N.of_nat k)%N | None => false end) (seq 0 16) = true) by reflexivity.
  rewrite forallb_forall in K. specialize (K (N.to_nat v)). rewrite N2Nat.id in K.
  destruct (hex_value (hex_digit v)) as [w|].
  - f_equal. apply N.eqb_eq, K, in_seq. lia.
  - exfalso. discriminate K. apply in_seq. lia.
Qed.

Lemma char_value c v : (v < 16)%N -> lower_char c = hex_digit v -> hex_value c = Some v.
Proof. intros H E. now rewrite <- value_lower, E, digit_value. Qed.

Lemma hex_at_exact s :
  (forall b, from_hex_at None s = Some b <-> plain_hex s = to_hex b) /\
  (forall h t, (h < 16)%N -> from_hex_at (Some h) s = Some t <->
     exists v b, (v < 16)%N /\ t = String (ascii_of_N (16 * h + v)) b /\ plain_hex s = String (hex_digit v) (to_hex b)).
Proof.
  induction s as [|c s (IH1 & IH2)].
  - split.
    + intros b. cbn. split; [now injection 1 as <-|]. now destruct b.
    + intros h t _. cbn. split; [discriminate|]. intros (v & b & _ & _ & H). discriminate H.
  - cbn [from_hex_at plain_hex]. rewrite gap_blank. destruct (is_gap c); [split; assumption|]. split.
    + intros b. destruct (hex_value c) as [v|] eqn:V; cbn [bind].
      * apply value_digit in V as (Hv & Ev). rewrite (IH2 v b Hv), Ev. split.
        -- intros (w & b' & Hw & -> & ->). cbn [to_hex].
           rewrite N_ascii_embedding by lia.
           rewrite (N.mul_comm 16 v), N.div_add_l, N.div_small, N.add_0_r by lia.
           rewrite N.add_comm, N.mod_add, N.mod_small by lia. reflexivity.
        -- destruct b as [|x b]; cbn [to_hex]; [discriminate|]. injection 1 as E1 E2.
           assert (X : (N_of_ascii x < 256)%N) by (destruct x as [[] [] [] [] [] [] [] []]; reflexivity).
           assert (D : (N_of_ascii x / 16 < 16)%N) by (apply N.div_lt_upper_bound; lia).
           assert (M : (N_of_ascii x mod 16 < 16)%N) by (apply N.mod_lt; lia).
           exists (N_of_ascii x mod 16)%N, b. split; [exact M|]. split; [|exact E2].
           assert (Y : v = (N_of_ascii x / 16)%N).
           { apply digit_value in Hv, D. rewrite E1 in Hv. congruence. }
           rewrite Y, <- N.div_mod by lia. now rewrite ascii_N_embedding.
      * split; [discriminate|]. intros H. exfalso.
        destruct b as [|x b]; cbn [to_hex] in H; [discriminate|]. injection H as E1 _.
        assert (X : (N_of_ascii x < 256)%N) by (destruct x as [[] [] [] [] [] [] [] []]; reflexivity).
        apply char_value in E1; [congruence|]. apply N.div_lt_upper_bound; lia.
    + intros h t Hh. destruct (hex_value c) as [v|] eqn:V; cbn [bind].
      * apply value_digit in V as (Hv & Ev). rewrite Ev.
        destruct (from_hex_at None s) as [b|] eqn:B; cbn [bind].
        -- pose proof (proj1 (IH1 b) eq_refl) as P. rewrite P. split.
           ++ injection 1 as <-. exists v, b. auto.
           ++ intros (w & b' & Hw & -> & E). injection E as E1 E2.
              assert (w = v) as -> by (apply digit_value in Hv, Hw; congruence).
              rewrite <- P in E2. apply IH1 in E2. congruence.
        -- split; [discriminate|]. intros (w & b' & Hw & -> & E). injection E as E1 E2.
           apply IH1 in E2. congruence.
      * split; [discriminate|]. intros (w & b' & Hw & -> & E). injection E as E1 E2.
        apply char_value in E1; [congruence|exact Hw].
Qed.

Theorem hex_exact s b : from_hex s = Some b <-> plain_hex s = to_hex b.
Proof. apply hex_at_exact. Qed.

(** ** Encryption that aborts *)
Section Aborts.
Context {C : crypto} (E : env C).
Notation W := (e_wire E).

(** What the command would run, given the keys in the files. *)
Definition library_aborts (t : nat -> F C) (nonce text : string) (m : args) (s : scheme) (lang : language)
  (doc : string) (d : fs) : Prop :=
  let one {A} (c : codec A) (f : A -> Prop) :=
    exists file pk, enc_pk_files m = [file] /\ ser_dec E c file d = (d, Ok pk) /\ f pk in
  match s with
  | AC17CP => one (c_ac_pk W) (fun pk => Ac17.cp_encrypt nonce pk (text_arg m POLICY) doc lang t 0 = Panic)
  | BSW => one (c_bsw_pk W) (fun pk => Bsw.bsw_encrypt nonce pk (text_arg m POLICY) lang doc t 0 = Panic)
  | LSW => one (c_lsw_pk W) (fun pk => Lsw.lsw_encrypt nonce pk (attr_args m) doc t 0 = Panic)
  | YCT14 => one (c_yct_pk W) (fun pk => Yct14.yct_encrypt nonce pk (attr_args m) doc t 0 = Panic)
  | AW11 => exists gp file pk, ser_dec E (c_aw_gk W) (file_arg m GP_FILE) d = (d, Ok gp) /\
      enc_pk_files m = [file] /\ ser_dec E (c_aw_pk W) file d = (d, Ok pk) /\
      Aw11.aw_encrypt nonce gp [pk] (text_arg m POLICY) lang doc t 0 = Panic
  | _ => False
  end.

Theorem encrypt_aborts t nonce text m s lang d doc :
  read_to_vec d (text_arg m FILE) = Ok doc -> library_aborts t nonce text m s lang doc d ->
  run E t nonce text Encrypt m s lang d = (d, Panic).
Proof.
  intros R H. cbn [run]. unfold run_encrypt. cbv zeta. unfold ibind at 1. unfold iread at 1. rewrite R.
  destruct s; cbn [library_aborts] in H; try contradiction.
  all: repeat match goal with H : ex _ |- _ => destruct H as (? & H) end;
    repeat match goal with H : _ /\ _ |- _ => destruct H end.
  all: repeat match goal with H : enc_pk_files _ = _ |- _ => rewrite H end; cbn [imap].
  all: repeat match goal with H : ser_dec _ _ _ _ = (_, Ok _) |- _ =>
         first [unfold ibind at 1; rewrite H|unfold ibind at 1; unfold ibind at 1; rewrite H]; clear H end.
  all: unfold ibind, iret, itry, irun, ilift; match goal with H : _ = Panic |- _ => now rewrite H end.
Qed.
End Aborts.
