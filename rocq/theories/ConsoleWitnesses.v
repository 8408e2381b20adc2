(** * ConsoleWitnesses: a concrete wire format, disk and command lines

    Nothing here models rabe code; the examples and refutations of
    PropertiesConsole.v run on it. *)
From Coq Require Import String Ascii List Bool Arith NArith ZArith Lia.
From Verif Require Import Base Crypto Policy Files FilesProofs Instance Witnesses Borsh BorshProofs Console ConsoleProofs.
Import ListNotations.
Local Open Scope string_scope.

(** ** Residues as two bytes *)

Definition zp_enc (x : zp) : option string :=
  let n := Z.to_N (zval x) in
  Some (String (ascii_of_N (n mod 256)) (String (ascii_of_N (n / 256)) EmptyString)).
Definition zp_dec (s : string) : option (zp * string) :=
  match s with
  | String a (String b r) =>
      let n := (N_of_ascii a + 256 * N_of_ascii b)%N in
      if (n <? 1009)%N then Some (zmk (Z.of_N n), r) else None
  | _ => None
  end.
Definition c_zp : codec zp := Codec zp_enc zp_dec.

Lemma zval_range (x : zp) : (0 <= zval x < 1009)%Z.
Proof.
  rewrite <- zval_mod. unfold p0. apply Z.mod_pos_bound. lia.
Qed.

Lemma c_zp_good : good (fun _ => True) c_zp.
Proof.
  intros v r _. eexists. split; [reflexivity|]. cbn [dec_ c_zp append zp_dec].
  pose proof (zval_range v) as R.
  set (n := Z.to_N (zval v)).
  assert (H : (n < 1009)%N) by (unfold n; lia).
  rewrite !N_ascii_embedding; [|apply N.div_lt_upper_bound; lia | apply N.mod_lt; lia].
  rewrite N.add_comm, <- N.div_mod by lia.
  replace (n <? 1009)%N with true by (symmetry; now apply N.ltb_lt).
  unfold n. rewrite Z2N.id by lia. now rewrite zmk_val.
Qed.

Lemma c_zp_sized : sized c_zp.
Proof.
  intros s v r H. cbn [dec_ c_zp] in H. destruct s as [|a [|b s]]; try discriminate.
  cbn [zp_dec] in H. destruct (N.ltb _ 1009); [|discriminate]. injection H as <- <-. eexists. split; [reflexivity|]. reflexivity.
Qed.

Definition zwire : wire ZC := Wire ZC c_zp c_zp c_zp c_zp.

Lemma zwire_ok : wire_ok zwire.
Proof. repeat split; apply c_zp_good || apply c_zp_sized. Qed.

Definition zenv : env ZC := Env ZC zwire (fun b => b) (fun b => Some b).

Lemma zenv_ok : env_ok zenv.
Proof. split; [exact zwire_ok | reflexivity]. Qed.

(** ** Command lines *)

Fixpoint args_of (l : list (string * list string)) : args :=
  match l with
  | [] => fun _ => None
  | (k, v) :: r => fun x => if seqb x k then Some v else args_of r x
  end.

Definition clap_check (c : command) (l : list (string * list string)) : bool :=
  forallb (fun k => match args_of l k with Some _ => true | None => false end) (present c) &&
  forallb (fun kv => existsb (seqb (fst kv)) (present c ++ optional c)%list &&
                     match snd kv with
                     | [] => false
                     | [_] => true
                     | _ => existsb (seqb (fst kv)) (multiple c)
                     end) l.

Lemma args_of_In l k v : args_of l k = Some v -> In (k, v) l.
Proof.
  induction l as [|[k' v'] l IH]; cbn [args_of]; [discriminate|]. unfold seqb.
  destruct (String.eqb_spec k k') as [->|]; [|right; auto]. intros H. injection H as ->. now left.
Qed.

Lemma existsb_seqb k l : existsb (seqb k) l = true <-> In k l.
Proof.
  rewrite existsb_exists. unfold seqb. split.
  - intros (x & I & H). apply String.eqb_eq in H as ->. exact I.
  - intros I. exists k. split; [exact I | apply String.eqb_refl].
Qed.

Lemma clap_checked c l : clap_check c l = true -> clap_ok c (args_of l).
Proof.
  unfold clap_check. rewrite andb_true_iff, !forallb_forall. intros [A B].
  assert (B' : forall k v, args_of l k = Some v ->
    (In k (present c) \/ In k (optional c)) /\
    match v with [] => False | [_] => True | _ => In k (multiple c) end).
  { intros k v H. apply args_of_In in H. specialize (B _ H). cbn [fst snd] in B.
    apply andb_prop in B as [B1 B2]. apply existsb_seqb, in_app_or in B1. split; [exact B1|].
    destruct v as [|x [|y v]]; [discriminate | exact I | now apply existsb_seqb]. }
  repeat split.
  - intros k I. specialize (A k I). destruct (args_of l k); [discriminate|discriminate].
  - intros k N1 N2. destruct (args_of l k) as [v|] eqn:X; [|reflexivity]. destruct (B' _ _ X) as [[|] _]; tauto.
  - intros k vs H N. destruct (B' _ _ H) as [_ K]. destruct vs as [|x [|y vs]]; [tauto | eauto | tauto].
  - intros k vs H ->. now destruct (B' _ _ H).
Qed.

(** ** A disk with one document *)

Definition disk : fs :=
  Fs (fun p => if seqb p "doc" then Some (File "hello" true) else None) (fun p => negb (seqb p "")).

Lemma disk_posix : posix disk.
Proof. split; reflexivity. Qed.

Lemma disk_readable p : readable disk p.
Proof. intros f. cbn. destruct (seqb p "doc"); [|discriminate]. intros H. now injection H as <-. Qed.

(** The state after an action, and its result. *)
Lemma stepped {A} (m : io A) d r : snd (m d) = r -> m d = (fst (m d), r).
Proof. intros <-. apply surjective_pairing. Qed.

(** ** Sessions of the tool on that disk *)

Definition files3 := [(MSK_FILE, ["msk.key"]); (PK_FILE, ["pk.key"]); (GP_FILE, ["gp.key"])].
Definition l_setup := files3.
Definition l_keygen := (files3 ++ [(SK_FILE, ["sk.key"]); (AU_SK_FILE, ["skau.key"]); (ATTRIBUTES, ["A"])])%list.
Definition l_encrypt :=
  [(PK_FILE, ["pk.key"]); (GP_FILE, ["gp.key"]); (FILE, ["doc"]); (POLICY, ["""A"" or ""B"""]); (ATTRIBUTES, ["A"])].
Definition l_bad :=
  [(PK_FILE, ["pk.key"]); (GP_FILE, ["gp.key"]); (FILE, ["doc"]); (POLICY, ["""A"" or"])].
Definition l_and :=
  [(PK_FILE, ["pk.key"]); (GP_FILE, ["gp.key"]); (FILE, ["doc"]); (POLICY, ["""A"" and ""B"""])].
Definition l_decrypt :=
  [(PK_FILE, ["pk.key"]); (GP_FILE, ["gp.key"]); (SK_FILE, ["sk.key"]); (FILE, ["doc.ct"])].
Definition l_delegate := [(PK_FILE, ["pk.key"]); (SK_FILE, ["sk.key"]); (ATTRIBUTES, ["A"])].
Definition l_user := (files3 ++ [(SK_FILE, ["sk.key"]); (AU_SK_FILE, ["skau.key"]); (NAME, ["u"])])%list.
Definition l_auth := (files3 ++ [(NAME, ["ska"]); (ATTRIBUTES, ["A"; "B"])])%list.
Definition l_yct := (files3 ++ [(ATTRIBUTES, ["A"; "B"])])%list.

Definition after_setup (s : scheme) (l : list (string * list string)) : fs :=
  fst (run_setup zenv (ztape 3) (args_of l) s disk).
Definition after_keygen (s : scheme) (ls lk : list (string * list string)) : fs :=
  fst (run_keygen zenv (ztape 4) (args_of lk) s HumanPolicy (after_setup s ls)).
Definition after_encrypt (s : scheme) (ls lk le : list (string * list string)) : fs :=
  fst (run_encrypt zenv (ztape 5) nc "" (args_of le) s HumanPolicy (after_keygen s ls lk)).
Definition l_ykey := (files3 ++ [(SK_FILE, ["sk.key"]); (AU_SK_FILE, ["skau.key"]); (POLICY, ["""A"" or ""B"""])])%list.
(** BDABE: set up, create the authority the tool looks for, create a user. *)
Definition bd_authority : fs := fst (run_authgen zenv (ztape 4) (args_of l_auth) BDABE (after_setup BDABE l_setup)).
