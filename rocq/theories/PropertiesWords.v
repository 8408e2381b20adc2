(** * PropertiesWords: C137: from the words of a command line to what rabe-console does

    [words c ws] (Words.v) are the arguments that the words [ws] behind the subcommand [c] give, before default
    values; [None] if clap answers itself.  [program ... ws d] is rabe-console called with [ws] on the files [d]:
    text, files, exit status.  [places c] are the positional arguments in their order; [gapless c g] says that
    an argument is given only if all places before it are.  The proofs are in WordsProofs.v. *)
From Coq Require Import String Ascii List Bool Arith ZArith.
From Verif Require Import Base Crypto Policy Parse Spec Files Borsh Errors Messages Console ConsoleProofs CommandLine
  DependProofs ConsolePrints Words WordsProofs Instance Witnesses ConsoleWitnesses.
Import ListNotations.
Local Open Scope nat_scope.
Local Open Scope string_scope.

(** C137: whatever is typed, the commands get arguments as the other claims about the console suppose. *)
Theorem C137_accepted :
  forall c ws g, words c ws = Some g -> clap_ok c (matches c g).
Proof. intros c ws g H. apply line_accepted. exact (words_line c ws g H). Qed.
Print Assumptions C137_accepted.

Example C137_accepted_example :
  exists g, words Encrypt ["doc"; "A"; "gp.key"; "pk.key"; "X"; "Y"] = Some g /\
  g "f" = Some ["doc"] /\ g "p" = Some ["A"] /\ g "pk" = Some ["pk.key"] /\ g "a" = Some ["X"; "Y"].
Proof. eexists. split; [reflexivity|]. repeat split. Qed.

(** C137: the arguments that can be typed, for values that do not look like options: those of the declarations,
    without a gap. *)
Theorem C137_exact :
  forall c (g : args), c <> Authgen -> (forall k vs v, g k = Some vs -> In v vs -> dashed v = false) ->
  ((exists ws g', words c ws = Some g' /\ forall k, g' k = g k) <->
   (forall k, ~ In k (Console.present c) -> ~ In k (optional c) -> g k = None) /\
   (forall k vs, g k = Some vs -> ~ In k (multiple c) -> exists v, vs = [v]) /\
   (forall k vs, g k = Some vs -> vs <> []) /\
   (c = Encrypt \/ c = Decrypt -> g FILE <> None) /\
   (forall i j a b, i <= j -> nth_error (places c) i = Some a -> nth_error (places c) j = Some b ->
    g b <> None -> g a <> None)).
Proof.
  intros c g N U. split.
  - intros (ws & g' & W & X). pose proof (words_line _ _ _ W) as (A & B & D & F). pose proof (words_gapless _ _ _ W) as G.
    repeat apply conj.
    + intros k P O. rewrite <- X. now apply A.
    + intros k vs. rewrite <- X. apply B.
    + intros k vs. rewrite <- X. apply D.
    + rewrite <- X. exact F.
    + intros i j a b L Ha Hb. rewrite <- !X. now apply (G i j).
  - intros (A & B & D & F & G). destruct (words_complete c g N (conj A (conj B (conj D F))) G U) as (g' & W & X). eauto.
Qed.
Print Assumptions C137_exact.

(** A public key without the global parameters before it cannot be typed. *)
Example C137_exact_example :
  words Decrypt ["doc.ct"; "gp.key"; "pk.key"] <> None /\
  forall ws g, words Decrypt ws = Some g -> g "pk" <> None -> g "gp" <> None.
Proof.
  split; [discriminate|]. intros ws g W. apply (words_gapless Decrypt ws g W 1 2); auto.
Qed.

(** C137: what may stand before the subcommand: one of the eight schemes, which has to be given, and one of the two
    languages, each at most once and in any order. *)
Theorem C137_front :
  forall ws s l sub, command_line ws = Some (s, l, sub) <->
  exists before r, ws = (before ++ r)%list /\
  (In s ["AC17CP"; "AC17KP"; "AW11"; "BDABE"; "BSW"; "LSW"; "MKE08"; "YCT14"] /\
   match l with
   | None => before = ["--s"; s]
   | Some l => In l ["HUMAN"; "JSON"] /\ (before = ["--s"; s; "--l"; l] \/ before = ["--l"; l; "--s"; s])
   end) /\
  match sub with
  | None => r = []
  | Some (w, g) => exists c r', r = (w :: r')%list /\ command_of w = Some c /\ words c r' = Some g
  end.
Proof. exact line_exact. Qed.
Print Assumptions C137_front.

Example C137_front_example :
  command_line ["--s"; "BSW"] = Some ("BSW", None, None) /\
  command_line ["--s"; "XYZ"; "setup"] = None /\ command_line ["--l"; "JSON"; "setup"] = None /\
  command_line ["--l"; "JSON"; "--l"; "HUMAN"; "--s"; "BSW"; "setup"] = None /\
  exists g, command_line ["--l"; "JSON"; "--s"; "BSW"; "setup"; "m.key"] = Some ("BSW", Some "JSON", Some ("setup", g)) /\
  g "msk" = Some ["m.key"].
Proof. do 4 (split; [reflexivity|]). eexists. split; reflexivity. Qed.

(** C137: so a command line never asks for a key with two attributes, nor for an encryption with two public
    keys (C73, C72). *)
Theorem C137_one_attribute :
  forall ws g, words Keygen ws = Some g -> length (attr_args (matches Keygen g)) <= 1.
Proof.
  intros ws g H. apply C137_accepted in H. destruct (keygen_single _ H) as [->|(a & ->)]; cbn; auto.
Qed.
Print Assumptions C137_one_attribute.

Theorem C137_one_public_key :
  forall ws g, words Encrypt ws = Some g -> exists f, enc_pk_files (matches Encrypt g) = [f].
Proof.
  intros ws g H. apply C137_accepted in H as (P & _ & S & _). unfold enc_pk_files, value_of.
  destruct (matches Encrypt g PK_FILE) as [vs|] eqn:M; [|now apply P in M; [|cbn; auto]].
  destruct (S _ _ M) as (v & ->); [cbn; intuition discriminate|]. eauto.
Qed.
Print Assumptions C137_one_public_key.

Example C137_one_example :
  words Keygen ["--a"; "A"; "--a"; "B"] = None /\ words Keygen ["--a"; "A"] <> None /\
  words Encrypt ["doc"; """A"""; "gp.key"; "pk1.key"] <> None.
Proof. repeat split; discriminate. Qed.

(** C137: the default names of key files are of no use where attributes are positional: who gives attributes to
    [encrypt] or to a request, or a policy or a name to [keygen], has named every file before. *)
Theorem C137_no_defaults :
  (forall ws g, words Encrypt ws = Some g -> g ATTRIBUTES <> None ->
   g POLICY <> None /\ g GP_FILE <> None /\ g PK_FILE <> None) /\
  (forall ws g k, words Keygen ws = Some g -> k = POLICY \/ k = NAME -> g k <> None ->
   g GP_FILE <> None /\ g MSK_FILE <> None /\ g PK_FILE <> None /\ g SK_FILE <> None /\ g AU_SK_FILE <> None) /\
  (forall ws g, words ReqAttrPk ws = Some g -> g ATTRIBUTES <> None ->
   g PK_FILE <> None /\ g AU_SK_FILE <> None /\ g PKA_FILE <> None) /\
  (forall ws g, words ReqAttrSk ws = Some g -> g ATTRIBUTES <> None ->
   g SK_FILE <> None /\ g SKA_FILE <> None /\ g AU_SK_FILE <> None) /\
  (forall ws g, words Delegate ws = Some g -> g ATTRIBUTES <> None -> g SK_FILE <> None /\ g PK_FILE <> None).
Proof.
  repeat apply conj.
  - intros ws g W A. pose proof (words_gapless _ _ _ W) as G. repeat apply conj;
      [eapply (G 1 4)|eapply (G 2 4)|eapply (G 3 4)]; cbn; eauto; auto with arith.
  - intros ws g k W K A. pose proof (words_gapless _ _ _ W) as G. destruct K as [-> | ->]; repeat apply conj.
    1-5: [> eapply (G 0 5)|eapply (G 1 5)|eapply (G 2 5)|eapply (G 3 5)|eapply (G 4 5)]; cbn; eauto; auto with arith.
    all: [> eapply (G 0 6)|eapply (G 1 6)|eapply (G 2 6)|eapply (G 3 6)|eapply (G 4 6)]; cbn; eauto; auto with arith.
  - intros ws g W A. pose proof (words_gapless _ _ _ W) as G. repeat apply conj;
      [eapply (G 0 3)|eapply (G 1 3)|eapply (G 2 3)]; cbn; eauto; auto with arith.
  - intros ws g W A. pose proof (words_gapless _ _ _ W) as G. repeat apply conj;
      [eapply (G 0 3)|eapply (G 1 3)|eapply (G 2 3)]; cbn; eauto; auto with arith.
  - intros ws g W A. pose proof (words_gapless _ _ _ W) as G. repeat apply conj;
      [eapply (G 0 2)|eapply (G 1 2)]; cbn; eauto; auto with arith.
Qed.
Print Assumptions C137_no_defaults.

(** An encryption for the attributes A and B, as one would type it, has no attributes: "A" is read as the policy
    and "B" as the file of global parameters. *)
Example C137_no_defaults_example :
  exists g, words Encrypt ["doc"; "A"; "B"] = Some g /\ g ATTRIBUTES = None /\
  g POLICY = Some ["A"] /\ g GP_FILE = Some ["B"].
Proof. eexists. split; [reflexivity|]. repeat split. Qed.

(** C137: a set-up, a key, an encryption and a decryption with AC17 (ciphertext policy) and the default files:
    the last call ends with an error if the attribute does not satisfy the policy, and with a panic if it does
    and the document is not empty (C68). *)
Theorem C137_session :
  forall (C : crypto), laws C -> forall (E : env C), env_ok E -> forall place fe pest debug T,
  let prog := program E place fe pest debug T in
  forall ts tk te td n1 n2 n3 n4 x l file policy f data d d1 d2 d3 o1 o2 o3,
  prog ts n1 ["--s"; "AC17CP"; "setup"] d = Some (o1, (d1, 0)) ->
  prog tk n2 ["--s"; "AC17CP"; "keygen"; "--a"; x] d1 = Some (o2, (d2, 0)) ->
  prog te n3 ["--s"; "AC17CP"; "--l"; l; "encrypt"; file; policy] d2 = Some (o3, (d3, 0)) ->
  dashed (file ++ ".ct") = false -> dashed policy = false ->
  ~ In file [""; "msk.key"; "pk.key"; "sk.key"] ->
  Forall (readable d) ["msk.key"; "pk.key"; "sk.key"; file ++ ".ct"] ->
  fs_open d file = Some data ->
  valid x -> Forall valid (names f) -> valid policy ->
  parse policy (lang_of (Some l)) = Ok (tree f) -> String.length n3 = 12 ->
  binary_and f = true -> NoDup (names f) ->
  exists o4, prog td n4 ["--s"; "AC17CP"; "decrypt"; file ++ ".ct"] d3 =
    Some (o4, (d3, if sat (owns [x]) f then (if seqb data "" then 0 else 101) else 1)).
Proof. exact @session. Qed.
Print Assumptions C137_session.

(** ** The calls of rabe-console/README.md *)

Definition r_setup := ["--s"; "AC17CP"; "setup"].
Definition r_keygen := ["--s"; "AC17CP"; "keygen"; "--a"; "A and B"].
Definition r_human := ["--s"; "AC17CP"; "--l"; "HUMAN"; "encrypt"; "message.txt"; """A"" and ""B"""].
Definition r_json := ["--s"; "AC17CP"; "--l"; "JSON"; "encrypt"; "message.txt";
  "{""name"":""and"",""children"":[{""name"":""B""},{""name"":""A""}]}"].
Definition r_decrypt := ["--s"; "AC17CP"; "decrypt"; "message.txt.ct"].

(** C137: the key of the README has one attribute, "A and B". *)
Theorem C137_readme_key :
  exists g, command_line r_keygen = Some ("AC17CP", None, Some ("keygen", g)) /\
  attr_args (matches Keygen g) = ["A and B"].
Proof. eexists. split; reflexivity. Qed.
Print Assumptions C137_readme_key.

(** C137: after the first three calls of the README the fourth ends with exit status 1 and changes no file. *)
Theorem C137_readme :
  forall (C : crypto), laws C -> forall (E : env C), env_ok E -> forall place fe pest debug T,
  let prog := program E place fe pest debug T in
  forall ts tk te td n1 n2 n3 n4 encrypt data d d1 d2 d3 o1 o2 o3,
  prog ts n1 r_setup d = Some (o1, (d1, 0)) -> prog tk n2 r_keygen d1 = Some (o2, (d2, 0)) ->
  encrypt = r_human \/ encrypt = r_json -> prog te n3 encrypt d2 = Some (o3, (d3, 0)) ->
  Forall (readable d) ["msk.key"; "pk.key"; "sk.key"; "message.txt.ct"] ->
  fs_open d "message.txt" = Some data -> String.length n3 = 12 ->
  exists o4, prog td n4 r_decrypt d3 = Some (o4, (d3, 1)).
Proof.
  intros C L E OK place fe pest debug T prog ts tk te td n1 n2 n3 n4 encrypt data d d1 d2 d3 o1 o2 o3 H1 H2 HE H3 RD FO NL.
  assert (V : valid "A and B" /\ valid "A" /\ valid "B") by (repeat split; reflexivity).
  destruct HE as [-> | ->].
  - refine (C137_session C L E OK place fe pest debug T ts tk te td n1 n2 n3 n4 "A and B" "HUMAN" "message.txt"
      """A"" and ""B""" (FAnd [FLeaf "A" 2; FLeaf "B" 10]) data d d1 d2 d3 o1 o2 o3 H1 H2 H3 eq_refl eq_refl
      _ RD FO (proj1 V) _ _ _ NL eq_refl _).
    + cbn. intuition discriminate.
    + repeat constructor; apply V.
    + reflexivity.
    + vm_compute. reflexivity.
    + repeat constructor; cbn; intuition discriminate.
  - refine (C137_session C L E OK place fe pest debug T ts tk te td n1 n2 n3 n4 "A and B" "JSON" "message.txt"
      "{""name"":""and"",""children"":[{""name"":""B""},{""name"":""A""}]}" (FAnd [FLeaf "B" 36; FLeaf "A" 49])
      data d d1 d2 d3 o1 o2 o3 H1 H2 H3 eq_refl eq_refl _ RD FO (proj1 V) _ _ _ NL eq_refl _).
    + cbn. intuition discriminate.
    + repeat constructor; apply V.
    + reflexivity.
    + vm_compute. reflexivity.
    + repeat constructor; cbn; intuition discriminate.
Qed.
Print Assumptions C137_readme.

(** C137 is false: there is such a session, on a disk with the document. *)
Definition message : fs :=
  Fs (fun p => if seqb p "message.txt" then Some (File "hello" true) else None) (fun p => negb (seqb p "")).
Definition zprogram (t : nat -> F ZC) (ws : list string) (d : fs) : option (string * (fs * nat)) :=
  program zenv (fun _ _ => AtPos (1, 1)) NotMember (fun _ _ => "?") (fun s => s)
    (CrateTexts (fun _ => "hex") (fun _ => "inflate") (fun _ => "slice")) t nc ws d.
Definition files_of (r : option (string * (fs * nat))) : fs := match r with Some (_, (d, _)) => d | None => message end.
Definition status_of (r : option (string * (fs * nat))) : option nat := match r with Some (_, (_, n)) => Some n | None => None end.
Lemma ran r n : status_of r = Some n -> exists o, r = Some (o, (files_of r, n)).
Proof. destruct r as [[o [d m]]|]; cbn; [|discriminate]. intros H. injection H as <-. eauto. Qed.

Theorem C137_readme_refuted :
  exists d1 d2 d3 o1 o2 o3 o4,
  zprogram (ztape 3) r_setup message = Some (o1, (d1, 0)) /\ zprogram (ztape 4) r_keygen d1 = Some (o2, (d2, 0)) /\
  zprogram (ztape 5) r_human d2 = Some (o3, (d3, 0)) /\ fs_open message "message.txt" = Some "hello" /\
  zprogram (ztape 6) r_decrypt d3 = Some (o4, (d3, 1)).
Proof.
  destruct (ran (zprogram (ztape 3) r_setup message) 0) as (o1 & H1); [vm_compute; reflexivity|].
  destruct (ran (zprogram (ztape 4) r_keygen (files_of (zprogram (ztape 3) r_setup message))) 0) as (o2 & H2);
    [vm_compute; reflexivity|].
  destruct (ran (zprogram (ztape 5) r_human (files_of (zprogram (ztape 4) r_keygen (files_of (zprogram (ztape 3) r_setup message))))) 0)
    as (o3 & H3); [vm_compute; reflexivity|].
  destruct (C137_readme ZC ZL zenv zenv_ok _ _ _ _ _ (ztape 3) (ztape 4) (ztape 5) (ztape 6) nc nc nc nc r_human "hello"
    _ _ _ _ _ _ _ H1 H2 (or_introl eq_refl) H3) as (o4 & H4).
  - repeat constructor; intros f; cbn; discriminate.
  - reflexivity.
  - reflexivity.
  - do 3 eexists. exists o1, o2, o3, o4. split; [exact H1|]. split; [exact H2|]. split; [exact H3|].
    split; [reflexivity|]. exact H4.
Qed.
Print Assumptions C137_readme_refuted.
