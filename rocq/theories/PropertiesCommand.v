(** * PropertiesCommand: C106 and C107

    What a console command depends on, and the default values of its arguments.
    Every statement is written out in full; the proofs are in DependProofs.v. *)
From Coq Require Import String Ascii List Bool Arith NArith ZArith.
From Verif Require Import Base Crypto Policy Files Instance Witnesses Borsh Console ConsoleProofs ConsoleFiles
  ConsoleWitnesses CommandLine DependProofs Utf8Proofs WordProofs.
Import ListNotations.
Local Open Scope string_scope.

(** C106. The result and the written bytes depend on the files of [inputs] and on
    which outputs may be created, and on nothing else in the file system. *)
Theorem C106_depends :
  forall (C : crypto) (W : env C) (t : nat -> F C) (nonce text : string) (c : command) (m : args)
    (s : scheme) (lang : language) (d1 d2 : fs),
  alike (inputs c s m) (outputs c m) d1 d2 ->
  same_effect d1 d2 (run W t nonce text c m s lang d1) (run W t nonce text c m s lang d2).
Proof. exact @run_depends. Qed.
Print Assumptions C106_depends.

(** A further file changes nothing. *)
Definition clutter (d : fs) : fs :=
  Fs (fun p => if seqb p "other" then Some (File "x" true) else fs_files d p) (fs_may_create d).
Example C106_example_depends :
  alike (inputs Keygen BSW (args_of l_keygen)) (outputs Keygen (args_of l_keygen))
    (after_setup BSW l_setup) (clutter (after_setup BSW l_setup)) /\
  fs_files (after_setup BSW l_setup) "other" <> fs_files (clutter (after_setup BSW l_setup)) "other" /\
  snd (run zenv (ztape 4) "" "" Keygen (args_of l_keygen) BSW HumanPolicy (after_setup BSW l_setup)) = Ok tt.
Proof.
  split; [|split; [vm_compute; discriminate|vm_compute; reflexivity]].
  split; [|reflexivity]. intros p I. unfold fs_open, clutter. cbn [fs_files].
  replace (seqb p "other") with false; [reflexivity|]. cbn in I.
  destruct I as [<-|[<-|[]]]; reflexivity.
Qed.

(** C106. These files are named on the command line, with three exceptions: the
    authority key of a BDABE user, the public key in AC17 key-policy, BDABE and
    MKE08 encryption, and the target of decryption. *)
Theorem C106_named :
  forall (c : command) (s : scheme) (m : args) (p : string),
  clap_ok c m -> In p (inputs c s m) ->
  named m p \/ (c = Keygen /\ s = BDABE /\ p = "ska.key") \/
  (c = Encrypt /\ (s = AC17KP \/ s = BDABE \/ s = MKE08) /\ p = "") \/
  (c = Decrypt /\ p = pop (pop (pop (text_arg m FILE)))).
Proof. exact inputs_named. Qed.
Print Assumptions C106_named.

Example C106_example_named : clap_ok Keygen (args_of l_keygen) /\
  In "msk.key" (inputs Keygen AC17CP (args_of l_keygen)).
Proof. split; [apply clap_checked; vm_compute; reflexivity|]. cbn. auto. Qed.

(** C106. BDABE key generation never succeeds without [ska.key], whatever authority
    key file the command line names. *)
Theorem C106_bdabe_needs :
  forall (C : crypto) (W : env C) (t : nat -> F C) (nonce text : string) (m : args) (lang : language) (d : fs),
  clap_ok Keygen m -> fs_open d "ska.key" = None ->
  snd (run W t nonce text Keygen m BDABE lang d) <> Ok tt.
Proof. exact @bd_keygen_needs. Qed.
Print Assumptions C106_bdabe_needs.

(** The named files do not decide the outcome: the same command line, the same
    named files, a user key on one file system and a failure on the other. *)
Theorem C106_named_suffice_refuted :
  exists (m : args) (d1 d2 : fs),
  clap_ok Keygen m /\
  (forall p, named m p -> fs_open d1 p = fs_open d2 p) /\
  (forall p, fs_may_create d1 p = fs_may_create d2 p) /\
  snd (run zenv (ztape 5) "" "" Keygen m BDABE HumanPolicy d1) = Ok tt /\
  snd (run zenv (ztape 5) "" "" Keygen m BDABE HumanPolicy d2) <> Ok tt.
Proof.
  exists (args_of l_user), bd_authority, (after_setup BDABE l_setup).
  split; [apply clap_checked; vm_compute; reflexivity|]. split; [|split; [|split]].
  - intros p (k & l & M & I). apply args_of_In in M. cbn in M.
    repeat (destruct M as [M|M]; [injection M as <- <-; destruct I as [<-|[]]; vm_compute; reflexivity|]). contradiction.
  - intros p. vm_compute. reflexivity.
  - vm_compute. reflexivity.
  - apply bd_keygen_needs; [apply clap_checked; vm_compute; reflexivity|vm_compute; reflexivity].
Qed.
Print Assumptions C106_named_suffice_refuted.

(** C106. The target of decryption: [pop] removes one character of the document
    name, whatever its length in bytes; for a name that encryption makes, three
    times [pop] gives the document. *)
Theorem C106_last_character :
  forall (x : string) (n : N), scalar n -> pop (x ++ encode n) = x.
Proof. exact pop_last. Qed.
Print Assumptions C106_last_character.

Theorem C106_target : forall doc : string, pop (pop (pop (doc ++ ".ct"))) = doc.
Proof. exact pop_ct. Qed.
Print Assumptions C106_target.

Example C106_example_target : scalar 8364 /\ pop ("a" ++ encode 8364) = "a" /\ String.length (encode 8364) = 3%nat /\
  pop (pop (pop "doc.ct")) = "doc" /\ pop "" = "".
Proof. split; [left; reflexivity|]. repeat split. Qed.

(** C107. A command line with the declared arguments is accepted and the missing
    ones get their default; given ones are kept. *)
Theorem C107_accepted :
  forall (c : command) (given : args), line_ok c given -> clap_ok c (matches c given).
Proof. exact line_accepted. Qed.
Print Assumptions C107_accepted.

Theorem C107_kept :
  forall (c : command) (m : args), clap_ok c m -> line_ok c m /\ (forall k, matches c m k = m k).
Proof. exact accepted_line. Qed.
Print Assumptions C107_kept.

(** Key generation with attributes only. *)
Definition g_keygen := args_of [(ATTRIBUTES, ["A"])].
Lemma g_keygen_ok : line_ok Keygen g_keygen /\ bare g_keygen.
Proof.
  unfold line_ok, bare, g_keygen. cbn [args_of].
  assert (X : forall k vs, (if seqb k ATTRIBUTES then Some ["A"] else None) = Some vs -> vs = ["A"])
    by (intros k vs; destruct (seqb k ATTRIBUTES); [intros H; now injection H as <-|discriminate]).
  split; [repeat split|].
  - intros k _ N. unfold seqb. destruct (String.eqb_spec k ATTRIBUTES) as [->|]; [|reflexivity].
    exfalso. apply N. cbn. auto.
  - intros k vs H _. exists "A". exact (X k vs H).
  - intros k vs H. rewrite (X k vs H). discriminate.
  - intros [H|H]; discriminate H.
  - intros k I. cbn in I. repeat (destruct I as [<-|I]; [reflexivity|]). contradiction.
Qed.
Example C107_example_accepted :
  line_ok Keygen g_keygen /\ clap_ok Keygen (matches Keygen g_keygen) /\
  matches Keygen g_keygen "sk" = Some ["sk.key"] /\ matches Keygen g_keygen "a" = Some ["A"].
Proof. repeat (split; [apply g_keygen_ok || (apply line_accepted; apply g_keygen_ok) || reflexivity|]). reflexivity. Qed.

(** C107. Without file arguments these are the files that are read and written. *)
Theorem C107_default_files :
  forall (C : crypto) (W : env C) (c : command) (s : scheme) (given : args),
  line_ok c given -> bare given ->
  inputs c s (matches c given) = bare_inputs c s (document given) /\
  map k_path (kinds W c s (matches c given)) = bare_outputs c s (document given) (owner given).
Proof. exact @bare_files. Qed.
Print Assumptions C107_default_files.

(** C107. For AC17 ciphertext-policy, BSW, LSW and YCT14 every key file read by
    default was written by default. *)
Theorem C107_defaults_fit :
  forall (C : crypto) (W : env C) (s : scheme) (c : command) (gs gk g : args) (p : string),
  In s [AC17CP; BSW; LSW; YCT14] -> In c [Keygen; Encrypt; Decrypt] ->
  line_ok Setup gs -> bare gs -> line_ok Keygen gk -> bare gk -> line_ok c g -> bare g ->
  In p (inputs c s (matches c g)) ->
  In p [document g; pop (pop (pop (document g)))] \/ In p (written W s [(Setup, gs); (Keygen, gk)]).
Proof. exact @defaults_fit. Qed.
Print Assumptions C107_defaults_fit.

(** C107. For the other four it was not. *)
Theorem C107_defaults_unfit :
  forall (C : crypto) (W : env C) (gs ga gk g r : args),
  line_ok Setup gs -> bare gs -> line_ok Authgen ga -> bare ga -> line_ok Keygen gk -> bare gk ->
  line_ok Encrypt g -> bare g -> line_ok ReqAttrPk r -> bare r ->
  (In "" (inputs Encrypt AC17KP (matches Encrypt g)) /\ ~ In "" (written W AC17KP [(Setup, gs); (Keygen, gk)])) /\
  (In "gp.key" (inputs Authgen AW11 (matches Authgen ga)) /\ ~ In "gp.key" (written W AW11 [(Setup, gs)])) /\
  (In "ska.key" (inputs Keygen BDABE (matches Keygen gk)) /\
   In "skau.key" (inputs ReqAttrPk BDABE (matches ReqAttrPk r)) /\
   ~ (In "ska.key" (written W BDABE [(Setup, gs); (Authgen, ga)]) /\
      In "skau.key" (written W BDABE [(Setup, gs); (Authgen, ga)]))) /\
  (In "" (inputs Encrypt MKE08 (matches Encrypt g)) /\ ~ In "" (written W MKE08 [(Setup, gs)])).
Proof. exact @defaults_unfit. Qed.
Print Assumptions C107_defaults_unfit.

(** Lines of every kind. *)
Definition g_setup := args_of [].
Definition g_auth := args_of [(NAME, ["n"]); (ATTRIBUTES, ["A"; "B"])].
Definition g_doc := args_of [(FILE, ["doc"])].
Definition line_check (c : command) (l : list (string * list string)) : bool :=
  forallb (fun kv => existsb (seqb (fst kv)) (present c ++ optional c)%list &&
                     match snd kv with
                     | [] => false
                     | [_] => true
                     | _ => existsb (seqb (fst kv)) (multiple c)
                     end) l &&
  match c with Encrypt | Decrypt => match args_of l FILE with Some _ => true | None => false end | _ => true end.
Lemma line_checked c l : line_check c l = true -> line_ok c (args_of l).
Proof.
  unfold line_check. rewrite andb_true_iff, forallb_forall. intros [B D].
  assert (B' : forall k v, args_of l k = Some v ->
    (In k (present c) \/ In k (optional c)) /\
    match v with [] => False | [_] => True | _ => In k (multiple c) end).
  { intros k v H. apply args_of_In in H. specialize (B _ H). cbn [fst snd] in B.
    apply andb_prop in B as [B1 B2]. apply existsb_seqb, in_app_or in B1. split; [exact B1|].
    destruct v as [|x [|y v]]; [discriminate | exact I | now apply existsb_seqb]. }
  repeat split.
  - intros k N1 N2. destruct (args_of l k) as [v|] eqn:X; [|reflexivity]. destruct (B' _ _ X) as [[|] _]; tauto.
  - intros k vs H N. destruct (B' _ _ H) as [_ K]. destruct vs as [|x [|y vs]]; [tauto | eauto | tauto].
  - intros k vs H ->. now destruct (B' _ _ H).
  - intros [-> | ->]; destruct (args_of l FILE); discriminate.
Qed.
Example C107_example_lines :
  (line_ok Setup g_setup /\ bare g_setup) /\ (line_ok Authgen g_auth /\ bare g_auth) /\
  (line_ok Encrypt g_doc /\ bare g_doc) /\ (line_ok ReqAttrPk g_keygen /\ bare g_keygen) /\
  bare_inputs Encrypt BSW (document g_doc) = ["doc"; "pk.key"] /\ owner g_auth = "n.key".
Proof.
  assert (B : forall l, forallb (fun k => match args_of l k with None => true | _ => false end)
      ["gp"; "msk"; "pk"; "sk"; "ska"; "pka"; "skau"] = true -> bare (args_of l)).
  { intros l H k I. rewrite forallb_forall in H. specialize (H k I). destruct (args_of l k); [discriminate|reflexivity]. }
  refine (conj (conj _ _) (conj (conj _ _) (conj (conj _ _) (conj (conj _ _) (conj eq_refl eq_refl)))));
    try (apply line_checked; reflexivity); apply B; reflexivity.
Qed.

(** The defaults do not fit for every scheme. *)
Theorem C107_defaults_fit_refuted :
  exists (s : scheme) (gs g : args),
  line_ok Setup gs /\ bare gs /\ line_ok Authgen g /\ bare g /\
  exists p, In p (inputs Authgen s (matches Authgen g)) /\ ~ In p (written zenv s [(Setup, gs)]).
Proof.
  destruct C107_example_lines as ((Ls & Bs) & (La & Ba) & (Le & Be) & (Lr & Br) & _).
  exists AW11, g_setup, g_auth. refine (conj Ls (conj Bs (conj La (conj Ba _)))).
  exists "gp.key". destruct (defaults_unfit zenv g_setup g_auth g_keygen g_doc g_keygen) as (_ & H & _);
    auto; apply g_keygen_ok.
Qed.
Print Assumptions C107_defaults_fit_refuted.

(** C107. Every scheme has one name; the language is JSON when that is asked for;
    every command has one name. *)
Theorem C107_names :
  (forall s : scheme, exists n, In n scheme_names /\ scheme_of n = s /\
     forall n', In n' scheme_names -> scheme_of n' = s -> n' = n) /\
  (forall l : option string, lang_of l = JsonPolicy <-> l = Some "JSON") /\
  (forall (n : string) (c : command), command_of n = Some c <-> n = command_name c).
Proof. exact (conj scheme_of_names (conj lang_of_names command_of_names)). Qed.
Print Assumptions C107_names.

Example C107_example_names : scheme_of "LSW" = LSW /\ command_of "req-attr-sk" = Some ReqAttrSk /\
  command_of "list-attrs" = None.
Proof. repeat split. Qed.

(** C107. The program runs the command it names on the completed arguments; without
    one it does nothing. *)
Theorem C107_dispatch :
  forall (C : crypto) (W : env C) (t : nat -> F C) (nonce text s : string) (l : option string)
    (c : command) (given : args) (d : fs),
  app W t nonce text (Some s) l (Some (command_name c, given)) d =
  run W t nonce text c (matches c given) (scheme_of s) (lang_of l) d.
Proof. exact @app_runs. Qed.
Print Assumptions C107_dispatch.

Theorem C107_idle :
  forall (C : crypto) (W : env C) (t : nat -> F C) (nonce text s : string) (l : option string)
    (sub : option (string * args)) (d : fs),
  (forall c given, sub <> Some (command_name c, given)) ->
  app W t nonce text (Some s) l sub d = (d, Ok tt).
Proof. exact @app_idle. Qed.
Print Assumptions C107_idle.

Example C107_example_idle : forall c given, Some ("list-attrs", g_setup) <> Some (command_name c, given).
Proof. intros [] given; discriminate. Qed.

(** C107. Exit status 1 means that no file was touched. *)
Theorem C107_status :
  forall (C : crypto) (W : env C) (t : nat -> F C) (nonce text : string) (s l : option string)
    (sub : option (string * args)) (d d' : fs) (r : outcome unit),
  app W t nonce text s l sub d = (d', r) -> status r = 1 -> d' = d.
Proof. exact @status_clean. Qed.
Print Assumptions C107_status.

(** C107. Exit status 0 needs a scheme. *)
Theorem C107_scheme_needed :
  forall (C : crypto) (W : env C) (t : nat -> F C) (nonce text : string) (s l : option string)
    (sub : option (string * args)) (d d' : fs) (r : outcome unit),
  app W t nonce text s l sub d = (d', r) -> status r = 0 -> exists n : string, s = Some n.
Proof. exact @app_scheme. Qed.
Print Assumptions C107_scheme_needed.

Example C107_example_status :
  status (snd (app zenv (ztape 3) "" "" (Some "BSW") None (Some ("setup", g_setup)) disk)) = 0 /\
  status (snd (app zenv (ztape 3) "" "" (Some "BSW") None (Some ("authgen", g_setup)) disk)) = 1.
Proof. split; vm_compute; reflexivity. Qed.
