(** * PropertiesWordsTraces: C144 *)
From Coq Require Import String Ascii List Bool Arith NArith ZArith Lia.
From Verif Require Import Base Crypto Policy Tools Sharing Spec Parse SchemeLib Files Instance Witnesses
  Borsh Errors Messages Console ConsoleProofs ConsoleWitnesses CommandLine ConsolePrints Words PropertiesWords
  ConsoleTraces WordsTraces.
Import ListNotations.
Local Open Scope nat_scope.
Local Open Scope string_scope.

(** C144. The steps of a session share only four files. Between the steps the file system
    may change in any way, by this tool or not, that keeps the ones still needed. *)
Theorem C144_files :
  forall (C : crypto) (L : laws C) (E : env C) (OK : env_ok E)
    (ts tk te : nat -> F C) (nonce text : string) (ms mk me md : args) (lang lang' : language)
    (d d1 a a' b b' z : fs) (data : string) (f : formula),
  let msk := file_arg ms MSK_FILE in let pk := file_arg ms PK_FILE in
  let sk := file_arg mk SK_FILE in let ct := enc_ct_file me in
  run_setup E ts ms AC17CP d = (d1, Ok tt) ->
  run_keygen E tk mk AC17CP lang' a = (a', Ok tt) ->
  run_encrypt E te nonce text me AC17CP lang b = (b', Ok tt) ->
  file_arg mk MSK_FILE = msk -> enc_pk_files me = [pk] ->
  file_arg md SK_FILE = sk -> text_arg md FILE = ct ->
  msk <> pk ->
  (* key generation finds the msk of setup, encryption its pk, decryption the key and the ciphertext *)
  same_at d1 a msk -> same_at d1 b pk -> same_at a' z sk -> same_at b' z ct ->
  readable d msk -> readable d pk -> readable a sk -> readable b ct ->
  fs_open b (text_arg me FILE) = Some data ->
  Forall valid (attr_args mk) -> valid (text_arg me POLICY) ->
  parse (text_arg me POLICY) lang = Ok (tree f) -> String.length nonce = 12 ->
  NoDup (names f) -> NoDup (attr_args mk) ->
  snd (open_file E md AC17CP z) = if sat (owns (attr_args mk)) f then Ok data else Err.
Proof. exact @cp_states. Qed.
Print Assumptions C144_files.

(** C144. The same for the four command lines of the README, by exit status and files. *)
Theorem C144_lines :
  forall (C : crypto) (L : laws C) (E : env C) (OK : env_ok E) place fe pest debug T,
  let prog := program E place fe pest debug T in
  forall (ts tk te td : nat -> F C) (n1 n2 n3 n4 x l file policy : string) (f : formula) (data : string)
    (d d1 a a' b b' z : fs) (o1 o2 o3 : string),
  prog ts n1 ["--s"; "AC17CP"; "setup"] d = Some (o1, (d1, 0)) ->
  prog tk n2 ["--s"; "AC17CP"; "keygen"; "--a"; x] a = Some (o2, (a', 0)) ->
  prog te n3 ["--s"; "AC17CP"; "--l"; l; "encrypt"; file; policy] b = Some (o3, (b', 0)) ->
  same_at d1 a "msk.key" -> same_at d1 b "pk.key" -> same_at a' z "sk.key" -> same_at b' z (file ++ ".ct") ->
  readable d "msk.key" -> readable d "pk.key" -> readable a "sk.key" -> readable b (file ++ ".ct") ->
  fs_open b file = Some data -> fs_open z file <> None ->
  (* the file and the policy do not look like options *)
  dashed (file ++ ".ct") = false -> dashed policy = false ->
  valid x -> valid policy ->
  parse policy (lang_of (Some l)) = Ok (tree f) -> String.length n3 = 12 -> NoDup (names f) ->
  exists o4, prog td n4 ["--s"; "AC17CP"; "decrypt"; file ++ ".ct"] z =
    Some (o4, (z, if sat (owns [x]) f then (if seqb data "" then 0 else 101) else 1)).
Proof.
  intros C L E OK place fe pest debug T prog ts tk te td n1 n2 n3 n4 x l file policy f data d d1 a a' b b' z o1 o2 o3.
  exact (program_states L E OK place fe pest debug T ts tk te td n1 n2 n3 n4 x l file policy f data d d1 a a' b b' z o1 o2 o3).
Qed.
Print Assumptions C144_lines.

(** *** The master key is deleted after key generation, the public key after encryption *)

Definition without (p : string) (d : fs) : fs :=
  Fs (fun q => if seqb q p then None else fs_files d q) (fs_may_create d).
Definition e_key := ["--s"; "AC17CP"; "keygen"; "--a"; "A"].
Definition e_enc := ["--s"; "AC17CP"; "--l"; "HUMAN"; "encrypt"; "message.txt"; """A"" or ""B"""].
Definition e_1 := files_of (zprogram (ztape 3) r_setup message).
Definition e_2 := files_of (zprogram (ztape 4) e_key e_1).
Definition e_3 := files_of (zprogram (ztape 5) e_enc (without "msk.key" e_2)).
Definition e_4 := without "pk.key" e_3.

Example C144_example :
  fs_open e_4 "msk.key" = None /\ fs_open e_4 "pk.key" = None /\
  exists o, zprogram (ztape 6) r_decrypt e_4 = Some (o, (e_4, 101)).
Proof.
  split; [vm_compute; reflexivity|]. split; [vm_compute; reflexivity|].
  destruct (ran (zprogram (ztape 3) r_setup message) 0) as (o1 & H1); [vm_compute; reflexivity|].
  destruct (ran (zprogram (ztape 4) e_key e_1) 0) as (o2 & H2); [vm_compute; reflexivity|].
  destruct (ran (zprogram (ztape 5) e_enc (without "msk.key" e_2)) 0) as (o3 & H3); [vm_compute; reflexivity|].
  fold e_1 in H1. fold e_2 in H2. fold e_3 in H3. unfold zprogram in *.
  assert (Q : forall p, readable message p) by (intros p h; cbn; destruct (seqb p "message.txt"); [|discriminate];
    intros X; injection X as <-; reflexivity).
  pose proof (C144_lines ZC ZL zenv zenv_ok (fun _ _ => AtPos (1, 1)) NotMember (fun _ _ => "?") (fun s => s)
    (CrateTexts (fun _ => "hex") (fun _ => "inflate") (fun _ => "slice"))
    (ztape 3) (ztape 4) (ztape 5) (ztape 6) nc nc nc nc "A" "HUMAN"
    "message.txt" """A"" or ""B""" (FOr [FLeaf "A" 2; FLeaf "B" 9]) "hello" message e_1 e_1 e_2 (without "msk.key" e_2)
    e_3 e_4 o1 o2 o3) as X. cbn zeta in X.
  change (sat (owns ["A"]) (FOr [FLeaf "A" 2; FLeaf "B" 9])) with true in X.
  change (seqb "hello" "") with false in X. cbn iota in X.
  change ("message.txt" ++ ".ct") with "message.txt.ct" in X.
  specialize (X H1 H2 H3).
  apply X; clear X H1 H2 H3.
  - reflexivity.
  - unfold same_at. vm_compute. reflexivity.
  - unfold same_at. vm_compute. reflexivity.
  - unfold same_at. vm_compute. reflexivity.
  - apply Q.
  - apply Q.
  - intros h. vm_compute. discriminate.
  - intros h. vm_compute. discriminate.
  - vm_compute. reflexivity.
  - vm_compute. discriminate.
  - reflexivity.
  - reflexivity.
  - reflexivity.
  - reflexivity.
  - vm_compute. reflexivity.
  - reflexivity.
  - repeat constructor; cbn; intuition discriminate.
Qed.
