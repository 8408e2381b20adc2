(** * PropertiesConsoleTraces: C141 *)
From Coq Require Import String Ascii List Bool Arith NArith ZArith Lia.
From Verif Require Import Base Crypto Policy Tools Sharing Spec Parse SchemeLib Files FilesProofs Instance Witnesses
  Borsh BorshProofs Console ConsoleProofs ConsoleWitnesses ConsoleTraces.
Import ListNotations.
Local Open Scope nat_scope.
Local Open Scope string_scope.

(** C141. Setup, other calls [l1], key generation, other calls [l2], encryption, other
    calls [l3]: the document comes back exactly if the attributes meet the policy. *)
Theorem C141_trace :
  forall (C : crypto) (L : laws C) (E : env C) (OK : env_ok E)
    (ts tk te : nat -> F C) (nonce text : string) (ms mk me md : args) (lang lang' : language)
    (d d1 a a' b b' z : fs) (l1 l2 l3 : list (command * args)) (data : string) (f : formula),
  let msk := file_arg ms MSK_FILE in let pk := file_arg ms PK_FILE in
  let sk := file_arg mk SK_FILE in let ct := enc_ct_file me in
  run_setup E ts ms AC17CP d = (d1, Ok tt) -> calls E l1 d1 a ->
  run_keygen E tk mk AC17CP lang' a = (a', Ok tt) -> calls E l2 a' b ->
  run_encrypt E te nonce text me AC17CP lang b = (b', Ok tt) -> calls E l3 b' z ->
  (* the calls of the session are given the same files *)
  file_arg mk MSK_FILE = msk -> enc_pk_files me = [pk] ->
  file_arg md SK_FILE = sk -> text_arg md FILE = ct ->
  NoDup [msk; pk; sk; ct] ->
  (* the other calls do not write the files that are still needed *)
  leave [msk; pk] l1 -> leave [pk; sk] l2 -> leave [sk; ct] l3 ->
  Forall (readable d) [msk; pk; sk; ct] ->
  fs_open b (text_arg me FILE) = Some data ->
  Forall valid (attr_args mk) -> valid (text_arg me POLICY) ->
  parse (text_arg me POLICY) lang = Ok (tree f) -> String.length nonce = 12 ->
  NoDup (names f) -> NoDup (attr_args mk) ->
  snd (open_file E md AC17CP z) = if sat (owns (attr_args mk)) f then Ok data else Err.
Proof. exact @cp_trace. Qed.
Print Assumptions C141_trace.

(** C141. The same for a key that is made after the encryption. *)
Theorem C141_late :
  forall (C : crypto) (L : laws C) (E : env C) (OK : env_ok E)
    (ts tk te : nat -> F C) (nonce text : string) (ms mk me md : args) (lang lang' : language)
    (d d1 a a' b b' z : fs) (l1 l2 l3 : list (command * args)) (data : string) (f : formula),
  let msk := file_arg ms MSK_FILE in let pk := file_arg ms PK_FILE in
  let sk := file_arg mk SK_FILE in let ct := enc_ct_file me in
  run_setup E ts ms AC17CP d = (d1, Ok tt) -> calls E l1 d1 b ->
  run_encrypt E te nonce text me AC17CP lang b = (b', Ok tt) -> calls E l2 b' a ->
  run_keygen E tk mk AC17CP lang' a = (a', Ok tt) -> calls E l3 a' z ->
  file_arg mk MSK_FILE = msk -> enc_pk_files me = [pk] ->
  file_arg md SK_FILE = sk -> text_arg md FILE = ct ->
  NoDup [msk; pk; sk; ct] ->
  leave [msk; pk] l1 -> leave [msk; ct] l2 -> leave [sk; ct] l3 ->
  Forall (readable d) [msk; pk; sk; ct] ->
  fs_open b (text_arg me FILE) = Some data ->
  Forall valid (attr_args mk) -> valid (text_arg me POLICY) ->
  parse (text_arg me POLICY) lang = Ok (tree f) -> String.length nonce = 12 ->
  NoDup (names f) -> NoDup (attr_args mk) ->
  snd (open_file E md AC17CP z) = if sat (owns (attr_args mk)) f then Ok data else Err.
Proof. exact @cp_trace_late. Qed.
Print Assumptions C141_late.

(** C141. No call makes a readable file unreadable. *)
Theorem C141_readable :
  forall (C : crypto) (E : env C) (p : string) (l : list (command * args)) (d d' : fs),
  calls E l d d' -> readable d p -> readable d' p.
Proof. exact @calls_keep. Qed.
Print Assumptions C141_readable.

(** *** A session with other calls *)

(** Another user's key; the same files set up again. *)
Definition l_other :=
  (files3 ++ [(SK_FILE, ["sk2.key"]); (AU_SK_FILE, ["skau.key"]); (ATTRIBUTES, ["B"])])%list.
Definition tr_other (d : fs) : fs := fst (run_keygen zenv (ztape 7) (args_of l_other) AC17CP HumanPolicy d).
Definition tr_again (d : fs) : fs := fst (run_setup zenv (ztape 11) (args_of l_setup) AC17CP d).
Definition tr_key (d : fs) : fs := fst (run_keygen zenv (ztape 4) (args_of l_keygen) AC17CP HumanPolicy d).
Definition tr_enc (d : fs) : fs := fst (run_encrypt zenv (ztape 5) nc "" (args_of l_encrypt) AC17CP HumanPolicy d).
Definition tr_1 := after_setup AC17CP l_setup.
Definition tr_a := tr_other tr_1.
Definition tr_a' := tr_key tr_a.
Definition tr_b := tr_other tr_a'.
Definition tr_b' := tr_enc tr_b.
Definition tr_z := tr_again tr_b'.

Lemma call_other d : calls zenv [(Keygen, args_of l_other)] d (tr_other d).
Proof.
  apply (calls_cons zenv (ztape 7) nc "" Keygen (args_of l_other) AC17CP HumanPolicy
    (snd (run_keygen zenv (ztape 7) (args_of l_other) AC17CP HumanPolicy d)) [] d (tr_other d) (tr_other d)).
  - apply surjective_pairing.
  - apply calls_nil.
Qed.
Lemma call_again d : calls zenv [(Setup, args_of l_setup)] d (tr_again d).
Proof.
  apply (calls_cons zenv (ztape 11) nc "" Setup (args_of l_setup) AC17CP HumanPolicy
    (snd (run_setup zenv (ztape 11) (args_of l_setup) AC17CP d)) [] d (tr_again d) (tr_again d)).
  - apply surjective_pairing.
  - apply calls_nil.
Qed.

(** Setup overwrites both master files after the encryption; the document still comes back. *)
Example C141_example : snd (open_file zenv (args_of l_decrypt) AC17CP tr_z) = Ok "hello".
Proof.
  rewrite (C141_trace ZC ZL zenv zenv_ok (ztape 3) (ztape 4) (ztape 5) nc "" (args_of l_setup) (args_of l_keygen)
    (args_of l_encrypt) (args_of l_decrypt) HumanPolicy HumanPolicy disk tr_1 tr_a tr_a' tr_b tr_b' tr_z
    [(Keygen, args_of l_other)] [(Keygen, args_of l_other)] [(Setup, args_of l_setup)] "hello"
    (FOr [FLeaf "A" 2; FLeaf "B" 9])).
  - vm_compute. reflexivity.
  - apply stepped; vm_compute; reflexivity.
  - apply call_other.
  - apply stepped; vm_compute; reflexivity.
  - apply call_other.
  - apply stepped; vm_compute; reflexivity.
  - apply call_again.
  - vm_compute. reflexivity.
  - vm_compute. reflexivity.
  - vm_compute. reflexivity.
  - vm_compute. reflexivity.
  - vm_compute. repeat constructor; cbn; intuition congruence.
  - intros c m p [H|[]] I. injection H as <- <-. revert I. vm_compute. intuition congruence.
  - intros c m p [H|[]] I. injection H as <- <-. revert I. vm_compute. intuition congruence.
  - intros c m p [H|[]] I. injection H as <- <-. revert I. vm_compute. intuition congruence.
  - repeat constructor; apply disk_readable.
  - vm_compute. reflexivity.
  - replace (attr_args (args_of l_keygen)) with ["A"] by (vm_compute; reflexivity). repeat constructor.
  - vm_compute. reflexivity.
  - vm_compute. reflexivity.
  - vm_compute. reflexivity.
  - vm_compute. repeat constructor; cbn; intuition congruence.
  - vm_compute. repeat constructor; cbn; intuition congruence.
Qed.

(** C141. Without the condition on [l2] it is false: setup between key generation and
    encryption leaves a key that does not open the document. *)
Theorem C141_needed :
  exists (ms mk me md : args) (d1 d2 d3 d4 : fs),
    clap_ok Setup ms /\ clap_ok Keygen mk /\ clap_ok Encrypt me /\ clap_ok Decrypt md /\
    run_setup zenv (ztape 3) ms AC17CP disk = (d1, Ok tt) /\
    run_keygen zenv (ztape 4) mk AC17CP HumanPolicy d1 = (d2, Ok tt) /\
    calls zenv [(Setup, ms)] d2 d3 /\
    run_encrypt zenv (ztape 5) nc "" me AC17CP HumanPolicy d3 = (d4, Ok tt) /\
    attr_args mk = ["A"] /\ text_arg me POLICY = """A"" or ""B""" /\
    snd (open_file zenv md AC17CP d4) = Err.
Proof.
  exists (args_of l_setup), (args_of l_keygen), (args_of l_encrypt), (args_of l_decrypt),
    tr_1, (tr_key tr_1), (tr_again (tr_key tr_1)), (tr_enc (tr_again (tr_key tr_1))).
  split; [apply clap_checked; vm_compute; reflexivity|].
  split; [apply clap_checked; vm_compute; reflexivity|].
  split; [apply clap_checked; vm_compute; reflexivity|].
  split; [apply clap_checked; vm_compute; reflexivity|].
  split; [apply stepped; vm_compute; reflexivity|].
  split; [apply stepped; vm_compute; reflexivity|].
  split; [apply call_again|].
  split; [apply stepped; vm_compute; reflexivity|].
  repeat split; vm_compute; reflexivity.
Qed.
Print Assumptions C141_needed.
