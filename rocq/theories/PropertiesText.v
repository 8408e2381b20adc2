(** * PropertiesText: C104, which bytes are a text

    Every statement is written out in full; the proofs are in Utf8Proofs.v. *)
From Coq Require Import String Ascii List NArith.
From Verif Require Import Base Files Utf8Proofs.
Import ListNotations.
Local Open Scope string_scope.

(** C104. The check accepts exactly the encodings of sequences of Unicode scalar values. *)
Theorem C104_utf8_exact :
  forall s : string, utf8 s = true <-> (exists l : list N, Forall scalar l /\ s = encode_all l).
Proof. exact utf8_exact. Qed.
Print Assumptions C104_utf8_exact.

(** C104. So these are the files that can be read as text; all others abort. *)
Theorem C104_read_exact :
  forall (d : fs) (path s : string),
  read_file d path = Ok s <->
  fs_open d path = Some s /\ (exists l : list N, Forall scalar l /\ s = encode_all l).
Proof. exact read_exact. Qed.
Print Assumptions C104_read_exact.

Theorem C104_read_aborts :
  forall (d : fs) (path : string), read_file d path <> Err.
Proof. exact read_never_err. Qed.
Print Assumptions C104_read_aborts.

(** One character of each length; a surrogate, an overlong form and a cut character. *)
Example C104_example :
  encode_all [65; 228; 8364; 128512]%N =
    String "A" (String "195" (String "164" (String "226" (String "130" (String "172"
      (String "240" (String "159" (String "152" (String "128" ""))))))))) /\
  utf8 (encode_all [65; 228; 8364; 128512]%N) = true /\
  utf8 (encode 55296) = false /\
  utf8 (String "192" (String "128" "")) = false /\
  utf8 (String "226" (String "130" "")) = false.
Proof. repeat split. Qed.
