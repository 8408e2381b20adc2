(** * PropertiesSerialize: C95: which policies survive the serialiser

    [erase f] (ParseText.v) is the policy [f] with all columns set to 0;
    [quotable] (Layout.v) says that a text can stand between quotes. *)
From Coq Require Import String Ascii List Bool Arith.
From Verif Require Import Base Policy Spec Grammar Parse ParseProofs ParseText ParseHuman Layout SerializeExact.
Import ListNotations.
Local Open Scope string_scope.

(** C95, JSON: read back as the same policy exactly when the names are quotable. *)
Theorem C95_json_back :
  forall f : formula,
  exists txt : string, serialize_policy (tree f) JsonPolicy None = Ok txt /\
    ((exists g, parse txt JsonPolicy = Ok (tree g) /\ erase g = erase f) <-> Forall quotable (names f)).
Proof. exact json_back. Qed.
Print Assumptions C95_json_back.

(** Every policy that was accepted, in either language, has quotable names ... *)
Theorem C95_accepted_names :
  forall (pol : string) (lang : language) (f : formula),
  parse pol lang = Ok (tree f) -> Forall quotable (names f).
Proof. exact accepted_names. Qed.
Print Assumptions C95_accepted_names.

(** ... so it can be translated to JSON; a second translation changes nothing. *)
Theorem C95_to_json :
  forall (pol : string) (lang : language) (f : formula),
  parse pol lang = Ok (tree f) ->
  exists (txt : string) (g : formula),
    serialize_policy (tree f) JsonPolicy None = Ok txt /\ parse txt JsonPolicy = Ok (tree g) /\
    (forall own, sat own g = sat own f) /\ names g = names f /\
    serialize_policy (tree g) JsonPolicy None = Ok txt.
Proof. exact to_json. Qed.
Print Assumptions C95_to_json.

(** The translation gives every leaf a column of its own, also where the original
    text did not (C09). *)
Theorem C95_to_json_distinct :
  forall (pol : string) (lang : language) (f : formula) (txt : string) (g : formula),
  parse pol lang = Ok (tree f) -> Forall one_line (names f) ->
  serialize_policy (tree f) JsonPolicy None = Ok txt -> parse txt JsonPolicy = Ok (tree g) ->
  NoDup (leaves g) /\ names g = names f.
Proof. exact to_json_distinct. Qed.
Print Assumptions C95_to_json_distinct.

(** C95, the human language: never, for no policy whatever its names. *)
Theorem C95_human_never_back :
  forall f : formula,
  exists txt : string, serialize_policy (tree f) HumanPolicy None = Ok txt /\
    forall g, parse txt HumanPolicy = Ok (tree g) -> erase g <> erase f.
Proof. exact human_never_back. Qed.
Print Assumptions C95_human_never_back.

(** An accepted policy is not even read back as another one. *)
Theorem C95_to_human :
  forall (pol : string) (lang : language) (f : formula),
  parse pol lang = Ok (tree f) ->
  exists txt : string, serialize_policy (tree f) HumanPolicy None = Ok txt /\
    (parse txt HumanPolicy = Err \/ parse txt HumanPolicy = Panic).
Proof. exact to_human. Qed.
Print Assumptions C95_to_human.

(** The policies that have a text. *)
Theorem C95_json_writable :
  forall f : formula,
  (exists pol g, parse pol JsonPolicy = Ok (tree g) /\ erase g = erase f) <-> Forall quotable (names f).
Proof. exact json_writable. Qed.
Print Assumptions C95_json_writable.

Theorem C95_human_writable :
  forall f : formula,
  (exists pol g, parse pol HumanPolicy = Ok (tree g) /\ erase g = erase f) <->
  arity2 f = true /\ Forall quotable (names f).
Proof. exact human_writable. Qed.
Print Assumptions C95_human_writable.

(** The writer with quotes (C04) is complete. *)
Theorem C95_human_back :
  forall f : formula, arity2 f = true ->
  (exists g, parse (human_text f) HumanPolicy = Ok (tree g) /\ erase g = erase f) <-> Forall quotable (names f).
Proof. exact human_back. Qed.
Print Assumptions C95_human_back.

(** Without the condition on names, the JSON serialiser writes another policy:
    the single name of [f] is read as two names. *)
Definition two_in_one : string := "A" ++ dquote ++ "}, {" ++ dquote ++ "name" ++ dquote ++ ": " ++ dquote ++ "B".

Theorem C95_json_injection_refuted :
  exists (f : formula) (txt : string) (g : formula) (own : string -> bool),
    serialize_policy (tree f) JsonPolicy None = Ok txt /\ parse txt JsonPolicy = Ok (tree g) /\
    sat own f = false /\ sat own g = true.
Proof.
  exists (FAnd [FLeaf two_in_one 0]). eexists. exists (FAnd [FLeaf "A" 40; FLeaf "B" 55]).
  exists (fun n => orb (String.eqb n "A") (String.eqb n "B")). split; [reflexivity|]. split; [vm_compute; reflexivity|].
  split; reflexivity.
Qed.
Print Assumptions C95_json_injection_refuted.

(** A name with an escape and a blank, a node with one child and one without. *)
Definition kept : formula := FOr [FLeaf ("x " ++ String backslash dquote) 3; FAnd [FLeaf "12" 3]; FAnd []].

Example C95_example :
  Forall quotable (names kept) /\ Forall one_line (names kept) /\
  (exists txt, serialize_policy (tree kept) JsonPolicy None = Ok txt /\
     parse txt JsonPolicy = Ok (tree (FOr [FLeaf ("x " ++ String backslash dquote) 39; FAnd [FLeaf "12" 86]; FAnd []]))).
Proof.
  split; [|split].
  - constructor; [|constructor; [|constructor]].
    + do 2 (constructor; [reflexivity|]). apply quotable_escape; [reflexivity|constructor].
    + do 2 (constructor; [reflexivity|]). constructor.
  - repeat constructor; discriminate.
  - eexists. split; [reflexivity|]. vm_compute. reflexivity.
Qed.

(** Two attributes at the same column, then translated. *)
Example C95_example_distinct :
  parse (dquote ++ "A" ++ dquote ++ String (ascii_of_nat 10) "or" ++ String (ascii_of_nat 10) dquote ++ "A" ++ dquote) HumanPolicy =
    Ok (tree (FOr [FLeaf "A" 2; FLeaf "A" 2])) /\
  (exists txt, serialize_policy (tree (FOr [FLeaf "A" 2; FLeaf "A" 2])) JsonPolicy None = Ok txt /\
     parse txt JsonPolicy = Ok (tree (FOr [FLeaf "A" 39; FLeaf "A" 54]))).
Proof. split; [vm_compute; reflexivity|]. eexists. split; [reflexivity|vm_compute; reflexivity]. Qed.

(** Both outcomes of C95_to_human. *)
Example C95_example_human :
  parse (dquote ++ "A" ++ dquote) HumanPolicy = Ok (tree (FLeaf "A" 2)) /\
  serialize_policy (tree (FLeaf "A" 2)) HumanPolicy None = Ok "A" /\ parse "A" HumanPolicy = Err /\
  parse (dquote ++ "12" ++ dquote) HumanPolicy = Ok (tree (FLeaf "12" 2)) /\
  serialize_policy (tree (FLeaf "12" 2)) HumanPolicy None = Ok "12" /\ parse "12" HumanPolicy = Panic.
Proof. repeat split; vm_compute; reflexivity. Qed.
