(** * PropertiesLayout: the two policy languages, text by text (C91, C92)

    Layout.v says which texts are policies and what they mean, without
    reference to the parser.  The proofs are in LexProofs.v, LayoutProofs.v
    and JsonLayoutProofs.v. *)
From Coq Require Import String Ascii List Bool Arith Lia.
From Verif Require Import Base Policy Spec Peg Grammar Parse Layout LexProofs LayoutProofs JsonLayoutProofs.
Import ListNotations.
Local Open Scope string_scope.

(** C91: the outcome of the parser on every text. *)
Theorem C91_every_text :
  forall pol : string,
  (forall g w, human_layout pol g w ->
     parse pol HumanPolicy = if without_numbers w then Ok (tree (meaning (column_after g 1) w)) else Panic) /\
  ((forall g w, ~ human_layout pol g w) -> parse pol HumanPolicy = Err).
Proof. exact human_language. Qed.
Print Assumptions C91_every_text.

Theorem C91_accepted :
  forall (pol : string) (f : formula),
  parse pol HumanPolicy = Ok (tree f) <->
  exists g w, human_layout pol g w /\ without_numbers w = true /\ f = meaning (column_after g 1) w.
Proof. exact human_ok. Qed.
Print Assumptions C91_accepted.

Theorem C91_rejected :
  forall pol : string, parse pol HumanPolicy = Err <-> (forall g w, ~ human_layout pol g w).
Proof. exact human_rejected. Qed.
Print Assumptions C91_rejected.

Theorem C91_aborts :
  forall pol : string,
  parse pol HumanPolicy = Panic <-> exists g w, human_layout pol g w /\ without_numbers w = false.
Proof. exact human_panics. Qed.
Print Assumptions C91_aborts.

Theorem C91_one_meaning :
  forall (pol g : string) (w : written) (g' : string) (w' : written),
  human_layout pol g w -> human_layout pol g' w' ->
  without_numbers w = without_numbers w' /\
  (without_numbers w = true -> meaning (column_after g 1) w = meaning (column_after g' 1) w').
Proof. exact human_unambiguous. Qed.
Print Assumptions C91_one_meaning.

(** Brackets of any kind, even mixed, with any gaps, only move the columns. *)
Theorem C91_brackets :
  forall (o c : ascii) (g1 g h g2 : string) (w : written),
  opening o = true -> closing c = true -> gap g1 -> gap g -> gap h -> gap g2 -> wellformed w ->
  without_numbers w = true ->
  parse (g1 ++ String o (g ++ show w ++ h ++ String c "") ++ g2) HumanPolicy =
    Ok (tree (meaning (column_after (g1 ++ String o g) 1) w)).
Proof. exact human_brackets. Qed.
Print Assumptions C91_brackets.

(** Two attributes on two lines stand at the same column: C09's collision for all names. *)
Theorem C91_same_column :
  forall x y : string,
  quotable x -> quotable y ->
  parse (dquote ++ x ++ dquote ++ lf_s ++ "or" ++ lf_s ++ dquote ++ y ++ dquote) HumanPolicy =
    Ok (tree (FOr [FLeaf x 2; FLeaf y 2])).
Proof. exact human_same_column. Qed.
Print Assumptions C91_same_column.

(** A conjunction with an escape, comments, mixed brackets, a quoted operator and two lines. *)
Definition wr1 : written :=
  WChain true
    (WName "A\n")
    (LCons " " "&&" " "
       (WGroup "(" "/**/"
          (WChain false (WGroup "{" "" (WName "B") " " "]") (LCons lf_s (dquote ++ " or/**/" ++ dquote) "" (WName "C") LNil)) "" ")") LNil).

Example C91_example :
  human_layout (" /*c""*/ " ++ show wr1 ++ lf_s) " /*c""*/ " wr1 /\ without_numbers wr1 = true /\
  meaning (column_after " /*c""*/ " 1) wr1 = FAnd [FLeaf "A\n" 10; FOr [FLeaf "B" 25; FLeaf "C" 11]] /\
  parse (" /*c""*/ " ++ show wr1 ++ lf_s) HumanPolicy =
    Ok (tree (FAnd [FLeaf "A\n" 10; FOr [FLeaf "B" 25; FLeaf "C" 11]])).
Proof.
  assert (B : gap " ") by (repeat constructor).
  assert (N : gap lf_s) by (repeat constructor).
  assert (C : gap "/**/") by (apply (gap_comment "" ""); [reflexivity|constructor]).
  split; [|split; [reflexivity|split; [reflexivity|vm_compute; reflexivity]]].
  exists lf_s. split; [|split; [|split; [exact N|reflexivity]]].
  - constructor; [reflexivity|]. apply (gap_comment "c""" " "); [reflexivity|exact B].
  - cbn [wellformed wellformed_links wr1 is_chain]. repeat apply conj; auto using gap_nil; try discriminate; try reflexivity.
    + constructor; [reflexivity|]. apply (quotable_escape "n"); [reflexivity|constructor].
    + constructor. cbn. auto.
    + constructor; [reflexivity|constructor].
    + apply (spelled_quoted (op_words false) "or" " " "/**/"); cbn; auto.
    + constructor; [reflexivity|constructor].
Qed.

(** Numbers abort; a number word without fraction or exponent is a number. *)
Example C91_example_number :
  human_layout "(-10.5e3)" "" (WGroup "(" "" (WNumber "-10.5e3") "" ")") /\ parse "(-10.5e3)" HumanPolicy = Panic.
Proof.
  split; [|vm_compute; reflexivity]. exists "". split; [constructor|]. split; [|split; [constructor|reflexivity]].
  cbn [wellformed]. repeat apply conj; try exact gap_nil; try reflexivity.
  exists "-", "10", ".5", "e3". split; [reflexivity|]. split; [now right|]. split; [right; exists "1"%char, "0"; auto|].
  split; [right; exists "5"; auto|]. right. exists "e"%char, "", "3"%char, "". auto.
Qed.

(** Rejected: mixed operators without brackets, a trailing operator, nothing at all. *)
Example C91_example_rejected :
  Forall (fun pol => parse pol HumanPolicy = Err)
    ["""A"" and ""B"" or ""C"""; """A"" and"; ""; "("; """A"" ""B"""; "A"; "/*""A"""].
Proof. repeat constructor. Qed.

(** C92: the outcome of the parser of the JSON language on every text. *)
Theorem C92_every_text :
  forall pol : string,
  (forall g w, json_layout pol g w ->
     parse pol JsonPolicy = if jwithout_numbers w then Ok (tree (jmeaning (column_after g 1) w)) else Panic) /\
  ((forall g w, ~ json_layout pol g w) -> parse pol JsonPolicy = Err).
Proof. exact json_language. Qed.
Print Assumptions C92_every_text.

Theorem C92_accepted :
  forall (pol : string) (f : formula),
  parse pol JsonPolicy = Ok (tree f) <->
  exists g w, json_layout pol g w /\ jwithout_numbers w = true /\ f = jmeaning (column_after g 1) w.
Proof. exact json_ok. Qed.
Print Assumptions C92_accepted.

Theorem C92_rejected :
  forall pol : string, parse pol JsonPolicy = Err <-> (forall g w, ~ json_layout pol g w).
Proof. exact json_rejected. Qed.
Print Assumptions C92_rejected.

Theorem C92_aborts :
  forall pol : string,
  parse pol JsonPolicy = Panic <-> exists g w, json_layout pol g w /\ jwithout_numbers w = false.
Proof. exact json_panics. Qed.
Print Assumptions C92_aborts.

Theorem C92_one_meaning :
  forall (pol g : string) (w : jwritten) (g' : string) (w' : jwritten),
  json_layout pol g w -> json_layout pol g' w' ->
  jwithout_numbers w = jwithout_numbers w' /\
  (jwithout_numbers w = true -> jmeaning (column_after g 1) w = jmeaning (column_after g' 1) w').
Proof. exact json_unambiguous. Qed.
Print Assumptions C92_one_meaning.

(** Without a quote inside the quotes of an operator, precedence plays no role. *)
Theorem C92_tidy :
  forall (g : string) (w : jwritten) (h : string),
  gap g -> jwellformed w -> tidy w -> gap h ->
  parse (g ++ jshow w ++ h) JsonPolicy =
    if jwithout_numbers w then Ok (tree (jmeaning (column_after g 1) w)) else Panic.
Proof. exact json_tidy. Qed.
Print Assumptions C92_tidy.

(** Without the precedence of names, C92 is false: a refused text, and a text
    with two readings. *)
Theorem C92_without_precedence_refuted :
  exists w, jwellformed w /\ jwithout_numbers w = true /\ parse (jshow w) JsonPolicy = Err.
Proof. exact (ex_intro _ stray json_stray). Qed.
Print Assumptions C92_without_precedence_refuted.

Theorem C92_without_precedence_two_meanings_refuted :
  exists w w', jwellformed w /\ jwellformed w' /\ jshow w = jshow w' /\ jmeaning 1 w <> jmeaning 1 w' /\
    parse (jshow w) JsonPolicy = Ok (tree (jmeaning 1 w')).
Proof. exact (ex_intro _ one_child (ex_intro _ two_children json_ambiguous)). Qed.
Print Assumptions C92_without_precedence_two_meanings_refuted.

(** Comments, a line feed, bare and quoted keywords, an escape, an empty list. *)
Definition jw1 : jwritten :=
  JObject " " "NAME" "" " "
    (JKids false (dquote ++ "/*x*/OR " ++ dquote) "" lf_s (dquote ++ "children" ++ dquote) " " ""
      (JSome "" (JObject "" "name" "/**/" "" (JName "Aé\u00e9") " ")
        (JNext " " " " (JObject "" "name" "" "" (JKids true "&&" " " "" "children" "" "" (JNone " ")) "") JStop) lf_s)) "".

Example C92_example :
  json_layout (lf_s ++ jshow jw1 ++ " ") lf_s jw1 /\ tidy jw1 /\ jwithout_numbers jw1 = true /\
  parse (lf_s ++ jshow jw1 ++ " ") JsonPolicy = Ok (tree (FOr [FLeaf "Aé\u00e9" 25; FAnd []])).
Proof.
  assert (B : gap " ") by (repeat constructor).
  assert (N : gap lf_s) by (repeat constructor).
  assert (C : gap "/**/") by (apply (gap_comment "" ""); [reflexivity|constructor]).
  assert (T : tidy jw1).
  { cbn [jw1 tidy tidy_body tidy_kids tidy_more]. repeat apply conj; try exact I.
    - right. exists "/*x*/OR ". split; reflexivity.
    - left. cbn. auto. }
  assert (W : jwellformed jw1).
  { cbn [jw1 jwellformed jwellformed_body jwellformed_kids jwellformed_more].
    repeat apply conj; auto using gap_nil; try (constructor; cbn; auto; fail).
    - apply (spelled_quoted (op_words false) "OR" "/*x*/" " "); [cbn; auto| |exact B].
      apply (gap_comment "x" ""); [reflexivity|constructor].
    - apply (spelled_quoted children_words "children" "" ""); [cbn; auto|constructor|constructor].
    - constructor; [reflexivity|]. do 2 (constructor; [reflexivity|]). apply (quotable_unicode "0" "0" "e" "9"); [reflexivity|constructor]. }
  split; [|split; [exact T|split; [reflexivity|vm_compute; reflexivity]]].
  exists " ". repeat (split; [solve [auto]|]). now apply tidy_preferred.
Qed.

Example C92_example_rejected :
  Forall (fun pol => parse pol JsonPolicy = Err)
    [""; "{}"; "{name:""A""} x"; "{name:A}"; "{name:and,children:[{name:""A""},]}"; "{name:""and"",children:[{name:""A""}]"].
Proof. repeat constructor. Qed.
