(** * PropertiesPolicy: C01 to C14: parsing, access check and pruning

    Every statement is written out in full; the proofs are in the *Proofs files. *)
From Coq Require Import String Ascii List Bool Arith ZArith Lia.
From Verif Require Import Base Crypto Policy Tools Sharing Spec PolicyProofs Poly SharingProofs
  Msp MspProofs Dnf Symmetric Peg Grammar Parse PegProofs ParseProofs ParseText ParseHuman
  SchemeLib CoreProofs Files FilesProofs DnfProofs Bdabe BdabeProofs Mke08 Mke08Proofs
  Bsw BswProofs Ghw11 Ghw11Proofs Lsw LswProofs Yct14 Yct14Proofs Ac17 Ac17Proofs
  Aw11 Aw11Proofs EdgeProofs TruncationProofs Instance Sessions SessionProofs Witnesses.
Import ListNotations.
Local Open Scope string_scope.
Local Open Scope rand_scope.
Local Open Scope nat_scope.

(** C01. Some fuel suffices for every text: the grammar never loops. *)
Theorem C01_parse_terminates :
  forall (pol : string) (lang : language),
  exists r : res rule,
    r <> Fuel /\
    (forall n : nat,
     fuel_of pol <= n ->
     run (grammar_of lang) n NonAtomic (ERule content) {| st_col := 1; st_rest := pol |} =
     r).
Proof. exact @parse_total. Qed.
Print Assumptions C01_parse_terminates.

(** C01. The three outcomes, and when each occurs. *)
Theorem C01_parse_outcome :
  forall (pol : string) (lang : language),
  (exists f : formula,
     parse pol lang = Ok (tree f) /\ (exists t : tok rule, accepts pol lang t)) \/
  parse pol lang = Err /\ (forall t : tok rule, ~ accepts pol lang t) \/
  parse pol lang = Panic /\ (exists t : tok rule, accepts pol lang t /\ numeric t = true).
Proof. exact @parse_outcome. Qed.
Print Assumptions C01_parse_outcome.

Example C01_example :
  parse P HumanPolicy = Ok (tree fP) /\ parse "A and" HumanPolicy = Err /\ parse "12" HumanPolicy = Panic.
Proof. repeat split; ground. Qed.

(** C02. *)
Theorem C02_parse_shape :
  forall (pol : string) (lang : language) (v : pvalue),
  parse pol lang = Ok v ->
  exists f : formula, v = tree f /\ (lang = HumanPolicy -> arity2 f = true).
Proof. exact @parse_shape. Qed.
Print Assumptions C02_parse_shape.

Example C02_example : parse P HumanPolicy = Ok (tree fP) /\ arity2 fP = true.
Proof. repeat split; ground. Qed.

(** C03. *)
Theorem C03_json_roundtrip :
  forall f : formula,
  adm f = true ->
  exists (txt : string) (g : formula),
    serialize_policy (tree f) JsonPolicy None = Ok txt /\
    parse txt JsonPolicy = Ok (tree g) /\ erase g = erase f.
Proof. exact @json_roundtrip. Qed.
Print Assumptions C03_json_roundtrip.

Example C03_example : adm (FOr [fP; fJ; FAnd []]) = true.
Proof. ground. Qed.

(** C04. *)
Theorem C04_human_roundtrip :
  forall f : formula,
  adm f = true ->
  arity2 f = true ->
  exists g : formula, parse (human_text f) HumanPolicy = Ok (tree g) /\ erase g = erase f.
Proof. exact @human_roundtrip. Qed.
Print Assumptions C04_human_roundtrip.

Example C04_example : adm (FOr [fP; FLeaf "D e" 7]) = true /\ arity2 (FOr [fP; FLeaf "D e" 7]) = true.
Proof. repeat split; ground. Qed.

(** C04, without the outermost parentheses. *)
Theorem C04_human_roundtrip_open :
  forall (t : bool) (l : list formula),
  forallb adm l = true ->
  forallb arity2 l = true ->
  2 <= Datatypes.length l ->
  exists g : formula,
    parse (String.concat (sep t) (map human_text l)) HumanPolicy = Ok (tree g) /\
    erase g = erase (mk t l).
Proof. exact @human_roundtrip_open. Qed.
Print Assumptions C04_human_roundtrip_open.

(** C05 is false: for every policy whose names begin with letters. *)
Theorem C05_human_serialized_rejected :
  forall f : formula,
  arity2 f = true ->
  forallb letter_first (names f) = true ->
  exists txt : string,
    serialize_policy (tree f) HumanPolicy None = Ok txt /\ parse txt HumanPolicy = Err.
Proof. exact @human_serialized_rejected. Qed.
Print Assumptions C05_human_serialized_rejected.

Example C05_example : arity2 fP = true /\ forallb letter_first (names fP) = true.
Proof. repeat split; ground. Qed.

(** C05 is false. *)
Theorem C05_human_serializer_refuted : exists f txt,
  adm f = true /\ arity2 f = true /\ serialize_policy (tree f) HumanPolicy None = Ok txt /\
  forall g, parse txt HumanPolicy <> Ok (tree g).
Proof.
  exists fP. eexists. repeat split; try ground. intros g H. vm_compute in H. discriminate H.
Qed.
Print Assumptions C05_human_serializer_refuted.

(** C06. *)
Theorem C06_mixed_rejected :
  forall (t : bool) (l : list formula) (rest : string),
  forallb adm l = true ->
  forallb arity2 l = true ->
  2 <= Datatypes.length l ->
  parse (String.concat (sep t) (map human_text l) ++ sep (negb t) ++ rest) HumanPolicy =
  Err.
Proof. exact @mixed_rejected. Qed.
Print Assumptions C06_mixed_rejected.

Example C06_example :
  parse ("""A""" ++ sep true ++ """B""" ++ sep false ++ """C""") HumanPolicy = Err /\
  parse ("""A""" ++ sep false ++ """B""" ++ sep true ++ """C""") HumanPolicy = Err.
Proof. repeat split; ground. Qed.

(** C06, inside parentheses. *)
Theorem C06_mixed_rejected_nested :
  forall (k : nat) (t : bool) (l : list formula) (rest : string),
  forallb adm l = true ->
  forallb arity2 l = true ->
  2 <= Datatypes.length l ->
  parse (opens k ++ String.concat (sep t) (map human_text l) ++ sep (negb t) ++ rest)
    HumanPolicy = Err.
Proof. exact @mixed_rejected_nested. Qed.
Print Assumptions C06_mixed_rejected_nested.

(** C07 is false for every numeral. *)
Theorem C07_number_panics_human :
  forall x : string, numeral x -> parse x HumanPolicy = Panic.
Proof. exact @number_panics_human. Qed.
Print Assumptions C07_number_panics_human.

Example C07_example : numeral "12" /\ numeral "-3.5e7".
Proof.
  split.
  - exists "", "12", "", "". split; [reflexivity|]. split; [now left|]. split; [right|split; now left].
    exists "1"%char, "2". repeat split; auto.
  - exists "-", "3", ".5", "e7". split; [reflexivity|]. split; [now right|]. split; [|split].
    + right. exists "3"%char, "". repeat split; auto.
    + right. exists "5". split; reflexivity.
    + right. exists "e"%char, "", "7"%char, "". repeat split; auto.
Qed.

(** C07 is false. *)
Theorem C07_number_refuted : exists x,
  (exists t, accepts x HumanPolicy t) /\ parse x HumanPolicy = Panic.
Proof.
  exists "12". split; [|ground].
  destruct (parse_outcome "12" HumanPolicy) as [(f & E & _)|[(E & _)|(_ & t & A & _)]].
  - vm_compute in E. discriminate E.
  - vm_compute in E. discriminate E.
  - now exists t.
Qed.
Print Assumptions C07_number_refuted.

(** C07, JSON. *)
Theorem C07_number_panics_json :
  forall x : string,
  numeral x ->
  parse ("{" ++ quote_s ++ "name" ++ quote_s ++ ": " ++ x ++ "}") JsonPolicy = Panic.
Proof. exact @number_panics_json. Qed.
Print Assumptions C07_number_panics_json.

(** C08. *)
Theorem C08_one_line_columns :
  forall (pol : string) (lang : language) (f : formula),
  one_line pol -> parse pol lang = Ok (tree f) -> NoDup (map snd (leaves f)).
Proof. exact @one_line_columns. Qed.
Print Assumptions C08_one_line_columns.

Example C08_example : one_line P /\ parse P HumanPolicy = Ok (tree fP).
Proof. split; [cbn; repeat split; discriminate | ground]. Qed.

(** C09 is false, in both languages: the column alone does not tell the lines apart. *)
Theorem C09_multi_line_refuted : exists pol f,
  parse pol HumanPolicy = Ok (tree f) /\ ~ NoDup (leaves f).
Proof.
  exists two_lines. eexists. split; [exact (proj1 multi_line_collision)|].
  intros H. inversion H as [|x l N _]; subst. apply N. now left.
Qed.
Print Assumptions C09_multi_line_refuted.

Theorem C09_multi_line_json_refuted : exists pol f,
  parse pol JsonPolicy = Ok (tree f) /\ ~ NoDup (leaves f).
Proof.
  exists two_lines_json. eexists. split; [exact multi_line_collision_json|].
  intros H. inversion H as [|x l N _]; subst. apply N. now left.
Qed.
Print Assumptions C09_multi_line_json_refuted.

(** C08, the form the scheme theorems use. *)
Theorem C08_one_line_leaves :
  forall (pol : string) (lang : language) (f : formula),
  one_line pol -> parse pol lang = Ok (tree f) -> NoDup (leaves f).
Proof. exact @one_line_leaves. Qed.
Print Assumptions C08_one_line_leaves.

(** C10. *)
Theorem C10_access_exact :
  forall (attrs : list string) (f : formula) (t : ptype),
  traverse_policy attrs (tree f) t = true <-> attrs <> [] /\ sat (owns attrs) f = true.
Proof. exact @access_exact. Qed.
Print Assumptions C10_access_exact.

Example C10_example : traverse_policy ["A"; "C"] (tree fP) And = true /\
  traverse_policy ["B"; "C"] (tree fP) And = false /\ traverse_policy [] (tree (FAnd [])) And = false.
Proof. repeat split; ground. Qed.

(** C11. *)
Theorem C11_access_mono :
  forall (attrs attrs' : list string) (f : formula) (t t' : ptype),
  incl attrs attrs' ->
  traverse_policy attrs (tree f) t = true -> traverse_policy attrs' (tree f) t' = true.
Proof. exact @access_mono. Qed.
Print Assumptions C11_access_mono.

Example C11_example : incl ["C"; "A"] ["A"; "B"; "C"; "A"] /\ traverse_policy ["C"; "A"] (tree fP) And = true.
Proof. split; [intros x [<-|[<-|[]]]; cbn; auto | ground]. Qed.

(** C12. *)
Theorem C12_prune_agrees :
  forall (attrs : list string) (f : formula) (t : option ptype),
  arity2 f = true ->
  exists l : list (string * string),
    calc_pruned attrs (tree f) t = Ok (sat (owns attrs) f, l).
Proof. exact @prune_agrees. Qed.
Print Assumptions C12_prune_agrees.

Example C12_example : arity2 fP = true /\
  calc_pruned ["A"; "C"] (tree fP) None = Ok (true, [("A", "A_2"); ("C", "C_18")]) /\
  exists l, calc_pruned ["B"] (tree fP) None = Ok (false, l).
Proof. repeat split; try ground. eexists; ground. Qed.

(** C13. *)
Theorem C13_prune_selection :
  forall (attrs : list string) (f : formula) (t : option ptype)
    (l : list (string * string)),
  calc_pruned attrs (tree f) t = Ok (true, l) ->
  exists sel : list (string * nat),
    l = map (fun x : string * nat => (fst x, node_index (fst x) (snd x))) sel /\
    sublist sel (leaves f) /\
    (forall x : string * nat, In x sel -> In (fst x) attrs) /\
    sat (fun n : string => smem n (map fst sel)) f = true.
Proof. exact @prune_selection. Qed.
Print Assumptions C13_prune_selection.

Example C13_example : calc_pruned ["C"; "A"] (tree fP) None = Ok (true, [("A", "A_2"); ("C", "C_18")]).
Proof. ground. Qed.

(** C13, without repetition. *)
Theorem C13_prune_selection_distinct :
  forall (attrs : list string) (f : formula) (t : option ptype)
    (l : list (string * string)),
  NoDup (leaves f) -> calc_pruned attrs (tree f) t = Ok (true, l) -> NoDup (map snd l).
Proof. exact @prune_selection_distinct. Qed.
Print Assumptions C13_prune_selection_distinct.

(** C14 is false for nodes with fewer than two children, which the JSON language has. *)
Theorem C14_bsw_short_panics :
  (forall (C : crypto) (sk : bsw_sk C) (ct : bsw_ct C) (f : formula),
  parse (fst (bct_policy ct)) (snd (bct_policy ct)) = Ok (tree f) ->
  short_node f ->
  bsk_dj sk <> [] ->
  sat (owns (map b_string (bsk_dj sk))) f = true -> bsw_decrypt sk ct = Panic)%F.
Proof. exact @bsw_short_panics. Qed.
Print Assumptions C14_bsw_short_panics.

Example C14_example : parse PJ JsonPolicy = Ok (tree fJ) /\ short_node fJ /\ sat (owns ["A"]) fJ = true.
Proof. split; [ground|]. split; [|ground]. exists [FLeaf "A" 40]. split; [cbn; lia|now left]. Qed.

(** C14 is false: this policy is accepted, encrypted under, and aborts decryption. *)
Theorem C14_short_node_refuted : exists pol lang (pk : bsw_pk ZC) msk sk ct ts i1 i2 i3 i4,
  bsw_setup ts 0 = Ok (pk, msk, i1) /\
  bsw_keygen pk msk ["A"] ts i1 = Ok (Some sk, i2) /\
  bsw_encrypt nc pk pol lang "hello" ts i3 = Ok (ct, i4) /\
  bsw_decrypt sk ct = Panic.
Proof.
  exists PJ, JsonPolicy.
  by_run (bsw_session (C := ZC) nc ["A"] PJ JsonPolicy "hello") (@Panic string).
Qed.
Print Assumptions C14_short_node_refuted.

Theorem C14_short_node_ghw_refuted : exists pol lang j,
  ghw_session (C := ZC) nc ["A"] pol lang "hello" (ztape 3) 0 = Ok (Panic, j).
Proof. exists PJ, JsonPolicy. run. Qed.
Print Assumptions C14_short_node_ghw_refuted.

Theorem C14_short_node_lsw_refuted : exists pol lang j,
  lsw_session (C := ZC) nc pol lang ["A"] "hello" (ztape 3) 0 = Ok (Panic, j).
Proof. exists PJ, JsonPolicy. run. Qed.
Print Assumptions C14_short_node_lsw_refuted.

Theorem C14_short_node_yct_refuted : exists pol lang j,
  yct_session (C := ZC) nc ["A"] pol lang ["A"] "hello" (ztape 3) 0 = Ok (Panic, j).
Proof. exists PJ, JsonPolicy. run. Qed.
Print Assumptions C14_short_node_yct_refuted.

(** C14, GHW11. *)
Theorem C14_ghw_short_panics :
  (forall (C : crypto) (tk : ghw_tk C) (ct : ghw_ct C) (f : formula),
  parse (fst (gct_policy ct)) (snd (gct_policy ct)) = Ok (tree f) ->
  short_node f ->
  gtk_attr tk <> [] ->
  sat (owns (map fst (gtk_attr tk))) f = true -> ghw_transform ct tk = Panic)%F.
Proof. exact @ghw_short_panics. Qed.
Print Assumptions C14_ghw_short_panics.

(** C14, LSW. *)
Theorem C14_lsw_short_panics :
  (forall (C : crypto) (sk : lsw_sk C) (ct : lsw_ct C) (f : formula),
  parse (fst (lsk_policy sk)) (snd (lsk_policy sk)) = Ok (tree f) ->
  short_node f -> lsw_decrypt sk ct = Panic)%F.
Proof. exact @lsw_short_panics. Qed.
Print Assumptions C14_lsw_short_panics.

(** C14, YCT14. *)
Theorem C14_yct_short_panics :
  (forall (C : crypto) (sk : yct_sk C) (ct : yct_ct C) (f : formula),
  parse (fst (ysk_policy sk)) (snd (ysk_policy sk)) = Ok (tree f) ->
  short_node f -> yct_decrypt sk ct = Panic)%F.
Proof. exact @yct_short_panics. Qed.
Print Assumptions C14_yct_short_panics.

(** C14 holds for BSW when all nodes have two children (every human-language policy, C02). *)
Theorem C14_bsw_no_panic_partial :
  (forall C : crypto,
  laws C ->
  forall (sk : bsw_sk C) (ct : bsw_ct C) (f : formula),
  parse (fst (bct_policy ct)) (snd (bct_policy ct)) = Ok (tree f) ->
  arity2 f = true -> 12 <= String.length (bct_data ct) -> bsw_decrypt sk ct <> Panic)%F.
Proof. exact @bsw_decrypt_no_panic. Qed.
Print Assumptions C14_bsw_no_panic_partial.

