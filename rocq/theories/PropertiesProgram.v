(** * PropertiesProgram: C98: the text of a span program

    [display] (MspText.v) is the text that [Display for AbePolicy] writes;
    [program_form] (MspTextProofs.v) writes the same down at once. *)
From Coq Require Import String Ascii List Bool Arith ZArith.
From Verif Require Import Base Policy Spec Parse Layout Msp MspText MspTextProofs.
Import ListNotations.
Local Open Scope string_scope.

(** C98: two different programs can have the same text; both come from the
    public constructor [from_policy], with a quote in a name. *)
Theorem C98_text_tells_refuted :
  exists (v v' : pvalue) (m m' : abe_policy),
    from_policy v = Ok m /\ from_policy v' = Ok m' /\ display m = display m' /\ m <> m'.
Proof. exact display_ambiguous. Qed.
Print Assumptions C98_text_tells_refuted.

(** With names that could stand between quotes the text tells everything:
    matrix, names, width.  This holds for every matrix, also one with empty
    rows or no rows, whose brackets [pop] removes. *)
Theorem C98_text_tells_names :
  forall m k : abe_policy,
  Forall quotable (msp_pi m) -> Forall quotable (msp_pi k) -> display m = display k -> m = k.
Proof. exact display_inj. Qed.
Print Assumptions C98_text_tells_names.

(** In particular for programs of two policy texts, in any languages. *)
Theorem C98_text_tells_policies :
  forall (pol pol' : string) (lang lang' : language) (m m' : abe_policy),
  abe_policy_new pol lang = Ok m -> abe_policy_new pol' lang' = Ok m' ->
  (display m = display m' <-> m = m').
Proof. intros pol pol' lang lang' m m'. exact (new_text pol lang pol' lang' m m'). Qed.
Print Assumptions C98_text_tells_policies.

(** Every program that the conversion returns, for any value, is written with
    all its brackets. *)
Theorem C98_text_written :
  forall (v : pvalue) (m : abe_policy), from_policy v = Ok m -> display m = program_form m.
Proof. exact text_written. Qed.
Print Assumptions C98_text_written.

(** What [AbePolicy::new] answers, by what the parser answers. *)
Theorem C98_new_exact :
  forall (pol : string) (lang : language),
  match parse pol lang with
  | Ok v => exists f, v = tree f /\
      if binary_and f then exists m, abe_policy_new pol lang = Ok m /\ calculate_msp (tree f) = Ok m
      else abe_policy_new pol lang = Panic
  | Err => abe_policy_new pol lang = Err
  | Panic => abe_policy_new pol lang = Panic
  end.
Proof. exact new_exact. Qed.
Print Assumptions C98_new_exact.

Example C98_example :
  (exists m, abe_policy_new "(""B"" and ""A"") or ""C""" HumanPolicy = Ok m /\
     display m = "{_m: [(0,-1),(1,1),(1,0)], _pi: [""A"",""B"",""C""], _c: 2}") /\
  abe_policy_new """A"" and ""B"" and ""C""" HumanPolicy = Panic /\
  abe_policy_new """A"" and" HumanPolicy = Err /\
  display (AbePolicy [] [] 1) = "{_m: ], _pi: ], _c: 1}" /\
  display (AbePolicy [[]; [-10; 7]%Z] ["A"] 12) = "{_m: [),(-10,7)], _pi: [""A""], _c: 12}".
Proof.
  split; [eexists; split; vm_compute; reflexivity|].
  split; [vm_compute; reflexivity|]. split; [vm_compute; reflexivity|]. split; vm_compute; reflexivity.
Qed.
