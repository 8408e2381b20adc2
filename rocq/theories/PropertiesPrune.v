(** * PropertiesPrune: C101: pruning selects no superfluous leaf

    [chosen] (PruneMinimal.v): all children of a conjunction, the first true
    child of a disjunction.  [sat_at on f]: truth of [f] when exactly the leaves
    in [on] are true. *)
From Coq Require Import String Ascii List Bool Arith.
From Verif Require Import Base Policy Tools Sharing Spec Parse ParseProofs Witnesses PruneMinimal.
Import ListNotations.
Local Open Scope string_scope.

(** C101: exactly which leaves are selected, in which order. *)
Theorem C101_first_choice :
  forall (attrs : list string) (f : formula) (t : option ptype) (l : list (string * string)),
  arity2 f = true ->
  (calc_pruned attrs (tree f) t = Ok (true, l) <->
   exists k, chosen (owns attrs) f k /\ l = map (fun x => (fst x, node_index (fst x) (snd x))) k).
Proof. exact pruned_chosen. Qed.
Print Assumptions C101_first_choice.

(** There is at most one such selection. *)
Theorem C101_choice_unique :
  forall (own : string -> bool) (f : formula) (k k' : list (string * nat)),
  chosen own f k -> chosen own f k' -> k = k'.
Proof. exact chosen_fun. Qed.
Print Assumptions C101_choice_unique.

(** C101: a part of the selection satisfies the policy only if it is all of it. *)
Theorem C101_minimal :
  forall (attrs : list string) (f : formula) (t : option ptype) (l : list (string * string)),
  arity2 f = true -> NoDup (leaves f) ->
  calc_pruned attrs (tree f) t = Ok (true, l) ->
  exists k, l = map (fun x => (fst x, node_index (fst x) (snd x))) k /\
    forall on : string * nat -> bool, (forall x, on x = true -> In x k) ->
    (sat_at on f = true <-> forall x, In x k -> on x = true).
Proof. exact pruned_minimal. Qed.
Print Assumptions C101_minimal.

(** So for every text of one line. *)
Theorem C101_minimal_one_line :
  forall (pol : string) (lang : language) (f : formula) (attrs : list string) (t : option ptype)
    (l : list (string * string)),
  one_line pol -> parse pol lang = Ok (tree f) -> arity2 f = true ->
  calc_pruned attrs (tree f) t = Ok (true, l) ->
  exists k, l = map (fun x => (fst x, node_index (fst x) (snd x))) k /\
    forall on : string * nat -> bool, (forall x, on x = true -> In x k) ->
    (sat_at on f = true <-> forall x, In x k -> on x = true).
Proof.
  intros pol lang f attrs t l O P A. apply pruned_minimal; [exact A|]. exact (one_line_leaves pol lang f O P).
Qed.
Print Assumptions C101_minimal_one_line.

Example C101_example :
  parse P HumanPolicy = Ok (tree fP) /\ arity2 fP = true /\
  chosen (owns ["A"; "B"; "C"]) fP [("A", 2); ("B", 11)] /\
  calc_pruned ["A"; "B"; "C"] (tree fP) None = Ok (true, [("A", "A_2"); ("B", "B_11")]) /\
  sat_at (fun x => seqb (fst x) "A") fP = false.
Proof.
  split; [vm_compute; reflexivity|]. split; [reflexivity|]. split; [|split; vm_compute; reflexivity].
  exact (chosen_mask (owns ["A"; "B"; "C"]) fP eq_refl).
Qed.

(** The condition on leaves is needed: on two lines a name can come twice in
    one column, and the leaf in the other branch is superfluous. *)
Definition twice : string := """A"" and (""B"" or" ++ String (ascii_of_nat 10) """A"")".

Theorem C101_repeated_leaf_refuted :
  exists (pol : string) (f : formula) (attrs : list string) (k : list (string * nat)) (on : string * nat -> bool),
    parse pol HumanPolicy = Ok (tree f) /\ arity2 f = true /\
    calc_pruned attrs (tree f) None = Ok (true, map (fun x => (fst x, node_index (fst x) (snd x))) k) /\
    (forall x, on x = true -> In x k) /\ sat_at on f = true /\ exists x, In x k /\ on x = false.
Proof.
  exists twice, (FAnd [FLeaf "A" 2; FOr [FLeaf "B" 11; FLeaf "A" 2]]), ["A"; "B"], [("A", 2); ("B", 11)],
    (fun x => seqb (fst x) "A" && (snd x =? 2)%nat).
  split; [vm_compute; reflexivity|]. split; [reflexivity|]. split; [vm_compute; reflexivity|].
  split.
  { intros [n p] H. apply andb_prop in H as (H1 & H2). cbn [fst snd] in *. apply seqb_eq in H1 as ->.
    apply Nat.eqb_eq in H2 as ->. now left. }
  split; [vm_compute; reflexivity|]. exists ("B", 11). split; [cbn; auto|reflexivity].
Qed.
Print Assumptions C101_repeated_leaf_refuted.

(** Minimal is not smallest: the first of two branches is taken though the
    second needs fewer leaves. *)
Theorem C101_smallest_refuted :
  exists (f : formula) (attrs : list string) (k : list (string * nat)) (x : string * nat),
    arity2 f = true /\ NoDup (leaves f) /\
    calc_pruned attrs (tree f) None = Ok (true, map (fun x => (fst x, node_index (fst x) (snd x))) k) /\
    length k = 2%nat /\ In (fst x) attrs /\
    sat_at (fun y => seqb (fst y) (fst x) && (snd y =? snd x)%nat) f = true.
Proof.
  exists (FOr [FAnd [FLeaf "A" 1; FLeaf "B" 2]; FLeaf "C" 3]), ["A"; "B"; "C"], [("A", 1); ("B", 2)], ("C", 3).
  split; [reflexivity|]. split; [|split; [vm_compute; reflexivity|]; cbn; auto 6].
  cbn. repeat constructor; cbn; intuition congruence.
Qed.
Print Assumptions C101_smallest_refuted.
