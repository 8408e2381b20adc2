(** * Policy: policy trees and leaf identifiers *)
From Coq Require Import String Ascii List Bool Arith.
From Verif Require Import Base.
Import ListNotations.
Local Open Scope string_scope.

(** [PolicyLanguage]; /repo/src/utils/policy/pest/mod.rs:14-23. *)
Inductive language := JsonPolicy | HumanPolicy.

(** [PolicyType]; /repo/src/utils/policy/pest/mod.rs:25-30. *)
Inductive ptype := And | Or | Leaf.

(** [PolicyValue]; /repo/src/utils/policy/pest/mod.rs:32-37.  The tuple and the
    box of [Object] are flattened into constructor arguments. *)
Inductive pvalue :=
| PObj (t : ptype) (v : pvalue)
| PArr (l : list pvalue)
| PStr (name : string) (col : nat).

(** [node_index]; /repo/src/utils/secretsharing/mod.rs:74-76. *)
Definition node_index (name : string) (col : nat) : string :=
  name ++ "_" ++ dec col.

(** [remove_index]: the text before the first '_';
    /repo/src/utils/secretsharing/mod.rs:77-80. *)
Fixpoint remove_index (s : string) : string :=
  match s with
  | EmptyString => EmptyString
  | String c r => if Ascii.eqb c "_"%char then EmptyString else String c (remove_index r)
  end.

(** [get_value]; /repo/src/utils/tools/mod.rs:63-68. *)
Definition get_value (v : pvalue) : string :=
  match v with PStr n c => node_index n c | _ => "" end.
