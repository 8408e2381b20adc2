(** * Tools: /repo/src/utils/tools/mod.rs *)
From Coq Require Import String Ascii List Bool Arith.
From Verif Require Import Base Policy.
Import ListNotations.

(** [is_negative]; /repo/src/utils/tools/mod.rs:6-9.  The slice [..1] panics on
    the empty text and inside a multi-byte character. *)
Definition is_negative (attr : string) : outcome bool :=
  match attr with
  | EmptyString => Panic
  | String c _ => if nat_of_ascii c <? 128 then Ok (Ascii.eqb c "!"%char) else Panic
  end.

(** [contains]; /repo/src/utils/tools/mod.rs:15-21. *)
Definition contains (data : list string) (value : string) : bool :=
  1 <=? length (filter (fun i => seqb i value) data).

(** [is_subset]; /repo/src/utils/tools/mod.rs:24-28. *)
Definition is_subset (subset attr : list string) : bool :=
  forallb (fun x => smem x attr) subset.

(** [traverse_policy]; /repo/src/utils/tools/mod.rs:31-61.  The loops have no
    side effects, so [&=] and [|=] over all children are [forallb]/[existsb]. *)
Fixpoint traverse_policy (attr : list string) (v : pvalue) (t : ptype) : bool :=
  (0 <? length attr) &&
  match v with
  | PStr n _ => existsb (fun x => seqb x n) attr
  | PObj And w => traverse_policy attr w And
  | PObj Or w => traverse_policy attr w Or
  | PObj Leaf _ => true
  | PArr l =>
      match t with
      | And => forallb (fun x => traverse_policy attr x Leaf) l
      | Or => existsb (fun x => traverse_policy attr x Leaf) l
      | Leaf => false
      end
  end.
