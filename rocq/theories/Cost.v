(** * Cost: the work of the parser

    [cost] counts the expressions that [run] of Peg.v tries, that is the calls
    of [run] it makes.  pest has no memory of earlier attempts: the functions
    that [#[derive(Parser)]] generates at
    /repo/src/utils/policy/pest/human.rs:4-6 and json.rs:4-6 call each other for
    every attempt again. *)
From Coq Require Import String Ascii List Bool Arith.
From Verif Require Import Base Policy Peg Grammar Parse.
Import ListNotations.

Section Cost.
Context {R : Type} (g : grammar R).

(** The calls made by [run g fuel a e s], itself included; not in /repo. *)
Fixpoint cost (fuel : nat) (a : atomicity) (e : expr R) (s : st) {struct fuel} : nat :=
  match fuel with
  | O => 0
  | S n =>
    let skip (s : st) : res R :=
      match a with NonAtomic => run g n Atomic (g_skip g) s | _ => Done s [] end in
    let skip_cost (s : st) : nat :=
      match a with NonAtomic => cost n Atomic (g_skip g) s | _ => 0 end in
    S match e with
      | EStr _ | EStrI _ | EAny | EClass _ | ESoi | EEoi _ => 0
      | ESeq e1 e2 =>
          cost n a e1 s +
          match run g n a e1 s with
          | Done s1 _ => skip_cost s1 +
              match skip s1 with Done s2 _ => cost n a e2 s2 | _ => 0 end
          | _ => 0
          end
      | EAlt e1 e2 =>
          cost n a e1 s + match run g n a e1 s with Fail => cost n a e2 s | _ => 0 end
      | EStar e1 =>
          cost n a e1 s + match run g n a e1 s with Done s1 _ => cost n a (EMore e1) s1 | _ => 0 end
      | EMore e1 =>
          skip_cost s +
          match skip s with
          | Done s1 _ => cost n a e1 s1 +
              match run g n a e1 s1 with Done s2 _ => cost n a (EMore e1) s2 | _ => 0 end
          | _ => 0
          end
      | EOpt e1 | ENot e1 => cost n a e1 s
      | ERule r =>
          match g_kind g r with
          | KSilent | KNormal => cost n a (g_body g r) s
          | KSilentAtomic | KAtomic => cost n Atomic (g_body g r) s
          | KCompound => cost n Compound (g_body g r) s
          end
      end
  end.
End Cost.

(** Expressions tried by [parse]; /repo/src/utils/policy/pest/mod.rs:40-66. *)
Definition parse_cost (policy : string) (lang : language) : nat :=
  cost (grammar_of lang) (fuel_of policy) NonAtomic (ERule content) (St 1 policy).
