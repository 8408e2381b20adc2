(** * Peg: the matching algorithm of the pest crate

    pest compiles a grammar into calls on a parser state.  This file is an
    interpreter for the grammar constructs used by rabe's two grammars, with
    pest's rules for implicit whitespace, atomic rules and token pairs.  It does
    not correspond to a file of /repo; it stands for the code that
    [#[derive(Parser)]] generates at
    /repo/src/utils/policy/pest/human.rs:4-6 and json.rs:4-6. *)
From Coq Require Import String Ascii List Bool Arith.
From Verif Require Import Base.
Import ListNotations.

(** Grammar expressions over rule names [R].  [EMore e] is internal: the
    repetition after the first match of [e*]; pest, not in /repo. *)
Inductive expr (R : Type) : Type :=
| EStr (s : string)              (* "literal" *)
| EStrI (c : ascii)              (* ^"c", one letter, case-insensitive *)
| EAny                           (* ANY *)
| EClass (p : ascii -> bool)     (* ASCII_DIGIT and friends *)
| ESoi                           (* SOI *)
| EEoi (r : R)                   (* EOI; [r] is the rule of the token it leaves *)
| ESeq (a b : expr R)            (* a ~ b *)
| EAlt (a b : expr R)            (* a | b *)
| EStar (a : expr R)             (* a* *)
| EMore (a : expr R)
| EOpt (a : expr R)              (* a? *)
| ENot (a : expr R)              (* !a *)
| ERule (r : R).
Arguments EStr {R} s. Arguments EStrI {R} c. Arguments EAny {R}.
Arguments EClass {R} p. Arguments ESoi {R}. Arguments EEoi {R} r.
Arguments ESeq {R} a b. Arguments EAlt {R} a b. Arguments EStar {R} a.
Arguments EMore {R} a. Arguments EOpt {R} a. Arguments ENot {R} a.
Arguments ERule {R} r.

(** [a+] is [a ~ a*] (pest's optimiser unrolls it this way); pest, not in /repo. *)
Definition EPlus {R} (a : expr R) : expr R := ESeq a (EStar a).

(** Rule modifiers: [{}], [_{}], [@{}], [${}].  [SilentAtomic] is what pest
    makes of the special silent rules WHITESPACE and COMMENT; pest, not in /repo. *)
Inductive kind := KNormal | KSilent | KSilentAtomic | KAtomic | KCompound.

(** The state of pest between atomic rules; pest, not in /repo. *)
Inductive atomicity := NonAtomic | Atomic | Compound.

(** A token pair: rule, start column, matched text, inner pairs; pest, not in /repo. *)
Inductive tok (R : Type) : Type := Tok (r : R) (col : nat) (text : string) (inner : list (tok R)).
Arguments Tok {R} r col text inner.

(** Parser position: 1-based column in characters and the remaining input; pest, not in /repo. *)
Record st := St { st_col : nat; st_rest : string }.

(** The result of a rule: a failure, or the new position and the token pairs; pest, not in /repo. *)
Inductive res (R : Type) : Type :=
| Fail
| Done (s : st) (l : list (tok R))
| Fuel.
Arguments Fail {R}. Arguments Done {R} s l. Arguments Fuel {R}.

(** A grammar: the kinds and bodies of the rules and what is skipped; pest, not in /repo. *)
Record grammar (R : Type) := Grammar {
  g_kind : R -> kind;
  g_body : R -> expr R;
  g_skip : expr R   (* WHITESPACE* ~ (COMMENT ~ WHITESPACE* )* *)
}.
Arguments g_kind {R} _ _. Arguments g_body {R} _ _. Arguments g_skip {R} _.

(** UTF-8 continuation byte: not a character of its own; pest, not in /repo. *)
Definition is_cont (c : ascii) : bool :=
  (128 <=? nat_of_ascii c) && (nat_of_ascii c <? 192).

(** The line feed; pest, not in /repo. *)
Definition newline : ascii := ascii_of_nat 10.

(** Column after a byte ([Position::line_col] of pest); pest, not in /repo. *)
Definition adv_col (c : ascii) (col : nat) : nat :=
  if Ascii.eqb c newline then 1 else if is_cont c then col else S col.

(** Match a literal; pest, not in /repo. *)
Fixpoint strip (x : string) (s : st) : option st :=
  match x with
  | EmptyString => Some s
  | String a x' =>
      match st_rest s with
      | String b r => if Ascii.eqb a b then strip x' (St (adv_col b (st_col s)) r) else None
      | EmptyString => None
      end
  end.

(** Match one byte satisfying [p].  pest's ANY takes a whole character; taking
    single bytes gives the same matches for the grammars below, where ANY only
    occurs inside repetitions; pest, not in /repo. *)
Definition strip1 (p : ascii -> bool) (s : st) : option st :=
  match st_rest s with
  | String b r => if p b then Some (St (adv_col b (st_col s)) r) else None
  | EmptyString => None
  end.

(** A letter in upper case; pest, not in /repo. *)
Definition upper1 (c : ascii) : ascii :=
  let n := nat_of_ascii c in
  if (97 <=? n) && (n <=? 122) then ascii_of_nat (n - 32) else c.

(** Text between two positions; pest, not in /repo. *)
Definition between (s s' : st) : string :=
  String.substring 0 (String.length (st_rest s) - String.length (st_rest s')) (st_rest s).

Section Run.
Context {R : Type} (g : grammar R).

(** A literal as a result; pest, not in /repo. *)
Definition of_opt (o : option st) : res R :=
  match o with Some s => Done s [] | None => Fail end.

(** The interpreter; pest, not in /repo. *)
Fixpoint run (fuel : nat) (a : atomicity) (e : expr R) (s : st) {struct fuel} : res R :=
  match fuel with
  | O => Fuel
  | S n =>
    let skip (s : st) : res R :=
      match a with NonAtomic => run n Atomic (g_skip g) s | _ => Done s [] end in
    match e with
    | EStr x => of_opt (strip x s)
    | EStrI c => of_opt (strip1 (fun b => Ascii.eqb (upper1 b) (upper1 c)) s)
    | EAny => of_opt (strip1 (fun _ => true) s)
    | EClass p => of_opt (strip1 p s)
    | ESoi => Done s []
    | EEoi r => match st_rest s with
                | EmptyString => Done s [Tok r (st_col s) EmptyString []]
                | _ => Fail
                end
    | ESeq e1 e2 =>
        match run n a e1 s with
        | Done s1 t1 =>
            match skip s1 with
            | Done s2 _ =>
                match run n a e2 s2 with
                | Done s3 t3 => Done s3 (t1 ++ t3)
                | r => r
                end
            | r => r
            end
        | r => r
        end
    | EAlt e1 e2 =>
        match run n a e1 s with
        | Fail => run n a e2 s
        | r => r
        end
    | EStar e1 =>
        match run n a e1 s with
        | Done s1 t1 =>
            match run n a (EMore e1) s1 with
            | Done s2 t2 => Done s2 (t1 ++ t2)
            | r => r
            end
        | Fail => Done s []
        | Fuel => Fuel
        end
    | EMore e1 =>
        match skip s with
        | Done s1 _ =>
            match run n a e1 s1 with
            | Done s2 t2 =>
                match run n a (EMore e1) s2 with
                | Done s3 t3 => Done s3 (t2 ++ t3)
                | r => r
                end
            | Fail => Done s []
            | Fuel => Fuel
            end
        | Fail => Done s []
        | Fuel => Fuel
        end
    | EOpt e1 =>
        match run n a e1 s with
        | Fail => Done s []
        | r => r
        end
    | ENot e1 =>
        match run n a e1 s with
        | Fail => Done s []
        | Done _ _ => Fail
        | Fuel => Fuel
        end
    | ERule r =>
        let emit (s' : st) (t : list (tok R)) : list (tok R) :=
          [Tok r (st_col s) (between s s') t] in
        match g_kind g r with
        | KSilent => run n a (g_body g r) s
        | KSilentAtomic => run n Atomic (g_body g r) s
        | KNormal =>
            match run n a (g_body g r) s with
            | Done s' t => Done s' (match a with Atomic => t | _ => emit s' t end)
            | x => x
            end
        | KAtomic =>
            match run n Atomic (g_body g r) s with
            | Done s' t => Done s' (match a with Atomic => t | _ => emit s' t end)
            | x => x
            end
        | KCompound =>
            match run n Compound (g_body g r) s with
            | Done s' t => Done s' (emit s' t)
            | x => x
            end
        end
    end
  end.

End Run.
