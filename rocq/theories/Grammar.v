(** * Grammar: /repo/src/human.policy.pest and /repo/src/json.policy.pest *)
From Coq Require Import String Ascii List Bool Arith.
From Verif Require Import Base Peg.
Import ListNotations.
Local Open Scope string_scope.

(** Rule names of both grammar files; /repo/src/human.policy.pest:3-34 and /repo/src/json.policy.pest:14-54. *)
Inductive rule :=
| WHITESPACE | COMMENT | QUOTE | NAME | CHILDREN
| andvalue | orvalue | andinner | orinner
| BRACEOPEN | BRACECLOSE
| node | or_ | and_ | term_ | value | string_ | inner | char_ | number | content | EOI.

Notation "a ~~ b" := (ESeq a b) (at level 52, right associativity).
Notation "a // b" := (EAlt a b) (at level 53, right associativity).

(** Characters of the literals; /repo/src/human.policy.pest:3-5 and 24. *)
Definition quote_s : string := String (ascii_of_nat 34) EmptyString.
Definition bslash_s : string := String (ascii_of_nat 92) EmptyString.
Definition tab_s : string := String (ascii_of_nat 9) EmptyString.
Definition cr_s : string := String (ascii_of_nat 13) EmptyString.
Definition lf_s : string := String (ascii_of_nat 10) EmptyString.

(** ASCII_DIGIT, ASCII_NONZERO_DIGIT, ASCII_HEX_DIGIT of pest; /repo/src/human.policy.pest:26-32. *)
Definition is_digit (c : ascii) : bool := ((48 <=? nat_of_ascii c) && (nat_of_ascii c <=? 57))%nat.
Definition is_nzdigit (c : ascii) : bool := ((49 <=? nat_of_ascii c) && (nat_of_ascii c <=? 57))%nat.
Definition is_hex (c : ascii) : bool :=
  (is_digit c || ((97 <=? nat_of_ascii c) && (nat_of_ascii c <=? 102))
              || ((65 <=? nat_of_ascii c) && (nat_of_ascii c <=? 70)))%nat.

(** The rules that are the same in both files:
    human.policy.pest:3-9 and 23-35, json.policy.pest:14-22 and 41-54. *)
Definition e_whitespace : expr rule := EStr " " // EStr tab_s // EStr cr_s // EStr lf_s.
Definition e_comment : expr rule :=
  EStr "/*" ~~ EStar (ENot (EStr "*/") ~~ EAny) ~~ EStr "*/".
Definition e_andvalue : expr rule := EStr "and" // EStr "AND" // EStr "&&".
Definition e_orvalue : expr rule := EStr "or" // EStr "OR" // EStr "||".
Definition e_andinner : expr rule :=
  ERule andvalue // ERule QUOTE ~~ ERule andvalue ~~ ERule QUOTE.
Definition e_orinner : expr rule :=
  ERule orvalue // ERule QUOTE ~~ ERule orvalue ~~ ERule QUOTE.
Definition e_inner : expr rule := EStar (ERule char_).
Definition e_char : expr rule :=
  ENot (EStr quote_s // EStr bslash_s) ~~ EAny
  // EStr bslash_s ~~ (EStr quote_s // EStr bslash_s // EStr "/" // EStr "b"
                        // EStr "f" // EStr "n" // EStr "r" // EStr "t")
  // EStr bslash_s ~~ (EStr "u" ~~ EClass is_hex ~~ EClass is_hex ~~ EClass is_hex ~~ EClass is_hex).
Definition e_number : expr rule :=
  EOpt (EStr "-")
  ~~ (EStr "0" // EClass is_nzdigit ~~ EStar (EClass is_digit))
  ~~ EOpt (EStr "." ~~ EStar (EClass is_digit))
  ~~ EOpt (EStrI "e"%char ~~ EOpt (EStr "+" // EStr "-") ~~ EPlus (EClass is_digit)).
Definition e_content : expr rule := ESoi ~~ ERule node ~~ EEoi EOI.

(** Implicit whitespace, generated by pest from WHITESPACE and COMMENT; pest, not in /repo. *)
Definition e_skip : expr rule :=
  EStar (ERule WHITESPACE) ~~ EStar (ERule COMMENT ~~ EStar (ERule WHITESPACE)).

(** Rules that a grammar file does not define; never referenced; not in /repo. *)
Definition e_none : expr rule := EClass (fun _ => false).

(** /repo/src/human.policy.pest:3-35. *)
Definition human_body (r : rule) : expr rule :=
  match r with
  | WHITESPACE => e_whitespace
  | COMMENT => e_comment
  | QUOTE => EStr quote_s
  | andvalue => e_andvalue
  | orvalue => e_orvalue
  | andinner => e_andinner
  | orinner => e_orinner
  | BRACEOPEN => EStr "(" // EStr "[" // EStr "{"
  | BRACECLOSE => EStr ")" // EStr "]" // EStr "}"
  | node => ERule and_ // ERule or_ // ERule term_
  | or_ => ERule term_ ~~ EPlus (ERule orinner ~~ ERule term_)
  | and_ => ERule term_ ~~ EPlus (ERule andinner ~~ ERule term_)
  | term_ => ERule value // EStr "(" ~~ ERule node ~~ EStr ")"
  | value => ERule string_ // ERule number // ERule BRACEOPEN ~~ ERule node ~~ ERule BRACECLOSE
  | string_ => EStr quote_s ~~ ERule inner ~~ EStr quote_s
  | inner => e_inner
  | char_ => e_char
  | number => e_number
  | content => e_content
  | EOI => e_none
  | NAME | CHILDREN => e_none
  end.

(** The signs before the braces; /repo/src/human.policy.pest:3-34. *)
Definition human_kind (r : rule) : kind :=
  match r with
  | WHITESPACE | COMMENT => KSilentAtomic
  | or_ | and_ | char_ => KNormal
  | string_ => KCompound
  | inner | number => KAtomic
  | _ => KSilent
  end.

(** /repo/src/human.policy.pest:3-34. *)
Definition human : grammar rule := Grammar rule human_kind human_body e_skip.

(** /repo/src/json.policy.pest:14-54. *)
Definition json_body (r : rule) : expr rule :=
  match r with
  | WHITESPACE => e_whitespace
  | COMMENT => e_comment
  | NAME => EStr "name" // EStr "NAME"
            // ERule QUOTE ~~ EStr "name" ~~ ERule QUOTE
            // ERule QUOTE ~~ EStr "NAME" ~~ ERule QUOTE
  | QUOTE => EStr quote_s
  | CHILDREN => EStr "children" // EStr "CHILDREN"
                // ERule QUOTE ~~ EStr "children" ~~ ERule QUOTE
                // ERule QUOTE ~~ EStr "CHILDREN" ~~ ERule QUOTE
  | andvalue => e_andvalue
  | orvalue => e_orvalue
  | andinner => e_andinner
  | orinner => e_orinner
  | node => EStr "{" ~~ ERule NAME ~~ EStr ":" ~~ ERule value ~~ EStr "}"
            // EStr "{" ~~ ERule NAME ~~ EStr ":" ~~ ERule and_ ~~ EStr "}"
            // EStr "{" ~~ ERule NAME ~~ EStr ":" ~~ ERule or_ ~~ EStr "}"
  | value => ERule string_ // ERule number
  | and_ => ERule andinner ~~ EStr "," ~~ ERule CHILDREN ~~ EStr ":" ~~ EStr "[" ~~ EStr "]"
            // ERule andinner ~~ EStr "," ~~ ERule CHILDREN ~~ EStr ":" ~~ EStr "["
                ~~ ERule node ~~ EStar (EStr "," ~~ ERule node) ~~ EStr "]"
  | or_ => ERule orinner ~~ EStr "," ~~ ERule CHILDREN ~~ EStr ":" ~~ EStr "[" ~~ EStr "]"
           // ERule orinner ~~ EStr "," ~~ ERule CHILDREN ~~ EStr ":" ~~ EStr "["
               ~~ ERule node ~~ EStar (EStr "," ~~ ERule node) ~~ EStr "]"
  | string_ => ERule QUOTE ~~ ERule inner ~~ ERule QUOTE
  | inner => e_inner
  | char_ => e_char
  | number => e_number
  | content => e_content
  | EOI => e_none
  | BRACEOPEN | BRACECLOSE | term_ => e_none
  end.

(** The signs before the braces; /repo/src/json.policy.pest:14-54. *)
Definition json_kind (r : rule) : kind :=
  match r with
  | WHITESPACE | COMMENT => KSilentAtomic
  | or_ | and_ => KNormal
  | string_ => KCompound
  | inner | number => KAtomic
  | _ => KSilent
  end.

(** /repo/src/json.policy.pest:14-54. *)
Definition json : grammar rule := Grammar rule json_kind json_body e_skip.
