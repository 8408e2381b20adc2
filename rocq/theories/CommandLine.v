(** * CommandLine: rabe-console/src/mod.rs:111-513

    The names of schemes, languages and subcommands, the default values of the
    arguments, and the dispatch.  That clap (2.33.3) stores a default value for
    an absent argument, and rejects a scheme or language outside
    [possible_values], is taken from its documentation; how it splits a command
    line into arguments is not modelled. *)
From Coq Require Import String Ascii List Bool Arith.
From Verif Require Import Base Crypto Policy Files Borsh Console.
Import ListNotations.
Local Open Scope string_scope.

(** [Scheme::variants()] and the match on its names;
    rabe-console/src/mod.rs:112-124 and 478-488. *)
Definition scheme_names : list string :=
  ["AC17CP"; "AC17KP"; "AW11"; "BDABE"; "BSW"; "LSW"; "MKE08"; "YCT14"].
Definition scheme_of (s : string) : scheme :=
  if seqb s "AC17CP" then AC17CP
  else if seqb s "AC17KP" then AC17KP
  else if seqb s "AW11" then AW11
  else if seqb s "BDABE" then BDABE
  else if seqb s "BSW" then BSW
  else if seqb s "LSW" then LSW
  else if seqb s "MKE08" then MKE08
  else if seqb s "YCT14" then YCT14
  else BSW.

(** [Lang::variants()] and the language; rabe-console/src/mod.rs:125-131 and 489-497. *)
Definition lang_names : list string := ["HUMAN"; "JSON"].
Definition lang_of (l : option string) : language :=
  match l with
  | Some x => if seqb x "JSON" then JsonPolicy else HumanPolicy
  | None => HumanPolicy
  end.

(** The subcommands by name; rabe-console/src/mod.rs:102-109 and 498-508. *)
Definition command_of (s : string) : option command :=
  if seqb s "setup" then Some Setup
  else if seqb s "authgen" then Some Authgen
  else if seqb s "keygen" then Some Keygen
  else if seqb s "delegate" then Some Delegate
  else if seqb s "encrypt" then Some Encrypt
  else if seqb s "decrypt" then Some Decrypt
  else if seqb s "req-attr-pk" then Some ReqAttrPk
  else if seqb s "req-attr-sk" then Some ReqAttrSk
  else None.

(** The arguments with [default_value], in the order of their declaration;
    rabe-console/src/mod.rs:166-463. *)
Definition defaulted (c : command) : list string :=
  match c with
  | Setup => [MSK_FILE; PK_FILE; GP_FILE]
  | Authgen => [GP_FILE; MSK_FILE; PK_FILE]
  | Keygen => [GP_FILE; MSK_FILE; PK_FILE; SK_FILE; AU_SK_FILE]
  | Delegate => [SK_FILE; PK_FILE]
  | Encrypt => [GP_FILE; PK_FILE]
  | Decrypt => [GP_FILE; PK_FILE; SK_FILE]
  | ReqAttrPk => [PK_FILE; AU_SK_FILE; PKA_FILE]
  | ReqAttrSk => [SK_FILE; SKA_FILE; AU_SK_FILE]
  end.

(** What [arguments] holds when [given] was on the command line; the default
    names are those of rabe-console/src/mod.rs:133-140. *)
Definition matches (c : command) (given : args) : args :=
  fun k => match given k with
           | Some vs => Some vs
           | None => if existsb (seqb k) (defaulted c) then Some [key_file k] else None
           end.

Section App.
Context {C : crypto} (E : env C).

(** [run]; rabe-console/src/mod.rs:476-513.  Without a scheme the process exits
    with status 1, like after an error. *)
Definition app (t : nat -> F C) (nonce text : string) (scheme_arg lang_arg : option string)
  (sub : option (string * args)) : io unit :=
  match scheme_arg with
  | None => ilift Err
  | Some s =>
      match sub with
      | None => iret tt
      | Some (name, given) =>
          match command_of name with
          | None => iret tt
          | Some c => run E t nonce text c (matches c given) (scheme_of s) (lang_of lang_arg)
          end
      end
  end.
End App.

(** The exit status; rabe-console/src/mod.rs:471-474, and 101 for a panic. *)
Definition status (o : outcome unit) : nat :=
  match o with Ok _ => 0 | Err => 1 | Panic => 101 end.
