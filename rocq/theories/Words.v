(** * Words: from the words of a command line to the arguments of a command; rabe-console/src/mod.rs:142-469

    How clap (2.33.3) hands the words out is taken from its documentation.  An argument declared without
    [short] and [long] is positional, and its place is that of its declaration.  One with [last(true)] takes
    the words after "--" and no other.  One without [multiple(true)] takes one word.  A word that begins with a
    dash is an option, unless "--" came before.  Values are not split at commas, which has to be asked for by
    [use_delimiter].  Left out: the spelling "--a=value", and [authgen], whose declarations break a rule of
    clap (a positional argument that takes many words has to be the last one; rabe-console/src/mod.rs:221-239).
    [None] is a command line that clap answers itself, with a message or with a help text. *)
From Coq Require Import String Ascii List Bool Arith.
From Verif Require Import Base Crypto Policy Files Borsh Errors Messages Console CommandLine ConsolePrints.
Import ListNotations.
Local Open Scope string_scope.

(** An [Arg]: its name, and whether [long], [multiple] and [last] are set; e.g.
    rabe-console/src/mod.rs:187-194. *)
Record decl : Type := Decl { a_name : string; a_long : bool; a_multiple : bool; a_last : bool }.
(** The four kinds of declarations; rabe-console/src/mod.rs:166-172, 221-227, 187-194 and 294-300. *)
Definition one_word (k : string) : decl := Decl k false false false.
Definition many_words (k : string) : decl := Decl k false true false.
Definition last_words (k : string) : decl := Decl k false true true.
Definition option_word (k : string) : decl := Decl k true false false.

(** The arguments of the subcommands in the order of their declaration; rabe-console/src/mod.rs:162-468. *)
Definition declared (c : command) : list decl :=
  match c with
  | Setup => [one_word MSK_FILE; one_word PK_FILE; one_word GP_FILE; last_words ATTRIBUTES]
  | Authgen => [one_word GP_FILE; one_word MSK_FILE; one_word PK_FILE; many_words ATTRIBUTES; one_word POLICY;
                one_word NAME]
  | Keygen => [one_word GP_FILE; one_word MSK_FILE; one_word PK_FILE; one_word SK_FILE; one_word AU_SK_FILE;
               one_word POLICY; one_word NAME; option_word ATTRIBUTES]
  | Delegate => [one_word SK_FILE; one_word PK_FILE; many_words ATTRIBUTES]
  | Encrypt => [one_word FILE; one_word POLICY; one_word GP_FILE; one_word PK_FILE; many_words ATTRIBUTES]
  | Decrypt => [one_word FILE; one_word GP_FILE; one_word PK_FILE; one_word SK_FILE]
  | ReqAttrPk => [one_word PK_FILE; one_word AU_SK_FILE; one_word PKA_FILE; one_word ATTRIBUTES]
  | ReqAttrSk => [one_word SK_FILE; one_word SKA_FILE; one_word AU_SK_FILE; one_word ATTRIBUTES]
  end.

(** A word that clap takes for an option; "-" alone is none.  Not in /repo. *)
Definition dashed (w : string) : bool :=
  match w with
  | String a (String _ _) => Ascii.eqb a "-"
  | _ => false
  end.

(** A further word for the argument [k]; not in /repo. *)
Definition give (k w : string) (g : args) : args :=
  fun x => if seqb x k then Some (match g k with Some l => l ++ [w] | None => [w] end)%list else g x.

(** Where "--" leads: to the argument with [last(true)], if there is one; not in /repo. *)
Definition beyond (ps : list decl) : list decl :=
  match filter a_last ps with [] => ps | l => l end.

(** The words one after the other.  [os] are the options, [ps] the positional arguments still open, [after]
    tells that "--" has been seen.  Clap's [get_matches]; called at rabe-console/src/mod.rs:469. *)
Fixpoint take (os ps : list decl) (after : bool) (g : args) (ws : list string) : option args :=
  match ws with
  | [] => Some g
  | w :: r =>
      if negb after && seqb w "--" then take os (beyond ps) true g r
      else if negb after && dashed w then
        match find (fun o => seqb w ("--" ++ a_name o)) os, r with
        | Some o, v :: r' =>
            if dashed v then None
            else match g (a_name o) with
                 | None => take os ps after (give (a_name o) v g) r'
                 | Some _ => None
                 end
        | _, _ => None
        end
      else
        match ps with
        | [] => None
        | p :: q =>
            if a_last p && negb after then None
            else take os (if a_multiple p then ps else q) after (give (a_name p) w g) r
        end
  end.

(** The words of a subcommand; the document is [required(true)] without a default value,
    rabe-console/src/mod.rs:334-339 and 373-378. *)
Definition words (c : command) (ws : list string) : option args :=
  match c with
  | Authgen => None
  | _ =>
      match take (filter a_long (declared c)) (filter (fun a => negb (a_long a)) (declared c)) false
                 (fun _ => None) ws with
      | Some g =>
          match c, g FILE with
          | Encrypt, None | Decrypt, None => None
          | _, _ => Some g
          end
      | None => None
      end
  end.

(** The words before the subcommand, with [possible_values]; rabe-console/src/mod.rs:146-161. *)
Fixpoint front (s l : option string) (ws : list string)
  : option (option string * option string * option (string * list string)) :=
  match ws with
  | [] => Some (s, l, None)
  | w :: r =>
      if seqb w "--s" then
        match s, r with
        | None, v :: r' => if existsb (seqb v) scheme_names then front (Some v) l r' else None
        | _, _ => None
        end
      else if seqb w "--l" then
        match l, r with
        | None, v :: r' => if existsb (seqb v) lang_names then front s (Some v) r' else None
        | _, _ => None
        end
      else
        match command_of w with
        | Some _ => Some (s, l, Some (w, r))
        | None => None
        end
  end.

(** The whole command line; the scheme is [required(true)], rabe-console/src/mod.rs:146-153. *)
Definition command_line (ws : list string) : option (string * option string * option (string * args)) :=
  match front None None ws with
  | Some (Some s, l, None) => Some (s, l, None)
  | Some (Some s, l, Some (w, r)) =>
      match command_of w with
      | Some c => match words c r with Some g => Some (s, l, Some (w, g)) | None => None end
      | None => None
      end
  | _ => None
  end.

(** rabe-console called with these words: the text on standard output, the files and the exit status, or [None]
    if clap answers itself; rabe-console/src/mod.rs:142-513. *)
Definition program {C : crypto} (E : env C) (place : language -> string -> location) (fe : field_error)
  (pest : language -> string -> string) (debug : string -> string) (T : crate_texts)
  (t : nat -> F C) (nonce : string) (ws : list string) (d : fs) : option (string * (fs * nat)) :=
  match command_line ws with
  | Some (s, l, sub) => Some (main E place fe pest debug T t nonce (Some s) l sub d)
  | None => None
  end.
