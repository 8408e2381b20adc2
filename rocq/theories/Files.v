(** * Files: /repo/src/utils/file/mod.rs

    A file system maps paths to regular files.  Opening and creating can be
    refused; a read or write on a file opened for it does not fail (no full
    disk, no device errors). *)
From Coq Require Import String Ascii List Bool Arith.
From Verif Require Import Base.
Import ListNotations.
Local Open Scope string_scope.

(** A regular file with its content and whether the process may read it; std, not in /repo. *)
Record file := File { f_bytes : string; f_readable : bool }.

(** The files by their paths, and which may be made; [File::open] and [File::create], /repo/src/utils/file/mod.rs:9, 32, 54 and 83. *)
Record fs := Fs {
  fs_files : string -> option file;
  (* whether [File::create] is allowed at a path *)
  fs_may_create : string -> bool
}.

(** [File::open(path)]: read-only access; as called at
    /repo/src/utils/file/mod.rs:9, 32 and 54. *)
Definition fs_open (d : fs) (path : string) : option string :=
  match fs_files d path with
  | Some f => if f_readable f then Some (f_bytes f) else None
  | None => None
  end.

(** [File::create(path)] followed by writing [content];
    /repo/src/utils/file/mod.rs:83-95.  Creating truncates; a new file is
    readable, an existing one keeps its permissions. *)
Definition fs_create (d : fs) (path content : string) : option fs :=
  if fs_may_create d path then
    Some (Fs (fun p => if seqb p path
                       then Some (File content (match fs_files d path with
                                                | Some f => f_readable f | None => true end))
                       else fs_files d p)
             (fs_may_create d))
  else None.

(** Byte [c] lies in [lo, hi]; not in /repo. *)
Definition between (lo hi : nat) (c : ascii) : bool :=
  (lo <=? nat_of_ascii c)%nat && (nat_of_ascii c <=? hi)%nat.

(** Well-formed UTF-8, the check of [read_to_string] at
    /repo/src/utils/file/mod.rs:20 (table 3-7 of the Unicode standard). *)
Fixpoint utf8 (s : string) : bool :=
  match s with
  | EmptyString => true
  | String a r =>
    if between 0 127 a then utf8 r
    else match r with
    | EmptyString => false
    | String b r1 =>
      if between 194 223 a then between 128 191 b && utf8 r1
      else match r1 with
      | EmptyString => false
      | String c r2 =>
        if between 224 224 a then between 160 191 b && between 128 191 c && utf8 r2
        else if between 225 236 a || between 238 239 a
             then between 128 191 b && between 128 191 c && utf8 r2
        else if between 237 237 a then between 128 159 b && between 128 191 c && utf8 r2
        else match r2 with
        | EmptyString => false
        | String e r3 =>
          if between 240 240 a then between 144 191 b && between 128 191 c && between 128 191 e && utf8 r3
          else if between 241 243 a then between 128 191 b && between 128 191 c && between 128 191 e && utf8 r3
          else if between 244 244 a then between 128 143 b && between 128 191 c && between 128 191 e && utf8 r3
          else false
        end
      end
    end
  end.

(** [read_file]; /repo/src/utils/file/mod.rs:5-25. *)
Definition read_file (d : fs) (path : string) : outcome string :=
  match fs_open d path with
  | None => Panic
  | Some s => if utf8 s then Ok s else Panic
  end.

(** [read_to_vec]; /repo/src/utils/file/mod.rs:27-47. *)
Definition read_to_vec (d : fs) (path : string) : outcome string :=
  match fs_open d path with
  | None => Panic
  | Some s => Ok s
  end.

(** [write_from_vec]; /repo/src/utils/file/mod.rs:49-68.  The file is opened
    read-only, so writing at least one byte fails; [write_all] of no bytes does
    not touch the file. *)
Definition write_from_vec (d : fs) (path data : string) : outcome fs :=
  match fs_open d path with
  | None => Panic
  | Some _ => match data with EmptyString => Ok d | _ => Panic end
  end.

(** [write_file]; /repo/src/utils/file/mod.rs:78-98. *)
Definition write_file (d : fs) (path content : string) : outcome (bool * fs) :=
  match fs_create d path content with
  | None => Panic
  | Some d' => Ok (true, d')
  end.

(** Line feed and carriage return, for [lines] at /repo/src/utils/file/mod.rs:73. *)
Definition nl : ascii := ascii_of_nat 10.
Definition cr : ascii := ascii_of_nat 13.

(** One carriage return at the end of a line is dropped; for [lines] at /repo/src/utils/file/mod.rs:73. *)
Fixpoint strip_cr (s : string) : string :=
  match s with
  | EmptyString => EmptyString
  | String c EmptyString => if Ascii.eqb c cr then EmptyString else s
  | String c r => String c (strip_cr r)
  end.

(** [str::lines]: pieces ended by a line feed, without "\n" or "\r\n"; a rest
    without line feed is a last line.  [cur] is the line read so far; called at /repo/src/utils/file/mod.rs:73. *)
Fixpoint lines_from (cur s : string) : list string :=
  match s with
  | EmptyString => match cur with EmptyString => [] | _ => [cur] end
  | String c r => if Ascii.eqb c nl then strip_cr cur :: lines_from EmptyString r
                  else lines_from (cur ++ String c EmptyString) r
  end.
Definition lines (s : string) : list string := lines_from EmptyString s.

(** [read_raw]; /repo/src/utils/file/mod.rs:70-76. *)
Definition read_raw (raw : string) : outcome string :=
  unwrap (nth_error (lines raw) 1).
