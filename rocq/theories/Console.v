(** * Console: /repo/rabe-console/src/mod.rs (feature "borsh", its default)

    The arguments of a command are the [ArgMatches] that clap hands to it; what
    clap guarantees about them is [clap_ok], read off the declarations at
    lines 142-475.  A command works on the file system of Files.v, draws from
    its own random tape and ends in success, a reported error or a panic; the
    file system it leaves is part of the result.  Terminal output is in
    ConsolePrints.v. *)
From Coq Require Import String Ascii List Bool Arith NArith.
From Verif Require Import Base Crypto Policy Files Borsh.
From Verif Require Bsw Lsw Yct14 Ac17 Aw11 Bdabe Mke08.
Import ListNotations.
Local Open Scope string_scope.

(** ** Hexadecimal text (crate rustc-hex) *)

(** A digit of [to_hex]; rustc-hex, called at rabe-console/src/mod.rs:1632. *)
Definition hex_digit (n : N) : ascii :=
  ascii_of_N (if (n <? 10)%N then 48 + n else 87 + n).

(** [to_hex]: two lower-case digits per byte; rabe-console/src/mod.rs:1632. *)
Fixpoint to_hex (s : string) : string :=
  match s with
  | EmptyString => EmptyString
  | String b r => String (hex_digit (N_of_ascii b / 16)) (String (hex_digit (N_of_ascii b mod 16)) (to_hex r))
  end.

(** The value of a digit, for [from_hex]; rabe-console/src/mod.rs:1675. *)
Definition hex_value (c : ascii) : option N :=
  let n := N_of_ascii c in
  if ((48 <=? n) && (n <=? 57))%N then Some (n - 48)%N
  else if ((65 <=? n) && (n <=? 70))%N then Some (n - 55)%N
  else if ((97 <=? n) && (n <=? 102))%N then Some (n - 87)%N
  else None.
(** What [from_hex] skips; rustc-hex, called at rabe-console/src/mod.rs:1675. *)
Definition hex_blank (c : ascii) : bool :=
  match N_of_ascii c with 32%N | 13%N | 10%N | 9%N => true | _ => false end.

(** [from_hex]: blanks are skipped, other characters and an odd number of digits
    are errors.  [hi] is a digit waiting for its partner; rabe-console/src/mod.rs:1675. *)
Fixpoint from_hex_at (hi : option N) (s : string) : option string :=
  match s with
  | EmptyString => match hi with None => Some EmptyString | Some _ => None end
  | String c r =>
      if hex_blank c then from_hex_at hi r
      else bind (hex_value c) (fun v =>
        match hi with
        | None => from_hex_at (Some v) r
        | Some h => bind (from_hex_at None r) (fun t => Some (String (ascii_of_N (16 * h + v)) t))
        end)
  end.
Definition from_hex (s : string) : option string := from_hex_at None s.

(** ** Constants; rabe-console/src/mod.rs:54-108 *)

(** Names of arguments; rabe-console/src/mod.rs:64-79. *)
Definition ATTRIBUTES := "a". Definition POLICY := "p". Definition NAME := "n". Definition FILE := "f".
Definition GP_FILE := "gp". Definition MSK_FILE := "msk". Definition PK_FILE := "pk".
Definition SK_FILE := "sk". Definition SKA_FILE := "ska". Definition PKA_FILE := "pka".
Definition AU_SK_FILE := "skau".

(** First and last lines of files; rabe-console/src/mod.rs:82-99. *)
Definition nls : string := String nl EmptyString.
Definition begin_ (what : string) : string := "-----BEGIN " ++ what ++ "-----" ++ nls.
Definition end_ (what : string) : string := nls ++ "-----END " ++ what ++ "-----".

(** [Scheme]; rabe-console/src/mod.rs:111-123. *)
Inductive scheme := AC17CP | AC17KP | AW11 | BDABE | BSW | LSW | MKE08 | YCT14.

(** The subcommands; rabe-console/src/mod.rs:100-108. *)
Inductive command :=
  Setup | Authgen | Keygen | Delegate | Encrypt | Decrypt | ReqAttrPk | ReqAttrSk.

(** ** Arguments *)

(** [ArgMatches] of clap: the values of an argument, if it is present; rabe-console/src/mod.rs:21. *)
Definition args : Type := string -> option (list string).

(** [ArgMatches::value_of]: the first value; called for instance at rabe-console/src/mod.rs:519. *)
Definition value_of (m : args) (k : string) : option string :=
  match m k with Some (v :: _) => Some v | _ => None end.

(** [name.key]; rabe-console/src/mod.rs:521-523 with the constants at 59-61. *)
Definition key_file (name : string) : string := name ++ "." ++ "key".

(** [match arguments.value_of(X) { None => X.key, Some(f) => f }], as in all commands;
    rabe-console/src/mod.rs:519-542. *)
Definition file_arg (m : args) (k : string) : string :=
  match value_of m k with None => key_file k | Some f => f end.

(** [match arguments.values_of(ATTRIBUTES) { None => [], Some(a) => a.collect() }];
    rabe-console/src/mod.rs:669-678. *)
Definition attr_args (m : args) : list string :=
  match m ATTRIBUTES with None => [] | Some l => l end.

(** [match arguments.value_of(X) { None => "", Some(s) => s }]; as in rabe-console/src/mod.rs:750-830. *)
Definition text_arg (m : args) (k : string) : string :=
  match value_of m k with None => "" | Some s => s end.

(** [_name_file] and [_au_file]: [name.key], or nothing without a name;
    rabe-console/src/mod.rs:679-687 and 823-831. *)
Definition named_file (m : args) : string :=
  match value_of m NAME with None => "" | Some n => key_file n end.

(** What clap guarantees: an argument that the subcommand does not declare is
    absent, one that is required or has a default value is present, one not
    declared [multiple] has a single value; rabe-console/src/mod.rs:160-474. *)
Definition present (c : command) : list string :=
  match c with
  | Setup => [MSK_FILE; PK_FILE; GP_FILE]
  | Authgen => [GP_FILE; MSK_FILE; PK_FILE]
  | Keygen => [GP_FILE; MSK_FILE; PK_FILE; SK_FILE; AU_SK_FILE]
  | Delegate => [SK_FILE; PK_FILE]
  | Encrypt => [FILE; GP_FILE; PK_FILE]
  | Decrypt => [FILE; GP_FILE; PK_FILE; SK_FILE]
  | ReqAttrPk => [PK_FILE; AU_SK_FILE; PKA_FILE]
  | ReqAttrSk => [SK_FILE; SKA_FILE; AU_SK_FILE]
  end.
Definition optional (c : command) : list string :=
  match c with
  | Setup => [ATTRIBUTES]
  | Authgen => [ATTRIBUTES; POLICY; NAME]
  | Keygen => [POLICY; NAME; ATTRIBUTES]
  | Delegate => [ATTRIBUTES]
  | Encrypt => [POLICY; ATTRIBUTES]
  | Decrypt => []
  | ReqAttrPk => [ATTRIBUTES]
  | ReqAttrSk => [ATTRIBUTES]
  end.
(** Arguments declared with [multiple(true)]; rabe-console/src/mod.rs:191, 225, 324 and 365. *)
Definition multiple (c : command) : list string :=
  match c with
  | Setup | Authgen | Delegate | Encrypt => [ATTRIBUTES]
  | _ => []
  end.
Definition clap_ok (c : command) (m : args) : Prop :=
  (forall k, In k (present c) -> m k <> None) /\
  (forall k, ~ In k (present c) -> ~ In k (optional c) -> m k = None) /\
  (forall k vs, m k = Some vs -> ~ In k (multiple c) -> exists v, vs = [v]) /\
  (forall k vs, m k = Some vs -> vs <> []).

(** ** Actions *)

(** A step on the file system, as the statements of the commands at rabe-console/src/mod.rs:515-1617. *)
Definition io (A : Type) : Type := fs -> fs * outcome A.
Definition iret {A} (a : A) : io A := fun d => (d, Ok a).
Definition ilift {A} (o : outcome A) : io A := fun d => (d, o).
Definition ibind {A B} (m : io A) (k : A -> io B) : io B :=
  fun d => match m d with
           | (d', Ok a) => k a d'
           | (d', Err) => (d', Err)
           | (d', Panic) => (d', Panic)
           end.
Declare Scope io_scope.
Notation "x <- m ;; k" := (ibind m (fun x => k))
  (at level 61, m at next level, right associativity) : io_scope.
Notation "' p <- m ;; k" := (ibind m (fun p => k))
  (at level 61, p pattern, m at next level, right associativity) : io_scope.
Local Open Scope io_scope.

(** A randomised step on the tape of the process;
    the library draws from [rand::thread_rng()]; the calls are at rabe-console/src/mod.rs:515-1617. *)
Definition irun {F A} (t : nat -> F) (m : rand F A) : io A :=
  ilift (match m t 0 with Ok (a, _) => Ok a | Err => Err | Panic => Panic end).

(** [write_file(Path::new(&path), content)]; the Boolean is not used;
    /repo/src/utils/file/mod.rs:78-99, called for instance at rabe-console/src/mod.rs:546-553. *)
Definition isave (path content : string) : io unit :=
  fun d => match write_file d path content with
           | Ok (_, d') => (d', Ok tt)
           | Err => (d, Err)
           | Panic => (d, Panic)
           end.

(** The same step with an error turned into a panic ([unwrap], or
    [Err(e) => panic!]); as in rabe-console/src/mod.rs:750-957. *)
Definition iunwrap {A} (m : io A) : io A :=
  fun d => let '(d', o) := m d in (d', unwrap_res o).

(** [Result] kept as a value ([let _ct = bsw::encrypt(..)]); rabe-console/src/mod.rs:1089-1250. *)
Definition itry {A} (m : io A) : io (option A) :=
  fun d => match m d with
           | (d', Ok a) => (d', Ok (Some a))
           | (d', Err) => (d', Ok None)
           | (d', Panic) => (d', Panic)
           end.

(** A loop over files, as at rabe-console/src/mod.rs:1055-1062. *)
Fixpoint imap {A B} (f : A -> io B) (l : list A) : io (list B) :=
  match l with
  | [] => iret []
  | x :: r => y <- f x ;; ys <- imap f r ;; iret (y :: ys)
  end.

(** The codecs of rabe_bn and the crates deflate and inflate; rabe-console/src/mod.rs:5-6. *)
Record env (C : crypto) : Type := Env {
  e_wire : wire C;
  e_deflate : string -> string;
  e_inflate : string -> option string
}.
Arguments e_wire {C} _. Arguments e_deflate {C} _ _. Arguments e_inflate {C} _ _.

Section Console.
Context {C : crypto} (E : env C).
Local Notation W := (e_wire E).

(** [ser_enc]; rabe-console/src/mod.rs:1622-1634. *)
Definition ser_bytes (b : option string) (what : string) : outcome string :=
  match b with
  | None => Panic
  | Some s => Ok (begin_ what ++ to_hex (e_deflate E s) ++ end_ what)
  end.
Definition ser_enc {A} (c : codec A) (v : A) (what : string) : outcome string :=
  ser_bytes (enc c v) what.

(** [ser_dec_bin]; rabe-console/src/mod.rs:1672-1684. *)
Definition ser_dec_bin (d : fs) (file_name : string) : outcome string :=
  obind (read_file d file_name) (fun raw =>
  obind (read_raw raw) (fun s =>
  match from_hex s with
  | None => Err
  | Some b => match e_inflate E b with None => Err | Some x => Ok x end
  end)).

(** [ser_dec]; rabe-console/src/mod.rs:1650-1659. *)
Definition ser_dec {A} (c : codec A) (file_name : string) : io A :=
  fun d => (d, obind (ser_dec_bin d file_name) (fun b => try_from_slice c b)).

(** [write_file(path, ser_enc(v, X_BEGIN, X_END))]; as at rabe-console/src/mod.rs:546-553. *)
Definition store {A} (path : string) (c : codec A) (v : A) (what : string) : io unit :=
  s <- ilift (ser_enc c v what) ;;
  isave path s.

(** The same for a [Result]; [text] is the message if it is an error; as in rabe-console/src/mod.rs:1089-1250. *)
Definition store_result {A} (path : string) (c : codec A) (text : string) (v : option A) : io unit :=
  s <- ilift (ser_bytes (enc_result c text v) "CT") ;;
  isave path s.

(** [run_setup]; rabe-console/src/mod.rs:515-631. *)
Definition run_setup (t : nat -> F C) (m : args) (s : scheme) : io unit :=
  let msk_file := file_arg m MSK_FILE in
  let pk_file := file_arg m PK_FILE in
  match s with
  | AC17CP | AC17KP =>
      ' (pk, msk) <- irun t Ac17.ac_setup ;;
      _ <- store msk_file (c_ac_msk W) msk "MSK" ;;
      store pk_file (c_ac_pk W) pk "PK"
  | AW11 =>
      gp <- irun t Aw11.aw_setup ;;
      store msk_file (c_aw_gk W) gp "GP"
  | BDABE =>
      ' (pk, msk) <- irun t Bdabe.bd_setup ;;
      _ <- store msk_file (c_bd_msk W) msk "MSK" ;;
      store pk_file (c_bd_pk W) pk "PK"
  | BSW =>
      ' (pk, msk) <- irun t Bsw.bsw_setup ;;
      _ <- store msk_file (c_bsw_msk W) msk "MSK" ;;
      store pk_file (c_bsw_pk W) pk "PK"
  | LSW =>
      ' (pk, msk) <- irun t Lsw.lsw_setup ;;
      _ <- store msk_file (c_lsw_msk W) msk "MSK" ;;
      store pk_file (c_lsw_pk W) pk "PK"
  | MKE08 =>
      ' (pk, msk) <- irun t Mke08.mk_setup ;;
      _ <- store msk_file (c_mk_msk W) msk "MSK" ;;
      store pk_file (c_mk_pk W) pk "PK"
  | YCT14 =>
      match attr_args m with
      | [] => ilift Err
      | attributes =>
          ' (pk, msk) <- irun t (Yct14.yct_setup attributes) ;;
          _ <- store msk_file (c_yct_msk W) msk "MSK" ;;
          store pk_file (c_yct_pk W) pk "PK"
      end
  end.

(** [run_authgen]; rabe-console/src/mod.rs:633-748. *)
Definition run_authgen (t : nat -> F C) (m : args) (s : scheme) : io unit :=
  let msk_file := file_arg m MSK_FILE in
  let pk_file := file_arg m PK_FILE in
  let gp_file := file_arg m GP_FILE in
  match s with
  | AW11 =>
      gp <- ser_dec (c_aw_gk W) gp_file ;;
      o <- irun t (Aw11.aw_authgen gp (attr_args m)) ;;
      match o with
      | None => ilift Err
      | Some (pk, msk) =>
          _ <- store msk_file (c_aw_msk W) msk "SAUK" ;;
          store pk_file (c_aw_pk W) pk "PAUK"
      end
  | BDABE =>
      pk <- ser_dec (c_bd_pk W) pk_file ;;
      msk <- ser_dec (c_bd_msk W) msk_file ;;
      sk <- irun t (Bdabe.bd_authgen pk msk (text_arg m NAME)) ;;
      store (named_file m) (c_bd_auth W) sk "SAUK"
  | MKE08 =>
      _ <- ser_dec (c_mk_pk W) pk_file ;;
      _ <- ser_dec (c_mk_msk W) msk_file ;;
      sk <- irun t (Mke08.mk_authgen (text_arg m NAME)) ;;
      store (named_file m) (c_mk_auth W) sk "SAUK"
  | _ => ilift Err
  end.

(** [run_keygen]; rabe-console/src/mod.rs:750-957. *)
Definition run_keygen (t : nat -> F C) (m : args) (s : scheme) (lang : language) : io unit :=
  let msk_file := file_arg m MSK_FILE in
  let pk_file := file_arg m PK_FILE in
  let gp_file := file_arg m GP_FILE in
  let sk_file := file_arg m SK_FILE in
  let ska_file := file_arg m SKA_FILE in
  let attributes := attr_args m in
  let policy := text_arg m POLICY in
  let name := text_arg m NAME in
  match s with
  | AC17CP =>
      msk <- iunwrap (ser_dec (c_ac_msk W) msk_file) ;;
      sk <- iunwrap (irun t (Ac17.cp_keygen msk attributes)) ;;
      store sk_file (c_ac_cpsk W) sk "SK"
  | AC17KP =>
      msk <- ser_dec (c_ac_msk W) msk_file ;;
      sk <- iunwrap (irun t (Ac17.kp_keygen msk policy lang)) ;;
      store sk_file (c_ac_kpsk W) sk "SK"
  | BSW =>
      pk <- ser_dec (c_bsw_pk W) pk_file ;;
      msk <- ser_dec (c_bsw_msk W) msk_file ;;
      o <- irun t (Bsw.bsw_keygen pk msk attributes) ;;
      sk <- ilift (unwrap o) ;;
      store sk_file (c_bsw_sk W) sk "SK"
  | LSW =>
      pk <- ser_dec (c_lsw_pk W) pk_file ;;
      msk <- ser_dec (c_lsw_msk W) msk_file ;;
      sk <- iunwrap (irun t (Lsw.lsw_keygen pk msk policy lang)) ;;
      store sk_file (c_lsw_sk W) sk "SK"
  | AW11 =>
      pk <- ser_dec (c_aw_gk W) gp_file ;;
      msk <- ser_dec (c_aw_msk W) msk_file ;;
      sk <- ilift (unwrap_res (Aw11.aw_keygen pk msk name attributes)) ;;
      store (named_file m) (c_aw_sk W) sk "SK"
  | BDABE =>
      pk <- ser_dec (c_bd_pk W) pk_file ;;
      msk <- ser_dec (c_bd_auth W) ska_file ;;
      sk <- irun t (Bdabe.bd_keygen pk msk name) ;;
      store (named_file m) (c_bd_uk W) sk "SK"
  | MKE08 =>
      pk <- ser_dec (c_mk_pk W) pk_file ;;
      msk <- ser_dec (c_mk_msk W) msk_file ;;
      if seqb name "" then ilift Err
      else
        sk <- irun t (Mke08.mk_keygen pk msk name) ;;
        store (named_file m) (c_mk_uk W) sk "SK"
  | YCT14 =>
      _ <- ser_dec (c_yct_pk W) pk_file ;;
      msk <- ser_dec (c_yct_msk W) msk_file ;;
      sk <- iunwrap (irun t (Yct14.yct_keygen msk policy lang)) ;;
      store sk_file c_yct_sk sk "SK"
  end.

(** [run_delegate]; rabe-console/src/mod.rs:959-1033.  The name of the file to
    write is set only in the branch without a given secret key file. *)
Definition run_delegate (t : nat -> F C) (m : args) (s : scheme) : io unit :=
  let pk_file := file_arg m PK_FILE in
  let sk_file := file_arg m SK_FILE in
  let dg_file := match value_of m SK_FILE with
                 | None => SK_FILE ++ "." ++ "del" ++ "." ++ "key"
                 | Some _ => ""
                 end in
  match s with
  | BSW =>
      pk <- ser_dec (c_bsw_pk W) pk_file ;;
      msk <- ser_dec (c_bsw_sk W) sk_file ;;
      o <- irun t (Bsw.bsw_delegate pk msk (attr_args m)) ;;
      match o with
      | None => ilift Err
      | Some del => store dg_file (c_bsw_sk W) del "SK"
      end
  | _ => ilift Err
  end.

(** [_pk_file] and [_pk_files] of [run_encrypt]; rabe-console/src/mod.rs:1047-1060. *)
Definition enc_pk_file (m : args) : string :=
  match value_of m PK_FILE with None => key_file PK_FILE | Some _ => "" end.
Definition enc_pk_files (m : args) : list string :=
  match value_of m PK_FILE with
  | None => [key_file PK_FILE]
  | Some _ => match m PK_FILE with Some l => l | None => [] end
  end.

(** [_ct_file]; rabe-console/src/mod.rs:1079-1087. *)
Definition enc_ct_file (m : args) : string :=
  match value_of m FILE with None => "" | Some f => f ++ "." ++ "ct" end.

(** [read_to_vec]; /repo/src/utils/file/mod.rs:27-47. *)
Definition iread (path : string) : io string := fun d => (d, read_to_vec d path).

(** [run_encrypt]; rabe-console/src/mod.rs:1035-1254.  In the branches of BSW,
    LSW, AW11, BDABE and MKE08 the [Result] of the scheme is what is written. *)
Definition run_encrypt (t : nat -> F C) (nonce text : string) (m : args) (s : scheme)
  (lang : language) : io unit :=
  let gp_file := file_arg m GP_FILE in
  let attributes := attr_args m in
  let policy := text_arg m POLICY in
  let ct_file := enc_ct_file m in
  buffer <- iread (text_arg m FILE) ;;
  match s with
  | AC17CP =>
      match enc_pk_files m with
      | [f] =>
          pk <- ser_dec (c_ac_pk W) f ;;
          ct <- irun t (Ac17.cp_encrypt nonce pk policy buffer lang) ;;
          store ct_file (c_ac_cpct W) ct "CT"
      | _ => ilift Err
      end
  | AC17KP =>
      match enc_pk_files m with
      | [_] =>
          pk <- ser_dec (c_ac_pk W) (enc_pk_file m) ;;
          ct <- irun t (Ac17.kp_encrypt nonce pk attributes buffer) ;;
          store ct_file (c_ac_kpct W) ct "CT"
      | _ => ilift Err
      end
  | BSW =>
      match enc_pk_files m with
      | [f] =>
          pk <- ser_dec (c_bsw_pk W) f ;;
          ct <- itry (irun t (Bsw.bsw_encrypt nonce pk policy lang buffer)) ;;
          store_result ct_file (c_bsw_ct W) text ct
      | _ => ilift Err
      end
  | LSW =>
      match enc_pk_files m with
      | [f] =>
          pk <- ser_dec (c_lsw_pk W) f ;;
          ct <- itry (irun t (Lsw.lsw_encrypt nonce pk attributes buffer)) ;;
          store_result ct_file (c_lsw_ct W) text ct
      | _ => ilift Err
      end
  | AW11 =>
      gp <- ser_dec (c_aw_gk W) gp_file ;;
      pks <- imap (ser_dec (c_aw_pk W)) (enc_pk_files m) ;;
      ct <- itry (irun t (Aw11.aw_encrypt nonce gp pks policy lang buffer)) ;;
      store_result ct_file (c_aw_ct W) text ct
  | BDABE =>
      pk <- ser_dec (c_bd_pk W) (enc_pk_file m) ;;
      pks <- imap (ser_dec (c_bd_apk W)) (enc_pk_files m) ;;
      ct <- itry (irun t (Bdabe.bd_encrypt nonce pk pks policy lang buffer)) ;;
      store_result ct_file (c_bd_ct W) text ct
  | MKE08 =>
      pk <- ser_dec (c_mk_pk W) (enc_pk_file m) ;;
      pks <- imap (ser_dec (c_mk_apk W)) (enc_pk_files m) ;;
      ct <- itry (irun t (Mke08.mk_encrypt nonce pk pks policy lang buffer)) ;;
      store_result ct_file (c_mk_ct W) text ct
  | YCT14 =>
      match enc_pk_files m with
      | [f] =>
          pk <- ser_dec (c_yct_pk W) f ;;
          ct <- irun t (Yct14.yct_encrypt nonce pk attributes buffer) ;;
          store ct_file c_yct_ct ct "CT"
      | _ => ilift Err
      end
  end.

(** The part of [run_decrypt] before the plaintext is written;
    rabe-console/src/mod.rs:1256-1401. *)
Definition open_file (m : args) (s : scheme) : io string :=
  let sk_file := file_arg m SK_FILE in
  let gp_file := file_arg m GP_FILE in
  let pk_file := file_arg m PK_FILE in
  let file := text_arg m FILE in
  match s with
  | AC17CP =>
      sk <- ser_dec (c_ac_cpsk W) sk_file ;;
      ct <- ser_dec (c_ac_cpct W) file ;;
      ilift (Ac17.cp_decrypt sk ct)
  | AC17KP =>
      sk <- ser_dec (c_ac_kpsk W) sk_file ;;
      ct <- ser_dec (c_ac_kpct W) file ;;
      ilift (Ac17.kp_decrypt sk ct)
  | BSW =>
      sk <- ser_dec (c_bsw_sk W) sk_file ;;
      ct <- ser_dec (c_bsw_ct W) file ;;
      ilift (Bsw.bsw_decrypt sk ct)
  | LSW =>
      sk <- ser_dec (c_lsw_sk W) sk_file ;;
      ct <- ser_dec (c_lsw_ct W) file ;;
      ilift (Lsw.lsw_decrypt sk ct)
  | AW11 =>
      gp <- ser_dec (c_aw_gk W) gp_file ;;
      sk <- ser_dec (c_aw_sk W) sk_file ;;
      ct <- ser_dec (c_aw_ct W) file ;;
      ilift (Aw11.aw_decrypt gp sk ct)
  | BDABE =>
      _ <- ser_dec (c_bd_pk W) pk_file ;;
      sk <- ser_dec (c_bd_uk W) sk_file ;;
      ct <- ser_dec (c_bd_ct W) file ;;
      ilift (Bdabe.bd_decrypt sk ct)
  | MKE08 =>
      _ <- ser_dec (c_mk_pk W) gp_file ;;
      sk <- ser_dec (c_mk_uk W) sk_file ;;
      ct <- ser_dec (c_mk_ct W) file ;;
      ilift (Mke08.mk_decrypt sk ct)
  | YCT14 =>
      sk <- ser_dec (@c_yct_sk C) sk_file ;;
      ct <- ser_dec (@c_yct_ct C) file ;;
      ilift (Yct14.yct_decrypt sk ct)
  end.

(** [String::pop] as called at rabe-console/src/mod.rs:1408-1410: the last
    character goes, in UTF-8 the bytes from the last one that does not continue a
    character. *)
Fixpoint continues (s : string) : bool :=
  match s with
  | EmptyString => true
  | String b r => between 128 191 b && continues r
  end.
Fixpoint pop (s : string) : string :=
  match s with
  | EmptyString => EmptyString
  | String b r => if continues r then EmptyString else String b (pop r)
  end.

(** [run_decrypt]; rabe-console/src/mod.rs:1256-1416, the end at 1402-1416. *)
Definition run_decrypt (m : args) (s : scheme) : io unit :=
  pt <- open_file m s ;;
  fun d => match write_from_vec d (pop (pop (pop (text_arg m FILE)))) pt with
           | Ok d' => (d', Ok tt)
           | Err => (d, Err)
           | Panic => (d, Panic)
           end.

(** The white space characters of [char::is_whitespace] by the length of their
    UTF-8 encoding: U+0009-U+000D, U+0020; U+0085, U+00A0; U+1680,
    U+2000-U+200A, U+2028, U+2029, U+202F, U+205F, U+3000.  Used by
    [str::split_whitespace] at rabe-console/src/mod.rs:1456 and 1554. *)
Definition blank (c : ascii) : bool :=
  let n := N_of_ascii c in ((9 <=? n) && (n <=? 13) || (n =? 32))%N.
Definition blank2 (c d : ascii) : bool :=
  let m := N_of_ascii c in let n := N_of_ascii d in
  ((m =? 194) && ((n =? 133) || (n =? 160)))%N.
Definition blank3 (c d e : ascii) : bool :=
  let m := N_of_ascii c in let n := N_of_ascii d in let o := N_of_ascii e in
  ((m =? 225) && (n =? 154) && (o =? 128) ||
   (m =? 226) && (n =? 128) && ((128 <=? o) && (o <=? 138) || (o =? 168) || (o =? 169) || (o =? 175)) ||
   (m =? 226) && (n =? 129) && (o =? 159) ||
   (m =? 227) && (n =? 128) && (o =? 128))%N.
(** A word is kept unless it is empty; rabe-console/src/mod.rs:1456. *)
Definition flush (cur : string) (l : list string) : list string :=
  match cur with EmptyString => l | _ => cur :: l end.
(** [str::split_whitespace] on a UTF-8 text; rabe-console/src/mod.rs:1456 and 1554. *)
Fixpoint split_from (cur s : string) : list string :=
  match s with
  | EmptyString => flush cur []
  | String c r =>
      if blank c then flush cur (split_from "" r)
      else match r with
           | String d r2 =>
               if blank2 c d then flush cur (split_from "" r2)
               else match r2 with
                    | String e r3 =>
                        if blank3 c d e then flush cur (split_from "" r3)
                        else split_from (cur ++ String c EmptyString) r
                    | EmptyString => split_from (cur ++ String c EmptyString) r
                    end
           | EmptyString => split_from (cur ++ String c EmptyString) r
           end
  end.
Definition split_whitespace (s : string) : list string := split_from "" s.

(** [_attributes] of the two request commands; rabe-console/src/mod.rs:1451-1461
    and 1549-1559. *)
Definition req_attrs (m : args) : list string := flat_map split_whitespace (attr_args m).

(** [run_req_attr_pk]; rabe-console/src/mod.rs:1418-1514. *)
Definition run_req_attr_pk (m : args) (s : scheme) : io unit :=
  let pk_file := file_arg m PK_FILE in
  let au_sk_file := file_arg m AU_SK_FILE in
  let pka_file := file_arg m PKA_FILE in
  match req_attrs m with
  | [a] =>
      match s with
      | MKE08 =>
          pk <- ser_dec (c_mk_pk W) pk_file ;;
          ska <- ser_dec (c_mk_auth W) au_sk_file ;;
          k <- ilift (Mke08.mk_request_pk pk a ska) ;;
          store pka_file (c_mk_apk W) k "PAK"
      | BDABE =>
          pk <- ser_dec (c_bd_pk W) pk_file ;;
          ska <- ser_dec (c_bd_auth W) au_sk_file ;;
          k <- ilift (Bdabe.bd_request_pk pk ska a) ;;
          store pka_file (c_bd_apk W) k "PAK"
      | _ => ilift Err
      end
  | _ => ilift Err
  end.

(** [run_req_attr_sk]; rabe-console/src/mod.rs:1516-1620.  For BDABE an error is
    printed and the command succeeds. *)
Definition run_req_attr_sk (m : args) (s : scheme) : io unit :=
  let sk_file := file_arg m SK_FILE in
  let au_sk_file := file_arg m AU_SK_FILE in
  let ask_file := file_arg m SKA_FILE in
  match req_attrs m with
  | [a] =>
      match s with
      | MKE08 =>
          usk <- ser_dec (c_mk_uk W) sk_file ;;
          skau <- ser_dec (c_mk_auth W) au_sk_file ;;
          k <- ilift (Mke08.mk_request_sk (Mke08.muk_pk usk) a skau) ;;
          store ask_file (c_mk_ask W) k "SAK"
      | BDABE =>
          usk <- ser_dec (c_bd_uk W) sk_file ;;
          skau <- ser_dec (c_bd_auth W) au_sk_file ;;
          o <- itry (ilift (Bdabe.bd_request_sk (Bdabe.buk_pk usk) skau a)) ;;
          match o with
          | Some k => store ask_file (c_bd_ask W) k "SAK"
          | None => iret tt
          end
      | _ => ilift Err
      end
  | _ => ilift Err
  end.

(** [run] for a given subcommand; rabe-console/src/mod.rs:498-508. *)
Definition run (t : nat -> F C) (nonce text : string) (c : command) (m : args) (s : scheme)
  (lang : language) : io unit :=
  match c with
  | Setup => run_setup t m s
  | Authgen => run_authgen t m s
  | Keygen => run_keygen t m s lang
  | Delegate => run_delegate t m s
  | Encrypt => run_encrypt t nonce text m s lang
  | Decrypt => run_decrypt m s
  | ReqAttrPk => run_req_attr_pk m s
  | ReqAttrSk => run_req_attr_sk m s
  end.

End Console.
