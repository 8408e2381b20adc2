(** * ConsolePrints: rabe-console as a program: what it prints and its exit status

    Console.v leaves out what a command prints.  Here the commands are written once more with the text on
    standard output, their own and the library's (Prints.v), and with the texts of errors (Messages.v);
    ConsolePrintsProofs.v shows that files and outcomes are those of Console.v.  The text of a panic goes to
    standard error and is not modelled.  The texts of errors of the crates borsh, inflate and rustc-hex, of
    pest and of rabe_bn, and what [{:?}] makes of a string, are parameters. *)
From Coq Require Import String Ascii List Bool Arith NArith.
From Verif Require Import Base Crypto Policy Files Borsh Errors Messages Prints Console CommandLine.
From Verif Require Bsw Lsw Yct14 Ac17 Aw11 Bdabe Mke08.
Import ListNotations.
Local Open Scope string_scope.

(** ** Steps *)

(** What is printed, the file system afterwards and the result; as [io] of Console.v; not in /repo. *)
Definition shown (A : Type) : Type := fs -> string * (fs * told A).

(** [Ok(a)], printing nothing; e.g. rabe-console/src/mod.rs:630. *)
Definition hret {A} (a : A) : shown A := fun d => ("", (d, Fine a)).

(** A statement after another; the text of the first comes first; not in /repo. *)
Definition hbind {A B} (m : shown A) (k : A -> shown B) : shown B :=
  fun d => match m d with
           | (o, (d', Fine a)) => (o ++ fst (k a d'), snd (k a d'))
           | (o, (d', Tell e)) => (o, (d', Tell e))
           | (o, (d', Abort)) => (o, (d', Abort))
           end.
Declare Scope shown_scope.
Notation "x <- m ;; k" := (hbind m (fun x => k))
  (at level 61, m at next level, right associativity) : shown_scope.
Notation "' p <- m ;; k" := (hbind m (fun p => k))
  (at level 61, p pattern, m at next level, right associativity) : shown_scope.
Local Open Scope shown_scope.

(** [print!]; e.g. rabe-console/src/mod.rs:827. *)
Definition hprint (s : string) : shown unit := fun d => (s, (d, Fine tt)).

(** [println!]; e.g. rabe-console/src/mod.rs:832. *)
Definition hline (s : string) : shown unit := hprint (s ++ nls).

(** The lines of Prints.v as text; not in /repo. *)
Definition printed (l : list string) : string := String.concat "" (map (fun s => s ++ nls) l).

(** A call of the library with the lines it prints; the calls are at rabe-console/src/mod.rs:515-1617. *)
Definition hcall {A} (l : list string) (r : told A) : shown A := fun d => (printed l, (d, r)).

(** The same for a randomised one: [r] is its result on the tape from position 0;
    the calls are at rabe-console/src/mod.rs:515-1617. *)
Definition hdraw {A} (l : list string) (r : told (A * nat)) : shown A :=
  hcall l (match r with Fine (a, _) => Fine a | Tell e => Tell e | Abort => Abort end).

(** A randomised one that has no [Result] and prints nothing; the calls are at rabe-console/src/mod.rs:515-1617. *)
Definition hmute {F A} (t : nat -> F) (m : rand F A) : shown A := hdraw [] (calm (m t 0)).

(** [return Err(RabeError::new(text))]; e.g. rabe-console/src/mod.rs:626. *)
Definition hfail {A} (text : string) : shown A := fun d => ("", (d, Tell (error_new text))).

(** [unwrap], or [Err(e) => panic!]; e.g. rabe-console/src/mod.rs:830, 851. *)
Definition hunwrap {A} (m : shown A) : shown A :=
  fun d => match m d with
           | (o, (d', Tell _)) => (o, (d', Abort))
           | r => r
           end.

(** [Result] kept as a value; e.g. rabe-console/src/mod.rs:1141. *)
Definition htry {A} (m : shown A) : shown (rabe_error + A) :=
  fun d => match m d with
           | (o, (d', Fine a)) => (o, (d', Fine (inr a)))
           | (o, (d', Tell e)) => (o, (d', Fine (inl e)))
           | (o, (d', Abort)) => (o, (d', Abort))
           end.

(** A loop over files; e.g. rabe-console/src/mod.rs:1177-1183. *)
Fixpoint hmap {A B} (f : A -> shown B) (l : list A) : shown (list B) :=
  match l with
  | [] => hret []
  | x :: r => y <- f x ;; ys <- hmap f r ;; hret (y :: ys)
  end.

(** [write_file]; /repo/src/utils/file/mod.rs:78-98. *)
Definition hsave (path content : string) : shown unit :=
  fun d => match said_write_file d path content with
           | (l, Ok (_, d')) => (printed l, (d', Fine tt))
           | (l, _) => (printed l, (d, Abort))
           end.

(** [read_to_vec]; /repo/src/utils/file/mod.rs:27-47. *)
Definition hread (path : string) : shown string :=
  fun d => hcall (fst (said_read_to_vec d path)) (calm (snd (said_read_to_vec d path))) d.

(** [{:?}] of a list of strings; used at rabe-console/src/mod.rs:833. *)
Definition debug_list (debug : string -> string) (l : list string) : string :=
  "[" ++ String.concat ", " (map debug l) ++ "]".

(** The texts of errors of the crates rustc-hex, inflate and borsh on their inputs;
    [to_string] at rabe-console/src/mod.rs:1655-1682. *)
Record crate_texts : Type := CrateTexts {
  t_hex : string -> string;
  t_inflate : string -> string;
  t_slice : string -> string
}.

Section ConsolePrints.
Context {C : crypto} (E : env C).
Local Notation W := (e_wire E).
Variable place : language -> string -> location.
Variable fe : field_error.
Variable pest : language -> string -> string.
Variable debug : string -> string.
Variable T : crate_texts.

(** [ser_dec_bin]; rabe-console/src/mod.rs:1672-1684. *)
Definition told_dec_bin (d : fs) (file_name : string) : told string :=
  tbind (calm (read_file d file_name)) (fun raw =>
  tbind (calm (read_raw raw)) (fun s =>
  match from_hex s with
  | None => Tell (error_new ("read_raw: " ++ t_hex T s))
  | Some b => match e_inflate E b with
              | None => Tell (error_new ("inflate_bytes: " ++ t_inflate T b))
              | Some x => Fine x
              end
  end)).

(** [ser_dec]; rabe-console/src/mod.rs:1650-1659. *)
Definition told_dec {A} (c : codec A) (d : fs) (file_name : string) : told A :=
  match told_dec_bin d file_name with
  | Fine b => with_text (error_new ("try_from_slice: " ++ t_slice T b)) (try_from_slice c b)
  | Tell e => Tell (error_new ("ser_dec_bin: " ++ error_display e))
  | Abort => Abort
  end.
Definition hdec {A} (c : codec A) (file_name : string) : shown A :=
  fun d => hcall [] (told_dec c d file_name) d.

(** [write_file(path, ser_enc(v, X_BEGIN, X_END))]; e.g. rabe-console/src/mod.rs:852-855. *)
Definition hstore {A} (path : string) (c : codec A) (v : A) (what : string) : shown unit :=
  s <- hcall [] (calm (ser_enc E c v what)) ;;
  hsave path s.

(** The same for a [Result]; e.g. rabe-console/src/mod.rs:1142-1145. *)
Definition hstore_result {A} (path : string) (c : codec A) (v : rabe_error + A) : shown unit :=
  s <- hcall [] (calm (ser_bytes E (match v with
                                    | inl e => enc_result c (details e) None
                                    | inr x => enc_result c "" (Some x)
                                    end) "CT")) ;;
  hsave path s.

(** [run_setup]; rabe-console/src/mod.rs:515-631. *)
Definition show_setup (t : nat -> F C) (m : args) (s : scheme) : shown unit :=
  let msk_file := file_arg m MSK_FILE in
  let pk_file := file_arg m PK_FILE in
  match s with
  | AC17CP | AC17KP =>
      ' (pk, msk) <- hmute t Ac17.ac_setup ;;
      _ <- hstore msk_file (c_ac_msk W) msk "MSK" ;;
      hstore pk_file (c_ac_pk W) pk "PK"
  | AW11 =>
      gp <- hmute t Aw11.aw_setup ;;
      hstore msk_file (c_aw_gk W) gp "GP"
  | BDABE =>
      ' (pk, msk) <- hmute t Bdabe.bd_setup ;;
      _ <- hstore msk_file (c_bd_msk W) msk "MSK" ;;
      hstore pk_file (c_bd_pk W) pk "PK"
  | BSW =>
      ' (pk, msk) <- hmute t Bsw.bsw_setup ;;
      _ <- hstore msk_file (c_bsw_msk W) msk "MSK" ;;
      hstore pk_file (c_bsw_pk W) pk "PK"
  | LSW =>
      ' (pk, msk) <- hmute t Lsw.lsw_setup ;;
      _ <- hstore msk_file (c_lsw_msk W) msk "MSK" ;;
      hstore pk_file (c_lsw_pk W) pk "PK"
  | MKE08 =>
      ' (pk, msk) <- hmute t Mke08.mk_setup ;;
      _ <- hstore msk_file (c_mk_msk W) msk "MSK" ;;
      hstore pk_file (c_mk_pk W) pk "PK"
  | YCT14 =>
      match attr_args m with
      | [] => hfail "sorry, yct14 needs attributes at setup()"
      | attributes =>
          ' (pk, msk) <- hmute t (Yct14.yct_setup attributes) ;;
          _ <- hstore msk_file (c_yct_msk W) msk "MSK" ;;
          hstore pk_file (c_yct_pk W) pk "PK"
      end
  end.

(** [run_authgen]; rabe-console/src/mod.rs:633-748. *)
Definition show_authgen (t : nat -> F C) (m : args) (s : scheme) : shown unit :=
  let msk_file := file_arg m MSK_FILE in
  let pk_file := file_arg m PK_FILE in
  let gp_file := file_arg m GP_FILE in
  match s with
  | AW11 =>
      gp <- hdec (c_aw_gk W) gp_file ;;
      o <- hmute t (Aw11.aw_authgen gp (attr_args m)) ;;
      match o with
      | None => hfail "sorry, could not generate authority. The attribute set empty."
      | Some (pk, msk) =>
          _ <- hstore msk_file (c_aw_msk W) msk "SAUK" ;;
          hstore pk_file (c_aw_pk W) pk "PAUK"
      end
  | BDABE =>
      pk <- hdec (c_bd_pk W) pk_file ;;
      msk <- hdec (c_bd_msk W) msk_file ;;
      sk <- hmute t (Bdabe.bd_authgen pk msk (text_arg m NAME)) ;;
      hstore (named_file m) (c_bd_auth W) sk "SAUK"
  | MKE08 =>
      _ <- hdec (c_mk_pk W) pk_file ;;
      _ <- hdec (c_mk_msk W) msk_file ;;
      sk <- hmute t (Mke08.mk_authgen (text_arg m NAME)) ;;
      hstore (named_file m) (c_mk_auth W) sk "SAUK"
  | _ => hfail "sorry, this is not a multi-authoriy scheme"
  end.

(** [run_keygen]; rabe-console/src/mod.rs:750-957. *)
Definition show_keygen (t : nat -> F C) (m : args) (s : scheme) (lang : language) : shown unit :=
  let msk_file := file_arg m MSK_FILE in
  let pk_file := file_arg m PK_FILE in
  let gp_file := file_arg m GP_FILE in
  let sk_file := file_arg m SK_FILE in
  let ska_file := file_arg m SKA_FILE in
  let attributes := attr_args m in
  let policy := text_arg m POLICY in
  let name := text_arg m NAME in
  match s with
  | AC17CP =>
      _ <- hprint ("loading " ++ msk_file ++ " ...") ;;
      msk <- hunwrap (hdec (c_ac_msk W) msk_file) ;;
      _ <- hline "... done" ;;
      _ <- hprint ("creating AC17CP sk for " ++ debug_list debug attributes ++ " ...") ;;
      sk <- hunwrap (hdraw [] (told_cp_keygen msk attributes t 0)) ;;
      _ <- hline "... done" ;;
      _ <- hline ("saving as " ++ sk_file) ;;
      hstore sk_file (c_ac_cpsk W) sk "SK"
  | AC17KP =>
      msk <- hdec (c_ac_msk W) msk_file ;;
      sk <- hunwrap (hdraw (fst (said_kp_keygen pest msk policy lang t 0)) (told_kp_keygen place msk policy lang t 0)) ;;
      hstore sk_file (c_ac_kpsk W) sk "SK"
  | BSW =>
      pk <- hdec (c_bsw_pk W) pk_file ;;
      msk <- hdec (c_bsw_msk W) msk_file ;;
      o <- hmute t (Bsw.bsw_keygen pk msk attributes) ;;
      sk <- hcall [] (calm (unwrap o)) ;;
      hstore sk_file (c_bsw_sk W) sk "SK"
  | LSW =>
      pk <- hdec (c_lsw_pk W) pk_file ;;
      msk <- hdec (c_lsw_msk W) msk_file ;;
      sk <- hunwrap (hdraw (fst (said_lsw_keygen pest pk msk policy lang t 0)) (told_lsw_keygen place pk msk policy lang t 0)) ;;
      hstore sk_file (c_lsw_sk W) sk "SK"
  | AW11 =>
      pk <- hdec (c_aw_gk W) gp_file ;;
      msk <- hdec (c_aw_msk W) msk_file ;;
      sk <- hunwrap (hcall [] (told_aw_keygen fe pk msk name attributes)) ;;
      hstore (named_file m) (c_aw_sk W) sk "SK"
  | BDABE =>
      pk <- hdec (c_bd_pk W) pk_file ;;
      msk <- hdec (c_bd_auth W) ska_file ;;
      sk <- hmute t (Bdabe.bd_keygen pk msk name) ;;
      hstore (named_file m) (c_bd_uk W) sk "SK"
  | MKE08 =>
      pk <- hdec (c_mk_pk W) pk_file ;;
      msk <- hdec (c_mk_msk W) msk_file ;;
      if seqb name "" then hfail "sorry, the name/id for the user key is not set."
      else
        sk <- hmute t (Mke08.mk_keygen pk msk name) ;;
        hstore (named_file m) (c_mk_uk W) sk "SK"
  | YCT14 =>
      _ <- hdec (c_yct_pk W) pk_file ;;
      msk <- hdec (c_yct_msk W) msk_file ;;
      sk <- hunwrap (hdraw (fst (said_yct_keygen pest debug msk policy lang t 0)) (told_yct_keygen place msk policy lang t 0)) ;;
      hstore sk_file c_yct_sk sk "SK"
  end.

(** [run_delegate]; rabe-console/src/mod.rs:959-1033. *)
Definition show_delegate (t : nat -> F C) (m : args) (s : scheme) : shown unit :=
  let pk_file := file_arg m PK_FILE in
  let sk_file := file_arg m SK_FILE in
  let dg_file := match value_of m SK_FILE with
                 | None => SK_FILE ++ "." ++ "del" ++ "." ++ "key"
                 | Some _ => ""
                 end in
  match s with
  | BSW =>
      pk <- hdec (c_bsw_pk W) pk_file ;;
      msk <- hdec (c_bsw_sk W) sk_file ;;
      o <- hdraw (fst (said_bsw_delegate pk msk (attr_args m) t 0)) (calm (Bsw.bsw_delegate pk msk (attr_args m) t 0)) ;;
      match o with
      | None => hfail "sorry, could not delegate attributes. The given attributes are not a subset."
      | Some del => hstore dg_file (c_bsw_sk W) del "SK"
      end
  | _ => hfail "sorry, this scheme does not support the delegation algorithm."
  end.

(** The texts at rabe-console/src/mod.rs:1109, 1131, 1149, 1167 and 1248; the last one names LSW for
    YCT14. *)
Definition pks_text (scheme_name : string) : string :=
  "sorry, encryption using the " ++ scheme_name ++ " Scheme with zero or multiple PKs is not possible. ".

(** [run_encrypt]; rabe-console/src/mod.rs:1035-1254. *)
Definition show_encrypt (t : nat -> F C) (nonce : string) (m : args) (s : scheme) (lang : language) : shown unit :=
  let gp_file := file_arg m GP_FILE in
  let attributes := attr_args m in
  let policy := text_arg m POLICY in
  let ct_file := enc_ct_file m in
  buffer <- hread (text_arg m FILE) ;;
  match s with
  | AC17CP =>
      match enc_pk_files m with
      | [f] =>
          pk <- hdec (c_ac_pk W) f ;;
          ct <- hdraw (fst (said_cp_encrypt pest nonce pk policy buffer lang t 0)) (told_cp_encrypt place fe nonce pk policy buffer lang t 0) ;;
          hstore ct_file (c_ac_cpct W) ct "CT"
      | _ => hfail (pks_text "AC17CP")
      end
  | AC17KP =>
      match enc_pk_files m with
      | [_] =>
          pk <- hdec (c_ac_pk W) (enc_pk_file m) ;;
          ct <- hdraw [] (told_kp_encrypt fe nonce pk attributes buffer t 0) ;;
          hstore ct_file (c_ac_kpct W) ct "CT"
      | _ => hfail (pks_text "AC17KP")
      end
  | BSW =>
      match enc_pk_files m with
      | [f] =>
          pk <- hdec (c_bsw_pk W) f ;;
          ct <- htry (hdraw (fst (said_bsw_encrypt pest nonce pk policy lang buffer t 0)) (told_bsw_encrypt place nonce pk policy lang buffer t 0)) ;;
          hstore_result ct_file (c_bsw_ct W) ct
      | _ => hfail (pks_text "BSW")
      end
  | LSW =>
      match enc_pk_files m with
      | [f] =>
          pk <- hdec (c_lsw_pk W) f ;;
          ct <- htry (hdraw [] (told_lsw_encrypt nonce pk attributes buffer t 0)) ;;
          hstore_result ct_file (c_lsw_ct W) ct
      | _ => hfail (pks_text "LSW")
      end
  | AW11 =>
      gp <- hdec (c_aw_gk W) gp_file ;;
      pks <- hmap (hdec (c_aw_pk W)) (enc_pk_files m) ;;
      ct <- htry (hdraw (fst (said_aw_encrypt pest nonce gp pks policy lang buffer t 0)) (told_aw_encrypt place nonce gp pks policy lang buffer t 0)) ;;
      hstore_result ct_file (c_aw_ct W) ct
  | BDABE =>
      pk <- hdec (c_bd_pk W) (enc_pk_file m) ;;
      pks <- hmap (hdec (c_bd_apk W)) (enc_pk_files m) ;;
      ct <- htry (hdraw (fst (said_bd_encrypt pest nonce pk pks policy lang buffer t 0)) (told_bd_encrypt place nonce pk pks policy lang buffer t 0)) ;;
      hstore_result ct_file (c_bd_ct W) ct
  | MKE08 =>
      pk <- hdec (c_mk_pk W) (enc_pk_file m) ;;
      pks <- hmap (hdec (c_mk_apk W)) (enc_pk_files m) ;;
      ct <- htry (hdraw (fst (said_mk_encrypt pest nonce pk pks policy lang buffer t 0)) (told_mk_encrypt place nonce pk pks policy lang buffer t 0)) ;;
      hstore_result ct_file (c_mk_ct W) ct
  | YCT14 =>
      match enc_pk_files m with
      | [f] =>
          pk <- hdec (c_yct_pk W) f ;;
          ct <- hdraw [] (told_yct_encrypt nonce pk attributes buffer t 0) ;;
          hstore ct_file c_yct_ct ct "CT"
      | _ => hfail (pks_text "LSW")
      end
  end.

(** The part of [run_decrypt] before the plaintext is written;
    rabe-console/src/mod.rs:1256-1401. *)
Definition show_open (m : args) (s : scheme) : shown string :=
  let sk_file := file_arg m SK_FILE in
  let gp_file := file_arg m GP_FILE in
  let pk_file := file_arg m PK_FILE in
  let file := text_arg m FILE in
  match s with
  | AC17CP =>
      sk <- hdec (c_ac_cpsk W) sk_file ;;
      ct <- hdec (c_ac_cpct W) file ;;
      hcall (fst (said_cp_decrypt pest sk ct)) (told_cp_decrypt place sk ct)
  | AC17KP =>
      sk <- hdec (c_ac_kpsk W) sk_file ;;
      ct <- hdec (c_ac_kpct W) file ;;
      hcall (fst (said_kp_decrypt pest sk ct)) (told_kp_decrypt place sk ct)
  | BSW =>
      sk <- hdec (c_bsw_sk W) sk_file ;;
      ct <- hdec (c_bsw_ct W) file ;;
      hcall (fst (said_bsw_decrypt pest sk ct)) (told_bsw_decrypt place sk ct)
  | LSW =>
      sk <- hdec (c_lsw_sk W) sk_file ;;
      ct <- hdec (c_lsw_ct W) file ;;
      hcall (fst (said_lsw_decrypt pest sk ct)) (told_lsw_decrypt place sk ct)
  | AW11 =>
      gp <- hdec (c_aw_gk W) gp_file ;;
      sk <- hdec (c_aw_sk W) sk_file ;;
      ct <- hdec (c_aw_ct W) file ;;
      hcall (fst (said_aw_decrypt pest gp sk ct)) (told_aw_decrypt place fe gp sk ct)
  | BDABE =>
      _ <- hdec (c_bd_pk W) pk_file ;;
      sk <- hdec (c_bd_uk W) sk_file ;;
      ct <- hdec (c_bd_ct W) file ;;
      hcall (fst (said_bd_decrypt pest sk ct)) (told_bd_decrypt place sk ct)
  | MKE08 =>
      _ <- hdec (c_mk_pk W) gp_file ;;
      sk <- hdec (c_mk_uk W) sk_file ;;
      ct <- hdec (c_mk_ct W) file ;;
      hcall (fst (said_mk_decrypt pest sk ct)) (told_mk_decrypt place sk ct)
  | YCT14 =>
      sk <- hdec (@c_yct_sk C) sk_file ;;
      ct <- hdec (@c_yct_ct C) file ;;
      hcall (fst (said_yct_decrypt pest sk ct)) (told_yct_decrypt place sk ct)
  end.

(** [run_decrypt]; rabe-console/src/mod.rs:1256-1416, the end at 1402-1416. *)
Definition show_decrypt (m : args) (s : scheme) : shown unit :=
  pt <- show_open m s ;;
  fun d => match said_write_from_vec d (pop (pop (pop (text_arg m FILE)))) pt with
           | (l, Ok d') => (printed l, (d', Fine tt))
           | (l, _) => (printed l, (d, Abort))
           end.

(** The texts at rabe-console/src/mod.rs:1504, 1510, 1610 and 1616. *)
Definition no_request (what : string) : string :=
  "sorry, this scheme does not support the request attribute " ++ what ++ " algorithm.".
Definition one_request : string := "sorry, could not request because only one attribute is allowed.".

(** [run_req_attr_pk]; rabe-console/src/mod.rs:1418-1514. *)
Definition show_req_attr_pk (m : args) (s : scheme) : shown unit :=
  let pk_file := file_arg m PK_FILE in
  let au_sk_file := file_arg m AU_SK_FILE in
  let pka_file := file_arg m PKA_FILE in
  match req_attrs m with
  | [a] =>
      match s with
      | MKE08 =>
          pk <- hdec (c_mk_pk W) pk_file ;;
          ska <- hdec (c_mk_auth W) au_sk_file ;;
          k <- hcall [] (told_mk_request_pk fe pk a ska) ;;
          hstore pka_file (c_mk_apk W) k "PAK"
      | BDABE =>
          pk <- hdec (c_bd_pk W) pk_file ;;
          ska <- hdec (c_bd_auth W) au_sk_file ;;
          k <- hcall [] (told_bd_request_pk fe pk ska a) ;;
          hstore pka_file (c_bd_apk W) k "PAK"
      | _ => hfail (no_request "PK")
      end
  | _ => hfail one_request
  end.

(** [run_req_attr_sk]; rabe-console/src/mod.rs:1516-1620. *)
Definition show_req_attr_sk (m : args) (s : scheme) : shown unit :=
  let sk_file := file_arg m SK_FILE in
  let au_sk_file := file_arg m AU_SK_FILE in
  let ask_file := file_arg m SKA_FILE in
  match req_attrs m with
  | [a] =>
      match s with
      | MKE08 =>
          usk <- hdec (c_mk_uk W) sk_file ;;
          skau <- hdec (c_mk_auth W) au_sk_file ;;
          k <- hcall [] (told_mk_request_sk fe (Mke08.muk_pk usk) a skau) ;;
          hstore ask_file (c_mk_ask W) k "SAK"
      | BDABE =>
          usk <- hdec (c_bd_uk W) sk_file ;;
          skau <- hdec (c_bd_auth W) au_sk_file ;;
          o <- htry (hcall [] (told_bd_request_sk fe (Bdabe.buk_pk usk) skau a)) ;;
          match o with
          | inr k => hstore ask_file (c_bd_ask W) k "SAK"
          | inl e => hline ("Error: " ++ error_display e)
          end
      | _ => hfail (no_request "SK")
      end
  | _ => hfail one_request
  end.

(** [run] for a given subcommand; rabe-console/src/mod.rs:498-508. *)
Definition show (t : nat -> F C) (nonce : string) (c : command) (m : args) (s : scheme) (lang : language) : shown unit :=
  match c with
  | Setup => show_setup t m s
  | Authgen => show_authgen t m s
  | Keygen => show_keygen t m s lang
  | Delegate => show_delegate t m s
  | Encrypt => show_encrypt t nonce m s lang
  | Decrypt => show_decrypt m s
  | ReqAttrPk => show_req_attr_pk m s
  | ReqAttrSk => show_req_attr_sk m s
  end.

(** ** The program *)

(** How a command ends the program: the text on standard output, the files and the exit status, which
    Rust sets to 101 after a panic; rabe-console/src/mod.rs:471-474. *)
Definition finish (r : string * (fs * told unit)) : string * (fs * nat) :=
  match r with
  | (o, (d, Fine _)) => (o, (d, 0))
  | (o, (d, Tell e)) => (o ++ "Application Error: " ++ error_display e ++ nls, (d, 1))
  | (o, (d, Abort)) => (o, (d, 101))
  end.

(** [main] and [run] for what clap makes of the command line, as in [app] of CommandLine.v;
    rabe-console/src/mod.rs:470-513. *)
Definition main (t : nat -> F C) (nonce : string) (scheme_arg lang_arg : option string)
  (sub : option (string * args)) (d : fs) : string * (fs * nat) :=
  match scheme_arg with
  | None => ("Application error: Scheme missing" ++ nls, (d, 1))
  | Some s =>
      finish (match sub with
              | None => hret tt d
              | Some (name, given) =>
                  match command_of name with
                  | None => hret tt d
                  | Some c => show t nonce c (matches c given) (scheme_of s) (lang_of lang_arg) d
                  end
              end)
  end.

End ConsolePrints.
