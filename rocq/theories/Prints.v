(** * What the library prints

    The other files leave the lines out that the library prints on the terminal.  Here every function of
    /repo/src that prints, or calls one that does, is written once more with its lines; PrintsProofs.v shows
    that they are the functions of the other files when the lines are taken away.  The prints of the test
    modules are not here; those of rabe-console/src/mod.rs are in ConsolePrints.v. *)
From Coq Require Import String List Bool Arith DecimalString.
From Verif Require Import Base Crypto Policy Tools Sharing Parse Dnf Files Bdabe Mke08 Bsw Ghw11 Lsw Yct14 Ac17
  Aw11.
Import ListNotations.
Local Open Scope string_scope.

(** What is printed, a line each, and the result; [println!], e.g. /repo/src/schemes/bsw/mod.rs:172. *)
Definition said (A : Type) : Type := (list string * outcome A)%type.

(** One statement after the other: the lines of the first come first, and after an error or a panic the
    second does not run; as in the [match] of /repo/src/schemes/bsw/mod.rs:268-317. *)
Definition sbind {A B} (m : said A) (k : A -> said B) : said B :=
  match snd m with
  | Ok x => (fst m ++ fst (k x), snd (k x))%list
  | Err => (fst m, Err)
  | Panic => (fst m, Panic)
  end.

(** Code without a print; not in /repo. *)
Definition still {A} (o : outcome A) : said A := ([], o).

(** A print; not in /repo. *)
Definition say (line : string) : said unit := ([line], Ok tt).

(** The error of pest printed by [{}], and a string printed by [{:?}], belong to a crate and to Rust's
    library and are parameters. *)
Section Prints.
Context {C : crypto}.
Variable pest : language -> string -> string.
Variable debug : string -> string.

(** ** Policies *)

(** The lines at /repo/src/utils/policy/pest/mod.rs:50 and 60. *)
Definition parse_line (policy : string) (lang : language) : string :=
  match lang with
  | JsonPolicy => "error Json Parse: " ++ pest JsonPolicy policy
  | HumanPolicy => "error Human Parse: " ++ pest HumanPolicy policy
  end.

(** [parse]; /repo/src/utils/policy/pest/mod.rs:40-64. *)
Definition said_parse (policy : string) (lang : language) : said pvalue :=
  match parse policy lang with
  | Ok v => ([], Ok v)
  | Err => ([parse_line policy lang], Err)
  | Panic => ([], Panic)
  end.

(** The line at /repo/src/utils/policy/dnf.rs:225. *)
Definition dnf_line : string := "policy_in_dnf: policy is not in DNF! Array without parent AND or OR.".

(** [policy_in_dnf]; /repo/src/utils/policy/dnf.rs:191-231: the lines printed and the result.  [ret &= ..]
    looks at every child. *)
Fixpoint said_in_dnf (v : pvalue) (conjunction : bool) (parent : option ptype) : list string * bool :=
  let all :=
    fix all (conjunction : bool) (parent : option ptype) (l : list pvalue) : list string * bool :=
      match l with
      | [] => ([], true)
      | c :: r =>
          let one := said_in_dnf c conjunction parent in
          let rest := all conjunction parent r in
          ((fst one ++ fst rest)%list, snd one && snd rest)
      end in
  match v with
  | PObj And w => said_in_dnf w true (Some And)
  | PObj Or w => said_in_dnf w conjunction (Some Or)
  | PObj Leaf w => said_in_dnf w conjunction (Some Leaf)
  | PStr _ _ => ([], true)
  | PArr children =>
      match parent with
      | Some And => all true (Some And) children
      | Some Or => if conjunction then ([], false) else all conjunction (Some Or) children
      | _ => ([dnf_line], false)
      end
  end.

(** ** Schemes.  After [parse] no function of these calls prints, so the rest is the function of the other
    file. *)

(** BSW [encrypt]; /repo/src/schemes/bsw/mod.rs:217-251. *)
Definition said_bsw_encrypt (nonce : string) (pk : bsw_pk C) (policy : string) (lang : language)
  (data : string) (t : nat -> F C) (i : nat) : said (bsw_ct C * nat) :=
  sbind (said_parse policy lang) (fun _ => still (bsw_encrypt nonce pk policy lang data t i)).

(** BSW [decrypt]; /repo/src/schemes/bsw/mod.rs:260-318. *)
Definition said_bsw_decrypt (sk : bsw_sk C) (ct : bsw_ct C) : said string :=
  sbind (said_parse (fst (Bsw.bct_policy ct)) (snd (Bsw.bct_policy ct))) (fun _ => still (bsw_decrypt sk ct)).

(** The lines at /repo/src/schemes/bsw/mod.rs:172 and 178. *)
Definition not_subset_line : string := "Error: the given attribute set is not a subset of the given sk.".
Definition empty_subset_line : string := "Error: the given attribute subset is empty.".

(** BSW [delegate]; /repo/src/schemes/bsw/mod.rs:162-206. *)
Definition said_bsw_delegate (pk : bsw_pk C) (sk : bsw_sk C) (subset : list string)
  (t : nat -> F C) (i : nat) : said (option (bsw_sk C) * nat) :=
  if negb (is_subset subset (map b_string (bsk_dj sk)))
  then sbind (say not_subset_line) (fun _ => still (Ok (None, i)))
  else if (length subset =? 0)%nat
  then sbind (say empty_subset_line) (fun _ => still (Ok (None, i)))
  else still (bsw_delegate pk sk subset t i).

(** GHW11 [encrypt]; /repo/src/schemes/ghw11/mod.rs:189-224. *)
Definition said_ghw_encrypt (nonce : string) (pk : ghw_pk C) (policy : string) (lang : language)
  (data : string) (t : nat -> F C) (i : nat) : said (ghw_ct C * nat) :=
  sbind (said_parse policy lang) (fun _ => still (ghw_encrypt nonce pk policy lang data t i)).

(** GHW11 [transform]; /repo/src/schemes/ghw11/mod.rs:227-294. *)
Definition said_ghw_transform (ct : ghw_ct C) (tk : ghw_tk C) : said (ghw_tct C) :=
  sbind (said_parse (fst (gct_policy ct)) (snd (gct_policy ct))) (fun _ => still (ghw_transform ct tk)).

(** LSW [keygen]; /repo/src/schemes/lsw/mod.rs:121-170. *)
Definition said_lsw_keygen (pk : lsw_pk C) (msk : lsw_msk C) (policy : string) (lang : language)
  (t : nat -> F C) (i : nat) : said (lsw_sk C * nat) :=
  sbind (said_parse policy lang) (fun _ => still (lsw_keygen pk msk policy lang t i)).

(** LSW [decrypt]; /repo/src/schemes/lsw/mod.rs:228-290. *)
Definition said_lsw_decrypt (sk : lsw_sk C) (ct : lsw_ct C) : said string :=
  sbind (said_parse (fst (lsk_policy sk)) (snd (lsk_policy sk))) (fun _ => still (lsw_decrypt sk ct)).

(** The line at /repo/src/schemes/yct14/mod.rs:271: the derived [Debug] of the error of
    [get_private], yct14/mod.rs:167. *)
Definition skip_line (name : string) : string :=
  "Error: RabeError { details: " ++ debug ("no private key found for " ++ name) ++ " }".

(** The loop at /repo/src/schemes/yct14/mod.rs:267-273. *)
Fixpoint said_yct_du (msk : yct_msk C) (shares : list (string * F C)) : said (list (yct_attr C)) :=
  match shares with
  | [] => still (Ok [])
  | sh :: r =>
      match private_from (remove_index (fst sh), snd sh) msk with
      | Ok a => sbind (said_yct_du msk r) (fun l => still (Ok (a :: l)))
      | Err => sbind (say (skip_line (remove_index (fst sh)))) (fun _ => said_yct_du msk r)
      | Panic => still Panic
      end
  end.

(** YCT14 [keygen]; /repo/src/schemes/yct14/mod.rs:257-284. *)
Definition said_yct_keygen (msk : yct_msk C) (policy : string) (lang : language)
  (t : nat -> F C) (i : nat) : said (yct_sk C * nat) :=
  sbind (said_parse policy lang) (fun v =>
  sbind (still (gen_shares_policy (ymsk_s msk) v None t i)) (fun shares =>
  sbind (said_yct_du msk (fst shares)) (fun du =>
  still (Ok (YctSk (policy, lang) du, snd shares))))).

(** YCT14 [decrypt]; /repo/src/schemes/yct14/mod.rs:326-365. *)
Definition said_yct_decrypt (sk : yct_sk C) (ct : yct_ct C) : said string :=
  sbind (said_parse (fst (ysk_policy sk)) (snd (ysk_policy sk))) (fun _ => still (yct_decrypt sk ct)).

(** AC17 [cp_encrypt]; /repo/src/schemes/ac17/mod.rs:274-376. *)
Definition said_cp_encrypt (nonce : string) (pk : ac_pk C) (policy data : string) (lang : language)
  (t : nat -> F C) (i : nat) : said (ac_cpct C * nat) :=
  sbind (said_parse policy lang) (fun _ => still (cp_encrypt nonce pk policy data lang t i)).

(** AC17 [cp_decrypt]; /repo/src/schemes/ac17/mod.rs:385-430. *)
Definition said_cp_decrypt (sk : ac_cpsk C) (ct : ac_cpct C) : said string :=
  sbind (said_parse (fst (acp_policy ct)) (snd (acp_policy ct))) (fun _ => still (cp_decrypt sk ct)).

(** AC17 [kp_keygen]; /repo/src/schemes/ac17/mod.rs:439-546. *)
Definition said_kp_keygen (msk : ac_msk C) (policy : string) (lang : language)
  (t : nat -> F C) (i : nat) : said (ac_kpsk C * nat) :=
  sbind (said_parse policy lang) (fun _ => still (kp_keygen msk policy lang t i)).

(** AC17 [kp_decrypt]; /repo/src/schemes/ac17/mod.rs:625-675. *)
Definition said_kp_decrypt (sk : ac_kpsk C) (ct : ac_kpct C) : said string :=
  sbind (said_parse (fst (akps_policy sk)) (snd (akps_policy sk))) (fun _ => still (kp_decrypt sk ct)).

(** AW11 [encrypt]; /repo/src/schemes/aw11/mod.rs:241-289. *)
Definition said_aw_encrypt (nonce : string) (gk : aw_gk C) (pks : list (aw_pk C)) (policy : string)
  (lang : language) (data : string) (t : nat -> F C) (i : nat) : said (aw_ct C * nat) :=
  sbind (said_parse policy lang) (fun _ => still (aw_encrypt nonce gk pks policy lang data t i)).

(** AW11 [decrypt]; /repo/src/schemes/aw11/mod.rs:298-366. *)
Definition said_aw_decrypt (gk : aw_gk C) (sk : aw_sk C) (ct : aw_ct C) : said string :=
  sbind (said_parse (fst (awct_policy ct)) (snd (awct_policy ct))) (fun _ => still (aw_decrypt gk sk ct)).

(** BDABE [encrypt]; /repo/src/schemes/bdabe/mod.rs:309-350: [parse] at line 316, [policy_in_dnf] at line
    319 and [parse] again in [DnfPolicy::from_string]. *)
Definition said_bd_encrypt (nonce : string) (pk : bd_pk C) (attr_pks : list (bd_apk C)) (policy : string)
  (lang : language) (data : string) (t : nat -> F C) (i : nat) : said (bd_ct C * nat) :=
  sbind (said_parse policy lang) (fun v =>
  let d := said_in_dnf v false None in
  sbind (fst d, Ok tt) (fun _ =>
  if snd d then
    sbind (said_parse policy lang) (fun _ => still (bd_encrypt nonce pk attr_pks policy lang data t i))
  else still (bd_encrypt nonce pk attr_pks policy lang data t i))).

(** BDABE [decrypt]; /repo/src/schemes/bdabe/mod.rs:359-390. *)
Definition said_bd_decrypt (sk : bd_uk C) (ct : bd_ct C) : said string :=
  sbind (said_parse (fst (Bdabe.bct_policy ct)) (snd (Bdabe.bct_policy ct))) (fun _ => still (bd_decrypt sk ct)).

(** MKE08 [encrypt]; /repo/src/schemes/mke08/mod.rs:311-356, in the same way. *)
Definition said_mk_encrypt (nonce : string) (pk : mk_pk C) (attr_pks : list (mk_apk C)) (policy : string)
  (lang : language) (data : string) (t : nat -> F C) (i : nat) : said (mk_ct C * nat) :=
  sbind (said_parse policy lang) (fun v =>
  let d := said_in_dnf v false None in
  sbind (fst d, Ok tt) (fun _ =>
  if snd d then
    sbind (said_parse policy lang) (fun _ => still (mk_encrypt nonce pk attr_pks policy lang data t i))
  else still (mk_encrypt nonce pk attr_pks policy lang data t i))).

(** MKE08 [decrypt]; /repo/src/schemes/mke08/mod.rs:365-398. *)
Definition said_mk_decrypt (sk : mk_uk C) (ct : mk_ct C) : said string :=
  sbind (said_parse (fst (mct_policy ct)) (snd (mct_policy ct))) (fun _ => still (mk_decrypt sk ct)).

End Prints.

(** ** Files *)

(** A number printed by [{:?}]; /repo/src/utils/file/mod.rs:38. *)
Definition number (n : nat) : string := NilZero.string_of_uint (Nat.to_uint n).

(** [read_to_vec]; /repo/src/utils/file/mod.rs:27-47.  The line of an error while reading (42) is left out with
    that error. *)
Definition said_read_to_vec (d : fs) (path : string) : said string :=
  sbind (still (unwrap (fs_open d path))) (fun s =>
  sbind (say ("parsed " ++ number (String.length s) ++ " bytes")) (fun _ => still (Ok s))).

(** The line at /repo/src/utils/file/mod.rs:66 and 95. *)
Definition wrote_line (path : string) : string := "successfully wrote to " ++ path.

(** [write_from_vec]; /repo/src/utils/file/mod.rs:49-68. *)
Definition said_write_from_vec (d : fs) (path data : string) : said fs :=
  sbind (still (write_from_vec d path data)) (fun d' => sbind (say (wrote_line path)) (fun _ => still (Ok d'))).

(** [write_file]; /repo/src/utils/file/mod.rs:78-98. *)
Definition said_write_file (d : fs) (path content : string) : said (bool * fs) :=
  sbind (still (write_file d path content)) (fun r => sbind (say (wrote_line path)) (fun _ => still (Ok r))).
