(** * The texts of errors, at the places that make them

    The other files leave the text of an error out ([Err]).  Here the functions that report errors are
    written once more with the texts of /repo/src; MessagesProofs.v shows that they are the functions of the
    other files when the text is forgotten. *)
From Coq Require Import String List Bool Arith.
From Verif Require Import Base Crypto Policy Tools Sharing Parse Symmetric Msp Dnf Errors Bdabe Mke08 Bsw Ghw11
  Lsw Yct14 Ac17 Aw11.
Import ListNotations.
Local Open Scope string_scope.

(** [Result<A, RabeError>] with the text, or a panic; /repo/src/error.rs:16-21. *)
Inductive told (A : Type) : Type := Fine (x : A) | Tell (e : rabe_error) | Abort.
Arguments Fine {A} x.
Arguments Tell {A} e.
Arguments Abort {A}.

(** The result of the other files; not in /repo. *)
Definition forget {A} (r : told A) : outcome A :=
  match r with Fine x => Ok x | Tell _ => Err | Abort => Panic end.

(** [match r { Ok(x) => .., Err(e) => Err(e) }], as in /repo/src/schemes/bsw/mod.rs:268-317. *)
Definition tbind {A B} (r : told A) (k : A -> told B) : told B :=
  match r with Fine x => k x | Tell e => Tell e | Abort => Abort end.

(** A call whose only error has the text [e]; not in /repo. *)
Definition with_text {A} (e : rabe_error) (o : outcome A) : told A :=
  match o with Ok x => Fine x | Err => Tell e | Panic => Abort end.

(** A part of a function that reports no error; not in /repo. *)
Definition calm {A} (o : outcome A) : told A :=
  match o with Ok x => Fine x | _ => Abort end.

(** The text of an AEAD error, as printed by [{:?}] of its [to_string()]; /repo/src/utils/aes/mod.rs:42.
    That [aead::Error] prints as "aead::Error" is the crate's doing. *)
Definition quote : string := String (Ascii.ascii_of_nat 34) "".
Definition unsealed : rabe_error := error_new ("decryption error: " ++ quote ++ "aead::Error" ++ quote).

(** [place] is where pest says that the text of a policy is wrong, and [fe] the error of
    [Fr::from_slice]; both belong to crates and are parameters. *)
Section Messages.
Context {C : crypto}.
Variable place : language -> string -> location.
Variable fe : field_error.

(** [parse]; /repo/src/utils/policy/pest/mod.rs:40-64. *)
Definition told_parse (policy : string) (lang : language) : told pvalue :=
  with_text (from_parse_error lang (place lang policy)) (parse policy lang).

(** [calc_pruned]; /repo/src/utils/secretsharing/mod.rs:143-201, its error at line 190. *)
Definition told_pruned (attr : list string) (v : pvalue) : told (bool * list (string * string)) :=
  with_text (error_new "Error in calc_pruned: unknown array type!") (calc_pruned attr v None).

(** [decrypt_symmetric]; /repo/src/utils/aes/mod.rs:29-44.  The error of line 33 needs a slice of twelve
    bytes that is not one of twelve bytes. *)
Definition told_open (msg : GT C) (data : string) : told string :=
  with_text unsealed (decrypt_symmetric msg data).

(** [sha3_hash]; /repo/src/utils/hash/mod.rs:9-20. *)
Definition told_hash_g1 (g : G1 C) (s : string) : told (G1 C) :=
  with_text (from_field_error fe) (sha3_hash_g1 g s).

(** [sha3_hash_fr]; /repo/src/utils/hash/mod.rs:22-33. *)
Definition told_hash_fr (s : string) : told (F C) :=
  with_text (from_field_error fe) (sha3_hash_fr s).

(** ** BSW *)

(** The text of bsw/mod.rs:271 and, once more, of line 277. *)
Definition bsw_mismatch : rabe_error := error_new "Error in bsw/encrypt: attributes do not match policy.".

(** [decrypt]; /repo/src/schemes/bsw/mod.rs:260-318. *)
Definition told_bsw_decrypt (sk : bsw_sk C) (ct : bsw_ct C) : told string :=
  let attr := map b_string (bsk_dj sk) in
  tbind (told_parse (fst (Bsw.bct_policy ct)) (snd (Bsw.bct_policy ct))) (fun v =>
  if negb (traverse_policy attr v Leaf) then Tell bsw_mismatch
  else
    tbind (told_pruned attr v) (fun pruned =>
    if negb (fst pruned) then Tell bsw_mismatch
    else
      tbind (calm (obind (calc_coefficients v (f1 C) [] None) unwrap)) (fun z =>
      let a := fold_left (bsw_step sk ct z) (snd pruned) (gtone C) in
      told_open (gtmul C (Bsw.bct_cp ct) (gtinv C (gtmul C (pairing C (Bsw.bct_c ct) (bsk_d sk)) (gtinv C a))))
        (Bsw.bct_data ct)))).

(** [encrypt]; /repo/src/schemes/bsw/mod.rs:217-251.  The error of line 224 is made and thrown away.  After
    [parse] only [encrypt_symmetric] could report an error, and that branch is left out in Symmetric.v. *)
Definition told_bsw_encrypt (nonce : string) (pk : bsw_pk C) (policy : string) (lang : language)
  (data : string) (t : nat -> F C) (i : nat) : told (bsw_ct C * nat) :=
  tbind (told_parse policy lang) (fun _ => calm (bsw_encrypt nonce pk policy lang data t i)).

(** ** GHW11 *)

(** The texts of ghw11/mod.rs:242 and 286. *)
Definition ghw_mismatch : rabe_error := error_new "Error: attributes in tk do not match policy in ct.".
Definition ghw_mismatch_pruned : rabe_error :=
  error_new "Error in Ghw11/decrypt: attributes in sk do not match policy in ct.".

(** [transform]; /repo/src/schemes/ghw11/mod.rs:227-294. *)
Definition told_ghw_transform (ct : ghw_ct C) (tk : ghw_tk C) : told (ghw_tct C) :=
  let attr := map fst (gtk_attr tk) in
  tbind (told_parse (fst (gct_policy ct)) (snd (gct_policy ct))) (fun v =>
  if negb (traverse_policy attr v Leaf) then Tell ghw_mismatch
  else
    tbind (told_pruned attr v) (fun pruned =>
    tbind (calm (obind (calc_coefficients v (f1 C) [] None) unwrap)) (fun z =>
    if fst pruned then
      tbind (calm (ofold (ghw_step tk ct z) (snd pruned) (g1zero C, gtone C))) (fun st =>
      let t := gtmul C (snd st) (pairing C (fst st) (gtk_l tk)) in
      Fine (GhwTct (gct_c ct) (gtmul C (pairing C (gct_c1 ct) (gtk_k tk)) (gtinv C t))))
    else Tell ghw_mismatch_pruned))).

(** [decrypt_out]; /repo/src/schemes/ghw11/mod.rs:297-304. *)
Definition told_ghw_out (pct : ghw_tct C) (z : F C) (data : string) : told string :=
  told_open (gtmul C (gtct_c pct) (gtinv C (gtpow C (gtct_t pct) z))) data.

(** [encrypt]; /repo/src/schemes/ghw11/mod.rs:189-224, with the thrown-away error of line 196. *)
Definition told_ghw_encrypt (nonce : string) (pk : ghw_pk C) (policy : string) (lang : language)
  (data : string) (t : nat -> F C) (i : nat) : told (ghw_ct C * nat) :=
  tbind (told_parse policy lang) (fun _ => calm (ghw_encrypt nonce pk policy lang data t i)).

(** ** LSW *)

(** The texts of lsw/mod.rs:186 and 283. *)
Definition lsw_empty : rabe_error := error_new "attributes or data empty".
Definition lsw_mismatch : rabe_error := error_new "Error in lsw/decrypt: attributes do not match policy.".

(** [keygen]; /repo/src/schemes/lsw/mod.rs:121-170.  The error of line 165 needs a secret that is not
    shared, which [gen_shares_policy] never reports. *)
Definition told_lsw_keygen (pk : lsw_pk C) (msk : lsw_msk C) (policy : string) (lang : language)
  (t : nat -> F C) (i : nat) : told (lsw_sk C * nat) :=
  tbind (told_parse policy lang) (fun _ => calm (lsw_keygen pk msk policy lang t i)).

(** [encrypt]; /repo/src/schemes/lsw/mod.rs:180-219. *)
Definition told_lsw_encrypt (nonce : string) (pk : lsw_pk C) (attributes : list string) (plaintext : string)
  (t : nat -> F C) (i : nat) : told (lsw_ct C * nat) :=
  if (length attributes =? 0)%nat || (String.length plaintext =? 0)%nat then Tell lsw_empty
  else calm (lsw_encrypt nonce pk attributes plaintext t i).

(** [decrypt]; /repo/src/schemes/lsw/mod.rs:228-290. *)
Definition told_lsw_decrypt (sk : lsw_sk C) (ct : lsw_ct C) : told string :=
  let attr := map le_name (lct_ej ct) in
  tbind (told_parse (fst (lsk_policy sk)) (snd (lsk_policy sk))) (fun v =>
  tbind (told_pruned attr v) (fun pruned =>
  if fst pruned then
    tbind (calm (obind (calc_coefficients v (f1 C) [] None) unwrap)) (fun z =>
    tbind (calm (ofold (lsw_step sk ct z) (snd pruned) (gtone C, gtone C))) (fun st =>
    told_open (gtmul C (lct_e1 ct) (gtinv C (snd st))) (lct_ct ct)))
  else Tell lsw_mismatch)).

(** ** YCT14 *)

(** The texts of yct14/mod.rs:298, 301 and 358. *)
Definition yct_no_attributes : rabe_error := error_new "attributes empty".
Definition yct_no_plaintext : rabe_error := error_new "plaintext empty".
Definition yct_mismatch : rabe_error := error_new "Error in decrypt: attributes do not match policy.".

(** [keygen]; /repo/src/schemes/yct14/mod.rs:257-284.  The error of line 279 is as that of LSW. *)
Definition told_yct_keygen (msk : yct_msk C) (policy : string) (lang : language) (t : nat -> F C) (i : nat)
  : told (yct_sk C * nat) :=
  tbind (told_parse policy lang) (fun _ => calm (yct_keygen msk policy lang t i)).

(** [encrypt]; /repo/src/schemes/yct14/mod.rs:292-319. *)
Definition told_yct_encrypt (nonce : string) (pk : yct_pk C) (attributes : list string) (plaintext : string)
  (t : nat -> F C) (i : nat) : told (yct_ct C * nat) :=
  if (length attributes =? 0)%nat then Tell yct_no_attributes
  else if (String.length plaintext =? 0)%nat then Tell yct_no_plaintext
  else calm (yct_encrypt nonce pk attributes plaintext t i).

(** [decrypt]; /repo/src/schemes/yct14/mod.rs:326-365. *)
Definition told_yct_decrypt (sk : yct_sk C) (ct : yct_ct C) : told string :=
  let attr := map y_name (yct_attrs ct) in
  tbind (told_parse (fst (ysk_policy sk)) (snd (ysk_policy sk))) (fun v =>
  tbind (told_pruned attr v) (fun pruned =>
  if fst pruned then
    tbind (calm (obind (calc_coefficients v (f1 C) [] None) unwrap)) (fun z =>
    tbind (calm (ofold (yct_step sk ct z) (snd pruned) (gtone C))) (fun prod =>
    told_open prod (yct_data ct)))
  else Tell yct_mismatch)).

(** ** AW11 *)

(** The texts of aw11/mod.rs:173 and 208, 176, 211, 314 and 358. *)
Definition aw_no_attributes : rabe_error := error_new "empty _attributes".
Definition aw_no_name : rabe_error := error_new "empty _name".
Definition aw_no_gid : rabe_error := error_new "empty _gid".
Definition aw_mismatch : rabe_error := error_new "Error: attributes in sk do not match policy in ct.".
Definition aw_mismatch_pruned : rabe_error :=
  error_new "Error in aw11/decrypt: attributes in sk do not match policy in ct.".

(** [add_to_attribute]; /repo/src/schemes/aw11/mod.rs:200-231. *)
Definition told_aw_add (gk : aw_gk C) (msk : aw_msk C) (attribute : string) (sk : aw_sk C) : told (aw_sk C) :=
  if (String.length attribute =? 0)%nat then Tell aw_no_attributes
  else if (String.length (awsk_gid sk) =? 0)%nat then Tell aw_no_gid
  else
    tbind (told_hash_g1 (agk_g1 gk) (awsk_gid sk)) (fun hash =>
    tbind (calm (unwrap (find (fun a => seqb (n3 a) attribute) (amsk_attr msk)))) (fun a =>
    Fine (AwSk (awsk_gid sk)
            (awsk_attr sk ++ [(upper C (n3 a),
               g1add C (g1mul C (agk_g1 gk) (snd (fst a))) (g1mul C hash (snd a)))])%list))).

(** The loop at aw11/mod.rs:183-187. *)
Fixpoint told_aw_adds (gk : aw_gk C) (msk : aw_msk C) (l : list string) (sk : aw_sk C) : told (aw_sk C) :=
  match l with
  | [] => Fine sk
  | a :: r => tbind (told_aw_add gk msk a sk) (told_aw_adds gk msk r)
  end.

(** [keygen]; /repo/src/schemes/aw11/mod.rs:165-190. *)
Definition told_aw_keygen (gk : aw_gk C) (msk : aw_msk C) (name : string) (attributes : list string)
  : told (aw_sk C) :=
  if (length attributes =? 0)%nat then Tell aw_no_attributes
  else if (String.length name =? 0)%nat then Tell aw_no_name
  else told_aw_adds gk msk attributes (AwSk name []).

(** [encrypt]; /repo/src/schemes/aw11/mod.rs:241-289. *)
Definition told_aw_encrypt (nonce : string) (gk : aw_gk C) (pks : list (aw_pk C)) (policy : string)
  (lang : language) (data : string) (t : nat -> F C) (i : nat) : told (aw_ct C * nat) :=
  tbind (told_parse policy lang) (fun _ => calm (aw_encrypt nonce gk pks policy lang data t i)).

(** [decrypt]; /repo/src/schemes/aw11/mod.rs:298-366. *)
Definition told_aw_decrypt (gk : aw_gk C) (sk : aw_sk C) (ct : aw_ct C) : told string :=
  let str_attr := map fst (awsk_attr sk) in
  tbind (told_parse (fst (awct_policy ct)) (snd (awct_policy ct))) (fun pol =>
  if negb (traverse_policy str_attr pol Leaf) then Tell aw_mismatch
  else
    tbind (told_pruned str_attr pol) (fun p =>
    tbind (calm (obind (calc_coefficients pol (f1 C) [] None) unwrap)) (fun coeff =>
    if fst p then
      tbind (told_hash_g1 (agk_g1 gk) (awsk_gid sk)) (fun hash =>
      tbind (calm (ofold (aw_step sk ct coeff hash) (snd p) (gtone C))) (fun egg_s =>
      told_open (gtmul C (awct_c0 ct) (gtinv C egg_s)) (awct_data ct)))
    else Tell aw_mismatch_pruned))).

(** ** BDABE and MKE08 *)

(** The text of bdabe/mod.rs:258 and 295 and of mke08/mod.rs:260 and 297. *)
Definition not_handled (attribute : string) : rabe_error :=
  error_new ("attribute " ++ attribute ++ " is not from_authority() or !is_eligible()").

(** The texts of bdabe/mod.rs:345 and 371. *)
Definition bd_not_dnf : rabe_error := error_new "Error in bdabe/encrypt: Policy not in DNF.".
Definition bd_mismatch : rabe_error :=
  error_new "Error in bdabe/decrypt: attributes in sk do not match policy in ct.".

(** [request_attribute_pk]; /repo/src/schemes/bdabe/mod.rs:232-260. *)
Definition told_bd_request_pk (pk : bd_pk C) (sk_a : bd_auth C) (attribute : string) : told (bd_apk C) :=
  if from_authority attribute (bau_name sk_a) then
    tbind (told_hash_fr attribute) (fun hash_1 =>
    tbind (told_hash_fr (bau_name sk_a)) (fun hash_2 =>
    let exp := fmul C (fmul C hash_1 hash_2) (bau_a3 sk_a) in
    Fine (BdApk attribute (g1mul C (Bdabe.bpk_g1 pk) exp) (g2mul C (Bdabe.bpk_g2 pk) exp) (gtpow C (Bdabe.bpk_egg pk) exp))))
  else Tell (not_handled attribute).

(** [request_attribute_sk]; /repo/src/schemes/bdabe/mod.rs:270-297. *)
Definition told_bd_request_sk (pk_u : bd_upk C) (sk_a : bd_auth C) (attribute : string) : told (bd_ask C) :=
  if from_authority attribute (bau_name sk_a) && is_eligible attribute (bupk_u pk_u) then
    tbind (told_hash_fr attribute) (fun hash_1 =>
    tbind (told_hash_fr (bau_name sk_a)) (fun hash_2 =>
    let exp := fmul C (fmul C hash_1 hash_2) (bau_a3 sk_a) in
    Fine (BdAsk attribute (g1mul C (bupk_u1 pk_u) exp) (g2mul C (bupk_u2 pk_u) exp))))
  else Tell (not_handled attribute).

(** [encrypt]; /repo/src/schemes/bdabe/mod.rs:309-350. *)
Definition told_bd_encrypt (nonce : string) (pk : bd_pk C) (attr_pks : list (bd_apk C)) (policy : string)
  (lang : language) (data : string) (t : nat -> F C) (i : nat) : told (bd_ct C * nat) :=
  tbind (told_parse policy lang) (fun pol =>
  if policy_in_dnf pol false None then calm (bd_encrypt nonce pk attr_pks policy lang data t i)
  else Tell bd_not_dnf).

(** [decrypt]; /repo/src/schemes/bdabe/mod.rs:359-390. *)
Definition told_bd_decrypt (sk : bd_uk C) (ct : bd_ct C) : told string :=
  let str_attr := map bask_attr (buk_ska sk) in
  tbind (told_parse (fst (Bdabe.bct_policy ct)) (snd (Bdabe.bct_policy ct))) (fun pol =>
  if negb (traverse_policy str_attr pol Leaf) then Tell bd_mismatch
  else told_open (bd_first sk (Bdabe.bct_j ct)) (Bdabe.bct_data ct)).

(** The texts of mke08/mod.rs:351 and 379. *)
Definition mk_not_dnf : rabe_error := error_new "Error in mke08/encrypt: policy is not in dnf".
Definition mk_mismatch : rabe_error :=
  error_new "Error in mke08/decrypt: attributes in sk do not match policy in ct.".

(** [request_authority_pk]; /repo/src/schemes/mke08/mod.rs:233-262. *)
Definition told_mk_request_pk (pk : mk_pk C) (attribute : string) (sk_a : mk_auth C) : told (mk_apk C) :=
  if from_authority attribute (mau_name sk_a) then
    tbind (told_hash_fr attribute) (fun hash_1 =>
    tbind (told_hash_fr (mau_name sk_a)) (fun hash_2 =>
    let exp := fmul C (fmul C hash_1 hash_2) (mau_r sk_a) in
    Fine (MkApk attribute (g1mul C (mpk_g1 pk) exp) (g2mul C (mpk_g2 pk) exp)
                (gtpow C (mpk_egg1 pk) exp) (gtpow C (mpk_egg2 pk) exp))))
  else Tell (not_handled attribute).

(** [request_authority_sk]; /repo/src/schemes/mke08/mod.rs:272-299. *)
Definition told_mk_request_sk (pk_u : mk_upk C) (attr : string) (sk_a : mk_auth C) : told (mk_ask C) :=
  if from_authority attr (mau_name sk_a) && is_eligible attr (mupk_name pk_u) then
    tbind (told_hash_fr attr) (fun hash_1 =>
    tbind (told_hash_fr (mau_name sk_a)) (fun hash_2 =>
    let exp := fmul C (fmul C hash_1 hash_2) (mau_r sk_a) in
    Fine (MkAsk attr (g1mul C (mupk_g1 pk_u) exp) (g2mul C (mupk_g2 pk_u) exp))))
  else Tell (not_handled attr).

(** [encrypt]; /repo/src/schemes/mke08/mod.rs:311-356. *)
Definition told_mk_encrypt (nonce : string) (pk : mk_pk C) (attr_pks : list (mk_apk C)) (policy : string)
  (lang : language) (data : string) (t : nat -> F C) (i : nat) : told (mk_ct C * nat) :=
  tbind (told_parse policy lang) (fun pol =>
  if policy_in_dnf pol false None then calm (mk_encrypt nonce pk attr_pks policy lang data t i)
  else Tell mk_not_dnf).

(** [decrypt]; /repo/src/schemes/mke08/mod.rs:365-398. *)
Definition told_mk_decrypt (sk : mk_uk C) (ct : mk_ct C) : told string :=
  let attr_str := map mask_attr (muk_ska sk) in
  tbind (told_parse (fst (mct_policy ct)) (snd (mct_policy ct))) (fun pol =>
  if negb (traverse_policy attr_str pol Leaf) then Tell mk_mismatch
  else told_open (mk_first sk (mct_e ct)) (mct_data ct)).

(** ** AC17 *)

(** The texts of ac17/mod.rs:198, 392, 422, 632 and 667. *)
Definition cp_no_attributes : rabe_error := error_new "empty attributes!".
Definition cp_mismatch : rabe_error :=
  error_new "Error in cp_decrypt: attributes in SK do not match policy in CT.".
Definition cp_mismatch_pruned : rabe_error := error_new "Error: attributes in sk do not match policy in ct.".
Definition kp_mismatch : rabe_error :=
  error_new "Error in kp_decrypt: attributes in ct do not match policy in sk.".
Definition kp_mismatch_pruned : rabe_error :=
  error_new "Error in kp_decrypt: pruned attributes in sk do not match policy in ct.".

(** [cp_keygen]; /repo/src/schemes/ac17/mod.rs:191-264, whose hashes are [expect]ed. *)
Definition told_cp_keygen (msk : ac_msk C) (attributes : list string) (t : nat -> F C) (i : nat)
  : told (ac_cpsk C * nat) :=
  if (length attributes =? 0)%nat then Tell cp_no_attributes else calm (cp_keygen msk attributes t i).

(** [cp_encrypt]; /repo/src/schemes/ac17/mod.rs:274-376.  After [parse], a hash may fail (lines 322, 350). *)
Definition told_cp_encrypt (nonce : string) (pk : ac_pk C) (policy : string) (plaintext : string)
  (lang : language) (t : nat -> F C) (i : nat) : told (ac_cpct C * nat) :=
  tbind (told_parse policy lang) (fun _ =>
  with_text (from_field_error fe) (cp_encrypt nonce pk policy plaintext lang t i)).

(** [kp_keygen]; /repo/src/schemes/ac17/mod.rs:439-546, whose hashes are [expect]ed. *)
Definition told_kp_keygen (msk : ac_msk C) (policy : string) (lang : language) (t : nat -> F C) (i : nat)
  : told (ac_kpsk C * nat) :=
  tbind (told_parse policy lang) (fun _ => calm (kp_keygen msk policy lang t i)).

(** [kp_encrypt]; /repo/src/schemes/ac17/mod.rs:556-616.  A hash may fail (line 593). *)
Definition told_kp_encrypt (nonce : string) (pk : ac_pk C) (attributes : list string) (data : string)
  (t : nat -> F C) (i : nat) : told (ac_kpct C * nat) :=
  with_text (from_field_error fe) (kp_encrypt nonce pk attributes data t i).

(** The common part of [cp_decrypt] and [kp_decrypt], with their two texts;
    /repo/src/schemes/ac17/mod.rs:389-430 and 629-675. *)
Definition told_ac_open (mismatch pruned_mismatch : rabe_error) (attr : list string)
  (policy : string * language) (sk : ac_sk C) (ct : ac_ct C) (kp : bool) : told string :=
  tbind (told_parse (fst policy) (snd policy)) (fun v =>
  if negb (traverse_policy attr v Leaf) then Tell mismatch
  else
    tbind (told_pruned attr v) (fun pruned =>
    if fst pruned then
      tbind (calm (ac_products sk ct kp (snd pruned))) (fun ps =>
      told_open (gtmul C (act_cp ct) (gtmul C (snd ps) (gtinv C (fst ps)))) (act_ct ct))
    else Tell pruned_mismatch)).

(** [cp_decrypt]; /repo/src/schemes/ac17/mod.rs:385-430. *)
Definition told_cp_decrypt (sk : ac_cpsk C) (ct : ac_cpct C) : told string :=
  told_ac_open cp_mismatch cp_mismatch_pruned (acps_attr sk) (acp_policy ct) (acps_sk sk) (acp_ct ct) false.

(** [kp_decrypt]; /repo/src/schemes/ac17/mod.rs:625-675. *)
Definition told_kp_decrypt (sk : ac_kpsk C) (ct : ac_kpct C) : told string :=
  told_ac_open kp_mismatch kp_mismatch_pruned (akp_attr ct) (akps_policy sk) (akps_sk sk) (akp_ct ct) true.

End Messages.
