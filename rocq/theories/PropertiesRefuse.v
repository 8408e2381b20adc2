(** * PropertiesRefuse: C105 and additions to C20, C81 and C82

    Refused console commands and the words of a request; AC17 with a hash that
    may fail.  Every statement is written out in full; the proofs are in
    WordProofs.v and HashFail.v. *)
From Coq Require Import String Ascii List Bool Arith NArith ZArith Lia.
From Verif Require Import Base Crypto Policy Tools Spec Parse Instance Witnesses Msp Ac17 Ac17Proofs
  RobustProofs HashFail Files Borsh Console ConsoleWitnesses Utf8Proofs WordProofs.
Import ListNotations.
Local Open Scope string_scope.

(** C105. A command that the scheme does not offer is refused and touches nothing. *)
Theorem C105_not_offered :
  forall (C : crypto) (W : env C) (t : nat -> F C) (nonce text : string) (c : command) (m : args)
    (s : scheme) (lang : language) (d : fs),
  offers c s = false -> run W t nonce text c m s lang d = (d, Err).
Proof. exact @not_offered. Qed.
Print Assumptions C105_not_offered.

Example C105_example_offers : offers Delegate LSW = false /\ offers Delegate BSW = true /\
  offers Authgen BSW = false /\ offers ReqAttrPk AW11 = false.
Proof. repeat split. Qed.

(** C105. Arguments are cut at Unicode white space: every text has words, and they
    are what the code finds. *)
Theorem C105_words :
  forall l : list N, Forall scalar l ->
  exists ws : list (list N), words l ws /\ split_whitespace (encode_all l) = map encode_all ws.
Proof. exact split_exact. Qed.
Print Assumptions C105_words.

Theorem C105_words_all :
  forall (l : list N) (ws : list (list N)),
  words l ws -> Forall scalar l -> split_whitespace (encode_all l) = map encode_all ws.
Proof. exact split_words. Qed.
Print Assumptions C105_words_all.

(** Two words around a no-break space and a tab, the second with a control character. *)
Example C105_example_words :
  split_whitespace (encode_all [65; 66; 160; 9; 14; 8203; 32; 12288]%N) =
  [encode_all [65; 66]%N; encode_all [14; 8203]%N] /\
  words [65; 66; 160; 9; 14; 8203; 32; 12288]%N [[65; 66]; [14; 8203]]%N.
Proof.
  split; [reflexivity|].
  apply (words_cons [65; 66]%N 160%N [9; 14; 8203; 32; 12288]%N); unfold white;
    [discriminate|repeat (apply Forall_cons; [lia|]); constructor|lia|].
  apply words_gap; unfold white; [lia|].
  apply (words_cons [14; 8203]%N 32%N [12288]%N); unfold white;
    [discriminate|repeat (apply Forall_cons; [lia|]); constructor|lia|].
  apply words_gap; unfold white; [lia|]. constructor.
Qed.

(** C105. A request for anything but one word in total is refused and touches nothing. *)
Theorem C105_one_word :
  forall (C : crypto) (W : env C) (t : nat -> F C) (nonce text : string) (c : command) (m : args)
    (s : scheme) (lang : language) (d : fs) (given : list string) (l : list (list string)),
  c = ReqAttrPk \/ c = ReqAttrSk ->
  m ATTRIBUTES = Some given ->
  Forall2 (fun (a : string) (w : list string) =>
    exists (u : list N) (ws : list (list N)),
      a = encode_all u /\ Forall scalar u /\ words u ws /\ w = map encode_all ws) given l ->
  (List.length (List.concat l) <> 1 -> run W t nonce text c m s lang d = (d, Err)) /\
  req_attrs m = List.concat l.
Proof. exact @one_word. Qed.
Print Assumptions C105_one_word.

Example C105_example_request :
  Forall2 (fun (a : string) (w : list string) =>
    exists (u : list N) (ws : list (list N)),
      a = encode_all u /\ Forall scalar u /\ words u ws /\ w = map encode_all ws)
    ["A B"] [["A"; "B"]].
Proof.
  constructor; [|constructor]. exists [65; 32; 66]%N, [[65]; [66]]%N.
  split; [reflexivity|]. split; [repeat constructor|]. split; [|reflexivity].
  apply (words_cons [65]%N 32%N [66]%N); unfold white;
    [discriminate|repeat (apply Forall_cons; [lia|]); constructor|lia|].
  apply words_last; unfold white; [discriminate|repeat (apply Forall_cons; [lia|]); constructor].
Qed.

(** C20. The span program has one column more than the policy has AND gates. *)
Theorem C20_columns :
  forall (f : formula) (m : abe_policy), calculate_msp (tree f) = Ok m -> msp_c m = S (gates f).
Proof. exact msp_columns. Qed.
Print Assumptions C20_columns.

Example C20_example_columns : gates fP = 1 /\
  gates (FAnd [FAnd [FLeaf "A" 2; FLeaf "B" 9]; FOr [FLeaf "C" 16; FAnd [FLeaf "A" 20; FLeaf "D" 30]]]) = 3.
Proof. split; reflexivity. Qed.

(** C81. AC17 encryption reports an undefined hash: key-policy. *)
Theorem C81_kp_hash :
  forall (C : crypto) (pk : ac_pk C) (msk : ac_msk C) (t0 : nat -> F C) (i0 j0 : nat),
  ac_setup t0 i0 = Ok (pk, msk, j0) ->
  forall (nonce : string) (attrs : list string) (data : string) (t : nat -> F C) (i : nat),
  declined (kp_encrypt nonce pk attrs data t i)
    (exists a : string, In a attrs /\ unhashed (C := C) a).
Proof. exact @kp_encrypt_hash. Qed.
Print Assumptions C81_kp_hash.

(** C81. Ciphertext-policy: the labels are the names and the columns. *)
Theorem C81_cp_hash :
  forall C : crypto, laws C ->
  forall (pk : ac_pk C) (msk : ac_msk C) (t0 : nat -> F C) (i0 j0 : nat),
  ac_setup t0 i0 = Ok (pk, msk, j0) ->
  forall (nonce pol : string) (lang : language) (data : string) (f : formula) (t : nat -> F C) (i : nat),
  parse pol lang = Ok (tree f) ->
  binary_and f = true ->
  declined (cp_encrypt nonce pk pol data lang t i)
    ((exists a : string, In a (names f) /\ unhashed (C := C) a) \/
     (exists j : nat, 1 <= j <= S (gates f) /\ unhashed (C := C) (column j))).
Proof. exact @cp_encrypt_hash. Qed.
Print Assumptions C81_cp_hash.

(** C82. AC17 key generation aborts on an undefined hash: ciphertext-policy. *)
Theorem C82_cp_hash :
  forall C : crypto, laws C ->
  forall (pk : ac_pk C) (msk : ac_msk C) (t0 : nat -> F C) (i0 j0 : nat),
  ac_setup t0 i0 = Ok (pk, msk, j0) ->
  forall (attrs : list string) (t : nat -> F C) (i : nat),
  attrs <> [] ->
  settled (cp_keygen msk attrs t i)
    ((exists a : F C, In a (amsk_a msk) /\ a = f0 C) \/
     (exists a : string, In a attrs /\ unhashed (C := C) a) \/ unhashed (C := C) "01").
Proof. exact @cp_keygen_hash. Qed.
Print Assumptions C82_cp_hash.

(** C82. Key-policy. *)
Theorem C82_kp_hash :
  forall C : crypto, laws C ->
  forall (pk : ac_pk C) (msk : ac_msk C) (t0 : nat -> F C) (i0 j0 : nat),
  ac_setup t0 i0 = Ok (pk, msk, j0) ->
  forall (pol : string) (lang : language) (f : formula) (t : nat -> F C) (i : nat),
  parse pol lang = Ok (tree f) ->
  binary_and f = true ->
  settled (kp_keygen msk pol lang t i)
    ((exists a : F C, In a (amsk_a msk) /\ a = f0 C) \/
     (exists a : string, In a (names f) /\ unhashed (C := C) a) \/
     (exists j : nat, 1 <= j <= gates f /\ unhashed (C := C) (column j))).
Proof. exact @kp_keygen_hash. Qed.
Print Assumptions C82_kp_hash.

(** A hash that is undefined on one text only. *)
Definition ZA : crypto :=
  of_field zp (zmk 0) (zmk 1) zadd zmul zsub zopp zinv zeqb
    (fun s => if seqb s "A21" then None else Some (zmk 5)) (fun x => dec (Z.to_nat (zval x))).
Example C82_example_laws : laws ZA.
Proof. exact (of_field_laws _ _ _ _ _ _ _ _ _ zp_field _ zeqb_ok _ _). Qed.
Example C82_example_unhashed : unhashed (C := ZA) "A" /\ ~ unhashed (C := ZA) "B" /\ ~ unhashed (C := ZA) "01".
Proof.
  split; [exists 2, 1; repeat constructor|]. split; intros (l & u & _ & _ & E); cbn in E; discriminate E.
Qed.
Example C82_example_setup : exists (pk : ac_pk ZA) msk j, ac_setup (C := ZA) (ztape 3) 0 = Ok (pk, msk, j).
Proof. exact (ac_setup_runs (C := ZA) (ztape 3) 0). Qed.
