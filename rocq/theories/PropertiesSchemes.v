(** * PropertiesSchemes: C29 to C47: the schemes

    Every statement is written out in full; the proofs are in the *Proofs files. *)
From Coq Require Import String Ascii List Bool Arith ZArith Lia.
From Verif Require Import Base Crypto Policy Tools Sharing Spec PolicyProofs Poly SharingProofs
  Msp MspProofs Dnf Symmetric Peg Grammar Parse PegProofs ParseProofs ParseText ParseHuman
  SchemeLib CoreProofs Files FilesProofs DnfProofs Bdabe BdabeProofs Mke08 Mke08Proofs
  Bsw BswProofs Ghw11 Ghw11Proofs Lsw LswProofs Yct14 Yct14Proofs Ac17 Ac17Proofs
  Aw11 Aw11Proofs EdgeProofs TruncationProofs Instance Sessions SessionProofs Witnesses.
Import ListNotations.
Local Open Scope string_scope.
Local Open Scope rand_scope.
Local Open Scope nat_scope.

(** C29. *)
Theorem C29_bsw_correct :
  (forall C : crypto,
  laws C ->
  forall (nonce : string) (pk : bsw_pk C) (msk : bsw_msk C) (attrs : list string)
    (sk : bsw_sk C) (pol : string) (lang : language) (data : string) 
    (ct : bsw_ct C) (f : formula) (ts : nat -> F C) (is js : nat) 
    (tk : nat -> F C) (ik jk : nat) (te : nat -> F C) (ie je : nat),
  bsw_setup ts is = Ok (pk, msk, js) ->
  bsw_keygen pk msk attrs tk ik = Ok (Some sk, jk) ->
  bsw_encrypt nonce pk pol lang data te ie = Ok (ct, je) ->
  parse pol lang = Ok (tree f) ->
  String.length nonce = 12 ->
  arity2 f = true ->
  NoDup (leaves f) ->
  plain_names f = true ->
  small_ok C (and_width f) -> sat (owns attrs) f = true -> bsw_decrypt sk ct = Ok data)%F.
Proof. exact @bsw_correct. Qed.
Print Assumptions C29_bsw_correct.

(** The policy of the examples meets the conditions on policies of all the theorems below. *)
Example policy_example :
  parse P HumanPolicy = Ok (tree fP) /\ String.length nc = 12 /\ arity2 fP = true /\
  binary_and fP = true /\ NoDup (leaves fP) /\ NoDup (names fP) /\ plain_names fP = true /\
  forallb (fun n => negb (negated n)) (names fP) = true /\ upper_names ZC fP /\
  small_ok ZC (and_width fP) /\ sat (owns ["A"; "C"]) fP = true /\ sat (owns ["B"; "C"]) fP = false.
Proof.
  repeat match goal with |- _ /\ _ => split end; try ground.
  intros n I. cbn in I. destruct I as [<-|[<-|[<-|[]]]]; reflexivity.
Qed.

Example C29_example : exists (pk : bsw_pk ZC) msk sk ct ts i1 i2 i3 i4,
  bsw_setup ts 0 = Ok (pk, msk, i1) /\
  bsw_keygen pk msk ["A"; "C"] ts i1 = Ok (Some sk, i2) /\
  bsw_encrypt nc pk P HumanPolicy "hello" ts i3 = Ok (ct, i4) /\
  bsw_decrypt sk ct = Ok "hello".
Proof. by_run (bsw_session (C := ZC) nc ["A"; "C"] P HumanPolicy "hello") (Ok "hello"). Qed.

(** C30. *)
Theorem C30_bsw_delegate_correct :
  (forall C : crypto,
  laws C ->
  forall (nonce : string) (pk : bsw_pk C) (msk : bsw_msk C) (attrs : list string)
    (sk : bsw_sk C) (subset : list string) (sk' : bsw_sk C) (pol : string)
    (lang : language) (data : string) (ct : bsw_ct C) (f : formula) 
    (ts : nat -> F C) (is js : nat) (tk : nat -> F C) (ik jk : nat) 
    (td : nat -> F C) (id jd : nat) (te : nat -> F C) (ie je : nat),
  bsw_setup ts is = Ok (pk, msk, js) ->
  bsw_keygen pk msk attrs tk ik = Ok (Some sk, jk) ->
  bsw_delegate pk sk subset td id = Ok (Some sk', jd) ->
  bsw_encrypt nonce pk pol lang data te ie = Ok (ct, je) ->
  parse pol lang = Ok (tree f) ->
  String.length nonce = 12 ->
  arity2 f = true ->
  NoDup (leaves f) ->
  plain_names f = true ->
  small_ok C (and_width f) -> sat (owns subset) f = true -> bsw_decrypt sk' ct = Ok data)%F.
Proof. exact @bsw_delegate_correct. Qed.
Print Assumptions C30_bsw_delegate_correct.

Example C30_example : exists (pk : bsw_pk ZC) msk sk sk' ct ts i1 i2 i3 i4 i5,
  bsw_setup ts 0 = Ok (pk, msk, i1) /\
  bsw_keygen pk msk ["A"; "B"; "C"; "D"] ts i1 = Ok (Some sk, i2) /\
  bsw_delegate pk sk ["A"; "C"] ts i2 = Ok (Some sk', i3) /\
  bsw_encrypt nc pk P HumanPolicy "hello" ts i4 = Ok (ct, i5) /\
  bsw_decrypt sk' ct = Ok "hello".
Proof.
  by_run (bsw_delegated_session (C := ZC) nc ["A"; "B"; "C"; "D"] ["A"; "C"] P HumanPolicy "hello") (Ok "hello").
Qed.

(** C31, when it succeeds. *)
Theorem C31_bsw_delegate_iff :
  (forall (C : crypto) (pk : bsw_pk C) (sk : bsw_sk C) (subset : list string)
    (t : nat -> F C) (i : nat),
  (forall a : string, In a subset -> hash C a <> None) ->
  (exists (sk' : bsw_sk C) (j : nat), bsw_delegate pk sk subset t i = Ok (Some sk', j)) <->
  subset <> [] /\ (forall a : string, In a subset -> In a (map b_string (bsk_dj sk))))%F.
Proof. exact @bsw_delegate_iff. Qed.
Print Assumptions C31_bsw_delegate_iff.

(** C31, the attributes. *)
Theorem C31_bsw_delegate_attrs :
  (forall (C : crypto) (pk : bsw_pk C) (sk : bsw_sk C) (subset : list string)
    (t : nat -> F C) (i : nat) (sk' : bsw_sk C) (j : nat),
  bsw_delegate pk sk subset t i = Ok (Some sk', j) -> map b_string (bsk_dj sk') = subset)%F.
Proof. exact @bsw_delegate_attrs. Qed.
Print Assumptions C31_bsw_delegate_attrs.

(** C31, the form of a fresh key. *)
Theorem C31_bsw_delegate_fresh :
  (forall C : crypto,
  laws C ->
  forall (pk : bsw_pk C) (msk : bsw_msk C) (attrs : list string) 
    (sk : bsw_sk C) (subset : list string) (ts : nat -> F C) (is js : nat)
    (tk : nat -> F C) (ik jk : nat),
  bsw_setup ts is = Ok (pk, msk, js) ->
  bsw_keygen pk msk attrs tk ik = Ok (Some sk, jk) ->
  subset <> [] ->
  (forall a : string, In a subset -> In a attrs) ->
  exists sh : nat -> F C,
    forall (t : nat -> F C) (i : nat),
    bsw_delegate pk sk subset t i =
    bsw_keygen pk msk subset (fun k : nat => t k + sh (k - i)%nat) i)%F.
Proof. exact @bsw_delegate_fresh. Qed.
Print Assumptions C31_bsw_delegate_fresh.

Example C31_example : exists (pk : bsw_pk ZC) msk sk ts i1 i2,
  bsw_setup ts 0 = Ok (pk, msk, i1) /\ bsw_keygen pk msk ["A"; "B"; "C"] ts i1 = Ok (Some sk, i2) /\
  (forall a, In a ["C"; "A"] -> In a ["A"; "B"; "C"]).
Proof.
  by_run (bsw_session (C := ZC) nc ["A"; "B"; "C"] P HumanPolicy "hello") (Ok "hello").
  intros a [<-|[<-|[]]]; cbn; auto.
Qed.

(** C32. *)
Theorem C32_ghw_correct :
  (forall C : crypto,
  laws C ->
  forall (nonce : string) (pk : ghw_pk C) (msk : ghw_msk C) (attrs : list string)
    (sk : ghw_sk C) (tk : ghw_tk C) (z : F C) (pol : string) (lang : language)
    (data : string) (ct : ghw_ct C) (f : formula) (ts : nat -> F C) 
    (is js : nat) (tk' : nat -> F C) (ik jk : nat) (tt : nat -> F C) 
    (it jt : nat) (te : nat -> F C) (ie je : nat),
  ghw_setup ts is = Ok (pk, msk, js) ->
  ghw_keygen pk msk attrs tk' ik = Ok (Some sk, jk) ->
  ghw_tkgen sk tt it = Ok (tk, z, jt) ->
  ghw_encrypt nonce pk pol lang data te ie = Ok (ct, je) ->
  parse pol lang = Ok (tree f) ->
  String.length nonce = 12 ->
  arity2 f = true ->
  NoDup (leaves f) ->
  plain_names f = true ->
  small_ok C (and_width f) ->
  sat (owns attrs) f = true ->
  exists tct : ghw_tct C,
    ghw_transform ct tk = Ok tct /\ ghw_decrypt_out tct z (gct_data ct) = Ok data)%F.
Proof. exact @ghw_correct. Qed.
Print Assumptions C32_ghw_correct.

Example C32_example : exists (pk : ghw_pk ZC) msk sk tk z ct ts i1 i2 i3 i4,
  ghw_setup ts 0 = Ok (pk, msk, i1) /\
  ghw_keygen pk msk ["A"; "C"] ts i1 = Ok (Some sk, i2) /\
  ghw_tkgen sk ts i2 = Ok (tk, z, i3) /\
  ghw_encrypt nc pk P HumanPolicy "hello" ts i3 = Ok (ct, i4) /\
  obind (ghw_transform ct tk) (fun tct => ghw_decrypt_out tct z (gct_data ct)) = Ok "hello".
Proof. by_run (ghw_session (C := ZC) nc ["A"; "C"] P HumanPolicy "hello") (Ok "hello"). Qed.

(** C33. *)
Theorem C33_lsw_correct :
  (forall C : crypto,
  laws C ->
  forall (nonce : string) (pk : lsw_pk C) (msk : lsw_msk C) (attrs : list string)
    (sk : lsw_sk C) (pol : string) (lang : language) (data : string) 
    (ct : lsw_ct C) (f : formula) (ts : nat -> F C) (is js : nat) 
    (tk : nat -> F C) (ik jk : nat) (te : nat -> F C) (ie je : nat),
  lsw_setup ts is = Ok (pk, msk, js) ->
  lsw_keygen pk msk pol lang tk ik = Ok (sk, jk) ->
  lsw_encrypt nonce pk attrs data te ie = Ok (ct, je) ->
  parse pol lang = Ok (tree f) ->
  String.length nonce = 12 ->
  arity2 f = true ->
  NoDup (names f) ->
  plain_names f = true ->
  forallb (fun n : string => negb (negated n)) (names f) = true ->
  small_ok C (and_width f) -> sat (owns attrs) f = true -> lsw_decrypt sk ct = Ok data)%F.
Proof. exact @lsw_correct. Qed.
Print Assumptions C33_lsw_correct.

Example C33_example : exists (pk : lsw_pk ZC) msk sk ct ts i1 i2 i3,
  lsw_setup ts 0 = Ok (pk, msk, i1) /\
  lsw_keygen pk msk P HumanPolicy ts i1 = Ok (sk, i2) /\
  lsw_encrypt nc pk ["C"; "A"] "hello" ts i2 = Ok (ct, i3) /\
  lsw_decrypt sk ct = Ok "hello".
Proof. by_run (lsw_session (C := ZC) nc P HumanPolicy ["C"; "A"] "hello") (Ok "hello"). Qed.

(** C34. *)
Theorem C34_yct_correct :
  (forall C : crypto,
  laws C ->
  forall (nonce : string) (U : list string) (pk : yct_pk C) (msk : yct_msk C)
    (attrs : list string) (sk : yct_sk C) (pol : string) (lang : language) 
    (data : string) (ct : yct_ct C) (f : formula) (ts : nat -> F C) 
    (is js : nat) (tk : nat -> F C) (ik jk : nat) (te : nat -> F C) 
    (ie je : nat),
  yct_setup U ts is = Ok (pk, msk, js) ->
  yct_keygen msk pol lang tk ik = Ok (sk, jk) ->
  yct_encrypt nonce pk attrs data te ie = Ok (ct, je) ->
  parse pol lang = Ok (tree f) ->
  String.length nonce = 12 ->
  arity2 f = true ->
  NoDup (names f) ->
  plain_names f = true ->
  small_ok C (and_width f) -> sat (owns attrs) f = true -> yct_decrypt sk ct = Ok data)%F.
Proof. exact @yct_correct. Qed.
Print Assumptions C34_yct_correct.

Example C34_example : exists (pk : yct_pk ZC) msk sk ct ts i1 i2 i3,
  yct_setup ["A"; "B"; "C"; "D"] ts 0 = Ok (pk, msk, i1) /\
  yct_keygen msk P HumanPolicy ts i1 = Ok (sk, i2) /\
  yct_encrypt nc pk ["C"; "A"; "D"] "hello" ts i2 = Ok (ct, i3) /\
  yct_decrypt sk ct = Ok "hello".
Proof.
  by_run (yct_session (C := ZC) nc ["A"; "B"; "C"; "D"] P HumanPolicy ["C"; "A"; "D"] "hello") (Ok "hello").
Qed.

(** C35. *)
Theorem C35_cp_correct :
  (forall C : crypto,
  laws C ->
  forall (nonce : string) (pk : ac_pk C) (msk : ac_msk C) (attrs : list string)
    (sk : ac_cpsk C) (pol : string) (lang : language) (data : string) 
    (ct : ac_cpct C) (f : formula) (ts : nat -> F C) (is js : nat) 
    (tk : nat -> F C) (ik jk : nat) (te : nat -> F C) (ie je : nat),
  ac_setup ts is = Ok (pk, msk, js) ->
  cp_keygen msk attrs tk ik = Ok (sk, jk) ->
  cp_encrypt nonce pk pol data lang te ie = Ok (ct, je) ->
  parse pol lang = Ok (tree f) ->
  String.length nonce = 12 ->
  binary_and f = true ->
  NoDup (names f) ->
  NoDup attrs -> sat (owns attrs) f = true -> cp_decrypt sk ct = Ok data)%F.
Proof. exact @cp_correct. Qed.
Print Assumptions C35_cp_correct.

Example C35_example : exists (pk : ac_pk ZC) msk sk ct ts i1 i2 i3,
  ac_setup ts 0 = Ok (pk, msk, i1) /\
  cp_keygen msk ["A"; "C"] ts i1 = Ok (sk, i2) /\
  cp_encrypt nc pk P "hello" HumanPolicy ts i2 = Ok (ct, i3) /\
  cp_decrypt sk ct = Ok "hello".
Proof. by_run (cp_session (C := ZC) nc ["A"; "C"] P HumanPolicy "hello") (Ok "hello"). Qed.

(** C36. *)
Theorem C36_kp_correct :
  (forall C : crypto,
  laws C ->
  forall (nonce : string) (pk : ac_pk C) (msk : ac_msk C) (attrs : list string)
    (sk : ac_kpsk C) (pol : string) (lang : language) (data : string) 
    (ct : ac_kpct C) (f : formula) (ts : nat -> F C) (is js : nat) 
    (tk : nat -> F C) (ik jk : nat) (te : nat -> F C) (ie je : nat),
  ac_setup ts is = Ok (pk, msk, js) ->
  kp_keygen msk pol lang tk ik = Ok (sk, jk) ->
  kp_encrypt nonce pk attrs data te ie = Ok (ct, je) ->
  parse pol lang = Ok (tree f) ->
  String.length nonce = 12 ->
  binary_and f = true ->
  NoDup (names f) ->
  NoDup attrs -> sat (owns attrs) f = true -> kp_decrypt sk ct = Ok data)%F.
Proof. exact @kp_correct. Qed.
Print Assumptions C36_kp_correct.

Example C36_example : exists (pk : ac_pk ZC) msk sk ct ts i1 i2 i3,
  ac_setup ts 0 = Ok (pk, msk, i1) /\
  kp_keygen msk P HumanPolicy ts i1 = Ok (sk, i2) /\
  kp_encrypt nc pk ["C"; "A"] "hello" ts i2 = Ok (ct, i3) /\
  kp_decrypt sk ct = Ok "hello".
Proof. by_run (kp_session (C := ZC) nc P HumanPolicy ["C"; "A"] "hello") (Ok "hello"). Qed.

(** C37. *)
Theorem C37_aw_correct :
  (forall C : crypto,
  laws C ->
  forall (nonce : string) (gk : aw_gk C) (As : list (list string * (aw_pk C * aw_msk C)))
    (gid : string) (issued : list (aw_msk C * string)) (sk : aw_sk C) 
    (pol : string) (lang : language) (data : string) (ct : aw_ct C) 
    (f : formula) (ts : nat -> F C) (is js : nat) (te : nat -> F C) 
    (ie je : nat),
  aw_setup ts is = Ok (gk, js) ->
  Forall
    (fun A : list string * (aw_pk C * aw_msk C) =>
     exists (t : nat -> F C) (i j : nat), aw_authgen gk (fst A) t i = Ok (Some (snd A), j))
    As ->
  separate As ->
  (forall (m : aw_msk C) (a : string),
   In (m, a) issued ->
   exists A : list string * (aw_pk C * aw_msk C), In A As /\ m = snd (snd A)) ->
  aw_issue gk gid issued = Ok sk ->
  aw_encrypt nonce gk (map (fun A : list string * (aw_pk C * aw_msk C) => fst (snd A)) As)
    pol lang data te ie = Ok (ct, je) ->
  parse pol lang = Ok (tree f) ->
  String.length nonce = 12 ->
  NoDup (leaves f) ->
  plain_names f = true ->
  upper_names C f ->
  small_ok C (and_width f) ->
  sat (owns (map snd issued)) f = true -> aw_decrypt gk sk ct = Ok data)%F.
Proof. exact @aw_correct. Qed.
Print Assumptions C37_aw_correct.

(** Two authorities; the user's attributes come from both. *)
Example C37_example : exists (gk : aw_gk ZC) pk1 msk1 pk2 msk2 sk ct ts i1 i2 i3 i4,
  aw_setup ts 0 = Ok (gk, i1) /\
  aw_authgen gk ["A"; "D"] ts i1 = Ok (Some (pk1, msk1), i2) /\
  aw_authgen gk ["B"; "C"] ts i2 = Ok (Some (pk2, msk2), i3) /\
  aw_issue gk "bob" [(msk1, "A"); (msk2, "C")] = Ok sk /\
  aw_encrypt nc gk [pk1; pk2] P HumanPolicy "hello" ts i3 = Ok (ct, i4) /\
  aw_decrypt gk sk ct = Ok "hello".
Proof.
  by_run (gk <- aw_setup (C := ZC) ;;
    a1 <- aw_authgen gk ["A"; "D"] ;; ' (pk1, msk1) <- rlift (unwrap a1) ;;
    a2 <- aw_authgen gk ["B"; "C"] ;; ' (pk2, msk2) <- rlift (unwrap a2) ;;
    sk <- rlift (aw_issue gk "bob" [(msk1, "A"); (msk2, "C")]) ;;
    ct <- aw_encrypt nc gk [pk1; pk2] P HumanPolicy "hello" ;;
    rret (aw_decrypt gk sk ct)) (Ok "hello").
Qed.

Example C37_separate_example (a b : aw_pk ZC * aw_msk ZC) : separate [(["A"; "D"], a); (["B"; "C"], b)].
Proof.
  intros [|[|k]] [|[|l]] A A' n E E'; cbn in E, E';
    try (destruct k; discriminate); try (destruct l; discriminate); auto;
    injection E as <-; injection E' as <-; cbn; intros I I';
    repeat (destruct I as [<-|I]; [cbn in I'; intuition discriminate|]); contradiction.
Qed.

(** C38. *)
Theorem C38_bd_correct :
  (forall C : crypto,
  laws C ->
  forall (pk : bd_pk C) (msk : bd_msk C) (As : list (bd_auth C)) 
    (ts : nat -> F C) (is js : nat),
  bd_setup ts is = Ok (pk, msk, js) ->
  Forall (bd_authority pk msk) As ->
  bd_unique As ->
  forall (nonce pol data : string) (lang : language) (apks : list (bd_apk C))
    (ct : bd_ct C) (te : nat -> F C) (ie je : nat) (f : formula),
  Forall (bd_pk_issued pk As) apks ->
  bd_encrypt nonce pk apks pol lang data te ie = Ok (ct, je) ->
  parse pol lang = Ok (tree f) ->
  String.length nonce = 12 ->
  forall uk : bd_uk C,
  bd_user pk As uk ->
  (forall c : list string,
   In c (conjs f) -> exists n : string, In n c /\ In n (map bapk_attr apks)) ->
  sat (owns (map bask_attr (buk_ska uk))) f = true -> bd_decrypt uk ct = Ok data)%F.
Proof. exact @bd_correct. Qed.
Print Assumptions C38_bd_correct.

Example C38_example : exists (pk : bd_pk ZC) msk au uk apks asks ct ts i1 i2 i3 i4,
  bd_setup ts 0 = Ok (pk, msk, i1) /\
  bd_authgen pk msk "x" ts i1 = Ok (au, i2) /\
  bd_keygen pk au "bob" ts i2 = Ok (uk, i3) /\
  omap (bd_request_pk pk au) ["x::A"; "x::B"; "x::C"] = Ok apks /\
  omap (bd_request_sk (buk_pk uk) au) ["x::B"; "x::C"] = Ok asks /\
  bd_encrypt nc pk apks PX HumanPolicy "hello" ts i3 = Ok (ct, i4) /\
  bd_decrypt (fold_left bd_add asks uk) ct = Ok "hello".
Proof.
  by_run (bd_session (C := ZC) nc "x" "bob" ["x::A"; "x::B"; "x::C"] ["x::B"; "x::C"] PX HumanPolicy "hello")
    (Ok "hello").
Qed.

(** C39. *)
Theorem C39_mk_correct :
  (forall C : crypto,
  laws C ->
  forall (pk : mk_pk C) (msk : mk_msk C) (As : list (mk_auth C)) 
    (ts : nat -> F C) (is js : nat),
  mk_setup ts is = Ok (pk, msk, js) ->
  mk_unique As ->
  forall (nonce pol data : string) (lang : language) (apks : list (mk_apk C))
    (ct : mk_ct C) (te : nat -> F C) (ie je : nat) (f : formula),
  Forall (mk_pk_issued pk As) apks ->
  mk_encrypt nonce pk apks pol lang data te ie = Ok (ct, je) ->
  parse pol lang = Ok (tree f) ->
  String.length nonce = 12 ->
  forall uk : mk_uk C,
  mk_user pk msk As uk ->
  (forall c : list string,
   In c (conjs f) -> exists n : string, In n c /\ In n (map mapk_attr apks)) ->
  sat (owns (map mask_attr (muk_ska uk))) f = true -> mk_decrypt uk ct = Ok data)%F.
Proof. exact @mk_correct. Qed.
Print Assumptions C39_mk_correct.

Example C39_example : exists (pk : mk_pk ZC) msk au uk apks asks ct ts i1 i2 i3 i4,
  mk_setup ts 0 = Ok (pk, msk, i1) /\
  mk_keygen pk msk "bob" ts i1 = Ok (uk, i2) /\
  mk_authgen "x" ts i2 = Ok (au, i3) /\
  omap (fun a => mk_request_pk pk a au) ["x::A"; "x::B"; "x::C"] = Ok apks /\
  omap (fun a => mk_request_sk (muk_pk uk) a au) ["x::B"; "x::C"] = Ok asks /\
  mk_encrypt nc pk apks PX HumanPolicy "hello" ts i3 = Ok (ct, i4) /\
  mk_decrypt (fold_left mk_add asks uk) ct = Ok "hello".
Proof.
  by_run (mk_session (C := ZC) nc "x" "bob" ["x::A"; "x::B"; "x::C"] ["x::B"; "x::C"] PX HumanPolicy "hello")
    (Ok "hello").
Qed.

(** C40. *)
Theorem C40_bsw_reject :
  (forall (C : crypto) (sk : bsw_sk C) (ct : bsw_ct C) (f : formula),
  parse (fst (bct_policy ct)) (snd (bct_policy ct)) = Ok (tree f) ->
  sat (owns (map b_string (bsk_dj sk))) f = false -> bsw_decrypt sk ct = Err)%F.
Proof. exact @bsw_reject. Qed.
Print Assumptions C40_bsw_reject.

(** C40, GHW11. *)
Theorem C40_ghw_reject :
  (forall (C : crypto) (tk : ghw_tk C) (ct : ghw_ct C) (f : formula),
  parse (fst (gct_policy ct)) (snd (gct_policy ct)) = Ok (tree f) ->
  sat (owns (map fst (gtk_attr tk))) f = false -> ghw_transform ct tk = Err)%F.
Proof. exact @ghw_reject. Qed.
Print Assumptions C40_ghw_reject.

(** C40, LSW. *)
Theorem C40_lsw_reject :
  (forall (C : crypto) (sk : lsw_sk C) (ct : lsw_ct C) (f : formula),
  parse (fst (lsk_policy sk)) (snd (lsk_policy sk)) = Ok (tree f) ->
  arity2 f = true ->
  sat (owns (map le_name (lct_ej ct))) f = false -> lsw_decrypt sk ct = Err)%F.
Proof. exact @lsw_reject. Qed.
Print Assumptions C40_lsw_reject.

(** C40, YCT14. *)
Theorem C40_yct_reject :
  (forall (C : crypto) (sk : yct_sk C) (ct : yct_ct C) (f : formula),
  parse (fst (ysk_policy sk)) (snd (ysk_policy sk)) = Ok (tree f) ->
  arity2 f = true ->
  sat (owns (map y_name (yct_attrs ct))) f = false -> yct_decrypt sk ct = Err)%F.
Proof. exact @yct_reject. Qed.
Print Assumptions C40_yct_reject.

(** C40, AC17 ciphertext-policy. *)
Theorem C40_cp_reject :
  (forall (C : crypto) (sk : ac_cpsk C) (ct : ac_cpct C) (f : formula),
  parse (fst (acp_policy ct)) (snd (acp_policy ct)) = Ok (tree f) ->
  sat (owns (acps_attr sk)) f = false -> cp_decrypt sk ct = Err)%F.
Proof. exact @cp_reject. Qed.
Print Assumptions C40_cp_reject.

(** C40, AC17 key-policy. *)
Theorem C40_kp_reject :
  (forall (C : crypto) (sk : ac_kpsk C) (ct : ac_kpct C) (f : formula),
  parse (fst (akps_policy sk)) (snd (akps_policy sk)) = Ok (tree f) ->
  sat (owns (akp_attr ct)) f = false -> kp_decrypt sk ct = Err)%F.
Proof. exact @kp_reject. Qed.
Print Assumptions C40_kp_reject.

(** C40, AW11. *)
Theorem C40_aw_reject :
  (forall (C : crypto) (gk : aw_gk C) (sk : aw_sk C) (ct : aw_ct C) (f : formula),
  parse (fst (awct_policy ct)) (snd (awct_policy ct)) = Ok (tree f) ->
  sat (owns (map fst (awsk_attr sk))) f = false -> aw_decrypt gk sk ct = Err)%F.
Proof. exact @aw_reject. Qed.
Print Assumptions C40_aw_reject.

(** C40, BDABE. *)
Theorem C40_bd_reject :
  (forall (C : crypto) (uk : bd_uk C) (ct : bd_ct C) (f : formula),
  parse (fst (Bdabe.bct_policy ct)) (snd (Bdabe.bct_policy ct)) = Ok (tree f) ->
  sat (owns (map bask_attr (buk_ska uk))) f = false -> bd_decrypt uk ct = Err)%F.
Proof. exact @bd_reject. Qed.
Print Assumptions C40_bd_reject.

(** C40, MKE08. *)
Theorem C40_mk_reject :
  (forall (C : crypto) (uk : mk_uk C) (ct : mk_ct C) (f : formula),
  parse (fst (mct_policy ct)) (snd (mct_policy ct)) = Ok (tree f) ->
  sat (owns (map mask_attr (muk_ska uk))) f = false -> mk_decrypt uk ct = Err)%F.
Proof. exact @mk_reject. Qed.
Print Assumptions C40_mk_reject.

(** Each of the ten sessions with attributes that do not satisfy the policy ends in an error. *)
Example C40_example :
  (exists j, bsw_session (C := ZC) nc ["B"; "C"] P HumanPolicy "hello" (ztape 3) 0 = Ok (Err, j)) /\
  (exists j, ghw_session (C := ZC) nc ["B"; "C"] P HumanPolicy "hello" (ztape 3) 0 = Ok (Err, j)) /\
  (exists j, lsw_session (C := ZC) nc P HumanPolicy ["B"; "C"] "hello" (ztape 3) 0 = Ok (Err, j)) /\
  (exists j, yct_session (C := ZC) nc ["A"; "B"; "C"] P HumanPolicy ["B"; "C"] "hello" (ztape 3) 0 = Ok (Err, j)) /\
  (exists j, cp_session (C := ZC) nc ["B"; "C"] P HumanPolicy "hello" (ztape 3) 0 = Ok (Err, j)) /\
  (exists j, kp_session (C := ZC) nc P HumanPolicy ["B"; "C"] "hello" (ztape 3) 0 = Ok (Err, j)) /\
  (exists j, aw_session (C := ZC) nc ["A"; "B"; "C"] "bob" ["B"; "C"] P HumanPolicy "hello" (ztape 3) 0 = Ok (Err, j)) /\
  (exists j, bd_session (C := ZC) nc "x" "bob" ["x::A"; "x::B"; "x::C"] ["x::B"] PX HumanPolicy "hello" (ztape 3) 0 = Ok (Err, j)) /\
  (exists j, mk_session (C := ZC) nc "x" "bob" ["x::A"; "x::B"; "x::C"] ["x::C"] PX HumanPolicy "hello" (ztape 3) 0 = Ok (Err, j)).
Proof. repeat match goal with |- _ /\ _ => split end; run. Qed.

(** C29, C40 and C14 together: on every tape of non-zero draws the whole session runs and answers exactly what the policy says. No condition that names occur once (C42). *)
Theorem C29_bsw_session_exact :
  (forall C : crypto,
  laws C ->
  forall (nonce : string) (attrs : list string) (pol : string) 
    (lang : language) (data : string) (f : formula) (t : nat -> F C) 
    (i : nat),
  @hash_total C ->
  live t ->
  parse pol lang = Ok (tree f) ->
  String.length nonce = 12 ->
  arity2 f = true ->
  NoDup (leaves f) ->
  plain_names f = true ->
  small_ok C (and_width f) ->
  attrs <> [] ->
  exists j : nat,
    bsw_session nonce attrs pol lang data t i =
    Ok (if sat (owns attrs) f then Ok data else Err, j))%F.
Proof. exact @bsw_session_exact. Qed.
Print Assumptions C29_bsw_session_exact.

(** C30 and C40 together. *)
Theorem C30_bsw_delegated_session_exact :
  (forall C : crypto,
  laws C ->
  forall (nonce : string) (attrs subset : list string) (pol : string) 
    (lang : language) (data : string) (f : formula) (t : nat -> F C) 
    (i : nat),
  @hash_total C ->
  live t ->
  parse pol lang = Ok (tree f) ->
  String.length nonce = 12 ->
  arity2 f = true ->
  NoDup (leaves f) ->
  plain_names f = true ->
  small_ok C (and_width f) ->
  incl subset attrs ->
  subset <> [] ->
  exists j : nat,
    bsw_delegated_session nonce attrs subset pol lang data t i =
    Ok (if sat (owns subset) f then Ok data else Err, j))%F.
Proof. exact @bsw_delegated_session_exact. Qed.
Print Assumptions C30_bsw_delegated_session_exact.

(** The tape of the examples has no zero among the draws used, hashing is total. *)
Example session_example : @hash_total ZC /\ live (C := ZC) (fun _ => ztape 3 0).
Proof.
  split; [exact Zhash|]. intros n H. apply (f_equal zval) in H. vm_compute in H. discriminate H.
Qed.

(** C32 and C40 together. *)
Theorem C32_ghw_session_exact :
  (forall C : crypto,
  laws C ->
  forall (nonce : string) (attrs : list string) (pol : string) 
    (lang : language) (data : string) (f : formula) (t : nat -> F C) 
    (i : nat),
  @hash_total C ->
  live t ->
  parse pol lang = Ok (tree f) ->
  String.length nonce = 12 ->
  arity2 f = true ->
  NoDup (leaves f) ->
  plain_names f = true ->
  small_ok C (and_width f) ->
  attrs <> [] ->
  exists j : nat,
    ghw_session nonce attrs pol lang data t i =
    Ok (if sat (owns attrs) f then Ok data else Err, j))%F.
Proof. exact @ghw_session_exact. Qed.
Print Assumptions C32_ghw_session_exact.

(** C33 and C40 together. *)
Theorem C33_lsw_session_exact :
  (forall C : crypto,
  laws C ->
  forall (nonce pol : string) (lang : language) (attrs : list string) 
    (data : string) (f : formula) (t : nat -> F C) (i : nat),
  @hash_total C ->
  parse pol lang = Ok (tree f) ->
  String.length nonce = 12 ->
  data <> ""%string ->
  arity2 f = true ->
  NoDup (names f) ->
  plain_names f = true ->
  (forall n : string, In n (names f) -> is_negative n = Ok false) ->
  small_ok C (and_width f) ->
  attrs <> [] ->
  exists j : nat,
    lsw_session nonce pol lang attrs data t i =
    Ok (if sat (owns attrs) f then Ok data else Err, j))%F.
Proof. exact @lsw_session_exact. Qed.
Print Assumptions C33_lsw_session_exact.

(** C34 and C40 together. *)
Theorem C34_yct_session_exact :
  (forall C : crypto,
  laws C ->
  forall (nonce : string) (U : list string) (pol : string) (lang : language)
    (attrs : list string) (data : string) (f : formula) (t : nat -> F C) 
    (i : nat),
  live t ->
  parse pol lang = Ok (tree f) ->
  String.length nonce = 12 ->
  data <> ""%string ->
  arity2 f = true ->
  NoDup (names f) ->
  plain_names f = true ->
  small_ok C (and_width f) ->
  incl attrs U ->
  attrs <> [] ->
  exists j : nat,
    yct_session nonce U pol lang attrs data t i =
    Ok (if sat (owns attrs) f then Ok data else Err, j))%F.
Proof. exact @yct_session_exact. Qed.
Print Assumptions C34_yct_session_exact.

(** C35 and C40 together. *)
Theorem C35_cp_session_exact :
  (forall C : crypto,
  laws C ->
  forall (nonce : string) (attrs : list string) (pol : string) 
    (lang : language) (data : string) (f : formula) (t : nat -> F C) 
    (i : nat),
  @hash_total C ->
  live t ->
  parse pol lang = Ok (tree f) ->
  String.length nonce = 12 ->
  binary_and f = true ->
  NoDup (names f) ->
  NoDup attrs ->
  attrs <> [] ->
  exists j : nat,
    cp_session nonce attrs pol lang data t i =
    Ok (if sat (owns attrs) f then Ok data else Err, j))%F.
Proof. exact @cp_session_exact. Qed.
Print Assumptions C35_cp_session_exact.

(** C36 and C40 together. *)
Theorem C36_kp_session_exact :
  (forall C : crypto,
  laws C ->
  forall (nonce pol : string) (lang : language) (attrs : list string) 
    (data : string) (f : formula) (t : nat -> F C) (i : nat),
  @hash_total C ->
  live t ->
  parse pol lang = Ok (tree f) ->
  String.length nonce = 12 ->
  binary_and f = true ->
  NoDup (names f) ->
  NoDup attrs ->
  exists j : nat,
    kp_session nonce pol lang attrs data t i =
    Ok (if sat (owns attrs) f then Ok data else Err, j))%F.
Proof. exact @kp_session_exact. Qed.
Print Assumptions C36_kp_session_exact.

(** C37 and C40 together. *)
Theorem C37_aw_session_exact :
  (forall C : crypto,
  laws C ->
  forall (nonce : string) (U : list string) (gid : string) (attrs : list string)
    (pol : string) (lang : language) (data : string) (f : formula) 
    (t : nat -> F C) (i : nat),
  @hash_total C ->
  parse pol lang = Ok (tree f) ->
  String.length nonce = 12 ->
  gid <> ""%string ->
  (forall a : string, In a attrs -> a <> ""%string /\ In a (map (upper C) U)) ->
  binary_and f = true ->
  NoDup (leaves f) ->
  plain_names f = true ->
  upper_names C f ->
  small_ok C (and_width f) ->
  attrs <> [] ->
  exists j : nat,
    aw_session nonce U gid attrs pol lang data t i =
    Ok (if sat (owns attrs) f then Ok data else Err, j))%F.
Proof. exact @aw_session_exact. Qed.
Print Assumptions C37_aw_session_exact.

(** C38 and C40 together. *)
Theorem C38_bd_session_exact :
  (forall C : crypto,
  laws C ->
  forall (nonce auth user : string) (pubs attrs : list string) 
    (pol : string) (lang : language) (data : string) (f : formula) 
    (t : nat -> F C) (i : nat),
  @hash_total C ->
  parse pol lang = Ok (tree f) ->
  String.length nonce = 12 ->
  flat f = true ->
  served auth pubs ->
  served auth attrs ->
  (forall c : list string, In c (conjs f) -> exists n : string, In n c /\ In n pubs) ->
  exists j : nat,
    bd_session nonce auth user pubs attrs pol lang data t i =
    Ok (if sat (owns attrs) f then Ok data else Err, j))%F.
Proof. exact @bd_session_exact. Qed.
Print Assumptions C38_bd_session_exact.

(** C39 and C40 together. *)
Theorem C39_mk_session_exact :
  (forall C : crypto,
  laws C ->
  forall (nonce auth user : string) (pubs attrs : list string) 
    (pol : string) (lang : language) (data : string) (f : formula) 
    (t : nat -> F C) (i : nat),
  @hash_total C ->
  parse pol lang = Ok (tree f) ->
  String.length nonce = 12 ->
  flat f = true ->
  served auth pubs ->
  served auth attrs ->
  (forall c : list string, In c (conjs f) -> exists n : string, In n c /\ In n pubs) ->
  exists j : nat,
    mk_session nonce auth user pubs attrs pol lang data t i =
    Ok (if sat (owns attrs) f then Ok data else Err, j))%F.
Proof. exact @mk_session_exact. Qed.
Print Assumptions C39_mk_session_exact.

Example served_example : served "x" ["x::A"; "x::B"; "x::C"] /\ flat fX = true /\
  (forall c, In c (conjs fX) -> exists n, In n c /\ In n ["x::A"; "x::B"; "x::C"]).
Proof.
  split; [intros a [<-|[<-|[<-|[]]]]; reflexivity|]. split; [ground|].
  intros c [<-|[<-|[]]]; [exists "x::A"|exists "x::B"]; cbn; auto.
Qed.

(** C29 for one-line human-language texts: no condition on the shape of the policy remains. *)
Theorem C29_bsw_human_session :
  (forall C : crypto,
  laws C ->
  forall (nonce : string) (attrs : list string) (pol data : string) 
    (f : formula) (t : nat -> F C) (i : nat),
  @hash_total C ->
  live t ->
  one_line pol ->
  parse pol HumanPolicy = Ok (tree f) ->
  String.length nonce = 12 ->
  plain_names f = true ->
  small_ok C (and_width f) ->
  attrs <> [] ->
  exists j : nat,
    bsw_session nonce attrs pol HumanPolicy data t i =
    Ok (if sat (owns attrs) f then Ok data else Err, j))%F.
Proof. exact @bsw_human_session. Qed.
Print Assumptions C29_bsw_human_session.

(** C32, likewise. *)
Theorem C32_ghw_human_session :
  (forall C : crypto,
  laws C ->
  forall (nonce : string) (attrs : list string) (pol data : string) 
    (f : formula) (t : nat -> F C) (i : nat),
  @hash_total C ->
  live t ->
  one_line pol ->
  parse pol HumanPolicy = Ok (tree f) ->
  String.length nonce = 12 ->
  plain_names f = true ->
  small_ok C (and_width f) ->
  attrs <> [] ->
  exists j : nat,
    ghw_session nonce attrs pol HumanPolicy data t i =
    Ok (if sat (owns attrs) f then Ok data else Err, j))%F.
Proof. exact @ghw_human_session. Qed.
Print Assumptions C32_ghw_human_session.

(** C41 is false for LSW. *)
Theorem C41_lsw_underscore_panics :
  (forall C : crypto,
  laws C ->
  forall (pk : lsw_pk C) (msk : lsw_msk C) (pol : string) (lang : language)
    (sk : lsw_sk C) (ct : lsw_ct C) (f : formula) (t : nat -> F C) 
    (i j : nat),
  parse pol lang = Ok (tree f) ->
  arity2 f = true ->
  lsw_keygen pk msk pol lang t i = Ok (sk, j) ->
  sat (owns (map le_name (lct_ej ct))) f = true ->
  forallb (fun n : string => negb (no_us n)) (names f) = true -> lsw_decrypt sk ct = Panic)%F.
Proof. exact @lsw_underscore_panics. Qed.
Print Assumptions C41_lsw_underscore_panics.

(** C41 is false for YCT14. *)
Theorem C41_yct_underscore_panics :
  (forall C : crypto,
  laws C ->
  forall (msk : yct_msk C) (pol : string) (lang : language) (sk : yct_sk C)
    (ct : yct_ct C) (f : formula) (t : nat -> F C) (i j : nat),
  parse pol lang = Ok (tree f) ->
  arity2 f = true ->
  yct_keygen msk pol lang t i = Ok (sk, j) ->
  sat (owns (map y_name (yct_attrs ct))) f = true ->
  forallb (fun n : string => negb (no_us n)) (names f) = true -> yct_decrypt sk ct = Panic)%F.
Proof. exact @yct_underscore_panics. Qed.
Print Assumptions C41_yct_underscore_panics.

(** C41 is false for AW11 unless the cut names have keys. *)
Theorem C41_aw_underscore_panics :
  (forall C : crypto,
  laws C ->
  forall (nonce : string) (gk : aw_gk C) (pks : list (aw_pk C)) 
    (pol : string) (lang : language) (data : string) (sk : aw_sk C) 
    (ct : aw_ct C) (f : formula) (t : nat -> F C) (i j : nat),
  parse pol lang = Ok (tree f) ->
  aw_encrypt nonce gk pks pol lang data t i = Ok (ct, j) ->
  (forall (n : string) (p : nat),
   In (n, p) (leaves f) -> find_pk_attr pks (remove_index (upper C (node_index n p))) = None) ->
  arity2 f = true ->
  sat (owns (map fst (awsk_attr sk))) f = true ->
  hash C (awsk_gid sk) <> None -> aw_decrypt gk sk ct = Panic)%F.
Proof. exact @aw_unknown_panics. Qed.
Print Assumptions C41_aw_underscore_panics.

(** C41 is false for every scheme that cuts the name at the underscore.  AC17 does not cut it. *)
Definition PU : string := """A_1"" and ""B""".
Definition fU : formula := FAnd [FLeaf "A_1" 2; FLeaf "B" 12].
Example PU_parses : parse PU HumanPolicy = Ok (tree fU) /\ sat (owns ["A_1"; "B"]) fU = true.
Proof. repeat split; ground. Qed.

Theorem C41_bsw_underscore_refuted : exists pol f attrs t j,
  parse pol HumanPolicy = Ok (tree f) /\ arity2 f = true /\ sat (owns attrs) f = true /\
  bsw_session (C := ZC) nc attrs pol HumanPolicy "hello" t 0 = Ok (Err, j).
Proof.
  exists PU, fU, ["A_1"; "B"], (ztape 3). eexists. repeat match goal with |- _ /\ _ => split end; ground.
Qed.
Print Assumptions C41_bsw_underscore_refuted.

Theorem C41_ghw_underscore_refuted : exists pol f attrs t j,
  parse pol HumanPolicy = Ok (tree f) /\ arity2 f = true /\ sat (owns attrs) f = true /\
  ghw_session (C := ZC) nc attrs pol HumanPolicy "hello" t 0 = Ok (Err, j).
Proof.
  exists PU, fU, ["A_1"; "B"], (ztape 3). eexists. repeat match goal with |- _ /\ _ => split end; ground.
Qed.
Print Assumptions C41_ghw_underscore_refuted.

Theorem C41_lsw_underscore_refuted : exists pol f attrs t j,
  parse pol HumanPolicy = Ok (tree f) /\ arity2 f = true /\ sat (owns attrs) f = true /\
  lsw_session (C := ZC) nc pol HumanPolicy attrs "hello" t 0 = Ok (Panic, j).
Proof.
  exists PU, fU, ["A_1"; "B"], (ztape 3). eexists. repeat match goal with |- _ /\ _ => split end; ground.
Qed.
Print Assumptions C41_lsw_underscore_refuted.

Theorem C41_yct_underscore_refuted : exists pol f attrs t j,
  parse pol HumanPolicy = Ok (tree f) /\ arity2 f = true /\ sat (owns attrs) f = true /\
  yct_session (C := ZC) nc attrs pol HumanPolicy attrs "hello" t 0 = Ok (Panic, j).
Proof.
  exists PU, fU, ["A_1"; "B"], (ztape 3). eexists. repeat match goal with |- _ /\ _ => split end; ground.
Qed.
Print Assumptions C41_yct_underscore_refuted.

Theorem C41_aw_underscore_refuted : exists pol f attrs t j,
  parse pol HumanPolicy = Ok (tree f) /\ arity2 f = true /\ sat (owns attrs) f = true /\
  aw_session (C := ZC) nc attrs "bob" attrs pol HumanPolicy "hello" t 0 = Ok (Panic, j).
Proof.
  exists PU, fU, ["A_1"; "B"], (ztape 3). eexists. repeat match goal with |- _ /\ _ => split end; ground.
Qed.
Print Assumptions C41_aw_underscore_refuted.

Example C41_ac17_example : (exists j, cp_session (C := ZC) nc ["A_1"; "B"] PU HumanPolicy "hello" (ztape 3) 0 = Ok (Ok "hello", j)) /\
  (exists j, kp_session (C := ZC) nc PU HumanPolicy ["A_1"; "B"] "hello" (ztape 3) 0 = Ok (Ok "hello", j)).
Proof. split; run. Qed.

(** C42 is false for LSW, YCT14 and AC17.  For BSW, GHW11, AW11, BDABE and MKE08 the session theorems
    above hold with repeated names. *)
Definition PD : string := """A"" and ""A""".
Definition fD : formula := FAnd [FLeaf "A" 2; FLeaf "A" 10].
Definition PE : string := """A"" and (""B"" or ""A"")".
Definition fE : formula := FAnd [FLeaf "A" 2; FOr [FLeaf "B" 11; FLeaf "A" 18]].

Theorem C42_lsw_duplicate_refuted : exists pol f attrs t j,
  parse pol HumanPolicy = Ok (tree f) /\ arity2 f = true /\ plain_names f = true /\
  sat (owns attrs) f = true /\
  lsw_session (C := ZC) nc pol HumanPolicy attrs "hello" t 0 = Ok (Err, j).
Proof.
  exists PD, fD, ["A"], (ztape 3). eexists. repeat match goal with |- _ /\ _ => split end; ground.
Qed.
Print Assumptions C42_lsw_duplicate_refuted.

Theorem C42_yct_duplicate_refuted : exists pol f attrs t j,
  parse pol HumanPolicy = Ok (tree f) /\ arity2 f = true /\ plain_names f = true /\
  sat (owns attrs) f = true /\
  yct_session (C := ZC) nc attrs pol HumanPolicy attrs "hello" t 0 = Ok (Err, j).
Proof.
  exists PD, fD, ["A"], (ztape 3). eexists. repeat match goal with |- _ /\ _ => split end; ground.
Qed.
Print Assumptions C42_yct_duplicate_refuted.

Theorem C42_cp_duplicate_refuted : exists pol f attrs t j,
  parse pol HumanPolicy = Ok (tree f) /\ binary_and f = true /\ plain_names f = true /\
  sat (owns attrs) f = true /\
  cp_session (C := ZC) nc attrs pol HumanPolicy "hello" t 0 = Ok (Err, j).
Proof.
  exists PE, fE, ["A"], (ztape 3). eexists. repeat match goal with |- _ /\ _ => split end; ground.
Qed.
Print Assumptions C42_cp_duplicate_refuted.

Theorem C42_kp_duplicate_refuted : exists pol f attrs t j,
  parse pol HumanPolicy = Ok (tree f) /\ binary_and f = true /\ plain_names f = true /\
  sat (owns attrs) f = true /\
  kp_session (C := ZC) nc pol HumanPolicy attrs "hello" t 0 = Ok (Err, j).
Proof.
  exists PE, fE, ["A"], (ztape 3). eexists. repeat match goal with |- _ /\ _ => split end; ground.
Qed.
Print Assumptions C42_kp_duplicate_refuted.

Example C42_example : (exists j, bsw_session (C := ZC) nc ["A"] PE HumanPolicy "hello" (ztape 3) 0 = Ok (Ok "hello", j)) /\
  (exists j, ghw_session (C := ZC) nc ["A"] PE HumanPolicy "hello" (ztape 3) 0 = Ok (Ok "hello", j)) /\
  (exists j, aw_session (C := ZC) nc ["A"] "bob" ["A"] PE HumanPolicy "hello" (ztape 3) 0 = Ok (Ok "hello", j)).
Proof. repeat match goal with |- _ /\ _ => split end; run. Qed.

(** C43 is false: key generation. *)
Theorem C43_aw_keygen_lower_panics :
  (forall C : crypto,
  laws C ->
  forall (gk : aw_gk C) (attrs : list string) (ta : nat -> F C) 
    (ia ja : nat) (pk : aw_pk C) (msk : aw_msk C) (name a : string) 
    (h : F C) (rest : list string),
  aw_authgen gk attrs ta ia = Ok (Some (pk, msk), ja) ->
  hash C name = Some h ->
  name <> ""%string ->
  a <> ""%string -> upper C a <> a -> aw_keygen gk msk name (a :: rest) = Panic)%F.
Proof. exact @aw_keygen_lower_panics. Qed.
Print Assumptions C43_aw_keygen_lower_panics.

(** C43 is false: decryption. *)
Theorem C43_aw_lower_policy_rejects :
  (forall C : crypto,
  laws C ->
  forall (gk : aw_gk C) (gid : string) (l : list (aw_msk C * string)) 
    (sk : aw_sk C) (ct : aw_ct C) (f : formula),
  aw_issue gk gid l = Ok sk ->
  parse (fst (awct_policy ct)) (snd (awct_policy ct)) = Ok (tree f) ->
  sat (fun n : string => seqb (upper C n) n) f = false -> aw_decrypt gk sk ct = Err)%F.
Proof. exact @aw_lower_policy_rejects. Qed.
Print Assumptions C43_aw_lower_policy_rejects.

(** C43 is false: with the names spelled in lower case throughout, key generation aborts; with the
    key in upper case and the policy in lower case, decryption is refused. *)
Theorem C43_aw_keygen_case_refuted : exists a (gk : aw_gk ZC) pk msk t i j,
  aw_setup t 0 = Ok (gk, i) /\ aw_authgen gk [a] t i = Ok (Some (pk, msk), j) /\
  aw_keygen gk msk "bob" [a] = Panic.
Proof.
  exists "a".
  by_steps (gk <- aw_setup (C := ZC) ;; ao <- aw_authgen gk ["a"] ;; ' (pk, msk) <- rlift (unwrap ao) ;;
          rret (match aw_keygen gk msk "bob" ["a"] with Panic => true | _ => false end)) true.
  match goal with H : match ?x with _ => _ end = true |- _ => now destruct x end.
Qed.
Print Assumptions C43_aw_keygen_case_refuted.

Theorem C43_aw_policy_case_refuted : exists pol pol' t j j',
  String.length pol = String.length pol' /\
  aw_session (C := ZC) nc ["a"; "b"] "bob" ["A"; "B"] pol HumanPolicy "hello" t 0 = Ok (Ok "hello", j) /\
  aw_session (C := ZC) nc ["a"; "b"] "bob" ["A"; "B"] pol' HumanPolicy "hello" t 0 = Ok (Err, j').
Proof.
  exists """A"" and ""B""", """a"" and ""b""", (ztape 3). eexists _, _.
  repeat match goal with |- _ /\ _ => split end; ground.
Qed.
Print Assumptions C43_aw_policy_case_refuted.

(** C44 is false: acceptance does not depend on the plaintext. *)
Theorem C44_bsw_any_plaintext :
  (forall (C : crypto) (nonce : string) (pk : bsw_pk C) (pol : string) 
    (lang : language) (data data' : string) (t : nat -> F C) (i : nat) 
    (ct : bsw_ct C) (j : nat),
  bsw_encrypt nonce pk pol lang data t i = Ok (ct, j) ->
  exists ct' : bsw_ct C, bsw_encrypt nonce pk pol lang data' t i = Ok (ct', j))%F.
Proof. exact @bsw_any_plaintext. Qed.
Print Assumptions C44_bsw_any_plaintext.

(** C44, GHW11. *)
Theorem C44_ghw_any_plaintext :
  (forall (C : crypto) (nonce : string) (pk : ghw_pk C) (pol : string) 
    (lang : language) (data data' : string) (t : nat -> F C) (i : nat) 
    (ct : ghw_ct C) (j : nat),
  ghw_encrypt nonce pk pol lang data t i = Ok (ct, j) ->
  exists ct' : ghw_ct C, ghw_encrypt nonce pk pol lang data' t i = Ok (ct', j))%F.
Proof. exact @ghw_any_plaintext. Qed.
Print Assumptions C44_ghw_any_plaintext.

(** C44, AC17 ciphertext-policy. *)
Theorem C44_cp_any_plaintext :
  (forall (C : crypto) (nonce : string) (pk : ac_pk C) (pol : string) 
    (lang : language) (data data' : string) (t : nat -> F C) (i : nat) 
    (ct : ac_cpct C) (j : nat),
  cp_encrypt nonce pk pol data lang t i = Ok (ct, j) ->
  exists ct' : ac_cpct C, cp_encrypt nonce pk pol data' lang t i = Ok (ct', j))%F.
Proof. exact @cp_any_plaintext. Qed.
Print Assumptions C44_cp_any_plaintext.

(** C44, AC17 key-policy. *)
Theorem C44_kp_any_plaintext :
  (forall (C : crypto) (nonce : string) (pk : ac_pk C) (attrs : list string)
    (data data' : string) (t : nat -> F C) (i : nat) (ct : ac_kpct C) 
    (j : nat),
  kp_encrypt nonce pk attrs data t i = Ok (ct, j) ->
  exists ct' : ac_kpct C, kp_encrypt nonce pk attrs data' t i = Ok (ct', j))%F.
Proof. exact @kp_any_plaintext. Qed.
Print Assumptions C44_kp_any_plaintext.

(** C44, AW11. *)
Theorem C44_aw_any_plaintext :
  (forall (C : crypto) (nonce : string) (gk : aw_gk C) (pks : list (aw_pk C))
    (pol : string) (lang : language) (data data' : string) (t : nat -> F C) 
    (i : nat) (ct : aw_ct C) (j : nat),
  aw_encrypt nonce gk pks pol lang data t i = Ok (ct, j) ->
  exists ct' : aw_ct C, aw_encrypt nonce gk pks pol lang data' t i = Ok (ct', j))%F.
Proof. exact @aw_any_plaintext. Qed.
Print Assumptions C44_aw_any_plaintext.

(** C44, BDABE. *)
Theorem C44_bd_any_plaintext :
  (forall (C : crypto) (nonce : string) (pk : bd_pk C) (apks : list (bd_apk C))
    (pol : string) (lang : language) (data data' : string) (t : nat -> F C) 
    (i : nat) (ct : bd_ct C) (j : nat),
  bd_encrypt nonce pk apks pol lang data t i = Ok (ct, j) ->
  exists ct' : bd_ct C, bd_encrypt nonce pk apks pol lang data' t i = Ok (ct', j))%F.
Proof. exact @bd_any_plaintext. Qed.
Print Assumptions C44_bd_any_plaintext.

(** C44, MKE08. *)
Theorem C44_mk_any_plaintext :
  (forall (C : crypto) (nonce : string) (pk : mk_pk C) (apks : list (mk_apk C))
    (pol : string) (lang : language) (data data' : string) (t : nat -> F C) 
    (i : nat) (ct : mk_ct C) (j : nat),
  mk_encrypt nonce pk apks pol lang data t i = Ok (ct, j) ->
  exists ct' : mk_ct C, mk_encrypt nonce pk apks pol lang data' t i = Ok (ct', j))%F.
Proof. exact @mk_any_plaintext. Qed.
Print Assumptions C44_mk_any_plaintext.

(** C44 is false for these seven. *)
Theorem C44_empty_plaintext_refuted : exists t,
  (exists j, bsw_session (C := ZC) nc ["A"; "C"] P HumanPolicy "" t 0 = Ok (Ok "", j)) /\
  (exists j, ghw_session (C := ZC) nc ["A"; "C"] P HumanPolicy "" t 0 = Ok (Ok "", j)) /\
  (exists j, cp_session (C := ZC) nc ["A"; "C"] P HumanPolicy "" t 0 = Ok (Ok "", j)) /\
  (exists j, kp_session (C := ZC) nc P HumanPolicy ["A"; "C"] "" t 0 = Ok (Ok "", j)) /\
  (exists j, aw_session (C := ZC) nc ["A"; "B"; "C"] "bob" ["A"; "C"] P HumanPolicy "" t 0 = Ok (Ok "", j)) /\
  (exists j, bd_session (C := ZC) nc "x" "bob" ["x::A"; "x::B"; "x::C"] ["x::A"] PX HumanPolicy "" t 0 = Ok (Ok "", j)) /\
  (exists j, mk_session (C := ZC) nc "x" "bob" ["x::A"; "x::B"; "x::C"] ["x::A"] PX HumanPolicy "" t 0 = Ok (Ok "", j)).
Proof. exists (ztape 3). repeat match goal with |- _ /\ _ => split end; run. Qed.
Print Assumptions C44_empty_plaintext_refuted.

(** C44 holds for LSW. *)
Theorem C44_lsw_empty_refused_partial :
  (forall (C : crypto) (nonce : string) (pk : lsw_pk C) (attrs : list string)
    (data : string) (t : nat -> F C) (i : nat),
  lsw_encrypt nonce pk attrs "" t i = Err /\ lsw_encrypt nonce pk [] data t i = Err)%F.
Proof. exact @lsw_empty_refused. Qed.
Print Assumptions C44_lsw_empty_refused_partial.

(** C44 holds for YCT14. *)
Theorem C44_yct_empty_refused_partial :
  (forall (C : crypto) (nonce : string) (pk : yct_pk C) (attrs : list string)
    (data : string) (t : nat -> F C) (i : nat),
  yct_encrypt nonce pk attrs "" t i = Err /\ yct_encrypt nonce pk [] data t i = Err)%F.
Proof. exact @yct_empty_refused. Qed.
Print Assumptions C44_yct_empty_refused_partial.

(** C44: the empty policy text is refused by the parser. *)
Theorem C44_parse_empty :
  forall lang : language, parse "" lang = Err.
Proof. exact @parse_empty. Qed.
Print Assumptions C44_parse_empty.

(** C44: a refused policy text is refused by all schemes. *)
Theorem C44_bad_policy_refused :
  (forall (C : crypto) (nonce pol : string) (lang : language) (data : string),
  parse pol lang = Err ->
  (forall (pk : bsw_pk C) (t : nat -> F C) (i : nat),
   bsw_encrypt nonce pk pol lang data t i = Err) /\
  (forall (pk : ghw_pk C) (t : nat -> F C) (i : nat),
   ghw_encrypt nonce pk pol lang data t i = Err) /\
  (forall (pk : lsw_pk C) (msk : lsw_msk C) (t : nat -> F C) (i : nat),
   lsw_keygen pk msk pol lang t i = Err) /\
  (forall (msk : yct_msk C) (t : nat -> F C) (i : nat), yct_keygen msk pol lang t i = Err) /\
  (forall (pk : ac_pk C) (t : nat -> F C) (i : nat),
   cp_encrypt nonce pk pol data lang t i = Err) /\
  (forall (msk : ac_msk C) (t : nat -> F C) (i : nat), kp_keygen msk pol lang t i = Err) /\
  (forall (gk : aw_gk C) (pks : list (aw_pk C)) (t : nat -> F C) (i : nat),
   aw_encrypt nonce gk pks pol lang data t i = Err) /\
  (forall (pk : bd_pk C) (apks : list (bd_apk C)) (t : nat -> F C) (i : nat),
   bd_encrypt nonce pk apks pol lang data t i = Err) /\
  (forall (pk : mk_pk C) (apks : list (mk_apk C)) (t : nat -> F C) (i : nat),
   mk_encrypt nonce pk apks pol lang data t i = Err))%F.
Proof. exact @bad_policy_refused. Qed.
Print Assumptions C44_bad_policy_refused.

(** C45. *)
Theorem C45_bsw_no_attrs :
  (forall (C : crypto) (pk : bsw_pk C) (msk : bsw_msk C) (sk : bsw_sk C) 
    (t : nat -> F C) (i : nat),
  bsw_keygen pk msk [] t i = Ok (None, i) /\ bsw_delegate pk sk [] t i = Ok (None, i))%F.
Proof. exact @bsw_no_attrs. Qed.
Print Assumptions C45_bsw_no_attrs.

(** C45, GHW11. *)
Theorem C45_ghw_no_attrs :
  (forall (C : crypto) (pk : ghw_pk C) (msk : ghw_msk C) (t : nat -> F C) (i : nat),
  ghw_keygen pk msk [] t i = Ok (None, i))%F.
Proof. exact @ghw_no_attrs. Qed.
Print Assumptions C45_ghw_no_attrs.

(** C45, AC17. *)
Theorem C45_cp_no_attrs :
  (forall (C : crypto) (msk : ac_msk C) (t : nat -> F C) (i : nat),
  cp_keygen msk [] t i = Err)%F.
Proof. exact @cp_no_attrs. Qed.
Print Assumptions C45_cp_no_attrs.

(** C45, AW11. *)
Theorem C45_aw_empty_refused :
  (forall (C : crypto) (gk : aw_gk C) (msk : aw_msk C) (name a : string) 
    (sk : aw_sk C) (t : nat -> F C) (i : nat),
  aw_authgen gk [] t i = Ok (None, i) /\
  aw_keygen gk msk name [] = Err /\
  aw_keygen gk msk "" [a] = Err /\ aw_add gk msk "" sk = Err)%F.
Proof. exact @aw_empty_refused. Qed.
Print Assumptions C45_aw_empty_refused.

(** AC17 key-policy encryption takes an attribute list too, and accepts the empty one. *)
Theorem C45_kp_no_attrs_refuted : exists (pk : ac_pk ZC) msk ct t i j,
  ac_setup t 0 = Ok (pk, msk, i) /\ kp_encrypt nc pk [] "hello" t i = Ok (ct, j).
Proof.
  by_run (' (pk, msk) <- ac_setup (C := ZC) ;; ct <- kp_encrypt nc pk [] "hello" ;; rret true) true.
Qed.
Print Assumptions C45_kp_no_attrs_refuted.

(** C46, the ownership test. *)
Theorem C46_from_authority_iff :
  forall attr name : string,
  from_authority attr name = true <->
  (exists rest : string,
     attr = (name ++ "::" ++ rest)%string /\
     ~ has_colons (name ++ ":") /\ ~ has_colons rest).
Proof. exact @from_authority_iff. Qed.
Print Assumptions C46_from_authority_iff.

(** C46, at most one authority. *)
Theorem C46_from_authority_unique :
  forall attr n1 n2 : string,
  from_authority attr n1 = true -> from_authority attr n2 = true -> n1 = n2.
Proof. exact @from_authority_unique. Qed.
Print Assumptions C46_from_authority_unique.

Example C46_example : from_authority "x::A" "x" = true /\ from_authority "x::A" "y" = false /\
  from_authority "x::A::B" "x" = false /\ from_authority "xA" "x" = false /\ from_authority "x:::A" "x" = true.
Proof. repeat split; ground. Qed.

(** C46, BDABE public keys. *)
Theorem C46_bd_request_pk_iff :
  (forall (C : crypto) (pk : bd_pk C) (A : bd_auth C) (n : string),
  (forall s : string, hash C s <> None) ->
  (exists k : bd_apk C, bd_request_pk pk A n = Ok k) <->
  from_authority n (bau_name A) = true)%F.
Proof. exact @bd_request_pk_iff. Qed.
Print Assumptions C46_bd_request_pk_iff.

(** C46, BDABE secret keys. *)
Theorem C46_bd_request_sk_iff :
  (forall (C : crypto) (pku : bd_upk C) (A : bd_auth C) (n : string),
  (forall s : string, hash C s <> None) ->
  (exists k : bd_ask C, bd_request_sk pku A n = Ok k) <->
  from_authority n (bau_name A) = true)%F.
Proof. exact @bd_request_sk_iff. Qed.
Print Assumptions C46_bd_request_sk_iff.

(** C46, MKE08 public keys. *)
Theorem C46_mk_request_pk_iff :
  (forall (C : crypto) (pk : mk_pk C) (A : mk_auth C) (n : string),
  (forall s : string, hash C s <> None) ->
  (exists k : mk_apk C, mk_request_pk pk n A = Ok k) <->
  from_authority n (mau_name A) = true)%F.
Proof. exact @mk_request_pk_iff. Qed.
Print Assumptions C46_mk_request_pk_iff.

(** C46, MKE08 secret keys. *)
Theorem C46_mk_request_sk_iff :
  (forall (C : crypto) (pku : mk_upk C) (A : mk_auth C) (n : string),
  (forall s : string, hash C s <> None) ->
  (exists k : mk_ask C, mk_request_sk pku n A = Ok k) <->
  from_authority n (mau_name A) = true)%F.
Proof. exact @mk_request_sk_iff. Qed.
Print Assumptions C46_mk_request_sk_iff.

(** C47 is false: a negated leaf needs a ciphertext attribute of that very name. *)
Theorem C47_lsw_negation_useless :
  (forall (C : crypto) (sk : lsw_sk C) (ct : lsw_ct C) (x : string) (p : nat),
  parse (fst (lsk_policy sk)) (snd (lsk_policy sk)) =
  Ok (PStr (String (Ascii.Ascii true false false false false true false false) x) p) ->
  ~
  In (String (Ascii.Ascii true false false false false true false false) x)
    (map le_name (lct_ej ct)) -> lsw_decrypt sk ct = Err)%F.
Proof. exact @lsw_negation_useless. Qed.
Print Assumptions C47_lsw_negation_useless.

(** C47 is false: the ciphertext does not carry X, the key is for not X, decryption is refused. *)
Theorem C47_lsw_negation_refuted : exists (pk : lsw_pk ZC) msk sk ct t i1 i2 i3,
  lsw_setup t 0 = Ok (pk, msk, i1) /\
  lsw_keygen pk msk """!X""" HumanPolicy t i1 = Ok (sk, i2) /\
  lsw_encrypt nc pk ["A"] "hello" t i2 = Ok (ct, i3) /\
  lsw_decrypt sk ct = Err.
Proof. by_run (lsw_session (C := ZC) nc """!X""" HumanPolicy ["A"] "hello") (@Err string). Qed.
Print Assumptions C47_lsw_negation_refuted.

