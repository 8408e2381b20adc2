(** * PropertiesBills: C127 and C128: what decryption costs

    [tally C] (Bills.v) has the operations of [C] on elements that remember the
    pairings and the multiplications by scalars (powers) they were made with;
    its cipher answers with this bill.  [t_..] gives the elements of a key or a
    ciphertext an empty bill.  [chosen own f k] (PruneMinimal.v): [k] are all
    children of a conjunction, the first true child of a disjunction.  A value
    used twice is billed twice. *)
From Coq Require Import String List Bool Arith ZArith.
From Verif Require Import Base Crypto Policy Tools Sharing Msp Dnf Parse Symmetric Bdabe Mke08 Bsw Ghw11 Lsw Yct14 Ac17 Aw11.
From Verif Require Import Spec Instance Witnesses LswProofs PruneMinimal Bills BillsProofs.
Import ListNotations.
Local Open Scope string_scope.

(** C127: BSW takes one pairing, two more for each selected leaf, and a power for each. *)
Theorem C127_bsw :
  forall C : crypto, laws C ->
  forall nonce (pk : bsw_pk C) msk attrs sk pol lang data ct f tk ik jk te ie je k s,
  bsw_keygen pk msk attrs tk ik = Ok (Some sk, jk) ->
  bsw_encrypt nonce pk pol lang data te ie = Ok (ct, je) ->
  parse pol lang = Ok (tree f) -> arity2 f = true -> NoDup (leaves f) ->
  chosen (owns attrs) f k ->
  bsw_decrypt (C := tally C) (t_bsw_sk sk) (t_bsw_ct ct) = Ok s ->
  s = bill (1 + 2 * length k) (length k).
Proof. exact @bsw_honest_bill. Qed.
Print Assumptions C127_bsw.

(** C127: the same for any key and ciphertext, where leaves without a part in the ciphertext are skipped. *)
Theorem C127_bsw_any :
  forall C : crypto, laws C ->
  forall (sk : bsw_sk C) (ct : bsw_ct C) f k s,
  parse (fst (Bsw.bct_policy ct)) (snd (Bsw.bct_policy ct)) = Ok (tree f) -> arity2 f = true -> NoDup (leaves f) ->
  chosen (owns (map b_string (bsk_dj sk))) f k ->
  bsw_decrypt (C := tally C) (t_bsw_sk sk) (t_bsw_ct ct) = Ok s ->
  s = bill (1 + 2 * present (map b_string (bct_cy ct)) k) (present (map b_string (bct_cy ct)) k).
Proof. exact @bsw_decrypt_bill. Qed.
Print Assumptions C127_bsw_any.

(** C127: the server of GHW11 takes two pairings and one more for each selected leaf. *)
Theorem C127_ghw_transform :
  forall (C : crypto) (tk : ghw_tk C) (ct : ghw_ct C) f k r,
  parse (fst (gct_policy ct)) (snd (gct_policy ct)) = Ok (tree f) -> arity2 f = true ->
  chosen (owns (map fst (gtk_attr tk))) f k ->
  ghw_transform (C := tally C) (t_ghw_ct ct) (t_ghw_tk tk) = Ok r ->
  gtct_c r = eT (gct_c ct) /\ snd (gtct_t r) = (length k + 2, 2 * length k)%nat.
Proof. exact @ghw_transform_bill. Qed.
Print Assumptions C127_ghw_transform.

(** C127: the user of GHW11 takes no pairing and one power, whatever the policy is. *)
Theorem C127_ghw_out :
  forall (C : crypto) (c : ghw_tct C) z data s,
  ghw_decrypt_out (C := tally C) (t_ghw_tct c) z data = Ok s -> s = bill 0 1.
Proof. exact @ghw_out_bill. Qed.
Print Assumptions C127_ghw_out.

(** C127: LSW takes two pairings and a power for each selected leaf. *)
Theorem C127_lsw :
  forall (C : crypto) (sk : lsw_sk C) (ct : lsw_ct C) f k s,
  parse (fst (lsk_policy sk)) (snd (lsk_policy sk)) = Ok (tree f) -> arity2 f = true ->
  forallb (fun n => negb (negated n)) (names f) = true ->
  chosen (owns (map le_name (lct_ej ct))) f k ->
  lsw_decrypt (C := tally C) (t_lsw_sk sk) (t_lsw_ct ct) = Ok s ->
  s = bill (2 * length k) (length k).
Proof. exact @lsw_decrypt_bill. Qed.
Print Assumptions C127_lsw.

(** C127: YCT14 takes no pairing, "Setting: No pairing" (/repo/src/schemes/yct14/mod.rs:7). *)
Theorem C127_yct :
  forall (C : crypto) (sk : yct_sk C) (ct : yct_ct C) f k s,
  parse (fst (ysk_policy sk)) (snd (ysk_policy sk)) = Ok (tree f) -> arity2 f = true ->
  chosen (owns (map y_name (yct_attrs ct))) f k ->
  yct_decrypt (C := tally C) (t_yct_sk sk) (t_yct_ct ct) = Ok s ->
  s = bill 0 (2 * length k).
Proof. exact @yct_decrypt_bill. Qed.
Print Assumptions C127_yct.

(** C127: nor does the encryption of YCT14. *)
Theorem C127_yct_encrypt :
  forall (C : crypto) nonce (pk : yct_pk C) attrs data t i ct j,
  yct_encrypt (C := tally C) nonce (t_yct_pk pk) attrs data t i = Ok (ct, j) ->
  yct_data ct = nonce ++ bill 0 1 /\
  Forall (fun a : yct_attr (tally C) => exists g : GT (tally C), y_node a = Some (YPub g) /\ snd g = (0, 1)%nat)
    (yct_attrs ct).
Proof. exact @yct_encrypt_bill. Qed.
Print Assumptions C127_yct_encrypt.

(** C127: AC17 takes six pairings and no power, for every policy, key and ciphertext ("fast"). *)
Theorem C127_ac17_cp :
  forall (C : crypto) (sk : ac_cpsk C) (ct : ac_cpct C) s,
  cp_decrypt (C := tally C) (t_cp_sk sk) (t_cp_ct ct) = Ok s -> s = bill 6 0.
Proof. exact @cp_decrypt_bill. Qed.
Print Assumptions C127_ac17_cp.

Theorem C127_ac17_kp :
  forall (C : crypto) (sk : ac_kpsk C) (ct : ac_kpct C) s,
  kp_decrypt (C := tally C) (t_kp_sk sk) (t_kp_ct ct) = Ok s -> s = bill 6 0.
Proof. exact @kp_decrypt_bill. Qed.
Print Assumptions C127_ac17_kp.

(** C127: AW11 takes two pairings and a power for each selected leaf, and the hash of the user's name,
    made by one power before the loop, goes into each of them. *)
Theorem C127_aw :
  forall (C : crypto) (gk : aw_gk C) (sk : aw_sk C) (ct : aw_ct C) f k s,
  parse (fst (awct_policy ct)) (snd (awct_policy ct)) = Ok (tree f) -> arity2 f = true ->
  chosen (owns (map fst (awsk_attr sk))) f k ->
  aw_decrypt (C := tally C) (t_aw_gk gk) (t_aw_sk sk) (t_aw_ct ct) = Ok s ->
  s = bill (2 * length k) (2 * length k).
Proof. exact @aw_decrypt_bill. Qed.
Print Assumptions C127_aw.

(** C127: BDABE and MKE08 take four pairings and no power.  If no conjunction fits the key, the
    payload is opened with the neutral element. *)
Theorem C127_bdabe :
  forall (C : crypto) (sk : bd_uk C) (ct : bd_ct C) s,
  bd_decrypt (C := tally C) (t_bd_uk sk) (t_bd_ct ct) = Ok s ->
  (exists t, In t (Bdabe.bct_j ct) /\ incl (bt_attr t) (map bask_attr (buk_ska sk))) /\ s = bill 4 0 \/
  (forall t, In t (Bdabe.bct_j ct) -> ~ incl (bt_attr t) (map bask_attr (buk_ska sk))) /\ s = bill 0 0.
Proof. exact @bd_decrypt_bill. Qed.
Print Assumptions C127_bdabe.

Theorem C127_mke :
  forall (C : crypto) (sk : mk_uk C) (ct : mk_ct C) s,
  mk_decrypt (C := tally C) (t_mk_uk sk) (t_mk_ct ct) = Ok s ->
  (exists t, In t (mct_e ct) /\ incl (mj_str t) (map mask_attr (muk_ska sk))) /\ s = bill 4 0 \/
  (forall t, In t (mct_e ct) -> ~ incl (mj_str t) (map mask_attr (muk_ska sk))) /\ s = bill 0 0.
Proof. exact @mk_decrypt_bill. Qed.
Print Assumptions C127_mke.

(** The bills of complete sessions. *)
Definition the {A} (r : outcome (outcome A * nat)) : outcome A :=
  match r with Ok (x, _) => x | Err => Err | Panic => Panic end.
Local Open Scope rand_scope.
Notation TZ := (tally ZC).

Definition bsw_billed (attrs : list string) (pol : string) : outcome string :=
  the ((' (pk, msk) <- bsw_setup (C := ZC) ;;
        ko <- bsw_keygen pk msk attrs ;;
        sk <- rlift (unwrap ko) ;;
        ct <- bsw_encrypt nc pk pol HumanPolicy "hello" ;;
        rret (bsw_decrypt (C := TZ) (t_bsw_sk sk) (t_bsw_ct ct))) (ztape 3%Z) 0%nat).
Definition ghw_billed (attrs : list string) (pol : string) : outcome (nat * nat) :=
  the ((' (pk, msk) <- ghw_setup (C := ZC) ;;
        ko <- ghw_keygen pk msk attrs ;;
        sk <- rlift (unwrap ko) ;;
        ' (tk, rk) <- ghw_tkgen sk ;;
        ct <- ghw_encrypt nc pk pol HumanPolicy "hello" ;;
        rret (obind (ghw_transform (C := TZ) (t_ghw_ct ct) (t_ghw_tk tk)) (fun r => Ok (snd (gtct_t r))))) (ztape 3%Z) 0%nat).
Definition lsw_billed (pol : string) (attrs : list string) : outcome string :=
  the ((' (pk, msk) <- lsw_setup (C := ZC) ;;
        sk <- lsw_keygen pk msk pol HumanPolicy ;;
        ct <- lsw_encrypt nc pk attrs "hello" ;;
        rret (lsw_decrypt (C := TZ) (t_lsw_sk sk) (t_lsw_ct ct))) (ztape 3%Z) 0%nat).
Definition yct_billed (pol : string) (attrs : list string) : outcome string :=
  the ((' (pk, msk) <- yct_setup (C := ZC) ["A"; "B"; "C"] ;;
        sk <- yct_keygen msk pol HumanPolicy ;;
        ct <- yct_encrypt nc pk attrs "hello" ;;
        rret (yct_decrypt (C := TZ) (t_yct_sk sk) (t_yct_ct ct))) (ztape 3%Z) 0%nat).
Definition cp_billed (attrs : list string) (pol : string) : outcome string :=
  the ((' (pk, msk) <- ac_setup (C := ZC) ;;
        sk <- cp_keygen msk attrs ;;
        ct <- cp_encrypt nc pk pol "hello" HumanPolicy ;;
        rret (cp_decrypt (C := TZ) (t_cp_sk sk) (t_cp_ct ct))) (ztape 3%Z) 0%nat).
Definition kp_billed (pol : string) (attrs : list string) : outcome string :=
  the ((' (pk, msk) <- ac_setup (C := ZC) ;;
        sk <- kp_keygen msk pol HumanPolicy ;;
        ct <- kp_encrypt nc pk attrs "hello" ;;
        rret (kp_decrypt (C := TZ) (t_kp_sk sk) (t_kp_ct ct))) (ztape 3%Z) 0%nat).
Definition aw_billed (attrs : list string) (pol : string) : outcome string :=
  the ((gk <- aw_setup (C := ZC) ;;
        ko <- aw_authgen gk ["A"; "B"; "C"] ;;
        ' (pk, msk) <- rlift (unwrap ko) ;;
        sk <- rlift (aw_keygen gk msk "bob" attrs) ;;
        ct <- aw_encrypt nc gk [pk] pol HumanPolicy "hello" ;;
        rret (aw_decrypt (C := TZ) (t_aw_gk gk) (t_aw_sk sk) (t_aw_ct ct))) (ztape 3%Z) 0%nat).
Definition bd_billed (pubs attrs : list string) (pol : string) : outcome string :=
  the ((' (pk, msk) <- bd_setup (C := ZC) ;;
        au <- bd_authgen pk msk "aa" ;;
        uk <- bd_keygen pk au "bob" ;;
        apks <- rlift (omap (bd_request_pk pk au) pubs) ;;
        asks <- rlift (omap (bd_request_sk (buk_pk uk) au) attrs) ;;
        ct <- bd_encrypt nc pk apks pol HumanPolicy "hello" ;;
        rret (bd_decrypt (C := TZ) (t_bd_uk (fold_left bd_add asks uk)) (t_bd_ct ct))) (ztape 3%Z) 0%nat).
Definition mk_billed (pubs attrs : list string) (pol : string) : outcome string :=
  the ((' (pk, msk) <- mk_setup (C := ZC) ;;
        uk <- mk_keygen pk msk "bob" ;;
        au <- mk_authgen "aa" ;;
        apks <- rlift (omap (fun a => mk_request_pk pk a au) pubs) ;;
        asks <- rlift (omap (fun a => mk_request_sk (muk_pk uk) a au) attrs) ;;
        ct <- mk_encrypt nc pk apks pol HumanPolicy "hello" ;;
        rret (mk_decrypt (C := TZ) (t_mk_uk (fold_left mk_add asks uk)) (t_mk_ct ct))) (ztape 3%Z) 0%nat).

(** Two leaves are selected. *)
Example C127_example :
  parse P HumanPolicy = Ok (tree fP) /\
  bsw_billed ["A"; "C"] P = Ok "5 pairings, 2 powers" /\
  ghw_billed ["A"; "C"] P = Ok (4, 4)%nat /\
  lsw_billed P ["A"; "C"] = Ok "4 pairings, 2 powers" /\
  yct_billed P ["A"; "C"] = Ok "0 pairings, 4 powers" /\
  cp_billed ["A"; "C"] P = Ok "6 pairings, 0 powers" /\
  kp_billed P ["A"; "C"] = Ok "6 pairings, 0 powers" /\
  aw_billed ["A"; "C"] P = Ok "4 pairings, 4 powers".
Proof. repeat apply conj; vm_compute; reflexivity. Qed.

Example C127_example_conjunctions :
  bd_billed ["aa::A"; "aa::B"] ["aa::A"; "aa::B"] """aa::A"" and ""aa::B""" = Ok "4 pairings, 0 powers" /\
  bd_billed ["aa::A"; "aa::B"] ["aa::A"] """aa::A"" and ""aa::B""" = Err /\
  mk_billed ["aa::A"; "aa::B"] ["aa::A"; "aa::B"] """aa::A"" and ""aa::B""" = Ok "4 pairings, 0 powers".
Proof. repeat apply conj; vm_compute; reflexivity. Qed.

(** C128 is false: of two ways to satisfy a policy the first is taken and not the cheaper one, so a
    further attribute can make decryption dearer. *)
Theorem C128_cheapest_refuted : exists pol attrs more,
  incl attrs more /\
  bsw_billed attrs pol = Ok "3 pairings, 1 powers" /\
  bsw_billed more pol = Ok "5 pairings, 2 powers" /\
  lsw_billed pol attrs = Ok "2 pairings, 1 powers" /\
  lsw_billed pol more = Ok "4 pairings, 2 powers" /\
  aw_billed attrs pol = Ok "2 pairings, 2 powers" /\
  aw_billed more pol = Ok "4 pairings, 4 powers".
Proof.
  exists "(""A"" and ""B"") or ""C""", ["C"], ["A"; "B"; "C"].
  split; [intros x I; right; right; exact I|]. repeat apply conj; vm_compute; reflexivity.
Qed.
Print Assumptions C128_cheapest_refuted.

(** C128: but never more leaves are selected than the policy has, and without disjunctions there is
    only one choice. *)
Theorem C128_at_most_all :
  forall own f k, chosen own f k -> (length k <= length (leaves f))%nat.
Proof. exact chosen_short. Qed.
Print Assumptions C128_at_most_all.

Theorem C128_conjunction :
  forall own f k, no_or f = true -> chosen own f k -> k = leaves f.
Proof. exact chosen_all. Qed.
Print Assumptions C128_conjunction.

Example C128_example : chosen (owns ["A"; "B"]) (FAnd [FLeaf "A" 0; FLeaf "B" 4]) [("A", 0); ("B", 4)]%nat.
Proof. apply (chosen_and _ _ [[("A", 0)]; [("B", 4)]]%nat). repeat constructor. Qed.
