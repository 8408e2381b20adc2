(** * PropertiesSever: YCT14 keys for "A" and for "A and B" give one for "B" (C158)

    The two keys of one user, each issued by the authority, give a third one that was not issued.  The
    proofs are in SeverProofs.v. *)
From Coq Require Import String Ascii List Bool Arith ZArith Lia.
From Verif Require Import Base Crypto Policy Tools Sharing Spec PolicyProofs Poly SharingProofs
  Symmetric Parse ParseProofs SchemeLib Yct14 Yct14Proofs
  Instance Sessions Witnesses Draws Alternative Sever SeverProofs.
Import ListNotations.
Local Open Scope string_scope.
Local Open Scope rand_scope.
Local Open Scope nat_scope.

(** The result is the key that key generation gives for the name, on all draws.  The one case left out
    is that of a share that is zero. *)
Theorem C158_yct_sever : forall (C : crypto), laws C ->
  forall U (pk : yct_pk C) msk A B p1 pA pB p pol1 lang1 pol2 lang2 pol lang sk1 sk2 ts is js t1 i1 j1 t2 i2 j2,
  yct_setup U ts is = Ok ((pk, msk), js) ->
  parse pol1 lang1 = Ok (tree (FLeaf A p1)) ->
  parse pol2 lang2 = Ok (tree (FAnd [FLeaf A pA; FLeaf B pB])) ->
  parse pol lang = Ok (tree (FLeaf B p)) ->
  yct_keygen msk pol1 lang1 t1 i1 = Ok (sk1, j1) ->
  yct_keygen msk pol2 lang2 t2 i2 = Ok (sk2, j2) ->
  In A U -> In B U -> A <> B -> no_us A = true -> no_us B = true ->
  fadd C (ymsk_s msk) (fadd C (t2 i2) (t2 i2)) <> f0 C ->
  exists sk, yct_sever sk1 sk2 A B pol lang = Ok sk /\
    forall t i, yct_keygen msk pol lang t i = Ok (sk, i).
Proof. exact @yct_severs. Qed.
Print Assumptions C158_yct_sever.

(** The same for any policy in the place of the second name: the key for "A" and that for "A and g" give
    a key for g, one that key generation gives for the remaining draws, all times one scalar. *)
Theorem C158_yct_sever_any : forall (C : crypto), laws C ->
  forall U (pk : yct_pk C) msk A p1 pA g g' pol1 lang1 pol2 lang2 pol lang sk1 sk2 ts is js t1 i1 j1 t2 i2 j2,
  yct_setup U ts is = Ok ((pk, msk), js) ->
  parse pol1 lang1 = Ok (tree (FLeaf A p1)) ->
  parse pol2 lang2 = Ok (tree (FAnd [FLeaf A pA; g])) ->
  parse pol lang = Ok (tree g') -> blank g' = blank g ->
  yct_keygen msk pol1 lang1 t1 i1 = Ok (sk1, j1) ->
  yct_keygen msk pol2 lang2 t2 i2 = Ok (sk2, j2) ->
  In A U -> no_us A = true ->
  fadd C (ymsk_s msk) (fadd C (t2 i2) (t2 i2)) <> f0 C ->
  exists sk k, yct_sever_any sk1 sk2 A pol lang = Ok sk /\
    yct_keygen msk pol lang (fun n => fmul C k (t2 (i2 + 1 + n))) 0 = Ok (sk, coins g).
Proof. exact @yct_severs_any. Qed.
Print Assumptions C158_yct_sever_any.

(** So whoever has both keys opens every ciphertext whose names satisfy g, without A. *)
Theorem C158_yct_opens : forall (C : crypto), laws C ->
  forall nonce U (pk : yct_pk C) msk A p1 pA g g' pol1 lang1 pol2 lang2 pol lang sk1 sk2 attrs data ct
    ts is js t1 i1 j1 t2 i2 j2 te ie je,
  yct_setup U ts is = Ok ((pk, msk), js) ->
  parse pol1 lang1 = Ok (tree (FLeaf A p1)) ->
  parse pol2 lang2 = Ok (tree (FAnd [FLeaf A pA; g])) ->
  parse pol lang = Ok (tree g') -> blank g' = blank g ->
  yct_keygen msk pol1 lang1 t1 i1 = Ok (sk1, j1) ->
  yct_keygen msk pol2 lang2 t2 i2 = Ok (sk2, j2) ->
  In A U -> no_us A = true ->
  fadd C (ymsk_s msk) (fadd C (t2 i2) (t2 i2)) <> f0 C ->
  yct_encrypt nonce pk attrs data te ie = Ok (ct, je) -> String.length nonce = 12 ->
  arity2 g' = true -> NoDup (names g') -> plain_names g' = true -> small_ok C (and_width g') ->
  sat (owns attrs) g' = true ->
  exists sk, yct_sever_any sk1 sk2 A pol lang = Ok sk /\ yct_decrypt sk ct = Ok data.
Proof. exact @yct_sever_opens. Qed.
Print Assumptions C158_yct_opens.

(** One key is enough if its policy has the two as alternatives.  Its policy means the name A alone; the
    key made of it has nothing to do with A. *)
Theorem C158_yct_sever_one : forall (C : crypto), laws C ->
  forall U (pk : yct_pk C) msk A p1 pA g g' pol1 lang1 pol lang sk ts is js t i j,
  yct_setup U ts is = Ok ((pk, msk), js) ->
  parse pol1 lang1 = Ok (tree (FOr [FLeaf A p1; FAnd [FLeaf A pA; g]])) ->
  parse pol lang = Ok (tree g') -> blank g' = blank g ->
  yct_keygen msk pol1 lang1 t i = Ok (sk, j) ->
  In A U -> no_us A = true ->
  fadd C (ymsk_s msk) (fadd C (t i) (t i)) <> f0 C ->
  exists sk' k, yct_sever_one sk A pol lang = Ok sk' /\
    yct_keygen msk pol lang (fun n => fmul C k (t (i + 1 + n))) 0 = Ok (sk', coins g).
Proof. exact @yct_severs_one. Qed.
Print Assumptions C158_yct_sever_one.

Theorem C158_one_means : forall A p1 pA g S, sat S (FOr [FLeaf A p1; FAnd [FLeaf A pA; g]]) = S A.
Proof. exact one_means. Qed.
Print Assumptions C158_one_means.

(** The user opens with it what neither of the keys opens. *)
Theorem C158_yct_refuted : exists (pk : yct_pk ZC) msk sk1 sk2 sk ct t i1 i2 i3 i4,
  yct_setup ["A"; "B"] t 0 = Ok (pk, msk, i1) /\
  yct_keygen msk """A""" HumanPolicy t i1 = Ok (sk1, i2) /\
  yct_keygen msk """A"" and ""B""" HumanPolicy t i2 = Ok (sk2, i3) /\
  yct_encrypt nc pk ["B"] "hello" t i3 = Ok (ct, i4) /\
  yct_decrypt sk1 ct = Err /\ yct_decrypt sk2 ct = Err /\
  yct_sever sk1 sk2 "A" "B" """B""" HumanPolicy = Ok sk /\
  yct_decrypt sk ct = Ok "hello".
Proof.
  by_run (' (pk, msk) <- yct_setup (C := ZC) ["A"; "B"] ;;
    sk1 <- yct_keygen msk """A""" HumanPolicy ;;
    sk2 <- yct_keygen msk """A"" and ""B""" HumanPolicy ;; ct <- yct_encrypt nc pk ["B"] "hello" ;;
    sk <- rlift (yct_sever sk1 sk2 "A" "B" """B""" HumanPolicy) ;;
    rret (yct_decrypt sk1 ct, yct_decrypt sk2 ct, yct_decrypt sk ct)) (@Err string, @Err string, Ok "hello").
Qed.
Print Assumptions C158_yct_refuted.

Example C158_example :
  parse """A""" HumanPolicy = Ok (tree (FLeaf "A" 2)) /\
  parse """A"" and ""B""" HumanPolicy = Ok (tree (FAnd [FLeaf "A" 2; FLeaf "B" 10])) /\
  parse """B""" HumanPolicy = Ok (tree (FLeaf "B" 2)) /\
  In "A" ["A"; "B"] /\ In "B" ["A"; "B"] /\ "A" <> "B" /\ no_us "A" = true /\ no_us "B" = true /\
  exists (pk : yct_pk ZC) (msk : yct_msk ZC) (sk1 sk2 : yct_sk ZC) i1 i2 i3,
    yct_setup (C := ZC) ["A"; "B"] (ztape 3%Z) 0 = Ok (pk, msk, i1) /\
    yct_keygen msk """A""" HumanPolicy (ztape 3%Z) i1 = Ok (sk1, i2) /\
    yct_keygen msk """A"" and ""B""" HumanPolicy (ztape 3%Z) i2 = Ok (sk2, i3) /\
    fadd ZC (ymsk_s msk) (fadd ZC (ztape 3%Z i2) (ztape 3%Z i2)) <> f0 ZC.
Proof.
  split; [vm_compute; reflexivity|]. split; [vm_compute; reflexivity|]. split; [vm_compute; reflexivity|].
  split; [now left|]. split; [right; now left|]. split; [discriminate|]. split; [reflexivity|]. split; [reflexivity|].
  do 7 eexists. split; [reflexivity|]. split; [reflexivity|]. split; [reflexivity|].
  intros E. apply (f_equal zval) in E. vm_compute in E. discriminate E.
Qed.

(** A key for a name and one for this name and a policy of three more; not in /repo. *)
Definition QS : string := """A"" and (""B"" and (""C"" or ""D""))".
(** Its second part, the text of this part, and the formula of that text; not in /repo. *)
Definition gS : formula := FAnd [FLeaf "B" 11; FOr [FLeaf "C" 20; FLeaf "D" 27]].
Definition QT : string := """B"" and (""C"" or ""D"")".
Definition gT : formula := FAnd [FLeaf "B" 2; FOr [FLeaf "C" 11; FLeaf "D" 18]].

Example C158_example_any :
  parse """A""" HumanPolicy = Ok (tree (FLeaf "A" 2)) /\
  parse QS HumanPolicy = Ok (tree (FAnd [FLeaf "A" 2; gS])) /\
  parse QT HumanPolicy = Ok (tree gT) /\ blank gT = blank gS /\ no_us "A" = true /\
  arity2 gT = true /\ NoDup (names gT) /\ plain_names gT = true /\ small_ok ZC (and_width gT) /\
  sat (owns ["B"; "D"]) gT = true.
Proof.
  split; [vm_compute; reflexivity|]. split; [vm_compute; reflexivity|]. split; [vm_compute; reflexivity|].
  split; [reflexivity|]. split; [reflexivity|]. split; [reflexivity|].
  split; [repeat constructor; cbn; intuition discriminate|]. split; [reflexivity|]. split; [ground|]. reflexivity.
Qed.

Theorem C158_yct_any_refuted : exists (pk : yct_pk ZC) msk sk1 sk2 sk ct t i1 i2 i3 i4,
  yct_setup ["A"; "B"; "C"; "D"] t 0 = Ok (pk, msk, i1) /\
  yct_keygen msk """A""" HumanPolicy t i1 = Ok (sk1, i2) /\
  yct_keygen msk QS HumanPolicy t i2 = Ok (sk2, i3) /\
  yct_encrypt nc pk ["B"; "D"] "hello" t i3 = Ok (ct, i4) /\
  yct_decrypt sk1 ct = Err /\ yct_decrypt sk2 ct = Err /\
  yct_sever_any sk1 sk2 "A" QT HumanPolicy = Ok sk /\
  yct_decrypt sk ct = Ok "hello".
Proof.
  by_run (' (pk, msk) <- yct_setup (C := ZC) ["A"; "B"; "C"; "D"] ;;
    sk1 <- yct_keygen msk """A""" HumanPolicy ;;
    sk2 <- yct_keygen msk QS HumanPolicy ;; ct <- yct_encrypt nc pk ["B"; "D"] "hello" ;;
    sk <- rlift (yct_sever_any sk1 sk2 "A" QT HumanPolicy) ;;
    rret (yct_decrypt sk1 ct, yct_decrypt sk2 ct, yct_decrypt sk ct)) (@Err string, @Err string, Ok "hello").
Qed.
Print Assumptions C158_yct_any_refuted.

(** A policy that means "A"; not in /repo. *)
Definition QU : string := """A"" or (""A"" and (""B"" and (""C"" or ""D"")))".

Example C158_example_one :
  parse QU HumanPolicy = Ok (tree (FOr [FLeaf "A" 2; FAnd [FLeaf "A" 10; FAnd [FLeaf "B" 19; FOr [FLeaf "C" 28; FLeaf "D" 35]]]])) /\
  blank gT = blank (FAnd [FLeaf "B" 19; FOr [FLeaf "C" 28; FLeaf "D" 35]]).
Proof. split; vm_compute; reflexivity. Qed.

Theorem C158_yct_one_refuted : exists (pk : yct_pk ZC) msk sk sk' ct t i1 i2 i3,
  yct_setup ["A"; "B"; "C"; "D"] t 0 = Ok (pk, msk, i1) /\
  yct_keygen msk QU HumanPolicy t i1 = Ok (sk, i2) /\
  yct_encrypt nc pk ["B"; "D"] "hello" t i2 = Ok (ct, i3) /\
  yct_decrypt sk ct = Err /\
  yct_sever_one sk "A" QT HumanPolicy = Ok sk' /\
  yct_decrypt sk' ct = Ok "hello".
Proof.
  by_run (' (pk, msk) <- yct_setup (C := ZC) ["A"; "B"; "C"; "D"] ;;
    sk <- yct_keygen msk QU HumanPolicy ;; ct <- yct_encrypt nc pk ["B"; "D"] "hello" ;;
    sk' <- rlift (yct_sever_one sk "A" QT HumanPolicy) ;;
    rret (yct_decrypt sk ct, yct_decrypt sk' ct)) (@Err string, Ok "hello").
Qed.
Print Assumptions C158_yct_one_refuted.
