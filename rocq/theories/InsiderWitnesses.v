(** * InsiderWitnesses: runs that meet the hypotheses of PropertiesInsider.v

    Nothing here models rabe code. *)
From Coq Require Import String List Bool Arith ZArith Lia.
From Verif Require Import Base Crypto Policy Parse Spec SchemeLib Poly Dnf DnfProofs Bdabe BdabeProofs Mke08 Mke08Proofs
  Bsw Ghw11 Lsw Yct14 Ac17 Aw11 Aw11Proofs EquationProofs Instance Sessions Witnesses.
Import ListNotations.
Local Open Scope string_scope.

(** A step that starts at the beginning of a tape of its own. *)
Definition anew {F A} (t : nat -> F) (m : rand F A) : rand F A := fun _ i =>
  match m t 0 with Ok (x, _) => Ok (x, i) | Err => Err | Panic => Panic end.

Lemma anew_Ok {F A} (t : nat -> F) (m : rand F A) t' i x j : anew t m t' i = Ok (x, j) -> exists k, m t 0 = Ok (x, k).
Proof.
  unfold anew. destruct (m t 0) as [[y k]| |]; intros H; try discriminate. injection H as -> _. now exists k.
Qed.

(** Introduces the steps of the run [m], which ends in [v]. *)
Ltac anew_steps m v :=
  let H := fresh "H" in let j := fresh "j" in
  assert (H : exists j, m (ztape 3%Z) 0%nat = Ok (v, j)) by run;
  destruct H as (j & H); steps H;
  repeat match goal with E : anew _ _ _ _ = Ok _ |- _ => apply anew_Ok in E; destruct E as (? & E) end.

Ltac give := repeat match goal with |- exists _, _ => eexists end;
  repeat match goal with |- _ /\ _ => split end; try eassumption.

Local Open Scope rand_scope.

Lemma bsw_run : exists pk msk i sk j ct k,
  bsw_setup (C := ZC) (ztape 3) 0 = Ok (pk, msk, i) /\ bsw_keygen pk msk ["C"; "A"] (ztape 5) 0 = Ok (Some sk, j) /\
  bsw_encrypt nc pk P HumanPolicy "m" (ztape 7) 0 = Ok (ct, k).
Proof.
  anew_steps (' (pk, msk) <- anew (ztape 3) (bsw_setup (C := ZC)) ;;
    ko <- anew (ztape 5) (bsw_keygen pk msk ["C"; "A"]) ;; sk <- rlift (unwrap ko) ;;
    ct <- anew (ztape 7) (bsw_encrypt nc pk P HumanPolicy "m") ;; rret tt) tt.
  give.
Qed.

Lemma ghw_run : exists pk msk i sk j ct k,
  ghw_setup (C := ZC) (ztape 3) 0 = Ok (pk, msk, i) /\ ghw_keygen pk msk ["C"; "A"] (ztape 5) 0 = Ok (Some sk, j) /\
  ghw_encrypt nc pk P HumanPolicy "m" (ztape 7) 0 = Ok (ct, k).
Proof.
  anew_steps (' (pk, msk) <- anew (ztape 3) (ghw_setup (C := ZC)) ;;
    ko <- anew (ztape 5) (ghw_keygen pk msk ["C"; "A"]) ;; sk <- rlift (unwrap ko) ;;
    ct <- anew (ztape 7) (ghw_encrypt nc pk P HumanPolicy "m") ;; rret tt) tt.
  give.
Qed.

Lemma lsw_run : exists pk msk i sk j ct k,
  lsw_setup (C := ZC) (ztape 3) 0 = Ok (pk, msk, i) /\ lsw_keygen pk msk P HumanPolicy (ztape 5) 0 = Ok (sk, j) /\
  lsw_encrypt nc pk ["C"; "A"] "m" (ztape 7) 0 = Ok (ct, k).
Proof.
  anew_steps (' (pk, msk) <- anew (ztape 3) (lsw_setup (C := ZC)) ;;
    sk <- anew (ztape 5) (lsw_keygen pk msk P HumanPolicy) ;;
    ct <- anew (ztape 7) (lsw_encrypt nc pk ["C"; "A"] "m") ;; rret tt) tt.
  give.
Qed.

Lemma yct_run : exists pk msk i sk j ct k,
  yct_setup (C := ZC) ["A"; "B"; "C"] (ztape 3) 0 = Ok (pk, msk, i) /\ yct_keygen msk P HumanPolicy (ztape 5) 0 = Ok (sk, j) /\
  yct_encrypt nc pk ["C"; "A"] "m" (ztape 7) 0 = Ok (ct, k).
Proof.
  anew_steps (' (pk, msk) <- anew (ztape 3) (yct_setup (C := ZC) ["A"; "B"; "C"]) ;;
    sk <- anew (ztape 5) (yct_keygen msk P HumanPolicy) ;;
    ct <- anew (ztape 7) (yct_encrypt nc pk ["C"; "A"] "m") ;; rret tt) tt.
  give.
Qed.

Lemma cp_run : exists pk msk i sk j ct k,
  ac_setup (C := ZC) (ztape 3) 0 = Ok (pk, msk, i) /\ cp_keygen msk ["C"; "A"] (ztape 5) 0 = Ok (sk, j) /\
  cp_encrypt nc pk P "m" HumanPolicy (ztape 7) 0 = Ok (ct, k).
Proof.
  anew_steps (' (pk, msk) <- anew (ztape 3) (ac_setup (C := ZC)) ;;
    sk <- anew (ztape 5) (cp_keygen msk ["C"; "A"]) ;;
    ct <- anew (ztape 7) (cp_encrypt nc pk P "m" HumanPolicy) ;; rret tt) tt.
  give.
Qed.

Lemma kp_run : exists pk msk i sk j ct k,
  ac_setup (C := ZC) (ztape 3) 0 = Ok (pk, msk, i) /\ kp_keygen msk P HumanPolicy (ztape 5) 0 = Ok (sk, j) /\
  kp_encrypt nc pk ["C"; "A"] "m" (ztape 7) 0 = Ok (ct, k).
Proof.
  anew_steps (' (pk, msk) <- anew (ztape 3) (ac_setup (C := ZC)) ;;
    sk <- anew (ztape 5) (kp_keygen msk P HumanPolicy) ;;
    ct <- anew (ztape 7) (kp_encrypt nc pk ["C"; "A"] "m") ;; rret tt) tt.
  give.
Qed.

(** Bob's key is issued by two authorities. *)
Lemma aw_run : exists (gk : aw_gk ZC) As issued sk ct k,
  map fst As = [["A"; "D"]; ["b"; "C"]] /\
  Forall (fun A => exists t i j, aw_authgen gk (fst A) t i = Ok (Some (snd A), j)) As /\ separate As /\
  (forall m a, In (m, a) issued -> exists A, In A As /\ m = snd (snd A)) /\ map snd issued = ["C"; "A"] /\
  aw_issue gk "bob" issued = Ok sk /\
  aw_encrypt nc gk (map (fun A => fst (snd A)) As) P HumanPolicy "m" (ztape 7) 0 = Ok (ct, k).
Proof.
  anew_steps (gk <- anew (ztape 3) (aw_setup (C := ZC)) ;;
    a1 <- anew (ztape 4) (aw_authgen gk ["A"; "D"]) ;; ' (pk1, msk1) <- rlift (unwrap a1) ;;
    a2 <- anew (ztape 5) (aw_authgen gk ["b"; "C"]) ;; ' (pk2, msk2) <- rlift (unwrap a2) ;;
    sk <- rlift (aw_issue gk "bob" [(msk2, "C"); (msk1, "A")]) ;;
    ct <- anew (ztape 7) (aw_encrypt nc gk [pk1; pk2] P HumanPolicy "m") ;;
    rret tt) tt.
  match goal with
  | H1 : aw_authgen ?gk ["A"; "D"] _ _ = Ok (Some (?pk1, ?msk1), _), H2 : aw_authgen ?gk ["b"; "C"] _ _ = Ok (Some (?pk2, ?msk2), _) |- _ =>
      exists gk, [(["A"; "D"], (pk1, msk1)); (["b"; "C"], (pk2, msk2))], [(msk2, "C"); (msk1, "A")]
  end.
  give.
  - reflexivity.
  - repeat (constructor; [cbn [fst snd]; do 3 eexists; eassumption|]). constructor.
  - intros a b A B n Ha Hb Ia Ib.
    destruct a as [|[|a]], b as [|[|b]]; try reflexivity; exfalso.
    all: cbn [nth_error] in Ha, Hb;
      try (destruct a; discriminate Ha); try (destruct b; discriminate Hb);
      injection Ha as <-; injection Hb as <-; vm_compute in Ia, Ib; intuition congruence.
  - intros m a [I|[I|[]]]; injection I as <- _; eexists.
    + split; [right; left; reflexivity|reflexivity].
    + split; [left; reflexivity|reflexivity].
  - reflexivity.
Qed.

Lemma bd_run : exists (pk : bd_pk ZC) msk As i apks ct j uk,
  bd_setup (C := ZC) (ztape 3) 0 = Ok (pk, msk, i) /\ Forall (bd_authority pk msk) As /\ bd_unique As /\
  Forall (bd_pk_issued pk As) apks /\ bd_user pk As uk /\
  bd_encrypt nc pk apks PX HumanPolicy "m" (ztape 7) 0 = Ok (ct, j) /\
  map bapk_attr apks = ["x::A"; "x::B"; "x::C"] /\ map bask_attr (buk_ska uk) = ["x::B"; "x::C"].
Proof.
  anew_steps (' (pk, msk) <- anew (ztape 3) (bd_setup (C := ZC)) ;;
    au <- anew (ztape 4) (bd_authgen pk msk "x") ;; uk <- anew (ztape 5) (bd_keygen pk au "bob") ;;
    k1 <- rlift (bd_request_pk pk au "x::A") ;; k2 <- rlift (bd_request_pk pk au "x::B") ;;
    k3 <- rlift (bd_request_pk pk au "x::C") ;;
    s1 <- rlift (bd_request_sk (buk_pk uk) au "x::B") ;; s2 <- rlift (bd_request_sk (buk_pk uk) au "x::C") ;;
    ct <- anew (ztape 7) (bd_encrypt nc pk [k1; k2; k3] PX HumanPolicy "m") ;; rret tt) tt.
  match goal with
  | Hs : bd_setup _ _ = Ok (?pk, ?msk, ?i), Ha : bd_authgen _ _ _ _ _ = Ok (?au, _), Hu : bd_keygen _ _ _ _ _ = Ok (?uk, _),
    H1 : bd_request_pk _ _ "x::A" = Ok ?k1, H2 : bd_request_pk _ _ "x::B" = Ok ?k2, H3 : bd_request_pk _ _ "x::C" = Ok ?k3,
    H4 : bd_request_sk _ _ "x::B" = Ok ?s1, H5 : bd_request_sk _ _ "x::C" = Ok ?s2, He : bd_encrypt _ _ _ _ _ _ _ _ = Ok (?ct, ?j) |- _ =>
      assert (U : buk_ska uk = []) by exact (proj1 (proj2 (proj1 (bd_keygen_eq _ _ _ _ _ _ _) Hu)));
      exists pk, msk, [au], i, [k1; k2; k3], ct, j, (fold_left bd_add [s1; s2] uk);
      split; [exact Hs|]; split; [constructor; [do 4 eexists; exact Ha|constructor]|];
      split; [intros A B [<-|[]] [<-|[]] _; reflexivity|];
      split; [constructor; [do 2 eexists; split; [left; reflexivity|exact H1]|]; constructor; [do 2 eexists; split; [left; reflexivity|exact H2]|];
        constructor; [do 2 eexists; split; [left; reflexivity|exact H3]|]; constructor|];
      split; [exists au, "bob", (ztape 5); do 2 eexists; exists uk, [s1; s2]; split; [left; reflexivity|]; split; [exact Hu|];
        split; [constructor; [do 2 eexists; split; [left; reflexivity|exact H4]|]; constructor; [do 2 eexists; split; [left; reflexivity|exact H5]|];
          constructor|reflexivity]|];
      split; [exact He|];
      apply (bd_request_pk_inv ZL) in H1 as [H1 _]; apply (bd_request_pk_inv ZL) in H2 as [H2 _];
      apply (bd_request_pk_inv ZL) in H3 as [H3 _];
      apply (bd_request_sk_inv ZL) in H4 as [H4 _]; apply (bd_request_sk_inv ZL) in H5 as [H5 _];
      rewrite fold_bd_add; cbn [map buk_ska app]; rewrite U; cbn [map app]; rewrite H1, H2, H3, H4, H5; split; reflexivity
  end.
Qed.

Lemma mk_run : exists (pk : mk_pk ZC) msk As i apks ct j uk,
  mk_setup (C := ZC) (ztape 3) 0 = Ok (pk, msk, i) /\ mk_unique As /\
  Forall (mk_pk_issued pk As) apks /\ mk_user pk msk As uk /\
  mk_encrypt nc pk apks PX HumanPolicy "m" (ztape 7) 0 = Ok (ct, j) /\
  map mapk_attr apks = ["x::A"; "x::B"; "x::C"] /\ map mask_attr (muk_ska uk) = ["x::B"; "x::C"].
Proof.
  anew_steps (' (pk, msk) <- anew (ztape 3) (mk_setup (C := ZC)) ;;
    au <- anew (ztape 4) (mk_authgen (C := ZC) "x") ;; uk <- anew (ztape 5) (mk_keygen pk msk "bob") ;;
    k1 <- rlift (mk_request_pk pk "x::A" au) ;; k2 <- rlift (mk_request_pk pk "x::B" au) ;;
    k3 <- rlift (mk_request_pk pk "x::C" au) ;;
    s1 <- rlift (mk_request_sk (muk_pk uk) "x::B" au) ;; s2 <- rlift (mk_request_sk (muk_pk uk) "x::C" au) ;;
    ct <- anew (ztape 7) (mk_encrypt nc pk [k1; k2; k3] PX HumanPolicy "m") ;; rret tt) tt.
  match goal with
  | Hs : mk_setup _ _ = Ok (?pk, ?msk, ?i), Ha : mk_authgen _ _ _ = Ok (?au, _), Hu : mk_keygen _ _ _ _ _ = Ok (?uk, _),
    H1 : mk_request_pk _ "x::A" _ = Ok ?k1, H2 : mk_request_pk _ "x::B" _ = Ok ?k2, H3 : mk_request_pk _ "x::C" _ = Ok ?k3,
    H4 : mk_request_sk _ "x::B" _ = Ok ?s1, H5 : mk_request_sk _ "x::C" _ = Ok ?s2, He : mk_encrypt _ _ _ _ _ _ _ _ = Ok (?ct, ?j) |- _ =>
      assert (U : muk_ska uk = []) by exact (proj1 (proj2 (proj1 (mk_keygen_eq _ _ _ _ _ _ _) Hu)));
      exists pk, msk, [au], i, [k1; k2; k3], ct, j, (fold_left mk_add [s1; s2] uk);
      split; [exact Hs|];
      split; [intros A B [<-|[]] [<-|[]] _; reflexivity|];
      split; [constructor; [do 2 eexists; split; [left; reflexivity|exact H1]|]; constructor; [do 2 eexists; split; [left; reflexivity|exact H2]|];
        constructor; [do 2 eexists; split; [left; reflexivity|exact H3]|]; constructor|];
      split; [exists "bob", (ztape 5); do 2 eexists; exists uk, [s1; s2]; split; [exact Hu|];
        split; [constructor; [do 2 eexists; split; [left; reflexivity|exact H4]|]; constructor; [do 2 eexists; split; [left; reflexivity|exact H5]|];
          constructor|reflexivity]|];
      split; [exact He|];
      apply (mk_request_pk_inv ZL) in H1 as [H1 _]; apply (mk_request_pk_inv ZL) in H2 as [H2 _];
      apply (mk_request_pk_inv ZL) in H3 as [H3 _];
      apply (mk_request_sk_inv ZL) in H4 as [H4 _]; apply (mk_request_sk_inv ZL) in H5 as [H5 _];
      rewrite fold_mk_add; cbn [map muk_ska app]; rewrite U; cbn [map app]; rewrite H1, H2, H3, H4, H5; split; reflexivity
  end.
Qed.
