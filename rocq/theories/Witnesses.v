(** * Witnesses: concrete inputs and runs

    Nothing here models rabe code.  Concrete policies and a tactic that turns
    one computed run into the successes of its steps; used by the examples and
    the refutations in the Properties files. *)
From Coq Require Import String List Bool Arith ZArith Lia.
From Verif Require Import Base Crypto Policy Parse Spec SchemeLib Poly Bsw Ghw11 Lsw Yct14 Ac17 Aw11
  Bdabe Mke08 Instance Sessions.
Import ListNotations.
Local Open Scope string_scope.

(** A 12-byte nonce. *)
Definition nc : string := "abcdefghijkl".

(** "A" and ("B" or "C") *)
Definition P : string := """A"" and (""B"" or ""C"")".
Definition fP : formula := FAnd [FLeaf "A" 2; FOr [FLeaf "B" 11; FLeaf "C" 18]].

(** A policy for the multi-authority schemes: "x::A" or ("x::B" and "x::C"). *)
Definition PX : string := """x::A"" or (""x::B"" and ""x::C"")".
Definition fX : formula := FOr [FLeaf "x::A" 2; FAnd [FLeaf "x::B" 13; FLeaf "x::C" 24]].

(** A node with one child, in the JSON language. *)
Definition PJ : string := "{""name"": ""and"", ""children"": [{""name"": ""A""}]}".
Definition fJ : formula := FAnd [FLeaf "A" 40].

Lemma NoDup_dec {A} (eqb : A -> A -> bool) (l : list A) :
  (forall x y, eqb x y = true <-> x = y) ->
  (fix go (l : list A) := match l with
   | [] => true | x :: r => negb (existsb (eqb x) r) && go r end) l = true -> NoDup l.
Proof.
  intros E. induction l as [|x r IH]; intros H; [constructor|].
  apply andb_prop in H as [H1 H2]. constructor; [|auto].
  intros I. apply negb_true_iff in H1.
  assert (X : existsb (eqb x) r = true)
    by (apply existsb_exists; exists x; split; [exact I|now apply E]).
  congruence.
Qed.

Lemma nodup_strings (l : list string) :
  (fix go (l : list string) := match l with
   | [] => true | x :: r => negb (existsb (String.eqb x) r) && go r end) l = true -> NoDup l.
Proof. apply NoDup_dec. intros; apply String.eqb_eq. Qed.

Lemma nodup_leaves (l : list (string * nat)) :
  (fix go (l : list (string * nat)) := match l with
   | [] => true
   | x :: r => negb (existsb (fun y => String.eqb (fst x) (fst y) && Nat.eqb (snd x) (snd y)) r) && go r
   end) l = true -> NoDup l.
Proof.
  apply NoDup_dec. intros [a n] [b m]; cbn. rewrite andb_true_iff, String.eqb_eq, Nat.eqb_eq.
  split; [now intros [-> ->] | intros H; now injection H as -> ->].
Qed.

(** From a successful run, the successes of its steps. *)
Ltac steps H :=
  repeat match type of H with
  | rbind _ _ _ _ = Ok _ =>
      let x := fresh "x" in let i := fresh "i" in let E := fresh "E" in
      apply rbind_Ok in H; destruct H as (x & i & E & H); cbv beta in H;
      repeat match type of x with
      | (_ * _)%type => let y := fresh "y" in let z := fresh "z" in destruct x as [y z]
      end
  | rret _ _ _ = Ok _ => apply rret_Ok in H; destruct H as [H _]
  end;
  repeat match goal with
  | E : rlift _ _ _ = Ok _ |- _ => let Hi := fresh "Hi" in apply rlift_Ok in E; destruct E as [E Hi]; try subst
  | E : unwrap ?k = Ok _ |- _ =>
      let Ek := fresh "Ek" in
      destruct k eqn:Ek; [cbn [unwrap] in E; injection E as E; subst|discriminate E]
  end;
  repeat match goal with
  | E : (_, _) = (_, _) |- _ => injection E as; subst
  end.

(** Closes ground side conditions. *)
Ltac ground :=
  match goal with
  | |- small_ok _ _ => apply Zsmall; cbn; lia
  | |- NoDup ?l => first [apply nodup_strings; vm_compute; reflexivity
                         | apply nodup_leaves; vm_compute; reflexivity]
  | |- _ <> [] => discriminate
  | |- _ => reflexivity
  | |- _ => vm_compute; reflexivity
  end.

(** Computes a run in the instance on a fixed tape. *)
Ltac run := eexists; vm_compute; reflexivity.

(** Introduces the run [m], which ends in the value [v], and closes the goal by its steps. *)
Ltac by_steps m v :=
  let H := fresh "H" in let j := fresh "j" in
  assert (H : exists j, m (ztape 3%Z) 0%nat = Ok (v, j)) by run;
  destruct H as (j & H);
  cbv beta delta [bsw_session bsw_delegated_session ghw_session lsw_session yct_session cp_session
    kp_session aw_session bd_session mk_session] in H;
  steps H;
  repeat match goal with |- exists _, _ => eexists end;
  repeat match goal with |- _ /\ _ => split end;
  try (with_strategy opaque [bsw_setup bsw_keygen bsw_delegate bsw_encrypt bsw_decrypt
         ghw_setup ghw_keygen ghw_tkgen ghw_encrypt ghw_transform ghw_decrypt_out
         lsw_setup lsw_keygen lsw_encrypt lsw_decrypt yct_setup yct_keygen yct_encrypt yct_decrypt
         ac_setup cp_keygen cp_encrypt cp_decrypt kp_keygen kp_encrypt kp_decrypt
         aw_setup aw_authgen aw_keygen aw_encrypt aw_decrypt aw_add
         bd_setup bd_authgen bd_keygen bd_request_pk bd_request_sk bd_encrypt bd_decrypt bd_add
         mk_setup mk_authgen mk_keygen mk_request_pk mk_request_sk mk_encrypt mk_decrypt mk_add]
       eassumption).
Ltac by_run m v := by_steps m v; try ground.

(** Hypotheses on [ZC] that the theorems share. *)
Lemma Zhash : forall s, hash ZC s <> None.
Proof. intros s H. discriminate H. Qed.
