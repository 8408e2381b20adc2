(** * RealInstance: the laws with SHA3-256, AES-256-GCM and the order of BN254

    The scalars are those of BnInstance.v, the digest is the one of Sha3.v read
    as a number and reduced modulo the order (/repo/src/utils/hash/mod.rs:27-29),
    the key derivation is the digest of the bytes of the element
    (/repo/src/utils/aes/mod.rs:47-55) and the cipher is the one of Gcm.v
    (/repo/src/utils/aes/mod.rs:14-19, 37-41).  How rabe-bn writes an element of
    Gt as bytes and how Rust turns a text into upper case are parameters. *)
From Coq Require Import String Ascii List Bool Arith NArith ZArith Znumtheory Lia Field_theory FinFun ListDec.
From Verif Require Import Base Crypto Poly SessionProofs Instance Primes BnInstance Sha3 Gcm PrimitiveProofs.
Import ListNotations.
Local Open Scope nat_scope.

(** What is asked of a conversion to upper case ([str::to_uppercase];
    /repo/src/schemes/aw11/mod.rs:137, 223, 268, 273); the same as in Crypto.v. *)
Record upper_laws (up : string -> string) : Prop := UpperLaws {
  up_nil : up ""%string = ""%string;
  up_at : forall x c y, (N_of_ascii c < 128)%N ->
    (up (x ++ String c y) = up x ++ String (upper_ascii c) (up y))%string;
  up_idem : forall x, up (up x) = up x;
  up_us : forall x, ~ In "_"%char (list_ascii_of_string x) -> ~ In "_"%char (list_ascii_of_string (up x))
}.

Lemma toy_upper_laws : upper_laws toy_upper.
Proof. constructor; [reflexivity|exact toy_upper_at|exact toy_upper_idem|exact toy_upper_us]. Qed.

Section Real.
Context (q : Z) (Q : prime q) (gt_bytes : zq q -> string) (up : string -> string).

(** [Fr::from_slice(&hasher.finalize())]; /repo/src/utils/hash/mod.rs:16, 29. *)
Definition digest_scalar (s : string) : zq q := qmk q Q (sha3_number s).

(** The operations of the other crates at the places named above. *)
Definition real_crypto : crypto :=
  Crypto (zq q) (qmk q Q 0) (qmk q Q 1) (qadd q Q) (qmul q Q) (qsub q Q) (qopp q Q) (qinv q Q) (qeqb q)
         (zq q) (qmk q Q 1) (qmk q Q 0) (qadd q Q) (qopp q Q) (qmul q Q)
         (zq q) (qmk q Q 1) (qmk q Q 0) (qadd q Q) (qopp q Q) (qmul q Q)
         (zq q) (qmk q Q 0) (qadd q Q) (qopp q Q) (qmul q Q)
         (qmul q Q)
         (fun s => Some (digest_scalar s)) (fun x => sha3_256 (gt_bytes x)) gcm_enc gcm_dec up.

Lemma real_laws : upper_laws up -> laws real_crypto.
Proof.
  intros [U1 U2 U3 U4].
  refine (Laws real_crypto _ (qeqb_ok q)
            (fun x => x) (fun _ _ e => e) eq_refl eq_refl
            (fun _ _ => eq_refl) (fun _ => eq_refl) (fun _ _ => eq_refl)
            (fun x => x) (fun _ _ e => e) eq_refl eq_refl
            (fun _ _ => eq_refl) (fun _ => eq_refl) (fun _ _ => eq_refl)
            (fun x => x) (fun _ _ e => e) eq_refl
            (fun _ _ => eq_refl) (fun _ => eq_refl) (fun _ _ => eq_refl)
            (fun _ _ => eq_refl) gcm_ok U1 U2 U3 U4).
  exact (zq_field q Q).
Defined.

Lemma real_total : @hash_total real_crypto.
Proof. intros s. discriminate. Qed.

Lemma real_usize n : qval q (usize_to_fr (C := real_crypto) n) = (Z.of_nat n mod q)%Z.
Proof.
  pose proof (q_pos q Q) as P. induction n as [|n IH]; [reflexivity|].
  cbn [usize_to_fr]. cbn -[Z.modulo Z.of_nat usize_to_fr].
  rewrite IH. rewrite Z.mod_1_l by exact P.
  rewrite Z.add_mod_idemp_l by lia. f_equal. lia.
Qed.

Lemma real_order : scalar_order real_crypto q.
Proof.
  pose proof (prime_pos q Q) as P. intros n. rewrite <- Z.mod_divide by lia. rewrite <- (real_usize n).
  split.
  - intros ->. cbn -[Z.modulo]. apply Z.mod_0_l. lia.
  - intros E. apply zq_eq. cbn -[Z.modulo usize_to_fr]. now rewrite Z.mod_0_l by lia.
Qed.

(** ** Two texts with the same digest *)
Fixpoint run_of (c : ascii) (n : nat) : string :=
  match n with O => ""%string | S k => String c (run_of c k) end.

Lemma run_length c n : String.length (run_of c n) = n.
Proof. induction n as [|n IH]; [reflexivity|]. cbn. now rewrite IH. Qed.

Lemma not_nodup {A} (dec : forall x y : A, {x = y} + {x <> y}) (l : list A) :
  ~ NoDup l -> exists i j x, i < j /\ nth_error l i = Some x /\ nth_error l j = Some x.
Proof.
  induction l as [|a l IH]; intros H; [destruct H; constructor|].
  destruct (in_dec dec a l) as [I|I].
  - apply In_nth_error in I as (j & E). exists 0, (S j), a. repeat split; [lia|exact E].
  - destruct IH as (i & j & x & Hij & E1 & E2); [intros N; apply H; now constructor|].
    exists (S i), (S j), x. repeat split; [lia|exact E1|exact E2].
Qed.

Lemma zq_list : exists l : list (zq q), (forall x, In x l) /\ List.length l = Z.to_nat q.
Proof.
  pose proof (q_pos q Q) as P.
  exists (map (fun n => qmk q Q (Z.of_nat n)) (seq 0 (Z.to_nat q))). split.
  - intros x. apply in_map_iff. pose proof (qval_mod q x) as M.
    pose proof (Z.mod_pos_bound (qval q x) q ltac:(lia)) as B.
    exists (Z.to_nat (qval q x)). split; [|apply in_seq; lia].
    apply zq_eq. cbn -[Z.modulo]. rewrite Z2Nat.id by lia. exact M.
  - now rewrite map_length, seq_length.
Qed.

Lemma zq_dec (x y : zq q) : {x = y} + {x <> y}.
Proof.
  destruct (qeqb q x y) eqn:E; [left; now apply qeqb_ok|right].
  intros H. apply qeqb_ok in H. congruence.
Qed.

Theorem collision (h : string -> zq q) : exists a b, a <> b /\ h a = h b.
Proof.
  destruct zq_list as (all & Hall & Len).
  set (xs := map (fun n => h (run_of "a" n)) (seq 0 (S (Z.to_nat q)))).
  assert (N : ~ NoDup xs).
  { intros N. pose proof (NoDup_incl_length N (fun x _ => Hall x)) as H.
    unfold xs in H. rewrite map_length, seq_length, Len in H. lia. }
  apply (not_nodup zq_dec) in N as (i & j & x & Hij & E1 & E2).
  exists (run_of "a" i), (run_of "a" j).
  assert (Lt : forall k, nth_error xs k = Some x -> h (run_of "a" k) = x).
  { intros k E. unfold xs in E. rewrite nth_error_map in E.
    destruct (nth_error (seq 0 (S (Z.to_nat q))) k) as [m|] eqn:Em; [|discriminate].
    cbn in E. injection E as <-.
    assert (K : k < S (Z.to_nat q)).
    { rewrite <- (seq_length (S (Z.to_nat q)) 0). apply nth_error_Some. congruence. }
    apply nth_error_nth with (d := 0) in Em. rewrite seq_nth in Em by exact K. now rewrite <- Em. }
  split; [|now rewrite (Lt i E1), (Lt j E2)].
  intros E. apply (f_equal String.length) in E. rewrite !run_length in E. lia.
Qed.
End Real.

(** The order of BN254; /repo/Cargo.toml:33. *)
Definition real : (zq bn_order -> string) -> (string -> string) -> crypto :=
  real_crypto bn_order bn_prime.
