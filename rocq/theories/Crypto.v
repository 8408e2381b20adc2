(** * Crypto: the operations rabe takes from other crates

    [crypto] bundles what the code calls in [rabe_bn] (scalars [Fr], groups
    [G1], [G2], [Gt], pairing), [sha3] (through /repo/src/utils/hash/mod.rs) and
    [aes_gcm].  It contains operations only, so a function whose only parameter
    is a [crypto] can do exactly what any user of those crates can do.  The laws
    are a separate record, which adversaries never receive. *)
From Coq Require Import String Ascii List Bool Arith NArith Field_theory.
From Verif Require Import Base.
Import ListNotations.

(** What /repo takes from rabe_bn, sha3, aes_gcm and std: the imports at /repo/src/schemes/lsw/mod.rs:23, /repo/src/utils/hash/mod.rs:1-5 and /repo/src/utils/aes/mod.rs:1-2, [to_uppercase] at /repo/src/schemes/aw11/mod.rs:137, 223, 268 and 273. *)
Record crypto : Type := Crypto {
  (* rabe_bn::Fr *)
  F : Type;
  f0 : F; f1 : F;
  fadd : F -> F -> F; fmul : F -> F -> F; fsub : F -> F -> F;
  fopp : F -> F; finv : F -> F;
  feqb : F -> F -> bool;
  (* rabe_bn::G1 *)
  G1 : Type;
  g1one : G1; g1zero : G1;
  g1add : G1 -> G1 -> G1; g1neg : G1 -> G1; g1mul : G1 -> F -> G1;
  (* rabe_bn::G2 *)
  G2 : Type;
  g2one : G2; g2zero : G2;
  g2add : G2 -> G2 -> G2; g2neg : G2 -> G2; g2mul : G2 -> F -> G2;
  (* rabe_bn::Gt *)
  GT : Type;
  gtone : GT;
  gtmul : GT -> GT -> GT; gtinv : GT -> GT; gtpow : GT -> F -> GT;
  (* rabe_bn::pairing *)
  pairing : G1 -> G2 -> GT;
  (* sha3 digest of a text read as a scalar; /repo/src/utils/hash/mod.rs:21-31.
     [None] stands for the error branch of [Fr::from_slice]. *)
  hash : string -> option F;
  (* /repo/src/utils/aes/mod.rs:47-55 applied to the byte form of a Gt element
     (or of text, for the tests of that file) *)
  kdf : GT -> string;
  (* Aes256Gcm: key, nonce, data *)
  aead_enc : string -> string -> string -> string;
  aead_dec : string -> string -> string -> option string;
  (* str::to_uppercase of the Rust standard library, with its tables of Unicode;
     /repo/src/schemes/aw11/mod.rs:137, 223, 268, 273 *)
  upper : string -> string
}.

(** Division, for [field]; not in /repo. *)
Definition fdiv (C : crypto) (x y : F C) : F C := fmul C x (finv C y).

(** An ASCII letter in upper case; other characters are left alone; not in /repo. *)
Definition upper_ascii (c : ascii) : ascii :=
  let n := nat_of_ascii c in
  if (97 <=? n) && (n <=? 122) then ascii_of_nat (n - 32) else c.

(** Every element of the three groups has a discrete logarithm with respect to
    a generator; the logarithm is injective and turns group operations into
    scalar operations and the pairing into multiplication.  This says: cyclic
    groups of the order of the scalar field with a bilinear non-degenerate
    pairing.  [aead_ok] is the correctness of AES-GCM.  Upper case is taken
    character by character, so an ASCII character separates what is before and
    behind it; a text in upper case stays as it is; no character turns into an
    underscore; not in /repo. *)
Record laws (C : crypto) : Type := Laws {
  f_theory : field_theory (f0 C) (f1 C) (fadd C) (fmul C) (fsub C) (fopp C)
                          (fdiv C) (finv C) (@eq (F C));
  feqb_eq : forall x y, feqb C x y = true <-> x = y;
  log1 : G1 C -> F C;
  log1_inj : forall a b, log1 a = log1 b -> a = b;
  log1_one : log1 (g1one C) = f1 C;
  log1_zero : log1 (g1zero C) = f0 C;
  log1_add : forall a b, log1 (g1add C a b) = fadd C (log1 a) (log1 b);
  log1_neg : forall a, log1 (g1neg C a) = fopp C (log1 a);
  log1_mul : forall a x, log1 (g1mul C a x) = fmul C (log1 a) x;
  log2 : G2 C -> F C;
  log2_inj : forall a b, log2 a = log2 b -> a = b;
  log2_one : log2 (g2one C) = f1 C;
  log2_zero : log2 (g2zero C) = f0 C;
  log2_add : forall a b, log2 (g2add C a b) = fadd C (log2 a) (log2 b);
  log2_neg : forall a, log2 (g2neg C a) = fopp C (log2 a);
  log2_mul : forall a x, log2 (g2mul C a x) = fmul C (log2 a) x;
  logT : GT C -> F C;
  logT_inj : forall a b, logT a = logT b -> a = b;
  logT_one : logT (gtone C) = f0 C;
  logT_mul : forall a b, logT (gtmul C a b) = fadd C (logT a) (logT b);
  logT_inv : forall a, logT (gtinv C a) = fopp C (logT a);
  logT_pow : forall a x, logT (gtpow C a x) = fmul C (logT a) x;
  logT_pairing : forall a b, logT (pairing C a b) = fmul C (log1 a) (log2 b);
  aead_ok : forall k n m, aead_dec C k n (aead_enc C k n m) = Some m;
  upper_nil : upper C "" = ""%string;
  upper_at : forall x c y, (N_of_ascii c < 128)%N ->
    upper C (x ++ String c y) = (upper C x ++ String (upper_ascii c) (upper C y))%string;
  upper_idem : forall x, upper C (upper C x) = upper C x;
  upper_us : forall x, ~ In "_"%char (list_ascii_of_string x) -> ~ In "_"%char (list_ascii_of_string (upper C x))
}.
Arguments f_theory {C} _.
Arguments feqb_eq {C} _.
Arguments log1 {C} _ _. Arguments log2 {C} _ _. Arguments logT {C} _ _.
Arguments log1_inj {C} _. Arguments log2_inj {C} _. Arguments logT_inj {C} _.
Arguments log1_one {C} _. Arguments log1_zero {C} _. Arguments log1_add {C} _.
Arguments log1_neg {C} _. Arguments log1_mul {C} _.
Arguments log2_one {C} _. Arguments log2_zero {C} _. Arguments log2_add {C} _.
Arguments log2_neg {C} _. Arguments log2_mul {C} _.
Arguments logT_one {C} _. Arguments logT_mul {C} _. Arguments logT_inv {C} _.
Arguments logT_pow {C} _. Arguments logT_pairing {C} _.
Arguments aead_ok {C} _.
Arguments upper_nil {C} _. Arguments upper_at {C} _. Arguments upper_idem {C} _.
Arguments upper_us {C} _.

(** ** Short forms used by the model files *)
Declare Scope F_scope.
Delimit Scope F_scope with F.
Infix "+" := (fadd _) : F_scope.
Infix "*" := (fmul _) : F_scope.
Infix "-" := (fsub _) : F_scope.
Notation "- x" := (fopp _ x) : F_scope.
Notation "0" := (f0 _) : F_scope.
Notation "1" := (f1 _) : F_scope.

Section Ops.
Context {C : crypto}.
Local Open Scope F_scope.

(** [Fr::inverse() : Option<Fr>] of rabe_bn: [None] exactly on zero;
    called at /repo/src/utils/secretsharing/mod.rs:66. *)
Definition finv_opt (x : F C) : option (F C) :=
  if feqb C x 0 then None else Some (finv C x).

(** [Fr::from_str(&i.to_string()).unwrap()]; /repo/src/utils/tools/mod.rs:11-13. *)
Fixpoint usize_to_fr (n : nat) : F C :=
  match n with O => 0 | S k => usize_to_fr k + 1 end.

(** [x.pow(usize_to_fr(n))] of rabe_bn, as repeated multiplication;
    called at /repo/src/utils/secretsharing/mod.rs:218. *)
Fixpoint fpow (x : F C) (n : nat) : F C :=
  match n with O => 1 | S k => fpow x k * x end.

(** [rng.gen::<G1>()], [rng.gen::<G2>()], [rng.gen::<Gt>()]: a random multiple
    of the generator;
    called for instance at /repo/src/schemes/bsw/mod.rs:96-97 and /repo/src/schemes/lsw/mod.rs:210. *)
Definition draw_g1 : rand (F C) (G1 C) := rbind draw (fun x => rret (g1mul C (g1one C) x)).
Definition draw_g2 : rand (F C) (G2 C) := rbind draw (fun x => rret (g2mul C (g2one C) x)).
Definition draw_gt : rand (F C) (GT C) :=
  rbind draw (fun x => rret (gtpow C (pairing C (g1one C) (g2one C)) x)).

(** [sha3_hash_fr]; /repo/src/utils/hash/mod.rs:22-31. *)
Definition sha3_hash_fr (s : string) : outcome (F C) :=
  match hash C s with Some h => Ok h | None => Err end.

(** [sha3_hash] at [G1] and [G2]; /repo/src/utils/hash/mod.rs:10-20. *)
Definition sha3_hash_g1 (g : G1 C) (s : string) : outcome (G1 C) :=
  match hash C s with Some h => Ok (g1mul C g h) | None => Err end.
Definition sha3_hash_g2 (g : G2 C) (s : string) : outcome (G2 C) :=
  match hash C s with Some h => Ok (g2mul C g h) | None => Err end.

End Ops.
