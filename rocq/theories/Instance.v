(** * Instance: concrete implementations of [crypto] with their [laws]

    Nothing here models rabe code.  The instances show that the laws are
    satisfiable and let the examples run. *)
From Coq Require Import String Ascii List Bool Arith ZArith Lia Field_theory Eqdep_dec.
From Verif Require Import Base Crypto Poly.
Import ListNotations.

(** ** A toy AEAD: key and nonce in clear, checked on decryption. *)
Local Open Scope string_scope.

Definition toy_head (k n : string) : string := k ++ "." ++ n ++ ".".
Definition toy_enc (k n m : string) : string := toy_head k n ++ m.
Definition toy_dec (k n c : string) : option string :=
  let h := toy_head k n in
  if String.prefix h c
  then Some (String.substring (String.length h) (String.length c - String.length h) c)
  else None.

Lemma prefix_app h m : String.prefix h (h ++ m) = true.
Proof.
  induction h as [|c h IH]; cbn; [now destruct m|].
  destruct (ascii_dec c c); [exact IH|congruence].
Qed.

Lemma string_len_app a b : String.length (a ++ b) = (String.length a + String.length b)%nat.
Proof. induction a as [|c a IH]; cbn; [reflexivity | now rewrite IH]. Qed.

Lemma substring_rest h m : String.substring (String.length h) (String.length m) (h ++ m) = m.
Proof.
  induction h as [|c h IH]; cbn; [|exact IH].
  induction m as [|c m IH]; cbn; [reflexivity | now rewrite IH].
Qed.

Lemma toy_ok k n m : toy_dec k n (toy_enc k n m) = Some m.
Proof.
  unfold toy_dec, toy_enc. rewrite prefix_app, string_len_app.
  replace (String.length (toy_head k n) + String.length m - String.length (toy_head k n))%nat
    with (String.length m) by lia.
  now rewrite substring_rest.
Qed.

(** ** Upper case of ASCII and of the Latin-1 letters in UTF-8: two bytes, 195 and
    160 to 190 without 183, lose 32 in the second; sharp s becomes two letters. *)
Definition latin (a b : ascii) : option string :=
  if (N_of_ascii a =? 195)%N then
    if (N_of_ascii b =? 159)%N then Some "SS"
    else if ((160 <=? N_of_ascii b) && (N_of_ascii b <=? 190) && negb (N_of_ascii b =? 183))%N
         then Some (String a (String (ascii_of_N (N_of_ascii b - 32)) ""))
         else None
  else None.
Fixpoint toy_upper (s : string) : string :=
  match s with
  | EmptyString => EmptyString
  | String a r =>
      match r with
      | String b r' => match latin a b with
                       | Some x => x ++ toy_upper r'
                       | None => String (upper_ascii a) (toy_upper r)
                       end
      | EmptyString => String (upper_ascii a) ""
      end
  end.

Lemma latin_cases a b :
  match latin a b with
  | Some x => x = "SS" \/ (exists b', x = String a (String b' "") /\ latin a b' = None /\ upper_ascii a = a /\
                 upper_ascii b' = b' /\ a <> "_"%char /\ b' <> "_"%char /\ forall c, latin b' c = None)
  | None => True
  end.
Proof.
  destruct (latin a b) as [x|] eqn:E; [|exact I].
  assert (a = ascii_of_N 195) as ->.
  { unfold latin in E. destruct (N.eqb_spec (N_of_ascii a) 195) as [A|]; [|discriminate].
    rewrite <- A. symmetry. apply ascii_N_embedding. }
  revert E. destruct b as [[] [] [] [] [] [] [] []]; intros E; vm_compute in E; try discriminate; injection E as <-; first
    [ now left
    | right; eexists; split; [reflexivity|]; split; [reflexivity|]; split; [reflexivity|]; split; [reflexivity|];
      split; [discriminate|]; split; [discriminate|]; intros c; reflexivity ].
Qed.
Lemma latin_ascii a c : (N_of_ascii c < 128)%N -> latin a c = None.
Proof. intros H. unfold latin. destruct (N_of_ascii a =? 195)%N; [|reflexivity].
  destruct (N.eqb_spec (N_of_ascii c) 159); [lia|]. destruct (N.leb_spec 160 (N_of_ascii c)); [lia|reflexivity].
Qed.
Lemma latin_of_ascii a c : (N_of_ascii c < 128)%N -> latin c a = None.
Proof. intros H. unfold latin. destruct (N.eqb_spec (N_of_ascii c) 195); [lia|reflexivity]. Qed.
Lemma latin_upper a b : latin (upper_ascii a) b = latin a b.
Proof.
  unfold latin. replace (N_of_ascii (upper_ascii a) =? 195)%N with (N_of_ascii a =? 195)%N
    by (destruct a as [[] [] [] [] [] [] [] []]; reflexivity).
  destruct (N.eqb_spec (N_of_ascii a) 195) as [E|]; [|reflexivity].
  assert (a = ascii_of_N 195) by (rewrite <- E; symmetry; apply ascii_N_embedding). subst a. reflexivity.
Qed.
Lemma upper_ascii_idem c : upper_ascii (upper_ascii c) = upper_ascii c.
Proof. destruct c as [[] [] [] [] [] [] [] []]; reflexivity. Qed.
Lemma upper_ascii_us c : upper_ascii c = "_"%char -> c = "_"%char.
Proof. destruct c as [[] [] [] [] [] [] [] []]; intros H; vm_compute in H; congruence. Qed.

Lemma toy_two a b r : toy_upper (String a (String b r)) =
  match latin a b with Some x => x ++ toy_upper r | None => String (upper_ascii a) (toy_upper (String b r)) end.
Proof. reflexivity. Qed.

(** Induction on one or two characters at the front. *)
Lemma toy_ind (P : string -> Prop) : P "" -> (forall a, P (String a "")) ->
  (forall a b r x, latin a b = Some x -> P r -> P (String a (String b r))) ->
  (forall a b r, latin a b = None -> P (String b r) -> P (String a (String b r))) ->
  forall s, P s.
Proof.
  intros P0 P1 P2 P3. assert (H : forall n s, (String.length s <= n)%nat -> P s).
  { induction n as [|n IH]; intros [|a [|b r]] L; cbn in L; auto; try lia.
    destruct (latin a b) eqn:E; [eapply P2; eauto; apply IH; lia|apply P3; auto; apply IH; cbn; lia]. }
  intros s. now apply (H (String.length s)).
Qed.

Lemma app_assoc_s x y z : (x ++ y) ++ z = x ++ (y ++ z).
Proof. induction x as [|c x IH]; cbn; [reflexivity|now rewrite IH]. Qed.

Lemma toy_front c y : (N_of_ascii c < 128)%N -> toy_upper (String c y) = String (upper_ascii c) (toy_upper y).
Proof. intros H. destruct y as [|b y]; [reflexivity|]. now rewrite toy_two, latin_of_ascii. Qed.

Lemma toy_upper_at x c y : (N_of_ascii c < 128)%N ->
  toy_upper (x ++ String c y) = toy_upper x ++ String (upper_ascii c) (toy_upper y).
Proof.
  intros H.
  pose proof (toy_front c y H) as Hc.
  induction x as [|a|a b r z E IH|a b r E IH] using toy_ind; cbn [append].
  - exact Hc.
  - rewrite toy_two, latin_ascii, Hc by exact H. reflexivity.
  - rewrite !toy_two, E, IH. now rewrite app_assoc_s.
  - rewrite !toy_two, E. cbn [append] in IH. now rewrite IH.
Qed.

(** The first byte of the result never continues a pair that was none before. *)
Lemma toy_first a b r : latin a b = None ->
  exists b' r', toy_upper (String b r) = String b' r' /\ latin (upper_ascii a) b' = None.
Proof.
  intros E. rewrite latin_upper || idtac.
  assert (U : latin (upper_ascii a) (upper_ascii b) = None).
  { rewrite latin_upper. revert E. unfold latin. destruct (N_of_ascii a =? 195)%N; [|reflexivity].
    destruct b as [[] [] [] [] [] [] [] []]; vm_compute; congruence. }
  destruct r as [|c r]; [eexists _, _; split; [reflexivity|exact U]|]. rewrite toy_two.
  pose proof (latin_cases b c) as K. destruct (latin b c) as [x|]; [|eexists _, _; split; [reflexivity|exact U]].
  destruct K as [->|(c' & -> & _ & Ub & _)]; cbn [append]; eexists _, _; (split; [reflexivity|]).
  - now apply latin_ascii.
  - rewrite <- Ub. exact U.
Qed.

Lemma toy_upper_idem s : toy_upper (toy_upper s) = toy_upper s.
Proof.
  induction s as [|a|a b r x E IH|a b r E IH] using toy_ind.
  - reflexivity.
  - cbn. now rewrite upper_ascii_idem.
  - rewrite toy_two, E. pose proof (latin_cases a b) as K. rewrite E in K.
    destruct K as [->|(b' & -> & La & Ua & Ub & _ & _ & Lb)].
    + cbn [append]. rewrite !(toy_front "S"%char) by reflexivity. now rewrite IH.
    + cbn [append]. rewrite toy_two, La, Ua. f_equal.
      destruct (toy_upper r) as [|c q] eqn:T; [cbn; now rewrite Ub|]. rewrite toy_two, Lb, Ub. now rewrite IH.
  - rewrite toy_two, E. destruct (toy_first a b r E) as (b' & r' & T & La). rewrite T in *.
    rewrite toy_two, La, IH. now rewrite upper_ascii_idem.
Qed.

Lemma toy_upper_us s : ~ In "_"%char (list_ascii_of_string s) -> ~ In "_"%char (list_ascii_of_string (toy_upper s)).
Proof.
  induction s as [|a|a b r x E IH|a b r E IH] using toy_ind; intros N.
  - exact N.
  - cbn. intros [H|[]]. apply N. left. now apply upper_ascii_us.
  - rewrite toy_two, E. pose proof (latin_cases a b) as K. rewrite E in K. cbn in N.
    assert (N' : ~ In "_"%char (list_ascii_of_string r)) by tauto. specialize (IH N').
    destruct K as [->|(b' & -> & _ & _ & _ & Na & Nb & _)]; cbn; intuition congruence.
  - rewrite toy_two, E. cbn [list_ascii_of_string]. intros [H|H].
    + apply N. left. now apply upper_ascii_us.
    + apply IH; [|exact H]. intros I. apply N. now right.
Qed.

(** ** Any field with decidable equality gives an instance: all three groups
    are the additive group of the field, the pairing is multiplication. *)
Section OfField.
Context (K : Type) (k0 k1 : K) (kadd kmul ksub : K -> K -> K) (kopp : K -> K)
        (kdiv : K -> K -> K) (kinv : K -> K)
        (T : field_theory k0 k1 kadd kmul ksub kopp kdiv kinv (@eq K))
        (keqb : K -> K -> bool) (keqb_ok : forall x y, keqb x y = true <-> x = y)
        (khash : string -> option K) (kshow : K -> string).

Definition of_field : crypto :=
  Crypto K k0 k1 kadd kmul ksub kopp kinv keqb
         K k1 k0 kadd kopp kmul
         K k1 k0 kadd kopp kmul
         K k0 kadd kopp kmul
         kmul khash kshow toy_enc toy_dec toy_upper.

Lemma of_field_laws : laws of_field.
Proof.
  refine (Laws of_field _ keqb_ok
            (fun x => x) (fun _ _ e => e) eq_refl eq_refl
            (fun _ _ => eq_refl) (fun _ => eq_refl) (fun _ _ => eq_refl)
            (fun x => x) (fun _ _ e => e) eq_refl eq_refl
            (fun _ _ => eq_refl) (fun _ => eq_refl) (fun _ _ => eq_refl)
            (fun x => x) (fun _ _ e => e) eq_refl
            (fun _ _ => eq_refl) (fun _ => eq_refl) (fun _ _ => eq_refl)
            (fun _ _ => eq_refl) toy_ok eq_refl toy_upper_at toy_upper_idem toy_upper_us).
  destruct T as [R N D I]. constructor; auto.
Defined.

End OfField.

(** ** Integers modulo the prime 1009 *)
Local Open Scope Z_scope.

Definition p0 : Z := 1009.

Record zp : Type := Zp { zval : Z; zok : (zval mod p0 =? zval) = true }.

Lemma zp_eq (a b : zp) : zval a = zval b -> a = b.
Proof.
  destruct a as [a Ha], b as [b Hb]. cbn. intros ->. f_equal.
  apply UIP_dec. apply bool_dec.
Qed.

Lemma zmod_ok z : ((z mod p0) mod p0 =? z mod p0) = true.
Proof. apply Z.eqb_eq. now rewrite Z.mod_mod. Qed.

(** A proof that computes to [eq_refl], so that elements have small normal forms. *)
Definition canon (b : bool) : b = true -> b = true :=
  match b with true => fun _ => eq_refl | false => fun H => H end.

Definition zmk (z : Z) : zp := Zp (z mod p0) (canon _ (zmod_ok z)).

Lemma zval_mod (a : zp) : zval a mod p0 = zval a.
Proof. destruct a as [a H]. cbn. now apply Z.eqb_eq. Qed.

Lemma zmk_val a : zmk (zval a) = a.
Proof. apply zp_eq. cbn. apply zval_mod. Qed.

Lemma zmk_eq x y : x mod p0 = y mod p0 -> zmk x = zmk y.
Proof. intros H. apply zp_eq. exact H. Qed.

(** [x ^ e] modulo the prime, by squaring. *)
Fixpoint zpow (x : Z) (e : positive) : Z :=
  match e with
  | xH => x mod p0
  | xO e' => let y := zpow x e' in (y * y) mod p0
  | xI e' => let y := zpow x e' in (x * (y * y mod p0)) mod p0
  end.

Definition zadd (a b : zp) := zmk (zval a + zval b).
Definition zmul (a b : zp) := zmk (zval a * zval b).
Definition zsub (a b : zp) := zmk (zval a - zval b).
Definition zopp (a : zp) := zmk (- zval a).
Definition zinv (a : zp) := zmk (zpow (zval a) 1007).
Definition zdiv (a b : zp) := zmul a (zinv b).
Definition zeqb (a b : zp) := zval a =? zval b.

(** Enumeration of the non-zero residues; by computation each has an inverse. *)
Fixpoint check_inv (n : nat) (z : Z) : bool :=
  match n with
  | O => true
  | S k => (zpow z 1007 * z mod p0 =? 1) && check_inv k (z + 1)
  end.

Lemma check_inv_ok n : forall z, check_inv n z = true ->
  forall x, z <= x < z + Z.of_nat n -> zpow x 1007 * x mod p0 = 1.
Proof.
  induction n as [|n IH]; intros z H x Hx; [lia|].
  cbn [check_inv] in H. apply andb_prop in H as [H1 H2]. apply Z.eqb_eq in H1.
  destruct (Z.eq_dec x z) as [->|N]; [exact H1|]. apply (IH (z + 1)); [exact H2|lia].
Qed.

Lemma all_inverses x : 1 <= x < p0 -> zpow x 1007 * x mod p0 = 1.
Proof.
  intros H. apply (check_inv_ok (Z.to_nat 1008) 1); [vm_compute; reflexivity|].
  rewrite Z2Nat.id by lia. unfold p0 in H. lia.
Qed.

Lemma zval_range a : 0 <= zval a < p0.
Proof. rewrite <- (zval_mod a). apply Z.mod_pos_bound. reflexivity. Qed.

Lemma zp_field : field_theory (zmk 0) (zmk 1) zadd zmul zsub zopp zdiv zinv (@eq zp).
Proof.
  constructor.
  - constructor; intros; apply zp_eq; cbn -[Z.mul Z.add Z.modulo p0];
      try (rewrite ?Z.mod_0_l by (unfold p0; lia)).
    + now rewrite Z.add_0_l, zval_mod.
    + now rewrite Z.add_comm.
    + rewrite Z.add_mod_idemp_r, Z.add_mod_idemp_l by (unfold p0; lia). now rewrite Z.add_assoc.
    + change (1 mod p0) with 1. now rewrite Z.mul_1_l, zval_mod.
    + now rewrite Z.mul_comm.
    + rewrite Z.mul_mod_idemp_r, Z.mul_mod_idemp_l by (unfold p0; lia). now rewrite Z.mul_assoc.
    + rewrite Z.mul_mod_idemp_l by (unfold p0; lia).
      rewrite <- Z.add_mod by (unfold p0; lia). now rewrite Z.mul_add_distr_r.
    + rewrite Z.add_mod_idemp_r by (unfold p0; lia). f_equal.
    + rewrite Z.add_mod_idemp_r by (unfold p0; lia). now rewrite Z.add_opp_diag_r.
  - intros H. apply (f_equal zval) in H. discriminate.
  - reflexivity.
  - intros x Hx. apply zp_eq. cbn -[Z.mul Z.modulo p0 zpow].
    rewrite Z.mul_mod_idemp_l by (unfold p0; lia).
    change (1 mod p0) with 1. apply all_inverses.
    pose proof (zval_range x). assert (zval x <> 0); [|lia].
    intros E. apply Hx. apply zp_eq. exact E.
Qed.

Lemma zeqb_ok x y : zeqb x y = true <-> x = y.
Proof.
  unfold zeqb. rewrite Z.eqb_eq. split; [apply zp_eq|now intros ->].
Qed.

(** Toy hash: a polynomial in the character codes. *)
Fixpoint toy_hash (s : string) (acc : Z) : Z :=
  match s with
  | EmptyString => acc
  | String c r => toy_hash r ((acc * 257 + Z.of_nat (nat_of_ascii c)) mod p0)
  end.

Definition ZC : crypto :=
  of_field zp (zmk 0) (zmk 1) zadd zmul zsub zopp zinv zeqb
    (fun s => Some (zmk (toy_hash s 1))) (fun x => dec (Z.to_nat (zval x))).

Lemma ZL : laws ZC.
Proof. exact (of_field_laws _ _ _ _ _ _ _ _ _ zp_field _ zeqb_ok _ _). Defined.

(** A tape. *)
Definition ztape (seed : Z) : nat -> zp :=
  fun n => zmk (zpow 5 (Pos.of_nat (7 * n + 3)) * seed + Z.of_nat n + seed).

Lemma zusize n : zval (usize_to_fr (C := ZC) n) = Z.of_nat n mod p0.
Proof.
  induction n as [|n IH]; [reflexivity|].
  cbn [usize_to_fr]. cbn -[Z.modulo Z.of_nat p0 usize_to_fr].
  rewrite IH. change (1 mod p0) with 1.
  rewrite Z.add_mod_idemp_l by (unfold p0; lia). f_equal. lia.
Qed.

(** Small numbers are non-zero scalars. *)
Lemma Zsmall n : (n <= 1000)%nat -> small_ok ZC n.
Proof.
  intros Hn k Hk E. apply (f_equal zval) in E. rewrite zusize in E.
  rewrite Z.mod_small in E by (unfold p0; lia). cbn in E. lia.
Qed.
