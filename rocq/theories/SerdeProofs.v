(** * SerdeProofs: what is written under the feature "serde" is read back *)
From Coq Require Import String Ascii List Bool Arith NArith ZArith Lia ZifyN ZifyNat Permutation.
From Verif Require Import Base Crypto Policy Tools Sharing Spec Parse ParseProofs Files FilesProofs Borsh BorshProofs Serde.
Import ListNotations.
Local Open Scope string_scope.

(** ** Specification *)

(** What fits a length, and texts that Rust can hold. *)
Definition fits64 (n : nat) : Prop := (N.of_nat n < 18446744073709551616)%N.
Definition wtext (s : string) : Prop := utf8 s = true /\ fits64 (String.length s).
Definition wbytes (s : string) : Prop := fits64 (String.length s).
Definition wall {A} (P : A -> Prop) (l : list A) : Prop := fits64 (List.length l) /\ Forall P l.
Definition wlen {A} (l : list A) : Prop := fits64 (List.length l).

(** Values that CBOR can hold with at most [d] arrays and maps open at once. *)
Fixpoint holds (d : nat) (v : val) : Prop :=
  match v with
  | VU n => (n < 18446744073709551616)%N
  | VBytes s => fits64 (String.length s)
  | VText s => wtext s
  | VArr l => match d with
              | O => False
              | S d => fits64 (List.length l) /\ Forall (holds d) l
              end
  | VMap l => match d with
              | O => False
              | S d => fits64 (List.length l) /\ Forall (fun e => holds d (fst e) /\ holds d (snd e)) l
              end
  | VNull => True
  end.

(** Values satisfying [P] have a form that CBOR can hold in depth [d] and are
    found again in it. *)
Definition sgood {A} (P : A -> Prop) (d : nat) (s : sd A) : Prop :=
  forall v, P v -> holds d (ser s v) /\ de s (ser s v) = Some v.

(** The forms of rabe_bn do so for all elements, and are not deep. *)
Definition swire_ok {C : crypto} (W : swire C) : Prop :=
  sgood (fun _ => True) 64 (sw_f W) /\ sgood (fun _ => True) 64 (sw_1 W) /\
  sgood (fun _ => True) 64 (sw_2 W) /\ sgood (fun _ => True) 64 (sw_t W).

(** A value is read back from its own bytes. *)
Definition back {A} (s : sd A) (v : A) : Prop := from_cbor s (to_cbor s v) = Ok v.

(** ** Numbers and heads *)

Lemma be_back k : forall n acc r, (n < 256 ^ N.of_nat k)%N ->
  be_read k acc (be_bytes k n ++ r) = Some (acc * 256 ^ N.of_nat k + n, r)%N.
Proof.
  (* for all n, reading adds the low k bytes *)
  assert (G : forall k n acc r,
    be_read k acc (be_bytes k n ++ r) = Some (acc * 256 ^ N.of_nat k + n mod 256 ^ N.of_nat k, r)%N).
  { clear k. induction k as [|k IH]; intros n acc r.
    - cbn. rewrite N.mod_1_r. f_equal. f_equal. lia.
    - cbn [be_bytes be_read]. cbn [append]. rewrite IH.
      rewrite N_ascii_embedding by (apply N.mod_lt; discriminate).
      f_equal. f_equal. rewrite Nat2N.inj_succ, N.pow_succ_r'.
      set (p := (256 ^ N.of_nat k)%N).
      assert (P : p <> 0%N) by (apply N.pow_nonzero; discriminate).
      replace (256 * p)%N with (p * 256)%N by lia.
      rewrite (N.mod_mul_r n p 256) by (auto; discriminate). lia. }
  intros n acc r H. rewrite G, N.mod_small by exact H. reflexivity.
Qed.

Lemma be_read_app k : forall acc s n r t, be_read k acc s = Some (n, r) ->
  be_read k acc (s ++ t) = Some (n, r ++ t).
Proof.
  induction k as [|k IH]; cbn; intros acc s n r t H.
  - injection H as <- <-. reflexivity.
  - destruct s as [|b s]; [discriminate|]. cbn. now apply IH.
Qed.

Lemma get_head_first i r : (i < 256)%N -> get_head (String (ascii_of_N i) r) =
  let major := (i / 32)%N in let info := (i mod 32)%N in
  let long k := bind (be_read k 0 r) (fun '(n, r') => Some (major, n, r')) in
      if (info <? 24)%N then Some (major, info, r)
      else if (info =? 24)%N then long 1%nat
      else if (info =? 25)%N then long 2%nat
      else if (info =? 26)%N then long 4%nat
      else if (info =? 27)%N then long 8%nat
      else None.
Proof. intros H. unfold get_head. now rewrite N_ascii_embedding. Qed.

Lemma div32 m i : (i < 32)%N -> ((32 * m + i) / 32 = m)%N.
Proof. intros H. symmetry. apply (N.div_unique _ _ _ i); lia. Qed.
Lemma mod32 m i : (i < 32)%N -> ((32 * m + i) mod 32 = i)%N.
Proof. intros H. symmetry. apply (N.mod_unique _ _ m); lia. Qed.

Lemma head_back m n r : (m < 8)%N -> (n < 18446744073709551616)%N ->
  get_head (head m n ++ r) = Some (m, n, r).
Proof.
  intros M N. unfold head.
  destruct (N.ltb_spec n 24).
  { cbn [append]. rewrite get_head_first by lia. cbv zeta. rewrite div32, mod32 by lia.
    destruct (N.ltb_spec n 24); [reflexivity|lia]. }
  assert (G : forall i k, (i = 24 /\ k = 1%nat \/ i = 25 /\ k = 2%nat \/ i = 26 /\ k = 4%nat \/ i = 27 /\ k = 8%nat)%N ->
    (n < 256 ^ N.of_nat k)%N ->
    get_head ((String (ascii_of_N (32 * m + i)) "" ++ be_bytes k n) ++ r) = Some (m, n, r)).
  { intros i k C B. cbn [append]. rewrite get_head_first by (destruct C as [[-> _]|[[-> _]|[[-> _]|[-> _]]]]; lia).
    cbv zeta. rewrite div32, mod32 by (destruct C as [[-> _]|[[-> _]|[[-> _]|[-> _]]]]; lia).
    destruct C as [[-> ->]|[[-> ->]|[[-> ->]|[-> ->]]]]; cbn [N.ltb N.eqb N.compare Pos.compare Pos.compare_cont Pos.eqb];
      rewrite be_back by exact B; cbn [bind]; rewrite N.mul_0_l, N.add_0_l; reflexivity. }
  destruct (N.ltb_spec n 256).
  { apply (G 24%N 1%nat); [auto|exact H0]. }
  destruct (N.ltb_spec n 65536).
  { apply (G 25%N 2%nat); [auto|exact H1]. }
  destruct (N.ltb_spec n 4294967296).
  { apply (G 26%N 4%nat); [auto|exact H2]. }
  apply (G 27%N 8%nat); [auto 6|exact N].
Qed.

Lemma get_head_app s m n r t : get_head s = Some (m, n, r) -> get_head (s ++ t) = Some (m, n, r ++ t).
Proof.
  destruct s as [|b s]; cbn [get_head append]; [discriminate|]. intros H.
  repeat match goal with
  | H : (if ?b then _ else _) = _ |- _ => destruct b
  | H : bind (be_read ?k 0 s) _ = _ |- _ =>
      let E := fresh in destruct (be_read k 0 s) as [[? ?]|] eqn:E; [|discriminate];
      rewrite (be_read_app _ _ _ _ _ t E); cbn [bind] in H |- *
  end; try discriminate; injection H as <- <- <-; reflexivity.
Qed.

(** ** Reading what was written *)

Lemma split_back s r : split_at (N.of_nat (String.length s)) (s ++ r) = Some (s, r).
Proof.
  unfold split_at. rewrite slen_app, !Nat2N.id.
  destruct (N.leb_spec (N.of_nat (String.length s)) (N.of_nat (String.length s + String.length r))); [|lia].
  rewrite substring_front. f_equal. f_equal.
  replace (String.length s + String.length r - String.length s)%nat with (String.length r) by lia.
  induction s as [|c s IH]; cbn; [|apply IH; lia].
  clear. induction r as [|c r IH]; cbn; [reflexivity|]. now rewrite IH.
Qed.

Definition puts (l : list val) : string :=
  (fix all (l : list val) := match l with [] => "" | x :: l => put x ++ all l end) l.
Definition put2s (l : list (val * val)) : string :=
  (fix all (l : list (val * val)) := match l with [] => "" | (k, x) :: l => put k ++ put x ++ all l end) l.

Lemma sapp_assoc (a b c : string) : (a ++ b) ++ c = a ++ b ++ c.
Proof. induction a; cbn; congruence. Qed.

Lemma get_puts g l r : Forall (fun v => forall r, g (put v ++ r) = Some (v, r)) l ->
  get_n g (List.length l) (puts l ++ r) = Some (l, r).
Proof.
  induction 1 as [|v l H _ IH]; [reflexivity|].
  cbn [List.length get_n puts]. fold (puts l). rewrite sapp_assoc, H. cbn [bind]. now rewrite IH.
Qed.
Lemma get_put2s g l r :
  Forall (fun e => (forall r, g (put (fst e) ++ r) = Some (fst e, r)) /\
                   (forall r, g (put (snd e) ++ r) = Some (snd e, r))) l ->
  get_pairs g (List.length l) (put2s l ++ r) = Some (l, r).
Proof.
  induction 1 as [|[k v] l [H1 H2] _ IH]; [reflexivity|].
  cbn [List.length get_pairs put2s fst snd] in *. fold (put2s l).
  rewrite !sapp_assoc, H1. cbn [bind]. rewrite H2. cbn [bind]. now rewrite IH.
Qed.

Lemma put_arr l : put (VArr l) = head 4 (N.of_nat (List.length l)) ++ puts l.
Proof. reflexivity. Qed.
Lemma put_map l : put (VMap l) = head 5 (N.of_nat (List.length l)) ++ put2s l.
Proof. reflexivity. Qed.

Lemma get_step d s : get d s =
  bind (get_head s) (fun '(major, n, r) =>
  match major with
  | 0%N => Some (VU n, r)
  | 2%N => bind (split_at n r) (fun '(v, r') => Some (VBytes v, r'))
  | 3%N => bind (split_at n r) (fun '(v, r') => if utf8 v then Some (VText v, r') else None)
  | 4%N => match d with
           | O => None
           | S d => bind (get_n (get d) (N.to_nat n) r) (fun '(l, r') => Some (VArr l, r'))
           end
  | 5%N => match d with
           | O => None
           | S d => bind (get_pairs (get d) (N.to_nat n) r) (fun '(l, r') => Some (VMap l, r'))
           end
  | 7%N => if (n =? 22)%N then Some (VNull, r) else None
  | _ => None
  end).
Proof. destruct d; reflexivity. Qed.

Theorem put_back d : forall v r, holds d v -> get d (put v ++ r) = Some (v, r).
Proof.
  induction d as [|d IH]; intros v r H; destruct v as [n|s|s|l|l|];
    rewrite ?put_arr, ?put_map; try (cbn [holds] in H; destruct H; fail);
    rewrite get_step.
  all: try (cbn [put]; rewrite ?sapp_assoc, head_back;
    [ cbn [bind]; rewrite ?split_back; cbn [bind]; try reflexivity
    | reflexivity | cbn [holds] in H; unfold wtext, fits64 in H; first [exact H | exact (proj2 H) | reflexivity] ]).
  all: try (cbn [holds] in H; now rewrite (proj1 H)).
  - cbn [holds] in H. destruct H as [F H].
    rewrite sapp_assoc, head_back; [|reflexivity|exact F]. cbn [bind].
    rewrite Nat2N.id, get_puts; [reflexivity|]. revert H. apply Forall_impl. auto.
  - cbn [holds] in H. destruct H as [F H].
    rewrite sapp_assoc, head_back; [|reflexivity|exact F]. cbn [bind].
    rewrite Nat2N.id, get_put2s; [reflexivity|]. revert H. apply Forall_impl.
    intros e [A B]. auto.
Qed.

Lemma holds_mono d : forall e v, (d <= e)%nat -> holds d v -> holds e v.
Proof.
  induction d as [|d IH]; intros e v D H; destruct v as [n|s|s|l|l|];
    try (destruct e; exact H); try (cbn [holds] in H; destruct H; fail).
  - destruct e as [|e]; [lia|]. cbn [holds] in *. destruct H as [F H]. split; [exact F|].
    revert H. apply Forall_impl. intros x. apply IH. lia.
  - destruct e as [|e]; [lia|]. cbn [holds] in *. destruct H as [F H]. split; [exact F|].
    revert H. apply Forall_impl. intros x [A B]. split; revert A B; intros A B; apply IH; auto; lia.
Qed.

Lemma sgood_mono {A} (P Q : A -> Prop) d e s : sgood P d s -> (d <= e)%nat -> (forall v, Q v -> P v) -> sgood Q e s.
Proof. intros G D I v q. destruct (G v (I v q)) as [H E]. split; [now apply (holds_mono d)|exact E]. Qed.

Lemma sgood_back {A} (P : A -> Prop) d s v : sgood P d s -> (d <= max_depth)%nat -> P v -> back s v.
Proof.
  intros G D p. unfold back, from_cbor, to_cbor.
  destruct (G v p) as [H E].
  pose proof (put_back _ _ "" (holds_mono _ _ _ D H)) as B. rewrite sapp_nil in B. now rewrite B, E.
Qed.

(** ** The building blocks *)

Lemma text_sgood : sgood wtext 0 s_text.
Proof. intros v H. split; [exact H|reflexivity]. Qed.

Lemma u8_sgood : sgood (fun _ => True) 0 s_u8.
Proof.
  intros b _. split.
  - cbn. pose proof (N_ascii_bounded b). lia.
  - cbn. pose proof (N_ascii_bounded b). destruct (N.ltb_spec (N_of_ascii b) 256); [|lia].
    now rewrite ascii_N_embedding.
Qed.

Lemma de_all_back {A} (s : sd A) l : Forall (fun v => de s (ser s v) = Some v) l ->
  de_all s (map (ser s) l) = Some l.
Proof. induction 1 as [|v l E _ IH]; [reflexivity|]. cbn. now rewrite E, IH. Qed.

Lemma list_sgood {A} (P : A -> Prop) d s : sgood P d s -> sgood (wall P) (S d) (s_list s).
Proof.
  intros G l [F H]. cbn [s_list ser de]. split.
  - cbn [holds]. rewrite map_length. split; [exact F|]. apply Forall_map. revert H.
    apply Forall_impl. intros v p. apply (G v p).
  - apply de_all_back. revert H. apply Forall_impl. intros v p. apply (G v p).
Qed.

Lemma lascii_len s : List.length (list_ascii_of_string s) = String.length s.
Proof. induction s; cbn; congruence. Qed.

Lemma bytes_sgood : sgood wbytes 1 s_bytes.
Proof.
  intros s H. destruct (list_sgood _ _ _ u8_sgood (list_ascii_of_string s)) as [A B].
  { split; [rewrite lascii_len; exact H|]. apply Forall_forall. auto. }
  split; [exact A|]. cbn [s_bytes ser de]. rewrite B. cbn. now rewrite string_of_list_ascii_of_string.
Qed.

Lemma option_sgood {A} (P : A -> Prop) d s : sgood P d s -> (forall v, ser s v <> VNull) ->
  sgood (fun o => match o with None => True | Some v => P v end) d (s_option s).
Proof.
  intros G N [v|] H; cbn [s_option ser de].
  - destruct (G v H) as [X Y]. split; [exact X|]. specialize (N v).
    destruct (ser s v); try (rewrite Y; reflexivity). now destruct N.
  - split; [destruct d; exact I|reflexivity].
Qed.

(** Tuples. *)
Definition pgood {A} (P : A -> Prop) (d : nat) (p : parts A) : Prop :=
  forall v, P v -> List.length (p_sers p v) = p_count p /\ Forall (holds d) (p_sers p v) /\ p_des p (p_sers p v) = Some v.
Lemma one_pgood {A} (P : A -> Prop) d s : sgood P d s -> pgood P d (t_one s).
Proof. intros G v p. destruct (G v p) as [A1 B]. cbn. auto. Qed.
Lemma and_pgood {A B} (P : A -> Prop) (Q : B -> Prop) d a b : pgood P d a -> pgood Q d b ->
  pgood (fun v => P (fst v) /\ Q (snd v)) d (t_and a b).
Proof.
  intros G K [x y] [p q]. cbn [fst snd] in *.
  destruct (G x p) as (L1 & F1 & D1). destruct (K y q) as (L2 & F2 & D2).
  cbn [t_and p_sers p_des p_count fst snd]. repeat split.
  - rewrite app_length. congruence.
  - apply Forall_app. auto.
  - rewrite <- L1, firstn_app, Nat.sub_diag, firstn_all, firstn_O, app_nil_r, D1. cbn [bind].
    rewrite skipn_app, Nat.sub_diag, skipn_all, skipn_O. cbn [app]. now rewrite D2.
Qed.
Lemma tuple_sgood {A B} (P : A -> Prop) d p (f : B -> A) g : pgood P d p -> fits64 (p_count p) ->
  (forall v, g (f v) = v) -> sgood (fun v => P (f v)) (S d) (s_tuple p f g).
Proof.
  intros G F I v H. destruct (G _ H) as (L & H1 & H2). cbn [s_tuple ser de]. split.
  - cbn [holds]. rewrite L. auto.
  - rewrite H2. cbn. now rewrite I.
Qed.

(** Structs. *)
Definition fgood {A} (P : A -> Prop) (d : nat) (fl : fields A) : Prop :=
  forall v, P v -> List.length (f_sers fl v) = List.length (f_names fl) /\ Forall (holds d) (f_sers fl v) /\ f_des fl (map Some (f_sers fl v)) = Some v.
Lemma one_fgood {A} (P : A -> Prop) d n s : sgood P d s -> fgood P d (f_one n s).
Proof. intros G v p. destruct (G v p) as [A1 B]. cbn. auto. Qed.
Lemma and_fgood {A B} (P : A -> Prop) (Q : B -> Prop) d a b : fgood P d a -> fgood Q d b ->
  fgood (fun v => P (fst v) /\ Q (snd v)) d (f_and a b).
Proof.
  intros G K [x y] [p q]. cbn [fst snd] in *.
  destruct (G x p) as (L1 & F1 & D1). destruct (K y q) as (L2 & F2 & D2).
  cbn [f_and f_sers f_des f_names fst snd]. repeat split.
  - rewrite !app_length. congruence.
  - apply Forall_app. auto.
  - rewrite <- L1, map_app, firstn_app, map_length, Nat.sub_diag, firstn_O, app_nil_r.
    rewrite <- (map_length Some) at 1. rewrite firstn_all, D1. cbn [bind].
    rewrite skipn_app, map_length, Nat.sub_diag, skipn_O.
    rewrite <- (map_length Some) at 1. rewrite skipn_all. cbn [app]. now rewrite D2.
Qed.

(** Names of fields that are told apart. *)
Fixpoint distinct (l : list string) : bool :=
  match l with [] => true | x :: l => negb (existsb (String.eqb x) l) && distinct l end.
Definition names_ok (l : list string) : bool :=
  distinct l && forallb utf8 l && forallb (fun n => (N.of_nat (String.length n) <? 18446744073709551616)%N) l
  && (N.of_nat (List.length l) <? 18446744073709551616)%N.

Lemma distinct_NoDup l : distinct l = true -> NoDup l.
Proof.
  induction l as [|x l IH]; cbn; intros H; [constructor|].
  apply andb_prop in H as [H1 H2]. constructor; [|auto]. intros I.
  apply Bool.negb_true_iff in H1. rewrite <- Bool.not_true_iff_false in H1. apply H1.
  apply existsb_exists. exists x. split; [exact I|apply String.eqb_refl].
Qed.

Lemma index_of_mid n a b : ~ In n a -> index_of n (a ++ n :: b) = Some (List.length a).
Proof.
  induction a as [|x a IH]; cbn; intros H.
  - now rewrite String.eqb_refl.
  - destruct (String.eqb_spec n x) as [->|]; [destruct H; auto|]. rewrite IH by tauto. reflexivity.
Qed.

Lemma fill_mid v a b i : i = List.length a -> fill i v (a ++ None :: b) = Some (a ++ Some v :: b)%list.
Proof.
  intros ->. induction a as [|x a IH]; cbn; [reflexivity|].
  rewrite IH. destruct x; reflexivity.
Qed.

Lemma which_key M a n b : NoDup (a ++ n :: b)%list ->
  which (a ++ n :: b)%list (field_key M (List.length a) n) = Some (Some (List.length a)).
Proof.
  intros N. unfold field_key. destruct (packed M); cbn.
  - rewrite app_length. cbn [List.length].
    destruct (N.ltb_spec (N.of_nat (List.length a)) (N.of_nat (List.length a + S (List.length b)))); [|lia].
    now rewrite Nat2N.id.
  - rewrite index_of_mid; [reflexivity|]. apply NoDup_remove_2 in N. intros I. apply N, in_app_iff. auto.
Qed.

Lemma gather_keyed M : forall b a (va vb : list val), NoDup (a ++ b) ->
  List.length va = List.length a -> List.length vb = List.length b ->
  gather (a ++ b) (keyed M (List.length a) b vb) (map Some va ++ map (fun _ => None) b) =
  Some (map Some (va ++ vb)%list).
Proof.
  induction b as [|n b IH]; intros a va vb N La Lb; destruct vb as [|v vb]; try discriminate.
  - cbn. rewrite !app_nil_r. reflexivity.
  - cbn [keyed gather]. rewrite which_key by exact N. cbn [bind map].
    rewrite fill_mid by now rewrite map_length. cbn [bind].
    specialize (IH (a ++ [n])%list (va ++ [v])%list vb).
    rewrite <- !app_assoc in IH. cbn [app] in IH. rewrite map_app in IH. cbn [map] in IH.
    rewrite <- app_assoc in IH. cbn [app] in IH.
    rewrite !app_length in IH. cbn [List.length] in IH.
    replace (List.length a + 1)%nat with (S (List.length a)) in IH by lia.
    apply IH; auto; try lia; cbn in Lb; lia.
Qed.

Lemma keyed_len M : forall names vs i, List.length vs = List.length names ->
  List.length (keyed M i names vs) = List.length names.
Proof. induction names as [|n names IH]; intros [|v vs] i L; cbn in *; try discriminate; auto. Qed.

Lemma keyed_holds M d : forall names vs i, Forall (holds d) vs ->
  Forall wtext names -> (N.of_nat (i + List.length names) < 18446744073709551616)%N ->
  Forall (fun e => holds d (fst e) /\ holds d (snd e)) (keyed M i names vs).
Proof.
  induction names as [|n names IH]; intros vs i H T B; destruct vs as [|v vs]; cbn [keyed]; try constructor.
  - cbn [fst snd]. split; [|now inversion H]. unfold field_key. inversion T; subst. cbn in B.
    destruct (packed M), d; cbn [holds]; auto; lia.
  - inversion H; inversion T; subst. apply IH; auto. cbn in B. lia.
Qed.

Lemma names_ok_split l : names_ok l = true -> NoDup l /\ Forall wtext l /\ fits64 (List.length l).
Proof.
  unfold names_ok. intros H. apply andb_prop in H as [H H4]. apply andb_prop in H as [H H3].
  apply andb_prop in H as [H1 H2]. split; [now apply distinct_NoDup|]. split.
  - apply Forall_forall. intros x I. split.
    + exact (proj1 (forallb_forall _ _) H2 x I).
    + apply N.ltb_lt. exact (proj1 (forallb_forall _ _) H3 x I).
  - now apply N.ltb_lt.
Qed.

Lemma struct_sgood {A B} M (P : A -> Prop) d fl (f : B -> A) g : fgood P d fl ->
  names_ok (f_names fl) = true -> (forall v, g (f v) = v) ->
  sgood (fun v => P (f v)) (S d) (s_struct M fl f g).
Proof.
  intros G N I v H. destruct (G _ H) as (L & F & D). apply names_ok_split in N as (N1 & N2 & N3).
  cbn [s_struct ser de]. split.
  - cbn [holds]. rewrite keyed_len by exact L. split; [exact N3|].
    apply keyed_holds; auto.
  - cbn [pick]. pose proof (gather_keyed M (f_names fl) [] [] (f_sers fl (f v)) N1 eq_refl L) as E.
    cbn [app map List.length] in E. rewrite E. cbn [bind]. rewrite D. cbn. now rewrite I.
Qed.

Lemma lang_sgood M : sgood (fun _ => True) 0 (s_lang M).
Proof.
  intros [] _; cbn [s_lang ser de]; unfold field_key; destruct (packed M); (split; [|reflexivity]);
    first [reflexivity | split; reflexivity].
Qed.

Lemma policy_sgood M : sgood (fun p => wtext (fst p)) 1 (s_policy M).
Proof.
  apply (sgood_mono (fun p => wtext (fst p) /\ True) _ 1 1).
  - apply (tuple_sgood (fun p => wtext (fst p) /\ True) 0); [|reflexivity|reflexivity].
    apply (and_pgood wtext (fun _ => True)); apply one_pgood; [exact text_sgood|exact (lang_sgood M)].
  - lia.
  - auto.
Qed.

Lemma holds_map1 d k v : holds d k -> holds d v -> holds (S d) (VMap [(k, v)]).
Proof. intros H K. cbn [holds]. split; [reflexivity|]. constructor; [|constructor]. split; assumption. Qed.
