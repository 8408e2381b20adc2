(** * SerdeCbor: heads of CBOR items are as short as can be; nesting *)
From Coq Require Import String Ascii List Bool Arith NArith Lia.
From Verif Require Import Base Crypto Policy Files Borsh FilesProofs Serde SerdeProofs SerdeTypes SerdeExact.
From Verif Require Yct14.
Import ListNotations.
Local Open Scope string_scope.

(** ** Specification *)

(** An array in an array, [k] times. *)
Fixpoint nest (k : nat) : val := match k with O => VNull | S k => VArr [nest k] end.

(** The number of bytes of a head; RFC 8949, section 3. *)
Definition head_size (n : N) : nat :=
  if (n <=? 23)%N then 1 else if (n <=? 255)%N then 2 else if (n <=? 65535)%N then 3
  else if (n <=? 4294967295)%N then 5 else 9.

(** ** Proofs *)

Lemma be_bytes_len k n : String.length (be_bytes k n) = k.
Proof. induction k as [|k IH]; [reflexivity|]. cbn [be_bytes String.length]. now rewrite IH. Qed.

Lemma head_length m n : String.length (head m n) = head_size n.
Proof.
  unfold head, head_size.
  destruct (N.ltb_spec n 24), (N.leb_spec n 23); try lia; [reflexivity|].
  destruct (N.ltb_spec n 256), (N.leb_spec n 255); try lia; [reflexivity|].
  destruct (N.ltb_spec n 65536), (N.leb_spec n 65535); try lia; [reflexivity|].
  destruct (N.ltb_spec n 4294967296), (N.leb_spec n 4294967295); try lia; reflexivity.
Qed.

Lemma be_read_inv k : forall acc s n r, be_read k acc s = Some (n, r) ->
  String.length s = k + String.length r /\ (n < (acc + 1) * 256 ^ N.of_nat k)%N.
Proof.
  induction k as [|k IH]; cbn [be_read]; intros acc s n r H.
  - injection H as <- <-. split; [reflexivity|]. cbn. lia.
  - destruct s as [|b s]; [discriminate|]. apply IH in H as [H1 H2]. split; [cbn; lia|].
    pose proof (N_ascii_bounded b) as B. rewrite Nat2N.inj_succ, N.pow_succ_r by lia.
    eapply N.lt_le_trans; [exact H2|]. rewrite N.mul_assoc. apply N.mul_le_mono_r. lia.
Qed.

Theorem head_shortest s m n r : get_head s = Some (m, n, r) ->
  String.length (head m n) + String.length r <= String.length s.
Proof.
  rewrite head_length. destruct s as [|b s]; cbn [get_head]; [discriminate|].
  set (i := (N_of_ascii b mod 32)%N). cbn [String.length]. intros H.
  assert (G : forall k, (k = 1 \/ k = 2 \/ k = 4 \/ k = 8)%nat ->
     bind (be_read k 0 s) (fun '(n, r') => Some ((N_of_ascii b / 32)%N, n, r')) = Some (m, n, r) ->
     head_size n + String.length r <= S (String.length s)).
  { intros k K Q. destruct (be_read k 0 s) as [[n' r']|] eqn:E; [|discriminate]. cbn [bind] in Q. injection Q as <- <- <-.
    apply be_read_inv in E as [E1 E2]. rewrite E1. rewrite N.add_0_l, N.mul_1_l in E2. unfold head_size.
    destruct K as [->|[->|[->| ->]]].
    - change (256 ^ N.of_nat 1)%N with 256%N in E2. destruct (N.leb_spec n' 23); [lia|].
      destruct (N.leb_spec n' 255); lia.
    - change (256 ^ N.of_nat 2)%N with 65536%N in E2. destruct (N.leb_spec n' 23); [lia|].
      destruct (N.leb_spec n' 255); [lia|]. destruct (N.leb_spec n' 65535); lia.
    - change (256 ^ N.of_nat 4)%N with 4294967296%N in E2. destruct (N.leb_spec n' 23); [lia|].
      destruct (N.leb_spec n' 255); [lia|]. destruct (N.leb_spec n' 65535); [lia|].
      destruct (N.leb_spec n' 4294967295); lia.
    - destruct (N.leb_spec n' 23); [lia|].
      destruct (N.leb_spec n' 255); [lia|]. destruct (N.leb_spec n' 65535); [lia|].
      destruct (N.leb_spec n' 4294967295); lia. }
  destruct (N.ltb_spec i 24).
  { injection H as _ <- <-. unfold head_size. destruct (N.leb_spec i 23); lia. }
  destruct (i =? 24)%N; [apply (G 1%nat); [tauto|exact H]|].
  destruct (i =? 25)%N; [apply (G 2%nat); [tauto|exact H]|].
  destruct (i =? 26)%N; [apply (G 4%nat); [tauto|exact H]|].
  destruct (i =? 27)%N; [apply (G 8%nat); [tauto|exact H]|discriminate].
Qed.

Lemma nest_read k : forall d r, get d (put (nest k) ++ r) = if (k <=? d)%nat then Some (nest k, r) else None.
Proof.
  induction k as [|k IH]; intros d r.
  - rewrite get_step. reflexivity.
  - cbn [nest]. rewrite put_arr. cbn [puts]. rewrite !sapp_assoc, get_step, head_back by reflexivity.
    cbn [bind]. destruct d as [|d]; [reflexivity|].
    change (N.to_nat (N.of_nat (List.length [nest k]))) with 1%nat. cbn [get_n append]. rewrite IH.
    change (S k <=? S d)%nat with (k <=? d)%nat. destruct (k <=? d)%nat; reflexivity.
Qed.

Theorem nest_limit k {A} (s : sd A) : 127 < k -> from_cbor s (put (nest k)) = Err.
Proof.
  intros H. pose proof (nest_read k max_depth "") as E. rewrite sapp_nil in E. unfold from_cbor.
  destruct (Nat.leb_spec k max_depth) as [L|L].
  - exfalso. unfold max_depth in L. lia.
  - now rewrite E.
Qed.

(** ** Other forms that are read, or not *)

Theorem text_as_bytes s : fits64 (String.length s) ->
  from_cbor s_text (put (VBytes s)) = if utf8 s then Ok s else Err.
Proof.
  intros H. rewrite from_put; [cbn [s_text de]; destruct (utf8 s); reflexivity|].
  apply (holds_mono 0); [apply Nat.le_0_l|exact H].
Qed.

Theorem bytes_as_bytes s : fits64 (String.length s) -> from_cbor s_bytes (put (VBytes s)) = Err.
Proof.
  intros H. rewrite from_put; [reflexivity|].
  apply (holds_mono 0); [apply Nat.le_0_l|exact H].
Qed.

Theorem byte_range n : (n < 18446744073709551616)%N ->
  from_cbor s_u8 (put (VU n)) = if (n <? 256)%N then Ok (ascii_of_N n) else Err.
Proof.
  intros H. rewrite from_put; [cbn [s_u8 de]; destruct (n <? 256)%N; reflexivity|].
  apply (holds_mono 0); [apply Nat.le_0_l|exact H].
Qed.

Theorem array_length {A B} M (fl : fields A) (f : B -> A) g l : holds max_depth (VArr l) ->
  List.length l <> List.length (f_names fl) -> from_cbor (s_struct M fl f g) (put (VArr l)) = Err.
Proof.
  intros H N. rewrite from_put by exact H. cbn [s_struct de pick bind].
  destruct (Nat.eqb_spec (List.length l) (List.length (f_names fl))); [contradiction|reflexivity].
Qed.

Theorem array_form {A B} (P : A -> Prop) d M (fl : fields A) (f : B -> A) g v :
  fgood P d fl -> S d <= max_depth -> (forall v, g (f v) = v) -> P (f v) -> fits64 (List.length (f_names fl)) ->
  from_cbor (s_struct M fl f g) (put (VArr (f_sers fl (f v)))) = Ok v.
Proof.
  intros G D I H Fi. rewrite from_put.
  - now rewrite (struct_array M fl f g P d v G I H).
  - apply (holds_mono (S d)); [exact D|]. destruct (G _ H) as (E & F & _). cbn [holds].
    split; [rewrite E; exact Fi|exact F].
Qed.

Theorem node_missing {C : crypto} (W : swire C) M n : wtext n ->
  from_cbor (s_yattr W M) (put (VMap [(VText "name", VText n)])) = Ok (Yct14.YAttr n None) /\
  from_cbor (s_yattr W M) (put (VMap [(VU 0, VText n)])) = Ok (Yct14.YAttr n None).
Proof.
  intros H. split; (rewrite from_put; [reflexivity|]);
    (apply (holds_mono 1); [apply leb_ok; reflexivity|]); (split; [reflexivity|]); constructor; try constructor;
    cbn [fst snd holds]; try exact H; try reflexivity. split; reflexivity.
Qed.

(** ** Enums with one value *)
Definition keyed (i : nat) (name : string) (k : val) : Prop :=
  k = VU (N.of_nat i) \/ k = VText name \/ k = VBytes name.
Lemma holds_pair k w : holds max_depth (VArr [k; w]) -> holds max_depth (VMap [(k, w)]).
Proof.
  generalize max_depth. intros [|d] H; [destruct H|]. cbn [holds List.length] in *. destruct H as [_ H]. split; [reflexivity|].
  inversion_clear H as [|? ? Hk H']. inversion_clear H' as [|? ? Hw _]. constructor; [now split|constructor].
Qed.
Section Enums.
Context {C : crypto} (W : swire C) (M : mode).
Theorem enum_public k w x : keyed 0 "Public" k -> holds max_depth (VArr [k; w]) -> de (sw_t W) w = Some x ->
  from_cbor (s_ytype W M) (put (VArr [k; w])) = Ok (Yct14.YPub x) /\
  from_cbor (s_ytype W M) (put (VMap [(k, w)])) = Ok (Yct14.YPub x).
Proof.
  intros K H D. rewrite (from_put _ _ H), (from_put _ _ (holds_pair k w H)).
  destruct K as [-> |[-> | ->]]; cbn; rewrite D; now split.
Qed.
Theorem enum_private k w x : keyed 1 "Private" k -> holds max_depth (VArr [k; w]) -> de (sw_f W) w = Some x ->
  from_cbor (s_ytype W M) (put (VArr [k; w])) = Ok (Yct14.YPriv x) /\
  from_cbor (s_ytype W M) (put (VMap [(k, w)])) = Ok (Yct14.YPriv x).
Proof.
  intros K H D. rewrite (from_put _ _ H), (from_put _ _ (holds_pair k w H)).
  destruct K as [-> |[-> | ->]]; cbn; rewrite D; now split.
Qed.
Theorem enum_other k w : ~ keyed 0 "Public" k -> ~ keyed 1 "Private" k -> holds max_depth (VArr [k; w]) ->
  from_cbor (s_ytype W M) (put (VArr [k; w])) = Err /\ from_cbor (s_ytype W M) (put (VMap [(k, w)])) = Err.
Proof.
  intros K0 K1 H. rewrite (from_put _ _ H), (from_put _ _ (holds_pair k w H)).
  assert (V : variant_no ["Public"; "Private"] k = None).
  { unfold keyed in *. destruct k as [n|s|s|l|l|]; try reflexivity; cbn [variant_no index_of List.length].
    - destruct (N.ltb_spec n (N.of_nat 2)); [|reflexivity]. exfalso.
      assert (n = N.of_nat 0 \/ n = N.of_nat 1) as [-> | ->] by lia; tauto.
    - destruct (String.eqb_spec s "Public") as [-> |_]; [tauto|]. destruct (String.eqb_spec s "Private") as [-> |_]; [tauto|reflexivity].
    - destruct (String.eqb_spec s "Public") as [-> |_]; [tauto|]. destruct (String.eqb_spec s "Private") as [-> |_]; [tauto|reflexivity]. }
  cbn [s_ytype de variant]. rewrite V. now split.
Qed.
End Enums.
Theorem lang_exact M v l : de (s_lang M) v = Some l <->
  keyed 0 "JsonPolicy" v /\ l = JsonPolicy \/ keyed 1 "HumanPolicy" v /\ l = HumanPolicy.
Proof.
  split.
  - cbn [s_lang de]. destruct (variant_no ["JsonPolicy"; "HumanPolicy"] v) as [i|] eqn:V; [|discriminate]. unfold keyed.
    destruct v as [n|s|s|a|a|]; try discriminate V; cbn [variant_no index_of List.length] in V.
    + destruct (N.ltb_spec n (N.of_nat 2)); [|discriminate]. injection V as <-.
      assert (n = N.of_nat 0 \/ n = N.of_nat 1) as [-> | ->] by lia; cbn; intros E; injection E as <-; auto.
    + destruct (String.eqb_spec s "JsonPolicy") as [-> |_]; [injection V as <-; cbn; intros E; injection E as <-; auto|].
      destruct (String.eqb_spec s "HumanPolicy") as [-> |_]; [|discriminate]. injection V as <-. intros E. injection E as <-. auto.
    + destruct (String.eqb_spec s "JsonPolicy") as [-> |_]; [injection V as <-; cbn; intros E; injection E as <-; auto|].
      destruct (String.eqb_spec s "HumanPolicy") as [-> |_]; [|discriminate]. injection V as <-. intros E. injection E as <-. auto.
  - intros [[[-> |[-> | ->]] ->]|[[-> |[-> | ->]] ->]]; reflexivity.
Qed.
