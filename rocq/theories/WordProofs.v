(** * WordProofs: attribute arguments are cut at white space (C105)

    Commands a scheme does not offer, and the words of a request. *)
From Coq Require Import String Ascii List Bool Arith NArith Lia.
From Verif Require Import Base Crypto Policy Files Borsh Console Utf8Proofs.
Import ListNotations.
Local Open Scope string_scope.
Local Open Scope N_scope.

(** ** Specification *)

(** The code points with the Unicode property White_Space. *)
Definition white (n : N) : Prop :=
  9 <= n <= 13 \/ n = 32 \/ n = 133 \/ n = 160 \/ n = 5760 \/ 8192 <= n <= 8202 \/
  n = 8232 \/ n = 8233 \/ n = 8239 \/ n = 8287 \/ n = 12288.

(** The words of a text: its longest pieces without white space. *)
Inductive words : list N -> list (list N) -> Prop :=
| words_nil : words [] []
| words_gap c l ws : white c -> words l ws -> words (c :: l) ws
| words_last w : w <> [] -> Forall (fun n => ~ white n) w -> words w [w]
| words_cons w c l ws : w <> [] -> Forall (fun n => ~ white n) w -> white c -> words l ws ->
    words (w ++ c :: l)%list (w :: ws).

(** ** Proof *)

Lemma white_dec n : white n \/ ~ white n.
Proof. unfold white. lia. Qed.

Lemma words_total l : exists ws, words l ws.
Proof.
  assert (G : forall l, exists ws, words l ws /\
    match l with c :: _ => ~ white c -> exists w r, ws = w :: r | [] => True end).
  { clear l. induction l as [|c l (ws & W & S)].
    - exists []. split; [constructor|exact I].
    - destruct (white_dec c) as [Wc|Nc].
      + exists ws. split; [now apply words_gap|tauto].
      + inversion W as [|d l' ws' Wd W'|w Nw Fw|w d l' ws' Nw Fw Wd W']; subst.
        * exists [[c]]. split; [apply words_last; [discriminate|auto]|eauto].
        * exists ([c] :: ws). split; [|eauto].
          change (c :: d :: l') with ([c] ++ d :: l')%list. apply words_cons; auto. discriminate.
        * exists [c :: l]. split; [apply words_last; [discriminate|auto]|eauto].
        * exists ((c :: w) :: ws'). split; [|eauto].
          change (c :: w ++ d :: l')%list with ((c :: w) ++ d :: l')%list.
          apply words_cons; auto. discriminate. }
  destruct (G l) as (ws & W & _). eauto.
Qed.

Lemma blank_byte n : n < 256 -> blank (byte n) = ((9 <=? n) && (n <=? 13) || (n =? 32))%bool.
Proof. intros H. unfold blank, byte. now rewrite N_ascii_embedding. Qed.

Lemma step c cur r :
  blank c = false ->
  (forall d r2, r = String d r2 -> blank2 c d = false) ->
  (forall d e r3, r = String d (String e r3) -> blank3 c d e = false) ->
  split_from cur (String c r) = split_from (cur ++ String c "") r.
Proof.
  intros B1 B2 B3. cbn [split_from]. rewrite B1. destruct r as [|d r2]; [reflexivity|].
  rewrite (B2 d r2 eq_refl). destruct r2 as [|e r3]; [reflexivity|]. now rewrite (B3 d e r3 eq_refl).
Qed.

Lemma blank_off n : n < 256 -> n <> 32 -> ~ 9 <= n <= 13 -> blank (byte n) = false.
Proof.
  intros H A B. rewrite blank_byte by exact H. apply not_true_is_false. intros X.
  apply orb_prop in X as [X|X]; [apply andb_prop in X as [X Y]; apply N.leb_le in X, Y; lia|].
  apply N.eqb_eq in X. lia.
Qed.

Lemma blank2_off n d : n < 256 -> n <> 194 -> blank2 (byte n) d = false.
Proof.
  intros H A. unfold blank2, byte. rewrite N_ascii_embedding by exact H.
  apply N.eqb_neq in A. now rewrite A.
Qed.

Lemma blank3_off n d e : n < 256 -> ~ 225 <= n <= 227 -> blank3 (byte n) d e = false.
Proof.
  intros H A. unfold blank3, byte. rewrite N_ascii_embedding by exact H.
  assert (A1 : n <> 225) by lia. assert (A2 : n <> 226) by lia. assert (A3 : n <> 227) by lia.
  apply N.eqb_neq in A1, A2, A3. now rewrite A1, A2, A3.
Qed.

(** A byte that starts no white space. *)
Lemma step_plain n cur r : n < 256 -> n <> 32 -> ~ 9 <= n <= 13 -> n <> 194 -> ~ 225 <= n <= 227 ->
  split_from cur (String (byte n) r) = split_from (cur ++ String (byte n) "") r.
Proof.
  intros. apply step; [now apply blank_off|intros; now apply blank2_off|intros; now apply blank3_off].
Qed.

Lemma sapp_assoc' (a b c : string) : (a ++ b) ++ c = a ++ b ++ c.
Proof. induction a as [|x a IH]; cbn; [reflexivity|]. now rewrite IH. Qed.

Ltac booleans :=
  repeat match goal with
  | H : (_ || _)%bool = true |- _ => apply orb_prop in H as [H|H]
  | H : (_ && _)%bool = true |- _ => apply andb_prop in H as [H ?]
  | H : (_ =? _) = true |- _ => apply N.eqb_eq in H
  | H : (_ <=? _) = true |- _ => apply N.leb_le in H
  end.

Lemma blank2_byte m n : m < 256 -> n < 256 -> blank2 (byte m) (byte n) = true ->
  m = 194 /\ (n = 133 \/ n = 160).
Proof.
  intros M N. unfold blank2, byte. rewrite !N_ascii_embedding by assumption. cbv zeta. intros H.
  booleans; auto.
Qed.

Lemma blank3_byte m n o : m < 256 -> n < 256 -> o < 256 -> blank3 (byte m) (byte n) (byte o) = true ->
  m = 225 /\ n = 154 /\ o = 128 \/
  m = 226 /\ n = 128 /\ (128 <= o <= 138 \/ o = 168 \/ o = 169 \/ o = 175) \/
  m = 226 /\ n = 129 /\ o = 159 \/ m = 227 /\ n = 128 /\ o = 128.
Proof.
  intros M N O. unfold blank3, byte. rewrite !N_ascii_embedding by assumption. cbv zeta. intros H.
  booleans; lia.
Qed.

Lemma cons_inj a b (x y : string) : String a x = String b y -> a = b /\ x = y.
Proof. intros H. injection H. auto. Qed.

Lemma step_scalar n cur s : scalar n -> ~ white n ->
  split_from cur (encode n ++ s) = split_from (cur ++ encode n) s.
Proof.
  intros Sc Nw. destruct (digits n) as (q1 & r1 & q2 & r2 & q3 & r3 & D1 & D2 & D3 & B1 & B2 & B3 & E1 & E2 & E3 & E4 & E5 & E6).
  unfold encode. rewrite E3, E5, E1, E2, E4, E6. clear E1 E2 E3 E4 E5 E6. unfold scalar in Sc. unfold white in Nw.
  destruct (N.ltb_spec n 128) as [H1|H1].
  { cbn [append]. apply step_plain; lia. }
  assert (Tail : forall x cur r, x < 64 -> split_from cur (String (byte (128 + x)) r) =
    split_from (cur ++ String (byte (128 + x)) "") r) by (intros; apply step_plain; lia).
  destruct (N.ltb_spec n 2048) as [H2|H2].
  { cbn [append]. rewrite step; cycle 1.
    - apply blank_off; lia.
    - intros d t E. apply cons_inj in E as (<- & _). apply not_true_is_false. intros X.
      apply blank2_byte in X; lia.
    - intros; apply blank3_off; lia.
    - rewrite Tail by assumption. now rewrite sapp_assoc'. }
  destruct (N.ltb_spec n 65536) as [H3|H3].
  { cbn [append]. rewrite step; cycle 1.
    - apply blank_off; lia.
    - intros; apply blank2_off; lia.
    - intros d e t E. apply cons_inj in E as (<- & E). apply cons_inj in E as (<- & _). apply not_true_is_false. intros X.
      apply blank3_byte in X; lia.
    - rewrite !Tail by assumption. now rewrite !sapp_assoc'. }
  cbn [append]. rewrite step_plain by lia. rewrite !Tail by assumption. now rewrite !sapp_assoc'.
Qed.

Lemma step_white n cur s : white n -> split_from cur (encode n ++ s) = flush cur (split_from "" s).
Proof.
  intros W. assert (X : In n [9; 10; 11; 12; 13; 32; 133; 160; 5760; 8192; 8193; 8194; 8195; 8196; 8197;
    8198; 8199; 8200; 8201; 8202; 8232; 8233; 8239; 8287; 12288]) by (unfold white in W; cbn [In]; lia).
  clear W. repeat (destruct X as [<-|X]; [reflexivity|]). destruct X.
Qed.

Lemma step_words w : Forall scalar w -> Forall (fun n => ~ white n) w -> forall cur s,
  split_from cur (encode_all w ++ s) = split_from (cur ++ encode_all w) s.
Proof.
  induction w as [|n w IH]; intros Sc Nw cur s.
  - cbn [encode_all append]. f_equal. induction cur as [|c cur IHc]; cbn; congruence.
  - inversion Sc; inversion Nw; subst. cbn [encode_all]. rewrite sapp_assoc', step_scalar, IH by assumption.
    now rewrite sapp_assoc'.
Qed.

Lemma encode_all_app a b : encode_all (a ++ b) = encode_all a ++ encode_all b.
Proof. induction a as [|n a IH]; cbn [encode_all append app]; [reflexivity|]. now rewrite IH, sapp_assoc'. Qed.

Lemma encode_nonempty n s : exists c r, encode n ++ s = String c r.
Proof.
  unfold encode. destruct (n <? 128); [cbn; eauto|]. destruct (n <? 2048); [cbn; eauto|].
  destruct (n <? 65536); cbn; eauto.
Qed.

Lemma flush_word w l : w <> [] -> flush (encode_all w) l = encode_all w :: l.
Proof.
  intros H. destruct w as [|n w]; [congruence|]. cbn [encode_all].
  destruct (encode_nonempty n (encode_all w)) as (c & r & ->). reflexivity.
Qed.

Lemma split_words l ws : words l ws -> Forall scalar l ->
  split_whitespace (encode_all l) = map encode_all ws.
Proof.
  unfold split_whitespace. induction 1 as [|c l ws Wc W IH|w Nw Fw|w c l ws Nw Fw Wc W IH]; intros Sc.
  - reflexivity.
  - inversion Sc; subst. cbn [encode_all]. rewrite step_white by exact Wc. cbn [flush]. auto.
  - replace (encode_all w) with (encode_all w ++ "") at 1.
    + rewrite step_words by assumption. cbn [append split_from]. now apply flush_word.
    + generalize (encode_all w). intros x. induction x as [|y x IHx]; cbn; congruence.
  - apply Forall_app in Sc as [Sw Sl]. inversion Sl; subst.
    rewrite encode_all_app. cbn [encode_all]. rewrite step_words by assumption. cbn [append].
    rewrite step_white by exact Wc. rewrite flush_word by exact Nw. cbn [map]. f_equal. auto.
Qed.

Lemma split_exact l : Forall scalar l ->
  exists ws, words l ws /\ split_whitespace (encode_all l) = map encode_all ws.
Proof. intros Sc. destruct (words_total l) as (ws & W). exists ws. split; [exact W|now apply split_words]. Qed.

(** ** Refused commands *)

(** The commands each scheme offers. *)
Definition offers (c : command) (s : scheme) : bool :=
  match c with
  | Setup | Keygen | Encrypt | Decrypt => true
  | Authgen => match s with AW11 | BDABE | MKE08 => true | _ => false end
  | Delegate => match s with BSW => true | _ => false end
  | ReqAttrPk | ReqAttrSk => match s with BDABE | MKE08 => true | _ => false end
  end.

Section Refuse.
Context {C : crypto} (W : env C).
Local Open Scope nat_scope.

Lemma not_offered t nonce text c m s lang d :
  offers c s = false -> run W t nonce text c m s lang d = (d, Err).
Proof.
  destruct c, s; intros H; try discriminate H; cbn [run];
    unfold run_authgen, run_delegate, run_req_attr_pk, run_req_attr_sk; try reflexivity.
  all: destruct (req_attrs m) as [|? [|? ?]]; reflexivity.
Qed.

Lemma one_word t nonce text c m s lang d args l :
  c = ReqAttrPk \/ c = ReqAttrSk -> m ATTRIBUTES = Some args ->
  Forall2 (fun a w => exists u ws, a = encode_all u /\ Forall scalar u /\ words u ws /\ w = map encode_all ws) args l ->
  (length (concat l) <> 1 -> run W t nonce text c m s lang d = (d, Err)) /\ req_attrs m = concat l.
Proof.
  intros Hc Hm Hw. assert (R : req_attrs m = concat l).
  { unfold req_attrs, attr_args. rewrite Hm. clear - Hw.
    induction Hw as [|a w args l (u & ws & -> & Sc & Ws & ->) _ IH]; [reflexivity|].
    cbn [flat_map concat]. now rewrite IH, (split_words u ws). }
  split; [|exact R]. intros Hn.
  destruct Hc as [-> | ->]; cbn [run]; unfold run_req_attr_pk, run_req_attr_sk; rewrite R;
    destruct (concat l) as [|? [|? ?]]; try reflexivity; cbn in Hn; congruence.
Qed.
End Refuse.

(** ** The last character *)

Lemma lead q k : 192 <= q -> q + k < 256 -> between 128 191 (byte (q + k)) = false.
Proof. intros A B. apply off_range; [exact B|right]. change (N.of_nat 191) with 191. lia. Qed.

Lemma starts_afresh n : scalar n -> continues (encode n) = false.
Proof.
  intros H. unfold scalar in H. unfold encode.
  destruct (N.ltb_spec n 128); [cbn [continues]; rewrite off_range by lia; reflexivity|].
  destruct (N.ltb_spec n 2048).
  { assert (n / 64 < 32) by (apply N.div_lt_upper_bound; lia). cbn [continues].
    rewrite lead; [reflexivity|discriminate|lia]. }
  destruct (N.ltb_spec n 65536).
  { assert (n / 4096 < 16) by (apply N.div_lt_upper_bound; lia). cbn [continues].
    rewrite lead; [reflexivity|discriminate|lia]. }
  assert (n / 262144 < 5) by (apply N.div_lt_upper_bound; lia).
  cbn [continues]. rewrite lead; [reflexivity|discriminate|lia].
Qed.

Lemma continues_app x y : continues (x ++ y) = (continues x && continues y)%bool.
Proof. induction x as [|b x IH]; cbn [append continues]; [reflexivity|]. now rewrite IH, andb_assoc. Qed.

Ltac mods n :=
  change (N.of_nat 128) with 128; change (N.of_nat 191) with 191;
  assert (n mod 64 < 64) by (apply N.mod_lt; discriminate);
  assert ((n / 64) mod 64 < 64) by (apply N.mod_lt; discriminate);
  assert ((n / 4096) mod 64 < 64) by (apply N.mod_lt; discriminate);
  repeat match goal with |- context [?x mod 64] => generalize dependent (x mod 64); intros end; lia.
Theorem pop_last x n : scalar n -> pop (x ++ encode n) = x.
Proof.
  intros H. induction x as [|b x IH]; cbn [append pop].
  - unfold encode. destruct (n <? 128); [reflexivity|].
    destruct (n <? 2048); [|destruct (n <? 65536)]; cbn [pop continues].
    + rewrite in_range; [reflexivity| |]; mods n.
    + rewrite !in_range; [reflexivity| | | |]; mods n.
    + rewrite !in_range; [reflexivity| | | | | |]; mods n.
  - rewrite continues_app, starts_afresh, andb_false_r by exact H. now rewrite IH.
Qed.

Lemma pop_ct doc : pop (pop (pop (doc ++ ".ct"))) = doc.
Proof.
  assert (A : forall x y z : string, x ++ (y ++ z) = (x ++ y) ++ z)
    by (induction x; cbn; intros; [reflexivity|now rewrite IHx]).
  change ".ct" with (encode 46 ++ (encode 99 ++ encode 116)). rewrite !A.
  now rewrite !pop_last by (left; reflexivity).
Qed.
