(** * FfiProofs: the C interface of BSW *)
From Coq Require Import String Ascii List Bool Arith NArith Lia.
From Verif Require Import Base Crypto Policy Tools Sharing Spec PolicyProofs Poly SharingProofs
  Symmetric Parse SchemeLib Files Bsw BswProofs Sessions SessionProofs Gcm PrimitiveProofs Ffi.
Import ListNotations.
Local Open Scope string_scope.
Local Open Scope nat_scope.

(** ** Specification *)

(** The byte [b] does not occur in [s]. *)
Fixpoint lacks (b : ascii) (s : string) : bool :=
  match s with EmptyString => true | String c r => negb (Ascii.eqb c b) && lacks b r end.

(** The texts [l] with a comma between any two. *)
Definition comma_join (l : list string) : string := String.concat "," l.

(** The text [s] as a C caller hands it over: a NUL, and after it anything. *)
Definition c_text (s m : string) : string := (s ++ String zero m)%string.

Section Spec.
Context {C : crypto}.
(** The JSON text of the ciphertext [ct] is read back, is UTF-8, has no NUL, and
    with a NUL its length fits in 32 bits. *)
Definition carries (J : jwire C) (ct : bsw_ct C) : Prop :=
  js_dec J (js_enc J ct) = Some ct /\ utf8 (js_enc J ct) = true /\
  lacks zero (js_enc J ct) = true /\ (N.of_nat (String.length (js_enc J ct)) + 1 < 4294967296)%N.
End Spec.

(** ** Texts *)
Lemma c_str_text s m : lacks zero s = true -> c_str (c_text s m) = Ret s.
Proof.
  unfold c_text. induction s as [|b s IH]; intros H; [reflexivity|].
  cbn [lacks] in H. apply andb_true_iff in H as [Hb Hs]. apply negb_true_iff in Hb.
  cbn [String.append c_str]. now rewrite Hb, (IH Hs).
Qed.

Lemma c_str_inv p s : c_str p = Ret s -> lacks zero s = true /\ exists m, p = c_text s m.
Proof.
  revert s. induction p as [|b p IH]; intros s H; [discriminate|]. cbn [c_str] in H.
  destruct (Ascii.eqb_spec b zero) as [->|Nb].
  - injection H as <-. split; [reflexivity|now exists p].
  - destruct (c_str p) as [r| |] eqn:E; cbn [cbind] in H; try discriminate. injection H as <-.
    destruct (IH r eq_refl) as [L (m & ->)]. split; [|now exists m].
    cbn [lacks]. apply Ascii.eqb_neq in Nb. now rewrite Nb, L.
Qed.

Lemma append_nil s : (s ++ "" = s)%string.
Proof. induction s as [|b s IH]; [reflexivity|]. cbn. now rewrite IH. Qed.
Lemma append_app a b c : ((a ++ b) ++ c = a ++ (b ++ c))%string.
Proof. induction a as [|x a IH]; [reflexivity|]. cbn. now rewrite IH. Qed.

Lemma comma_from_lacks cur s : lacks "," s = true -> comma_from cur s = [(cur ++ s)%string].
Proof.
  revert cur. induction s as [|b s IH]; intros cur H; [now rewrite append_nil|].
  cbn [lacks] in H. apply andb_true_iff in H as [Hb Hs]. apply negb_true_iff in Hb.
  cbn [comma_from]. rewrite Hb, (IH _ Hs), append_app. reflexivity.
Qed.

Lemma comma_from_comma cur s r : lacks "," s = true ->
  comma_from cur (s ++ String "," r) = (cur ++ s)%string :: comma_from "" r.
Proof.
  revert cur. induction s as [|b s IH]; intros cur H; [now rewrite append_nil|].
  cbn [lacks] in H. apply andb_true_iff in H as [Hb Hs]. apply negb_true_iff in Hb.
  cbn [String.append comma_from]. rewrite Hb, (IH _ Hs), append_app. reflexivity.
Qed.

Lemma comma_split_join l : l <> [] -> Forall (fun a => lacks "," a = true) l ->
  comma_split (comma_join l) = l.
Proof.
  unfold comma_split, comma_join. intros Ne H. destruct H as [|a l Ha Hl]; [congruence|]. clear Ne.
  revert a Ha. induction Hl as [|b l Hb Hl IH]; intros a Ha.
  - cbn [String.concat]. now rewrite comma_from_lacks.
  - change (String.concat "," (a :: b :: l)) with (a ++ String "," (String.concat "," (b :: l)))%string.
    rewrite comma_from_comma by exact Ha. now rewrite IH.
Qed.

Lemma comma_from_facts cur s : lacks "," cur = true ->
  comma_from cur s <> [] /\ Forall (fun a => lacks "," a = true) (comma_from cur s) /\
  comma_join (comma_from cur s) = (cur ++ s)%string.
Proof.
  unfold comma_join. revert cur. induction s as [|b s IH]; intros cur H.
  - rewrite append_nil. split; [discriminate|]. split; [now constructor|reflexivity].
  - cbn [comma_from]. destruct (Ascii.eqb_spec b ",") as [->|Nb].
    + destruct (IH "" eq_refl) as (N1 & F1 & J1). split; [discriminate|]. split; [now constructor|].
      destruct (comma_from "" s) as [|x l] eqn:E; [congruence|].
      change (String.concat "," (cur :: x :: l)) with (cur ++ String "," (String.concat "," (x :: l)))%string.
      now rewrite J1.
    + assert (H' : lacks "," (cur ++ String b "") = true).
      { clear - H Nb. apply Ascii.eqb_neq in Nb. induction cur as [|c cur IHc]; cbn [String.append lacks] in *.
        - now rewrite Nb.
        - apply andb_true_iff in H as [Hc Hcur]. now rewrite Hc, (IHc Hcur). }
      destruct (IH _ H') as (N1 & F1 & J1). split; [exact N1|]. split; [exact F1|].
      now rewrite J1, append_app.
Qed.

(** [split] gives the one list of comma-free texts whose join is [s]. *)
Lemma comma_split_exact s l :
  comma_split s = l <-> l <> [] /\ Forall (fun a => lacks "," a = true) l /\ comma_join l = s.
Proof.
  split.
  - intros <-. unfold comma_split. destruct (comma_from_facts "" s eq_refl) as (N & H & J). auto.
  - intros (N & H & <-). now apply comma_split_join.
Qed.

Lemma u32_small n : (n < 4294967296)%N -> u32 n = n.
Proof. apply N.mod_small. Qed.

Section Calls.
Context {C : crypto}.

(** ** Keys *)
Lemma ffi_keygen_names (ctx : ffi_ctx C) l m t i : l <> [] ->
  Forall (fun a => lacks "," a = true) l -> lacks zero (comma_join l) = true ->
  utf8 (comma_join l) = true ->
  ffi_keygen ctx (c_text (comma_join l) m) t i = c_unwrap (bsw_keygen (c_pk ctx) (c_msk ctx) l t i).
Proof.
  intros Ne Hc Hz Hu. unfold ffi_keygen. rewrite (c_str_text _ _ Hz). cbn [cbind].
  now rewrite Hu, comma_split_join.
Qed.

Lemma ffi_keygen_inv (ctx : ffi_ctx C) p t i sk j : ffi_keygen ctx p t i = Ret (sk, j) ->
  exists l m, p = c_text (comma_join l) m /\ l <> [] /\ Forall (fun a => lacks "," a = true) l /\
    utf8 (comma_join l) = true /\ bsw_keygen (c_pk ctx) (c_msk ctx) l t i = Ok (Some sk, j).
Proof.
  unfold ffi_keygen. intros H. destruct (c_str p) as [s| |] eqn:E; cbn [cbind] in H; try discriminate.
  apply c_str_inv in E as [_ (m & ->)]. destruct (utf8 s) eqn:U; [|discriminate].
  destruct (comma_split s) as [|a l] eqn:S.
  { apply comma_split_exact in S as [N _]. congruence. }
  pose proof (proj1 (comma_split_exact s (a :: l)) S) as (N & Fl & J).
  exists (a :: l), m. rewrite J. split; [reflexivity|]. split; [exact N|]. split; [exact Fl|].
  split; [exact U|]. destruct (bsw_keygen _ _ _ t i) as [[[k|] j']| |]; try discriminate H.
  cbn in H. now injection H as -> ->.
Qed.

Lemma ffi_delegate_abort (ctx : ffi_ctx C) sk subset t i :
  subset = [] \/ ~ incl subset (map b_string (bsk_dj sk)) -> ffi_delegate ctx sk subset t i = Abort.
Proof.
  intros H. unfold ffi_delegate, bsw_delegate. destruct (is_subset subset _) eqn:S; [|reflexivity].
  cbn [negb]. destruct H as [->|H]; [reflexivity|]. destruct H. red. now apply is_subset_iff.
Qed.

(** ** Encryption *)
Lemma ffi_encrypt_ok J nonce (ctx : ffi_ctx C) pol m data d t i ct j :
  lacks zero pol = true -> utf8 pol = true ->
  bsw_encrypt nonce (c_pk ctx) pol JsonPolicy data t i = Ok (ct, j) -> carries J ct ->
  ffi_encrypt J nonce ctx (c_text pol m) (data ++ d) (N.of_nat (String.length data)) t i =
  Ret (Wrote (c_text (js_enc J ct) "") (N.of_nat (String.length (js_enc J ct)) + 1)).
Proof.
  intros Hz Hu E (_ & _ & _ & Ls). unfold ffi_encrypt. rewrite (c_str_text _ _ Hz). cbn [cbind].
  rewrite Hu. cbn [negb]. rewrite append_len.
  replace (N.of_nat (String.length data + String.length d) <? N.of_nat (String.length data))%N with false
    by (symmetry; apply N.ltb_ge; lia).
  rewrite Nnat.Nat2N.id.
  destruct (append_cut data d (String.length data) eq_refl) as [-> _]. rewrite E. cbv zeta.
  rewrite (u32_small _ Ls).
  match goal with |- context [(?a <? ?b)%N] => replace (a <? b)%N with false by (symmetry; apply N.ltb_ge; lia) end.
  reflexivity.
Qed.

Lemma ffi_encrypt_inv J nonce (ctx : ffi_ctx C) p pt n t i buf len :
  ffi_encrypt J nonce ctx p pt n t i = Ret (Wrote buf len) ->
  exists pol m ct j v, p = c_text pol m /\ utf8 pol = true /\ parse pol JsonPolicy = Ok v /\
    (n <= N.of_nat (String.length pt))%N /\
    bsw_encrypt nonce (c_pk ctx) pol JsonPolicy (String.substring 0 (N.to_nat n) pt) t i = Ok (ct, j) /\
    buf = c_text (js_enc J ct) "" /\ N.of_nat (String.length buf) = len.
Proof.
  unfold ffi_encrypt. intros H. destruct (c_str p) as [pol| |] eqn:E; cbn [cbind] in H; try discriminate.
  apply c_str_inv in E as [_ (m & ->)]. destruct (utf8 pol) eqn:U; [|discriminate]. cbn [negb] in H.
  destruct (N.ltb_spec (N.of_nat (String.length pt)) n) as [|Hn]; [discriminate|].
  destruct (bsw_encrypt _ _ _ _ _ t i) as [[ct j]| |] eqn:B; try discriminate. cbv zeta in H.
  destruct (N.ltb_spec (u32 (N.of_nat (String.length (js_enc J ct)) + 1)) (N.of_nat (String.length (js_enc J ct)))) as [|Hs];
    [discriminate|].
  injection H as <- <-.
  assert (exists v, parse pol JsonPolicy = Ok v) as (v & P).
  { unfold bsw_encrypt, rbind, rlift, draw, draw_gt, rret in B.
    unfold rbind, draw, rret in B.
    destruct (parse pol JsonPolicy) as [v| |]; try discriminate. now exists v. }
  exists pol, m, ct, j, v. do 5 (split; [first [reflexivity | exact U | exact P | exact Hn | exact B]|]).
  split; [reflexivity|]. rewrite append_len. cbn [String.length].
  set (k := N.of_nat (String.length (js_enc J ct))) in *.
  replace (N.of_nat (String.length (js_enc J ct) + 1)) with (k + 1)%N by lia.
  symmetry. apply u32_small. unfold u32 in Hs. destruct (N.lt_ge_cases (k + 1) 4294967296) as [Hk|Hk]; [exact Hk|].
  exfalso. pose proof (N.mod_lt (k + 1) 4294967296 ltac:(lia)).
  assert (k = 4294967295)%N as Ek by lia. rewrite Ek in Hs. vm_compute in Hs. now apply Hs.
Qed.

Lemma ffi_encrypt_policy J nonce (ctx : ffi_ctx C) pol m pt n t i :
  lacks zero pol = true -> utf8 pol = true -> (n <= N.of_nat (String.length pt))%N ->
  (parse pol JsonPolicy = Err -> ffi_encrypt J nonce ctx (c_text pol m) pt n t i = Ret Failed) /\
  (parse pol JsonPolicy = Panic -> ffi_encrypt J nonce ctx (c_text pol m) pt n t i = Abort).
Proof.
  intros Hz Hu Hn. unfold ffi_encrypt. rewrite (c_str_text _ _ Hz). cbn [cbind]. rewrite Hu. cbn [negb].
  replace (N.of_nat (String.length pt) <? n)%N with false by (symmetry; apply N.ltb_ge; exact Hn).
  unfold bsw_encrypt, rbind, rlift, draw, draw_gt, rret. unfold rbind, draw, rret.
  split; intros ->; reflexivity.
Qed.

(** ** Decryption *)
Lemma ffi_decrypt_of checks J (sk : bsw_sk C) (ct : bsw_ct C) m : carries J ct ->
  ffi_decrypt checks J sk (c_text (js_enc J ct) m) (N.of_nat (String.length (js_enc J ct)) + 1) =
  match bsw_decrypt sk ct with
  | Err => Ret Failed
  | Panic => Abort
  | Ok pt =>
      cbind (ffi_size checks ct) (fun size =>
      if (String.length pt =? 0)%nat then Abort
      else if (N.of_nat (String.length pt) <? size)%N then Beyond
      else Ret (Wrote (String.substring 0 (N.to_nat size) pt) size))
  end.
Proof.
  intros (Hd & Hu & Hz & _). unfold ffi_decrypt. rewrite (c_str_text _ _ Hz). cbn [cbind].
  rewrite Hu. cbn [negb]. unfold u32_sub.
  replace (1 <=? N.of_nat (String.length (js_enc J ct)) + 1)%N with true by (symmetry; apply N.leb_le; lia).
  cbn [cbind]. rewrite N.add_sub, N.eqb_refl. cbn [negb]. now rewrite Hd.
Qed.

Lemma ffi_wrong_length checks J (sk : bsw_sk C) s m n : lacks zero s = true -> utf8 s = true ->
  (n <> N.of_nat (String.length s) + 1)%N -> (N.of_nat (String.length s) + 1 < 4294967296)%N ->
  ffi_decrypt checks J sk (c_text s m) n = Abort.
Proof.
  intros Hz Hu Hn Hs. unfold ffi_decrypt. rewrite (c_str_text _ _ Hz). cbn [cbind]. rewrite Hu. cbn [negb].
  unfold u32_sub. destruct (N.leb_spec 1 n) as [H1|H1]; cbn [cbind].
  - match goal with |- context [(?a =? ?b)%N] => replace (a =? b)%N with false by (symmetry; apply N.eqb_neq; lia) end.
    reflexivity.
  - destruct checks; [reflexivity|]. cbn [cbind].
    match goal with |- context [(?a =? ?b)%N] => replace (a =? b)%N with false by (symmetry; apply N.eqb_neq; lia) end.
    reflexivity.
Qed.

(** *** The sizes, with the cipher the code names *)
Hypothesis (Enc : aead_enc C = gcm_enc) (Dec : aead_dec C = gcm_dec).

Lemma bsw_decrypt_length (sk : bsw_sk C) ct pt : bsw_decrypt sk ct = Ok pt ->
  String.length (bct_data ct) = String.length pt + 28.
Proof.
  unfold bsw_decrypt. cbv zeta. intros H. apply obind_Ok in H as (v & _ & H).
  destruct (traverse_policy _ _ _); [|discriminate]. apply obind_Ok in H as (pr & _ & H).
  destruct (fst pr); [|discriminate]. apply obind_Ok in H as (o & _ & H).
  apply obind_Ok in H as (z & _ & H). apply (open_exact Enc Dec) in H as (nonce & Ln & H).
  apply (seal_length Enc) in H. lia.
Qed.

Lemma ffi_overrun checks J (sk : bsw_sk C) ct m pt : carries J ct -> bsw_decrypt sk ct = Ok pt ->
  (N.of_nat (String.length pt) + 28 < 4294967296)%N ->
  ffi_size checks ct = Ret (N.of_nat (String.length pt) + 12)%N /\
  ffi_decrypt checks J sk (c_text (js_enc J ct) m) (N.of_nat (String.length (js_enc J ct)) + 1) =
  if (String.length pt =? 0)%nat then Abort else Beyond.
Proof.
  intros Hc D Hl. pose proof (bsw_decrypt_length _ _ _ D) as E.
  assert (S : ffi_size checks ct = Ret (N.of_nat (String.length pt) + 12)%N).
  { unfold ffi_size, u32_sub. rewrite E, u32_small by lia.
    match goal with |- context [(16 <=? ?b)%N] => replace (16 <=? b)%N with true by (symmetry; apply N.leb_le; lia) end.
    f_equal. lia. }
  split; [exact S|]. rewrite (ffi_decrypt_of checks J sk ct m Hc), D, S. cbn [cbind].
  destruct (String.length pt =? 0); [reflexivity|].
  match goal with |- context [(?a <? ?b)%N] => replace (a <? b)%N with true by (symmetry; apply N.ltb_lt; lia) end.
  reflexivity.
Qed.

(** No call gives a plaintext back, whatever key, memory and length it gets. *)
Lemma ffi_never checks J (sk : bsw_sk C) p n buf len :
  (forall s ct, js_dec J s = Some ct -> (N.of_nat (String.length (bct_data ct)) < 4294967296)%N) ->
  ffi_decrypt checks J sk p n <> Ret (Wrote buf len).
Proof.
  intros Hb H. unfold ffi_decrypt in H.
  destruct (c_str p) as [s| |]; cbn [cbind] in H; try discriminate.
  destruct (negb (utf8 s)); [discriminate|].
  destruct (u32_sub checks n 1) as [k| |]; cbn [cbind] in H; try discriminate.
  destruct (negb _); [discriminate|].
  destruct (js_dec J s) as [c|] eqn:Ej; [|discriminate].
  destruct (bsw_decrypt sk c) as [pt| |] eqn:D; try discriminate.
  pose proof (bsw_decrypt_length _ _ _ D) as E. pose proof (Hb _ _ Ej) as B.
  unfold ffi_size, u32_sub in H. rewrite (u32_small _ B) in H.
  destruct (N.leb_spec 16 (N.of_nat (String.length (bct_data c)))) as [G|G]; [|lia].
  cbn [cbind] in H. destruct (String.length pt =? 0); [discriminate|].
  match type of H with context [(?a <? ?b)%N] => destruct (N.ltb_spec a b) as [Q|Q] end; [discriminate|lia].
Qed.
End Calls.

(** ** A whole session *)
Section Session.
Context {C : crypto} (L : laws C).
Hypothesis (Tot : @hash_total C) (Enc : aead_enc C = gcm_enc) (Dec : aead_dec C = gcm_dec).

Theorem ffi_session nonce attrs pol data f t i mk :
  live (C := C) t -> small_ok C (and_width f) ->
  arity2 f = true -> NoDup (leaves f) -> plain_names f = true ->
  parse pol JsonPolicy = Ok (tree f) -> String.length nonce = 12 ->
  lacks zero pol = true -> utf8 pol = true ->
  attrs <> [] -> Forall (fun a => lacks "," a = true) attrs ->
  lacks zero (comma_join attrs) = true -> utf8 (comma_join attrs) = true ->
  (N.of_nat (String.length data) + 28 < 4294967296)%N ->
  exists (ctx : ffi_ctx C) i1 sk i2 ct i3,
    ffi_create t i = Ok (ctx, i1) /\
    ffi_keygen ctx (c_text (comma_join attrs) mk) t i1 = Ret (sk, i2) /\
    bsw_encrypt nonce (c_pk ctx) pol JsonPolicy data t i2 = Ok (ct, i3) /\
    (forall J checks mp md mc, carries J ct ->
     exists buf len,
       ffi_encrypt J nonce ctx (c_text pol mp) (data ++ md) (N.of_nat (String.length data)) t i2 =
         Ret (Wrote buf len) /\
       N.of_nat (String.length buf) = len /\
       ffi_decrypt checks J sk (buf ++ mc) len =
         if sat (owns attrs) f then if String.length data =? 0 then Abort else Beyond
         else Ret Failed).
Proof.
  intros Lt Sm A2 Nd Pn P Ln Pz Pu Ane Ac Az Au Hl.
  destruct (bsw_session_exact L nonce attrs pol JsonPolicy data f t i) as (j & S); try assumption.
  unfold bsw_session in S.
  apply rbind_Ok in S as ([pk msk] & i1 & S1 & S).
  apply rbind_Ok in S as (ko & i2 & S2 & S).
  apply rbind_Ok in S as (sk & i2' & S2' & S). apply rlift_Ok in S2' as [S2' E2]; subst i2'.
  destruct ko as [sk'|]; [|discriminate]. injection S2' as ->.
  apply rbind_Ok in S as (ct & i3 & S3 & S). apply rret_Ok in S as [S _].
  exists (Ctx msk pk), i1, sk, i2, ct, i3. split; [|split; [|split]].
  - unfold ffi_create, rbind. rewrite S1. reflexivity.
  - rewrite ffi_keygen_names by assumption. cbn [c_pk c_msk]. now rewrite S2.
  - exact S3.
  - intros J checks mp md mc Hc. exists (c_text (js_enc J ct) ""), (N.of_nat (String.length (js_enc J ct)) + 1)%N.
    split; [exact (ffi_encrypt_ok J nonce (Ctx msk pk) pol mp data md t i2 ct i3 Pz Pu S3 Hc)|].
    split. { unfold c_text. rewrite append_len. cbn [String.length]. lia. }
    replace (c_text (js_enc J ct) "" ++ mc)%string with (c_text (js_enc J ct) mc)
      by (unfold c_text; now rewrite append_app).
    destruct (sat (owns attrs) f).
    + now apply (ffi_overrun Enc Dec).
    + rewrite (ffi_decrypt_of checks J sk ct mc Hc). now rewrite S.
Qed.
End Session.

(** ** Exact outcomes *)
Section Outcomes.
Context {C : crypto}.

Lemma c_str_beyond p : c_str p = Beyond <-> lacks zero p = true.
Proof.
  induction p as [|b p IH]; [now split|]. cbn [c_str lacks].
  destruct (Ascii.eqb b zero); cbn [negb andb]; [split; discriminate|]. rewrite <- IH.
  destruct (c_str p); cbn [cbind]; split; congruence.
Qed.
Lemma c_str_abort p : c_str p <> Abort.
Proof.
  induction p as [|b p IH]; [discriminate|]. cbn [c_str].
  destruct (Ascii.eqb b zero); [discriminate|]. destruct (c_str p); [discriminate|now destruct IH|discriminate].
Qed.

Lemma ffi_delegate_exact (ctx : ffi_ctx C) sk k subset t i j :
  (ffi_delegate ctx sk subset t i = Ret (k, j) <-> bsw_delegate (c_pk ctx) sk subset t i = Ok (Some k, j)) /\
  ffi_delegate ctx sk subset t i <> Beyond.
Proof.
  unfold ffi_delegate, c_unwrap. destruct (bsw_delegate _ _ _ _ _) as [[[x|] jx]| |].
  - split; [|discriminate]. split; intros H; injection H as -> ->; reflexivity.
  - split; [|discriminate]. split; discriminate.
  - split; [|discriminate]. split; discriminate.
  - split; [|discriminate]. split; discriminate.
Qed.

Lemma ffi_keygen_beyond (ctx : ffi_ctx C) p t i : ffi_keygen ctx p t i = Beyond <-> lacks zero p = true.
Proof.
  rewrite <- c_str_beyond. unfold ffi_keygen. destruct (c_str p) as [s| |]; cbn [cbind].
  - destruct (utf8 s); [|split; discriminate].
    unfold c_unwrap. destruct (bsw_keygen _ _ _ _ _) as [[[x|] jx]| |]; split; discriminate.
  - split; discriminate.
  - split; reflexivity.
Qed.

Lemma ffi_decrypt_fails checks (J : jwire C) sk s m n :
  lacks zero s = true -> (N.of_nat (String.length s) + 1 < 4294967296)%N -> (n < 4294967296)%N ->
  ffi_decrypt checks J sk (c_text s m) n = Ret Failed <->
  utf8 s = false \/
  n = (N.of_nat (String.length s) + 1)%N /\
  (js_dec J s = None \/ exists ct, js_dec J s = Some ct /\ bsw_decrypt sk ct = Err).
Proof.
  intros Hz Hs Hn. unfold ffi_decrypt. rewrite c_str_text by exact Hz. cbn [cbind].
  destruct (utf8 s); cbn [negb]; [|split; [now left|reflexivity]].
  assert (Y : forall X : Prop, true = false \/ X <-> X) by (intros X; split; [intros [H|H]; [discriminate|exact H]|now right]).
  rewrite Y. unfold u32_sub.
  destruct (N.leb_spec 1 n) as [H1|H1].
  - cbn [cbind]. destruct (N.eqb_spec (N.of_nat (String.length s)) (n - 1)) as [E|E]; cbn [negb].
    + assert (En : n = (N.of_nat (String.length s) + 1)%N) by lia.
      destruct (js_dec J s) as [c|] eqn:D.
      * destruct (bsw_decrypt sk c) as [pt| |] eqn:B.
        -- split.
           ++ destruct (ffi_size checks c); cbn [cbind]; try discriminate.
              destruct (String.length pt =? 0); [discriminate|]. destruct (_ <? _)%N; discriminate.
           ++ intros [_ [H|(ct & H & H')]]; [discriminate|]. injection H as <-. congruence.
        -- split; [|reflexivity]. intros _. split; [exact En|]. right. now exists c.
        -- split; [discriminate|]. intros [_ [H|(ct & H & H')]]; [discriminate|]. injection H as <-. congruence.
      * split; [|reflexivity]. intros _. split; [exact En|now left].
    + split; [discriminate|]. intros [H _]. lia.
  - destruct checks; cbn [cbind]; [split; [discriminate|]; intros [H _]; lia|].
    destruct (N.eqb_spec (N.of_nat (String.length s)) (n + 4294967296 - 1)) as [E|E]; cbn [negb]; [lia|].
    split; [discriminate|]. intros [H _]. lia.
Qed.

Lemma ffi_encrypt_fails (J : jwire C) nonce (ctx : ffi_ctx C) pol m pt n t i :
  lacks zero pol = true ->
  ffi_encrypt J nonce ctx (c_text pol m) pt n t i = Ret Failed <->
  utf8 pol = false \/
  (n <= N.of_nat (String.length pt))%N /\
  bsw_encrypt nonce (c_pk ctx) pol JsonPolicy (String.substring 0 (N.to_nat n) pt) t i = Err.
Proof.
  intros Hz. unfold ffi_encrypt. rewrite c_str_text by exact Hz. cbn [cbind].
  destruct (utf8 pol); cbn [negb]; [|split; [now left|reflexivity]].
  destruct (N.ltb_spec (N.of_nat (String.length pt)) n) as [H|H].
  - split; [discriminate|]. intros [E|[E _]]; [discriminate|lia].
  - destruct (bsw_encrypt _ _ _ _ _ _ _) as [[ct j]| |].
    + cbv zeta. destruct (_ <? _)%N; (split; [discriminate|]; intros [E|[_ E]]; discriminate).
    + split; [|reflexivity]. intros _. right. now split.
    + split; [discriminate|]. intros [E|[_ E]]; discriminate.
Qed.

Lemma ffi_encrypt_beyond (J : jwire C) nonce (ctx : ffi_ctx C) pol m pt n t i :
  lacks zero pol = true -> utf8 pol = true ->
  (N.of_nat (String.length pt) < n)%N -> ffi_encrypt J nonce ctx (c_text pol m) pt n t i = Beyond.
Proof.
  intros Hz Hu Hn. unfold ffi_encrypt. rewrite c_str_text by exact Hz. cbn [cbind]. rewrite Hu. cbn [negb].
  now apply N.ltb_lt in Hn as ->.
Qed.

Lemma ffi_unterminated checks (J : jwire C) nonce (ctx : ffi_ctx C) sk p pt n t i :
  lacks zero p = true ->
  ffi_encrypt J nonce ctx p pt n t i = Beyond /\ ffi_decrypt checks J sk p n = Beyond.
Proof. intros H. apply c_str_beyond in H. unfold ffi_encrypt, ffi_decrypt. rewrite H. now split. Qed.

Theorem ffi_size_exact (checks : bool) (ct : bsw_ct C) :
  let n := N.of_nat (String.length (bct_data ct)) in
  (n < 4294967296 ->
   ffi_size checks ct = if 16 <=? n then Ret (n - 16) else if checks then Abort else Ret (n + 4294967280))%N.
Proof.
  intros n H. unfold ffi_size, u32_sub. fold n. rewrite (u32_small n H). destruct (16 <=? n)%N; [reflexivity|].
  destruct checks; [reflexivity|]. f_equal. lia.
Qed.
End Outcomes.
