(** * Proofs about rabe-console as a program *)
From Coq Require Import String Ascii List Bool Arith NArith Lia.
From Verif Require Import Base Crypto Policy Tools Parse Spec PolicyProofs SchemeLib Files Borsh Errors Messages MessagesProofs
  Prints PrintsProofs Console CommandLine ConsolePrints TruncationProofs.
From Verif Require ParseProofs BorshProofs ConsoleProofs Bdabe Mke08 Bsw Lsw Yct14 Ac17 Aw11.
Import ListNotations.
Local Open Scope string_scope.

(** ** Without the texts *)

Definition plain {A} (m : shown A) (d : fs) : fs * outcome A := (fst (snd (m d)), forget (snd (snd (m d)))).

Lemma plain_bind {A B} (m : shown A) (k : A -> shown B) (i : io A) (j : A -> io B) d :
  plain m d = i d -> (forall a d', plain (k a) d' = j a d') -> plain (hbind m k) d = ibind i j d.
Proof.
  unfold plain, hbind, ibind. intros H K. rewrite <- H. destruct (m d) as (o & d' & [a|e|]); cbn; [apply K|reflexivity|reflexivity].
Qed.

Lemma plain_some {A B X} (m : shown A) (k : A -> shown B) (i : io A) (j : X -> A -> io B) (x0 : X) d :
  plain m d = i d -> (forall a d', exists x, plain (k a) d' = j x a d') -> exists x, plain (hbind m k) d = ibind i (j x) d.
Proof.
  unfold plain, hbind, ibind. intros H K. rewrite <- H. destruct (m d) as (o & d' & [a|e|]); cbn; [apply K|now exists x0|now exists x0].
Qed.

Lemma plain_ret {A} (a : A) d : plain (hret a) d = iret a d.
Proof. reflexivity. Qed.

Lemma plain_call {A} l (r : told A) o d : forget r = o -> plain (hcall l r) d = ilift o d.
Proof. intros <-. reflexivity. Qed.

Lemma plain_draw {F A} l (r : told (A * nat)) (t : nat -> F) (m : rand F A) d : forget r = m t 0 -> plain (hdraw l r) d = irun t m d.
Proof. unfold irun. intros <-. destruct r as [[a n]|e|]; reflexivity. Qed.

Lemma plain_mute {F A} (t : nat -> F) (m : rand F A) d : rquiet m -> plain (hmute t m) d = irun t m d.
Proof. intros Q. apply plain_draw, forget_calm, Q. Qed.

Lemma plain_fail {A} text d : plain (hfail (A := A) text) d = ilift Err d.
Proof. reflexivity. Qed.

Lemma plain_unwrap {A} (m : shown A) i d : plain m d = i d -> plain (hunwrap m) d = iunwrap i d.
Proof. unfold plain, hunwrap, iunwrap. intros <-. destruct (m d) as (o & d' & [a|e|]); reflexivity. Qed.

Lemma plain_save path content d : plain (hsave path content) d = isave path content d.
Proof.
  unfold plain, hsave, isave, said_write_file, sbind, still, say. unfold write_file.
  destruct (fs_create d path content); reflexivity.
Qed.

Lemma plain_read path d : plain (hread path) d = iread path d.
Proof. unfold plain, hread, iread, hcall, said_read_to_vec, read_to_vec. destruct (fs_open d path); reflexivity. Qed.

Lemma plain_map {A B} (f : A -> shown B) g : (forall a d, plain (f a) d = g a d) -> forall l d, plain (hmap f l) d = imap g l d.
Proof.
  intros H l. induction l as [|a l IH]; intros d; [reflexivity|]. cbn [hmap imap].
  apply plain_bind; [apply H|]. intros b d'. apply plain_bind; [apply IH|]. reflexivity.
Qed.

(** ** Functions without a [Result] *)

Section Quiet.
Context {C : crypto}.
Lemma q_ac_setup : rquiet (@Ac17.ac_setup C). Proof. unfold Ac17.ac_setup. hush. Qed.
Lemma q_aw_setup : rquiet (@Aw11.aw_setup C). Proof. unfold Aw11.aw_setup. hush. Qed.
Lemma q_bd_setup : rquiet (@Bdabe.bd_setup C). Proof. unfold Bdabe.bd_setup. hush. Qed.
Lemma q_bsw_setup : rquiet (@Bsw.bsw_setup C). Proof. unfold Bsw.bsw_setup. hush. Qed.
Lemma q_lsw_setup : rquiet (@Lsw.lsw_setup C). Proof. unfold Lsw.lsw_setup. hush. Qed.
Lemma q_mk_setup : rquiet (@Mke08.mk_setup C). Proof. unfold Mke08.mk_setup. hush. Qed.
Lemma q_yct_setup l : rquiet (@Yct14.yct_setup C l). Proof. unfold Yct14.yct_setup. hush. Qed.
Lemma q_aw_authgen gp l : rquiet (@Aw11.aw_authgen C gp l). Proof. unfold Aw11.aw_authgen. hush. Qed.
Lemma q_bd_authgen pk msk n : rquiet (@Bdabe.bd_authgen C pk msk n). Proof. unfold Bdabe.bd_authgen. hush. Qed.
Lemma q_mk_authgen n : rquiet (@Mke08.mk_authgen C n). Proof. unfold Mke08.mk_authgen. hush. Qed.
Lemma q_bsw_keygen pk msk l : rquiet (@Bsw.bsw_keygen C pk msk l). Proof. unfold Bsw.bsw_keygen. hush. Qed.
Lemma q_bd_keygen pk msk n : rquiet (@Bdabe.bd_keygen C pk msk n). Proof. unfold Bdabe.bd_keygen. hush. Qed.
Lemma q_mk_keygen pk msk n : rquiet (@Mke08.mk_keygen C pk msk n). Proof. unfold Mke08.mk_keygen. hush. Qed.
Lemma q_bsw_delegate pk sk l : rquiet (@Bsw.bsw_delegate C pk sk l). Proof. unfold Bsw.bsw_delegate. hush. Qed.
End Quiet.

Section Erase.
Context {C : crypto} (L : laws C) (E : env C).
Variable place : language -> string -> location.
Variable fe : field_error.
Variable pest : language -> string -> string.
Variable debug : string -> string.
Variable T : crate_texts.

Lemma dec_bin_forget d f : forget (told_dec_bin E T d f) = ser_dec_bin E d f.
Proof.
  unfold told_dec_bin, ser_dec_bin. rewrite forget_bind, forget_calm.
  - apply obind_ext. intros raw _. rewrite forget_bind, forget_calm by apply quiet_unwrap. apply obind_ext. intros s _.
    destruct (from_hex s) as [b|]; [|reflexivity]. destruct (e_inflate E b); reflexivity.
  - unfold read_file. hush.
Qed.

Lemma plain_dec {A} (c : codec A) f d : plain (hdec E T c f) d = ser_dec E c f d.
Proof.
  unfold plain, hdec, ser_dec, hcall, told_dec. cbn [fst snd]. f_equal. rewrite <- dec_bin_forget.
  destruct (told_dec_bin E T d f) as [b|e|]; cbn; [apply forget_text|reflexivity|reflexivity].
Qed.

Lemma quiet_enc {A} (c : codec A) v what : quiet (ser_enc E c v what).
Proof. unfold ser_enc, ser_bytes. hush. Qed.

Lemma plain_store {A} path (c : codec A) v what d : plain (hstore E path c v what) d = store E path c v what d.
Proof.
  apply plain_bind; [|intros; apply plain_save]. apply plain_call, forget_calm, quiet_enc.
Qed.

Lemma plain_result {A} path (c : codec A) (m : shown A) i d : plain m d = i d ->
  exists text, plain (hbind (htry m) (hstore_result E path c)) d = ibind (itry i) (store_result E path c text) d.
Proof.
  unfold plain at 1. intros H. unfold ibind, itry. rewrite <- H. unfold plain, hbind, htry.
  destruct (m d) as (o & d' & [a|e|]); cbn [fst snd forget].
  - exists "". change (plain (hstore_result E path c (inr a)) d' = store_result E path c "" (Some a) d').
    apply plain_bind; [|intros; apply plain_save]. apply plain_call, forget_calm. unfold ser_bytes. hush.
  - exists (details e). change (plain (hstore_result E path c (inl e)) d' = store_result E path c (details e) None d').
    apply plain_bind; [|intros; apply plain_save]. apply plain_call, forget_calm. unfold ser_bytes. hush.
  - now exists "".
Qed.

Hint Resolve q_ac_setup q_aw_setup q_bd_setup q_bsw_setup q_lsw_setup q_mk_setup q_yct_setup q_aw_authgen q_bd_authgen
  q_mk_authgen q_bsw_keygen q_bd_keygen q_mk_keygen : quiet_db.

Ltac step := first
  [ apply plain_dec | apply plain_store | apply plain_fail | apply plain_save | apply plain_read | apply plain_ret
  | apply plain_mute; solve [auto with quiet_db] | apply plain_map; intros; apply plain_dec
  | apply plain_call; apply forget_calm, quiet_unwrap ].
Ltac walk := repeat first [step | apply plain_bind; [|intros ? ?]].

Lemma plain_setup t m s d : plain (show_setup E t m s) d = run_setup E t m s d.
Proof.
  unfold show_setup, run_setup. destruct s; try (walk; destruct a; walk).
  destruct (attr_args m); [reflexivity|]. walk. destruct a. walk.
Qed.

Lemma plain_authgen t m s d : plain (show_authgen E T t m s) d = run_authgen E t m s d.
Proof. unfold show_authgen, run_authgen. destruct s; walk. destruct a0 as [[pk msk]|]; walk. Qed.

Lemma plain_print {A} text (k : shown A) (i : io A) d : plain k d = i d -> plain (hbind (hprint text) (fun _ => k)) d = i d.
Proof. intros <-. reflexivity. Qed.

Lemma plain_keygen t m s lang d : plain (show_keygen E place fe pest debug T t m s lang) d = run_keygen E t m s lang d.
Proof.
  unfold show_keygen, run_keygen. cbn zeta. destruct s.
  - apply plain_print. apply plain_bind; [apply plain_unwrap; walk|]. intros msk d'. apply plain_print. apply plain_print.
    apply plain_bind; [apply plain_unwrap, plain_draw, cp_keygen_forget|]. intros sk d2. apply plain_print, plain_print. walk.
  - walk. apply plain_unwrap, plain_draw, kp_keygen_forget.
  - walk. unfold plain, hunwrap, hcall, ilift. rewrite <- (aw_keygen_forget fe). destruct (told_aw_keygen _ _ _ _ _); reflexivity.
  - walk.
  - walk.
  - walk. apply plain_unwrap, plain_draw, lsw_keygen_forget.
  - walk. destruct (seqb _ _); walk.
  - walk. apply plain_unwrap, plain_draw, yct_keygen_forget.
Qed.

Lemma plain_delegate t m s d : plain (show_delegate E T t m s) d = run_delegate E t m s d.
Proof.
  unfold show_delegate, run_delegate. cbn zeta. destruct s; try reflexivity. walk.
  - apply plain_draw, forget_calm, q_bsw_delegate.
  - destruct a1; walk.
Qed.

Lemma plain_encrypt t nonce m s lang d : exists text,
  plain (show_encrypt E place fe pest T t nonce m s lang) d = run_encrypt E t nonce text m s lang d.
Proof.
  unfold show_encrypt, run_encrypt. cbn zeta. 
  apply (plain_some _ _ _ (fun text buffer => _) "" d (plain_read _ _)). intros buffer d1.
  destruct s.
  - exists "". destruct (enc_pk_files m) as [|f []]; try reflexivity. walk. apply plain_draw, cp_encrypt_forget.
  - exists "". destruct (enc_pk_files m) as [|f []]; try reflexivity. walk. apply plain_draw, kp_encrypt_forget.
  - apply (plain_some _ _ _ (fun text gp => _) "" d1 (plain_dec _ _ _)). intros gp d2.
    apply (plain_some _ _ _ (fun text pks => _) "" d2 (plain_map _ _ (fun f d => plain_dec _ f d) _ _)). intros pks d3.
    apply plain_result. apply plain_draw, aw_encrypt_forget.
  - apply (plain_some _ _ _ (fun text gp => _) "" d1 (plain_dec _ _ _)). intros gp d2.
    apply (plain_some _ _ _ (fun text pks => _) "" d2 (plain_map _ _ (fun f d => plain_dec _ f d) _ _)). intros pks d3.
    apply plain_result. apply plain_draw, bd_encrypt_forget.
  - destruct (enc_pk_files m) as [|f []]; try (now exists "").
    apply (plain_some _ _ _ (fun text gp => _) "" d1 (plain_dec _ _ _)). intros gp d2.
    apply plain_result. apply plain_draw, bsw_encrypt_forget.
  - destruct (enc_pk_files m) as [|f []]; try (now exists "").
    apply (plain_some _ _ _ (fun text gp => _) "" d1 (plain_dec _ _ _)). intros gp d2.
    apply plain_result. apply plain_draw, lsw_encrypt_forget.
  - apply (plain_some _ _ _ (fun text gp => _) "" d1 (plain_dec _ _ _)). intros gp d2.
    apply (plain_some _ _ _ (fun text pks => _) "" d2 (plain_map _ _ (fun f d => plain_dec _ f d) _ _)). intros pks d3.
    apply plain_result. apply plain_draw, mk_encrypt_forget.
  - exists "". destruct (enc_pk_files m) as [|f []]; try reflexivity. walk. apply plain_draw, yct_encrypt_forget.
Qed.

Lemma plain_open m s d : plain (show_open E place fe pest T m s) d = open_file E m s d.
Proof.
  unfold show_open, open_file. cbn zeta. destruct s; walk; apply plain_call.
  - apply cp_decrypt_forget.
  - apply kp_decrypt_forget.
  - apply (aw_decrypt_forget L).
  - apply bd_decrypt_forget; exact L.
  - apply bsw_decrypt_forget; exact L.
  - apply lsw_decrypt_forget; exact L.
  - apply mk_decrypt_forget; exact L.
  - apply yct_decrypt_forget; exact L.
Qed.

Lemma plain_decrypt m s d : plain (show_decrypt E place fe pest T m s) d = run_decrypt E m s d.
Proof.
  apply plain_bind; [apply plain_open|]. intros pt d'. unfold plain, said_write_from_vec, sbind, still, say.
  unfold write_from_vec. destruct (fs_open _ _); [destruct pt|]; reflexivity.
Qed.

Lemma plain_req_pk m s d : plain (show_req_attr_pk E fe T m s) d = run_req_attr_pk E m s d.
Proof.
  unfold show_req_attr_pk, run_req_attr_pk. cbn zeta. destruct (req_attrs m) as [|a []]; try reflexivity.
  destruct s; try reflexivity; walk; apply plain_call; [apply bd_request_pk_forget|apply mk_request_pk_forget].
Qed.

Lemma plain_req_sk m s d : plain (show_req_attr_sk E fe T m s) d = run_req_attr_sk E m s d.
Proof.
  unfold show_req_attr_sk, run_req_attr_sk. cbn zeta. destruct (req_attrs m) as [|a []]; try reflexivity.
  destruct s; try reflexivity; walk; [|apply plain_call; apply mk_request_sk_forget].
  unfold plain, hbind, ibind, htry, itry, hcall, ilift. rewrite <- (bd_request_sk_forget fe).
  destruct (told_bd_request_sk _ _ _ _) as [k|e|]; [|reflexivity|reflexivity]. apply plain_store.
Qed.

Lemma plain_show t nonce c m s lang d : exists text,
  plain (show E place fe pest debug T t nonce c m s lang) d = run E t nonce text c m s lang d.
Proof.
  destruct c; cbn [show run]; try apply plain_encrypt; exists "".
  - apply plain_setup.
  - apply plain_authgen.
  - apply plain_keygen.
  - apply plain_delegate.
  - apply plain_decrypt.
  - apply plain_req_pk.
  - apply plain_req_sk.
Qed.

End Erase.

(** ** Every file that changes is announced *)

Definition wrote (path : string) : string := "successfully wrote to " ++ path ++ nls.
Definition within (x s : string) : Prop := exists a b, s = a ++ x ++ b.

Lemma sapp_assoc (a b c : string) : (a ++ b) ++ c = a ++ b ++ c.
Proof. induction a as [|x a IH]; cbn; [reflexivity|]. now rewrite IH. Qed.
Lemma sapp_nil (a : string) : a ++ "" = a.
Proof. induction a as [|x a IH]; cbn; [reflexivity|]. now rewrite IH. Qed.

Definition announced {A} (m : shown A) : Prop := forall d p,
  fs_files (fst (snd (m d))) p <> fs_files d p -> within (wrote p) (fst (m d)).

Lemma file_dec (x y : option file) : {x = y} + {x <> y}.
Proof. decide equality. decide equality; [apply bool_dec|apply string_dec]. Qed.

Lemma an_bind {A B} (m : shown A) (k : A -> shown B) : announced m -> (forall a, announced (k a)) -> announced (hbind m k).
Proof.
  intros M K d p. specialize (M d p). unfold hbind. destruct (m d) as (o & d' & [a|e|]); cbn [fst snd] in *; auto. intros H.
  destruct (file_dec (fs_files d' p) (fs_files d p)) as [E|N].
  - rewrite <- E in H. destruct (K a d' p H) as (x & y & ->). exists (o ++ x), y. now rewrite sapp_assoc.
  - destruct (M N) as (x & y & ->). exists x, (y ++ fst (k a d')). now rewrite !sapp_assoc.
Qed.
Lemma an_still {A} (m : shown A) : (forall d, fst (snd (m d)) = d) -> announced m.
Proof. intros H d p. rewrite H. congruence. Qed.
Lemma an_save path content : announced (hsave path content).
Proof.
  intros d p. unfold hsave, said_write_file, sbind, still, say, write_file, fs_create.
  destruct (fs_may_create d path); cbn [snd fst fs_files]; [|congruence].
  destruct (seqb p path) eqn:Q; [|congruence]. apply seqb_eq in Q as ->. intros _. exists "", "".
  cbn [List.app printed map String.concat wrote]. unfold wrote_line, wrote. now rewrite sapp_nil, !sapp_assoc.
Qed.
Lemma an_unwrap {A} (m : shown A) : announced m -> announced (hunwrap m).
Proof. intros H d p. specialize (H d p). unfold hunwrap. destruct (m d) as (o & d' & [a|e|]); exact H. Qed.
Lemma an_try {A} (m : shown A) : announced m -> announced (htry m).
Proof. intros H d p. specialize (H d p). unfold htry. destruct (m d) as (o & d' & [a|e|]); exact H. Qed.
Lemma an_map {A B} (f : A -> shown B) l : (forall a, announced (f a)) -> announced (hmap f l).
Proof.
  intros H. induction l as [|a l IH]; cbn [hmap]; [now apply an_still|]. apply an_bind; [apply H|]. intros b.
  apply an_bind; [exact IH|]. intros c. now apply an_still.
Qed.

Section Announce.
Context {C : crypto} (E : env C).
Variable place : language -> string -> location.
Variable fe : field_error.
Variable pest : language -> string -> string.
Variable debug : string -> string.
Variable T : crate_texts.

Lemma an_store {A} path (c : codec A) v what : announced (hstore E path c v what).
Proof. apply an_bind; [now apply an_still|]. intros s. apply an_save. Qed.
Lemma an_result {A} path (c : codec A) v : announced (hstore_result E path c v).
Proof. apply an_bind; [now apply an_still|]. intros s. apply an_save. Qed.

Ltac an := repeat match goal with
  | |- announced (hbind _ _) => apply an_bind; [|intros ?]
  | |- announced (hstore _ _ _ _ _) => apply an_store
  | |- announced (hstore_result _ _ _ _) => apply an_result
  | |- announced (hunwrap _) => apply an_unwrap
  | |- announced (htry _) => apply an_try
  | |- announced (hmap _ _) => apply an_map; intros ?
  | |- announced (match ?x with _ => _ end) => destruct x
  | |- announced (if ?x then _ else _) => destruct x
  | |- announced _ => solve [apply an_still; reflexivity]
  end.

Lemma show_announced t nonce c m s lang : announced (show E place fe pest debug T t nonce c m s lang).
Proof.
  destruct c; cbn [show];
    unfold show_setup, show_authgen, show_keygen, show_delegate, show_encrypt, show_decrypt, show_open, show_req_attr_pk,
      show_req_attr_sk; cbn zeta; an.
  apply an_still. intros d. unfold said_write_from_vec, sbind, still, say, write_from_vec.
  destruct (fs_open _ _); [destruct a|]; reflexivity.
Qed.
End Announce.

(** ** What a command prints that ends well *)

Lemma bind_fine {A B} (m : shown A) (k : A -> shown B) d o d' b : hbind m k d = (o, (d', Fine b)) ->
  exists o1 d1 a o2, m d = (o1, (d1, Fine a)) /\ k a d1 = (o2, (d', Fine b)) /\ o = o1 ++ o2.
Proof.
  unfold hbind. destruct (m d) as (o1 & d1 & [a|e|]); try discriminate. destruct (k a d1) as (o2 & r) eqn:K. cbn [fst snd].
  intros H. injection H as <- ->. exists o1, d1, a, o2. auto.
Qed.
Lemma call_fine {A} l (r : told A) d o d' a : hcall l r d = (o, (d', Fine a)) -> o = printed l /\ d' = d /\ r = Fine a.
Proof. unfold hcall. intros H. injection H as <- <- ->. auto. Qed.
Lemma draw_fine {A} l (r : told (A * nat)) d o d' a : hdraw l r d = (o, (d', Fine a)) ->
  o = printed l /\ d' = d /\ exists n, r = Fine (a, n).
Proof. unfold hdraw, hcall. destruct r as [[x n]|e|]; intros H; try discriminate H. injection H as <- <- <-. eauto. Qed.
Lemma unwrap_fine {A} (m : shown A) d o d' a : hunwrap m d = (o, (d', Fine a)) -> m d = (o, (d', Fine a)).
Proof. unfold hunwrap. destruct (m d) as (o1 & d1 & [x|e|]); congruence. Qed.
Lemma try_fine {A} (m : shown A) d o d' r : htry m d = (o, (d', Fine r)) ->
  m d = (o, (d', match r with inl e => Tell e | inr a => Fine a end)).
Proof. unfold htry. destruct (m d) as (o1 & d1 & [x|e|]); intros H; try discriminate H; injection H as <- <- <-; reflexivity. Qed.
Lemma save_fine path content d o d' x : hsave path content d = (o, (d', Fine x)) -> o = wrote path.
Proof.
  unfold hsave, said_write_file, sbind, still, say, write_file. destruct (fs_create d path content); [|discriminate].
  cbn [fst snd List.app]. intros H. injection H as <- _ _. unfold printed, wrote_line, wrote. cbn [map String.concat]. now rewrite sapp_assoc.
Qed.

Section Output.
Context {C : crypto} (L : laws C) (E : env C).
Variable place : language -> string -> location.
Variable fe : field_error.
Variable pest : language -> string -> string.
Variable debug : string -> string.
Variable T : crate_texts.

Lemma dec_fine {A} (c : codec A) f d o d' a : hdec E T c f d = (o, (d', Fine a)) -> o = "" /\ d' = d /\ told_dec E T c d f = Fine a.
Proof. intros H. now apply call_fine in H. Qed.
Lemma store_fine {A} path (c : codec A) v what d o d' x : hstore E path c v what d = (o, (d', Fine x)) -> o = wrote path.
Proof. intros H. apply bind_fine in H as (o1 & d1 & a & o2 & H1 & H2 & ->). apply call_fine in H1 as (-> & _). now apply save_fine in H2. Qed.
Lemma result_fine {A} path (c : codec A) v d o d' x : hstore_result E path c v d = (o, (d', Fine x)) -> o = wrote path.
Proof. intros H. apply bind_fine in H as (o1 & d1 & a & o2 & H1 & H2 & ->). apply call_fine in H1 as (-> & _). now apply save_fine in H2. Qed.
Lemma decs_fine {A} (c : codec A) fs : forall d o d' l, hmap (hdec E T c) fs d = (o, (d', Fine l)) -> o = "" /\ d' = d.
Proof.
  induction fs as [|f fs IH]; cbn [hmap]; intros d o d' l H; [injection H as <- <- _; auto|].
  apply bind_fine in H as (o1 & d1 & a & o2 & H1 & H2 & ->). apply dec_fine in H1 as (-> & -> & _).
  apply bind_fine in H2 as (o3 & d2 & b & o4 & H1 & H2 & ->). apply IH in H1 as (-> & ->). injection H2 as <- <- _. auto.
Qed.
Lemma read_fine f d o d' a : hread f d = (o, (d', Fine a)) ->
  o = "parsed " ++ number (String.length a) ++ " bytes" ++ nls /\ d' = d /\ fs_open d f = Some a.
Proof.
  unfold hread, hcall, said_read_to_vec. destruct (fs_open d f) as [s|]; [|discriminate]. intros H. injection H as <- <- <-.
  split; [|auto]. change ((("parsed " ++ (number (String.length s) ++ " bytes")) ++ nls) = "parsed " ++ number (String.length s) ++ " bytes" ++ nls).
  now rewrite !sapp_assoc.
Qed.
Lemma line_fine s d o d' x : hline s d = (o, (d', Fine x)) -> o = s ++ nls /\ d' = d.
Proof. intros H. injection H as <- <- _. auto. Qed.
Lemma print_fine s d o d' x : hprint s d = (o, (d', Fine x)) -> o = s /\ d' = d.
Proof. intros H. injection H as <- <- _. auto. Qed.

Lemma silent_draw {F A} pol lang (sd : said (A * nat)) (r : told (A * nat)) (t : nat -> F) (m : rand F A) d o d' a :
  plainly pest pol lang sd (m t 0) -> forget r = m t 0 -> hdraw (fst sd) r d = (o, (d', Fine a)) -> o = "" /\ d' = d.
Proof.
  intros S G H. apply draw_fine in H as (-> & -> & n & ->). cbn in G. split; [|reflexivity].
  now rewrite (plainly_silent _ _ _ _ _ _ S (eq_sym G)).
Qed.
Lemma silent_call {A} pol lang (sd : said A) (r : told A) w d o d' a :
  plainly pest pol lang sd w -> forget r = w -> hcall (fst sd) r d = (o, (d', Fine a)) -> o = "" /\ d' = d.
Proof.
  intros S G H. apply call_fine in H as (-> & -> & ->). cbn in G. split; [|reflexivity].
  now rewrite (plainly_silent _ _ _ _ _ _ S (eq_sym G)).
Qed.
Lemma mute_fine {F A} (t : nat -> F) (m : rand F A) d o d' a : hmute t m d = (o, (d', Fine a)) -> o = "" /\ d' = d.
Proof. intros H. apply draw_fine in H as (-> & -> & _). auto. Qed.
Lemma draw_silent {A} (r : told (A * nat)) d o d' a : hdraw [] r d = (o, (d', Fine a)) -> o = "" /\ d' = d.
Proof. intros H. apply draw_fine in H as (-> & -> & _). auto. Qed.

(** Splits a run that ended well into its steps. *)
Ltac fine1 := match goal with
  | H : hbind _ _ _ = (_, (_, Fine _)) |- _ => apply bind_fine in H as (? & ? & ? & ? & ? & ? & ->)
  | H : hdec _ _ _ _ _ = (_, (_, Fine _)) |- _ => apply dec_fine in H as (-> & -> & ?)
  | H : hmap (hdec _ _ _) _ _ = (_, (_, Fine _)) |- _ => apply decs_fine in H as (-> & ->)
  | H : hstore _ _ _ _ _ _ = (_, (_, Fine _)) |- _ => apply store_fine in H as ->
  | H : hstore_result _ _ _ _ _ = (_, (_, Fine _)) |- _ => apply result_fine in H as ->
  | H : hmute _ _ _ = (_, (_, Fine _)) |- _ => apply mute_fine in H as (-> & ->)
  | H : hdraw [] _ _ = (_, (_, Fine _)) |- _ => apply draw_silent in H as (-> & ->)
  | H : hcall [] _ _ = (_, (_, Fine _)) |- _ => apply call_fine in H as (-> & -> & ?)
  | H : hunwrap _ _ = (_, (_, Fine _)) |- _ => apply unwrap_fine in H
  | H : hprint _ _ = (_, (_, Fine _)) |- _ => apply print_fine in H as (-> & ->)
  | H : hline _ _ = (_, (_, Fine _)) |- _ => apply line_fine in H as (-> & ->)
  | H : hread _ _ = (_, (_, Fine _)) |- _ => apply read_fine in H as (-> & -> & ?)
  | H : hfail _ _ = (_, (_, Fine _)) |- _ => discriminate H
  end.
Ltac fine := repeat fine1.

Definition setup_output (m : args) (s : scheme) : string :=
  match s with
  | AW11 => wrote (file_arg m MSK_FILE)
  | _ => wrote (file_arg m MSK_FILE) ++ wrote (file_arg m PK_FILE)
  end.
Lemma setup_out t m s d o d' x : show_setup E t m s d = (o, (d', Fine x)) -> o = setup_output m s.
Proof.
  unfold show_setup, setup_output. cbn zeta. intros H. destruct s; fine; try reflexivity;
    try (match goal with p : (_ * _)%type |- _ => destruct p end; fine; reflexivity).
  destruct (attr_args m); fine. destruct x2. fine. reflexivity.
Qed.

Definition authgen_output (m : args) (s : scheme) : string :=
  match s with
  | AW11 => wrote (file_arg m MSK_FILE) ++ wrote (file_arg m PK_FILE)
  | _ => wrote (named_file m)
  end.
Lemma authgen_out t m s d o d' x : show_authgen E T t m s d = (o, (d', Fine x)) -> o = authgen_output m s.
Proof.
  unfold show_authgen, authgen_output. cbn zeta. intros H. destruct s; fine; try reflexivity.
  match goal with p : option (_ * _)%type |- _ => destruct p as [[]|] end; fine; reflexivity.
Qed.

Definition keygen_output (m : args) (s : scheme) : string :=
  let sk := file_arg m SK_FILE in
  match s with
  | AC17CP =>
      "loading " ++ file_arg m MSK_FILE ++ " ...... done" ++ nls ++
      "creating AC17CP sk for " ++ debug_list debug (attr_args m) ++ " ...... done" ++ nls ++
      "saving as " ++ sk ++ nls ++ wrote sk
  | AW11 | BDABE | MKE08 => wrote (named_file m)
  | _ => wrote sk
  end.
Lemma keygen_out t m s lang d o d' x : s <> YCT14 ->
  show_keygen E place fe pest debug T t m s lang d = (o, (d', Fine x)) -> o = keygen_output m s.
Proof.
  unfold show_keygen, keygen_output. cbn zeta. intros N H. destruct s; fine; try reflexivity; try congruence.
  - rewrite !sapp_assoc. reflexivity.
  - eapply silent_draw in H0; [destruct H0 as (-> & ->); fine; reflexivity|apply kp_keygen_said|apply kp_keygen_forget].
  - eapply silent_draw in H1; [destruct H1 as (-> & ->); fine; reflexivity|apply lsw_keygen_said|apply lsw_keygen_forget].
  - destruct (seqb _ _); fine. reflexivity.
Qed.

Lemma told_ser {A} (c : codec A) f d a : told_dec E T c d f = Fine a -> ser_dec E c f d = (d, Ok a).
Proof. intros H. rewrite <- (plain_dec E T c f d). unfold plain, hdec, hcall. rewrite H. reflexivity. Qed.

Lemma yct_keygen_out t m lang d o d' x : show_keygen E place fe pest debug T t m YCT14 lang d = (o, (d', Fine x)) ->
  exists f, parse (text_arg m POLICY) lang = Ok (tree f) /\
    o = printed (map (skip_line debug) (map before_us (names f))) ++ wrote (file_arg m SK_FILE).
Proof.
  unfold show_keygen. cbn zeta. intros H. fine. apply draw_fine in H1 as (-> & -> & n & G). fine.
  pose proof (yct_keygen_forget place x6 (text_arg m POLICY) lang t 0) as W. rewrite G in W. cbn in W. symmetry in W.
  assert (P : exists f, parse (text_arg m POLICY) lang = Ok (tree f)).
  { pose proof W as V. unfold Yct14.yct_keygen, rbind, rlift in V.
    destruct (parse _ lang) as [v| |] eqn:Q; [|discriminate V|discriminate V]. destruct (ParseProofs.parse_shape _ _ _ Q) as (f & -> & _). eauto. }
  destruct P as (f & P). exists f. split; [exact P|].
  rewrite (yct_keygen_lines pest debug L _ _ _ _ _ _ _ _ P W). cbn [String.append]. do 3 f_equal.
  assert (U : forall n, unlisted x6 n = true).
  { intros k. unfold unlisted. rewrite <- (ConsoleProofs.loaded_msk E _ _ _ _ (told_ser _ _ _ _ H0)). cbn [BorshProofs.forget_msk Yct14.ymsk_attrs].
    induction (Yct14.ymsk_attrs x6) as [|a l IH]; [reflexivity|]. cbn [map existsb BorshProofs.forget Yct14.y_node]. rewrite andb_false_r. exact IH. }
  induction (map before_us (names f)) as [|a l IH]; [reflexivity|]. cbn [filter]. rewrite U. now f_equal.
Qed.

Definition delegate_output (m : args) : string :=
  wrote (match value_of m SK_FILE with None => SK_FILE ++ ".del.key" | Some _ => "" end).
Lemma delegate_out t m s d o d' x : show_delegate E T t m s d = (o, (d', Fine x)) -> s = BSW /\ o = delegate_output m.
Proof.
  unfold show_delegate, delegate_output. cbn zeta. intros H. destruct s; fine; try discriminate. split; [reflexivity|].
  apply draw_fine in H1 as (-> & -> & n & G).
  match type of G with calm (Bsw.bsw_delegate ?pk ?sk _ _ _) = Fine (?r, _) => 
    assert (W : Bsw.bsw_delegate pk sk (attr_args m) t 0 = Ok (r, n)) by (destruct (Bsw.bsw_delegate _ _ _ _ _); cbn in G; congruence);
    destruct r as [del|]; fine; pose proof (proj1 (delegate_said pk sk (attr_args m) t 0)) as V; rewrite W in V end.
  unfold said_bsw_delegate in *. destruct (negb _); [discriminate V|]. destruct (length _ =? 0)%nat; [discriminate V|]. reflexivity.
Qed.

Definition keeps_going (s : scheme) : bool := match s with BSW | AW11 | BDABE | MKE08 => true | _ => false end.
Definition encrypt_output (m : args) (s : scheme) (lang : language) (len : nat) : string :=
  "parsed " ++ number len ++ " bytes" ++ nls ++
  (if keeps_going s then match parse (text_arg m POLICY) lang with
                          | Err => parse_line pest (text_arg m POLICY) lang ++ nls
                          | _ => ""
                          end else "") ++
  wrote (enc_ct_file m).
Lemma try_draw {F A} pol lang (sd : said (A * nat)) (r : told (A * nat)) (t : nat -> F) (mm : rand F A) d o d' a :
  plainly pest pol lang sd (mm t 0) -> forget r = mm t 0 -> htry (hdraw (fst sd) r) d = (o, (d', Fine a)) ->
  o = match parse pol lang with Err => parse_line pest pol lang ++ nls | _ => "" end /\ d' = d.
Proof.
  intros (_ & S1 & S2) G H. apply try_fine in H. unfold hdraw, hcall in H. injection H as <- <- _. split; [|reflexivity].
  destruct (parse pol lang) as [v| |]; try (rewrite S2 by discriminate; reflexivity).
  destruct (S1 eq_refl) as [_ ->]. reflexivity.
Qed.
Lemma encrypt_out t nonce m s lang d o d' x : show_encrypt E place fe pest T t nonce m s lang d = (o, (d', Fine x)) ->
  exists text, fs_open d (text_arg m FILE) = Some text /\ o = encrypt_output m s lang (String.length text).
Proof.
  unfold show_encrypt, encrypt_output. cbn zeta. intros H. fine. exists x2. split; [assumption|]. rewrite !sapp_assoc. do 4 f_equal.
  destruct s; cbn [keeps_going]; fine; try (destruct (enc_pk_files m) as [|f []]; fine; try reflexivity).
  all: match goal with
       | G : hdraw _ _ _ = (?o, (?d, _)) |- _ => eapply silent_draw in G; [|apply cp_encrypt_said|apply cp_encrypt_forget]
       | G : htry (hdraw [] _) _ = _ |- _ => apply try_fine in G; unfold hdraw, hcall in G; injection G as <- <- _
       | G : htry _ _ = _ |- _ => eapply try_draw in G;
           [|first [apply bsw_encrypt_said|apply aw_encrypt_said|apply bd_encrypt_said|apply mk_encrypt_said]
            |first [apply bsw_encrypt_forget|apply aw_encrypt_forget|apply bd_encrypt_forget|apply mk_encrypt_forget]; exact L]
       end.
  all: try match goal with G : _ /\ _ |- _ => destruct G as (-> & ->) end; fine; reflexivity.
Qed.

(** Only an empty plaintext is written without a panic. *)
Definition decrypt_output (m : args) : string := wrote (pop (pop (pop (text_arg m FILE)))).
Lemma decrypt_out m s d o d' x : show_decrypt E place fe pest T m s d = (o, (d', Fine x)) ->
  o = decrypt_output m /\ d' = d /\ open_file E m s d = (d, Ok "").
Proof.
  unfold show_decrypt, decrypt_output. intros H. fine.
  pose proof (plain_open L E place fe pest T m s d) as G. unfold plain in G. rewrite H in G. cbn in G.
  assert (Q : x0 = "" /\ x1 = d).
  { unfold show_open in H. cbn zeta in H. destruct s; fine;
    match goal with G : hcall _ _ _ = _ |- _ => eapply silent_call in G; [exact G| |] end.
    - apply cp_decrypt_said. - apply cp_decrypt_forget.
    - apply kp_decrypt_said. - apply kp_decrypt_forget.
    - apply aw_decrypt_said. - apply (aw_decrypt_forget L).
    - apply bd_decrypt_said. - apply bd_decrypt_forget; exact L.
    - apply bsw_decrypt_said. - apply bsw_decrypt_forget; exact L.
    - apply lsw_decrypt_said. - apply lsw_decrypt_forget; exact L.
    - apply mk_decrypt_said. - apply mk_decrypt_forget; exact L.
    - apply yct_decrypt_said. - apply yct_decrypt_forget; exact L. }
  destruct Q as (-> & ->). unfold said_write_from_vec, sbind, still, say, write_from_vec in H0.
  destruct (fs_open _ _); [|discriminate H0]. destruct x2; [|discriminate H0]. injection H0 as <- <-.
  split; [|split; [reflexivity|now symmetry]]. unfold wrote_line, wrote, printed. cbn [map String.concat fst snd List.app]. now rewrite sapp_assoc.
Qed.

Lemma req_pk_out m s d o d' x : show_req_attr_pk E fe T m s d = (o, (d', Fine x)) ->
  (s = MKE08 \/ s = BDABE) /\ o = wrote (file_arg m PKA_FILE).
Proof.
  unfold show_req_attr_pk. cbn zeta. intros H. destruct (req_attrs m) as [|a []]; fine. destruct s; fine; auto.
Qed.

(** A refused request for a secret key of BDABE. *)
Definition refusal (e : rabe_error) : string := "Error: Error: " ++ details e ++ nls.
Lemma req_sk_out m s d o d' x : show_req_attr_sk E fe T m s d = (o, (d', Fine x)) ->
  (s = MKE08 \/ s = BDABE) /\
  (o = wrote (file_arg m SKA_FILE) \/
   s = BDABE /\ d' = d /\ exists a usk au e, req_attrs m = [a] /\
     ser_dec E (c_bd_uk (e_wire E)) (file_arg m SK_FILE) d = (d, Ok usk) /\
     ser_dec E (c_bd_auth (e_wire E)) (file_arg m AU_SK_FILE) d = (d, Ok au) /\
     told_bd_request_sk fe (Bdabe.buk_pk usk) au a = Tell e /\ o = refusal e).
Proof.
  unfold show_req_attr_sk. cbn zeta. intros H. destruct (req_attrs m) as [|a []]; fine. destruct s; fine; auto. split; [auto|].
  apply try_fine in H1. unfold hcall in H1. injection H1 as <- <- V.
  match goal with r : (rabe_error + _)%type |- _ => destruct r as [e|k] end; fine; [|now left]. right. split; [reflexivity|].
  split; [reflexivity|]. eexists a, _, _, e. split; [reflexivity|]. split; [apply told_ser; eassumption|].
  split; [apply told_ser; eassumption|]. split; [exact V|]. unfold refusal, error_display. reflexivity.
Qed.
End Output.

(** ** The program *)

Section Main.
Context {C : crypto} (L : laws C) (E : env C).
Variable place : language -> string -> location.
Variable fe : field_error.
Variable pest : language -> string -> string.
Variable debug : string -> string.
Variable T : crate_texts.
Notation main := (main E place fe pest debug T).
Notation show := (show E place fe pest debug T).

Lemma main_app t nonce s l sub d : exists text,
  let r := app E t nonce text s l sub d in snd (main t nonce s l sub d) = (fst r, status (snd r)).
Proof.
  unfold ConsolePrints.main, app. destruct s as [s|]; [|now exists ""]. destruct sub as [[name given]|]; [|now exists ""].
  destruct (command_of name) as [c|]; [|now exists ""].
  destruct (plain_show L E place fe pest debug T t nonce c (matches c given) (scheme_of s) (lang_of l) d) as (text & H). exists text.
  cbn zeta. rewrite <- H. unfold plain.
  destruct (show t nonce c (matches c given) (scheme_of s) (lang_of l) d) as (o & d' & [x|e|]); reflexivity.
Qed.

Lemma main_zero t nonce s l name c given d o d' : command_of name = Some c ->
  main t nonce (Some s) l (Some (name, given)) d = (o, (d', 0)) ->
  exists x, show t nonce c (matches c given) (scheme_of s) (lang_of l) d = (o, (d', Fine x)).
Proof.
  intros N. unfold ConsolePrints.main. rewrite N.
  destruct (show t nonce c (matches c given) (scheme_of s) (lang_of l) d) as (o1 & d1 & [x|e|]); cbn [finish]; intros H; injection H; intros; try discriminate.
  subst. eauto.
Qed.

Lemma main_one t nonce s l sub d o d' : main t nonce s l sub d = (o, (d', 1)) ->
  s = None /\ o = "Application error: Scheme missing" ++ nls \/
  exists before details, o = before ++ "Application Error: Error: " ++ details ++ nls.
Proof.
  unfold ConsolePrints.main. destruct s as [s|]; [|intros H; injection H as <- _; auto].
  destruct sub as [[name given]|]; [|intros H; discriminate H].
  destruct (command_of name) as [c|]; [|intros H; discriminate H]. right.
  destruct (show t nonce c _ (scheme_of s) _ d) as (o1 & d1 & [x|e|]); cbn [finish] in H; try discriminate H.
  injection H as <- _. exists o1, (details e). reflexivity.
Qed.

Lemma main_announced t nonce s l sub d o d' n p : main t nonce s l sub d = (o, (d', n)) ->
  fs_files d' p <> fs_files d p -> within (wrote p) o.
Proof.
  unfold ConsolePrints.main. destruct s as [s|]; [|intros H; injection H as <- <- <-; congruence].
  destruct sub as [[name given]|]; [|intros H; injection H as <- <- <-; congruence].
  destruct (command_of name) as [c|]; [|intros H; injection H as <- <- <-; congruence].
  intros H D. pose proof (show_announced E place fe pest debug T t nonce c (matches c given) (scheme_of s) (lang_of l) d p) as A.
  destruct (show t nonce c _ (scheme_of s) _ d) as (o1 & d1 & [x|e|]); cbn [finish fst snd] in *; injection H as <- <- <-; auto.
  destruct (A D) as (y & z & ->). exists y, (z ++ "Application Error: " ++ error_display e ++ nls). now rewrite !sapp_assoc.
Qed.

Lemma show_same t t' nonce nonce' c m s lang d o d1 o' d1' :
  show t nonce c m s lang d = (o, (d1, Fine tt)) -> show t' nonce' c m s lang d = (o', (d1', Fine tt)) -> o = o'.
Proof.
  destruct c; cbn [ConsolePrints.show]; intros H H'.
  - apply setup_out in H, H'. congruence.
  - apply authgen_out in H, H'. congruence.
  - assert (D : {s = YCT14} + {s <> YCT14}) by (destruct s; (now left) || (right; discriminate)). destruct D as [->|N].
    + apply (yct_keygen_out L) in H as (f & F & ->), H' as (f' & F' & ->).
      rewrite F in F'. injection F' as F'. apply ParseProofs.tree_inj in F'. congruence.
    + apply keygen_out in H, H'; congruence.
  - apply delegate_out in H as [_ ->], H' as [_ ->]. reflexivity.
  - apply encrypt_out in H as (x & X & ->), H' as (y & Y & ->). congruence.
  - apply (decrypt_out L) in H as (-> & _), H' as (-> & _). reflexivity.
  - apply req_pk_out in H as (_ & ->), H' as (_ & ->). reflexivity.
  - rewrite H in H'. injection H' as <- _. reflexivity.
Qed.
End Main.
