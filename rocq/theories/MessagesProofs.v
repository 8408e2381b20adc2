(** * The texts of errors: what they say *)
From Coq Require Import String List Bool Arith Lia.
From Verif Require Import Base Crypto Policy Tools Sharing Spec PolicyProofs Poly SharingProofs Parse ParseProofs
  Symmetric SchemeLib CoreProofs Msp Dnf DnfProofs Errors Bdabe Mke08 Bsw Ghw11 Lsw Yct14 Ac17 Aw11 ValueProofs
  RobustProofs Messages.
Import ListNotations.
Local Open Scope string_scope.

(** ** Parts that report no error *)

Definition quiet {A} (o : outcome A) : Prop := o <> Err.
Definition rquiet {F A} (m : rand F A) : Prop := forall t i, m t i <> Err.

Lemma quiet_ok {A} (a : A) : quiet (Ok a).
Proof. discriminate. Qed.

Lemma quiet_panic {A} : quiet (@Panic A).
Proof. discriminate. Qed.

Lemma quiet_unwrap {A} (o : option A) : quiet (unwrap o).
Proof. destruct o; discriminate. Qed.

Lemma quiet_unwrap_res {A} (o : outcome A) : quiet (unwrap_res o).
Proof. destruct o; discriminate. Qed.

Lemma quiet_bind {A B} (m : outcome A) (k : A -> outcome B) :
  quiet m -> (forall a, quiet (k a)) -> quiet (obind m k).
Proof. intros M K. destruct m; cbn; [apply K|now destruct M|discriminate]. Qed.

Lemma quiet_map {A B} (f : A -> outcome B) l : (forall a, quiet (f a)) -> quiet (omap f l).
Proof.
  intros H. induction l as [|a l IH]; [discriminate|]. cbn [omap].
  apply quiet_bind; [apply H|]. intros b. apply quiet_bind; [exact IH|discriminate].
Qed.

Lemma quiet_fold {A B} (f : B -> A -> outcome B) l : (forall b a, quiet (f b a)) ->
  forall acc, quiet (ofold f l acc).
Proof.
  intros H. induction l as [|a l IH]; intros acc; [discriminate|]. cbn [ofold].
  apply quiet_bind; [apply H|exact IH].
Qed.

Lemma rquiet_ret {F A} (a : A) : rquiet (F := F) (rret a).
Proof. discriminate. Qed.

Lemma rquiet_draw {F} : rquiet (F := F) draw.
Proof. discriminate. Qed.

Lemma rquiet_lift {F A} (o : outcome A) : quiet o -> rquiet (F := F) (rlift o).
Proof. intros Q t i. unfold rlift. destruct o; [discriminate|now destruct Q|discriminate]. Qed.

Lemma rquiet_bind {F A B} (m : rand F A) (k : A -> rand F B) :
  rquiet m -> (forall a, rquiet (k a)) -> rquiet (rbind m k).
Proof.
  intros M K t i. unfold rbind. specialize (M t i). destruct (m t i) as [[a j]| |]; [apply K|now destruct M|discriminate].
Qed.

Lemma rquiet_map {F A B} (f : A -> rand F B) l : (forall a, rquiet (f a)) -> rquiet (rmap f l).
Proof.
  intros H. induction l as [|a l IH]; [discriminate|]. cbn [rmap].
  apply rquiet_bind; [apply H|]. intros b. apply rquiet_bind; [exact IH|]. intros c. apply rquiet_ret.
Qed.

Lemma rquiet_draws {F} n : rquiet (F := F) (draws n).
Proof.
  induction n as [|n IH]; [discriminate|]. cbn [draws].
  apply rquiet_bind; [apply rquiet_draw|]. intros b. apply rquiet_bind; [exact IH|]. intros c. apply rquiet_ret.
Qed.

Lemma forget_bind {A B} (r : told A) (k : A -> told B) :
  forget (tbind r k) = obind (forget r) (fun a => forget (k a)).
Proof. now destruct r. Qed.

Lemma forget_text {A} e (o : outcome A) : forget (with_text e o) = o.
Proof. now destruct o. Qed.

Lemma forget_calm {A} (o : outcome A) : quiet o -> forget (calm o) = o.
Proof. intros Q. destruct o; [reflexivity|now destruct Q|reflexivity]. Qed.

Lemma obind_ext {A B} (m : outcome A) (k k' : A -> outcome B) :
  (forall a, m = Ok a -> k a = k' a) -> obind m k = obind m k'.
Proof. destruct m; cbn; auto. Qed.

Lemma obind_assoc {A B D} (m : outcome A) (k : A -> outcome B) (h : B -> outcome D) :
  obind (obind m k) h = obind m (fun a => obind (k a) h).
Proof. now destruct m. Qed.

Ltac hush := repeat first
  [ apply quiet_ok | apply quiet_panic | apply quiet_unwrap | apply quiet_unwrap_res | apply rquiet_ret
  | apply rquiet_draw | apply rquiet_draws
  | apply quiet_bind; [|intros ?] | apply quiet_map; intros ? | apply quiet_fold; intros ? ?
  | apply rquiet_lift | apply rquiet_bind; [|intros ?] | apply rquiet_map; intros ?
  | match goal with
    | |- quiet (idx _ _) => unfold idx
    | |- quiet (is_negative ?a) => unfold is_negative; destruct a
    | |- quiet (if ?b then _ else _) => destruct b
    | |- quiet (match ?x with _ => _ end) => destruct x
    | |- rquiet (if ?b then _ else _) => destruct b
    | |- rquiet (match ?x with _ => _ end) => destruct x
    | |- rquiet draw_gt => unfold draw_gt
    | |- rquiet draw_g1 => unfold draw_g1
    | |- rquiet draw_g2 => unfold draw_g2
    | |- quiet (encrypt_symmetric _ _ _) => unfold encrypt_symmetric
    | |- rquiet (gen_shares_policy _ _ _) => intros ? ?; apply shares_no_err
    end ].

Section Texts.
Context {C : crypto} (L : laws C).
Variable place : language -> string -> location.
Variable fe : field_error.

Lemma quiet_ghw_step (tk : ghw_tk C) ct z st cur : quiet (ghw_step tk ct z st cur).
Proof. unfold ghw_step. hush. Qed.
Lemma quiet_lsw_step (sk : lsw_sk C) ct z st cur : quiet (lsw_step sk ct z st cur).
Proof. unfold lsw_step. hush. Qed.
Lemma quiet_yct_step (sk : yct_sk C) ct z st cur : quiet (yct_step sk ct z st cur).
Proof. unfold yct_step. hush. Qed.
Lemma quiet_aw_step (sk : aw_sk C) ct z h st cur : quiet (aw_step sk ct z h st cur).
Proof. unfold aw_step. hush. Qed.
Lemma quiet_products (sk : ac_sk C) ct kp sel : quiet (ac_products sk ct kp sel).
Proof. unfold ac_products, select_sum. hush. Qed.

(** ** Forgetting the texts *)

(** A function on a tape that reads a policy and reports no other error. *)
Lemma forget_read {A} (m : rand (F C) A) p l t i :
  (parse p l = Err -> m t i = Err) -> (parse p l = Panic -> m t i = Panic) ->
  (forall v, parse p l = Ok v -> rquiet m) ->
  forget (tbind (told_parse place p l) (fun _ => calm (m t i))) = m t i.
Proof.
  intros E P Q. unfold told_parse. rewrite forget_bind, forget_text.
  destruct (parse p l) as [v| |]; cbn [obind]; [|symmetry; auto|symmetry; auto].
  apply forget_calm. now apply (Q v).
Qed.

Ltac reads f := apply forget_read;
  [ intros E; unfold f, rbind, draw, draw_gt, draw_g1, rlift; rewrite E; reflexivity
  | intros E; unfold f, rbind, draw, draw_gt, draw_g1, rlift; rewrite E; reflexivity
  | intros v E; unfold f; rewrite E; hush ].

Lemma quiet_calc (v : pvalue) : (exists f, v = tree f) -> quiet (obind (calc_coefficients (C := C) v (f1 C) [] None) unwrap).
Proof. intros [f ->]. rewrite calc_coefficients_eq by exact L. discriminate. Qed.

Lemma bsw_encrypt_forget nonce (pk : bsw_pk C) p l d t i :
  forget (told_bsw_encrypt place nonce pk p l d t i) = bsw_encrypt nonce pk p l d t i.
Proof. reads @bsw_encrypt. Qed.

Lemma ghw_encrypt_forget nonce (pk : ghw_pk C) p l d t i :
  forget (told_ghw_encrypt place nonce pk p l d t i) = ghw_encrypt nonce pk p l d t i.
Proof. reads @ghw_encrypt. Qed.

Lemma lsw_keygen_forget (pk : lsw_pk C) msk p l t i :
  forget (told_lsw_keygen place pk msk p l t i) = lsw_keygen pk msk p l t i.
Proof. reads @lsw_keygen. Qed.

Lemma quiet_du (msk : yct_msk C) sh : quiet (yct_du msk sh).
Proof.
  induction sh as [|x sh IH]; cbn [yct_du]; [discriminate|].
  destruct (private_from _ _); [apply quiet_bind; [exact IH|discriminate]|exact IH|discriminate].
Qed.

Lemma yct_keygen_forget (msk : yct_msk C) p l t i :
  forget (told_yct_keygen place msk p l t i) = yct_keygen msk p l t i.
Proof. reads @yct_keygen. apply quiet_du. Qed.

Lemma aw_encrypt_forget nonce (gk : aw_gk C) pks p l d t i :
  forget (told_aw_encrypt place nonce gk pks p l d t i) = aw_encrypt nonce gk pks p l d t i.
Proof. reads @aw_encrypt. Qed.

Lemma kp_keygen_forget (msk : ac_msk C) p l t i :
  forget (told_kp_keygen place msk p l t i) = kp_keygen msk p l t i.
Proof. reads @kp_keygen; unfold draw_br, ac_k0, kp_entry, kp_last, entry_at, hash_prod; hush. Qed.

Lemma cp_keygen_forget (msk : ac_msk C) attrs t i :
  forget (told_cp_keygen msk attrs t i) = cp_keygen msk attrs t i.
Proof.
  unfold told_cp_keygen. destruct attrs as [|a r]; [reflexivity|]. cbn [length Nat.eqb].
  apply forget_calm. revert t i. change (rquiet (cp_keygen msk (a :: r))).
  unfold cp_keygen, draw_br, ac_k0, hash_prod. hush.
Qed.

Lemma cp_encrypt_forget nonce (pk : ac_pk C) p d l t i :
  forget (told_cp_encrypt place fe nonce pk p d l t i) = cp_encrypt nonce pk p d l t i.
Proof.
  unfold told_cp_encrypt, told_parse. rewrite forget_bind, forget_text.
  destruct (parse p l) as [v| |] eqn:E; cbn [obind]; [apply forget_text| |];
    unfold cp_encrypt, rbind, rlift; rewrite E; reflexivity.
Qed.

Lemma kp_encrypt_forget nonce (pk : ac_pk C) attrs d t i :
  forget (told_kp_encrypt fe nonce pk attrs d t i) = kp_encrypt nonce pk attrs d t i.
Proof. apply forget_text. Qed.

Lemma quiet_sx l : forall i (sx : list (F C)), rquiet (lsw_sx i l sx).
Proof. induction l as [|a l IH]; intros i sx; cbn [lsw_sx]; hush. apply IH. Qed.

Lemma quiet_ejs (pk : lsw_pk C) s sx l : forall i, quiet (lsw_ejs pk s sx i l).
Proof. induction l as [|a l IH]; intros i; cbn [lsw_ejs]; hush. apply IH. Qed.

Lemma lsw_encrypt_forget nonce (pk : lsw_pk C) attrs d t i :
  forget (told_lsw_encrypt nonce pk attrs d t i) = lsw_encrypt nonce pk attrs d t i.
Proof.
  unfold told_lsw_encrypt. destruct attrs as [|a r]; [reflexivity|]. destruct d as [|c d]; [reflexivity|].
  cbn [length String.length Nat.eqb orb].
  apply forget_calm. revert t i. change (rquiet (lsw_encrypt nonce pk (a :: r) (String c d))).
  unfold lsw_encrypt. hush; [apply quiet_sx|apply quiet_ejs].
Qed.

Lemma yct_encrypt_forget nonce (pk : yct_pk C) attrs d t i :
  forget (told_yct_encrypt nonce pk attrs d t i) = yct_encrypt nonce pk attrs d t i.
Proof.
  unfold told_yct_encrypt. destruct attrs as [|a r]; [reflexivity|]. destruct d as [|c d]; [reflexivity|].
  cbn [length String.length Nat.eqb].
  apply forget_calm. revert t i. change (rquiet (yct_encrypt nonce pk (a :: r) (String c d))).
  unfold yct_encrypt, public_from. hush.
Qed.

Lemma bd_encrypt_forget nonce (pk : bd_pk C) ks p l d t i :
  forget (told_bd_encrypt place nonce pk ks p l d t i) = bd_encrypt nonce pk ks p l d t i.
Proof.
  unfold told_bd_encrypt, told_parse. rewrite forget_bind, forget_text.
  destruct (parse p l) as [v| |] eqn:E; cbn [obind].
  - destruct (policy_in_dnf v false None) eqn:D.
    + apply forget_calm. unfold bd_encrypt, rbind at 1, rlift at 1. rewrite E, D.
      refine ((_ : rquiet _) t i).
      unfold bd_tuple_of. hush.
    + unfold bd_encrypt, rbind at 1, rlift at 1. rewrite E, D. reflexivity.
  - unfold bd_encrypt, rbind, rlift. rewrite E. reflexivity.
  - unfold bd_encrypt, rbind, rlift. rewrite E. reflexivity.
Qed.

Lemma mk_encrypt_forget nonce (pk : mk_pk C) ks p l d t i :
  forget (told_mk_encrypt place nonce pk ks p l d t i) = mk_encrypt nonce pk ks p l d t i.
Proof.
  unfold told_mk_encrypt, told_parse. rewrite forget_bind, forget_text.
  destruct (parse p l) as [v| |] eqn:E; cbn [obind].
  - destruct (policy_in_dnf v false None) eqn:D.
    + apply forget_calm. unfold mk_encrypt, rbind at 1, rlift at 1. rewrite E, D.
      refine ((_ : rquiet _) t i).
      unfold mk_conj_of. hush.
    + unfold mk_encrypt, rbind at 1, rlift at 1. rewrite E, D. reflexivity.
  - unfold mk_encrypt, rbind, rlift. rewrite E. reflexivity.
  - unfold mk_encrypt, rbind, rlift. rewrite E. reflexivity.
Qed.

(** [request_*] and the keys of AW11. *)
Ltac peel := repeat (rewrite ?forget_bind, ?forget_text; apply obind_ext; intros ? _); try reflexivity.

Lemma bd_request_pk_forget (pk : bd_pk C) au a : forget (told_bd_request_pk fe pk au a) = bd_request_pk pk au a.
Proof. unfold told_bd_request_pk, bd_request_pk, told_hash_fr. destruct (from_authority _ _); [|reflexivity]. peel. Qed.

Lemma bd_request_sk_forget (pk : bd_upk C) au a : forget (told_bd_request_sk fe pk au a) = bd_request_sk pk au a.
Proof. unfold told_bd_request_sk, bd_request_sk, told_hash_fr. destruct (_ && _); [|reflexivity]. peel. Qed.

Lemma mk_request_pk_forget (pk : mk_pk C) a au : forget (told_mk_request_pk fe pk a au) = mk_request_pk pk a au.
Proof. unfold told_mk_request_pk, mk_request_pk, told_hash_fr. destruct (from_authority _ _); [|reflexivity]. peel. Qed.

Lemma mk_request_sk_forget (pk : mk_upk C) a au : forget (told_mk_request_sk fe pk a au) = mk_request_sk pk a au.
Proof. unfold told_mk_request_sk, mk_request_sk, told_hash_fr. destruct (_ && _); [|reflexivity]. peel. Qed.

Lemma seqb_empty s : seqb s "" = (String.length s =? 0)%nat.
Proof. now destruct s. Qed.

Lemma aw_add_forget (gk : aw_gk C) msk a sk : forget (told_aw_add fe gk msk a sk) = aw_add gk msk a sk.
Proof.
  unfold told_aw_add, aw_add, told_hash_g1. rewrite !seqb_empty.
  destruct (String.length a =? 0)%nat; [reflexivity|]. destruct (String.length (awsk_gid sk) =? 0)%nat; [reflexivity|].
  rewrite forget_bind, forget_text. apply obind_ext. intros h _. rewrite forget_bind, forget_calm by hush.
  reflexivity.
Qed.

Lemma aw_adds_forget (gk : aw_gk C) msk l : forall sk,
  forget (told_aw_adds fe gk msk l sk) = ofold (fun sk a => aw_add gk msk a sk) l sk.
Proof.
  induction l as [|a l IH]; intros sk; [reflexivity|]. cbn [told_aw_adds ofold].
  rewrite forget_bind, aw_add_forget. apply obind_ext. intros sk' _. apply IH.
Qed.

Lemma aw_keygen_forget (gk : aw_gk C) msk n l : forget (told_aw_keygen fe gk msk n l) = aw_keygen gk msk n l.
Proof.
  unfold told_aw_keygen, aw_keygen. destruct l as [|a r]; [reflexivity|]. cbn [length Nat.eqb].
  rewrite seqb_empty. destruct (String.length n =? 0)%nat; [reflexivity|]. apply aw_adds_forget.
Qed.

(** Decryption. *)
Ltac opening := rewrite forget_bind; unfold told_parse at 1; rewrite forget_text; apply obind_ext; intros v PV;
  try (destruct (traverse_policy _ v Leaf); cbn [negb]; [|reflexivity]).

Lemma bsw_decrypt_forget (sk : bsw_sk C) ct : forget (told_bsw_decrypt place sk ct) = bsw_decrypt sk ct.
Proof.
  unfold told_bsw_decrypt, bsw_decrypt. opening.
  unfold told_pruned. rewrite forget_bind, forget_text. apply obind_ext. intros pr _.
  destruct (fst pr); cbn [negb]; [|reflexivity].
  rewrite forget_bind, forget_calm by (apply quiet_calc; destruct (parse_shape _ _ _ PV) as (f & E & _); eauto).
  rewrite obind_assoc. apply obind_ext. intros o _. apply obind_ext. intros z _. apply forget_text.
Qed.

Lemma ghw_transform_forget (ct : ghw_ct C) tk : forget (told_ghw_transform place ct tk) = ghw_transform ct tk.
Proof.
  unfold told_ghw_transform, ghw_transform. opening.
  unfold told_pruned. rewrite forget_bind, forget_text. apply obind_ext. intros pr _.
  rewrite forget_bind, forget_calm by (apply quiet_calc; destruct (parse_shape _ _ _ PV) as (f & E & _); eauto).
  rewrite obind_assoc. apply obind_ext. intros o _. apply obind_ext. intros z _.
  destruct (fst pr); [|reflexivity].
  rewrite forget_bind, forget_calm by (apply quiet_fold; intros; apply quiet_ghw_step). reflexivity.
Qed.

Lemma ghw_out_forget (pct : ghw_tct C) z d : forget (told_ghw_out pct z d) = ghw_decrypt_out pct z d.
Proof. apply forget_text. Qed.

Lemma lsw_decrypt_forget (sk : lsw_sk C) ct : forget (told_lsw_decrypt place sk ct) = lsw_decrypt sk ct.
Proof.
  unfold told_lsw_decrypt, lsw_decrypt. opening.
  unfold told_pruned. rewrite forget_bind, forget_text. apply obind_ext. intros pr _.
  destruct (fst pr); [|reflexivity].
  rewrite forget_bind, forget_calm by (apply quiet_calc; destruct (parse_shape _ _ _ PV) as (f & E & _); eauto).
  rewrite obind_assoc. apply obind_ext. intros o _. apply obind_ext. intros z _.
  rewrite forget_bind, forget_calm by (apply quiet_fold; intros; apply quiet_lsw_step).
  apply obind_ext. intros st _. apply forget_text.
Qed.

Lemma yct_decrypt_forget (sk : yct_sk C) ct : forget (told_yct_decrypt place sk ct) = yct_decrypt sk ct.
Proof.
  unfold told_yct_decrypt, yct_decrypt. opening.
  unfold told_pruned. rewrite forget_bind, forget_text. apply obind_ext. intros pr _.
  destruct (fst pr); [|reflexivity].
  rewrite forget_bind, forget_calm by (apply quiet_calc; destruct (parse_shape _ _ _ PV) as (f & E & _); eauto).
  rewrite obind_assoc. apply obind_ext. intros o _. apply obind_ext. intros z _.
  rewrite forget_bind, forget_calm by (apply quiet_fold; intros; apply quiet_yct_step).
  apply obind_ext. intros st _. apply forget_text.
Qed.

Lemma aw_decrypt_forget (gk : aw_gk C) sk ct : forget (told_aw_decrypt place fe gk sk ct) = aw_decrypt gk sk ct.
Proof.
  unfold told_aw_decrypt, aw_decrypt. opening.
  unfold told_pruned. rewrite forget_bind, forget_text. apply obind_ext. intros pr _.
  rewrite forget_bind, forget_calm by (apply quiet_calc; destruct (parse_shape _ _ _ PV) as (f & E & _); eauto).
  rewrite obind_assoc. apply obind_ext. intros o _. apply obind_ext. intros z _.
  destruct (fst pr); [|reflexivity].
  unfold told_hash_g1. rewrite forget_bind, forget_text. apply obind_ext. intros h _.
  rewrite forget_bind, forget_calm by (apply quiet_fold; intros; apply quiet_aw_step).
  apply obind_ext. intros st _. apply forget_text.
Qed.

Lemma bd_decrypt_forget (sk : bd_uk C) ct : forget (told_bd_decrypt place sk ct) = bd_decrypt sk ct.
Proof. unfold told_bd_decrypt, bd_decrypt. opening. apply forget_text. Qed.

Lemma mk_decrypt_forget (sk : mk_uk C) ct : forget (told_mk_decrypt place sk ct) = mk_decrypt sk ct.
Proof. unfold told_mk_decrypt, mk_decrypt. opening. apply forget_text. Qed.

Lemma ac_open_forget m m' a p (sk : ac_sk C) ct kp : forget (told_ac_open place m m' a p sk ct kp) = ac_open a p sk ct kp.
Proof.
  unfold told_ac_open, ac_open. opening.
  unfold told_pruned. rewrite forget_bind, forget_text. apply obind_ext. intros pr _.
  destruct (fst pr); [|reflexivity].
  rewrite forget_bind, forget_calm by apply quiet_products.
  apply obind_ext. intros st _. apply forget_text.
Qed.

Lemma cp_decrypt_forget (sk : ac_cpsk C) ct : forget (told_cp_decrypt place sk ct) = cp_decrypt sk ct.
Proof. apply ac_open_forget. Qed.

Lemma kp_decrypt_forget (sk : ac_kpsk C) ct : forget (told_kp_decrypt place sk ct) = kp_decrypt sk ct.
Proof. apply ac_open_forget. Qed.

(** ** What each text means *)

(** The error for a policy that cannot be read. *)
Definition unread (policy : string * language) : rabe_error :=
  from_parse_error (snd policy) (place (snd policy) (fst policy)).

(** The reasons of an error: the policy cannot be read; the attributes do not fit; something [late]. *)
Definition reasons (policy : string * language) (unfit : formula -> Prop) (mismatch : rabe_error)
  (late : rabe_error -> Prop) (e : rabe_error) : Prop :=
  (parse (fst policy) (snd policy) = Err /\ e = unread policy) \/
  exists f, parse (fst policy) (snd policy) = Ok (tree f) /\
    ((unfit f /\ e = mismatch) \/ (~ unfit f /\ late e)).

(** No attribute at all, or the formula is false of those at hand. *)
Definition unfit (attrs : list string) (f : formula) : Prop :=
  attrs = [] \/ sat (owns attrs) f = false.

Lemma unfit_traverse attrs f ty : unfit attrs f <-> traverse_policy attrs (tree f) ty = false.
Proof.
  pose proof (access_exact attrs f ty) as [A B]. unfold unfit.
  destruct (traverse_policy attrs (tree f) ty); split; intros H; try discriminate; try reflexivity.
  - destruct (A eq_refl) as [N S]. destruct H as [H|H]; [now destruct N|congruence].
  - destruct attrs as [|a r]; [now left|right]. destruct (sat _ f); [|reflexivity].
    assert (X : false = true) by (apply B; split; [discriminate|reflexivity]). discriminate X.
Qed.

Lemma tell_forget {A} (r : told A) e : r = Tell e -> forget r = Err.
Proof. now intros ->. Qed.

Lemma forget_tell {A} (r : told A) : forget r = Err -> exists e, r = Tell e.
Proof. destruct r; [discriminate|eauto|discriminate]. Qed.

(** The common shape of decryption. *)
Lemma reasons_exact {A} policy (un : formula -> Prop) mismatch late (k : pvalue -> told A) e :
  (forall f, parse (fst policy) (snd policy) = Ok (tree f) -> (un f /\ k (tree f) = Tell mismatch) \/
     (~ un f /\ (k (tree f) = Tell e <-> late e))) ->
  tbind (told_parse place (fst policy) (snd policy)) k = Tell e <-> reasons policy un mismatch late e.
Proof.
  intros H. unfold told_parse, reasons, unread.
  destruct (parse (fst policy) (snd policy)) as [v| |] eqn:P; cbn [with_text tbind].
  - destruct (parse_shape _ _ _ P) as (f & -> & _). specialize (H f eq_refl). split.
    + intros T. right. exists f. split; [reflexivity|]. destruct H as [[U M]|[U M]].
      * left. split; [exact U|]. congruence.
      * right. split; [exact U|]. now apply M.
    + intros [[X _]|(g & X & R)]; [discriminate|]. injection X as X. apply tree_inj in X. subst g.
      destruct H as [[U M]|[U M]]; destruct R as [[U' R]|[U' R]]; try contradiction.
      * now rewrite R.
      * now apply M.
  - split; [intros T; left; split; [reflexivity|congruence]|]. intros [[_ ->]|(f & X & _)]; [reflexivity|discriminate].
  - split; [discriminate|]. intros [[X _]|(f & X & _)]; discriminate.
Qed.

(** The decision on the attributes first, the rest only with the text [unsealed]. *)
Lemma gate_reasons {A} policy attrs mismatch (late : rabe_error -> Prop) (k : pvalue -> told A) e :
  (forall f, parse (fst policy) (snd policy) = Ok (tree f) -> traverse_policy attrs (tree f) Leaf = true ->
     (k (tree f) = Tell e <-> late e)) ->
  tbind (told_parse place (fst policy) (snd policy))
    (fun v => if negb (traverse_policy attrs v Leaf) then Tell mismatch else k v) = Tell e <->
  reasons policy (unfit attrs) mismatch late e.
Proof.
  intros H. apply reasons_exact. intros f P.
  destruct (traverse_policy attrs (tree f) Leaf) eqn:T; cbn [negb].
  - right. split; [rewrite (unfit_traverse attrs f Leaf); congruence|]. now apply H.
  - left. split; [now apply (unfit_traverse attrs f Leaf)|reflexivity].
Qed.

(** Whether the rest reports an error is told by the result; which text, by [told_only]. *)
Definition told_only {A} (r : told A) (e : rabe_error) : Prop := forall e', r = Tell e' -> e' = e.

Lemma told_only_iff {A} (r : told A) (o : outcome A) x e :
  forget r = o -> told_only r x -> (r = Tell e <-> o = Err /\ e = x).
Proof.
  intros F O. split.
  - intros T. split; [rewrite <- F; now apply tell_forget in T|now apply O].
  - intros [E ->]. rewrite <- F in E. destruct (forget_tell _ E) as [e' T]. now rewrite (O _ T) in T.
Qed.

Lemma only_text {A} (o : outcome A) x : told_only (with_text x o) x.
Proof. intros e'. destruct o; cbn; congruence. Qed.

Lemma only_calm {A} (o : outcome A) x : told_only (calm o) x.
Proof. intros e'. destruct o; cbn; congruence. Qed.

Lemma only_bind {A B} (r : told A) (k : A -> told B) x :
  told_only r x -> (forall a, r = Fine a -> told_only (k a) x) -> told_only (tbind r k) x.
Proof. 
  intros R K e'. destruct r; cbn; [now apply K| |discriminate]. intros E. injection E as <-. now apply R.
 Qed.

Lemma only_fine {A} (a : A) x : told_only (Fine a) x.
Proof. intros e'. discriminate. Qed.

(** After the gate, pruning reports no error and finds the formula true. *)
Lemma pruned_gate {A} attrs f (k : bool * list (string * string) -> told A) x :
  traverse_policy attrs (tree f) Leaf = true ->
  (forall l, told_only (k (true, l)) x) -> told_only (tbind (told_pruned attrs (tree f)) k) x.
Proof.
  intros T H. apply access_exact in T. destruct T as [_ S]. unfold told_pruned.
  destruct (calc_pruned_total attrs f None) as [E|E]; rewrite E; cbn [with_text tbind]; [intros e'; discriminate|].
  rewrite S. apply H.
Qed.

Lemma only_calc {A} (f : formula) (k : list (string * F C) -> told A) x :
  (forall z, told_only (k z) x) ->
  told_only (tbind (calm (obind (calc_coefficients (C := C) (tree f) (f1 C) [] None) unwrap)) k) x.
Proof. intros H. apply only_bind; [apply only_calm|auto]. Qed.

Lemma forget_late {A} policy (r : told A) (k : pvalue -> told A) f :
  r = tbind (told_parse place (fst policy) (snd policy)) k ->
  parse (fst policy) (snd policy) = Ok (tree f) -> r = k (tree f).
Proof. intros -> P. unfold told_parse. now rewrite P. Qed.

Theorem bsw_texts (sk : bsw_sk C) ct e :
  told_bsw_decrypt place sk ct = Tell e <->
  reasons (Bsw.bct_policy ct) (unfit (map b_string (bsk_dj sk))) bsw_mismatch
    (fun e => bsw_decrypt sk ct = Err /\ e = unsealed) e.
Proof.
  unfold told_bsw_decrypt at 1. apply gate_reasons. intros f P T.
  pose proof (bsw_decrypt_forget sk ct) as Fg. unfold told_bsw_decrypt in Fg.
  rewrite (forget_late _ _ _ _ eq_refl P) in Fg. rewrite T in Fg. cbn [negb] in Fg.
  apply told_only_iff; [exact Fg|]. apply pruned_gate; [exact T|]. intros l. cbn [fst negb].
  apply only_calc. intros z. apply only_text.
Qed.

Theorem ghw_texts (ct : ghw_ct C) tk e :
  told_ghw_transform place ct tk = Tell e <->
  reasons (gct_policy ct) (unfit (map fst (gtk_attr tk))) ghw_mismatch (fun _ => False) e.
Proof.
  unfold told_ghw_transform at 1. apply gate_reasons. intros f P T. split; [|tauto]. intros X.
  assert (O : forall x, e = x).
  { intros x. revert X. revert e.
    match goal with |- forall e, ?r = Tell e -> _ => change (told_only r x) end.
    apply pruned_gate; [exact T|]. intros l. cbn [fst].
    apply only_calc. intros z. apply only_bind; [apply only_calm|]. intros a _. apply only_fine. }
  discriminate (eq_trans (eq_sym (O (error_new "a"))) (O (error_new "b"))).
Qed.

Theorem ghw_out_texts (pct : ghw_tct C) z d e :
  told_ghw_out pct z d = Tell e <-> ghw_decrypt_out pct z d = Err /\ e = unsealed.
Proof. apply told_only_iff; [apply ghw_out_forget|apply only_text]. Qed.

Theorem aw_texts (gk : aw_gk C) sk ct e :
  told_aw_decrypt place fe gk sk ct = Tell e <->
  reasons (awct_policy ct) (unfit (map fst (awsk_attr sk))) aw_mismatch
    (fun e => aw_decrypt gk sk ct = Err /\
       e = match hash C (awsk_gid sk) with None => from_field_error fe | Some _ => unsealed end) e.
Proof.
  unfold told_aw_decrypt at 1. apply gate_reasons. intros f P T.
  pose proof (aw_decrypt_forget gk sk ct) as Fg. unfold told_aw_decrypt in Fg.
  rewrite (forget_late _ _ _ _ eq_refl P) in Fg. rewrite T in Fg. cbn [negb] in Fg.
  apply told_only_iff; [exact Fg|]. apply pruned_gate; [exact T|]. intros l. cbn [fst].
  apply only_calc. intros z. unfold told_hash_g1, sha3_hash_g1.
  destruct (hash C (awsk_gid sk)); cbn [with_text tbind].
  - apply only_bind; [apply only_calm|]. intros a _. apply only_text.
  - intros e'. congruence.
Qed.

Theorem bd_texts (sk : bd_uk C) ct e :
  told_bd_decrypt place sk ct = Tell e <->
  reasons (Bdabe.bct_policy ct) (unfit (map bask_attr (buk_ska sk))) bd_mismatch
    (fun e => bd_decrypt sk ct = Err /\ e = unsealed) e.
Proof.
  unfold told_bd_decrypt at 1. apply gate_reasons. intros f P T.
  pose proof (bd_decrypt_forget sk ct) as Fg. unfold told_bd_decrypt in Fg.
  rewrite (forget_late _ _ _ _ eq_refl P) in Fg. rewrite T in Fg. cbn [negb] in Fg.
  apply told_only_iff; [exact Fg|apply only_text].
Qed.

Theorem mk_texts (sk : mk_uk C) ct e :
  told_mk_decrypt place sk ct = Tell e <->
  reasons (mct_policy ct) (unfit (map mask_attr (muk_ska sk))) mk_mismatch
    (fun e => mk_decrypt sk ct = Err /\ e = unsealed) e.
Proof.
  unfold told_mk_decrypt at 1. apply gate_reasons. intros f P T.
  pose proof (mk_decrypt_forget sk ct) as Fg. unfold told_mk_decrypt in Fg.
  rewrite (forget_late _ _ _ _ eq_refl P) in Fg. rewrite T in Fg. cbn [negb] in Fg.
  apply told_only_iff; [exact Fg|apply only_text].
Qed.

Lemma ac_texts m m' attrs policy (sk : ac_sk C) ct kp e :
  told_ac_open place m m' attrs policy sk ct kp = Tell e <->
  reasons policy (unfit attrs) m (fun e => ac_open attrs policy sk ct kp = Err /\ e = unsealed) e.
Proof.
  unfold told_ac_open at 1. apply gate_reasons. intros f P T.
  pose proof (ac_open_forget m m' attrs policy sk ct kp) as Fg. unfold told_ac_open in Fg.
  rewrite (forget_late _ _ _ _ eq_refl P) in Fg. rewrite T in Fg. cbn [negb] in Fg.
  apply told_only_iff; [exact Fg|]. apply pruned_gate; [exact T|]. intros l. cbn [fst].
  apply only_bind; [apply only_calm|]. intros a _. apply only_text.
Qed.

Theorem cp_texts (sk : ac_cpsk C) ct e :
  told_cp_decrypt place sk ct = Tell e <->
  reasons (acp_policy ct) (unfit (acps_attr sk)) cp_mismatch (fun e => cp_decrypt sk ct = Err /\ e = unsealed) e.
Proof. apply ac_texts. Qed.

Theorem kp_texts (sk : ac_kpsk C) ct e :
  told_kp_decrypt place sk ct = Tell e <->
  reasons (akps_policy sk) (unfit (akp_attr ct)) kp_mismatch (fun e => kp_decrypt sk ct = Err /\ e = unsealed) e.
Proof. apply ac_texts. Qed.

(** LSW and YCT14 ask [calc_pruned] alone, which aborts at short nodes. *)
Definition unfit_pruned (attrs : list string) (f : formula) : Prop :=
  aborts (owns attrs) f = false /\ sat (owns attrs) f = false.

Lemma pruned_reasons {A} policy attrs mismatch (late : rabe_error -> Prop)
  (k : list (string * string) -> pvalue -> told A) e (o : outcome A) x :
  (forall e, late e <-> o = Err /\ e = x) ->
  forget (tbind (told_parse place (fst policy) (snd policy)) (fun v => tbind (told_pruned attrs v) (fun pruned =>
    if fst pruned then k (snd pruned) v else Tell mismatch))) = o ->
  (forall f l, told_only (k l (tree f)) x) ->
  tbind (told_parse place (fst policy) (snd policy)) (fun v => tbind (told_pruned attrs v) (fun pruned =>
    if fst pruned then k (snd pruned) v else Tell mismatch)) = Tell e <->
  reasons policy (unfit_pruned attrs) mismatch late e.
Proof.
  intros La Fg O. apply reasons_exact. intros f P.
  rewrite (forget_late _ _ _ _ eq_refl P) in Fg. unfold told_pruned in *. rewrite prune_exact in *.
  unfold unfit_pruned. destruct (aborts (owns attrs) f) eqn:Ab.
  - right. split; [now intros []|]. cbn [with_text tbind] in *. rewrite La. cbn in Fg. subst o.
    split; [discriminate|]. now intros [].
  - destruct (sat (owns attrs) f) eqn:S; cbn [with_text tbind fst snd] in *.
    + right. split; [now intros []|]. rewrite La. now apply told_only_iff.
    + left. repeat split.
Qed.

Theorem lsw_texts (sk : lsw_sk C) ct e :
  told_lsw_decrypt place sk ct = Tell e <->
  reasons (lsk_policy sk) (unfit_pruned (map le_name (lct_ej ct))) lsw_mismatch
    (fun e => lsw_decrypt sk ct = Err /\ e = unsealed) e.
Proof.
  apply (pruned_reasons (lsk_policy sk) (map le_name (lct_ej ct)) lsw_mismatch _ (fun l v =>
    tbind (calm (obind (calc_coefficients v (f1 C) [] None) unwrap)) (fun z =>
    tbind (calm (ofold (lsw_step sk ct z) l (gtone C, gtone C))) (fun st =>
    told_open (gtmul C (lct_e1 ct) (gtinv C (snd st))) (lct_ct ct)))) e (lsw_decrypt sk ct) unsealed).
  - reflexivity.
  - exact (lsw_decrypt_forget sk ct).
  - intros f l. apply only_calc. intros z. apply only_bind; [apply only_calm|]. intros a _. apply only_text.
Qed.

Theorem yct_texts (sk : yct_sk C) ct e :
  told_yct_decrypt place sk ct = Tell e <->
  reasons (ysk_policy sk) (unfit_pruned (map y_name (yct_attrs ct))) yct_mismatch
    (fun e => yct_decrypt sk ct = Err /\ e = unsealed) e.
Proof.
  apply (pruned_reasons (ysk_policy sk) (map y_name (yct_attrs ct)) yct_mismatch _ (fun l v =>
    tbind (calm (obind (calc_coefficients v (f1 C) [] None) unwrap)) (fun z =>
    tbind (calm (ofold (yct_step sk ct z) l (gtone C))) (fun prod =>
    told_open prod (yct_data ct)))) e (yct_decrypt sk ct) unsealed).
  - reflexivity.
  - exact (yct_decrypt_forget sk ct).
  - intros f l. apply only_calc. intros z. apply only_bind; [apply only_calm|]. intros a _. apply only_text.
Qed.

(** ** Keys and encryption *)

(** Reading a policy first, and no error after it. *)
Lemma read_texts {A} (m : outcome A) p l e :
  tbind (told_parse place p l) (fun _ => calm m) = Tell e <-> parse p l = Err /\ e = unread (p, l).
Proof.
  unfold told_parse, unread. cbn [fst snd]. destruct (parse p l); cbn [with_text tbind].
  - split; [|now intros []]. destruct m; discriminate.
  - split; [intros E; split; [reflexivity|congruence]|]. now intros [_ ->].
  - split; [discriminate|now intros []].
Qed.

Theorem bsw_encrypt_texts nonce (pk : bsw_pk C) p l d t i e :
  told_bsw_encrypt place nonce pk p l d t i = Tell e <-> parse p l = Err /\ e = unread (p, l).
Proof. apply read_texts. Qed.
Theorem ghw_encrypt_texts nonce (pk : ghw_pk C) p l d t i e :
  told_ghw_encrypt place nonce pk p l d t i = Tell e <-> parse p l = Err /\ e = unread (p, l).
Proof. apply read_texts. Qed.
Theorem aw_encrypt_texts nonce (gk : aw_gk C) pks p l d t i e :
  told_aw_encrypt place nonce gk pks p l d t i = Tell e <-> parse p l = Err /\ e = unread (p, l).
Proof. apply read_texts. Qed.
Theorem lsw_keygen_texts (pk : lsw_pk C) msk p l t i e :
  told_lsw_keygen place pk msk p l t i = Tell e <-> parse p l = Err /\ e = unread (p, l).
Proof. apply read_texts. Qed.
Theorem yct_keygen_texts (msk : yct_msk C) p l t i e :
  told_yct_keygen place msk p l t i = Tell e <-> parse p l = Err /\ e = unread (p, l).
Proof. apply read_texts. Qed.
Theorem kp_keygen_texts (msk : ac_msk C) p l t i e :
  told_kp_keygen place msk p l t i = Tell e <-> parse p l = Err /\ e = unread (p, l).
Proof. apply read_texts. Qed.

Lemma calm_no_tell {A} (o : outcome A) e : calm o <> Tell e.
Proof. destruct o; discriminate. Qed.

Lemma dnf_texts {A} (m : outcome A) err p l e :
  tbind (told_parse place p l) (fun pol => if policy_in_dnf pol false None then calm m else Tell err) = Tell e <->
  reasons (p, l) (fun f => ~ no_or_below_and f) err (fun _ => False) e.
Proof.
  apply (reasons_exact (p, l)). cbn [fst snd]. intros f _. pose proof (policy_in_dnf_iff f) as D.
  destruct (policy_in_dnf (tree f) false None).
  - right. split; [intros N; apply N; now apply D|]. split; [intros X; now apply calm_no_tell in X|tauto].
  - left. split; [|reflexivity]. intros N. apply D in N. discriminate.
Qed.

Theorem bd_encrypt_texts nonce (pk : bd_pk C) ks p l d t i e :
  told_bd_encrypt place nonce pk ks p l d t i = Tell e <->
  reasons (p, l) (fun f => ~ no_or_below_and f) bd_not_dnf (fun _ => False) e.
Proof. apply dnf_texts. Qed.
Theorem mk_encrypt_texts nonce (pk : mk_pk C) ks p l d t i e :
  told_mk_encrypt place nonce pk ks p l d t i = Tell e <->
  reasons (p, l) (fun f => ~ no_or_below_and f) mk_not_dnf (fun _ => False) e.
Proof. apply dnf_texts. Qed.

Theorem lsw_encrypt_texts nonce (pk : lsw_pk C) attrs d t i e :
  told_lsw_encrypt nonce pk attrs d t i = Tell e <-> (attrs = [] \/ d = "") /\ e = lsw_empty.
Proof.
  unfold told_lsw_encrypt. destruct attrs as [|a r]; [|destruct d as [|c d]]; cbn [length String.length Nat.eqb orb].
  - split; [intros E; split; [now left|congruence]|now intros [_ ->]].
  - split; [intros E; split; [now right|congruence]|now intros [_ ->]].
  - split; [intros E; now apply calm_no_tell in E|]. intros [[X|X] _]; discriminate.
Qed.

Theorem yct_encrypt_texts nonce (pk : yct_pk C) attrs d t i e :
  told_yct_encrypt nonce pk attrs d t i = Tell e <->
  (attrs = [] /\ e = yct_no_attributes) \/ (attrs <> [] /\ d = "" /\ e = yct_no_plaintext).
Proof.
  unfold told_yct_encrypt. destruct attrs as [|a r]; [|destruct d as [|c d]]; cbn [length String.length Nat.eqb].
  - split; [intros E; left; split; congruence|]. intros [[_ ->]|(X & _)]; [reflexivity|now destruct X].
  - split; [intros E; right; repeat split; congruence|]. intros [[X _]|(_ & _ & ->)]; [discriminate|reflexivity].
  - split; [intros E; now apply calm_no_tell in E|]. intros [[X _]|(_ & X & _)]; discriminate.
Qed.

Theorem cp_keygen_texts (msk : ac_msk C) attrs t i e :
  told_cp_keygen msk attrs t i = Tell e <-> attrs = [] /\ e = cp_no_attributes.
Proof.
  unfold told_cp_keygen. destruct attrs as [|a r]; cbn [length Nat.eqb].
  - split; [intros E; split; congruence|now intros [_ ->]].
  - split; [intros E; now apply calm_no_tell in E|]. intros [X _]. discriminate.
Qed.

(** With hashes that never fail, AC17 encryption reports no error but that of the policy. *)
Lemma quiet_hash (T : forall s, hash C s <> None) (g : G1 C) s : quiet (sha3_hash_g1 g s).
Proof. unfold sha3_hash_g1. specialize (T s). destruct (hash C s); [discriminate|now destruct T]. Qed.

Theorem cp_encrypt_texts (T : forall s, hash C s <> None) nonce (pk : ac_pk C) p d l t i e :
  told_cp_encrypt place fe nonce pk p d l t i = Tell e <-> parse p l = Err /\ e = unread (p, l).
Proof.
  unfold told_cp_encrypt. destruct (parse p l) as [v| |] eqn:P.
  - assert (Q : quiet (cp_encrypt nonce pk p d l t i)).
    { refine ((_ : rquiet _) t i). unfold cp_encrypt, draw_s, hash_table, cp_entry, ac_cp. rewrite P.
      hush; now apply quiet_hash. }
    unfold told_parse. rewrite P. cbn [with_text tbind]. split; [|now intros []].
    destruct (cp_encrypt nonce pk p d l t i); [discriminate|now destruct Q|discriminate].
  - unfold told_parse, unread. rewrite P. cbn. split; [intros E; split; [reflexivity|congruence]|now intros [_ ->]].
  - unfold told_parse. rewrite P. cbn. split; [discriminate|now intros []].
Qed.

Theorem kp_encrypt_texts (T : forall s, hash C s <> None) nonce (pk : ac_pk C) attrs d t i e :
  told_kp_encrypt fe nonce pk attrs d t i <> Tell e.
Proof.
  unfold told_kp_encrypt. assert (Q : quiet (kp_encrypt nonce pk attrs d t i)).
  { refine ((_ : rquiet _) t i). unfold kp_encrypt, draw_s, kp_ct_entry, ac_cp. hush; now apply quiet_hash. }
  destruct (kp_encrypt nonce pk attrs d t i); [discriminate|now destruct Q|discriminate].
Qed.

(** The keys of one attribute. *)
Lemma hash_text {A} (s s' : string) (k : F C -> F C -> A) e :
  tbind (told_hash_fr (C := C) fe s) (fun h => tbind (told_hash_fr fe s') (fun h' => Fine (k h h'))) = Tell e <->
  (hash C s = None \/ hash C s' = None) /\ e = from_field_error fe.
Proof.
  unfold told_hash_fr, sha3_hash_fr. destruct (hash C s); destruct (hash C s'); cbn [with_text tbind];
    (split; [intros E|intros [[E|E] X]]); try discriminate; try (subst; reflexivity); split; auto; congruence.
Qed.

Theorem bd_request_sk_texts (pk : bd_upk C) au a e :
  told_bd_request_sk fe pk au a = Tell e <->
  (from_authority a (bau_name au) && is_eligible a (bupk_u pk) = false /\ e = not_handled a) \/
  (from_authority a (bau_name au) && is_eligible a (bupk_u pk) = true /\
   (hash C a = None \/ hash C (bau_name au) = None) /\ e = from_field_error fe).
Proof.
  unfold told_bd_request_sk. destruct (_ && _).
  - rewrite hash_text. intuition discriminate.
  - split; [intros E; left; split; congruence|]. intros [[_ ->]|[X _]]; [reflexivity|discriminate].
Qed.

Theorem mk_request_sk_texts (pk : mk_upk C) a au e :
  told_mk_request_sk fe pk a au = Tell e <->
  (from_authority a (mau_name au) && is_eligible a (mupk_name pk) = false /\ e = not_handled a) \/
  (from_authority a (mau_name au) && is_eligible a (mupk_name pk) = true /\
   (hash C a = None \/ hash C (mau_name au) = None) /\ e = from_field_error fe).
Proof.
  unfold told_mk_request_sk. destruct (_ && _).
  - rewrite hash_text. intuition discriminate.
  - split; [intros E; left; split; congruence|]. intros [[_ ->]|[X _]]; [reflexivity|discriminate].
Qed.

Theorem bd_request_pk_texts (pk : bd_pk C) au a e :
  told_bd_request_pk fe pk au a = Tell e <->
  (from_authority a (bau_name au) = false /\ e = not_handled a) \/
  (from_authority a (bau_name au) = true /\
   (hash C a = None \/ hash C (bau_name au) = None) /\ e = from_field_error fe).
Proof.
  unfold told_bd_request_pk. destruct (from_authority _ _).
  - rewrite hash_text. intuition discriminate.
  - split; [intros E; left; split; congruence|]. intros [[_ ->]|[X _]]; [reflexivity|discriminate].
Qed.

Theorem mk_request_pk_texts (pk : mk_pk C) a au e :
  told_mk_request_pk fe pk a au = Tell e <->
  (from_authority a (mau_name au) = false /\ e = not_handled a) \/
  (from_authority a (mau_name au) = true /\
   (hash C a = None \/ hash C (mau_name au) = None) /\ e = from_field_error fe).
Proof.
  unfold told_mk_request_pk. destruct (from_authority _ _).
  - rewrite hash_text. intuition discriminate.
  - split; [intros E; left; split; congruence|]. intros [[_ ->]|[X _]]; [reflexivity|discriminate].
Qed.

(** AW11: adding an attribute. *)
Theorem aw_add_texts (gk : aw_gk C) msk a sk e :
  told_aw_add fe gk msk a sk = Tell e <->
  (a = "" /\ e = aw_no_attributes) \/ (a <> "" /\ awsk_gid sk = "" /\ e = aw_no_gid) \/
  (a <> "" /\ awsk_gid sk <> "" /\ hash C (awsk_gid sk) = None /\ e = from_field_error fe).
Proof.
  unfold told_aw_add, told_hash_g1, sha3_hash_g1. destruct a as [|c a]; cbn [String.length Nat.eqb].
  - split; [intros E; left; split; congruence|]. intros [[_ ->]|[(X & _)|(X & _)]]; [reflexivity|now destruct X|now destruct X].
  - destruct (awsk_gid sk) as [|c' g] eqn:G; cbn [String.length Nat.eqb].
    + split; [intros E; right; left; repeat split; congruence|].
      intros [[X _]|[(_ & _ & ->)|(_ & X & _)]]; [discriminate|reflexivity|now destruct X].
    + destruct (hash C (String c' g)) as [h|]; cbn [with_text tbind].
      * split; [destruct (find _ _); discriminate|].
        intros [[X _]|[(_ & X & _)|(_ & _ & X & _)]]; discriminate.
      * split; [intros E; right; right; repeat split; congruence|].
        intros [[X _]|[(_ & X & _)|(_ & _ & _ & ->)]]; [discriminate|discriminate|reflexivity].
Qed.

Lemma aw_add_gid (gk : aw_gk C) msk a sk sk' : told_aw_add fe gk msk a sk = Fine sk' -> awsk_gid sk' = awsk_gid sk.
Proof.
  unfold told_aw_add, told_hash_g1, sha3_hash_g1. destruct (_ =? _)%nat; [discriminate|].
  destruct (_ =? _)%nat; [discriminate|]. destruct (hash C _); [|discriminate]. cbn [with_text tbind].
  destruct (find _ _); [|discriminate]. cbn. now intros [= <-].
Qed.

Lemma aw_add_fine (gk : aw_gk C) msk a sk sk' : told_aw_add fe gk msk a sk = Fine sk' ->
  a <> "" /\ In a (map n3 (amsk_attr msk)).
Proof.
  unfold told_aw_add, told_hash_g1, sha3_hash_g1. destruct a as [|c a]; [discriminate|].
  destruct (String.length (String c a) =? 0)%nat; [discriminate|].
  destruct (_ =? _)%nat; [discriminate|]. destruct (hash C _); [|discriminate]. cbn [with_text tbind].
  destruct (find _ _) eqn:E; [|discriminate]. intros _. split; [discriminate|].
  apply find_some in E. destruct E as [I E]. apply String.eqb_eq in E. rewrite <- E. now apply in_map.
Qed.

Lemma aw_add_ok (gk : aw_gk C) msk a sk : hash C (awsk_gid sk) <> None -> awsk_gid sk <> "" ->
  a <> "" -> In a (map n3 (amsk_attr msk)) -> exists sk', told_aw_add fe gk msk a sk = Fine sk'.
Proof.
  intros H G N I. unfold told_aw_add, told_hash_g1, sha3_hash_g1. destruct a as [|c a]; [now destruct N|].
  cbn [String.length Nat.eqb]. destruct (awsk_gid sk) as [|c' g] eqn:E; [now destruct G|]. cbn [String.length Nat.eqb].
  destruct (hash C (String c' g)) as [h|]; [|now destruct H]. cbn [with_text tbind].
  destruct (find (fun a0 => seqb (n3 a0) (String c a)) (amsk_attr msk)) eqn:Fd; [cbn; eauto|].
  exfalso. apply in_map_iff in I. destruct I as (x & X & I). apply (find_none _ _ Fd) in I. cbn in I.
  rewrite X in I. unfold seqb in I. now rewrite String.eqb_refl in I.
Qed.

Lemma aw_adds_texts (gk : aw_gk C) msk e l : forall sk, hash C (awsk_gid sk) <> None -> awsk_gid sk <> "" ->
  (told_aw_adds fe gk msk l sk = Tell e <-> e = aw_no_attributes /\ exists a b, l = (a ++ "" :: b)%list /\
     forall x, In x a -> x <> "" /\ In x (map n3 (amsk_attr msk))).
Proof.
  induction l as [|x l IH]; intros sk H G; cbn [told_aw_adds].
  - split; [discriminate|]. intros (_ & a & b & X & _). now destruct a.
  - destruct (told_aw_add fe gk msk x sk) as [sk'|e'|] eqn:E; cbn [tbind].
    + pose proof (aw_add_gid _ _ _ _ _ E) as G'. destruct (aw_add_fine _ _ _ _ _ E) as [N I].
      rewrite IH by (rewrite G'; assumption). split; intros (-> & a & b & X & Y); (split; [reflexivity|]).
      * exists (x :: a)%list, b. rewrite X. split; [reflexivity|]. intros y [<-|J]; [now split|now apply Y].
      * destruct a as [|y a]; [injection X as X _; contradiction|]. injection X as <- ->.
        exists a, b. split; [reflexivity|]. intros y J. apply Y. now right.
    + pose proof (proj1 (aw_add_texts _ _ _ _ _) E) as [[-> ->]|[(_ & X & _)|(_ & _ & X & _)]]; [|contradiction|contradiction].
      split.
      * intros [= <-]. split; [reflexivity|]. exists [], l. split; [reflexivity|]. now intros y [].
      * now intros (-> & _).
    + split; [discriminate|]. intros (_ & a & b & X & Y). destruct a as [|y a].
      * injection X as -> _. discriminate E.
      * injection X as <- ->. destruct (Y x (or_introl eq_refl)) as [N I].
        destruct (aw_add_ok gk msk x sk H G N I) as [sk' E']. congruence.
Qed.

(** AW11: a key. *)
Theorem aw_keygen_texts (gk : aw_gk C) msk n l e : hash C n <> None ->
  (told_aw_keygen fe gk msk n l = Tell e <->
   (l = [] /\ e = aw_no_attributes) \/ (l <> [] /\ n = "" /\ e = aw_no_name) \/
   (n <> "" /\ e = aw_no_attributes /\ exists a b, l = (a ++ "" :: b)%list /\
     forall x, In x a -> x <> "" /\ In x (map n3 (amsk_attr msk)))).
Proof.
  intros H. unfold told_aw_keygen. destruct l as [|x l]; cbn [length Nat.eqb].
  - split; [intros E; left; split; congruence|].
    intros [[_ ->]|[(X & _)|(_ & _ & a & b & X & _)]]; [reflexivity|now destruct X|now destruct a].
  - destruct n as [|c n]; cbn [String.length Nat.eqb].
    + split; [intros E; right; left; repeat split; congruence|].
      intros [[X _]|[(_ & _ & ->)|(X & _)]]; [discriminate|reflexivity|now destruct X].
    + rewrite aw_adds_texts by (cbn [awsk_gid]; congruence). split.
      * intros (E & R). right. right. split; [discriminate|]. now split.
      * intros [[X _]|[(_ & X & _)|(_ & E & R)]]; [discriminate|discriminate|now split].
Qed.

(** ** Texts that are never seen *)

Definition unknown_array : rabe_error := error_new "Error in calc_pruned: unknown array type!".

Lemma reasons_not policy un mismatch late e :
  e <> unread policy -> e <> mismatch -> ~ late e -> ~ reasons policy un mismatch late e.
Proof. intros A B D [[_ X]|(f & _ & [[_ X]|[_ X]])]; auto. Qed.

Lemma read_text_other l x s : error_new s = from_parse_error l x -> exists r, s = "Json Policy Error in line " ++ r.
Proof. intros E. exists (dec (error_line x) ++ newline). apply (f_equal details) in E. now destruct l. Qed.

Ltac other := intros X; apply read_text_other in X; destruct X as [? X]; discriminate X.

Theorem dead_texts (bsk : bsw_sk C) bct gct gtk lsk lct ysk yct gk ask act csk cct ksk kct :
  told_bsw_decrypt place bsk bct <> Tell unknown_array /\
  told_ghw_transform (C := C) place gct gtk <> Tell unknown_array /\
  told_ghw_transform (C := C) place gct gtk <> Tell ghw_mismatch_pruned /\
  told_lsw_decrypt (C := C) place lsk lct <> Tell unknown_array /\
  told_yct_decrypt (C := C) place ysk yct <> Tell unknown_array /\
  told_aw_decrypt (C := C) place fe gk ask act <> Tell unknown_array /\
  told_aw_decrypt (C := C) place fe gk ask act <> Tell aw_mismatch_pruned /\
  told_cp_decrypt (C := C) place csk cct <> Tell unknown_array /\
  told_cp_decrypt (C := C) place csk cct <> Tell cp_mismatch_pruned /\
  told_kp_decrypt (C := C) place ksk kct <> Tell unknown_array /\
  told_kp_decrypt (C := C) place ksk kct <> Tell kp_mismatch_pruned.
Proof.
  repeat apply conj; intros T;
    (apply bsw_texts in T || apply ghw_texts in T || apply lsw_texts in T || apply yct_texts in T ||
     apply aw_texts in T || apply cp_texts in T || apply kp_texts in T);
    revert T; apply reasons_not; try other; try discriminate;
    try (intros [_ X]; discriminate X); try tauto.
  all: intros [_ X]; destruct (hash C (awsk_gid ask)); [discriminate X|]; destruct fe; discriminate X.
Qed.

(** ** The text tells the reason *)

Lemma reasons_mismatch policy un mismatch late : mismatch <> unread policy -> ~ late mismatch ->
  (reasons policy un mismatch late mismatch <-> exists f, parse (fst policy) (snd policy) = Ok (tree f) /\ un f).
Proof.
  intros A B. split.
  - intros [[_ X]|(f & P & [[U _]|[_ X]])]; [contradiction| |contradiction]. now exists f.
  - intros (f & P & U). right. exists f. split; [exact P|]. left. now split.
Qed.

Lemma reasons_unread policy un mismatch late : mismatch <> unread policy -> ~ late (unread policy) ->
  (reasons policy un mismatch late (unread policy) <-> parse (fst policy) (snd policy) = Err).
Proof.
  intros A B. split.
  - intros [[P _]|(f & _ & [[_ X]|[_ X]])]; [exact P| |contradiction]. now destruct A.
  - intros P. left. now split.
Qed.

Theorem mismatch_texts (bsk : bsw_sk C) bct gct gtk lsk lct ysk yct gk ask act dsk dct msk mct csk cct ksk kct :
  (told_bsw_decrypt place bsk bct = Tell bsw_mismatch <-> exists f,
     parse (fst (Bsw.bct_policy bct)) (snd (Bsw.bct_policy bct)) = Ok (tree f) /\ unfit (map b_string (bsk_dj bsk)) f) /\
  (told_ghw_transform (C := C) place gct gtk = Tell ghw_mismatch <-> exists f,
     parse (fst (gct_policy gct)) (snd (gct_policy gct)) = Ok (tree f) /\ unfit (map fst (gtk_attr gtk)) f) /\
  (told_lsw_decrypt (C := C) place lsk lct = Tell lsw_mismatch <-> exists f,
     parse (fst (lsk_policy lsk)) (snd (lsk_policy lsk)) = Ok (tree f) /\ unfit_pruned (map le_name (lct_ej lct)) f) /\
  (told_yct_decrypt (C := C) place ysk yct = Tell yct_mismatch <-> exists f,
     parse (fst (ysk_policy ysk)) (snd (ysk_policy ysk)) = Ok (tree f) /\ unfit_pruned (map y_name (yct_attrs yct)) f) /\
  (told_aw_decrypt (C := C) place fe gk ask act = Tell aw_mismatch <-> exists f,
     parse (fst (awct_policy act)) (snd (awct_policy act)) = Ok (tree f) /\ unfit (map fst (awsk_attr ask)) f) /\
  (told_bd_decrypt (C := C) place dsk dct = Tell bd_mismatch <-> exists f,
     parse (fst (Bdabe.bct_policy dct)) (snd (Bdabe.bct_policy dct)) = Ok (tree f) /\ unfit (map bask_attr (buk_ska dsk)) f) /\
  (told_mk_decrypt (C := C) place msk mct = Tell mk_mismatch <-> exists f,
     parse (fst (mct_policy mct)) (snd (mct_policy mct)) = Ok (tree f) /\ unfit (map mask_attr (muk_ska msk)) f) /\
  (told_cp_decrypt (C := C) place csk cct = Tell cp_mismatch <-> exists f,
     parse (fst (acp_policy cct)) (snd (acp_policy cct)) = Ok (tree f) /\ unfit (acps_attr csk) f) /\
  (told_kp_decrypt (C := C) place ksk kct = Tell kp_mismatch <-> exists f,
     parse (fst (akps_policy ksk)) (snd (akps_policy ksk)) = Ok (tree f) /\ unfit (akp_attr kct) f).
Proof.
  rewrite bsw_texts, ghw_texts, lsw_texts, yct_texts, aw_texts, bd_texts, mk_texts, cp_texts, kp_texts.
  repeat apply conj; apply reasons_mismatch; try other; try tauto; try (intros [_ X]; discriminate X).
  all: intros [_ X]; destruct (hash C (awsk_gid ask)); [discriminate X|]; destruct fe; discriminate X.
Qed.

End Texts.
