(** * Proofs about the AW11 scheme *)
From Coq Require Import String Ascii DecimalString List Bool Arith Lia ZArith Field.
From Verif Require Import Base Crypto Policy Tools Sharing Spec PolicyProofs Poly
  SharingProofs Symmetric Parse Msp MspProofs SchemeLib Aw11.
Import ListNotations.

(** ** Upper case *)

Section Upper.
Context {C : crypto} (L : laws C).

(** ASCII text without small letters behind an ASCII character. *)
Definition settled_text (s : string) : Prop :=
  Forall (fun c => (N_of_ascii c < 128)%N /\ upper_ascii c = c) (list_ascii_of_string s).

Lemma upper_settled x s : settled_text s -> upper C (x ++ s) = (upper C x ++ s)%string.
Proof.
  revert x. induction s as [|c s IH]; intros x H.
  - assert (N : forall y : string, (y ++ "")%string = y) by (induction y; cbn; congruence). now rewrite !N.
  - inversion H as [|? ? [A B] H']; subst. rewrite (upper_at L) by exact A. rewrite B.
    specialize (IH ""%string H'). cbn [append] in IH. rewrite IH, (upper_nil L). reflexivity.
Qed.

Lemma settled_dec n : settled_text (dec n).
Proof.
  unfold dec, settled_text. generalize (Nat.to_uint n).
  induction u; cbn [NilEmpty.string_of_uint list_ascii_of_string]; [constructor|..];
    (constructor; [split; reflexivity|exact IHu]).
Qed.

Lemma upper_node n p : upper C (node_index n p) = node_index (upper C n) p.
Proof.
  unfold node_index. rewrite upper_settled; [reflexivity|].
  cbn [append]. constructor; [split; reflexivity|apply settled_dec].
Qed.
End Upper.

(** The names of a policy are in upper case. *)
Definition upper_names (C : crypto) (f : formula) : Prop := forall n, In n (names f) -> upper C n = n.

(** ** Lookup in concatenated result lists *)

Lemma find_app {A} (p : A -> bool) l m :
  find p (l ++ m) = match find p l with Some x => Some x | None => find p m end.
Proof. induction l as [|a l IH]; cbn; [reflexivity|]. destruct (p a); auto. Qed.

Lemma find_none_nm {B} (nm : B -> string) k l :
  (forall e, In e l -> nm e <> k) -> find (fun e => seqb (nm e) k) l = None.
Proof.
  intros H. destruct (find _ l) as [e|] eqn:E; [|reflexivity].
  apply find_some in E as (I & E). apply seqb_eq in E. now apply H in I.
Qed.

Lemma find_concat {A B} (nm : B -> string) (key : A -> string) (R : A -> list B -> Prop) l c :
  Forall2 R l c -> NoDup (map key l) ->
  (forall x es, R x es -> forall e, In e es -> nm e = key x) ->
  forall x, In x l -> exists es, R x es /\
    find (fun e => seqb (nm e) (key x)) (concat c) = find (fun e => seqb (nm e) (key x)) es.
Proof.
  intros H ND HN. induction H as [|a es l c Ha Hl IH]; intros x I; [contradiction|].
  inversion ND as [|? ? Nin ND']; subst. cbn [concat]. rewrite find_app.
  destruct I as [->|I].
  - exists es. split; [exact Ha|].
    destruct (find _ es) as [e|] eqn:E; [reflexivity|].
    apply find_none_nm. intros e Ie. apply in_concat in Ie as (es' & I1 & I2).
    intros En. apply Nin. clear - Hl I1 I2 En HN.
    induction Hl as [|b es0 l c Hb Hl IH]; [contradiction|].
    destruct I1 as [->|I1]; cbn; [left|right; auto].
    rewrite <- En. symmetry. eapply HN; eauto.
  - destruct (IH ND' x I) as (es' & R' & E). exists es'. split; [exact R'|].
    rewrite find_none_nm; [exact E|]. intros e Ie En. apply Nin.
    rewrite <- (HN _ _ Ha _ Ie), En. now apply in_map.
Qed.

Section Aw11Proofs.
Context {C : crypto} (L : laws C).
Local Open Scope F_scope.
Add Field aw11_field : (f_theory L).
Notation F := (F C).

Ltac logs := log_simpl L.

(** ** Authorities *)

(** Attribute name, master secret and public values of one attribute belong
    together. *)
Definition aw_pair (gk : aw_gk C) (m : string * F * F) (p : string * GT C * G2 C) : Prop :=
  n3 m = n3 p /\
  logT L (snd (fst p)) = log1 L (agk_g1 gk) * log2 L (agk_g2 gk) * snd (fst m) /\
  log2 L (snd p) = log2 L (agk_g2 gk) * snd m.

Lemma aw_authgen_inv (gk : aw_gk C) attrs t i pk msk j :
  aw_authgen gk attrs t i = Ok (Some (pk, msk), j) ->
  attrs <> [] /\ map n3 (amsk_attr msk) = map (upper C) attrs /\
  Forall2 (aw_pair gk) (amsk_attr msk) (apk_attr pk).
Proof.
  unfold aw_authgen. destruct attrs as [|a0 at0]; [discriminate|].
  set (attrs := a0 :: at0). intros H. split; [discriminate|]. clearbody attrs.
  apply rbind_Ok in H as (l & i1 & Hl & H). apply rret_Ok in H as [H _]. injection H as <- <-.
  cbn [amsk_attr apk_attr]. apply rmap_Forall2 in Hl.
  induction Hl as [|a x attrs l (p & q & E) _ (IH1 & IH2)]; [split; [reflexivity|constructor]|].
  apply rbind_Ok in E as (al & p1 & Hal & E). apply rbind_Ok in E as (y & p2 & Hy & E).
  apply rret_Ok in E as [<- _]. cbn [map fst snd]. split.
  - rewrite IH1. reflexivity.
  - constructor; [|exact IH2]. unfold aw_pair, n3. cbn [fst snd]. repeat split; logs; ring.
Qed.

Lemma aw_find_pair (gk : aw_gk C) ms ps n : Forall2 (aw_pair gk) ms ps ->
  match find (fun a => seqb (n3 a) n) ms, find (fun a => seqb (n3 a) n) ps with
  | Some m, Some p => aw_pair gk m p /\ n3 m = n
  | None, None => True
  | _, _ => False
  end.
Proof.
  induction 1 as [|m p ms ps (E & V) _ IH]; cbn [find]; [exact I|].
  rewrite <- E. destruct (seqb (n3 m) n) eqn:B; [|exact IH].
  split; [split; assumption|]. now apply seqb_eq.
Qed.

(** ** Keys *)

(** The key a user collects: attribute after attribute, each from the master
    key of some authority. *)
Definition aw_issue (gk : aw_gk C) (gid : string) (l : list (aw_msk C * string)) : outcome (aw_sk C) :=
  ofold (fun sk x => aw_add gk (fst x) (snd x) sk) l (AwSk gid []).

Lemma ofold_app {A B} (g : B -> A -> outcome B) l m : forall a,
  ofold g (l ++ m) a = obind (ofold g l a) (ofold g m).
Proof.
  induction l as [|x l IH]; intros a; cbn [ofold app]; [reflexivity|].
  destruct (g a x); cbn [obind]; auto.
Qed.

Lemma aw_keygen_issue (gk : aw_gk C) msk name attrs sk :
  aw_keygen gk msk name attrs = Ok sk -> aw_issue gk name (map (pair msk) attrs) = Ok sk.
Proof.
  unfold aw_keygen. destruct attrs as [|a0 at0]; [discriminate|]. destruct (seqb name ""); [discriminate|].
  unfold aw_issue. generalize (AwSk (C := C) name []). generalize (a0 :: at0). intros l.
  induction l as [|a l IH]; intros sk0; cbn [map ofold fst snd]; [auto|].
  destruct (aw_add gk msk a sk0); cbn [obind]; auto.
Qed.

Lemma aw_add_issue (gk : aw_gk C) gid l sk msk a sk' :
  aw_issue gk gid l = Ok sk -> aw_add gk msk a sk = Ok sk' ->
  aw_issue gk gid (l ++ [(msk, a)]) = Ok sk'.
Proof.
  unfold aw_issue. intros H1 H2. rewrite ofold_app, H1. cbn. now rewrite H2.
Qed.

Definition aw_key_entry (gk : aw_gk C) (h : F) (x : aw_msk C * string) (e : string * G1 C) : Prop :=
  exists m, find (fun a => seqb (n3 a) (snd x)) (amsk_attr (fst x)) = Some m /\
    fst e = upper C (snd x) /\
    log1 L (snd e) = log1 L (agk_g1 gk) * (snd (fst m) + h * snd m).

Lemma aw_issue_inv (gk : aw_gk C) gid l sk : aw_issue gk gid l = Ok sk ->
  awsk_gid sk = gid /\
  (l = [] \/ exists h, hash C gid = Some h) /\
  forall h, hash C gid = Some h -> Forall2 (aw_key_entry gk h) l (awsk_attr sk).
Proof.
  revert sk. induction l as [|x l IH] using rev_ind; intros sk H.
  - cbn in H. injection H as <-. split; [reflexivity|]. split; [now left|]. intros. constructor.
  - unfold aw_issue in H. rewrite ofold_app in H. apply obind_Ok in H as (sk0 & H0 & H).
    destruct (IH sk0 H0) as (G & _ & K). cbn [ofold] in H. apply obind_Ok in H as (sk1 & H1 & H).
    injection H as <-. unfold aw_add in H1. rewrite G in H1.
    destruct (seqb (snd x) ""); [discriminate|]. destruct (seqb gid ""); [discriminate|].
    apply obind_Ok in H1 as (hh & Hh & H1). apply obind_Ok in H1 as (m & Hm & H1). injection H1 as <-.
    unfold sha3_hash_g1 in Hh. destruct (hash C gid) as [h|] eqn:E; [|discriminate]. injection Hh as <-.
    cbn [awsk_gid awsk_attr]. split; [reflexivity|]. split; [right; eauto|].
    intros h' Eh. injection Eh as <-. apply Forall2_app; [now apply K|]. constructor; [|constructor].
    destruct (find _ (amsk_attr (fst x))) as [m'|] eqn:Em; [|discriminate]. cbn in Hm. injection Hm as <-.
    exists m'. split; [exact Em|]. apply find_some in Em as (_ & Em). apply seqb_eq in Em. rewrite Em.
    split; [reflexivity|]. cbn [snd]. logs. ring.
Qed.

(** ** Encryption *)


Lemma nth_error_combine_seq {A} (l : list A) : forall k i x,
  In (i, x) (combine (seq k (length l)) l) -> nth_error l (i - k) = Some x /\ k <= i.
Proof.
  induction l as [|a l IH]; intros k i x I; [contradiction|].
  cbn [length seq combine] in I. destruct I as [E|I].
  - injection E as <- <-. rewrite Nat.sub_diag. auto.
  - destruct (IH (S k) i x I) as (E & Hk). split; [|lia].
    replace (i - k)%nat with (S (i - S k)) by lia. exact E.
Qed.

Lemma In_combine_seq {A} (l : list A) x : In x l -> forall k, exists i, In (i, x) (combine (seq k (length l)) l).
Proof.
  induction l as [|a l IH]; intros I k; [contradiction|]. cbn [length seq combine].
  destruct I as [->|I]; [exists k; now left|]. destruct (IH I (S k)) as (i & Hi). exists i. now right.
Qed.

Lemma map_snd_combine {A B} (a : list A) (b : list B) : length a = length b -> map snd (combine a b) = b.
Proof. revert b. induction a as [|x a IH]; intros [|y b] H; try discriminate; cbn; f_equal; auto. Qed.

Lemma nth_assoc {A} (l : list (string * A)) i k v : NoDup (map fst l) ->
  nth_error l i = Some (k, v) -> assoc k l = Some v.
Proof.
  revert i. induction l as [|[k' v'] l IH]; intros [|i] ND H; try discriminate; cbn in *.
  - injection H as -> ->. now rewrite seqb_refl.
  - inversion ND as [|? ? Nin ND']; subst. destruct (seqb k' k) eqn:E; [|eauto].
    apply seqb_eq in E. subst. exfalso. apply Nin. apply nth_error_In in H.
    change k with (fst (k, v)). now apply in_map.
Qed.

Definition aw_ct_entry (gk : aw_gk C) (pks : list (aw_pk C)) (sh wh : list (string * F)) (k : string)
  (e : string * GT C * G2 C * G2 C) (a : string * GT C * G2 C) : Prop :=
  exists r, n4 e = k /\
    logT L (snd (fst (fst e))) = log1 L (agk_g1 gk) * log2 L (agk_g2 gk) * oval (assoc k sh) + logT L (snd (fst a)) * r /\
    log2 L (snd (fst e)) = log2 L (agk_g2 gk) * r /\
    log2 L (snd e) = log2 L (snd a) * r + log2 L (agk_g2 gk) * oval (assoc k wh).

Lemma aw_encrypt_inv nonce (gk : aw_gk C) pks pol lang data t i ct j f :
  parse pol lang = Ok (tree f) -> aw_encrypt nonce gk pks pol lang data t i = Ok (ct, j) ->
  binary_and f = true /\
  exists s i1 i2 msg, awct_policy ct = (pol, lang) /\
    logT L (awct_c0 ct) = logT L msg + log1 L (agk_g1 gk) * log2 L (agk_g2 gk) * s /\
    encrypt_symmetric nonce msg data = Ok (awct_data ct) /\
    (upper_names C f -> plain_names f = true -> NoDup (leaves f) ->
     forall n p, In (n, p) (leaves f) ->
     match find_pk_attr pks n with
     | Some a => exists e, find (fun e => seqb (n4 e) (node_index n p)) (awct_c ct) = Some e /\
                   aw_ct_entry gk pks (gsh f s t i1) (gsh f 0 t i2) (node_index n p) e a
     | None => find (fun e => seqb (n4 e) (node_index n p)) (awct_c ct) = None
     end).
Proof.
  intros P H. unfold aw_encrypt in H. rewrite P in H.
  apply rbind_Ok in H as (v & j1 & Hv & H). apply rlift_Ok in Hv as [Hv <-]. injection Hv as <-.
  destruct (binary_and f) eqn:B.
  2:{ rewrite (calculate_msp_bad f B) in H. discriminate. }
  split; [reflexivity|]. rewrite (calculate_msp_eq f B) in H.
  apply rbind_Ok in H as (msp & j2 & Hm & H). apply rlift_Ok in Hm as [Hm <-].
  apply rbind_Ok in H as (r0 & j3 & Hr & H). apply rlift_Ok in Hr as [Hr <-].
  apply rbind_Ok in H as (s & j4 & Hs & H). injection Hs as <- <-.
  apply rbind_Ok in H as (sh & j5 & Hsh & H). rewrite (gen_shares_policy_eq L) in Hsh. injection Hsh as <- <-.
  apply rbind_Ok in H as (wh & j6 & Hwh & H). rewrite (gen_shares_policy_eq L) in Hwh. injection Hwh as <- <-.
  apply rbind_Ok in H as (msg & j7 & Hmsg & H).
  apply rbind_Ok in H as (c & j8 & Hc & H).
  apply rbind_Ok in H as (d & j9 & Hd & H). apply rlift_Ok in Hd as [Hd <-].
  apply rret_Ok in H as [<- _]. cbn [awct_policy awct_c0 awct_c awct_data].
  set (i1 := S i) in *. set (i2 := S (i + nd f)) in *.
  exists (t i), i1, i2, msg. split; [reflexivity|]. split; [logs; ring|]. split; [exact Hd|].
  intros UN PN ND n p I. set (sh := gsh f (t i) t i1) in *. set (wh := gsh f 0 t i2) in *.
  apply rmap_Forall2 in Hc.
  assert (Ksh : map fst sh = idents f) by apply gsh_idents.
  assert (Kwh : map fst wh = idents f) by apply gsh_idents.
  pose proof (NoDup_idents f ND) as NDI.
  set (R := fun (x : nat * (string * F)) (es : list (string * GT C * G2 C * G2 C)) =>
     exists r w, find_pk_attr pks (remove_index (upper C (fst (snd x)))) = None /\ es = [] \/
       exists a, find_pk_attr pks (remove_index (upper C (fst (snd x)))) = Some a /\
       nth_error wh (fst x) = Some w /\
       es = [(upper C (fst (snd x)),
           gtmul C (gtpow C (pairing C (agk_g1 gk) (agk_g2 gk)) (snd (snd x))) (gtpow C (snd (fst a)) r),
           g2mul C (agk_g2 gk) r,
           g2add C (g2mul C (snd a) r) (g2mul C (agk_g2 gk) (snd w)))]).
  assert (H2 : Forall2 R (combine (seq 0 (length sh)) sh) c).
  { eapply Forall2_impl; [|exact Hc]. intros x es (u & w & E). unfold aw_entry in E.
    apply rbind_Ok in E as (r & v1 & _ & E).
    destruct (find_pk_attr pks (remove_index (upper C (fst (snd x))))) as [a|] eqn:Ea.
    - apply rbind_Ok in E as (ww & v2 & Hw & E). apply rlift_Ok in Hw as [Hw <-].
      apply rret_Ok in E as [<- _]. destruct (nth_error wh (fst x)) as [w'|] eqn:Ew; [|discriminate].
      cbn in Hw. injection Hw as <-. exists r, w'. right. exists a. auto.
    - apply rret_Ok in E as [<- _]. exists r, (""%string, 0). left. auto. }
  assert (Up : forall k, In k (idents f) -> upper C k = k).
  { intros k Ik. unfold idents in Ik. apply in_map_iff in Ik as ([n' p'] & <- & I'). cbn [fst snd].
    rewrite (upper_node L), UN; [reflexivity|]. change n' with (fst (n', p')). now apply in_map. }
  assert (Ik : In (node_index n p) (idents f)).
  { unfold idents. apply in_map_iff. now exists (n, p). }
  assert (Ix : exists v, In (node_index n p, v) sh).
  { rewrite <- Ksh in Ik. apply in_map_iff in Ik as ([k v] & Ek & Iv). cbn in Ek. subst k. eauto. }
  destruct Ix as (v & Ix). destruct (In_combine_seq _ _ Ix 0) as (ii & Iii).
  pose proof (nth_error_combine_seq _ _ _ _ Iii) as (Nsh & _). rewrite Nat.sub_0_r in Nsh.
  destruct (find_concat n4 (fun x : nat * (string * F) => upper C (fst (snd x))) R _ _ H2) with (x := (ii, (node_index n p, v)))
    as (es & Res & Fes).
  - rewrite <- (map_map snd (fun y => upper C (fst y))).
    rewrite map_snd_combine by apply seq_length. rewrite <- (map_map fst (upper C)), Ksh.
    rewrite (map_ext_in (upper C) (fun k => k)) by exact Up. now rewrite map_id.
  - intros x es' (r & w & [(_ & ->)|(a & _ & _ & ->)]) e Ie; [contradiction|].
    destruct Ie as [<-|[]]. reflexivity.
  - exact Iii.
  - cbn [fst snd] in Fes. rewrite Up in Fes by exact Ik. rewrite Fes.
    assert (Rn : remove_index (node_index n p) = n)
      by (apply remove_index_leaf; eapply plain_leaf; eauto).
    destruct Res as (r & w & [(Ea & ->)|(a & Ea & Ew & ->)]); cbn [fst snd] in *;
      rewrite Up in Ea by exact Ik; rewrite Rn in Ea; rewrite Ea; [reflexivity|].
    cbn [find]. rewrite Up by exact Ik. cbn [n4 fst]. rewrite seqb_refl. eexists. split; [reflexivity|].
    exists r. cbn [n4 fst snd]. split; [reflexivity|].
    assert (Esh : assoc (node_index n p) sh = Some v) by (eapply nth_assoc; [now rewrite Ksh|exact Nsh]).
    assert (Ewh : assoc (node_index n p) wh = Some (snd w)).
    { eapply nth_assoc; [now rewrite Kwh|]. rewrite Ew. f_equal. destruct w as [k' w]. cbn [fst snd]. f_equal.
      assert (E1 : nth_error (map fst wh) ii = Some k') by (rewrite nth_error_map, Ew; reflexivity).
      assert (E2 : nth_error (map fst sh) ii = Some (node_index n p)) by (rewrite nth_error_map, Nsh; reflexivity).
      rewrite Kwh in E1. rewrite Ksh in E2. congruence. }
    rewrite Esh, Ewh. cbn [oval]. repeat split; logs; ring.
Qed.

(** ** Correctness *)

(** No attribute is managed by two of the authorities. *)
Definition separate (As : list (list string * (aw_pk C * aw_msk C))) : Prop :=
  forall k l A B n, nth_error As k = Some A -> nth_error As l = Some B ->
    In n (map (upper C) (fst A)) -> In n (map (upper C) (fst B)) -> k = l.

Lemma find_pk_separate (gk : aw_gk C) As A n m :
  separate As -> In A As ->
  Forall (fun A => exists t i j, aw_authgen gk (fst A) t i = Ok (Some (snd A), j)) As ->
  find (fun a => seqb (n3 a) n) (amsk_attr (snd (snd A))) = Some m ->
  exists p, find_pk_attr (map (fun A => fst (snd A)) As) n = Some p /\ aw_pair gk m p.
Proof.
  intros Sep I FA Fm. induction As as [|B As IH]; [contradiction|].
  inversion FA as [|? ? (t & i & j & HB) FA']; subst. cbn [map find_pk_attr].
  destruct B as [ab [pk msk]]. cbn [fst snd] in *.
  destruct (aw_authgen_inv _ _ _ _ _ _ _ HB) as (_ & Nm & Pr).
  pose proof (aw_find_pair gk _ _ n Pr) as Q.
  destruct (find (fun a => seqb (n3 a) n) (amsk_attr msk)) as [m'|] eqn:E1,
           (find (fun a => seqb (n3 a) n) (apk_attr pk)) as [p'|] eqn:E2; try contradiction.
  - destruct Q as (Q & _). exists p'. split; [reflexivity|].
    enough (m' = m) by now subst.
    destruct I as [<-|I]; [cbn in Fm; congruence|].
    apply In_nth_error in I as (k & Hk).
    assert (Hn : In n (map (upper C) (fst A))).
    { rewrite Forall_forall in FA'. destruct (FA' A) as (tA & iA & jA & HA); [now apply nth_error_In in Hk|].
      destruct A as [aa [pA mA]]. cbn [fst snd] in *.
      destruct (aw_authgen_inv _ _ _ _ _ _ _ HA) as (_ & NmA & _). rewrite <- NmA.
      apply find_some in Fm as (Im & Em). apply seqb_eq in Em. subst n. now apply in_map. }
    assert (Hn' : In n (map (upper C) ab)).
    { rewrite <- Nm. apply find_some in E1 as (Im & Em). apply seqb_eq in Em. subst n. now apply in_map. }
    specialize (Sep 0%nat (S k) _ _ n eq_refl Hk Hn' Hn). discriminate.
  - destruct I as [<-|I]; [cbn in Fm; congruence|].
    apply IH; auto. intros k l A' B' x H1 H2 H3 H4. specialize (Sep (S k) (S l) A' B' x H1 H2 H3 H4). lia.
Qed.

(** The public values that encryption finds belong to the master keys that issued. *)
Theorem aw_correct_gen nonce (gk : aw_gk C) pks gid issued sk pol lang data ct f te ie je :
  (forall mk a m, In (mk, a) issued -> find (fun e => seqb (n3 e) a) (amsk_attr mk) = Some m ->
     upper C a = a /\ exists p, find_pk_attr pks a = Some p /\ aw_pair gk m p) ->
  aw_issue gk gid issued = Ok sk ->
  aw_encrypt nonce gk pks pol lang data te ie = Ok (ct, je) ->
  parse pol lang = Ok (tree f) ->
  String.length nonce = 12%nat ->
  NoDup (leaves f) -> plain_names f = true -> upper_names C f ->
  small_ok C (and_width f) ->
  sat (owns (map snd issued)) f = true ->
  aw_decrypt gk sk ct = Ok data.
Proof.
  intros Own Hk He P Ln ND PN UN SO S.
  destruct (aw_encrypt_inv _ _ _ _ _ _ _ _ _ _ _ P He) as (B & s & i1 & i2 & msg & E1 & E2 & E3 & E4).
  specialize (E4 UN PN ND).
  destruct (aw_issue_inv _ _ _ _ Hk) as (G & Hh & K).
  assert (A : arity2 f = true).
  { clear - B. pattern f. apply binary_ind; [..|exact B]; clear f B.
    - reflexivity.
    - intros a b _ _ Ha Hb. cbn. now rewrite Ha, Hb.
    - intros l H _ IH. cbn. apply andb_true_intro. split.
      + destruct (length l) as [|[|n]]; [lia|lia|reflexivity].
      + apply forallb_forall. now apply Forall_forall. }
  pose proof (owns_nonempty _ _ S A) as NE.
  destruct Hh as [->|(h & Hh)]; [now cbn in NE|]. specialize (K h Hh).
  assert (Uk : forall x, In x issued -> upper C (snd x) = snd x).
  { clear - K Own. induction K as [|x e l es (m & Fm & _) _ IH]; [contradiction|]. intros y [<-|I].
    - destruct x as [mk a]. now apply (Own mk a m (or_introl eq_refl)).
    - apply IH; [|exact I]. intros mk a m' I'. apply Own. now right. }
  assert (Nm : map fst (awsk_attr sk) = map snd issued).
  { clear - K Uk. induction K as [|x e l es (m & Fm & En & _) _ IH]; cbn; [reflexivity|].
    rewrite IH, En by (intros; apply Uk; now right). f_equal. apply Uk. now left. }
  assert (Fk : forall n, In n (map snd issued) -> exists e a y p,
     find (fun a => seqb (fst a) n) (awsk_attr sk) = Some e /\
     log1 L (snd e) = log1 L (agk_g1 gk) * (a + h * y) /\
     find_pk_attr pks n = Some p /\
     logT L (snd (fst p)) = log1 L (agk_g1 gk) * log2 L (agk_g2 gk) * a /\
     log2 L (snd p) = log2 L (agk_g2 gk) * y).
  { clear - K Uk Own. intros n I.
    induction K as [|x e l es (m & Fm & En & V) _ IH]; [contradiction|]. cbn [find].
    destruct (seqb (fst e) n) eqn:E.
    - apply seqb_eq in E. rewrite En, Uk in E by now left. subst n.
      destruct x as [mk a]. cbn [fst snd] in *.
      destruct (Own mk a m (or_introl eq_refl) Fm) as (_ & p & Fp & (_ & V1 & V2)).
      exists e, (snd (fst m)), (snd m), p. auto.
    - destruct I as [<-|I]; [apply seqb_neq in E; exfalso; apply E; rewrite En; apply Uk; now left|].
      apply IH; auto.
      + intros mk' a' m' I'. apply Own. now right.
      + intros; apply Uk; now right. }
  unfold aw_decrypt. rewrite E1, Nm. cbn [fst snd]. rewrite P. cbn [obind].
  rewrite traverse_tree, S.
  assert (E : (0 <? length (map snd issued))%nat = true) by (destruct (map snd issued); [congruence|reflexivity]).
  rewrite E. cbn [andb]. rewrite calc_pruned_tree by exact A. rewrite S. cbn [obind fst snd].
  rewrite (calc_coefficients_eq L). cbn [obind unwrap app].
  rewrite G. unfold sha3_hash_g1. rewrite Hh. cbn [obind].
  set (pr := map leaf_pair (sel (pmask (owns (map snd issued)) f) (leaves f))).
  set (hg := g1mul C (agk_g1 gk) h).
  assert (X : forall l, incl l pr -> forall st, exists st',
    ofold (aw_step sk ct (gco f 1) hg) l st = Ok st' /\
    logT L st' = logT L st + log1 L (agk_g1 gk) * log2 L (agk_g2 gk) *
      (fsum (map (fun x => oval (assoc (snd x) (gco f 1)) * oval (assoc (snd x) (gsh f s te i1))) l) +
       h * fsum (map (fun x => oval (assoc (snd x) (gco f 1)) * oval (assoc (snd x) (gsh f 0 te i2))) l))).
  { induction l as [|x l IH]; intros Hi st.
    - exists st. cbn. split; [reflexivity|]. ring.
    - assert (Ix : In x pr) by (apply Hi; now left).
      destruct (pruned_leaf _ _ _ Ix) as (n & p & -> & Il & Io).
      destruct (coeff_of_leaf (C := C) f n p 1 Il) as (co & Eco).
      unfold owns in Io. apply smem_In in Io.
      destruct (Fk n Io) as (e & a & y & pk & Fe & Ve & Fp & V1 & V2).
      specialize (E4 n p Il). rewrite Fp in E4. destruct E4 as (c & Fc & r & _ & C1 & C2 & C3).
      cbn [ofold]. unfold aw_step at 1. cbn [fst snd].
      rewrite Fe, Fc. cbn [obind unwrap].
      rewrite (find_assoc_id _ _ _ Eco). cbn [obind unwrap].
      match goal with |- context [ofold _ l ?z] => destruct (IH (fun q Hq => Hi q (or_intror Hq)) z) as (st' & -> & V) end.
      exists st'. split; [reflexivity|]. rewrite V. cbn [map fsum snd]. rewrite Eco. cbn [oval snd].
      unfold hg. logs. rewrite C1, C2, C3, V1, V2, Ve. ring. }
  destruct (X pr (incl_refl _) (gtone C)) as (st & -> & V). cbn [obind].
  apply (symmetric_roundtrip L nonce); [exact Ln|]. rewrite <- E3. f_equal.
  apply (logT_inj L). logs. rewrite V. unfold pr.
  rewrite !(reconstruct_lookup L) by assumption. rewrite E2. logs. ring.
Qed.

Lemma aw_issued_upper (gk : aw_gk C) A a m :
  (exists t i j, aw_authgen gk (fst A) t i = Ok (Some (snd A), j)) ->
  find (fun e => seqb (n3 e) a) (amsk_attr (snd (snd A))) = Some m -> upper C a = a /\ In a (map (upper C) (fst A)).
Proof.
  intros (t & i & j & HA) Fm. destruct A as [aa [pA mA]]. cbn [fst snd] in *.
  destruct (aw_authgen_inv _ _ _ _ _ _ _ HA) as (_ & NmA & _).
  apply find_some in Fm as (Im & Em). apply seqb_eq in Em. subst a. apply (in_map n3) in Im. rewrite NmA in Im.
  split; [|exact Im]. apply in_map_iff in Im as (a' & <- & _). apply (upper_idem L).
Qed.

Theorem aw_correct nonce (gk : aw_gk C) As gid issued sk pol lang data ct f ts is js te ie je :
  aw_setup ts is = Ok (gk, js) ->
  Forall (fun A => exists t i j, aw_authgen gk (fst A) t i = Ok (Some (snd A), j)) As ->
  separate As ->
  (forall m a, In (m, a) issued -> exists A, In A As /\ m = snd (snd A)) ->
  aw_issue gk gid issued = Ok sk ->
  aw_encrypt nonce gk (map (fun A => fst (snd A)) As) pol lang data te ie = Ok (ct, je) ->
  parse pol lang = Ok (tree f) ->
  String.length nonce = 12%nat ->
  NoDup (leaves f) -> plain_names f = true -> upper_names C f ->
  small_ok C (and_width f) ->
  sat (owns (map snd issued)) f = true ->
  aw_decrypt gk sk ct = Ok data.
Proof.
  intros _ FA Sep Own. apply aw_correct_gen. intros mk a m I Fm.
  destruct (Own mk a I) as (Au & IA & ->). rewrite Forall_forall in FA.
  split; [now apply (aw_issued_upper gk Au a m (FA _ IA))|]. apply (find_pk_separate gk As Au a m); auto.
  now apply Forall_forall.
Qed.

(** Authorities that share attributes: the keys come from the first authority of
    the list that offers the attribute. *)
Theorem aw_correct_first nonce (gk : aw_gk C) As gid issued sk pol lang data ct f te ie je :
  Forall (fun A => exists t i j, aw_authgen gk (fst A) t i = Ok (Some (snd A), j)) As ->
  (forall m a, In (m, a) issued -> exists l A r, As = l ++ A :: r /\ m = snd (snd A) /\
     Forall (fun B => ~ In a (map (upper C) (fst B))) l) ->
  aw_issue gk gid issued = Ok sk ->
  aw_encrypt nonce gk (map (fun A => fst (snd A)) As) pol lang data te ie = Ok (ct, je) ->
  parse pol lang = Ok (tree f) ->
  String.length nonce = 12%nat ->
  NoDup (leaves f) -> plain_names f = true -> upper_names C f ->
  small_ok C (and_width f) ->
  sat (owns (map snd issued)) f = true ->
  aw_decrypt gk sk ct = Ok data.
Proof.
  intros FA Own. apply aw_correct_gen. intros mk a m I Fm.
  destruct (Own mk a I) as (l & A & r & -> & -> & Hl). apply Forall_app in FA as (FL & FA).
  inversion FA as [|? ? HA _]; subst. split; [now apply (aw_issued_upper gk A a m HA)|].
  rewrite map_app. cbn [map]. clear FA Own. revert Hl FL. induction l as [|B l IH]; intros Hl FL; cbn [app map find_pk_attr].
  - destruct HA as (t & i & j & HA). destruct A as [aa [pA mA]]. cbn [fst snd] in *.
    destruct (aw_authgen_inv _ _ _ _ _ _ _ HA) as (_ & _ & Pr).
    pose proof (aw_find_pair gk _ _ a Pr) as Q. rewrite Fm in Q.
    destruct (find _ (apk_attr pA)) as [p|]; [|contradiction]. exists p. split; [reflexivity|apply Q].
  - inversion Hl as [|? ? HB Hl']; subst. inversion FL as [|? ? (t & i & j & EB) FL']; subst.
    destruct B as [ab [pB mB]]. cbn [fst snd] in *.
    destruct (aw_authgen_inv _ _ _ _ _ _ _ EB) as (_ & NmB & Pr).
    pose proof (aw_find_pair gk _ _ a Pr) as Q.
    destruct (find _ (amsk_attr mB)) as [m'|] eqn:Em, (find _ (apk_attr pB)) as [p'|]; try contradiction; [|now apply IH].
    exfalso. apply HB. rewrite <- NmB. apply find_some in Em as (Im & Em). apply seqb_eq in Em. subst a. now apply in_map.
Qed.

(** ** Rejection *)

Theorem aw_reject (gk : aw_gk C) sk ct f :
  parse (fst (awct_policy ct)) (snd (awct_policy ct)) = Ok (tree f) ->
  sat (owns (map fst (awsk_attr sk))) f = false ->
  aw_decrypt gk sk ct = Err.
Proof.
  intros P S. unfold aw_decrypt. rewrite P. cbn [obind].
  rewrite traverse_tree, S, andb_false_r. reflexivity.
Qed.

(** ** Case *)

(** Requesting a key for a name that is not upper case aborts, whatever the
    authority manages. *)
Theorem aw_keygen_lower_panics (gk : aw_gk C) attrs ta ia ja pk msk name a h rest :
  aw_authgen gk attrs ta ia = Ok (Some (pk, msk), ja) ->
  hash C name = Some h -> name <> ""%string -> a <> ""%string -> upper C a <> a ->
  aw_keygen gk msk name (a :: rest) = Panic.
Proof.
  intros HA Hh Nn Na Ua. destruct (aw_authgen_inv _ _ _ _ _ _ _ HA) as (_ & Nm & _).
  unfold aw_keygen. apply seqb_neq in Nn. rewrite Nn. cbn [ofold]. unfold aw_add at 1.
  apply seqb_neq in Na. rewrite Na. cbn [awsk_gid]. rewrite Nn. unfold sha3_hash_g1. rewrite Hh. cbn [obind].
  rewrite find_none_nm; [reflexivity|]. intros e Ie En. apply Ua.
  assert (I : In a (map n3 (amsk_attr msk))) by (rewrite <- En; now apply in_map).
  rewrite Nm in I. apply in_map_iff in I as (a' & <- & _). apply (upper_idem L).
Qed.

(** A leaf that is not upper case can never be owned: keys hold upper-case
    names only, so such leaves count as false. *)
Lemma aw_issue_upper (gk : aw_gk C) gid l sk : aw_issue gk gid l = Ok sk ->
  forall n, In n (map fst (awsk_attr sk)) -> upper C n = n.
Proof.
  intros H n I. destruct (aw_issue_inv _ _ _ _ H) as (_ & [->|(h & Hh)] & K).
  - unfold aw_issue in H. cbn in H. injection H as <-. contradiction.
  - specialize (K h Hh). clear - K I. induction K as [|x e l es (m & _ & En & _) _ IH]; [contradiction|].
    destruct I as [<-|I]; [|auto]. rewrite En. apply (upper_idem L).
Qed.

Theorem aw_lower_policy_rejects (gk : aw_gk C) gid l sk ct f :
  aw_issue gk gid l = Ok sk ->
  parse (fst (awct_policy ct)) (snd (awct_policy ct)) = Ok (tree f) ->
  sat (fun n => seqb (upper C n) n) f = false ->
  aw_decrypt gk sk ct = Err.
Proof.
  intros H P S. apply (aw_reject gk sk ct f P).
  destruct (sat (owns (map fst (awsk_attr sk))) f) eqn:E; [|reflexivity].
  rewrite (sat_mono (owns (map fst (awsk_attr sk))) (fun n => seqb (upper C n) n) f) in S; [discriminate| |exact E].
  intros n Io. apply smem_In in Io. apply seqb_eq. eapply aw_issue_upper; eauto.
Qed.

(** ** Abort paths *)

Theorem aw_encrypt_wide_and nonce (gk : aw_gk C) pks pol lang data f t i :
  parse pol lang = Ok (tree f) -> binary_and f = false ->
  aw_encrypt nonce gk pks pol lang data t i = Panic.
Proof.
  intros P B. unfold aw_encrypt. rewrite P. erewrite rbind_run by reflexivity.
  rewrite (calculate_msp_bad f B). reflexivity.
Qed.

(** A ciphertext lacking the entry of a selected leaf aborts decryption. *)
Lemma aw_missing_panics (gk : aw_gk C) sk ct f n p :
  parse (fst (awct_policy ct)) (snd (awct_policy ct)) = Ok (tree f) -> arity2 f = true ->
  sat (owns (map fst (awsk_attr sk))) f = true ->
  In (n, p) (sel (pmask (owns (map fst (awsk_attr sk))) f) (leaves f)) ->
  find (fun e => seqb (n4 e) (node_index n p)) (awct_c ct) = None ->
  hash C (awsk_gid sk) <> None ->
  aw_decrypt gk sk ct = Panic.
Proof.
  intros P A S I Fn Hh. pose proof (owns_nonempty _ _ S A) as NE.
  unfold aw_decrypt. rewrite P. cbn [obind]. rewrite traverse_tree, S.
  assert (E : (0 <? length (map fst (awsk_attr sk)))%nat = true)
    by (destruct (map fst (awsk_attr sk)); [congruence|reflexivity]).
  rewrite E. cbn [andb]. rewrite calc_pruned_tree by exact A. rewrite S. cbn [obind fst snd].
  rewrite (calc_coefficients_eq L). cbn [obind unwrap app].
  unfold sha3_hash_g1. destruct (hash C (awsk_gid sk)) as [h|]; [|congruence]. cbn [obind].
  set (pr := map leaf_pair (sel (pmask (owns (map fst (awsk_attr sk))) f) (leaves f))).
  assert (Ip : In (n, node_index n p) pr) by (unfold pr; apply in_map_iff; exists (n, p); auto).
  assert (X : forall l, incl l pr -> In (n, node_index n p) l -> forall st,
     ofold (aw_step sk ct (gco f 1) (g1mul C (agk_g1 gk) h)) l st = Panic).
  { induction l as [|x l IH]; intros Hi Il st; [contradiction|]. cbn [ofold].
    assert (Y : (exists st', aw_step sk ct (gco f 1) (g1mul C (agk_g1 gk) h) st x = Ok st' /\
                 find (fun e => seqb (n4 e) (snd x)) (awct_c ct) <> None) \/
                aw_step sk ct (gco f 1) (g1mul C (agk_g1 gk) h) st x = Panic).
    { unfold aw_step. destruct (find (fun a => seqb (fst a) (fst x)) (awsk_attr sk)); [cbn [obind unwrap]|now right].
      destruct (find (fun e => seqb (n4 e) (snd x)) (awct_c ct)) eqn:Ef; [cbn [obind unwrap]|now right].
      destruct (find (fun c => seqb (fst c) (snd x)) (gco f 1)); [cbn [obind unwrap]|now right].
      left. eexists. split; [reflexivity|discriminate]. }
    destruct Y as [(st' & -> & Nf)| ->]; [|reflexivity]. cbn [obind].
    apply IH; [intros q Hq; apply Hi; now right|].
    destruct Il as [->|Il]; [cbn in Nf; congruence|exact Il]. }
  rewrite (X pr (incl_refl _) Ip). reflexivity.
Qed.

(** Encryption silently skips a leaf whose public key was not supplied; a key
    that selects this leaf then aborts. *)
Theorem aw_missing_pk_panics nonce (gk : aw_gk C) pks pol lang data te ie ct je sk f n p :
  aw_encrypt nonce gk pks pol lang data te ie = Ok (ct, je) ->
  parse pol lang = Ok (tree f) ->
  NoDup (leaves f) -> plain_names f = true -> upper_names C f ->
  sat (owns (map fst (awsk_attr sk))) f = true ->
  In (n, p) (sel (pmask (owns (map fst (awsk_attr sk))) f) (leaves f)) ->
  find_pk_attr pks n = None -> hash C (awsk_gid sk) <> None ->
  aw_decrypt gk sk ct = Panic.
Proof.
  intros He P ND PN UN S I Fn Hh.
  destruct (aw_encrypt_inv _ _ _ _ _ _ _ _ _ _ _ P He) as (B & s & i1 & i2 & msg & E1 & _ & _ & E4).
  specialize (E4 UN PN ND n p (sel_incl _ _ _ I)). rewrite Fn in E4.
  eapply aw_missing_panics; eauto; rewrite ?E1; eauto.
  clear - B. pattern f. apply binary_ind; [..|exact B]; clear f B.
  - reflexivity.
  - intros a b _ _ Ha Hb. cbn. now rewrite Ha, Hb.
  - intros l H _ IH. cbn. apply andb_true_intro. split.
    + destruct (length l) as [|[|m]]; [lia|lia|reflexivity].
    + apply forallb_forall. now apply Forall_forall.
Qed.

(** ** Empty inputs *)

Theorem aw_empty_refused (gk : aw_gk C) msk name a sk t i :
  aw_authgen gk [] t i = Ok (None, i) /\
  aw_keygen gk msk name [] = Err /\ aw_keygen gk msk "" (a :: nil) = Err /\
  aw_add gk msk "" sk = Err.
Proof. repeat split. Qed.

(** ** Colluding users *)

(** Two keys of different users for the same attribute give that attribute's
    key for any third user.  Uses key components and the public hash only. *)
Definition aw_forge (gid1 gid2 gid3 : string) (k1 k2 : G1 C) : option (G1 C) :=
  match hash C gid1, hash C gid2, hash C gid3 with
  | Some h1, Some h2, Some h3 =>
    match finv_opt (h1 - h2) with
    | Some d =>
      let y := g1mul C (g1add C k1 (g1neg C k2)) d in          (* g1^y *)
      let a := g1add C k1 (g1neg C (g1mul C y h1)) in           (* g1^alpha *)
      Some (g1add C a (g1mul C y h3))
    | None => None
    end
  | _, _, _ => None
  end.

(** What [add_to_attribute] appends to the key of [gid]. *)
Definition aw_component (gk : aw_gk C) (msk : aw_msk C) (gid a : string) (k : G1 C) : Prop :=
  aw_add gk msk a (AwSk gid []) = Ok (AwSk gid [(upper C a, k)]).

Lemma aw_component_inv (gk : aw_gk C) msk gid a k : aw_component gk msk gid a k ->
  a <> ""%string /\ gid <> ""%string /\
  exists h m, hash C gid = Some h /\ find (fun x => seqb (n3 x) a) (amsk_attr msk) = Some m /\
    log1 L k = log1 L (agk_g1 gk) * (snd (fst m) + h * snd m).
Proof.
  unfold aw_component, aw_add. cbn [awsk_gid awsk_attr app].
  destruct (seqb a "") eqn:E1; [discriminate|]. destruct (seqb gid "") eqn:E2; [discriminate|].
  apply seqb_neq in E1, E2. intros H. split; [exact E1|]. split; [exact E2|].
  apply obind_Ok in H as (hh & Hh & H). apply obind_Ok in H as (m & Hm & H). injection H as _ <-.
  unfold sha3_hash_g1 in Hh. destruct (hash C gid) as [h|]; [|discriminate]. injection Hh as <-.
  destruct (find _ (amsk_attr msk)) as [m'|]; [|discriminate]. injection Hm as <-.
  exists h, m'. repeat split. logs. ring.
Qed.

Theorem aw_forge_works (gk : aw_gk C) msk a gid1 gid2 gid3 k1 k2 h3 :
  aw_component gk msk gid1 a k1 -> aw_component gk msk gid2 a k2 ->
  hash C gid1 <> hash C gid2 -> hash C gid3 = Some h3 ->
  exists k3, aw_forge gid1 gid2 gid3 k1 k2 = Some k3 /\
    forall have, gid3 <> ""%string ->
      aw_add gk msk a (AwSk gid3 have) = Ok (AwSk gid3 (have ++ [(upper C a, k3)])).
Proof.
  intros K1 K2 N H3.
  destruct (aw_component_inv _ _ _ _ _ K1) as (Na & _ & h1 & m & H1 & Fm & V1).
  destruct (aw_component_inv _ _ _ _ _ K2) as (_ & _ & h2 & m' & H2 & Fm' & V2).
  rewrite Fm in Fm'. injection Fm' as <-. rewrite H1, H2 in N.
  assert (D : h1 - h2 <> 0) by (apply (f_sub_neq_0 L); congruence).
  unfold aw_forge. rewrite H1, H2, H3, (finv_opt_neq L) by exact D.
  eexists. split; [reflexivity|]. intros have N3. unfold aw_add. cbn [awsk_gid awsk_attr].
  apply seqb_neq in Na, N3. rewrite Na, N3. unfold sha3_hash_g1. rewrite H3. cbn [obind].
  rewrite Fm. cbn [unwrap obind]. apply find_some in Fm as (_ & Em). apply seqb_eq in Em. rewrite Em.
  do 4 f_equal. f_equal. apply (log1_inj L). logs. rewrite V1, V2. field. exact D.
Qed.

(** Users 1 and 2 hold attribute [a]; user 3 holds other attributes.  Together
    they open every ciphertext that user 3 could open with [a] added. *)
Theorem aw_collusion nonce (gk : aw_gk C) As gid1 gid2 gid3 mskA a k1 k2 h3 issued sk3
    pol lang data ct f ts is js te ie je :
  aw_setup ts is = Ok (gk, js) ->
  Forall (fun A => exists t i j, aw_authgen gk (fst A) t i = Ok (Some (snd A), j)) As ->
  separate As ->
  (forall m a, In (m, a) issued -> exists A, In A As /\ m = snd (snd A)) ->
  (exists A, In A As /\ mskA = snd (snd A)) ->
  aw_component gk mskA gid1 a k1 -> aw_component gk mskA gid2 a k2 ->
  hash C gid1 <> hash C gid2 -> hash C gid3 = Some h3 -> gid3 <> ""%string ->
  aw_issue gk gid3 issued = Ok sk3 ->
  aw_encrypt nonce gk (map (fun A => fst (snd A)) As) pol lang data te ie = Ok (ct, je) ->
  parse pol lang = Ok (tree f) -> String.length nonce = 12%nat ->
  NoDup (leaves f) -> plain_names f = true -> upper_names C f -> small_ok C (and_width f) ->
  sat (owns (map snd issued ++ [a])) f = true ->
  exists k3, aw_forge gid1 gid2 gid3 k1 k2 = Some k3 /\
    aw_decrypt gk (AwSk gid3 (awsk_attr sk3 ++ [(upper C a, k3)])) ct = Ok data.
Proof.
  intros Hs FA Sep Own OwnA K1 K2 N H3 N3 Hk He P Ln ND PN UN SO S.
  destruct (aw_forge_works _ _ _ _ _ _ _ _ _ K1 K2 N H3) as (k3 & E3 & A3).
  exists k3. split; [exact E3|]. specialize (A3 (awsk_attr sk3) N3).
  assert (Eg : AwSk gid3 (awsk_attr sk3) = sk3).
  { destruct (aw_issue_inv _ _ _ _ Hk) as (G & _). destruct sk3. cbn in *. now subst. }
  rewrite Eg in A3. pose proof (aw_add_issue _ _ _ _ _ _ _ Hk A3) as Hk'.
  refine (aw_correct _ _ _ _ _ _ _ _ _ _ _ _ _ _ _ _ _ Hs FA Sep _ Hk' He P Ln ND PN UN SO _).
  - intros m x I. apply in_app_or in I as [I|[I|[]]]; [eauto|]. injection I as <- <-. exact OwnA.
  - rewrite map_app. exact S.
Qed.

(** ** Progress *)

Lemma aw_authgen_runs (gk : aw_gk C) attrs t i : attrs <> [] ->
  exists pk msk j, aw_authgen gk attrs t i = Ok (Some (pk, msk), j).
Proof.
  intros NE. unfold aw_authgen. destruct attrs as [|a0 at0]; [congruence|].
  match goal with |- context [rmap ?f ?l] => destruct (rmap_runs f l) with (t := t) (i := i) as (r & j & E) end.
  - intros x t' i' _. erewrite rbind_run by reflexivity. erewrite rbind_run by reflexivity.
    eexists _, _. reflexivity.
  - erewrite rbind_run by exact E. eexists _, _, _. reflexivity.
Qed.

(** A key is issued whenever every attribute is one of the upper-cased names of
    the authority asked. *)
Lemma aw_issue_runs (gk : aw_gk C) gid l : gid <> ""%string -> hash C gid <> None ->
  (forall m a, In (m, a) l -> a <> ""%string /\ In a (map n3 (amsk_attr m))) ->
  exists sk, aw_issue gk gid l = Ok sk.
Proof.
  intros Ng Hh. induction l as [|[m a] l IH] using rev_ind; intros H; [cbn; eauto|].
  destruct IH as (sk & E); [intros; apply H; apply in_or_app; now left|].
  destruct (H m a) as (Na & Ia); [apply in_or_app; right; now left|].
  destruct (aw_issue_inv _ _ _ _ E) as (G & _).
  assert (X : exists sk', aw_add gk m a sk = Ok sk').
  { unfold aw_add. apply seqb_neq in Na, Ng. rewrite Na, G, Ng. unfold sha3_hash_g1.
    destruct (hash C gid); [|congruence]. cbn [obind].
    destruct (find (fun x => seqb (n3 x) a) (amsk_attr m)) as [x|] eqn:Ef; [cbn; eauto|].
    apply in_map_iff in Ia as (x & Ex & Ix). apply (find_none _ _ Ef) in Ix. cbn in Ix.
    rewrite Ex, seqb_refl in Ix. discriminate. }
  destruct X as (sk' & E'). exists sk'. eapply aw_add_issue; eauto.
Qed.

Lemma aw_encrypt_runs nonce (gk : aw_gk C) pks pol lang data f t i :
  parse pol lang = Ok (tree f) -> binary_and f = true ->
  exists ct j, aw_encrypt nonce gk pks pol lang data t i = Ok (ct, j).
Proof.
  intros P B. unfold aw_encrypt. rewrite P. erewrite rbind_run by reflexivity.
  rewrite (calculate_msp_eq f B). erewrite rbind_run by reflexivity. cbn [msp_m].
  assert (NE : exists r R, sort_rows (rev (msp_rows f)) = r :: R).
  { destruct (sort_rows (rev (msp_rows f))) as [|r R] eqn:E; [|eauto].
    pose proof (msp_rows_perm f _ eq_refl) as Pm. rewrite E in Pm.
    apply Permutation.Permutation_sym, Permutation.Permutation_nil in Pm.
    pose proof (msp_rows_names f B) as Nm. rewrite Pm in Nm. exfalso. clear - B Nm.
    assert (NN : names f <> []); [|cbn in Nm; congruence]. clear Nm. unfold names.
    pattern f. apply binary_ind; [..|exact B]; clear f B.
    - discriminate.
    - intros a b _ _ Ha Hb. cbn. rewrite map_app. intros E. apply app_eq_nil in E as (E & _). congruence.
    - intros l H _ IH. destruct l as [|x l]; [cbn in H; lia|]. inversion IH; subst. cbn. rewrite map_app.
      intros E. apply app_eq_nil in E as (E & _). congruence. }
  destruct NE as (r & R & E). rewrite E. cbn [map nth_error unwrap].
  erewrite rbind_run by reflexivity. erewrite rbind_run by reflexivity.
  erewrite rbind_run by apply (gen_shares_policy_eq L). erewrite rbind_run by apply (gen_shares_policy_eq L).
  erewrite rbind_run by reflexivity. cbv zeta.
  match goal with |- context [rmap ?f ?l ] => set (g := f); set (l' := l) end.
  match goal with |- context [rbind (rmap g l') _ t ?k] => destruct (rmap_runs g l') with (t := t) (i := k) as (c & j & E') end.
  - intros [k x] t' i' Ix. unfold g, aw_entry. erewrite rbind_run by reflexivity. cbn [fst snd].
    destruct (find_pk_attr _ _); [|eexists _, _; reflexivity].
    apply nth_error_combine_seq in Ix as (Ix & _). rewrite Nat.sub_0_r in Ix.
    assert (Hk : (k < length (leaves f))%nat).
    { rewrite <- (gsh_length f (t i) t (S i)). apply nth_error_Some. congruence. }
    destruct (nth_error (gsh f 0 t (S i + nd f)) k) eqn:En.
    + erewrite rbind_run by reflexivity. eexists _, _. reflexivity.
    + apply nth_error_None in En. rewrite gsh_length in En. lia.
  - erewrite rbind_run by exact E'. erewrite rbind_run by reflexivity. eexists _, _. reflexivity.
Qed.

End Aw11Proofs.

(** ** The upper-case mapping *)
Lemma aw_upper_letters {C : crypto} (L : laws C) :
  (forall i : nat, upper C (substring i 1 "abcdefghijklmnopqrstuvwxyz") = substring i 1 "ABCDEFGHIJKLMNOPQRSTUVWXYZ") /\
  (forall c : ascii, (N_of_ascii c < 128)%N -> index 0 (String c "") "abcdefghijklmnopqrstuvwxyz" = None ->
     upper C (String c "") = String c "") /\
  (forall (x y : string) (c : ascii), (N_of_ascii c < 128)%N ->
     upper C (x ++ String c y)%string = (upper C x ++ upper C (String c "") ++ upper C y)%string).
Proof.
  assert (One : forall c, (N_of_ascii c < 128)%N -> upper C (String c "") = String (upper_ascii c) "").
  { intros c H. pose proof (upper_at L "" c "" H) as U. cbn [append] in U. now rewrite U, (upper_nil L). }
  split; [|split].
  - intros i. do 26 (destruct i as [|i]; [apply One; reflexivity|]).
    destruct i; exact (upper_nil L).
  - intros c H N. rewrite One by exact H. f_equal. revert N. clear.
    destruct c as [[] [] [] [] [] [] [] []]; intros N; first [reflexivity|discriminate N].
  - intros x y c H. rewrite (upper_at L) by exact H. now rewrite One.
Qed.
