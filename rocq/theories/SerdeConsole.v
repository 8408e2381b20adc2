(** * SerdeConsole: files of rabe-console built with the feature "serde"

    [ser_enc] and [ser_dec] of the two features differ in the bytes only
    (/repo/rabe-console/src/mod.rs:1622-1670); [c_cbor] of Serde.v takes the place
    of the borsh codec in the functions of Console.v. *)
From Coq Require Import String Ascii List Bool Arith NArith ZArith Lia Field.
From Verif Require Import Base Crypto Policy Tools Spec Parse Files FilesProofs Instance Witnesses
  Borsh BorshProofs Console ConsoleProofs Serde SerdeProofs SerdeTypes SerdeExact ConsoleWitnesses.
From Verif Require Yct14 Bsw.
From Verif Require Import Poly CoreProofs SharingProofs SchemeLib Yct14Proofs.
Import ListNotations.
Local Open Scope string_scope.

Lemma try_cbor {A} (s : sd A) b : try_from_slice (c_cbor s) b = from_cbor s b.
Proof.
  unfold try_from_slice, from_cbor. cbn [c_cbor dec_]. generalize (get max_depth b).
  intros [[v r]|]; cbn; [|reflexivity]. destruct (de s v), r; reflexivity.
Qed.

Lemma cbor_survives {A} (s : sd A) v : read_as s s v v -> survives (c_cbor s) v.
Proof. intros H. exists (to_cbor s v). split; [reflexivity|]. rewrite try_cbor. exact H. Qed.

Theorem serde_files (C : crypto) (E : env C) : env_ok E ->
  forall (A : Type) (s : sd A) p v w d d', In w labels -> readable d p -> read_as s s v v ->
  store E p (c_cbor s) v w d = (d', Ok tt) -> ser_dec E (c_cbor s) p d' = (d', Ok v).
Proof. intros OK A s p v w d d' I R H S. exact (store_load E OK p _ v w d d' I R (cbor_survives s v H) S). Qed.

Theorem serde_result_file (C : crypto) (E : env C) : env_ok E ->
  forall (A : Type) (s : sd A) M p v d d', readable d p ->
  from_cbor s (to_cbor (s_result M s) (inl v)) = Err ->
  isave p (begin_ "CT" ++ to_hex (e_deflate E (to_cbor (s_result M s) (inl v))) ++ end_ "CT") d = (d', Ok tt) ->
  ser_dec E (c_cbor s) p d' = (d', Err).
Proof.
  intros OK A s M p v d d' R H S. unfold ser_dec.
  assert (X : ser_dec_bin E d' p = Ok (to_cbor (s_result M s) (inl v))).
  { eapply (saved_bytes E OK); [|exact R|exact S]. cbn. tauto. }
  rewrite X. cbn [obind].
  rewrite try_cbor, H. reflexivity.
Qed.

(** ** YCT14 from setup to decryption with every value passed on in bytes *)
Import Yct14.

Section YctWf.
Context {C : crypto} (L : laws C).

Lemma names_yattr (l : list (yct_attr C)) : Forall wtext (map y_name l) -> Forall wf_yattr l.
Proof. induction l as [|a l IH]; cbn; intros H; [constructor|]. inversion H; subst. constructor; auto. Qed.

Lemma setup_names U t i (pk : yct_pk C) msk j : yct_setup U t i = Ok ((pk, msk), j) ->
  map y_name (ypk_attrs pk) = U /\ map y_name (ymsk_attrs msk) = U.
Proof.
  unfold yct_setup. intros H.
  apply rbind_Ok in H as (s & i1 & Hs & H).
  apply rbind_Ok in H as (g & i2 & _ & H).
  apply rbind_Ok in H as (pairs & i3 & Hp & H). apply rret_Ok in H as [H _]. injection H as <- <-.
  cbn [ypk_attrs ymsk_attrs]. apply rmap_Forall2 in Hp.
  induction Hp as [|a pq U pairs (x & y & Hx) _ [IH1 IH2]]; cbn [map]; [auto|].
  apply rbind_Ok in Hx as (si & i4 & Hsi & Hx). apply rret_Ok in Hx as [<- _]. cbn [fst snd y_name].
  rewrite IH1, IH2. auto.
Qed.

Lemma setup_wf U t i (pk : yct_pk C) msk j : yct_setup U t i = Ok ((pk, msk), j) -> wall wtext U ->
  wf_yct_pk pk /\ wf_yct_msk msk.
Proof.
  intros H [Wl Wt]. destruct (setup_names _ _ _ _ _ _ H) as [E1 E2].
  split; split; try (apply names_yattr; congruence).
  - rewrite <- (map_length y_name), E1. exact Wl.
  - rewrite <- (map_length y_name), E2. exact Wl.
Qed.

Lemma du_wf (msk : yct_msk C) sh : forall du, wf_yct_msk msk -> yct_du msk sh = Ok du ->
  List.length du <= List.length sh /\ Forall wf_yattr du.
Proof.
  induction sh as [|[k v] sh IH]; intros du Wm H; cbn [yct_du] in H.
  - injection H as <-. split; [apply le_n|constructor].
  - destruct (private_from (remove_index (fst (k, v)), snd (k, v)) msk) as [a| |] eqn:E; [| |discriminate].
    + apply obind_Ok in H as (l & Hl & H). injection H as <-. destruct (IH l Wm Hl) as [I1 I2].
      cbn [List.length]. split; [lia|]. constructor; [|exact I2].
      unfold private_from in E. cbn [fst snd] in E.
      apply obind_Ok in E as (si & Hs & E). apply obind_Ok in E as (x & _ & E). injection E as <-.
      unfold wf_yattr. cbn [y_name]. unfold msk_get_private in Hs.
      destruct (find _ (ymsk_attrs msk)) as [b|] eqn:F; [|discriminate].
      apply find_some in F as [I F]. apply andb_prop in F as [F _]. apply seqb_eq in F. rewrite <- F.
      destruct Wm as [_ Wm]. rewrite Forall_forall in Wm. exact (Wm b I).
    + destruct (IH du Wm H) as [I1 I2]. cbn [List.length]. split; [lia|exact I2].
Qed.

Lemma keygen_wf (msk : yct_msk C) pol lang t i sk j f : parse pol lang = Ok (tree f) ->
  yct_keygen msk pol lang t i = Ok (sk, j) -> wf_yct_msk msk -> wtext pol -> fits64 (List.length (leaves f)) ->
  wf_yct_sk sk.
Proof.
  intros P H Wm Wp Wl. destruct (yct_keygen_inv L _ _ _ _ _ _ _ _ P H) as [E D].
  destruct (du_wf _ _ _ Wm D) as [D1 D2]. rewrite gsh_length in D1.
  split; [rewrite E; exact Wp|]. split; [|exact D2]. unfold fits64 in *. lia.
Qed.

Lemma encrypt_wf nonce (pk : yct_pk C) attrs data t i ct j : yct_encrypt nonce pk attrs data t i = Ok (ct, j) ->
  wall wtext attrs -> wbytes (yct_data ct) -> wf_yct_ct ct.
Proof.
  intros H [Wl Wt] Wd. unfold yct_encrypt in H.
  destruct attrs as [|a0 at0]; [discriminate|]. destruct data as [|c d]; [discriminate|].
  apply rbind_Ok in H as (k & i1 & Hk & H).
  apply rbind_Ok in H as (l & i2 & Hl & H). apply rlift_Ok in Hl as [Hl <-].
  apply rbind_Ok in H as (e & i3 & He & H).
  apply rret_Ok in H as [<- _]. cbn [yct_data yct_attrs] in *.
  split; [|exact Wd]. cbn [yct_attrs].
  assert (E : map y_name l = a0 :: at0).
  { apply omap_Forall2 in Hl. revert Hl. generalize (a0 :: at0). intros q Hl.
    induction Hl as [|n a q l Ha _ IH]; [reflexivity|]. cbn [map]. rewrite IH. f_equal.
    unfold public_from in Ha. destruct (find _ _) as [[m [[g|x]|]]|]; try discriminate. injection Ha as <-. reflexivity. }
  split.
  - rewrite <- (map_length y_name), E. exact Wl.
  - apply names_yattr. rewrite E. exact Wt.
Qed.
End YctWf.

Theorem yct_serde_session (C : crypto) : laws C -> forall (W : swire C), swire_ok W ->
  forall (M1 M2 M3 M4 N1 N2 N3 N4 : mode) (nonce : string) (U : list string) (pk : yct_pk C) (msk : yct_msk C)
    (attrs : list string) (sk : yct_sk C) (pol : string) (lang : language) (data : string) (ct : yct_ct C)
    (f : formula) (ts : nat -> F C) (is js : nat) (tk : nat -> F C) (ik jk : nat) (te : nat -> F C) (ie je : nat),
  parse pol lang = Ok (tree f) ->
  wall wtext U -> wall wtext attrs -> wtext pol -> fits64 (List.length (leaves f)) ->
  yct_setup U ts is = Ok (pk, msk, js) ->
  exists (pk' : yct_pk C) (msk' : yct_msk C),
    from_cbor (s_yct_pk W N1) (to_cbor (s_yct_pk W M1) pk) = Ok pk' /\
    from_cbor (s_yct_msk W N2) (to_cbor (s_yct_msk W M2) msk) = Ok msk' /\
    (yct_keygen msk' pol lang tk ik = Ok (sk, jk) ->
     yct_encrypt nonce pk' attrs data te ie = Ok (ct, je) -> wbytes (yct_data ct) ->
     exists (sk' : yct_sk C) (ct' : yct_ct C),
       from_cbor (s_yct_sk W N3) (to_cbor (s_yct_sk W M3) sk) = Ok sk' /\
       from_cbor (s_yct_ct W N4) (to_cbor (s_yct_ct W M4) ct) = Ok ct' /\
       (String.length nonce = 12%nat -> arity2 f = true -> NoDup (names f) -> plain_names f = true ->
        small_ok C (and_width f) -> sat (owns attrs) f = true -> yct_decrypt sk' ct' = Ok data)).
Proof.
  intros L W OK M1 M2 M3 M4 N1 N2 N3 N4 nonce U pk msk attrs sk pol lang data ct f ts is js tk ik jk te ie je
    P WU WA WP WL S.
  destruct (yct_serde C W M1 N1 OK) as (A1 & _ & _ & _). destruct (yct_serde C W M2 N2 OK) as (_ & A2 & _ & _).
  destruct (yct_serde C W M3 N3 OK) as (_ & _ & A3 & _). destruct (yct_serde C W M4 N4 OK) as (_ & _ & _ & A4).
  unfold read_as in *. destruct (setup_wf _ _ _ _ _ _ S WU) as [W1 W2].
  exists pk, msk. split; [exact (A1 pk W1)|]. split; [exact (A2 msk W2)|].
  intros K E WD. pose proof (keygen_wf L _ _ _ _ _ _ _ _ P K W2 WP WL) as W3.
  pose proof (encrypt_wf _ _ _ _ _ _ _ _ E WA WD) as W4.
  exists sk, ct. split; [exact (A3 sk W3)|]. split; [exact (A4 ct W4)|].
  intros Ln Ar ND PN SO Sat. eapply (yct_correct L); eassumption.
Qed.

(** ** Witnesses: residues as numbers *)

(** Scalars of the examples; not in /repo. *)
Definition s_zp : sd zp :=
  SD (fun x => VU (Z.to_N (zval x)))
     (fun v => match v with VU n => if (n <? 1009)%N then Some (zmk (Z.of_N n)) else None | _ => None end) None.
Lemma s_zp_good : sgood (fun _ => True) 64 s_zp.
Proof.
  intros v _. pose proof (zval_range v) as R. split.
  - cbn [s_zp ser holds]. lia.
  - cbn [s_zp ser de]. replace (Z.to_N (zval v) <? 1009)%N with true by (symmetry; apply N.ltb_lt; lia).
    rewrite Z2N.id by lia. now rewrite zmk_val.
Qed.
(** The same for all groups; not in /repo. *)
Definition zswire : swire ZC := SWire ZC s_zp s_zp s_zp s_zp.
Lemma zswire_ok : swire_ok zswire.
Proof. repeat apply conj; exact s_zp_good. Qed.
Lemma zswire_required : required zswire.
Proof. repeat split. Qed.
