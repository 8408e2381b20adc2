(** * Proofs about what the library prints: Prints.v *)
From Coq Require Import String List Bool Arith Lia DecimalString DecimalNat.
From Verif Require Import Base Crypto Policy Tools Sharing Spec Parse ParseProofs SharingProofs Dnf Files Bdabe Mke08
  Bsw Ghw11 Lsw Yct14 Ac17 Aw11 PolicyProofs TruncationProofs Prints.
Import ListNotations.
Local Open Scope string_scope.

(** [m] is [o] with, before anything else, the complaint about a policy that cannot be read. *)
Definition plainly {A} (pest : language -> string -> string) (pol : string) (lang : language)
  (m : said A) (o : outcome A) : Prop :=
  snd m = o /\
  (parse pol lang = Err -> o = Err /\ fst m = [parse_line pest pol lang]) /\
  (parse pol lang <> Err -> fst m = []).

(** The names for which the master key has no part. *)
Definition unlisted {C : crypto} (msk : yct_msk C) (n : string) : bool :=
  negb (existsb (fun a => seqb (y_name a) n && match y_node a with Some _ => true | None => false end)
          (ymsk_attrs msk)).

Lemma plainly_silent {A} pest pol lang (m : said A) o x : plainly pest pol lang m o -> o = Ok x -> fst m = [].
Proof.
  intros (_ & E & N) ->. apply N. intros P. apply E in P as [P _]. discriminate P.
Qed.

Lemma sbind_same {A B} (m : said A) (k : A -> said B) : snd (sbind m k) = obind (snd m) (fun x => snd (k x)).
Proof. destruct m as [l [x| |]]; reflexivity. Qed.

Section PrintsProofs.
Context {C : crypto}.
Variable pest : language -> string -> string.

Lemma plain_parse {A} pol lang (o : outcome A) :
  (parse pol lang = Err -> o = Err) -> (parse pol lang = Panic -> o = Panic) ->
  plainly pest pol lang (sbind (said_parse pest pol lang) (fun _ => still o)) o.
Proof.
  intros E P. unfold plainly, said_parse. destruct (parse pol lang) as [v| |]; cbn; repeat apply conj; try tauto; try discriminate; auto.
  all: intros; try (symmetry; auto; fail); try (split; auto).
Qed.

(** ** policy_in_dnf *)

Lemma in_dnf_same v : forall b p, snd (said_in_dnf v b p) = policy_in_dnf v b p.
Proof.
  revert v. fix IH 1. intros v b p. destruct v as [[| |] w|l|s k].
  1-3: exact (IH w _ _).
  2: reflexivity.
  destruct p as [[| |]|]; try reflexivity; cbn [said_in_dnf policy_in_dnf].
  - induction l as [|c r IHr]; [reflexivity|]. cbn [fst snd forallb]. f_equal; [exact (IH c _ _)|exact IHr].
  - destruct b; [reflexivity|]. induction l as [|c r IHr]; [reflexivity|]. cbn [fst snd forallb]. f_equal; [exact (IH c _ _)|exact IHr].
Qed.

Lemma in_dnf_quiet f : forall b p, fst (said_in_dnf (tree f) b p) = [].
Proof.
  induction f as [n k|l IH|l IH] using formula_ind'; intros b p.
  - reflexivity.
  - cbn [tree said_in_dnf]. induction IH as [|x r Hx _ IHr]; [reflexivity|]. cbn [map fst]. rewrite Hx. exact IHr.
  - cbn [tree said_in_dnf]. destruct b; [reflexivity|].
    induction IH as [|x r Hx _ IHr]; [reflexivity|]. cbn [map fst]. rewrite Hx. exact IHr.
Qed.

Lemma in_dnf_parsed pol lang v b p : parse pol lang = Ok v -> fst (said_in_dnf v b p) = [].
Proof. intros E. destruct (parse_shape _ _ _ E) as (f & -> & _). apply in_dnf_quiet. Qed.

(** ** Schemes *)

Ltac plain := apply plain_parse; intros E;
  cbv [bsw_encrypt bsw_decrypt ghw_encrypt ghw_transform lsw_keygen lsw_decrypt yct_decrypt cp_encrypt cp_decrypt
       kp_keygen kp_decrypt ac_open aw_encrypt aw_decrypt bd_decrypt mk_decrypt rbind rlift draw draw_gt];
  rewrite E; reflexivity.

Lemma bsw_encrypt_said nonce (pk : bsw_pk C) pol lang data t i :
  plainly pest pol lang (said_bsw_encrypt pest nonce pk pol lang data t i) (bsw_encrypt nonce pk pol lang data t i).
Proof. plain. Qed.
Lemma bsw_decrypt_said (sk : bsw_sk C) ct :
  plainly pest (fst (Bsw.bct_policy ct)) (snd (Bsw.bct_policy ct)) (said_bsw_decrypt pest sk ct) (bsw_decrypt sk ct).
Proof. plain. Qed.
Lemma ghw_encrypt_said nonce (pk : ghw_pk C) pol lang data t i :
  plainly pest pol lang (said_ghw_encrypt pest nonce pk pol lang data t i) (ghw_encrypt nonce pk pol lang data t i).
Proof. plain. Qed.
Lemma ghw_transform_said (ct : ghw_ct C) tk :
  plainly pest (fst (gct_policy ct)) (snd (gct_policy ct)) (said_ghw_transform pest ct tk) (ghw_transform ct tk).
Proof. plain. Qed.
Lemma lsw_keygen_said (pk : lsw_pk C) msk pol lang t i :
  plainly pest pol lang (said_lsw_keygen pest pk msk pol lang t i) (lsw_keygen pk msk pol lang t i).
Proof. plain. Qed.
Lemma lsw_decrypt_said (sk : lsw_sk C) ct :
  plainly pest (fst (lsk_policy sk)) (snd (lsk_policy sk)) (said_lsw_decrypt pest sk ct) (lsw_decrypt sk ct).
Proof. plain. Qed.
Lemma yct_decrypt_said (sk : yct_sk C) ct :
  plainly pest (fst (ysk_policy sk)) (snd (ysk_policy sk)) (said_yct_decrypt pest sk ct) (yct_decrypt sk ct).
Proof. plain. Qed.
Lemma cp_encrypt_said nonce (pk : ac_pk C) pol data lang t i :
  plainly pest pol lang (said_cp_encrypt pest nonce pk pol data lang t i) (cp_encrypt nonce pk pol data lang t i).
Proof. plain. Qed.
Lemma cp_decrypt_said (sk : ac_cpsk C) ct :
  plainly pest (fst (acp_policy ct)) (snd (acp_policy ct)) (said_cp_decrypt pest sk ct) (cp_decrypt sk ct).
Proof. plain. Qed.
Lemma kp_keygen_said (msk : ac_msk C) pol lang t i :
  plainly pest pol lang (said_kp_keygen pest msk pol lang t i) (kp_keygen msk pol lang t i).
Proof. plain. Qed.
Lemma kp_decrypt_said (sk : ac_kpsk C) ct :
  plainly pest (fst (akps_policy sk)) (snd (akps_policy sk)) (said_kp_decrypt pest sk ct) (kp_decrypt sk ct).
Proof. plain. Qed.
Lemma aw_encrypt_said nonce (gk : aw_gk C) pks pol lang data t i :
  plainly pest pol lang (said_aw_encrypt pest nonce gk pks pol lang data t i) (aw_encrypt nonce gk pks pol lang data t i).
Proof. plain. Qed.
Lemma aw_decrypt_said (gk : aw_gk C) sk ct :
  plainly pest (fst (awct_policy ct)) (snd (awct_policy ct)) (said_aw_decrypt pest gk sk ct) (aw_decrypt gk sk ct).
Proof. plain. Qed.
Lemma bd_decrypt_said (sk : bd_uk C) ct :
  plainly pest (fst (Bdabe.bct_policy ct)) (snd (Bdabe.bct_policy ct)) (said_bd_decrypt pest sk ct) (bd_decrypt sk ct).
Proof. plain. Qed.
Lemma mk_decrypt_said (sk : mk_uk C) ct :
  plainly pest (fst (mct_policy ct)) (snd (mct_policy ct)) (said_mk_decrypt pest sk ct) (mk_decrypt sk ct).
Proof. plain. Qed.

Lemma bd_encrypt_said nonce (pk : bd_pk C) apks pol lang data t i :
  plainly pest pol lang (said_bd_encrypt pest nonce pk apks pol lang data t i) (bd_encrypt nonce pk apks pol lang data t i).
Proof.
  unfold plainly, said_bd_encrypt, said_parse. destruct (parse pol lang) as [v| |] eqn:E.
  - pose proof (in_dnf_parsed _ _ _ false None E) as Q. pose proof (in_dnf_same v false None) as S.
    unfold sbind. cbn [fst snd app].
    destruct (said_in_dnf v false None) as [q b]. cbn [fst snd] in *. subst q.
    repeat apply conj; [|discriminate|]; destruct b; reflexivity.
  - unfold bd_encrypt, rbind, rlift. rewrite E. cbn. repeat apply conj; [reflexivity|now split|tauto].
  - unfold bd_encrypt, rbind, rlift. rewrite E. cbn. repeat apply conj; [reflexivity|discriminate|reflexivity].
Qed.
Lemma mk_encrypt_said nonce (pk : mk_pk C) apks pol lang data t i :
  plainly pest pol lang (said_mk_encrypt pest nonce pk apks pol lang data t i) (mk_encrypt nonce pk apks pol lang data t i).
Proof.
  unfold plainly, said_mk_encrypt, said_parse. destruct (parse pol lang) as [v| |] eqn:E.
  - pose proof (in_dnf_parsed _ _ _ false None E) as Q. pose proof (in_dnf_same v false None) as S.
    unfold sbind. cbn [fst snd app].
    destruct (said_in_dnf v false None) as [q b]. cbn [fst snd] in *. subst q.
    repeat apply conj; [|discriminate|]; destruct b; reflexivity.
  - unfold mk_encrypt, rbind, rlift. rewrite E. cbn. repeat apply conj; [reflexivity|now split|tauto].
  - unfold mk_encrypt, rbind, rlift. rewrite E. cbn. repeat apply conj; [reflexivity|discriminate|reflexivity].
Qed.

(** ** BSW delegation *)

Lemma delegate_said (pk : bsw_pk C) sk subset t i :
  let m := said_bsw_delegate pk sk subset t i in
  snd m = bsw_delegate pk sk subset t i /\
  ((exists a, In a subset /\ ~ In a (map b_string (bsk_dj sk))) -> fst m = [not_subset_line]) /\
  (subset = [] -> fst m = [empty_subset_line]) /\
  (subset <> [] -> (forall a, In a subset -> In a (map b_string (bsk_dj sk))) -> fst m = []).
Proof.
  cbn zeta. unfold said_bsw_delegate, bsw_delegate.
  assert (S : is_subset subset (map b_string (bsk_dj sk)) = true <->
              forall a, In a subset -> In a (map b_string (bsk_dj sk))).
  { unfold is_subset. rewrite forallb_forall. split; intros H a I; specialize (H a I); now apply smem_In. }
  destruct (is_subset subset (map b_string (bsk_dj sk))) eqn:E; cbn [negb].
  - destruct subset as [|x r]; cbn [length Nat.eqb].
    + cbn. repeat apply conj; try reflexivity; [|congruence]. intros (a & [] & _).
    + cbn. repeat apply conj; try reflexivity; [|discriminate]. intros (a & I & N). destruct N. now apply S.
  - cbn. repeat apply conj; try reflexivity.
    + intros ->. cbn in E. discriminate E.
    + intros _ H. apply S in H. discriminate H.
Qed.

(** ** YCT14 key generation *)

Variable debug : string -> string.

Lemma yct_du_same (msk : yct_msk C) sh : snd (said_yct_du debug msk sh) = yct_du msk sh.
Proof.
  induction sh as [|x r IH]; [reflexivity|]. cbn [said_yct_du yct_du].
  destruct (private_from _ msk) as [a| |]; [|rewrite sbind_same; exact IH|reflexivity].
  rewrite sbind_same, IH. reflexivity.
Qed.

Lemma private_from_unlisted (msk : yct_msk C) n x :
  (private_from (n, x) msk = Err <-> unlisted msk n = true).
Proof.
  unfold private_from, msk_get_private, unlisted. cbn [fst snd].
  destruct (find _ (ymsk_attrs msk)) as [a|] eqn:E.
  - split.
    + unfold node_private. destruct (y_node a) as [[g|s]|]; cbn [obind]; try discriminate.
      destruct (finv_opt s); discriminate.
    + intros H. apply negb_true_iff in H. apply find_some in E.
      assert (X : existsb (fun a => seqb (y_name a) n && match y_node a with Some _ => true | None => false end) (ymsk_attrs msk) = true).
      { apply existsb_exists. exists a. exact E. } congruence.
  - split; [intros _|reflexivity]. apply negb_true_iff. destruct (existsb _ _) eqn:X; [|reflexivity].
    apply existsb_exists in X as (a & I & Ha). pose proof (find_none _ _ E a I) as N. cbn in N. congruence.
Qed.

Lemma yct_du_lines (msk : yct_msk C) sh du : yct_du msk sh = Ok du ->
  fst (said_yct_du debug msk sh) =
  map (skip_line debug) (filter (unlisted msk) (map (fun x => remove_index (fst x)) sh)).
Proof.
  revert du. induction sh as [|x r IH]; intros du H; [reflexivity|].
  cbn [said_yct_du map filter]. cbn [yct_du] in H.
  pose proof (private_from_unlisted msk (remove_index (fst x)) (snd x)) as U.
  destruct (private_from _ msk) as [a| |] eqn:E; [| |discriminate H].
  - destruct (unlisted msk _); [destruct U as [_ U]; discriminate (U eq_refl)|].
    destruct (yct_du msk r) as [d| |] eqn:Ed; [|discriminate H|discriminate H]. rewrite <- (IH d eq_refl).
    unfold sbind. rewrite yct_du_same, Ed. cbn. apply app_nil_r.
  - destruct U as [U _]. rewrite (U eq_refl). cbn [map]. rewrite <- (IH du H). reflexivity.
Qed.

Lemma yct_keygen_same (msk : yct_msk C) pol lang t i :
  snd (said_yct_keygen pest debug msk pol lang t i) = yct_keygen msk pol lang t i.
Proof.
  unfold said_yct_keygen, yct_keygen, said_parse, rbind, rlift, rret. rewrite sbind_same.
  destruct (parse pol lang) as [v| |]; cbn [snd obind]; try reflexivity. rewrite sbind_same. cbn [still snd].
  destruct (gen_shares_policy (ymsk_s msk) v None t i) as [[sh j]| |]; cbn [obind]; try reflexivity.
  rewrite sbind_same, yct_du_same. cbn [fst]. destruct (yct_du msk sh); reflexivity.
Qed.

Lemma yct_keygen_unreadable (msk : yct_msk C) pol lang t i : parse pol lang = Err ->
  yct_keygen msk pol lang t i = Err /\
  fst (said_yct_keygen pest debug msk pol lang t i) = [parse_line pest pol lang].
Proof.
  intros E. unfold said_yct_keygen, yct_keygen, said_parse, rbind, rlift. rewrite E. now split.
Qed.

Lemma yct_keygen_lines (L : laws C) (msk : yct_msk C) pol lang f t i sk j : parse pol lang = Ok (tree f) ->
  yct_keygen msk pol lang t i = Ok (sk, j) ->
  fst (said_yct_keygen pest debug msk pol lang t i) =
  map (skip_line debug) (filter (unlisted msk) (map before_us (names f))).
Proof.
  intros P H. unfold said_yct_keygen, said_parse. unfold yct_keygen, rbind, rlift in H. rewrite P in *.
  rewrite (gen_shares_policy_eq L) in H.
  destruct (yct_du msk (gsh f (ymsk_s msk) t i)) as [du| |] eqn:D; [|discriminate H|discriminate H].
  unfold sbind. cbn [fst snd still app]. rewrite (gen_shares_policy_eq L). cbn [fst snd]. rewrite yct_du_same, D. cbn [fst snd].
  rewrite app_nil_r. rewrite (yct_du_lines _ _ _ D). f_equal. f_equal.
  transitivity (map remove_index (map fst (gsh f (ymsk_s msk) t i))); [now rewrite map_map|].
  rewrite gsh_idents. unfold idents, names. rewrite !map_map. apply map_ext. intros [n p]. cbn [fst].
  rewrite remove_index_node. apply before_us_remove.
Qed.

(** Whatever happens, the lines are about names of the policy, in the order of the leaves. *)
Lemma yct_du_prefix (msk : yct_msk C) sh : exists k, fst (said_yct_du debug msk sh) =
  firstn k (map (skip_line debug) (filter (unlisted msk) (map (fun x => remove_index (fst x)) sh))).
Proof.
  induction sh as [|x r [k IH]]; [now exists 0%nat|]. cbn [said_yct_du map filter].
  pose proof (private_from_unlisted msk (remove_index (fst x)) (snd x)) as U.
  destruct (private_from _ msk) as [a| |] eqn:E.
  - destruct (unlisted msk _); [destruct U as [_ U]; discriminate (U eq_refl)|]. exists k.
    unfold sbind. destruct (snd (said_yct_du debug msk r)); cbn; rewrite ?app_nil_r; exact IH.
  - destruct U as [U _]. rewrite (U eq_refl). exists (S k). cbn. now rewrite IH.
  - exists 0%nat. reflexivity.
Qed.

(** The lines tell nothing about the exponents and the random values. *)
Lemma yct_keygen_lines_same (L : laws C) (msk msk' : yct_msk C) pol lang t i sk j t' i' sk' j' :
  (forall n, unlisted msk n = unlisted msk' n) ->
  yct_keygen msk pol lang t i = Ok (sk, j) -> yct_keygen msk' pol lang t' i' = Ok (sk', j') ->
  fst (said_yct_keygen pest debug msk pol lang t i) = fst (said_yct_keygen pest debug msk' pol lang t' i').
Proof.
  intros U H H'. assert (P : exists f, parse pol lang = Ok (tree f)).
  { unfold yct_keygen, rbind, rlift in H. destruct (parse pol lang) as [v| |] eqn:E; [|discriminate H|discriminate H].
    destruct (parse_shape _ _ _ E) as (f & -> & _). eauto. }
  destruct P as (f & P). rewrite (yct_keygen_lines L _ _ _ _ _ _ _ _ P H), (yct_keygen_lines L _ _ _ _ _ _ _ _ P H').
  f_equal. apply filter_ext. exact U.
Qed.

End PrintsProofs.

(** ** Files *)

Lemma number_inj n m : number n = number m -> n = m.
Proof.
  unfold number. intros E. apply (f_equal NilZero.uint_of_string) in E.
  assert (X : forall k, NilZero.uint_of_string (NilZero.string_of_uint (Nat.to_uint k)) = Some (Nat.to_uint k)).
  { intros k. apply NilZero.usu. intros Z. pose proof (DecimalNat.Unsigned.of_to k) as O. rewrite Z in O. cbn in O. subst k. discriminate Z. }
  rewrite !X in E. injection E as E. now apply DecimalNat.Unsigned.to_uint_inj.
Qed.

Lemma read_to_vec_said d path :
  snd (said_read_to_vec d path) = read_to_vec d path /\
  (forall s, read_to_vec d path = Ok s ->
     fst (said_read_to_vec d path) = ["parsed " ++ number (String.length s) ++ " bytes"]) /\
  (read_to_vec d path = Panic -> fst (said_read_to_vec d path) = []).
Proof.
  unfold said_read_to_vec, read_to_vec. destruct (fs_open d path) as [s|]; cbn; repeat apply conj; try congruence; intros.
Qed.

Lemma write_from_vec_said d path data :
  snd (said_write_from_vec d path data) = write_from_vec d path data /\
  (forall d', write_from_vec d path data = Ok d' -> fst (said_write_from_vec d path data) = [wrote_line path]) /\
  (write_from_vec d path data = Panic -> fst (said_write_from_vec d path data) = []).
Proof.
  unfold said_write_from_vec. destruct (write_from_vec d path data); cbn; repeat apply conj; congruence.
Qed.

Lemma write_file_said d path data :
  snd (said_write_file d path data) = write_file d path data /\
  (forall r, write_file d path data = Ok r -> fst (said_write_file d path data) = [wrote_line path]) /\
  (write_file d path data = Panic -> fst (said_write_file d path data) = []).
Proof.
  unfold said_write_file. destruct (write_file d path data); cbn; repeat apply conj; congruence.
Qed.
