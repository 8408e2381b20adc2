(** * ThinningProofs: dropping attributes (C149) *)
From Coq Require Import String List Bool Arith Lia.
From Verif Require Import Base Crypto Policy Tools Sharing Parse Symmetric Bsw Ghw11 Lsw Yct14 Ac17 Aw11 SchemeLib EquationProofs Thinning.
Import ListNotations.

(** ** Places *)

Lemma kept_at_step keep l : forall n, kept_at keep l n < kept_at keep l (S n).
Proof.
  induction l as [|a r IH]; intros n; cbn; [lia|].
  destruct (keep a); [|specialize (IH n); lia].
  destruct n as [|m]; [lia|]. specialize (IH m). lia.
Qed.

Lemma kept_at_end keep l : forall m, kept_at keep l (length (filter keep l) + m) = length l + m.
Proof.
  induction l as [|a r IH]; intros m; cbn; [reflexivity|].
  destruct (keep a); cbn; now rewrite IH.
Qed.

Lemma places_step k keep l n : places k keep l n < places k keep l (S n).
Proof.
  unfold places. destruct (Nat.ltb_spec n k) as [H|H]; destruct (Nat.ltb_spec (S n) k) as [H'|H']; try lia.
  replace (S n - k) with (S (n - k)) by lia. pose proof (kept_at_step keep l (n - k)). lia.
Qed.

Lemma places_lt k keep l m n : m < n -> places k keep l m < places k keep l n.
Proof.
  intros H. induction H as [|n H IH]; [apply places_step|]. pose proof (places_step k keep l n). lia.
Qed.

Lemma places_end k keep l m :
  places k keep l (k + length (filter keep l) + m) = k + length l + m.
Proof.
  unfold places. destruct (Nat.ltb_spec (k + length (filter keep l) + m) k) as [H|H]; [lia|].
  replace (k + length (filter keep l) + m - k) with (length (filter keep l) + m) by lia.
  rewrite kept_at_end. lia.
Qed.

Lemma places_lo k keep l m : m < k -> places k keep l m = m.
Proof. intros H. unfold places. destruct (Nat.ltb_spec m k); lia. Qed.

Lemma kept_at_is keep l : forall n, n < length (filter keep l) ->
  exists a, nth_error (filter keep l) n = Some a /\ nth_error l (kept_at keep l n) = Some a.
Proof.
  induction l as [|a l IH]; intros n H; cbn in *; [lia|]. destruct (keep a); cbn in *.
  - destruct n as [|n]; cbn; [now exists a|]. apply IH. lia.
  - apply IH. lia.
Qed.

Lemma places_spec k keep l :
  (forall m n, m < n -> places k keep l m < places k keep l n) /\
  (forall n, n < k -> places k keep l n = n) /\
  (forall n, n < length (filter keep l) -> exists a, nth_error (filter keep l) n = Some a /\ nth_error l (places k keep l (k + n) - k) = Some a) /\
  (forall m, places k keep l (k + length (filter keep l) + m) = k + length l + m).
Proof.
  split; [apply places_lt|]. split; [apply places_lo|]. split; [|apply places_end].
  intros n H. destruct (kept_at_is keep l n H) as (a & E & E'). exists a. split; [exact E|].
  unfold places. destruct (Nat.ltb_spec (k + n) k); [lia|]. replace (k + kept_at keep l (k + n - k) - k) with (kept_at keep l n); [exact E'|].
  replace (k + n - k) with n by lia. lia.
Qed.

(** ** Loops over some of the elements *)

Lemma omap_filter {A B} (f : A -> outcome B) (p : A -> bool) (q : B -> bool) l : forall r,
  (forall a b, f a = Ok b -> q b = p a) ->
  omap f l = Ok r -> omap f (filter p l) = Ok (filter q r).
Proof.
  induction l as [|a l IH]; intros r Q H; cbn in H.
  - injection H as <-. reflexivity.
  - apply obind_Ok in H as (b & Hb & H). apply obind_Ok in H as (bs & Hbs & H). injection H as <-.
    specialize (IH _ Q Hbs). cbn. rewrite (Q _ _ Hb). destruct (p a); [|exact IH].
    cbn. rewrite Hb. cbn. rewrite IH. reflexivity.
Qed.

(** A step that draws one value. *)
Lemma rmap_filter {F A B} (f : A -> rand F B) (h : A -> F -> outcome B) (p : A -> bool) (q : B -> bool) :
  (forall a t i, f a t i = match h a (t i) with Ok b => Ok (b, S i) | Err => Err | Panic => Panic end) ->
  (forall a x b, h a x = Ok b -> q b = p a) ->
  forall l t i r j, rmap f l t i = Ok (r, j) ->
  j = i + length l /\
  forall u k, (forall n, n < length (filter p l) ->
      exists m, nth_error (map snd (filter (fun x => p (fst x)) (combine l (seq 0 (length l))))) n = Some m /\ u (k + n) = t (i + m)) ->
    rmap f (filter p l) u k = Ok (filter q r, k + length (filter p l)).
Proof.
  intros Hf Hq. induction l as [|a l IH]; intros t i r j H.
  - cbn in H. apply rret_Ok in H as [<- <-]. split; [cbn; lia|]. intros u k _. cbn. unfold rret. f_equal. f_equal. lia.
  - cbn [rmap] in H. apply rbind_Ok in H as (b & i1 & Hb & H). apply rbind_Ok in H as (bs & i2 & Hbs & H).
    apply rret_Ok in H as [<- <-]. rewrite Hf in Hb. destruct (h a (t i)) as [b'| |] eqn:E; try discriminate.
    injection Hb as -> <-. destruct (IH _ _ _ _ Hbs) as [J IH']. split; [cbn; lia|]. intros u k U.
    assert (Sh : forall (l : list A) s, map snd (filter (fun x => p (fst x)) (combine l (seq (S s) (length l)))) =
                 map S (map snd (filter (fun x => p (fst x)) (combine l (seq s (length l)))))).
    { clear. induction l as [|a l IH]; intros s; cbn; [reflexivity|]. destruct (p a); cbn; now rewrite IH. }
    cbn [filter]. cbn [filter length combine seq map fst] in U. rewrite (Hq _ _ _ E). destruct (p a) eqn:Pa.
    + cbn [length map snd] in U.
      cbn [rmap]. unfold rbind at 1. rewrite Hf.
      destruct (U 0 ltac:(lia)) as (m & Em & Eu). cbn in Em. injection Em as <-.
      rewrite Nat.add_0_r in Eu. rewrite Eu, Nat.add_0_r, E. unfold rbind.
      rewrite (IH' u (S k)).
      * unfold rret. cbn. f_equal. f_equal. lia.
      * intros n Hn. destruct (U (S n) ltac:(lia)) as (m & Em & Eu'). cbn in Em. rewrite Sh in Em.
        rewrite nth_error_map in Em. destruct (nth_error _ n) as [m'|] eqn:En; [|discriminate]. injection Em as <-.
        exists m'. split; [reflexivity|]. replace (S k + n) with (k + S n) by lia. rewrite Eu'. f_equal. lia.
    + apply IH'. intros n Hn. destruct (U n Hn) as (m & Em & Eu'). rewrite Sh in Em.
      rewrite nth_error_map in Em. destruct (nth_error _ n) as [m'|] eqn:En; [|discriminate]. injection Em as <-.
      exists m'. split; [reflexivity|]. rewrite Eu'. f_equal. lia.
Qed.

Lemma kept_at_nth keep l : forall n, n < length (filter keep l) ->
  nth_error (map snd (filter (fun x => keep (fst x)) (combine l (seq 0 (length l))))) n = Some (kept_at keep l n).
Proof.
  assert (Sh : forall (l : list string) s, map snd (filter (fun x => keep (fst x)) (combine l (seq (S s) (length l)))) =
               map S (map snd (filter (fun x => keep (fst x)) (combine l (seq s (length l)))))).
  { clear. induction l as [|a l IH]; intros s; cbn; [reflexivity|]. destruct (keep a); cbn; now rewrite IH. }
  induction l as [|a l IH]; intros n H; cbn in *; [lia|].
  destruct (keep a) eqn:K; cbn in *.
  - destruct n as [|n]; cbn; [reflexivity|]. rewrite Sh, nth_error_map, IH by lia. reflexivity.
  - rewrite Sh, nth_error_map, IH by lia. reflexivity.
Qed.

(** A loop over attributes after [k] draws, on the tape of the draws that are used again. *)
Lemma rmap_thin {F B} (f : string -> rand F B) (h : string -> F -> outcome B) keep (q : B -> bool) :
  (forall a t i, f a t i = match h a (t i) with Ok b => Ok (b, S i) | Err => Err | Panic => Panic end) ->
  (forall a x b, h a x = Ok b -> q b = keep a) ->
  forall l k t i r j, rmap f l t (i + k) = Ok (r, j) ->
  j = i + k + length l /\
  rmap f (filter keep l) (fun n => t (i + places k keep l n)) k = Ok (filter q r, k + length (filter keep l)).
Proof.
  intros Hf Hq l k t i r j H. destruct (rmap_filter f h keep q Hf Hq _ _ _ _ _ H) as [J G]. split; [exact J|].
  apply G. intros n Hn. exists (kept_at keep l n). split; [now apply kept_at_nth|].
  unfold places. destruct (Nat.ltb_spec (k + n) k); [lia|]. f_equal. replace (k + n - k) with n by lia. lia.
Qed.

Lemma rmap_thin_at {F B} (f : string -> rand F B) keep (q : B -> bool) (h : string -> F -> outcome B) l k t i r j :
  rmap f l t (i + k) = Ok (r, j) ->
  (forall a t i, f a t i = match h a (t i) with Ok b => Ok (b, S i) | Err => Err | Panic => Panic end) ->
  (forall a x b, h a x = Ok b -> q b = keep a) ->
  j = i + k + length l /\
  rmap f (filter keep l) (fun n => t (i + places k keep l n)) k = Ok (filter q r, k + length (filter keep l)).
Proof. intros H Hf Hq. exact (rmap_thin f h keep q Hf Hq l k t i r j H). Qed.

Section Schemes.
Context {C : crypto}.
Local Open Scope rand_scope.

(** ** BSW *)
Lemma bsw_thinned (pk : bsw_pk C) msk attrs keep t i sk j :
  bsw_keygen pk msk attrs t i = Ok (Some sk, j) -> filter keep attrs <> [] ->
  bsw_keygen pk msk (filter keep attrs) (fun n => t (i + places 1 keep attrs n)) 0 =
    Ok (Some (bsw_thin keep sk), 1 + length (filter keep attrs)).
Proof.
  intros H N. destruct attrs as [|a0 r0] eqn:EA; [cbn in H; discriminate|].
  rewrite <- EA in *. assert (NA : attrs <> []) by now rewrite EA. clear a0 r0 EA.
  unfold bsw_keygen in *. destruct attrs as [|a0 r0]; [contradiction|]. remember (a0 :: r0) as attrs eqn:EA. clear NA EA a0 r0.
  destruct (filter keep attrs) as [|b0 q0] eqn:EF; [contradiction|]. rewrite <- EF. clear N.
  apply rbind_Ok in H as (r & i1 & D & H). unfold draw in D. injection D as <- <-.
  apply rbind_Ok in H as (binv & i2 & D & H). apply rlift_Ok in D as [Eb <-].
  apply rbind_Ok in H as (dj & i3 & D & H). apply rret_Ok in H as [H <-]. injection H as <-.
  unfold rbind at 1, draw at 1. rewrite (places_lo 1 keep attrs 0 ltac:(lia)), Nat.add_0_r.
  rewrite Eb. unfold rbind at 1, rlift at 1. unfold rbind at 1.
  replace (S i) with (i + 1) in D by lia.
  destruct (rmap_thin_at _ keep (fun x : battr C => keep (b_string x))
    (fun a r_j => obind (unwrap_res (sha3_hash_g2 (bpk_g2 pk) a)) (fun h =>
      Ok (BAttr a (g1mul C (bpk_g1 pk) r_j) (g2add C (g2mul C (bpk_g2 pk) (t i)) (g2mul C h r_j))))) _ _ _ _ _ _ D) as [_ R].
  - intros a u k. unfold rbind, draw, rlift, rret. destruct (unwrap_res _); reflexivity.
  - intros a x b Hb. apply obind_Ok in Hb as (h & _ & Hb). injection Hb as <-. reflexivity.
  - rewrite R. reflexivity.
Qed.

(** ** GHW11 *)
Lemma ghw_thinned (pk : ghw_pk C) msk attrs keep t i sk j :
  ghw_keygen pk msk attrs t i = Ok (Some sk, j) -> filter keep attrs <> [] ->
  ghw_keygen pk msk (filter keep attrs) t i = Ok (Some (ghw_thin keep sk), j).
Proof.
  intros H N. unfold ghw_keygen in *. destruct attrs as [|a0 r0]; [cbn in H; discriminate|]. remember (a0 :: r0) as attrs eqn:EA. clear EA a0 r0.
  destruct (filter keep attrs) as [|b0 q0] eqn:EF; [contradiction|]. rewrite <- EF. clear N.
  apply rbind_Ok in H as (r & i1 & D & H). unfold draw in D. injection D as <- <-.
  apply rbind_Ok in H as (kx & i2 & D & H). apply rlift_Ok in D as [Ek <-].
  apply rret_Ok in H as [H <-]. injection H as <-.
  unfold rbind at 1, draw at 1. unfold rbind, rlift.
  rewrite (omap_filter _ keep (fun x : string * G2 C => keep (fst x)) _ _) with (2 := Ek); [reflexivity|].
  intros a b Hb. apply obind_Ok in Hb as (h & _ & Hb). injection Hb as <-. reflexivity.
Qed.

(** ** AW11 *)
Lemma aw_add_Ok (gk : aw_gk C) msk a sk sk' : aw_add gk msk a sk = Ok sk' ->
  exists c, sk' = AwSk (awsk_gid sk) (awsk_attr sk ++ [(upper C a, c)]) /\
  forall l, aw_add gk msk a (AwSk (awsk_gid sk) l) = Ok (AwSk (awsk_gid sk) (l ++ [(upper C a, c)])).
Proof.
  unfold aw_add. destruct (seqb a ""); [discriminate|]. cbn [awsk_gid]. destruct (seqb (awsk_gid sk) ""); [discriminate|].
  intros H. apply obind_Ok in H as (hash & Eh & H). apply obind_Ok in H as (e & Ee & H). injection H as <-.
  assert (En : n3 e = a).
  { destruct (find _ _) as [e'|] eqn:F; [|discriminate]. cbn in Ee. injection Ee as ->. apply find_some in F as [_ F]. now apply seqb_eq. }
  eexists. split; [now rewrite En|]. intros l. rewrite Eh. cbn. rewrite Ee. cbn. now rewrite En.
Qed.

Lemma aw_fold_thin (gk : aw_gk C) msk keep : forall attrs sk sk',
  ofold (fun sk a => aw_add gk msk a sk) attrs sk = Ok sk' ->
  ofold (fun sk a => aw_add gk msk a sk) (filter (fun a => keep (upper C a)) attrs) (aw_thin keep sk) = Ok (aw_thin keep sk').
Proof.
  induction attrs as [|a r IH]; intros sk sk' H; cbn in H.
  - injection H as <-. reflexivity.
  - apply obind_Ok in H as (sk1 & H1 & H). apply IH in H. clear IH.
    destruct (aw_add_Ok _ _ _ _ _ H1) as (c & -> & G). cbn [filter]. destruct (keep (upper C a)) eqn:K.
    + cbn [ofold]. unfold aw_thin at 1. rewrite G. cbn [obind]. rewrite <- H. f_equal. unfold aw_thin. cbn [awsk_gid awsk_attr].
      rewrite filter_app. cbn. now rewrite K.
    + rewrite <- H. f_equal. unfold aw_thin. cbn [awsk_gid awsk_attr]. rewrite filter_app. cbn. now rewrite K, app_nil_r.
Qed.

Lemma aw_thinned (gk : aw_gk C) msk name attrs keep sk :
  aw_keygen gk msk name attrs = Ok sk -> filter (fun a => keep (upper C a)) attrs <> [] ->
  aw_keygen gk msk name (filter (fun a => keep (upper C a)) attrs) = Ok (aw_thin keep sk).
Proof.
  intros H N. unfold aw_keygen in *. destruct attrs as [|a0 r0]; [discriminate|]. remember (a0 :: r0) as attrs eqn:EA. clear EA a0 r0.
  destruct (seqb name ""); [discriminate|].
  destruct (filter (fun a => keep (upper C a)) attrs) as [|b0 q0] eqn:EF; [contradiction|]. rewrite <- EF. clear N.
  exact (aw_fold_thin _ _ keep _ _ _ H).
Qed.

(** ** AC17, attributes in keys *)
Lemma draw_br_2 (msk : ac_msk C) t i br j : draw_br msk t i = Ok (br, j) ->
  j = i + 2 /\ forall u k, u k = t i -> u (S k) = t (S i) -> draw_br msk u k = Ok (br, k + 2).
Proof.
  intros H. unfold draw_br in *. apply rbind_Ok in H as (r & i1 & D & H).
  cbn in D. unfold rbind, draw, rret in D. injection D as <- <-.
  apply rbind_Ok in H as (b & i2 & D & H). apply rlift_Ok in D as [Eb <-]. apply rret_Ok in H as [<- <-].
  split; [lia|]. intros u k E0 E1. unfold rbind at 1.
  assert (R : rmap (fun _ : nat => draw) ts u k = Ok ([t i; t (S i)], S (S k))).
  { cbn. unfold rbind, draw, rret. now rewrite E0, E1. }
  rewrite R. unfold rbind, rlift. rewrite Eb. unfold rret. f_equal. f_equal. lia.
Qed.

Lemma cp_thinned (msk : ac_msk C) attrs keep t i sk j :
  cp_keygen msk attrs t i = Ok (sk, j) -> filter keep attrs <> [] ->
  cp_keygen msk (filter keep attrs) (fun n => t (i + places 2 keep attrs n)) 0 =
    Ok (cp_thin keep sk, 3 + length (filter keep attrs)).
Proof.
  intros H N. unfold cp_keygen in *. destruct attrs as [|a0 r0]; [cbn in H; discriminate|]. remember (a0 :: r0) as attrs eqn:EA. clear EA a0 r0.
  destruct (filter keep attrs) as [|b0 q0] eqn:EF; [contradiction|]. rewrite <- EF. clear N.
  apply rbind_Ok in H as (br & i1 & D & H). destruct (draw_br_2 _ _ _ _ _ D) as [-> Dbr]. clear D.
  apply rbind_Ok in H as (k0 & i2 & D & H). apply rlift_Ok in D as [E0 <-].
  apply rbind_Ok in H as (ks & i3 & Dk & H).
  apply rbind_Ok in H as (sg & i4 & D & H). unfold draw in D. injection D as <- <-.
  apply rbind_Ok in H as (kp & i5 & D & H). apply rlift_Ok in D as [Ep <-].
  apply rbind_Ok in H as (gk2 & i6 & D & H). apply rlift_Ok in D as [Eg <-].
  apply rret_Ok in H as [<- <-].
  unfold rbind at 1. rewrite (Dbr (fun n => t (i + places 2 keep attrs n)) 0).
  2: { rewrite places_lo by lia. f_equal. lia. }
  2: { rewrite places_lo by lia. f_equal. lia. }
  unfold rbind at 1, rlift at 1. rewrite E0. unfold rbind at 1.
  destruct (rmap_thin_at _ keep (fun x : string * list (G1 C) => keep (fst x))
    (fun attr sigma_attr => obind (omap (fun t =>
        obind (idx (amsk_a msk) t) (fun a => obind (unwrap (finv_opt a)) (fun a_t =>
        obind (hash_prod (amsk_g msk) attr br a_t t (g1zero C)) (fun prod =>
        Ok (g1add C prod (g1mul C (amsk_g msk) (fmul C sigma_attr a_t))))))) ts) (fun key =>
      Ok (attr, key ++ [g1mul C (amsk_g msk) (fopp C sigma_attr)]))) _ _ _ _ _ _ Dk) as [J3 R].
  - intros a u k. unfold rbind, draw, rlift, rret. match goal with |- context [omap ?f ts] => destruct (omap f ts) end; reflexivity.
  - intros a x b Hb. apply obind_Ok in Hb as (h & _ & Hb). injection Hb as <-. reflexivity.
  - change (0 + 2) with 2. rewrite R. unfold rbind at 1, draw at 1.
    pose proof (places_end 2 keep attrs 0) as P0. rewrite Nat.add_0_r in P0. rewrite P0. clear P0.
    replace (i + (2 + length attrs + 0)) with i3 by lia.
    unfold rbind at 1, rlift at 1. rewrite Ep. unfold rbind, rlift. rewrite Eg. reflexivity.
Qed.

(** ** AC17, attributes in ciphertexts *)
Lemma kp_thinned nonce (pk : ac_pk C) attrs keep data t i ct j :
  kp_encrypt nonce pk attrs data t i = Ok (ct, j) ->
  kp_encrypt nonce pk (filter keep attrs) data t i = Ok (kp_thin keep ct, j).
Proof.
  intros H. unfold kp_encrypt in *. apply rbind_Ok in H as ([s c0] & i1 & D & H).
  unfold rbind at 1. rewrite D. clear D.
  apply rbind_Ok in H as (c & i2 & D & H). apply rlift_Ok in D as [Ec <-].
  unfold rbind at 1, rlift at 1.
  rewrite (omap_filter _ keep (fun x : string * list (G1 C) => keep (fst x)) _ _) with (2 := Ec).
  2: { intros a b Hb. apply obind_Ok in Hb as (h & _ & Hb). injection Hb as <-. reflexivity. }
  apply rbind_Ok in H as (cp & i2 & D & H). unfold rbind at 1. rewrite D. clear D.
  apply rbind_Ok in H as (msg & i3 & D & H). unfold rbind at 1. rewrite D. clear D.
  apply rbind_Ok in H as (d & i4 & D & H). unfold rbind at 1. rewrite D. clear D.
  apply rret_Ok in H as [<- <-]. reflexivity.
Qed.

(** ** YCT14 *)
Lemma public_from_name (pk : yct_pk C) k a b : public_from pk k a = Ok b -> y_name b = a.
Proof.
  unfold public_from. destruct (find _ _) as [x|]; [|discriminate]. destruct (y_node x) as [[g|s]|]; try discriminate.
  intros H. injection H as <-. reflexivity.
Qed.

Lemma yct_thinned nonce (pk : yct_pk C) attrs keep plain t i ct j :
  yct_encrypt nonce pk attrs plain t i = Ok (ct, j) -> filter keep attrs <> [] ->
  yct_encrypt nonce pk (filter keep attrs) plain t i = Ok (yct_thin keep ct, j).
Proof.
  intros H N. unfold yct_encrypt in *. destruct attrs as [|a0 r0]; [cbn in H; discriminate|]. remember (a0 :: r0) as attrs eqn:EA. clear EA a0 r0.
  destruct (filter keep attrs) as [|b0 q0] eqn:EF; [contradiction|]. rewrite <- EF. clear N.
  destruct plain as [|c0 p0]; [discriminate|]. remember (String c0 p0) as plain eqn:EP. clear EP.
  apply rbind_Ok in H as (k & i1 & D & H). unfold rbind at 1. rewrite D. clear D.
  apply rbind_Ok in H as (c & i2 & D & H). apply rlift_Ok in D as [Ec <-].
  unfold rbind at 1, rlift at 1.
  rewrite (omap_filter _ keep (fun x : yct_attr C => keep (y_name x)) _ _) with (2 := Ec).
  2: { intros a b Hb. now rewrite (public_from_name _ _ _ _ Hb). }
  apply rbind_Ok in H as (d & i4 & D & H). unfold rbind at 1. rewrite D. clear D.
  apply rret_Ok in H as [<- <-]. reflexivity.
Qed.

(** ** LSW *)
Lemma lsw_sx_Ok attrs : forall i (sx : list (F C)) t k, i < S (length sx) -> sx <> [] ->
  exists s, lsw_sx i attrs sx t k = Ok (s, k + length attrs) /\ length s = length sx + length attrs.
Proof.
  induction attrs as [|a r IH]; intros i sx t k L N; cbn [lsw_sx].
  - exists sx. unfold rret. split; [f_equal; f_equal; cbn; lia|cbn; lia].
  - unfold rbind at 1, draw. destruct sx as [|x0 xs]; [contradiction|]. cbn [List.app set_head].
    match goal with |- context [lsw_sx (S i) r ?l t _] => destruct (IH (S i) l t (S k)) as (s & E & Ls) end.
    + cbn in *. rewrite app_length. cbn. lia.
    + discriminate.
    + exists s. rewrite E. split; [f_equal; f_equal; cbn; lia|]. rewrite Ls. cbn. rewrite app_length. cbn. lia.
Qed.

(** The parts of the entries that decryption reads. *)
Definition seen (e : lsw_ej C) : string * G1 C := (le_name e, le_1 e).

Lemma lsw_ejs_seen (pk : lsw_pk C) sec attrs keep : forall sx i l, lsw_ejs pk sec sx i attrs = Ok l ->
  forall sx' i', i' + length (filter keep attrs) <= length sx' ->
  exists l', lsw_ejs pk sec sx' i' (filter keep attrs) = Ok l' /\
    map seen l' = map seen (filter (fun x => keep (le_name x)) l).
Proof.
  induction attrs as [|a r IH]; intros sx i l H sx' i' L; cbn [lsw_ejs filter] in *.
  - injection H as <-. exists []. split; reflexivity.
  - apply obind_Ok in H as (h & Eh & H). apply obind_Ok in H as (s & Es & H).
    apply obind_Ok in H as (hf & Ehf & H). apply obind_Ok in H as (l1 & El & H). injection H as <-.
    cbn [filter le_name]. destruct (keep a); cbn [length] in L.
    + destruct (IH _ _ _ El sx' (S i') ltac:(lia)) as (l' & E' & M).
      destruct (nth_error sx' i') as [s'|] eqn:N'; [|apply nth_error_None in N'; lia].
      cbn [lsw_ejs]. rewrite Eh. cbn [obind]. rewrite N'. cbn [unwrap obind]. rewrite Ehf. cbn [obind]. rewrite E'. cbn [obind].
      eexists. split; [reflexivity|]. cbn [map]. now rewrite M.
    + exact (IH _ _ _ El sx' i' L).
Qed.

Lemma find_seen x : forall l l' : list (lsw_ej C), map seen l = map seen l' ->
  option_map seen (find (fun a => seqb (le_name a) x) l) = option_map seen (find (fun a => seqb (le_name a) x) l').
Proof.
  induction l as [|e l IH]; intros [|e' l'] H; try discriminate; [reflexivity|].
  cbn [map] in H. injection H as Hn Hl H. cbn [find]. rewrite <- Hn. destruct (seqb (le_name e) x); [|now apply IH].
  cbn. unfold seen. now rewrite Hn, Hl.
Qed.

Lemma lsw_decrypt_seen (sk : lsw_sk C) ct ct' :
  lct_e1 ct = lct_e1 ct' -> lct_e2 ct = lct_e2 ct' -> lct_ct ct = lct_ct ct' -> map seen (lct_ej ct) = map seen (lct_ej ct') ->
  lsw_decrypt sk ct = lsw_decrypt sk ct'.
Proof.
  intros E1 E2 E3 E4. unfold lsw_decrypt. rewrite E1, E3.
  assert (En : map le_name (lct_ej ct) = map le_name (lct_ej ct')).
  { apply (f_equal (map fst)) in E4. rewrite !map_map in E4. exact E4. }
  rewrite En. destruct (parse _ _) as [v| |]; [|reflexivity|reflexivity]. cbn [obind].
  destruct (calc_pruned _ v None) as [[ok sel]| |]; [|reflexivity|reflexivity]. cbn [obind fst snd].
  destruct ok; [|reflexivity]. destruct (calc_coefficients v _ _ _) as [[z|]| |]; [|reflexivity|reflexivity|reflexivity]. cbn [obind unwrap].
  assert (S1 : forall st cur, lsw_step sk ct z st cur = lsw_step sk ct' z st cur).
  { intros st cur. unfold lsw_step. destruct (find (fun a => seqb (ld_name a) (fst cur)) (lsk_dj sk)); [|reflexivity]. cbn [unwrap obind].
    pose proof (find_seen (fst cur) _ _ E4) as Fs. rewrite E2.
    destruct (find _ (lct_ej ct)) as [e|], (find _ (lct_ej ct')) as [e'|]; try discriminate; [|reflexivity].
    cbn in Fs. injection Fs as _ Fs. cbn [unwrap obind]. now rewrite Fs. }
  assert (S2 : forall l st, ofold (lsw_step sk ct z) l st = ofold (lsw_step sk ct' z) l st).
  { induction l as [|c l IH]; intros st; cbn; [reflexivity|]. rewrite S1. destruct (lsw_step sk ct' z st c); cbn; auto. }
  now rewrite S2.
Qed.

Lemma lsw_thinned nonce (pk : lsw_pk C) attrs keep plain t i ct j :
  lsw_encrypt nonce pk attrs plain t i = Ok (ct, j) -> filter keep attrs <> [] ->
  exists ct' n, lsw_encrypt nonce pk (filter keep attrs) plain (fun n => t (i + places 1 keep attrs n)) 0 = Ok (ct', n) /\
    map le_name (lct_ej ct') = map le_name (lct_ej (lsw_thin keep ct)) /\
    forall sk, lsw_decrypt sk (lsw_thin keep ct) = lsw_decrypt sk ct'.
Proof.
  intros H N. unfold lsw_encrypt in *. destruct attrs as [|a0 r0]; [cbn in H; discriminate|]. remember (a0 :: r0) as attrs eqn:EA. clear EA a0 r0.
  destruct (filter keep attrs) as [|b0 q0] eqn:EF; [contradiction|]. rewrite <- EF. clear N.
  destruct plain as [|c0 p0]; [discriminate|]. remember (String c0 p0) as plain eqn:EP. clear EP c0 p0.
  apply rbind_Ok in H as (sec & i1 & D & H). unfold draw in D. injection D as <- <-.
  apply rbind_Ok in H as (sx & i2 & D & H).
  destruct (lsw_sx_Ok attrs 0 [t i] t (S i)) as (sx1 & Es & _); [cbn; lia|discriminate|].
  rewrite Es in D. injection D as -> <-. clear Es.
  apply rbind_Ok in H as (ej & i3 & D & H). apply rlift_Ok in D as [Ej <-].
  apply rbind_Ok in H as (msg & i4 & Dm & H). apply rbind_Ok in H as (d & i5 & D & H). apply rlift_Ok in D as [Ed <-].
  apply rret_Ok in H as [<- <-].
  unfold rbind at 1, draw at 1. rewrite (places_lo 1 keep attrs 0 ltac:(lia)), Nat.add_0_r.
  destruct (lsw_sx_Ok (filter keep attrs) 0 [t i] (fun n => t (i + places 1 keep attrs n)) 1) as (sx' & Es' & Ls'); [cbn; lia|discriminate|].
  unfold rbind at 1. rewrite Es'. unfold rbind at 1, rlift at 1.
  destruct (lsw_ejs_seen pk (t i) attrs keep _ _ _ Ej sx' 0 ltac:(cbn in *; lia)) as (l' & El' & M).
  rewrite El'. unfold rbind at 1.
  assert (Dm' : exists n, draw_gt (C := C) (fun n => t (i + places 1 keep attrs n)) (1 + length (filter keep attrs)) = Ok (msg, n)).
  { unfold draw_gt in *. apply rbind_Ok in Dm as (x & k & Dx & Dm).
    unfold draw in Dx. injection Dx as <- <-. unfold rbind, draw.
    pose proof (places_end 1 keep attrs 0) as P0. rewrite Nat.add_0_r in P0. rewrite P0.
    replace (i + (1 + length attrs + 0)) with (S i + length attrs) by lia.
    apply rret_Ok in Dm as [<- _]. eexists. reflexivity. }
  destruct Dm' as (n & Dm'). rewrite Dm'. unfold rbind, rlift. rewrite Ed. unfold rret.
  eexists. exists n. split; [reflexivity|]. split.
  - unfold lsw_thin. cbn [lct_ej]. apply (f_equal (map fst)) in M. rewrite !map_map in M. exact M.
  - intros sk. apply lsw_decrypt_seen; unfold lsw_thin; cbn; auto.
Qed.

End Schemes.

Section Sums.
Context {C : crypto} (L : laws C).
Add Field thin_field : (f_theory L).

Lemma split_sum (p : lsw_ej C -> bool) l :
  fold_right (fun e s => g1add C (le_2 e) s) (g1zero C) (filter p l) = g1zero C ->
  fold_right (fun e s => g1add C (le_2 e) s) (g1zero C) l =
  fold_right (fun e s => g1add C (le_2 e) s) (g1zero C) (filter (fun e => negb (p e)) l).
Proof.
  intros Z. apply (log1_inj L).
  apply (f_equal (log1 L)) in Z. revert Z.
  assert (G : forall l, log1 L (fold_right (fun e s => g1add C (le_2 e) s) (g1zero C) l) =
              fadd C (log1 L (fold_right (fun e s => g1add C (le_2 e) s) (g1zero C) (filter p l)))
                     (log1 L (fold_right (fun e s => g1add C (le_2 e) s) (g1zero C) (filter (fun e => negb (p e)) l)))).
  { clear l. induction l as [|e l IH]; cbn [fold_right filter]; [rewrite (log1_zero L); ring|].
    destruct (p e); cbn [negb fold_right]; rewrite !(log1_add L), IH; ring. }
  intros Z. rewrite G, Z, (log1_zero L). ring.
Qed.

Lemma lsw_noticed nonce (pk : lsw_pk C) attrs keep plain t i ct j nonce' attrs' plain' t' i' j' :
  lsw_encrypt nonce pk attrs plain t i = Ok (ct, j) ->
  lsw_encrypt nonce' pk attrs' plain' t' i' = Ok (lsw_thin keep ct, j') ->
  fold_right (fun (e : lsw_ej C) s => g1add C (le_2 e) s) (g1zero C) (filter (fun e => negb (keep (le_name e))) (lct_ej ct)) = g1zero C.
Proof.
  intros H H'. pose proof (lsw_negation_sum L _ _ _ _ _ _ _ _ H) as Z. pose proof (lsw_negation_sum L _ _ _ _ _ _ _ _ H') as Z'.
  cbn [lsw_thin lct_ej] in Z'. rewrite (split_sum (fun e => keep (le_name e)) _ Z') in Z. exact Z.
Qed.
End Sums.
