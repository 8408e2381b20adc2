(** * MixingProofs: encryption with the sum of two tapes is the product of the encryptions *)
From Coq Require Import String List Bool Arith Lia Field.
From Verif Require Import Base Crypto Policy Parse Spec PolicyProofs Poly Tools Sharing SharingProofs SchemeLib Symmetric Msp Dnf Bdabe Mke08
  Bsw Ghw11 Lsw Yct14 Ac17 Aw11 Generic Views Payloads GenericProofs RobustProofs EquationProofs UniformProofs Mixing.
Import ListNotations.

(** Three lists of the same length, related element by element. *)
Inductive all3 {A} (R : A -> A -> A -> Prop) : list A -> list A -> list A -> Prop :=
| all3_nil : all3 R [] [] []
| all3_cons x x' y l l' m : R x x' y -> all3 R l l' m -> all3 R (x :: l) (x' :: l') (y :: m).

Definition same3 {A} (x x' y : A) : Prop := x' = x /\ y = x.

Lemma all3_zip {A} (f : A -> A -> A) l l' m : all3 (fun x x' y => y = f x x') l l' m -> m = zip f l l'.
Proof. induction 1 as [|x x' y l l' m -> _ ->]; reflexivity. Qed.

Lemma all3_weak {A} (R S : A -> A -> A -> Prop) : (forall x x' y, R x x' y -> S x x' y) ->
  forall l l' m, all3 R l l' m -> all3 S l l' m.
Proof. intros H l l' m. induction 1; constructor; auto. Qed.

Lemma all3_app {A} (R : A -> A -> A -> Prop) a a' b : all3 R a a' b -> forall l l' m, all3 R l l' m ->
  all3 R (a ++ l) (a' ++ l') (b ++ m).
Proof. induction 1; intros; [assumption|]. cbn. constructor; auto. Qed.

Lemma all3_concat {A} (R : A -> A -> A -> Prop) l l' m : all3 (all3 R) l l' m -> all3 R (concat l) (concat l') (concat m).
Proof. induction 1; [constructor|]. cbn. apply all3_app; assumption. Qed.

Lemma all3_tl {A} (R : A -> A -> A -> Prop) l l' m : all3 R l l' m -> all3 R (tl l) (tl l') (tl m).
Proof. intros H. destruct H; [constructor|assumption]. Qed.

Lemma all3_len {A} (R : A -> A -> A -> Prop) l l' m : all3 R l l' m -> length l' = length l /\ length m = length l.
Proof. induction 1 as [|x x' y l l' m _ _ (E & E')]; cbn; auto. Qed.

Lemma all3_nth {A} (R : A -> A -> A -> Prop) l l' m : all3 R l l' m -> forall k x x', nth_error l k = Some x ->
  nth_error l' k = Some x' -> exists y, nth_error m k = Some y /\ R x x' y.
Proof.
  induction 1 as [|x x' y l l' m H _ IH]; intros k a a' E E'; [destruct k; discriminate|].
  destruct k; cbn in *; [|now apply IH]. injection E as <-. injection E' as <-. eauto.
Qed.

Lemma all3_map {A B} (R : B -> B -> B -> Prop) (f f' f'' : A -> B) l : (forall a, R (f a) (f' a) (f'' a)) ->
  all3 R (map f l) (map f' l) (map f'' l).
Proof. intros H. induction l; cbn; constructor; auto. Qed.

Lemma all3_combine {A B} (R : B -> B -> B -> Prop) : forall (k : list A) l l' m, all3 R l l' m ->
  all3 (fun x x' y => fst x' = fst x /\ fst y = fst x /\ R (snd x) (snd x') (snd y)) (combine k l) (combine k l') (combine k m).
Proof.
  intros k l l' m H. revert k. induction H as [|x x' y l l' m H _ IH]; intros [|a k]; cbn; constructor; auto.
Qed.

Section MixingProofs.
Context {C : crypto} (L : laws C).
Local Open Scope F_scope.
Add Field mixing_field : (f_theory L).
Notation F := (F C).
Ltac logs := log_simpl L.
Ltac dlog := first [apply (log1_inj L)|apply (log2_inj L)|apply (logT_inj L)]; logs; ring.

(** ** Related outcomes *)

Definition osum {A} (R : A -> A -> A -> Prop) (o o' o'' : outcome A) : Prop := forall x x', o = Ok x -> o' = Ok x' ->
  exists y, o'' = Ok y /\ R x x' y.

Definition rsum {A} (R : A -> A -> A -> Prop) (m m' m'' : rand F A) : Prop := forall t t' i x j x' j',
  m t i = Ok (x, j) -> m' t' i = Ok (x', j') -> j' = j /\ exists y, m'' (tadd t t') i = Ok (y, j) /\ R x x' y.

Definition sumF (x x' y : F) : Prop := y = x + x'.

Lemma osum_Ok {A} (R : A -> A -> A -> Prop) x x' y : R x x' y -> osum R (Ok x) (Ok x') (Ok y).
Proof. intros H a a' E E'. injection E as <-. injection E' as <-. eauto. Qed.

Lemma osum_same {A} (o : outcome A) : osum same3 o o o.
Proof. intros x x' E E'. exists x. split; [exact E|]. split; [congruence|reflexivity]. Qed.

Lemma osum_bind {A B} (R : A -> A -> A -> Prop) (S : B -> B -> B -> Prop) o o' o'' k k' k'' :
  osum R o o' o'' -> (forall a a' a'', R a a' a'' -> osum S (k a) (k' a') (k'' a'')) ->
  osum S (obind o k) (obind o' k') (obind o'' k'').
Proof.
  intros H K x x' E E'. apply obind_Ok in E as (a & E & Ek). apply obind_Ok in E' as (a' & E' & Ek').
  destruct (H _ _ E E') as (a'' & -> & Ra). exact (K _ _ _ Ra _ _ Ek Ek').
Qed.

Lemma osum_bind_same {A B} (S : B -> B -> B -> Prop) (o : outcome A) k k' k'' :
  (forall a, osum S (k a) (k' a) (k'' a)) -> osum S (obind o k) (obind o k') (obind o k'').
Proof. intros K. eapply osum_bind; [apply osum_same|]. intros a a' a'' (-> & ->). apply K. Qed.

Lemma osum_map {A B} (Q : A -> A -> A -> Prop) (S : B -> B -> B -> Prop) f f' f'' l l' m : all3 Q l l' m ->
  (forall a a' a'', Q a a' a'' -> osum S (f a) (f' a') (f'' a'')) -> osum (all3 S) (omap f l) (omap f' l') (omap f'' m).
Proof.
  intros H K. induction H as [|x x' y l l' m H _ IH]; cbn [omap]; [apply osum_Ok; constructor|].
  eapply osum_bind; [apply K, H|]. intros b b' b'' Rb. eapply osum_bind; [apply IH|]. intros bs bs' bs'' Rbs.
  apply osum_Ok. now constructor.
Qed.

Lemma all3_same {A} (l : list A) : all3 same3 l l l.
Proof. induction l; constructor; [split; reflexivity|assumption]. Qed.

Lemma osum_map_same {A B} (S : B -> B -> B -> Prop) (f f' f'' : A -> outcome B) l :
  (forall a, osum S (f a) (f' a) (f'' a)) -> osum (all3 S) (omap f l) (omap f' l) (omap f'' l).
Proof. intros K. eapply osum_map; [apply all3_same|]. intros a a' a'' (-> & ->). apply K. Qed.

Lemma osum_fold {A B} (S : B -> B -> B -> Prop) (f f' f'' : B -> A -> outcome B) l :
  (forall a b b' b'', S b b' b'' -> osum S (f b a) (f' b' a) (f'' b'' a)) ->
  forall b b' b'', S b b' b'' -> osum S (ofold f l b) (ofold f' l b') (ofold f'' l b'').
Proof.
  intros K. induction l as [|a l IH]; intros b b' b'' H; cbn [ofold]; [now apply osum_Ok|].
  eapply osum_bind; [apply K, H|]. exact IH.
Qed.

Lemma osum_weak {A} (R S : A -> A -> A -> Prop) o o' o'' : (forall x x' y, R x x' y -> S x x' y) -> osum R o o' o'' -> osum S o o' o''.
Proof. intros H K x x' E E'. destruct (K _ _ E E') as (y & Ey & Ry). eauto. Qed.

Lemma rsum_ret {A} (R : A -> A -> A -> Prop) x x' y : R x x' y -> rsum R (rret x) (rret x') (rret y).
Proof.
  intros H t t' i a j a' j' E E'. apply rret_Ok in E as [<- <-]. apply rret_Ok in E' as [<- <-]. split; [reflexivity|]. exists y. auto.
Qed.

Lemma rsum_lift {A} (R : A -> A -> A -> Prop) o o' o'' : osum R o o' o'' -> rsum R (rlift o) (rlift o') (rlift o'').
Proof.
  intros H t t' i a j a' j' E E'. apply rlift_Ok in E as [E <-]. apply rlift_Ok in E' as [E' <-]. split; [reflexivity|].
  destruct (H _ _ E E') as (y & Ey & Ry). exists y. split; [apply rlift_Ok; auto|exact Ry].
Qed.

Lemma rsum_panic {A} (R : A -> A -> A -> Prop) m' m'' : rsum R rpanic m' m''.
Proof. intros t t' i a j a' j' E. discriminate E. Qed.

Lemma rsum_draw : rsum sumF draw draw draw.
Proof.
  intros t t' i x j x' j' E E'. injection E as <- <-. injection E' as <- <-. split; [reflexivity|].
  exists (t i + t' i). split; reflexivity.
Qed.

Lemma rsum_bind {A B} (R : A -> A -> A -> Prop) (S : B -> B -> B -> Prop) m m' m'' k k' k'' :
  rsum R m m' m'' -> (forall a a' a'', R a a' a'' -> rsum S (k a) (k' a') (k'' a'')) ->
  rsum S (rbind m k) (rbind m' k') (rbind m'' k'').
Proof.
  intros H K t t' i x j x' j' E E'. apply rbind_Ok in E as (a & i1 & E & Ek). apply rbind_Ok in E' as (a' & i1' & E' & Ek').
  destruct (H _ _ _ _ _ _ _ E E') as (-> & a'' & E'' & Ra).
  destruct (K _ _ _ Ra _ _ _ _ _ _ _ Ek Ek') as (Ej & y & Ey & Ry). split; [exact Ej|]. exists y. split; [|exact Ry].
  apply rbind_Ok. eauto.
Qed.

Lemma rsum_bind_same {A B} (S : B -> B -> B -> Prop) (o : outcome A) k k' k'' :
  (forall a, rsum S (k a) (k' a) (k'' a)) -> rsum S (rbind (rlift o) k) (rbind (rlift o) k') (rbind (rlift o) k'').
Proof. intros K. eapply rsum_bind; [apply rsum_lift, osum_same|]. intros a a' a'' (-> & ->). apply K. Qed.

Lemma rsum_map {A B} (Q : A -> A -> A -> Prop) (S : B -> B -> B -> Prop) f f' f'' l l' m : all3 Q l l' m ->
  (forall a a' a'', Q a a' a'' -> rsum S (f a) (f' a') (f'' a'')) -> rsum (all3 S) (rmap f l) (rmap f' l') (rmap f'' m).
Proof.
  intros H K. induction H as [|x x' y l l' m H _ IH]; cbn [rmap]; [apply rsum_ret; constructor|].
  eapply rsum_bind; [apply K, H|]. intros b b' b'' Rb. eapply rsum_bind; [apply IH|]. intros bs bs' bs'' Rbs.
  apply rsum_ret. now constructor.
Qed.

Lemma rsum_map_same {A B} (S : B -> B -> B -> Prop) (f f' f'' : A -> rand F B) l :
  (forall a, rsum S (f a) (f' a) (f'' a)) -> rsum (all3 S) (rmap f l) (rmap f' l) (rmap f'' l).
Proof. intros K. eapply rsum_map; [apply all3_same|]. intros a a' a'' (-> & ->). apply K. Qed.

Lemma rsum_draws n : rsum (all3 sumF) (draws n) (draws n) (draws n).
Proof.
  induction n as [|n IH]; cbn [draws]; [apply rsum_ret; constructor|].
  eapply rsum_bind; [apply rsum_draw|]. intros x x' y H. eapply rsum_bind; [apply IH|]. intros l l' m Hl.
  apply rsum_ret. now constructor.
Qed.

Definition sumT (x x' y : GT C) : Prop := y = gtmul C x x'.
Definition sum1 (x x' y : G1 C) : Prop := y = g1add C x x'.
Definition sum2 (x x' y : G2 C) : Prop := y = g2add C x x'.

Lemma rsum_draw_gt : rsum sumT draw_gt draw_gt draw_gt.
Proof.
  unfold draw_gt. eapply rsum_bind; [apply rsum_draw|]. intros x x' y ->. apply rsum_ret. unfold sumT. dlog.
Qed.

(** Sealing the data; any key will do. *)
Lemma rsum_seal nonce nonce' nonce'' (k k' k'' : GT C) data data' data'' :
  rsum (fun _ _ _ => True) (rlift (encrypt_symmetric nonce k data)) (rlift (encrypt_symmetric nonce' k' data'))
    (rlift (encrypt_symmetric (C := C) nonce'' k'' data'')).
Proof. apply rsum_lift. unfold encrypt_symmetric. apply osum_Ok. exact I. Qed.

(** ** Shares *)

Lemma poly_sum x : forall l l' m, all3 sumF l l' m -> forall n a a' b, sumF a a' b ->
  sumF (poly_from n l x a) (poly_from n l' x a') (poly_from n m x b).
Proof.
  intros l l' m H. induction H as [|c c' d l l' m -> _ IH]; intros n a a' b ->; cbn [poly_from]; [reflexivity|].
  apply IH. unfold sumF. ring.
Qed.

Lemma gen_shares_sum s s' s'' k n : sumF s s' s'' -> rsum (all3 sumF) (gen_shares s k n) (gen_shares s' k n) (gen_shares s'' k n).
Proof.
  intros H. unfold gen_shares. destruct (k <=? n)%nat; [|apply rsum_ret; constructor].
  eapply rsum_bind; [apply rsum_draws|]. intros a a' a'' Ha. apply rsum_ret. apply all3_map. intros x.
  apply poly_sum; [now constructor|unfold sumF; ring].
Qed.

Definition sumN (x x' y : string * F) : Prop := fst x' = fst x /\ fst y = fst x /\ sumF (snd x) (snd x') (snd y).

Lemma shares_sum v : forall (s s' s'' : F) o, sumF s s' s'' ->
  rsum (all3 sumN) (gen_shares_policy s v o) (gen_shares_policy s' v o) (gen_shares_policy s'' v o).
Proof.
  induction v as [n p|ty w IH|l IH] using pvalue_ind'; intros s s' s'' o H; cbn [gen_shares_policy].
  - apply rsum_ret. constructor; [|constructor]. repeat split. exact H.
  - now apply IH.
  - pose (loop := (fix loop (l : list pvalue) (sh : list F) (acc : list (string * F)) :=
             match l with
             | [] => rret acc
             | c :: r =>
                 match sh with
                 | [] => rpanic
                 | s :: sr =>
                     rbind (gen_shares_policy s c None) (fun items =>
                     loop r sr (acc ++ items))
                 end
             end)).
    assert (W : forall k, rsum (all3 sumN) (rbind (gen_shares s k (length l)) (fun shares => loop l (tl shares) []))
      (rbind (gen_shares s' k (length l)) (fun shares => loop l (tl shares) []))
      (rbind (gen_shares s'' k (length l)) (fun shares => loop l (tl shares) []))).
    { intros k. eapply rsum_bind; [apply gen_shares_sum, H|]. intros sh sh' sh'' Hs. apply all3_tl in Hs.
      assert (G : forall acc acc' acc'' m m' m'', all3 sumN acc acc' acc'' -> all3 sumF m m' m'' ->
        rsum (all3 sumN) (loop l m acc) (loop l m' acc') (loop l m'' acc'')).
      { induction IH as [|c r Hc Hr IHr]; intros acc acc' acc'' m m' m'' Na Ns; [now apply rsum_ret|].
        destruct Ns as [|x x' y m m' m'' Hx Ns]; [apply rsum_panic|]. cbn [loop]. eapply rsum_bind; [apply Hc, Hx|].
        intros a a' a'' Ha. apply IHr; [now apply all3_app|exact Ns]. }
      apply G; [constructor|exact Hs]. }
    destruct o as [[| |]|]; try apply rsum_panic; apply W.
Qed.

Lemma seal_sum {A} (R : A -> A -> A -> Prop) nonce (k k' k'' : GT C) nonce' data data' f f' f'' :
  (forall d d' d'', R (f d) (f' d') (f'' d'')) ->
  rsum R (rbind (rlift (encrypt_symmetric nonce k data)) (fun d => rret (f d)))
    (rbind (rlift (encrypt_symmetric nonce' k' data')) (fun d => rret (f' d)))
    (rbind (rlift (encrypt_symmetric nonce k'' data)) (fun d => rret (f'' d))).
Proof. intros H. eapply rsum_bind; [apply rsum_seal|]. intros d d' d'' _. apply rsum_ret, H. Qed.

(** ** The schemes *)

Lemma bsw_sum nonce nonce' (pk : bsw_pk C) pol lang data data' :
  rsum (fun ct ct' y => exists d, y = bsw_with (bsw_mix ct ct') d)
    (bsw_encrypt nonce pk pol lang data) (bsw_encrypt nonce' pk pol lang data') (bsw_encrypt nonce pk pol lang data).
Proof.
  unfold bsw_encrypt. eapply rsum_bind; [apply rsum_draw|]. intros s s' s'' Hs.
  eapply rsum_bind; [apply rsum_draw_gt|]. intros m m' m'' Hm. apply rsum_bind_same. intros v.
  eapply rsum_bind; [apply shares_sum, Hs|]. intros sh sh' sh'' Hsh.
  eapply rsum_bind with (R := all3 (fun x x' y => y = BAttr (b_string x) (g1add C (b_g1 x) (b_g1 x')) (g2add C (b_g2 x) (b_g2 x')))).
  { apply rsum_lift. eapply osum_map; [exact Hsh|]. intros [n x] [n' x'] [n'' x''] (E & E' & E''). cbn in E, E', E''. subst n' n''. rewrite E''.
    cbn [fst snd]. apply osum_bind_same. intros h. apply osum_Ok. cbn. f_equal; dlog. }
  intros cy cy' cy'' Hcy. apply all3_zip in Hcy. apply seal_sum. intros d d' d''. exists d''. rewrite Hs, Hm. unfold bsw_with, bsw_mix. cbn. f_equal; [dlog|dlog|exact Hcy].
Qed.

Lemma ghw_sum nonce nonce' (pk : ghw_pk C) pol lang data data' :
  rsum (fun ct ct' y => exists d, y = ghw_with (ghw_mix ct ct') d)
    (ghw_encrypt nonce pk pol lang data) (ghw_encrypt nonce' pk pol lang data') (ghw_encrypt nonce pk pol lang data).
Proof.
  unfold ghw_encrypt. eapply rsum_bind; [apply rsum_draw|]. intros s s' s'' Hs.
  eapply rsum_bind; [apply rsum_draw_gt|]. intros m m' m'' Hm. apply rsum_bind_same. intros v.
  eapply rsum_bind; [apply shares_sum, Hs|]. intros sh sh' sh'' Hsh.
  eapply rsum_bind with (R := all3 (fun x x' y => y = (fst x, (g1add C (fst (snd x)) (fst (snd x')), g1add C (snd (snd x)) (snd (snd x')))))).
  { eapply rsum_map; [exact Hsh|]. intros [n x] [n' x'] [n'' x''] (E & E' & E''). cbn in E, E', E''. subst n' n''. rewrite E''.
    cbn [fst snd]. eapply rsum_bind; [apply rsum_draw|]. intros r r' r'' Hr. apply rsum_bind_same. intros h. apply rsum_ret.
    rewrite Hr. cbn. f_equal. f_equal; dlog. }
  intros cy cy' cy'' Hcy. apply all3_zip in Hcy. apply seal_sum. intros d d' d''. exists d''. rewrite Hs, Hm. unfold ghw_with, ghw_mix. cbn. f_equal; [dlog|dlog|exact Hcy].
Qed.

Lemma all3_nth0 l l' m : all3 sumF l l' m -> forall k, sumF (nth k l 0) (nth k l' 0) (nth k m 0).
Proof.
  induction 1 as [|x x' y l l' m H _ IH]; intros [|k]; cbn; try exact H; try apply IH; unfold sumF; ring.
Qed.

Lemma sx_sum attrs : forall n l l' m, all3 sumF l l' m -> rsum (all3 sumF) (lsw_sx n attrs l) (lsw_sx n attrs l') (lsw_sx n attrs m).
Proof.
  induction attrs as [|a r IH]; intros n l l' m H; cbn [lsw_sx]; [now apply rsum_ret|].
  eapply rsum_bind; [apply rsum_draw|]. intros x x' y Hx. apply IH.
  assert (H1 : all3 sumF (l ++ [x]) (l' ++ [x']) (m ++ [y])) by (apply all3_app; [exact H|constructor; [exact Hx|constructor]]).
  pose proof (all3_nth0 _ _ _ H1 n) as E. pose proof (all3_nth0 _ _ _ H1 0%nat) as E0.
  destruct H1 as [|b b' c k k' q H2 H1]; [constructor|]. cbn [set_head hd]. constructor; [|exact H1].
  cbn [nth] in E0. unfold sumF in *. rewrite E, E0. ring.
Qed.

Lemma idx_sum l l' m : all3 sumF l l' m -> forall k, osum sumF (unwrap (nth_error l k)) (unwrap (nth_error l' k)) (unwrap (nth_error m k)).
Proof.
  intros H k x x' E E'. destruct (nth_error l k) as [a|] eqn:N; [|discriminate]. destruct (nth_error l' k) as [a'|] eqn:N'; [|discriminate].
  injection E as ->. injection E' as ->. destruct (all3_nth _ _ _ _ H _ _ _ N N') as (y & -> & Hy). exists y. auto.
Qed.

Lemma ejs_sum (pk : lsw_pk C) s s' s'' sx sx' sx'' attrs : sumF s s' s'' -> all3 sumF sx sx' sx'' -> forall n,
  osum (all3 (fun x x' y => y = LswEj (le_name x) (g1add C (le_1 x) (le_1 x')) (g1add C (le_2 x) (le_2 x')) (g1add C (le_3 x) (le_3 x'))))
    (lsw_ejs pk s sx n attrs) (lsw_ejs pk s' sx' n attrs) (lsw_ejs pk s'' sx'' n attrs).
Proof.
  intros Hs Hx. induction attrs as [|a r IH]; intros n; cbn [lsw_ejs]; [apply osum_Ok; constructor|].
  apply osum_bind_same. intros h. eapply osum_bind; [apply idx_sum, Hx|]. intros x x' x'' H. apply osum_bind_same. intros hf.
  eapply osum_bind; [apply IH|]. intros l l' l'' Hl. apply osum_Ok. constructor; [|exact Hl]. rewrite Hs, H. cbn. f_equal; dlog.
Qed.

Lemma lsw_sum nonce nonce' (pk : lsw_pk C) attrs data data' :
  rsum (fun ct ct' y => exists d, y = lsw_with (lsw_mix ct ct') d)
    (lsw_encrypt nonce pk attrs data) (lsw_encrypt nonce' pk attrs data') (lsw_encrypt nonce pk attrs data).
Proof.
  unfold lsw_encrypt. destruct attrs as [|a r] eqn:Ea; [intros t t' i x j x' j' E; discriminate E|]. rewrite <- Ea.
  destruct data as [|b s0]; [intros t t' i x j x' j' E; discriminate E|].
  destruct data' as [|b' s0']; [intros t t' i x j x' j' _ E; discriminate E|].
  eapply rsum_bind; [apply rsum_draw|]. intros s s' s'' Hs.
  eapply rsum_bind; [apply sx_sum; constructor; [exact Hs|constructor]|]. intros sx sx' sx'' Hx.
  eapply rsum_bind; [apply rsum_lift, (ejs_sum pk _ _ _ _ _ _ attrs Hs Hx)|]. intros cy cy' cy'' Hcy. apply all3_zip in Hcy.
  eapply rsum_bind; [apply rsum_draw_gt|]. intros m m' m'' Hm.
  apply seal_sum. intros d d' d''. exists d''. rewrite Hs, Hm. unfold lsw_with, lsw_mix. cbn. f_equal; [dlog|dlog|exact Hcy].
Qed.

Lemma yct_sum nonce nonce' (pk : yct_pk C) attrs data data' :
  rsum (fun ct ct' y => exists d, y = yct_with (yct_mix ct ct') d)
    (yct_encrypt nonce pk attrs data) (yct_encrypt nonce' pk attrs data') (yct_encrypt nonce pk attrs data).
Proof.
  unfold yct_encrypt. destruct attrs as [|a r] eqn:Ea; [intros t t' i x j x' j' E; discriminate E|]. rewrite <- Ea.
  destruct data as [|b s0]; [intros t t' i x j x' j' E; discriminate E|].
  destruct data' as [|b' s0']; [intros t t' i x j x' j' _ E; discriminate E|].
  eapply rsum_bind; [apply rsum_draw|]. intros s s' s'' Hs.
  eapply rsum_bind with (R := all3 (fun x x' y => y = YAttr (y_name x) (match y_node x, y_node x' with
      | Some (YPub g), Some (YPub g') => Some (YPub (gtmul C g g'))
      | n, _ => n end))).
  { apply rsum_lift, osum_map_same. intros n. unfold public_from. destruct (find _ _) as [q|]; [|intros x x' E; discriminate E].
    destruct (y_node q) as [[g|x]|]; try (intros x0 x' E; discriminate E). apply osum_Ok. rewrite Hs. cbn. do 3 f_equal. dlog. }
  intros cy cy' cy'' Hcy. apply all3_zip in Hcy.
  apply seal_sum. intros d d' d''. exists d''. unfold yct_with, yct_mix. cbn. rewrite Hcy. reflexivity.
Qed.

Lemma fold_sum l l' m : all3 sumF l l' m -> forall a a' b, sumF a a' b ->
  sumF (fold_left (fadd C) l a) (fold_left (fadd C) l' a') (fold_left (fadd C) m b).
Proof.
  induction 1 as [|x x' y l l' m H _ IH]; intros a a' b Ha; cbn [fold_left]; [exact Ha|]. apply IH. unfold sumF in *. rewrite H, Ha. ring.
Qed.

Lemma draw_s_sum (pk : ac_pk C) : rsum (fun x x' y => all3 sumF (fst x) (fst x') (fst y) /\ all3 sum2 (snd x) (snd x') (snd y))
  (draw_s pk) (draw_s pk) (draw_s pk).
Proof.
  unfold draw_s. eapply rsum_bind; [apply rsum_map_same; intros n; apply rsum_draw|]. intros s s' s'' Hs.
  eapply rsum_bind with (R := all3 sum2).
  { apply rsum_lift, osum_map_same. intros n. apply osum_bind_same. intros h. eapply osum_bind; [apply idx_sum, Hs|].
    intros x x' x'' ->. apply osum_Ok. unfold sum2. dlog. }
  intros c c' c'' Hc. apply rsum_bind_same. intros h. apply rsum_ret. split; [exact Hs|]. cbn [snd]. apply all3_app; [exact Hc|].
  constructor; [|constructor]. unfold sum2. rewrite (fold_sum _ _ _ Hs (f0 C) (f0 C) (f0 C)) by (unfold sumF; ring). dlog.
Qed.

Lemma ac_cp_sum (pk : ac_pk C) s s' s'' : all3 sumF s s' s'' -> osum sumT (ac_cp pk s) (ac_cp pk s') (ac_cp pk s'').
Proof.
  intros H. unfold ac_cp. apply osum_fold.
  - intros n c c' c'' Hc. apply osum_bind_same. intros e. eapply osum_bind; [apply idx_sum, H|]. intros x x' x'' ->.
    apply osum_Ok. unfold sumT in *. rewrite Hc. dlog.
  - unfold sumT. dlog.
Qed.

Lemma cp_entry_sum g table cols name row s s' s'' n : all3 sumF s s' s'' ->
  osum sum1 (cp_entry g table cols name row s n) (cp_entry g table cols name row s' n) (cp_entry (C := C) g table cols name row s'' n).
Proof.
  intros H. unfold cp_entry. apply osum_fold.
  - intros k c c' c'' Hc. apply osum_bind_same. intros h0. apply osum_bind_same. intros h. eapply osum_bind; [apply idx_sum, H|].
    intros x x' x'' ->. apply osum_Ok. unfold sum1 in *. rewrite Hc. dlog.
  - unfold sum1. dlog.
Qed.

Lemma kp_entry_sum g name s s' s'' n : all3 sumF s s' s'' ->
  osum sum1 (kp_ct_entry g name s n) (kp_ct_entry g name s' n) (kp_ct_entry (C := C) g name s'' n).
Proof.
  intros H. unfold kp_ct_entry. apply osum_fold.
  - intros k c c' c'' Hc. apply osum_bind_same. intros h0. eapply osum_bind; [apply idx_sum, H|].
    intros x x' x'' ->. apply osum_Ok. unfold sum1 in *. rewrite Hc. dlog.
  - unfold sum1. dlog.
Qed.

Lemma cp_sum nonce nonce' (pk : ac_pk C) pol lang data data' :
  rsum (fun ct ct' y => exists d, y = cp_with (cp_mix ct ct') d)
    (cp_encrypt nonce pk pol data lang) (cp_encrypt nonce' pk pol data' lang) (cp_encrypt nonce pk pol data lang).
Proof.
  unfold cp_encrypt. apply rsum_bind_same. intros v. apply rsum_bind_same. intros msp. apply rsum_bind_same. intros row0.
  eapply rsum_bind; [apply draw_s_sum|]. intros [s c0] [s' c0'] [s'' c0''] (Hs & Hc0). cbn [fst snd] in Hs, Hc0.
  apply rsum_bind_same. intros table.
  eapply rsum_bind with (R := all3 (fun x x' y => y = (fst x, zip (g1add C) (snd x) (snd x')))).
  { apply rsum_lift, osum_map_same. intros k. apply osum_bind_same. intros name. apply osum_bind_same. intros row.
    eapply osum_bind; [apply osum_map_same; intros n; apply cp_entry_sum, Hs|]. intros l l' l'' Hl. apply all3_zip in Hl. rewrite Hl.
    apply osum_Ok. reflexivity. }
  intros c c' c'' Hc. apply all3_zip in Hc. apply all3_zip in Hc0.
  eapply rsum_bind; [apply rsum_lift, ac_cp_sum, Hs|]. intros p p' p'' Hp.
  eapply rsum_bind; [apply rsum_draw_gt|]. intros m m' m'' Hm.
  apply seal_sum. intros d d' d''. exists d''. rewrite Hp, Hm. unfold cp_with, cp_mix, ac_with, ac_mix. cbn. do 2 f_equal; [exact Hc0|exact Hc|dlog].
Qed.

Lemma kp_sum nonce nonce' (pk : ac_pk C) attrs data data' :
  rsum (fun ct ct' y => exists d, y = kp_with (kp_mix ct ct') d)
    (kp_encrypt nonce pk attrs data) (kp_encrypt nonce' pk attrs data') (kp_encrypt nonce pk attrs data).
Proof.
  unfold kp_encrypt.
  eapply rsum_bind; [apply draw_s_sum|]. intros [s c0] [s' c0'] [s'' c0''] (Hs & Hc0). cbn [fst snd] in Hs, Hc0.
  eapply rsum_bind with (R := all3 (fun x x' y => y = (fst x, zip (g1add C) (snd x) (snd x')))).
  { apply rsum_lift, osum_map_same. intros k.
    eapply osum_bind; [apply osum_map_same; intros n; apply kp_entry_sum, Hs|]. intros l l' l'' Hl. apply all3_zip in Hl. rewrite Hl.
    apply osum_Ok. reflexivity. }
  intros c c' c'' Hc. apply all3_zip in Hc. apply all3_zip in Hc0.
  eapply rsum_bind; [apply rsum_lift, ac_cp_sum, Hs|]. intros p p' p'' Hp.
  eapply rsum_bind; [apply rsum_draw_gt|]. intros m m' m'' Hm.
  apply seal_sum. intros d d' d''. exists d''. rewrite Hp, Hm. unfold kp_with, kp_mix, ac_with, ac_mix. cbn. do 2 f_equal; [exact Hc0|exact Hc|dlog].
Qed.

Lemma nth_sum l l' m : all3 sumN l l' m -> forall k, osum sumN (unwrap (nth_error l k)) (unwrap (nth_error l' k)) (unwrap (nth_error m k)).
Proof.
  intros H k x x' E E'. destruct (nth_error l k) as [a|] eqn:N; [|discriminate]. destruct (nth_error l' k) as [a'|] eqn:N'; [|discriminate].
  injection E as ->. injection E' as ->. destruct (all3_nth _ _ _ _ H _ _ _ N N') as (y & -> & Hy). exists y. auto.
Qed.

Lemma aw_sum nonce nonce' (gk : aw_gk C) pks pol lang data data' :
  rsum (fun ct ct' y => exists d, y = aw_with (aw_mix ct ct') d)
    (aw_encrypt nonce gk pks pol lang data) (aw_encrypt nonce' gk pks pol lang data') (aw_encrypt nonce gk pks pol lang data).
Proof.
  unfold aw_encrypt. apply rsum_bind_same. intros v. apply rsum_bind_same. intros msp. apply rsum_bind_same. intros row0.
  eapply rsum_bind; [apply rsum_draw|]. intros s s' s'' Hs.
  eapply rsum_bind; [apply shares_sum, Hs|]. intros sh sh' sh'' Hsh.
  eapply rsum_bind; [apply (shares_sum v (f0 C) (f0 C) (f0 C)); unfold sumF; ring|]. intros w w' w'' Hw.
  eapply rsum_bind; [apply rsum_draw_gt|]. intros m m' m'' Hm.
  destruct (all3_len _ _ _ _ Hsh) as (-> & ->).
  eapply rsum_bind with (R := all3 (all3 (fun x x' y => y = (n4 x, gtmul C (snd (fst (fst x))) (snd (fst (fst x'))),
    g2add C (snd (fst x)) (snd (fst x')), g2add C (snd x) (snd x'))))).
  { eapply rsum_map; [apply all3_combine, Hsh|]. intros [n [a x]] [n' [a' x']] [n'' [a'' x'']] (E & E' & E1 & E2 & E3).
    cbn in E, E', E1, E2, E3. subst n' n'' a' a''. rewrite E3. cbn [fst snd]. unfold aw_entry.
    eapply rsum_bind; [apply rsum_draw|]. intros r r' r'' Hr. cbn [fst snd].
    destruct (find_pk_attr _ _); [|apply rsum_ret; constructor].
    eapply rsum_bind; [apply rsum_lift, nth_sum, Hw|]. intros y y' y'' (_ & _ & Hy). apply rsum_ret.
    constructor; [|constructor]. cbn. rewrite Hr, Hy. f_equal; [f_equal; [f_equal|]|]; dlog. }
  intros c c' c'' Hc. apply all3_concat, all3_zip in Hc.
  apply seal_sum. intros d d' d''. exists d''. rewrite Hs, Hm. unfold aw_with, aw_mix. cbn. f_equal; [dlog|exact Hc].
Qed.

(** BDABE and MKE08 multiply the draws of the payload key, so the second tape must not touch them. *)
Lemma rsum_tuples {A B} (R : B -> B -> B -> Prop) (f f' : A -> rand F B) l : (forall a, rsum R (f a) (f' a) (f a)) ->
  rsum (all3 R) (rmap f l) (rmap f' l) (rmap f l).
Proof. apply rsum_map_same. Qed.

Lemma bd_sum nonce nonce' (pk : bd_pk C) apks pol lang data data' t t' i ct j ct' j' :
  bd_encrypt nonce pk apks pol lang data t i = Ok (ct, j) -> bd_encrypt nonce' pk apks pol lang data' t' i = Ok (ct', j') ->
  t' i = 0 -> t' (i + 1)%nat = 0 ->
  bd_encrypt nonce pk apks pol lang data (tadd t t') i = Ok (bd_mix ct ct', j).
Proof.
  unfold bd_encrypt. intros H H' Z0 Z1. rewrite Nat.add_1_r in Z1.
  apply rbind_Ok in H as (v & i3 & H3 & H). apply rlift_Ok in H3 as [H3 <-].
  apply rbind_Ok in H' as (v' & i3 & H3' & H'). apply rlift_Ok in H3' as [H3' <-]. rewrite H3 in H3'. injection H3' as <-.
  destruct (policy_in_dnf v false None) eqn:D; [|discriminate].
  apply rbind_Ok in H as (tm & i4 & H4 & H). apply rlift_Ok in H4 as [H4 <-].
  apply rbind_Ok in H' as (tm' & i4 & H4' & H'). apply rlift_Ok in H4' as [H4' <-]. rewrite H4 in H4'. injection H4' as <-.
  apply rbind_Ok in H as (m1 & i1 & H1 & H). unfold draw_g1, rbind, draw, rret in H1. injection H1 as <- <-.
  apply rbind_Ok in H' as (m1' & i1 & H1' & H'). unfold draw_g1, rbind, draw, rret in H1'. injection H1' as <- <-.
  apply rbind_Ok in H as (m2 & i2 & H2 & H). unfold draw_g2, rbind, draw, rret in H2. injection H2 as <- <-.
  apply rbind_Ok in H' as (m2' & i2 & H2' & H'). unfold draw_g2, rbind, draw, rret in H2'. injection H2' as <- <-.
  apply rbind_Ok in H as (c & i8 & H8 & H). apply rbind_Ok in H' as (c' & i8' & H8' & H').
  apply rbind_Ok in H as (d & i6 & H6 & H). apply rlift_Ok in H6 as [H6 <-]. apply rret_Ok in H as [<- <-].
  apply rbind_Ok in H' as (d' & i6' & H6' & H'). apply rlift_Ok in H6' as [H6' <-]. apply rret_Ok in H' as [<- <-].
  rewrite Z0, Z1 in H8'. set (msg := pairing C _ _) in H8. set (msg' := pairing C _ _) in H8'.
  assert (M : tadd t t' i = t i /\ tadd t t' (S i) = t (S i)) by (unfold tadd; rewrite Z0, Z1; split; ring). destruct M as (M0 & M1).
  apply rbind_Ok. exists v, i. split; [apply rlift_Ok; auto|]. rewrite D.
  apply rbind_Ok. exists tm, i. split; [apply rlift_Ok; auto|].
  apply rbind_Ok. exists (g1mul C (g1one C) (t i)), (S i). split; [unfold draw_g1, rbind, draw, rret; now rewrite M0|].
  apply rbind_Ok. exists (g2mul C (g2one C) (t (S i))), (S (S i)). split; [unfold draw_g2, rbind, draw, rret; now rewrite M1|].
  assert (Q : rsum (all3 (fun x x' y => y = BdTuple (bt_attr x) (gtmul C (bt_e1 x) (bt_e1 x')) (g1add C (bt_e2 x) (bt_e2 x'))
        (g2add C (bt_e3 x) (bt_e3 x')) (g1add C (bt_e4 x) (bt_e4 x')) (g2add C (bt_e5 x) (bt_e5 x'))))
     (rmap (bd_tuple_of pk msg) tm) (rmap (bd_tuple_of pk msg') tm) (rmap (bd_tuple_of pk msg) tm)).
  { apply rsum_map_same. intros a. unfold bd_tuple_of. eapply rsum_bind; [apply rsum_draw|]. intros r r' r'' ->. apply rsum_ret.
    cbn. unfold msg'. f_equal; dlog. }
  destruct (Q _ _ _ _ _ _ _ H8 H8') as (_ & y & Ey & Hy). apply all3_zip in Hy.
  apply rbind_Ok. exists y, i8. split; [exact Ey|].
  apply rbind_Ok. exists d, i8. split; [apply rlift_Ok; auto|]. apply rret_Ok. split; [|reflexivity].
  unfold bd_mix. cbn. f_equal. exact Hy.
Qed.

Lemma mk_sum nonce nonce' (pk : mk_pk C) apks pol lang data data' t t' i ct j ct' j' :
  mk_encrypt nonce pk apks pol lang data t i = Ok (ct, j) -> mk_encrypt nonce' pk apks pol lang data' t' i = Ok (ct', j') ->
  t' i = 0 -> t' (i + 1)%nat = 0 -> t' (i + 2)%nat = 0 ->
  mk_encrypt nonce pk apks pol lang data (tadd t t') i = Ok (mk_mix ct ct', j).
Proof.
  unfold mk_encrypt. intros H H' Z0 Z1 Z2. replace (i + 1)%nat with (S i) in Z1 by lia. replace (i + 2)%nat with (S (S i)) in Z2 by lia.
  apply rbind_Ok in H as (v & i3 & H3 & H). apply rlift_Ok in H3 as [H3 <-].
  apply rbind_Ok in H' as (v' & i3 & H3' & H'). apply rlift_Ok in H3' as [H3' <-]. rewrite H3 in H3'. injection H3' as <-.
  destruct (policy_in_dnf v false None) eqn:D; [|discriminate].
  apply rbind_Ok in H as (tm & i4 & H4 & H). apply rlift_Ok in H4 as [H4 <-].
  apply rbind_Ok in H' as (tm' & i4 & H4' & H'). apply rlift_Ok in H4' as [H4' <-]. rewrite H4 in H4'. injection H4' as <-.
  apply rbind_Ok in H as (m1 & i1 & H1 & H). unfold draw_g1, rbind, draw, rret in H1. injection H1 as <- <-.
  apply rbind_Ok in H' as (m1' & i1 & H1' & H'). unfold draw_g1, rbind, draw, rret in H1'. injection H1' as <- <-.
  apply rbind_Ok in H as (m2 & i2 & H2 & H). unfold draw_g2, rbind, draw, rret in H2. injection H2 as <- <-.
  apply rbind_Ok in H' as (m2' & i2 & H2' & H'). unfold draw_g2, rbind, draw, rret in H2'. injection H2' as <- <-.
  apply rbind_Ok in H as (x & i5 & H5 & H). injection H5 as <- <-. apply rbind_Ok in H' as (x' & i5 & H5' & H'). injection H5' as <- <-.
  apply rbind_Ok in H as (c & i8 & H8 & H). apply rbind_Ok in H' as (c' & i8' & H8' & H').
  apply rbind_Ok in H as (d & i6 & H6 & H). apply rlift_Ok in H6 as [H6 <-]. apply rret_Ok in H as [<- <-].
  apply rbind_Ok in H' as (d' & i6' & H6' & H'). apply rlift_Ok in H6' as [H6' <-]. apply rret_Ok in H' as [<- <-].
  rewrite Z0, Z1, Z2 in H8'. set (msg := pairing C _ _) in H8. set (msg' := pairing C _ _) in H8'.
  assert (M : tadd t t' i = t i /\ tadd t t' (S i) = t (S i) /\ tadd t t' (S (S i)) = t (S (S i)))
    by (unfold tadd; rewrite Z0, Z1, Z2; repeat split; ring). destruct M as (M0 & M1 & M2).
  apply rbind_Ok. exists v, i. split; [apply rlift_Ok; auto|]. rewrite D.
  apply rbind_Ok. exists tm, i. split; [apply rlift_Ok; auto|].
  apply rbind_Ok. exists (g1mul C (g1one C) (t i)), (S i). split; [unfold draw_g1, rbind, draw, rret; now rewrite M0|].
  apply rbind_Ok. exists (g2mul C (g2one C) (t (S i))), (S (S i)). split; [unfold draw_g2, rbind, draw, rret; now rewrite M1|].
  apply rbind_Ok. exists (t (S (S i))), (S (S (S i))). split; [unfold draw; now rewrite M2|].
  assert (Q : rsum (all3 (fun x x' y => y = MkConj (mj_str x) (gtmul C (mj_1 x) (mj_1 x')) (gtmul C (mj_2 x) (mj_2 x')) (g1add C (mj_3 x) (mj_3 x'))
        (g2add C (mj_4 x) (mj_4 x')) (g1add C (mj_5 x) (mj_5 x')) (g2add C (mj_6 x) (mj_6 x'))))
     (rmap (mk_conj_of pk msg (gtpow C msg (t (S (S i))))) tm) (rmap (mk_conj_of pk msg' (gtpow C msg' 0)) tm)
     (rmap (mk_conj_of pk msg (gtpow C msg (t (S (S i))))) tm)).
  { apply rsum_map_same. intros a. unfold mk_conj_of. eapply rsum_bind; [apply rsum_draw|]. intros r r' r'' ->. apply rsum_ret.
    cbn. unfold msg'. f_equal; dlog. }
  destruct (Q _ _ _ _ _ _ _ H8 H8') as (_ & y & Ey & Hy). apply all3_zip in Hy.
  apply rbind_Ok. exists y, i8. split; [exact Ey|].
  apply rbind_Ok. exists d, i8. split; [apply rlift_Ok; auto|]. apply rret_Ok. split; [|reflexivity].
  unfold mk_mix. cbn. f_equal. exact Hy.
Qed.

Theorem bsw_product nonce nonce' (pk : bsw_pk C) pol lang data data' t t' i ct j ct' j' :
  bsw_encrypt nonce pk pol lang data t i = Ok (ct, j) -> bsw_encrypt nonce' pk pol lang data' t' i = Ok (ct', j') ->
  exists d, bsw_encrypt nonce pk pol lang data (tadd t t') i = Ok (bsw_with (bsw_mix ct ct') d, j) /\
  encrypt_symmetric nonce (payload (t (i + 1)%nat + t' (i + 1)%nat)) data = Ok d /\
  (t' (i + 1)%nat = 0 -> d = bct_data ct).
Proof.
  intros H H'. destruct (bsw_sum _ _ _ _ _ _ _ _ _ _ _ _ _ _ H H') as (_ & y & Hy & d & ->). exists d. split; [exact Hy|].
  apply bsw_uniform in Hy as (Hd & _). apply bsw_uniform in H as (He & _). unfold tadd in Hd. split; [exact Hd|].
  intros Z. rewrite Z in Hd. replace (t (i + 1)%nat + 0) with (t (i + 1)%nat) in Hd by ring. rewrite He in Hd. now injection Hd as <-.
Qed.

Theorem ghw_product nonce nonce' (pk : ghw_pk C) pol lang data data' t t' i ct j ct' j' :
  ghw_encrypt nonce pk pol lang data t i = Ok (ct, j) -> ghw_encrypt nonce' pk pol lang data' t' i = Ok (ct', j') ->
  exists d, ghw_encrypt nonce pk pol lang data (tadd t t') i = Ok (ghw_with (ghw_mix ct ct') d, j) /\
  encrypt_symmetric nonce (payload (t (i + 1)%nat + t' (i + 1)%nat)) data = Ok d /\
  (t' (i + 1)%nat = 0 -> d = gct_data ct).
Proof.
  intros H H'. destruct (ghw_sum _ _ _ _ _ _ _ _ _ _ _ _ _ _ H H') as (_ & y & Hy & d & ->). exists d. split; [exact Hy|].
  apply ghw_uniform in Hy as (Hd & _). apply ghw_uniform in H as (He & _). unfold tadd in Hd. split; [exact Hd|].
  intros Z. rewrite Z in Hd. replace (t (i + 1)%nat + 0) with (t (i + 1)%nat) in Hd by ring. rewrite He in Hd. now injection Hd as <-.
Qed.

Theorem lsw_product nonce nonce' (pk : lsw_pk C) attrs data data' t t' i ct j ct' j' :
  lsw_encrypt nonce pk attrs data t i = Ok (ct, j) -> lsw_encrypt nonce' pk attrs data' t' i = Ok (ct', j') ->
  exists d, lsw_encrypt nonce pk attrs data (tadd t t') i = Ok (lsw_with (lsw_mix ct ct') d, j) /\
  encrypt_symmetric nonce (payload (t (i + 1 + length attrs)%nat + t' (i + 1 + length attrs)%nat)) data = Ok d /\
  (t' (i + 1 + length attrs)%nat = 0 -> d = lct_ct ct).
Proof.
  intros H H'. destruct (lsw_sum _ _ _ _ _ _ _ _ _ _ _ _ _ H H') as (_ & y & Hy & d & ->). exists d. split; [exact Hy|].
  apply lsw_uniform in Hy as (Hd & _). apply lsw_uniform in H as (He & _). unfold tadd in Hd. split; [exact Hd|].
  intros Z. rewrite Z in Hd. replace (t (i + 1 + length attrs)%nat + 0) with (t (i + 1 + length attrs)%nat) in Hd by ring. rewrite He in Hd. now injection Hd as <-.
Qed.

Theorem cp_product nonce nonce' (pk : ac_pk C) pol lang data data' t t' i ct j ct' j' :
  cp_encrypt nonce pk pol data lang t i = Ok (ct, j) -> cp_encrypt nonce' pk pol data' lang t' i = Ok (ct', j') ->
  exists d, cp_encrypt nonce pk pol data lang (tadd t t') i = Ok (cp_with (cp_mix ct ct') d, j) /\
  encrypt_symmetric nonce (payload (t (i + 2)%nat + t' (i + 2)%nat)) data = Ok d /\
  (t' (i + 2)%nat = 0 -> d = act_ct (acp_ct ct)).
Proof.
  intros H H'. destruct (cp_sum _ _ _ _ _ _ _ _ _ _ _ _ _ _ H H') as (_ & y & Hy & d & ->). exists d. split; [exact Hy|].
  apply cp_uniform in Hy as (Hd & _). apply cp_uniform in H as (He & _). unfold tadd in Hd. split; [exact Hd|].
  intros Z. rewrite Z in Hd. replace (t (i + 2)%nat + 0) with (t (i + 2)%nat) in Hd by ring. rewrite He in Hd. now injection Hd as <-.
Qed.

Theorem kp_product nonce nonce' (pk : ac_pk C) attrs data data' t t' i ct j ct' j' :
  kp_encrypt nonce pk attrs data t i = Ok (ct, j) -> kp_encrypt nonce' pk attrs data' t' i = Ok (ct', j') ->
  exists d, kp_encrypt nonce pk attrs data (tadd t t') i = Ok (kp_with (kp_mix ct ct') d, j) /\
  encrypt_symmetric nonce (payload (t (i + 2)%nat + t' (i + 2)%nat)) data = Ok d /\
  (t' (i + 2)%nat = 0 -> d = act_ct (akp_ct ct)).
Proof.
  intros H H'. destruct (kp_sum _ _ _ _ _ _ _ _ _ _ _ _ _ H H') as (_ & y & Hy & d & ->). exists d. split; [exact Hy|].
  apply kp_uniform in Hy as (Hd & _). apply kp_uniform in H as (He & _). unfold tadd in Hd. split; [exact Hd|].
  intros Z. rewrite Z in Hd. replace (t (i + 2)%nat + 0) with (t (i + 2)%nat) in Hd by ring. rewrite He in Hd. now injection Hd as <-.
Qed.

Lemma aw_position nonce (gk : aw_gk C) pks pol lang data f t i ct j : parse pol lang = Ok (tree f) ->
  aw_encrypt nonce gk pks pol lang data t i = Ok (ct, j) ->
  (i < i + 1 + nd f + nd f < j)%nat /\
  encrypt_symmetric nonce (payload (t (i + 1 + nd f + nd f)%nat)) data = Ok (awct_data ct).
Proof.
  intros P H. destruct (aw_encrypt_eq L _ _ _ _ _ _ _ _ _ _ _ P H) as (sh & i' & wsh & i'' & m & es & -> & D & D' & -> & _ & _ & E & _).
  apply dealt_unique in D as (_ & ->). apply dealt_unique in D' as (_ & ->). split; [lia|exact E].
Qed.

(** The payload key is drawn at a place that only depends on the policy. *)
Theorem aw_product pol lang f : parse pol lang = Ok (tree f) -> exists q, forall nonce nonce' (gk : aw_gk C) pks data data' t t' i ct j ct' j',
  aw_encrypt nonce gk pks pol lang data t i = Ok (ct, j) -> aw_encrypt nonce' gk pks pol lang data' t' i = Ok (ct', j') ->
  encrypt_symmetric nonce (payload (t (i + q)%nat)) data = Ok (awct_data ct) /\
  exists d, aw_encrypt nonce gk pks pol lang data (tadd t t') i = Ok (aw_with (aw_mix ct ct') d, j) /\
  encrypt_symmetric nonce (payload (t (i + q)%nat + t' (i + q)%nat)) data = Ok d /\
  (t' (i + q)%nat = 0 -> d = awct_data ct).
Proof.
  intros P. exists (1 + nd f + nd f)%nat. intros nonce nonce' gk pks data data' t t' i ct j ct' j' H H'.
  replace (i + (1 + nd f + nd f))%nat with (i + 1 + nd f + nd f)%nat by lia.
  destruct (aw_position _ _ _ _ _ _ _ _ _ _ _ P H) as (_ & He). split; [exact He|].
  destruct (aw_sum _ _ _ _ _ _ _ _ _ _ _ _ _ _ _ H H') as (_ & y & Hy & d & ->). exists d. split; [exact Hy|].
  apply (aw_position _ _ _ _ _ _ _ _ _ _ _ P) in Hy as (_ & Hd).
  unfold tadd in Hd. split; [exact Hd|].
  intros Z. rewrite Z in Hd.
  replace (t (i + 1 + nd f + nd f)%nat + 0) with (t (i + 1 + nd f + nd f)%nat) in Hd by ring. rewrite He in Hd. now injection Hd as <-.
Qed.

Theorem yct_product nonce nonce' (pk : yct_pk C) attrs data data' t t' i ct j ct' j' :
  yct_encrypt nonce pk attrs data t i = Ok (ct, j) -> yct_encrypt nonce' pk attrs data' t' i = Ok (ct', j') ->
  exists d, yct_encrypt nonce pk attrs data (tadd t t') i = Ok (yct_with (yct_mix ct ct') d, j) /\
  encrypt_symmetric nonce (gtmul C (gtpow C (ypk_g pk) (t i)) (gtpow C (ypk_g pk) (t' i))) data = Ok d.
Proof.
  intros H H'. destruct (yct_sum _ _ _ _ _ _ _ _ _ _ _ _ _ H H') as (_ & y & Hy & d & ->). exists d. split; [exact Hy|].
  apply (yct_key L) in Hy as (Hd & _). cbn in Hd. rewrite <- Hd. f_equal. unfold tadd. dlog.
Qed.

(** ** The product is another ciphertext *)

Lemma add1_same (a b : G1 C) : g1add C a b = a -> b = g1zero C.
Proof.
  intros H. apply (f_equal (log1 L)) in H. revert H. logs. intros H. apply (log1_inj L). logs.
  match type of H with ?l = ?r => transitivity (l - r); [ring|rewrite H; ring] end.
Qed.
Lemma add2_same (a b : G2 C) : g2add C a b = a -> b = g2zero C.
Proof.
  intros H. apply (f_equal (log2 L)) in H. revert H. logs. intros H. apply (log2_inj L). logs.
  match type of H with ?l = ?r => transitivity (l - r); [ring|rewrite H; ring] end.
Qed.
Lemma mulT_same (a b : GT C) : gtmul C a b = a -> b = gtone C.
Proof.
  intros H. apply (f_equal (logT L)) in H. revert H. logs. intros H. apply (logT_inj L). logs.
  match type of H with ?l = ?r => transitivity (l - r); [ring|rewrite H; ring] end.
Qed.

Lemma zip_nth {A} (f : A -> A -> A) : forall l l' k x x', nth_error l k = Some x -> nth_error l' k = Some x' ->
  nth_error (zip f l l') k = Some (f x x').
Proof.
  unfold zip. induction l as [|a l IH]; intros [|a' l'] [|k] x x' E E'; cbn in *; try discriminate; [|now apply IH].
  injection E as ->. now injection E' as ->.
Qed.

Theorem products_differ :
  (forall ct ct' : bsw_ct C, bsw_mix ct ct' = ct -> bct_c ct' = g1zero C) /\
  (forall ct ct' : ghw_ct C, ghw_mix ct ct' = ct -> gct_c1 ct' = g1zero C) /\
  (forall ct ct' : lsw_ct C, lsw_mix ct ct' = ct -> lct_e2 ct' = g2zero C) /\
  (forall ct ct' : ac_cpct C, cp_mix ct ct' = ct -> act_cp (acp_ct ct') = gtone C) /\
  (forall ct ct' : ac_kpct C, kp_mix ct ct' = ct -> act_cp (akp_ct ct') = gtone C) /\
  (forall ct ct' : aw_ct C, aw_mix ct ct' = ct -> awct_c0 ct' = gtone C) /\
  (forall (ct ct' : bd_ct C) k x x', bd_mix ct ct' = ct -> nth_error (Bdabe.bct_j ct) k = Some x ->
     nth_error (Bdabe.bct_j ct') k = Some x' -> bt_e2 x' = g1zero C) /\
  (forall (ct ct' : mk_ct C) k x x', mk_mix ct ct' = ct -> nth_error (mct_e ct) k = Some x ->
     nth_error (mct_e ct') k = Some x' -> mj_3 x' = g1zero C).
Proof.
  repeat apply conj; intros ct ct'.
  - intros H. apply (f_equal (@bct_c C)) in H. exact (add1_same _ _ H).
  - intros H. apply (f_equal (@gct_c1 C)) in H. exact (add1_same _ _ H).
  - intros H. apply (f_equal (@lct_e2 C)) in H. exact (add2_same _ _ H).
  - intros H. apply (f_equal (fun c => act_cp (acp_ct c))) in H. exact (mulT_same _ _ H).
  - intros H. apply (f_equal (fun c => act_cp (akp_ct c))) in H. exact (mulT_same _ _ H).
  - intros H. apply (f_equal (@awct_c0 C)) in H. exact (mulT_same _ _ H).
  - intros k x x' H E E'. apply (f_equal (fun c => nth_error (Bdabe.bct_j c) k)) in H. cbn in H.
    erewrite zip_nth in H by eassumption. rewrite E in H. injection H as H. apply (f_equal (@bt_e2 C)) in H. exact (add1_same _ _ H).
  - intros k x x' H E E'. apply (f_equal (fun c => nth_error (mct_e c) k)) in H. cbn in H.
    erewrite zip_nth in H by eassumption. rewrite E in H. injection H as H. apply (f_equal (@mj_3 C)) in H. exact (add1_same _ _ H).
Qed.

End MixingProofs.
