(** * AC17 with a hash that may fail, and the width of the span program

    [sha3_hash] returns an error when its digest cannot be turned into a field
    element.  Key generation unwraps that error, encryption reports it. *)
From Coq Require Import String Ascii List Bool Arith ZArith Lia Field.
From Verif Require Import Base Crypto Policy Tools Sharing Spec PolicyProofs Poly
  SharingProofs Parse Symmetric SchemeLib CoreProofs Msp MspProofs Ac17 Ac17Proofs
  RobustProofs TotalProofs.
Import ListNotations.

(** ** Outcomes that are a value or an error *)

Definition declined {A} (o : outcome A) (bad : Prop) : Prop :=
  (bad /\ o = Err) \/ (~ bad /\ exists a, o = Ok a).

Lemma declined_iff {A} (o : outcome A) p q : (p <-> q) -> declined o p -> declined o q.
Proof. unfold declined. tauto. Qed.

Lemma declined_Ok {A} (a : A) : declined (Ok a) False.
Proof. right. split; [tauto|eauto]. Qed.

Lemma declined_bind {A B} (m : outcome A) (k : A -> outcome B) p q :
  declined m p -> (forall a, m = Ok a -> declined (k a) q) -> declined (obind m k) (p \/ q).
Proof.
  intros [[P ->]|[P [a ->]]] H; cbn; [left; tauto|].
  destruct (H a eq_refl) as [[Q E]|[Q E]]; [left|right]; tauto.
Qed.

Lemma declined_bind1 {A B} (m : outcome A) (k : A -> outcome B) p :
  declined m p -> (forall a, m = Ok a -> exists b, k a = Ok b) -> declined (obind m k) p.
Proof.
  intros [[P ->]|[P [a ->]]] H; cbn; [left; tauto|right]. split; [exact P|]. now apply H.
Qed.

Lemma declined_rbind {F A B} (m : rand F A) (k : A -> rand F B) p q t i :
  declined (m t i) p -> (forall a j, m t i = Ok (a, j) -> declined (k a t j) q) ->
  declined (rbind m k t i) (p \/ q).
Proof.
  unfold rbind. intros [[P ->]|[P [[a j] ->]]] H; cbn; [left; tauto|].
  destruct (H a j eq_refl) as [[Q E]|[Q E]]; [left|right]; tauto.
Qed.

Lemma declined_rlift {F A} (o : outcome A) p (t : nat -> F) i :
  declined o p -> declined (rlift o t i) p.
Proof. unfold rlift. intros [[P ->]|[P [a ->]]]; cbn; [left|right]; split; eauto. Qed.

Lemma declined_omap {A B} (f : A -> outcome B) (bad : A -> Prop) l :
  (forall x, In x l -> declined (f x) (bad x)) -> declined (omap f l) (exists x, In x l /\ bad x).
Proof.
  induction l as [|x l IH]; intros H.
  - right. split; [intros (x & [] & _)|cbn; eauto].
  - cbn [omap]. eapply declined_iff.
    2: { apply declined_bind; [apply H; now left|]. intros y _.
         apply declined_bind1; [apply IH; intros; apply H; now right|]. intros; eauto. }
    split.
    + intros [B0|(y & I & B0)]; [exists x|exists y]; cbn; auto.
    + intros (y & [<-|I] & B0); eauto.
Qed.

Lemma declined_ofold {A B} (step : B -> A -> outcome B) (bad : A -> Prop) l :
  (forall st x, In x l -> declined (step st x) (bad x)) ->
  forall st, declined (ofold step l st) (exists x, In x l /\ bad x).
Proof.
  induction l as [|x l IH]; intros H st.
  - right. split; [intros (x & [] & _)|cbn; eauto].
  - cbn [ofold]. eapply declined_iff; [|apply declined_bind].
    2: apply H; now left. 2: intros; apply IH; intros; apply H; now right.
    split.
    + intros [B0|(y & I & B0)]; [exists x|exists y]; cbn; auto.
    + intros (y & [<-|I] & B0); eauto.
Qed.

Lemma settled_bind1 {A B} (m : outcome A) (k : A -> outcome B) p :
  settled m p -> (forall a, m = Ok a -> exists b, k a = Ok b) -> settled (obind m k) p.
Proof.
  intros [[P ->]|[P [a ->]]] H; cbn; [left; tauto|right]. split; [exact P|]. now apply H.
Qed.

(** ** The number of columns of the span program *)

(** The number of AND gates of a policy. *)
Fixpoint gates (f : formula) : nat :=
  match f with
  | FLeaf _ _ => 0
  | FAnd l => S (list_sum (map gates l))
  | FOr l => list_sum (map gates l)
  end.

Lemma lwr_gates f : binary_and f = true -> forall v c, snd (lwr f v c) = c + gates f.
Proof.
  revert f. apply (binary_ind (fun f => forall v c, snd (lwr f v c) = c + gates f)).
  - intros n k v c. cbn. lia.
  - intros a b _ _ IHa IHb v c. rewrite lwr_FAnd. cbn [snd]. rewrite IHb, IHa.
    cbn [gates map list_sum fold_right]. lia.
  - intros l _ _ IH v c. rewrite lwr_FOr. cbn [gates]. revert c.
    induction IH as [|g l H _ IHl]; intros c; [cbn; lia|].
    cbn [lwr_or fst snd map]. rewrite IHl, H. change (list_sum (gates g :: map gates l)) with (gates g + list_sum (map gates l)). lia.
Qed.

Lemma msp_width_gates f : binary_and f = true -> msp_width f = S (gates f).
Proof. intros B. unfold msp_width. now rewrite lwr_gates. Qed.

Lemma msp_columns f m : calculate_msp (tree f) = Ok m -> msp_c m = S (gates f).
Proof.
  intros M. destruct (binary_and f) eqn:B; [|rewrite calculate_msp_bad in M by exact B; discriminate].
  rewrite calculate_msp_eq in M by exact B. injection M as <-. cbn [msp_c]. now apply msp_width_gates.
Qed.

(** ** AC17 *)

Section Fail.
Context {C : crypto} (L : laws C).
Local Open Scope F_scope.
Local Open Scope rand_scope.
Notation F := (F C).

(** Some hash derived from label [x] is undefined. *)
Definition unhashed (x : string) : Prop :=
  exists l u : nat, (l < 3)%nat /\ (u < 2)%nat /\ hash C (x ++ dec l ++ dec u)%string = None.

(** The label of column [j]. *)
Definition column (j : nat) : string := ("0" ++ dec j)%string.

Lemma in_ls l : In l ls <-> (l < 3)%nat.
Proof. unfold ls, asz. rewrite in_seq. lia. Qed.
Lemma in_ts l : In l ts <-> (l < 2)%nat.
Proof. unfold ts, asz. rewrite in_seq. lia. Qed.

Lemma unhashed_lt x : unhashed x <-> exists u, In u ts /\ exists l, In l ls /\ hash C (lab x l u) = None.
Proof.
  split.
  - intros (l & u & Hl & Hu & E). exists u. rewrite in_ts. split; [exact Hu|]. exists l. now rewrite in_ls.
  - intros (u & Iu & l & Il & E). exists l, u. rewrite in_ls in Il. rewrite in_ts in Iu. auto.
Qed.

Lemma unhashed_tl x : unhashed x <-> exists l, In l ls /\ exists u, In u ts /\ hash C (lab x l u) = None.
Proof.
  rewrite unhashed_lt. split; intros (a & Ia & b & Ib & E); exists b; split; auto; exists a; auto.
Qed.

Lemma hash_prod_settled (g : G1 C) x x0 x1 x2 y u acc :
  settled (hash_prod g x [x0; x1; x2] y u acc) (exists l, In l ls /\ hash C (lab x l u) = None).
Proof.
  unfold hash_prod. apply (settled_ofold _ (fun l => hash C (lab x l u) = None)). intros st l Il.
  apply settled_bind1; [apply hash_g1_settled|]. intros h _. apply in_ls in Il.
  rewrite (idx_lt _ _ 0) by exact Il. cbn [obind]. eauto.
Qed.

Lemma hash_declined (g : G1 C) s : declined (sha3_hash_g1 g s) (hash C s = None).
Proof. unfold sha3_hash_g1. destruct (hash C s); [right|left]; cbn; split; eauto; discriminate. Qed.

Section Keys.
Variables (pk : ac_pk C) (msk : ac_msk C) (t0 : nat -> F) (i0 j0 : nat).
Hypothesis K : ac_setup t0 i0 = Ok ((pk, msk), j0).

Lemma kp_encrypt_hash nonce attrs data t i :
  declined (kp_encrypt nonce pk attrs data t i) (exists a, In a attrs /\ unhashed a).
Proof.
  destruct (ac_setup_keys _ _ _ _ _ K) as (a0 & a1 & b0 & b1 & k0 & k1 & k2 & Ks).
  unfold kp_encrypt. destruct (draw_s_runs _ _ _ _ _ _ _ _ _ t i Ks) as (s0 & s1 & c0 & js & E).
  erewrite rbind_run by exact E. clear E. destruct Ks as (g & h & -> & ->). cbv beta iota. cbn [apk_g].
  eapply declined_iff; [|apply declined_rbind with (q := False)].
  2: { apply declined_rlift, (declined_omap _ unhashed). intros a _.
       apply declined_bind1; [|intros; eauto].
       eapply declined_iff; [apply iff_sym, unhashed_tl|].
       apply (declined_omap _ (fun l => exists u, In u ts /\ hash C (lab a l u) = None)). intros l _.
       unfold kp_ct_entry. apply (declined_ofold _ (fun u => hash C (lab a l u) = None)). intros st u Iu.
       apply declined_bind1; [apply hash_declined|]. intros x _. apply in_ts in Iu.
       rewrite (idx_lt _ _ 0) by exact Iu. cbn [obind]. eauto. }
  1: tauto. intros c j _. erewrite rbind_run by reflexivity.
  erewrite rbind_run by apply draw_gt_run. erewrite rbind_run by reflexivity.
  apply (declined_Ok (A := _ * nat)).
Qed.

Lemma cp_encrypt_hash nonce pol lang data f t i :
  parse pol lang = Ok (tree f) -> binary_and f = true ->
  declined (cp_encrypt nonce pk pol data lang t i)
    ((exists a, In a (names f) /\ unhashed a) \/
     (exists j, (1 <= j <= S (gates f))%nat /\ unhashed (column j))).
Proof.
  intros P B. destruct (ac_setup_keys _ _ _ _ _ K) as (a0 & a1 & b0 & b1 & k0 & k1 & k2 & Ks).
  unfold cp_encrypt. rewrite P. erewrite rbind_run by reflexivity.
  rewrite (calculate_msp_eq f B). erewrite rbind_run by reflexivity. cbn [msp_m msp_pi].
  destruct (sorted_nonempty L f B) as (r0 & R0 & E0).
  assert (Nm : forall a, In a (names f) <-> In a (map fst (sort_rows (rev (msp_rows f))))).
  { intros a. rewrite <- (msp_rows_names f B), !in_map_iff.
    split; intros (x & Ex & Ix); exists x; (split; [exact Ex|]); now apply sorted_In. }
  assert (Hr0 : length (snd r0) = msp_width f).
  { apply msp_rows_length. apply sorted_In. rewrite E0. now left. }
  set (R := sort_rows (rev (msp_rows f))) in *.
  assert (Sub : forall r, In r R -> length (snd r) = msp_width f)
    by (intros r Ir; apply msp_rows_length; now apply sorted_In).
  assert (I0 : idx (map snd R) 0 = Ok (snd r0)) by now rewrite E0.
  rewrite I0. erewrite rbind_run by reflexivity. rewrite Hr0.
  destruct (draw_s_runs _ _ _ _ _ _ _ _ _ t i Ks) as (s0 & s1 & c0 & js & E).
  erewrite rbind_run by exact E. clear E. destruct Ks as (g & h & -> & ->).
  cbv beta iota. cbn [apk_g].
  eapply declined_iff; [apply or_comm|]. apply declined_rbind.
  { apply declined_rlift. unfold hash_table.
    eapply declined_iff; [|apply (declined_omap _ (fun j => unhashed (column (j + 1))))].
    - rewrite (msp_width_gates f B). split.
      + intros (j & Ij & U). apply in_seq in Ij. exists (j + 1)%nat. split; [lia|exact U].
      + intros (j & Hj & U). exists (j - 1)%nat. rewrite in_seq. split; [lia|].
        now replace (j - 1 + 1)%nat with j by lia.
    - intros j _. eapply declined_iff; [apply iff_sym, unhashed_tl|].
      apply (declined_omap _ (fun l => exists u, In u ts /\ hash C (lab (column (j + 1)) l u) = None)). intros l _.
      apply (declined_omap _ (fun u => hash C (lab (column (j + 1)) l u) = None)). intros u _.
      apply hash_declined. }
  intros tb j Etb. assert (Etb' : hash_table g (msp_width f) = Ok tb).
  { unfold rlift in Etb. destruct (hash_table g (msp_width f)); try discriminate. now injection Etb as <- _. }
  clear Etb. destruct (hash_table_dims _ _ _ Etb') as (D1 & D2).
  rewrite map_length, (omap_rows R).
  eapply declined_iff; [|apply declined_rbind with (q := False)].
  2: { apply declined_rlift, (declined_omap _ (fun r => unhashed (fst r))). intros r Ir.
       apply declined_bind1; [|intros; eauto].
       eapply declined_iff; [apply iff_sym, unhashed_tl|].
       apply (declined_omap _ (fun l => exists u, In u ts /\ hash C (lab (fst r) l u) = None)). intros l Il.
       unfold cp_entry. apply (declined_ofold _ (fun u => hash C (lab (fst r) l u) = None)). intros st u Iu.
       apply declined_bind1; [apply hash_declined|]. intros x _. apply in_ts in Iu. apply in_ls in Il.
       match goal with |- context [ofold ?st (seq 0 ?n) ?ac] => destruct (ofold_runs st (seq 0 n)) with (a := ac) as (q & E) end.
       - intros k acc' Ij. apply in_seq in Ij. rewrite (idx_lt _ _ 0%Z) by (rewrite (Sub _ Ir); lia). cbn [obind].
         rewrite (idx_lt _ _ []) by lia. cbn [obind].
         rewrite Forall_forall in D2. destruct (D2 (nth k tb [])) as (D3 & D4); [apply nth_In; lia|].
         rewrite (idx_lt _ _ []) by lia. cbn [obind]. rewrite Forall_forall in D4.
         rewrite (idx_lt _ _ (g1zero C)); [cbn [obind]; eauto|]. rewrite D4; [exact Iu|]. apply nth_In. lia.
       - rewrite E. cbn [obind]. rewrite (idx_lt _ _ 0) by exact Iu. cbn [obind]. eauto. }
  - split.
    + intros [(r & Ir & U)|[]]. exists (fst r). split; [|exact U]. apply Nm. now apply in_map.
    + intros (a & Ia & U). left. apply Nm in Ia. apply in_map_iff in Ia as (r & <- & Ir). eauto.
  - intros c j' _. erewrite rbind_run by reflexivity.
    erewrite rbind_run by apply draw_gt_run. erewrite rbind_run by reflexivity.
    apply (declined_Ok (A := _ * nat)).
Qed.

(** One component of a key: the inverse, then the hashes. *)
Lemma cp_keygen_hash attrs t i : attrs <> [] ->
  settled (cp_keygen msk attrs t i)
    ((exists a, In a (amsk_a msk) /\ a = 0) \/ (exists a, In a attrs /\ unhashed a) \/ unhashed "01").
Proof.
  intros N. destruct (ac_setup_keys _ _ _ _ _ K) as (a0 & a1 & b0 & b1 & k0 & k1 & k2 & Ks).
  destruct attrs as [|n0 at0]; [congruence|]. unfold cp_keygen. set (attrs := n0 :: at0).
  destruct (draw_br_runs _ _ _ _ _ _ _ _ _ t i Ks) as (x0 & x1 & x2 & j & E).
  erewrite rbind_run by exact E. clear E. destruct Ks as (g & h & -> & ->).
  cbn [amsk_a amsk_g amsk_gk amsk_h].
  erewrite rbind_run by reflexivity.
  set (zero := exists a, In a [a0; a1] /\ a = 0).
  assert (Zall : zero <-> exists u, In u ts /\ nth u [a0; a1] 0 = 0).
  { unfold zero. split.
    - intros (a & [<-|[<-|[]]] & E); [exists 0%nat|exists 1%nat]; (split; [cbn; auto|exact E]).
    - intros (u & Iu & E). apply in_ts in Iu. eexists. split; [|exact E]. now apply nth_In. }
  (* the loop over [_t] with one label *)
  assert (Loop : forall (x : string) (start : nat -> outcome (G1 C)) (k : nat -> F -> G1 C -> G1 C),
    (forall u, (u < 2)%nat -> exists s, start u = Ok s) ->
    settled (omap (fun u => obind (start u) (fun s => obind (idx [a0; a1] u) (fun a =>
      obind (unwrap (finv_opt a)) (fun y => obind (hash_prod g x [x0; x1; x2] y u s) (fun p =>
      Ok (k u y p)))))) ts) (zero \/ unhashed x)).
  { intros x start k Hs. eapply settled_iff; [|apply (settled_omap _ (fun u => nth u [a0; a1] 0 = 0 \/
      exists l, In l ls /\ hash C (lab x l u) = None))].
    - rewrite Zall, unhashed_lt. split.
      + intros (u & Iu & [E|E]); [left|right]; eauto.
      + intros [(u & Iu & E)|(u & Iu & E)]; eauto.
    - intros u Iu. apply in_ts in Iu. destruct (Hs u Iu) as (s & ->). cbn [obind].
      rewrite (idx_lt _ _ 0) by exact Iu. cbn [obind].
      apply settled_bind; [apply (inv_settled L)|]. intros y _.
      apply settled_bind1; [apply hash_prod_settled|]. intros; eauto. }
  eapply settled_iff; [|apply settled_rbind with (q := zero \/ unhashed "01")].
  2: { apply (settled_rmap _ (fun a => zero \/ unhashed a)). intros a i' _. apply draw_bind.
       eapply settled_iff; [|apply settled_rbind with (q := False)].
       2: { apply settled_rlift.
            exact (Loop a (fun _ => Ok (g1zero C)) (fun u y p => g1add C p (g1mul C g (t i' * y)))
              (fun u _ => ex_intro _ _ eq_refl)). }
       - tauto.
       - intros; apply settled_rret. }
  - split.
    + intros [(a & Ia & [Z0|U])|[Z0|U]]; eauto.
    + intros [Z0|[U|U]]; auto. destruct U as (a & Ia & U). eauto.
  - intros k' j' _. apply draw_bind. eapply settled_iff; [|apply settled_rbind with (q := False)].
    2: { apply settled_rlift.
         refine (Loop "01"%string (idx [g1mul C g k0; g1mul C g k1; g1mul C g k2])
           (fun u y p => g1add C p (g1mul C g (t j' * y))) _).
         intros u Hu. rewrite (idx_lt _ _ (g1zero C)) by (cbn; lia). eauto. }
    + tauto.
    + intros. erewrite rbind_run by reflexivity. apply settled_rret.
Qed.

Lemma kp_keygen_hash pol lang f t i :
  parse pol lang = Ok (tree f) -> binary_and f = true ->
  settled (kp_keygen msk pol lang t i)
    ((exists a, In a (amsk_a msk) /\ a = 0) \/ (exists a, In a (names f) /\ unhashed a) \/
     (exists j, (1 <= j <= gates f)%nat /\ unhashed (column j))).
Proof.
  intros P B. destruct (ac_setup_keys _ _ _ _ _ K) as (a0 & a1 & b0 & b1 & k0 & k1 & k2 & Ks).
  unfold kp_keygen. rewrite P. erewrite rbind_run by reflexivity.
  rewrite (calculate_msp_eq f B). erewrite rbind_run by reflexivity. cbn [msp_m msp_pi].
  destruct (sorted_nonempty L f B) as (r0 & R0 & E0).
  assert (Nm : forall a, In a (names f) <-> In a (map fst (sort_rows (rev (msp_rows f))))).
  { intros a. rewrite <- (msp_rows_names f B), !in_map_iff.
    split; intros (x & Ex & Ix); exists x; (split; [exact Ex|]); now apply sorted_In. }
  assert (Hr0 : length (snd r0) = msp_width f).
  { apply msp_rows_length. apply sorted_In. rewrite E0. now left. }
  set (R := sort_rows (rev (msp_rows f))) in *.
  assert (Sub : forall r, In r R -> length (snd r) = msp_width f)
    by (intros r Ir; apply msp_rows_length; now apply sorted_In).
  assert (I0 : idx (map snd R) 0 = Ok (snd r0)) by now rewrite E0.
  rewrite I0. erewrite rbind_run by reflexivity. rewrite Hr0.
  destruct (draw_br_runs _ _ _ _ _ _ _ _ _ t i Ks) as (x0 & x1 & x2 & j & E).
  erewrite rbind_run by exact E. clear E. pose proof (msp_width_gates f B) as Wg.
  destruct Ks as (g & h & -> & ->). cbn [amsk_a].
  erewrite rbind_run by reflexivity.
  destruct (draws_length (msp_width f - 1) t j) as (sp & j2 & E & Lsp).
  erewrite rbind_run by exact E. clear E. rewrite map_length.
  set (zero := exists a, In a [a0; a1] /\ a = 0).
  assert (Zall : zero <-> exists u, In u ts /\ nth u [a0; a1] 0 = 0).
  { unfold zero. split.
    - intros (a & [<-|[<-|[]]] & E); [exists 0%nat|exists 1%nat]; (split; [cbn; auto|exact E]).
    - intros (u & Iu & E). apply in_ts in Iu. eexists. split; [|exact E]. now apply nth_In. }
  set (cols := exists j, (1 <= j <= gates f)%nat /\ unhashed (column j)).
  eapply settled_iff; [|apply settled_rbind with (q := False)].
  2: { rewrite (rmap_rows R). apply (settled_rmap _ (fun r => zero \/ unhashed (fst r) \/ cols)).
       intros r i' Ir. apply draw_bind.
       eapply settled_iff; [|apply settled_rbind with (q := False)].
       2: { apply settled_rlift, (settled_omap _ (fun u => nth u [a0; a1] 0 = 0 \/
              (exists l, In l ls /\ hash C (lab (fst r) l u) = None) \/
              exists c, In c (seq 1 (msp_width f - 1)) /\ exists l, In l ls /\ hash C (lab (col c) l u) = None)).
            intros u Iu. apply in_ts in Iu. unfold kp_entry. cbn [amsk_a amsk_g amsk_gk].
            rewrite (idx_lt _ _ 0) by exact Iu. cbn [obind].
            apply settled_bind; [apply (inv_settled L)|]. intros y _.
            apply settled_bind; [apply hash_prod_settled|]. intros p _.
            rewrite (idx_lt _ _ 0%Z) by (rewrite (Sub _ Ir); lia). cbn [obind].
            erewrite entry_at_ok by (apply (idx_lt _ _ (g1zero C)); cbn; lia). cbn [obind].
            apply settled_bind1; [|intros; eauto].
            apply (settled_ofold _ (fun c => exists l, In l ls /\ hash C (lab (col c) l u) = None)).
            intros st c Ic. apply in_seq in Ic. apply settled_bind1; [apply hash_prod_settled|]. intros q _.
            rewrite (idx_lt _ _ 0) by lia. cbn [obind]. rewrite (idx_lt _ _ 0%Z) by (rewrite (Sub _ Ir); lia).
            cbn [obind]. eauto. }
       - rewrite unhashed_lt. split.
         + intros [(u & Iu & [Z0|[U|(c & Ic & U)]])|[]].
           * left. apply Zall. eauto.
           * right; left. eauto.
           * right; right. apply in_seq in Ic. exists c. split; [lia|]. apply unhashed_lt. eauto.
         + intros [Z0|[(u & Iu & U)|(c & Hc & U)]]; left.
           * apply Zall in Z0 as (u & Iu & Z0). eauto.
           * exists u. auto.
           * apply unhashed_lt in U as (u & Iu & U). exists u. split; [exact Iu|]. right; right.
             exists c. rewrite in_seq. split; [lia|exact U].
       - intros key j' _. eapply settled_iff; [|apply settled_rbind with (p := False) (q := False)].
         + tauto.
         + apply settled_rlift. unfold kp_last. cbn [amsk_g amsk_gk].
           rewrite (idx_lt _ _ 0%Z) by (rewrite (Sub _ Ir); lia). cbn [obind].
           erewrite entry_at_ok by (apply (idx_lt _ _ (g1zero C)); unfold asz; cbn; lia). cbn [obind].
           match goal with |- settled (ofold ?st ?sq ?ac) _ => destruct (ofold_runs st sq) with (a := ac) as (q & E) end.
           * intros jj acc Ij. apply in_seq in Ij.
             rewrite (idx_lt _ _ 0%Z) by (rewrite (Sub _ Ir); lia). cbn [obind].
             rewrite (idx_lt _ _ 0) by lia. cbn [obind]. eauto.
           * rewrite E. apply settled_Ok.
         + intros. apply settled_rret. }
  - split.
    + intros [(r & Ir & [Z0|[U|U]])|[]]; auto. right; left. exists (fst r). split; [|exact U].
      apply Nm. now apply in_map.
    + assert (Ir0 : In r0 R) by (rewrite E0; now left).
      intros [Z0|[(a & Ia & U)|U]]; left; eauto.
      apply Nm in Ia. apply in_map_iff in Ia as (r & <- & Ir). eauto.
  - intros. apply settled_rret.
Qed.

End Keys.
End Fail.
