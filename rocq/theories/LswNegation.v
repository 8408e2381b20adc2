(** * LswNegation: LSW decryption with negated names *)
From Coq Require Import String Ascii List Bool Arith Lia Field.
From Verif Require Import Base Crypto Policy Tools Sharing Spec PolicyProofs Poly
  SharingProofs Symmetric Parse SchemeLib Lsw LswProofs.
Import ListNotations.

Section LswNegation.
Context {C : crypto} (L : laws C).
Local Open Scope F_scope.
Add Field lswn_field : (f_theory L).
Notation F := (F C).
Ltac logs := log_simpl L.

(** Sum of coefficient times share over a list of leaves, where a negated leaf
    takes the share of the last leaf before it that is not negated. *)
Fixpoint carry (co sh : list (string * F)) (last : F) (l : list (string * nat)) : F :=
  match l with
  | [] => 0
  | (n, p) :: r =>
      let v := if negated n then last else oval (assoc (node_index n p) sh) in
      oval (assoc (node_index n p) co) * v + carry co sh v r
  end.

(** The leaves that decryption uses: all children of a conjunction, the first
    satisfied child of a disjunction. *)
Fixpoint chosen (own : string -> bool) (f : formula) : list (string * nat) :=
  match f with
  | FLeaf n p => [(n, p)]
  | FAnd l => flat_map (chosen own) l
  | FOr l =>
      (fix go (l : list formula) :=
         match l with [] => [] | c :: r => if sat own c then chosen own c else go r end) l
  end.

Lemma chosen_sel own f : sat own f = true -> sel (pmask own f) (leaves f) = chosen own f.
Proof.
  induction f as [n p|l IH|l IH] using formula_ind'; intros S.
  - cbn in *. now rewrite S.
  - cbn [sat pmask leaves chosen] in *. induction IH as [|c l H _ IHl]; [reflexivity|].
    cbn [forallb flat_map] in *. apply andb_prop in S as (S1 & S2).
    rewrite sel_app by apply pmask_length. now rewrite H, IHl.
  - cbn [sat pmask leaves chosen] in *. induction IH as [|c l H _ IHl]; [discriminate|].
    cbn [existsb flat_map] in *. destruct (sat own c).
    + rewrite sel_app by apply pmask_length. rewrite H by reflexivity. now rewrite sel_nomask, app_nil_r.
    + cbn [orb] in S. rewrite sel_app by (unfold nomask; now rewrite map_length). rewrite sel_nomask. now apply IHl.
Qed.

(** What pruning returns. *)
Theorem pruned_chosen attrs f t : arity2 f = true ->
  calc_pruned attrs (tree f) t =
  Ok (sat (owns attrs) f,
      if sat (owns attrs) f then map (fun x => (fst x, node_index (fst x) (snd x))) (chosen (owns attrs) f) else []).
Proof.
  intros A. rewrite calc_pruned_tree by exact A. destruct (sat (owns attrs) f) eqn:S; [|reflexivity].
  now rewrite chosen_sel.
Qed.

(** The value that LSW decryption hands to the symmetric layer. *)
Theorem lsw_decrypt_exact nonce (pk : lsw_pk C) msk attrs sk pol lang data ct f
    ts is js tk ik jk te ie je :
  lsw_setup ts is = Ok ((pk, msk), js) ->
  lsw_keygen pk msk pol lang tk ik = Ok (sk, jk) ->
  lsw_encrypt nonce pk attrs data te ie = Ok (ct, je) ->
  parse pol lang = Ok (tree f) ->
  arity2 f = true -> NoDup (names f) -> plain_names f = true ->
  sat (owns attrs) f = true ->
  exists msg sh co j,
    encrypt_symmetric nonce msg data = Ok (lct_ct ct) /\
    lct_e1 ct = gtmul C msg (gtpow C (lpk_egg pk) (te ie)) /\
    gen_shares_policy (lmsk_alpha1 msk) (tree f) None tk ik = Ok (sh, j) /\
    calc_coefficients (tree f) 1 [] None = Ok (Some co) /\
    lsw_decrypt sk ct =
      decrypt_symmetric
        (gtmul C (lct_e1 ct)
          (gtinv C (gtpow C (pairing C (lpk_g1 pk) (lpk_g2 pk))
             (te ie * lmsk_alpha2 msk * carry co sh 0 (chosen (owns attrs) f)))))
        (lct_ct ct).
Proof.
  intros Hs Hk He P A ND PN S.
  apply (lsw_setup_keys L) in Hs. destruct (lsw_keygen_inv L _ _ _ _ _ _ _ _ _ P Hk) as (K1 & K2).
  assert (HE : exists msg, log2 L (lct_e2 ct) = log2 L (lpk_g2 pk) * te ie /\
    logT L (lct_e1 ct) = logT L (lpk_egg pk) * te ie + logT L msg /\
    encrypt_symmetric nonce msg data = Ok (lct_ct ct) /\
    Forall2 (fun a e => le_name e = a /\ exists h, hash C a = Some h /\
       log1 L (le_1 e) = log1 L (lpk_g1 pk) * h * te ie) attrs (lct_ej ct)).
  { clear - He L. unfold lsw_encrypt in He. destruct attrs as [|a0 at0]; [discriminate|].
    destruct data as [|c0 d0]; [discriminate|].
    set (attrs := a0 :: at0) in *.
    apply rbind_Ok in He as (s & i1 & Hs & H). injection Hs as <- <-.
    apply rbind_Ok in H as (sx & i2 & Hx & H).
    apply rbind_Ok in H as (ej & i3 & He & H). apply rlift_Ok in He as [He <-].
    apply rbind_Ok in H as (msg & i4 & Hm & H).
    apply rbind_Ok in H as (d & i6 & Hd & H). apply rlift_Ok in Hd as [Hd <-].
    apply rret_Ok in H as [<- _]. cbn [lct_e1 lct_e2 lct_ej lct_ct].
    exists msg. logs. split; [reflexivity|]. split; [reflexivity|]. split; [exact Hd|].
    eapply (lsw_ejs_inv L); eauto. }
  destruct HE as (msg & E2 & E1 & E4 & E5). set (s := te ie) in *.
  assert (Nm : map le_name (lct_ej ct) = attrs).
  { clear - E5. induction E5 as [|a d attrs ds (E & _) _ IH]; cbn; congruence. }
  exists msg, (gsh f (lmsk_alpha1 msk) tk ik), (gco f 1), (ik + nd f)%nat.
  split; [exact E4|]. split; [apply (logT_inj L); logs; rewrite E1; ring|].
  split; [apply (gen_shares_policy_eq L)|]. split; [apply (calc_coefficients_eq L)|].
  unfold lsw_decrypt. rewrite K1. cbn [fst snd]. rewrite P. cbn [obind].
  rewrite Nm. rewrite calc_pruned_tree by exact A. rewrite S. cbn [obind fst snd].
  rewrite (calc_coefficients_eq L). cbn [obind unwrap app].
  pose proof (fun x => @pruned_leaf (owns attrs) f x) as PL.
  rewrite chosen_sel in * by exact S.
  assert (X : forall l, incl l (chosen (owns attrs) f) -> forall st last,
    logT L (fst st) = log1 L (lpk_g1 pk) * log2 L (lpk_g2 pk) * lmsk_alpha2 msk * s * last ->
    exists st',
    ofold (lsw_step sk ct (gco f 1)) (map leaf_pair l) st = Ok st' /\
    logT L (snd st') = logT L (snd st) +
    log1 L (lpk_g1 pk) * log2 L (lpk_g2 pk) * lmsk_alpha2 msk * s *
      carry (gco f 1) (gsh f (lmsk_alpha1 msk) tk ik) last l).
  { induction l as [|x l IH]; intros Hi st last Hl.
    - exists st. cbn. split; [reflexivity|]. ring.
    - assert (Ix : In (leaf_pair x) (map leaf_pair (chosen (owns attrs) f))) by (apply in_map, Hi; now left).
      destruct (PL _ Ix) as (n & p & E & Il & Io). destruct x as (n', p').
      unfold leaf_pair in E. cbn [fst snd] in E. injection E as -> Ep.
      destruct (share_of_leaf f n p (lmsk_alpha1 msk) tk ik Il) as (sh & Esh).
      destruct (coeff_of_leaf (C := C) f n p 1 Il) as (co & Eco).
      unfold owns in Io. apply smem_In in Io.
      destruct (find_key _ _ _ _ _ E5 Io) as (e & Fe & _ & h & Hh & V1).
      assert (Rn : remove_index (node_index n p) = n)
        by (apply remove_index_leaf; eapply plain_leaf; eauto).
      assert (NDg : NoDup (map (fun x => remove_index (fst x)) (gsh f (lmsk_alpha1 msk) tk ik)))
        by (rewrite gsh_names by exact PN; exact ND).
      destruct (find_distinct _ (fun x => remove_index (fst x)) _ _ _ K2 NDg _ (assoc_In_pair _ _ _ Esh))
        as (d & Fd & In1 & V2).
      cbn [fst snd] in *. rewrite Rn in *.
      cbn [map ofold carry]. unfold leaf_pair at 1. cbn [fst snd]. rewrite Ep. unfold lsw_step at 1. cbn [fst snd].
      rewrite Fd, Fe, (find_assoc_id _ _ _ Eco). cbn [unwrap obind fst snd]. rewrite In1. cbn [obind].
      rewrite Eco, Esh. cbn [oval].
      destruct (negated n) eqn:Ng.
      + match goal with |- context [ofold _ (map leaf_pair l) ?st0] =>
          destruct (IH (fun y Hy => Hi y (or_intror Hy)) st0 last) as (st' & Es & V) end.
        2:{ exists st'. split; [exact Es|]. rewrite V. cbn [fst snd]. logs. rewrite Hl. ring. }
        cbn [fst]. exact Hl.
      + destruct (V2 eq_refl) as (h' & r & Hh' & D1 & D2). rewrite Hh in Hh'. injection Hh' as <-.
        match goal with |- context [ofold _ (map leaf_pair l) ?st0] =>
          destruct (IH (fun y Hy => Hi y (or_intror Hy)) st0 sh) as (st' & Es & V) end.
        2:{ exists st'. split; [exact Es|]. rewrite V. cbn [fst snd]. logs.
            rewrite D1, D2, V1, E2. ring. }
        cbn [fst]. logs. rewrite D1, D2, V1, E2. ring. }
  destruct (X _ (incl_refl _) (gtone C, gtone C) 0) as (st' & Es & V).
  { cbn [fst]. logs. ring. }
  rewrite Es. cbn [obind]. f_equal. apply (logT_inj L). logs. rewrite V. cbn [snd]. logs. ring.
Qed.

Lemma carry_negated co sh l : forallb (fun x => negated (fst x)) l = true -> carry co sh 0 l = 0.
Proof.
  induction l as [|(n, p) l IH]; cbn [forallb carry fst]; [reflexivity|]. intros H. apply andb_prop in H as (-> & H).
  rewrite IH by exact H. ring.
Qed.

Lemma chosen_names (q : string -> bool) own f : forallb q (names f) = true ->
  forallb (fun x => q (fst x)) (chosen own f) = true.
Proof.
  unfold names. induction f as [n p|l IH|l IH] using formula_ind'; cbn [leaves chosen]; intros H.
  - exact H.
  - induction IH as [|c l Hc _ IHl]; [reflexivity|]. cbn [flat_map] in *. rewrite map_app, forallb_app in H.
    apply andb_prop in H as (H1 & H2). rewrite forallb_app. rewrite Hc, IHl; auto.
  - induction IH as [|c l Hc _ IHl]; [reflexivity|]. cbn [flat_map] in *. rewrite map_app, forallb_app in H.
    apply andb_prop in H as (H1 & H2). destruct (sat own c); auto.
Qed.

(** When all names are negated the key has no influence. *)
Theorem lsw_all_negated nonce (pk : lsw_pk C) msk attrs sk pol lang data ct f
    ts is js tk ik jk te ie je :
  lsw_setup ts is = Ok ((pk, msk), js) ->
  lsw_keygen pk msk pol lang tk ik = Ok (sk, jk) ->
  lsw_encrypt nonce pk attrs data te ie = Ok (ct, je) ->
  parse pol lang = Ok (tree f) ->
  arity2 f = true -> NoDup (names f) -> plain_names f = true ->
  forallb negated (names f) = true ->
  sat (owns attrs) f = true ->
  lsw_decrypt sk ct = decrypt_symmetric (lct_e1 ct) (lct_ct ct).
Proof.
  intros Hs Hk He P A ND PN N S.
  destruct (lsw_decrypt_exact nonce pk msk attrs sk pol lang data ct f ts is js tk ik jk te ie je
              Hs Hk He P A ND PN S) as (msg & sh & co & j & _ & _ & _ & _ & E).
  rewrite E. f_equal. rewrite carry_negated by now apply (chosen_names negated).
  apply (logT_inj L). logs. ring.
Qed.

(** Decryption works when the sum is the secret, which holds without negated names. *)
Theorem lsw_decrypt_carry nonce (pk : lsw_pk C) msk attrs sk pol lang data ct f
    ts is js tk ik jk te ie je sh j co :
  lsw_setup ts is = Ok ((pk, msk), js) ->
  lsw_keygen pk msk pol lang tk ik = Ok (sk, jk) ->
  lsw_encrypt nonce pk attrs data te ie = Ok (ct, je) ->
  parse pol lang = Ok (tree f) ->
  String.length nonce = 12%nat ->
  arity2 f = true -> NoDup (names f) -> plain_names f = true ->
  sat (owns attrs) f = true ->
  gen_shares_policy (lmsk_alpha1 msk) (tree f) None tk ik = Ok (sh, j) ->
  calc_coefficients (tree f) 1 [] None = Ok (Some co) ->
  carry co sh 0 (chosen (owns attrs) f) = lmsk_alpha1 msk ->
  lsw_decrypt sk ct = Ok data.
Proof.
  intros Hs Hk He P Ln A ND PN S Hsh Hco V.
  destruct (lsw_decrypt_exact nonce pk msk attrs sk pol lang data ct f ts is js tk ik jk te ie je
              Hs Hk He P A ND PN S) as (msg & sh' & co' & j' & E4 & E1 & Hsh' & Hco' & E).
  rewrite Hsh in Hsh'. injection Hsh' as <- _. rewrite Hco in Hco'. injection Hco' as <-.
  rewrite E. apply (symmetric_roundtrip L nonce); [exact Ln|]. rewrite <- E4. f_equal.
  apply (lsw_setup_keys L) in Hs. unfold lsw_keys in Hs.
  apply (logT_inj L). rewrite V, E1. logs. rewrite Hs. ring.
Qed.
End LswNegation.
