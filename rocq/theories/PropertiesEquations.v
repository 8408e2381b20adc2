(** * PropertiesEquations: C83 to C85 and C63: equations, delegation chains, re-randomisation

    Every statement is written out in full; the proofs are in EquationProofs.v,
    AcEquationProofs.v, ChainProofs.v and RerandProofs.v. *)
From Coq Require Import String Ascii List Bool Arith ZArith Lia.
From Verif Require Import Base Crypto Policy Tools Sharing Spec Poly SharingProofs Parse Symmetric
  Msp MspProofs Dnf Bdabe Mke08 Bsw Ghw11 Lsw Yct14 Ac17 Ac17Proofs Aw11 EquationProofs AcEquationProofs ChainProofs
  RerandProofs BswProofs LswProofs Instance Sessions Witnesses.
Import ListNotations.
Local Open Scope string_scope.

(** C83. A key at the end of a chain is a key that key generation could have returned, for attributes of the first key. *)
Theorem C83_chain_fresh :
  forall C : crypto,
  laws C ->
  forall (pk : bsw_pk C) (msk : bsw_msk C) (root attrs : list string) 
    (sk : bsw_sk C) (ts : nat -> F C) (is js : nat),
  bsw_setup ts is = Ok (pk, msk, js) ->
  derived pk msk root attrs sk ->
  attrs <> [] /\
  (forall a : string, In a attrs -> In a root) /\
  (exists (t : nat -> F C) (j : nat), bsw_keygen pk msk attrs t 0 = Ok (Some sk, j)).
Proof. exact @chain_fresh. Qed.
Print Assumptions C83_chain_fresh.

(** C83. It decrypts exactly as its attributes allow. *)
Theorem C83_chain_decrypts :
  forall C : crypto,
  laws C ->
  forall (nonce : string) (pk : bsw_pk C) (msk : bsw_msk C) (root attrs : list string)
    (sk : bsw_sk C) (pol : string) (lang : language) (data : string) 
    (ct : bsw_ct C) (f : formula) (ts : nat -> F C) (is js : nat) 
    (te : nat -> F C) (ie je : nat),
  bsw_setup ts is = Ok (pk, msk, js) ->
  derived pk msk root attrs sk ->
  bsw_encrypt nonce pk pol lang data te ie = Ok (ct, je) ->
  parse pol lang = Ok (tree f) ->
  String.length nonce = 12 ->
  arity2 f = true ->
  NoDup (leaves f) ->
  plain_names f = true ->
  small_ok C (and_width f) ->
  bsw_decrypt sk ct = (if sat (owns attrs) f then Ok data else Err).
Proof. exact @chain_decrypts. Qed.
Print Assumptions C83_chain_decrypts.

(** C83. Every chain can be continued. *)
Theorem C83_chain_extends :
  forall C : crypto,
  laws C ->
  forall (pk : bsw_pk C) (msk : bsw_msk C) (root attrs : list string) 
    (sk : bsw_sk C) (subset : list string) (t : nat -> F C) (i : nat) 
    (ts : nat -> F C) (is js : nat),
  bsw_setup ts is = Ok (pk, msk, js) ->
  derived pk msk root attrs sk ->
  subset <> [] ->
  (forall a : string, In a subset -> In a attrs) ->
  exists (sk' : bsw_sk C) (j : nat),
    bsw_delegate pk sk subset t i = Ok (Some sk', j) /\ derived pk msk root subset sk'.
Proof. exact @chain_extends. Qed.
Print Assumptions C83_chain_extends.

Example C83_example : exists (pk : bsw_pk ZC) msk sk sk' sk'' ts i1 i2,
  bsw_setup ts 0 = Ok (pk, msk, i1) /\
  bsw_keygen pk msk ["A"; "B"; "C"] ts i1 = Ok (Some sk, i2) /\
  derived pk msk ["A"; "B"; "C"] ["A"; "B"; "C"] sk /\
  derived pk msk ["A"; "B"; "C"] ["C"; "A"] sk' /\
  derived pk msk ["A"; "B"; "C"] ["C"] sk''.
Proof.
  assert (X : exists (pk : bsw_pk ZC) msk sk ts i1 i2,
    bsw_setup ts 0 = Ok (pk, msk, i1) /\ bsw_keygen pk msk ["A"; "B"; "C"] ts i1 = Ok (Some sk, i2))
    by (by_run (bsw_session (C := ZC) nc ["A"; "B"; "C"] P HumanPolicy "hello") (Ok "hello")).
  destruct X as (pk & msk & sk & ts & i1 & i2 & Hs & Hk).
  assert (D : derived pk msk ["A"; "B"; "C"] ["A"; "B"; "C"] sk) by exact (derived_key _ _ _ _ _ _ _ Hk).
  destruct (chain_extends ZL pk msk ["A"; "B"; "C"] ["A"; "B"; "C"] sk ["C"; "A"] ts i2 ts 0 i1 Hs D) as (sk' & j & _ & D').
  { discriminate. } { intros a [<-|[<-|[]]]; cbn; auto. }
  destruct (chain_extends ZL pk msk ["A"; "B"; "C"] ["C"; "A"] sk' ["C"] ts j ts 0 i1 Hs D') as (sk'' & j' & _ & D'').
  { discriminate. } { intros a [<-|[]]; cbn; auto. }
  exists pk, msk, sk, sk', sk'', ts, i1, i2. repeat apply conj; assumption.
Qed.

(** C84, sharing: [dealt] gives the polynomials and positions. *)
Theorem C84_sharing :
  forall C : crypto,
  laws C ->
  forall (t : nat -> F C) (f : formula) (s : F C) (i : nat) (sh : list (string * F C))
    (j : nat), gen_shares_policy s (tree f) None t i = Ok (sh, j) <-> dealt t f s i sh j.
Proof. exact @shares_dealt. Qed.
Print Assumptions C84_sharing.

Example C84_example_sharing : exists sh j, gen_shares_policy (C := ZC) (zmk 7) (tree fP) None (ztape 3) 0 = Ok (sh, j) /\
  dealt (C := ZC) (ztape 3) fP (zmk 7) 0 sh j.
Proof.
  do 2 eexists. split; [apply (gen_shares_policy_eq ZL)|]. apply (shares_dealt ZL). apply (gen_shares_policy_eq ZL).
Qed.

(** C84, BSW. *)
Theorem C84_bsw_setup :
  forall C : crypto,
  laws C ->
  forall (t : nat -> F C) (i : nat) (pk : bsw_pk C) (msk : bsw_msk C) (j : nat),
  bsw_setup t i = Ok (pk, msk, j) <->
  t (i + 2) <> 0%F /\
  j = i + 4 /\
  bpk_g1 pk = g1mul C (g1one C) (t i) /\
  bpk_g2 pk = g2mul C (g2one C) (t (i + 1)) /\
  bmsk_beta msk = t (i + 2) /\
  bpk_h pk = g1mul C (bpk_g1 pk) (bmsk_beta msk) /\
  g2mul C (bpk_f pk) (bmsk_beta msk) = bpk_g2 pk /\
  bmsk_g2a msk = g2mul C (bpk_g2 pk) (t (i + 3)) /\
  bpk_egg pk = gtpow C (pairing C (bpk_g1 pk) (bpk_g2 pk)) (t (i + 3)).
Proof. exact @bsw_setup_eq. Qed.
Print Assumptions C84_bsw_setup.

(** C84, BSW. *)
Theorem C84_bsw_keygen :
  forall C : crypto,
  laws C ->
  forall (pk : bsw_pk C) (msk : bsw_msk C) (attrs : list string) 
    (t : nat -> F C) (i : nat) (sk : bsw_sk C) (j : nat),
  bsw_keygen pk msk attrs t i = Ok (Some sk, j) ->
  bmsk_beta msk <> 0%F /\
  j = i + 1 + Datatypes.length attrs /\
  g2mul C (bsk_d sk) (bmsk_beta msk) = g2add C (bmsk_g2a msk) (g2mul C (bpk_g2 pk) (t i)) /\
  Datatypes.length (bsk_dj sk) = Datatypes.length attrs /\
  (forall (k : nat) (a : string),
   nth_error attrs k = Some a ->
   exists h : F C,
     hash C a = Some h /\
     nth_error (bsk_dj sk) k =
     Some
       {|
         b_string := a;
         b_g1 := g1mul C (bpk_g1 pk) (t (i + 1 + k));
         b_g2 :=
           g2add C (g2mul C (bpk_g2 pk) (t i))
             (g2mul C (g2mul C (bpk_g2 pk) h) (t (i + 1 + k)))
       |}).
Proof. exact @bsw_keygen_eq. Qed.
Print Assumptions C84_bsw_keygen.

(** C84, BSW. *)
Theorem C84_bsw_delegate :
  forall (C : crypto) (pk : bsw_pk C) (sk : bsw_sk C) (subset : list string)
    (t : nat -> F C) (i : nat) (sk' : bsw_sk C) (j : nat),
  bsw_delegate pk sk subset t i = Ok (Some sk', j) ->
  j = i + 1 + Datatypes.length subset /\
  bsk_d sk' = g2add C (bsk_d sk) (g2mul C (bpk_f pk) (t i)) /\
  Datatypes.length (bsk_dj sk') = Datatypes.length subset /\
  (forall (k : nat) (a : string),
   nth_error subset k = Some a ->
   exists (h : F C) (d : battr C),
     hash C a = Some h /\
     In d (bsk_dj sk) /\
     b_string d = a /\
     nth_error (bsk_dj sk') k =
     Some
       {|
         b_string := a;
         b_g1 := g1add C (b_g1 d) (g1mul C (bpk_g1 pk) (t (i + 1 + k)));
         b_g2 :=
           g2add C (g2add C (b_g2 d) (g2mul C (g2mul C (bpk_g2 pk) h) (t (i + 1 + k))))
             (g2mul C (bpk_g2 pk) (t i))
       |}).
Proof. exact @bsw_delegate_eq. Qed.
Print Assumptions C84_bsw_delegate.

(** C84, BSW. *)
Theorem C84_bsw_encrypt :
  forall C : crypto,
  laws C ->
  forall (nonce : string) (pk : bsw_pk C) (pol : string) (lang : language) 
    (data : string) (t : nat -> F C) (i : nat) (ct : bsw_ct C) 
    (j : nat) (f : formula),
  parse pol lang = Ok (tree f) ->
  bsw_encrypt nonce pk pol lang data t i = Ok (ct, j) ->
  exists (sh : list (string * F C)) (m : GT C),
    m = gtpow C (pairing C (g1one C) (g2one C)) (t (i + 1)) /\
    dealt t f (t i) (i + 2) sh j /\
    bct_policy ct = (pol, lang) /\
    bct_c ct = g1mul C (bpk_h pk) (t i) /\
    bct_cp ct = gtmul C (gtpow C (bpk_egg pk) (t i)) m /\
    encrypt_symmetric nonce m data = Ok (bct_data ct) /\
    Datatypes.length (bct_cy ct) = Datatypes.length sh /\
    (forall (k : nat) (n : string) (x : F C),
     nth_error sh k = Some (n, x) ->
     exists h : F C,
       hash C (remove_index n) = Some h /\
       nth_error (bct_cy ct) k =
       Some
         {|
           b_string := n;
           b_g1 := g1mul C (bpk_g1 pk) x;
           b_g2 := g2mul C (g2mul C (bpk_g2 pk) h) x
         |}).
Proof. exact @bsw_encrypt_eq. Qed.
Print Assumptions C84_bsw_encrypt.

Example C84_example_bsw : exists (pk : bsw_pk ZC) msk sk sk' ct ts i1 i2 i3 i4 i5,
  bsw_setup ts 0 = Ok (pk, msk, i1) /\
  bsw_keygen pk msk ["A"; "B"; "C"; "D"] ts i1 = Ok (Some sk, i2) /\
  bsw_delegate pk sk ["A"; "C"] ts i2 = Ok (Some sk', i3) /\
  bsw_encrypt nc pk P HumanPolicy "hello" ts i4 = Ok (ct, i5) /\ parse P HumanPolicy = Ok (tree fP).
Proof.
  by_run (bsw_delegated_session (C := ZC) nc ["A"; "B"; "C"; "D"] ["A"; "C"] P HumanPolicy "hello") (Ok "hello").
Qed.

(** C84, GHW11. *)
Theorem C84_ghw_setup :
  forall (C : crypto) (t : nat -> F C) (i : nat) (pk : ghw_pk C) 
    (msk : ghw_msk C) (j : nat),
  ghw_setup t i = Ok (pk, msk, j) <->
  j = i + 4 /\
  gmsk_pk msk = pk /\
  gpk_g1 pk = g1mul C (g1one C) (t i) /\
  gpk_g2 pk = g2mul C (g2one C) (t (i + 1)) /\
  gpk_g1a pk = g1mul C (gpk_g1 pk) (t (i + 2)) /\
  gpk_g2a pk = g2mul C (gpk_g2 pk) (t (i + 2)) /\
  gmsk_g2al msk = g2mul C (gpk_g2 pk) (t (i + 3)) /\
  gpk_egg pk = gtpow C (pairing C (gpk_g1 pk) (gpk_g2 pk)) (t (i + 3)).
Proof. exact @ghw_setup_eq. Qed.
Print Assumptions C84_ghw_setup.

(** C84, GHW11. *)
Theorem C84_ghw_keygen :
  forall (C : crypto) (pk : ghw_pk C) (msk : ghw_msk C) (attrs : list string)
    (t : nat -> F C) (i : nat) (sk : ghw_sk C) (j : nat),
  ghw_keygen pk msk attrs t i = Ok (Some sk, j) ->
  j = i + 1 /\
  gsk_k sk = g2add C (gmsk_g2al msk) (g2mul C (gpk_g2a pk) (t i)) /\
  gsk_l sk = g2mul C (gpk_g2 pk) (t i) /\
  Datatypes.length (gsk_attr sk) = Datatypes.length attrs /\
  (forall (k : nat) (a : string),
   nth_error attrs k = Some a ->
   exists h : F C,
     hash C a = Some h /\
     nth_error (gsk_attr sk) k = Some (a, g2mul C (g2mul C (gpk_g2 pk) h) (t i))).
Proof. exact @ghw_keygen_eq. Qed.
Print Assumptions C84_ghw_keygen.

(** C84, GHW11. *)
Theorem C84_ghw_tkgen :
  forall C : crypto,
  laws C ->
  forall (sk : ghw_sk C) (t : nat -> F C) (i : nat) (tk : ghw_tk C) (z : F C) (j : nat),
  ghw_tkgen sk t i = Ok (tk, z, j) <->
  z = t i /\
  z <> 0%F /\
  j = i + 1 /\
  g2mul C (gtk_k tk) z = gsk_k sk /\
  g2mul C (gtk_l tk) z = gsk_l sk /\
  map (fun x : string * G2 C => (fst x, g2mul C (snd x) z)) (gtk_attr tk) = gsk_attr sk.
Proof. exact @ghw_tkgen_eq. Qed.
Print Assumptions C84_ghw_tkgen.

(** C84, GHW11. *)
Theorem C84_ghw_encrypt :
  forall C : crypto,
  laws C ->
  forall (nonce : string) (pk : ghw_pk C) (pol : string) (lang : language) 
    (data : string) (t : nat -> F C) (i : nat) (ct : ghw_ct C) 
    (j : nat) (f : formula),
  parse pol lang = Ok (tree f) ->
  ghw_encrypt nonce pk pol lang data t i = Ok (ct, j) ->
  exists (sh : list (string * F C)) (i' : nat) (m : GT C),
    m = gtpow C (pairing C (g1one C) (g2one C)) (t (i + 1)) /\
    dealt t f (t i) (i + 2) sh i' /\
    j = i' + Datatypes.length sh /\
    gct_policy ct = (pol, lang) /\
    gct_c1 ct = g1mul C (gpk_g1 pk) (t i) /\
    gct_c ct = gtmul C (gtpow C (gpk_egg pk) (t i)) m /\
    encrypt_symmetric nonce m data = Ok (gct_data ct) /\
    Datatypes.length (gct_cidi ct) = Datatypes.length sh /\
    (forall (k : nat) (n : string) (x : F C),
     nth_error sh k = Some (n, x) ->
     exists h : F C,
       hash C (remove_index n) = Some h /\
       nth_error (gct_cidi ct) k =
       Some
         (n,
          (g1add C (g1mul C (gpk_g1a pk) x)
             (g1mul C (g1mul C (gpk_g1 pk) h) (- t (i' + k)%nat)%F),
           g1mul C (gpk_g1 pk) (t (i' + k))))).
Proof. exact @ghw_encrypt_eq. Qed.
Print Assumptions C84_ghw_encrypt.

Example C84_example_ghw : exists (pk : ghw_pk ZC) msk sk tk z ct ts i1 i2 i3 i4,
  ghw_setup ts 0 = Ok (pk, msk, i1) /\
  ghw_keygen pk msk ["A"; "C"] ts i1 = Ok (Some sk, i2) /\
  ghw_tkgen sk ts i2 = Ok (tk, z, i3) /\
  ghw_encrypt nc pk P HumanPolicy "hello" ts i3 = Ok (ct, i4).
Proof. by_run (ghw_session (C := ZC) nc ["A"; "C"] P HumanPolicy "hello") (Ok "hello"). Qed.

(** C84, LSW. *)
Theorem C84_lsw_setup :
  forall C : crypto,
  laws C ->
  forall (t : nat -> F C) (i : nat) (pk : lsw_pk C) (msk : lsw_msk C) (j : nat),
  lsw_setup t i = Ok (pk, msk, j) <->
  j = i + 7 /\
  lmsk_alpha1 msk = t i /\
  lmsk_alpha2 msk = t (i + 1) /\
  lmsk_b msk = t (i + 2) /\
  lpk_g1 pk = g1mul C (g1one C) (t (i + 3)) /\
  lpk_g2 pk = g2mul C (g2one C) (t (i + 4)) /\
  lmsk_hg1 msk = g1mul C (g1one C) (t (i + 5)) /\
  lmsk_hg2 msk = g2mul C (g2one C) (t (i + 6)) /\
  lpk_g1b pk = g1mul C (lpk_g1 pk) (lmsk_b msk) /\
  lpk_g1b2 pk = g1mul C (lpk_g1 pk) (lmsk_b msk * lmsk_b msk)%F /\
  lpk_hb pk = g1mul C (lmsk_hg1 msk) (lmsk_b msk) /\
  lpk_egg pk =
  gtpow C (pairing C (lpk_g1 pk) (lpk_g2 pk)) (lmsk_alpha1 msk * lmsk_alpha2 msk)%F.
Proof. exact @lsw_setup_eq. Qed.
Print Assumptions C84_lsw_setup.

(** C84, LSW. *)
Theorem C84_lsw_keygen :
  forall C : crypto,
  laws C ->
  forall (pk : lsw_pk C) (msk : lsw_msk C) (pol : string) (lang : language)
    (t : nat -> F C) (i : nat) (sk : lsw_sk C) (j : nat) (f : formula),
  parse pol lang = Ok (tree f) ->
  lsw_keygen pk msk pol lang t i = Ok (sk, j) ->
  exists (sh : list (string * F C)) (i' : nat),
    dealt t f (lmsk_alpha1 msk) i sh i' /\
    j = i' + Datatypes.length sh /\
    lsk_policy sk = (pol, lang) /\
    Datatypes.length (lsk_dj sk) = Datatypes.length sh /\
    (forall (k : nat) (n : string) (x : F C),
     nth_error sh k = Some (n, x) ->
     exists h : F C,
       hash C (remove_index n) = Some h /\
       nth_error (lsk_dj sk) k =
       Some
         (if prefix "!" (remove_index n)
          then
           {|
             ld_name := remove_index n;
             ld_1 := g1zero C;
             ld_2 := g2zero C;
             ld_3 := g1add C (g1mul C (lpk_g1 pk) x) (g1mul C (lpk_g1b2 pk) (t (i' + k)));
             ld_4 :=
               g1add C (g1mul C (lpk_g1b pk) (h * t (i' + k)%nat)%F)
                 (g1mul C (lmsk_hg1 msk) (t (i' + k)));
             ld_5 := g1mul C (lpk_g1 pk) (- t (i' + k)%nat)%F
           |}
          else
           {|
             ld_name := remove_index n;
             ld_1 :=
               g1add C (g1mul C (lpk_g1 pk) (lmsk_alpha2 msk * x)%F)
                 (g1mul C (g1mul C (lpk_g1 pk) h) (t (i' + k)));
             ld_2 := g2mul C (lpk_g2 pk) (t (i' + k));
             ld_3 := g1zero C;
             ld_4 := g1zero C;
             ld_5 := g1zero C
           |})).
Proof. exact @lsw_keygen_eq. Qed.
Print Assumptions C84_lsw_keygen.

(** C84, LSW. [lsw_share] is what the code uses where the publication has shares of the secret. *)
Theorem C84_lsw_encrypt :
  forall C : crypto,
  laws C ->
  forall (nonce : string) (pk : lsw_pk C) (attrs : list string) 
    (data : string) (t : nat -> F C) (i : nat) (ct : lsw_ct C) 
    (j : nat),
  lsw_encrypt nonce pk attrs data t i = Ok (ct, j) ->
  exists m : GT C,
    m = gtpow C (pairing C (g1one C) (g2one C)) (t (i + 1 + Datatypes.length attrs)) /\
    j = i + 2 + Datatypes.length attrs /\
    lct_e2 ct = g2mul C (lpk_g2 pk) (t i) /\
    lct_e1 ct = gtmul C (gtpow C (lpk_egg pk) (t i)) m /\
    encrypt_symmetric nonce m data = Ok (lct_ct ct) /\
    Datatypes.length (lct_ej ct) = Datatypes.length attrs /\
    (forall (k : nat) (a : string),
     nth_error attrs k = Some a ->
     exists h : F C,
       hash C a = Some h /\
       nth_error (lct_ej ct) k =
       Some
         {|
           le_name := a;
           le_1 := g1mul C (g1mul C (lpk_g1 pk) h) (t i);
           le_2 := g1mul C (lpk_g1b pk) (lsw_share t i (Datatypes.length attrs) k);
           le_3 :=
             g1add C
               (g1mul C (lpk_g1b2 pk) (lsw_share t i (Datatypes.length attrs) k * h)%F)
               (g1mul C (lpk_hb pk) (lsw_share t i (Datatypes.length attrs) k))
         |}).
Proof. exact @lsw_encrypt_eq. Qed.
Print Assumptions C84_lsw_encrypt.

Example C84_example_lsw : exists (pk : lsw_pk ZC) msk sk ct ts i1 i2 i3,
  lsw_setup ts 0 = Ok (pk, msk, i1) /\
  lsw_keygen pk msk P HumanPolicy ts i1 = Ok (sk, i2) /\
  lsw_encrypt nc pk ["C"; "A"] "hello" ts i2 = Ok (ct, i3).
Proof. by_run (lsw_session (C := ZC) nc P HumanPolicy ["C"; "A"] "hello") (Ok "hello"). Qed.

(** C84, LSW. These values add up to zero, in every ciphertext. *)
Theorem C84_lsw_negation_sum :
  forall C : crypto,
  laws C ->
  forall (nonce : string) (pk : lsw_pk C) (attrs : list string) 
    (data : string) (t : nat -> F C) (i : nat) (ct : lsw_ct C) 
    (j : nat),
  lsw_encrypt nonce pk attrs data t i = Ok (ct, j) ->
  fold_right (fun (e : lsw_ej C) (s : G1 C) => g1add C (le_2 e) s) (g1zero C) (lct_ej ct) =
  g1zero C.
Proof. exact @lsw_negation_sum. Qed.
Print Assumptions C84_lsw_negation_sum.

(** In the publication they add up to the secret: the exponent [s] of [lct_e2]. *)
Theorem C84_lsw_negation_sum_refuted : exists (pk : lsw_pk ZC) msk ct ts i1 i2,
  lsw_setup ts 0 = Ok (pk, msk, i1) /\
  lsw_encrypt nc pk ["C"; "A"] "hello" ts i1 = Ok (ct, i2) /\
  fold_right (fun (e : lsw_ej ZC) s => g1add ZC (le_2 e) s) (g1zero ZC) (lct_ej ct) <> g1mul ZC (lpk_g1b pk) (ts i1).
Proof.
  assert (Hs : exists pk msk j, lsw_setup (C := ZC) (fun _ => zmk 3) 0 = Ok (pk, msk, j))
    by (unfold lsw_setup, draw_g1, draw_g2, rbind, rret, rlift, draw; do 3 eexists; reflexivity).
  destruct Hs as (pk & msk & j & Hs).
  assert (He : exists ct j', lsw_encrypt nc pk ["C"; "A"] "hello" (fun _ => zmk 3) j = Ok (ct, j')).
  { apply (lsw_encrypt_runs (C := ZC) nc pk ["C"; "A"] "hello" (fun _ => zmk 3) j); try discriminate. }
  destruct He as (ct & j' & He).
  exists pk, msk, ct, (fun _ => zmk 3), j, j'. split; [exact Hs|]. split; [exact He|].
  rewrite (lsw_negation_sum ZL _ _ _ _ _ _ _ _ He). apply (proj1 (lsw_setup_eq ZL _ _ _ _ _)) in Hs.
  intros X. 
  decompose [and] Hs. clear Hs.
  repeat match goal with H : lpk_g1b pk = _ |- _ => rewrite H in X; clear H end.
  repeat match goal with H : lpk_g1 pk = _ |- _ => rewrite H in X; clear H end.
  repeat match goal with H : lmsk_b msk = _ |- _ => rewrite H in X; clear H end.
  apply (f_equal (fun x : zp => zval x)) in X. vm_compute in X. discriminate X.
Qed.
Print Assumptions C84_lsw_negation_sum_refuted.

(** C84, YCT14. *)
Theorem C84_yct_setup :
  forall (C : crypto) (attrs : list string) (t : nat -> F C) (i : nat) 
    (pk : yct_pk C) (msk : yct_msk C) (j : nat),
  yct_setup attrs t i = Ok (pk, msk, j) ->
  let g := gtpow C (pairing C (g1one C) (g2one C)) (t (i + 1)) in
  j = i + 2 + Datatypes.length attrs /\
  ymsk_s msk = t i /\
  ypk_g pk = gtpow C g (t i) /\
  Datatypes.length (ypk_attrs pk) = Datatypes.length attrs /\
  Datatypes.length (ymsk_attrs msk) = Datatypes.length attrs /\
  (forall (k : nat) (a : string),
   nth_error attrs k = Some a ->
   nth_error (ypk_attrs pk) k =
   Some {| y_name := a; y_node := Some (YPub (gtpow C g (t (i + 2 + k)))) |} /\
   nth_error (ymsk_attrs msk) k =
   Some {| y_name := a; y_node := Some (YPriv (t (i + 2 + k))) |}).
Proof. exact @yct_setup_eq. Qed.
Print Assumptions C84_yct_setup.

(** C84, YCT14. *)
Theorem C84_yct_keygen :
  forall C : crypto,
  laws C ->
  forall (msk : yct_msk C) (pol : string) (lang : language) (t : nat -> F C) 
    (i : nat) (sk : yct_sk C) (j : nat) (f : formula),
  parse pol lang = Ok (tree f) ->
  yct_keygen msk pol lang t i = Ok (sk, j) ->
  exists sh : list (string * F C),
    dealt t f (ymsk_s msk) i sh j /\
    ysk_policy sk = (pol, lang) /\ yct_parts msk sh (ysk_du sk).
Proof. exact @yct_keygen_eq. Qed.
Print Assumptions C84_yct_keygen.

(** C84, YCT14. *)
Theorem C84_yct_encrypt :
  forall (C : crypto) (nonce : string) (pk : yct_pk C) (attrs : list string)
    (data : string) (t : nat -> F C) (i : nat) (ct : yct_ct C) 
    (j : nat),
  yct_encrypt nonce pk attrs data t i = Ok (ct, j) ->
  j = i + 1 /\
  encrypt_symmetric nonce (gtpow C (ypk_g pk) (t i)) data = Ok (yct_data ct) /\
  Datatypes.length (yct_attrs ct) = Datatypes.length attrs /\
  (forall (k : nat) (a : string),
   nth_error attrs k = Some a ->
   exists g : GT C,
     In {| y_name := a; y_node := Some (YPub g) |} (ypk_attrs pk) /\
     nth_error (yct_attrs ct) k =
     Some {| y_name := a; y_node := Some (YPub (gtpow C g (t i))) |}).
Proof. exact @yct_encrypt_eq. Qed.
Print Assumptions C84_yct_encrypt.

Example C84_example_yct : exists (pk : yct_pk ZC) msk sk ct ts i1 i2 i3,
  yct_setup ["A"; "B"; "C"; "D"] ts 0 = Ok (pk, msk, i1) /\
  yct_keygen msk P HumanPolicy ts i1 = Ok (sk, i2) /\
  yct_encrypt nc pk ["C"; "A"; "D"] "hello" ts i2 = Ok (ct, i3).
Proof.
  by_run (yct_session (C := ZC) nc ["A"; "B"; "C"; "D"] P HumanPolicy ["C"; "A"; "D"] "hello") (Ok "hello").
Qed.

(** C84, AC17. *)
Theorem C84_ac_setup :
  forall (C : crypto) (t : nat -> F C) (i : nat) (pk : ac_pk C) (msk : ac_msk C) (j : nat),
  ac_setup t i = Ok (pk, msk, j) <->
  j = i + 9 /\
  (let g := g1mul C (g1one C) (t i) in
   let h := g2mul C (g2one C) (t (i + 1)) in
   let a0 := t (i + 2) in
   let b0 := t (i + 3) in
   let a1 := t (i + 4) in
   let b1 := t (i + 5) in
   let k0 := t (i + 6) in
   let k1 := t (i + 7) in
   let k2 := t (i + 8) in
   pk =
   {|
     apk_g := g;
     apk_ha := [g2mul C h a0; g2mul C h a1; h];
     apk_egh :=
       [gtpow C (pairing C g h) (k0 * a0 + k2)%F; gtpow C (pairing C g h) (k1 * a1 + k2)%F]
   |} /\
   msk =
   {|
     amsk_g := g;
     amsk_h := h;
     amsk_gk := [g1mul C g k0; g1mul C g k1; g1mul C g k2];
     amsk_a := [a0; a1];
     amsk_b := [b0; b1]
   |}).
Proof. exact @ac_setup_eq. Qed.
Print Assumptions C84_ac_setup.

Example C84_example_ac_keys : exists (pk : ac_pk ZC) msk a0 a1 b0 b1 k0 k1 k2,
  ac_setup (C := ZC) (ztape 3) 0 = Ok (pk, msk, 9) /\ ac_keys pk msk a0 a1 b0 b1 k0 k1 k2.
Proof.
  destruct (ac_setup_runs (C := ZC) (ztape 3) 0) as (pk & msk & j & H).
  pose proof (proj1 (ac_setup_eq (C := ZC) _ _ _ _ _) H) as (-> & _). cbn in H.
  destruct (ac_setup_keys _ _ _ _ _ H) as (a0 & a1 & b0 & b1 & k0 & k1 & k2 & K).
  exists pk, msk, a0, a1, b0, b1, k0, k1, k2. auto.
Qed.

(** C84, AC17 ciphertext-policy. [W x x0 x1 x2 t] is the sum over [l] of [x_l] times the hash of [x], [l], [t]. *)
Theorem C84_cp_keygen :
  forall C : crypto,
  laws C ->
  forall (pk : ac_pk C) (msk : ac_msk C) (a0 a1 b0 b1 k0 k1 k2 : F C)
    (attrs : list string) (t : nat -> F C) (i : nat) (sk : ac_cpsk C) 
    (j : nat),
  ac_keys pk msk a0 a1 b0 b1 k0 k1 k2 ->
  cp_keygen msk attrs t i = Ok (sk, j) ->
  let g := amsk_g msk in
  let h := amsk_h msk in
  let x0 := (b0 * t i)%F in
  let x1 := (b1 * t (i + 1)%nat)%F in
  let x2 := (t i + t (i + 1)%nat)%F in
  let s := t (i + 2 + Datatypes.length attrs) in
  a0 <> 0%F /\
  a1 <> 0%F /\
  j = i + 3 + Datatypes.length attrs /\
  acps_attr sk = attrs /\
  ask_k0 (acps_sk sk) = [g2mul C h x0; g2mul C h x1; g2mul C h x2] /\
  ask_kp (acps_sk sk) =
  [g1mul C g (k0 + (W "01" x0 x1 x2 0 + s) * finv C a0)%F;
   g1mul C g (k1 + (W "01" x0 x1 x2 1 + s) * finv C a1)%F; g1mul C g (k2 - s)%F] /\
  Datatypes.length (ask_k (acps_sk sk)) = Datatypes.length attrs /\
  (forall (k : nat) (a : string),
   nth_error attrs k = Some a ->
   nth_error (ask_k (acps_sk sk)) k =
   Some
     (a,
      [g1mul C g ((W a x0 x1 x2 0 + t (i + 2 + k)%nat) * finv C a0)%F;
       g1mul C g ((W a x0 x1 x2 1 + t (i + 2 + k)%nat) * finv C a1)%F;
       g1mul C g (- t (i + 2 + k)%nat)%F])).
Proof. exact @cp_keygen_eq. Qed.
Print Assumptions C84_cp_keygen.

(** C84, AC17 ciphertext-policy. *)
Theorem C84_cp_encrypt :
  forall C : crypto,
  laws C ->
  forall (nonce : string) (pk : ac_pk C) (msk : ac_msk C) (a0 a1 b0 b1 k0 k1 k2 : F C)
    (pol : string) (lang : language) (data : string) (t : nat -> F C) 
    (i : nat) (ct : ac_cpct C) (j : nat) (f : formula),
  ac_keys pk msk a0 a1 b0 b1 k0 k1 k2 ->
  parse pol lang = Ok (tree f) ->
  binary_and f = true ->
  cp_encrypt nonce pk pol data lang t i = Ok (ct, j) ->
  exists m : GT C,
    m = gtpow C (pairing C (g1one C) (g2one C)) (t (i + 2)) /\
    (let g := amsk_g msk in
     let h := amsk_h msk in
     let s0 := t i in
     let s1 := t (i + 1) in
     j = i + 3 /\
     acp_policy ct = (pol, lang) /\
     act_c0 (acp_ct ct) =
     [g2mul C h (a0 * s0)%F; g2mul C h (a1 * s1)%F; g2mul C h (s0 + s1)%F] /\
     act_cp (acp_ct ct) =
     gtmul C (gtpow C (pairing C g h) ((k0 * a0 + k2) * s0 + (k1 * a1 + k2) * s1)%F) m /\
     encrypt_symmetric nonce m data = Ok (act_ct (acp_ct ct)) /\
     act_c (acp_ct ct) =
     map
       (fun r : string * list Z =>
        (fst r, map (fun l : nat => g1mul C g (cp_cell (fst r) (snd r) s0 s1 l)) [0; 1; 2]))
       (sort_rows (rev (msp_rows f)))).
Proof. exact @cp_encrypt_eq. Qed.
Print Assumptions C84_cp_encrypt.

Example C84_example_cp : exists (pk : ac_pk ZC) msk sk ct ts i1 i2 i3,
  ac_setup ts 0 = Ok (pk, msk, i1) /\
  cp_keygen msk ["A"; "C"] ts i1 = Ok (sk, i2) /\
  cp_encrypt nc pk P "hello" HumanPolicy ts i2 = Ok (ct, i3) /\ binary_and fP = true.
Proof. by_run (cp_session (C := ZC) nc ["A"; "C"] P HumanPolicy "hello") (Ok "hello"). Qed.

(** C84, AC17 key-policy: the equation of the code, in which the blinding values of the columns accumulate. *)
Theorem C84_kp_keygen :
  forall C : crypto,
  laws C ->
  forall (pk : ac_pk C) (msk : ac_msk C) (a0 a1 b0 b1 k0 k1 k2 : F C) 
    (pol : string) (lang : language) (t : nat -> F C) (i : nat) 
    (sk : ac_kpsk C) (j : nat) (f : formula),
  ac_keys pk msk a0 a1 b0 b1 k0 k1 k2 ->
  parse pol lang = Ok (tree f) ->
  binary_and f = true ->
  kp_keygen msk pol lang t i = Ok (sk, j) ->
  let g := amsk_g msk in
  let h := amsk_h msk in
  let x0 := (b0 * t i)%F in
  let x1 := (b1 * t (i + 1)%nat)%F in
  let x2 := (t i + t (i + 1)%nat)%F in
  let sp := fun c : nat => t (i + 1 + c) in
  let rows := sort_rows (rev (msp_rows f)) in
  a0 <> 0%F /\
  a1 <> 0%F /\
  j = i + 1 + msp_width f + Datatypes.length rows /\
  akps_policy sk = (pol, lang) /\
  ask_k0 (akps_sk sk) = [g2mul C h x0; g2mul C h x1; g2mul C h x2] /\
  ask_kp (akps_sk sk) = [] /\
  Datatypes.length (ask_k (akps_sk sk)) = Datatypes.length rows /\
  (forall (q : nat) (name : string) (row : list Z),
   nth_error rows q = Some (name, row) ->
   let s := t (i + 1 + msp_width f + q) in
   nth_error (ask_k (akps_sk sk)) q =
   Some
     (name,
      [g1mul C g
         ((W name x0 x1 x2 0 + s) * finv C a0 +
          dot row (kp_column sp x0 x1 x2 (finv C a0) k0 0))%F;
       g1mul C g
         ((W name x0 x1 x2 1 + s) * finv C a1 +
          dot row (kp_column sp x0 x1 x2 (finv C a1) k1 1))%F;
       g1mul C g (- s + dot row (kp_column_last sp k2))%F])).
Proof. exact @kp_keygen_eq. Qed.
Print Assumptions C84_kp_keygen.

(** C84, AC17 key-policy. *)
Theorem C84_kp_encrypt :
  forall C : crypto,
  laws C ->
  forall (nonce : string) (pk : ac_pk C) (msk : ac_msk C) (a0 a1 b0 b1 k0 k1 k2 : F C)
    (attrs : list string) (data : string) (t : nat -> F C) (i : nat) 
    (ct : ac_kpct C) (j : nat),
  ac_keys pk msk a0 a1 b0 b1 k0 k1 k2 ->
  kp_encrypt nonce pk attrs data t i = Ok (ct, j) ->
  exists m : GT C,
    m = gtpow C (pairing C (g1one C) (g2one C)) (t (i + 2)) /\
    (let g := amsk_g msk in
     let h := amsk_h msk in
     let s0 := t i in
     let s1 := t (i + 1) in
     j = i + 3 /\
     akp_attr ct = attrs /\
     act_c0 (akp_ct ct) =
     [g2mul C h (a0 * s0)%F; g2mul C h (a1 * s1)%F; g2mul C h (s0 + s1)%F] /\
     act_cp (akp_ct ct) =
     gtmul C (gtpow C (pairing C g h) ((k0 * a0 + k2) * s0 + (k1 * a1 + k2) * s1)%F) m /\
     encrypt_symmetric nonce m data = Ok (act_ct (akp_ct ct)) /\
     act_c (akp_ct ct) =
     map
       (fun a : string =>
        (a,
         map (fun l : nat => g1mul C g (hv (lab a l 0) * s0 + hv (lab a l 1) * s1)%F)
           [0; 1; 2])) attrs).
Proof. exact @kp_encrypt_eq. Qed.
Print Assumptions C84_kp_encrypt.

Example C84_example_kp : exists (pk : ac_pk ZC) msk sk ct ts i1 i2 i3,
  ac_setup ts 0 = Ok (pk, msk, i1) /\
  kp_keygen msk P HumanPolicy ts i1 = Ok (sk, i2) /\
  kp_encrypt nc pk ["C"; "A"] "hello" ts i2 = Ok (ct, i3).
Proof. by_run (kp_session (C := ZC) nc P HumanPolicy ["C"; "A"] "hello") (Ok "hello"). Qed.

(** C84, AC17 key-policy: no choice of blinding values gives an entry of the published form, for rows of two columns. *)
Theorem C84_kp_not_published :
  forall C : crypto,
  laws C ->
  forall (pk : ac_pk C) (msk : ac_msk C) (a0 a1 b0 b1 k0 k1 k2 : F C) 
    (pol : string) (lang : language) (t : nat -> F C) (i : nat) 
    (sk : ac_kpsk C) (j : nat) (f : formula) (q : nat) (name : string) 
    (z0 z1 : Z),
  ac_keys pk msk a0 a1 b0 b1 k0 k1 k2 ->
  parse pol lang = Ok (tree f) ->
  binary_and f = true ->
  kp_keygen msk pol lang t i = Ok (sk, j) ->
  nth_error (sort_rows (rev (msp_rows f))) q = Some (name, [z0; z1]) ->
  amsk_g msk <> g1zero C ->
  (zf z1 * t (i + 2)%nat)%F <> 0%F ->
  a0 <> (- (1))%F ->
  forall (x0 x1 x2 s : F C) (sp : nat -> F C),
  ask_k0 (akps_sk sk) =
  [g2mul C (amsk_h msk) x0; g2mul C (amsk_h msk) x1; g2mul C (amsk_h msk) x2] ->
  amsk_h msk <> g2zero C ->
  nth_error (ask_k (akps_sk sk)) q <>
  Some (name, kp_published (amsk_g msk) a0 a1 k0 k1 k2 x0 x1 x2 s sp name [z0; z1]).
Proof. exact @kp_not_published. Qed.
Print Assumptions C84_kp_not_published.

Theorem C84_kp_published_refuted : exists (pk : ac_pk ZC) msk sk a0 a1 b0 b1 k0 k1 k2 j name row,
  ac_setup (C := ZC) (ztape 3) 0 = Ok (pk, msk, 9) /\ ac_keys pk msk a0 a1 b0 b1 k0 k1 k2 /\
  kp_keygen (C := ZC) msk P HumanPolicy (ztape 3) 9 = Ok (sk, j) /\
  nth_error (sort_rows (rev (msp_rows fP))) 0 = Some (name, row) /\
  forall x0 x1 x2 s sp,
  ask_k0 (akps_sk sk) = [g2mul ZC (amsk_h msk) x0; g2mul ZC (amsk_h msk) x1; g2mul ZC (amsk_h msk) x2] ->
  nth_error (ask_k (akps_sk sk)) 0 <>
    Some (name, kp_published (amsk_g msk) a0 a1 k0 k1 k2 x0 x1 x2 s sp name row).
Proof.
  destruct (ac_setup_runs (C := ZC) (ztape 3) 0) as (pk & msk & j & H).
  pose proof (proj1 (ac_setup_eq (C := ZC) _ _ _ _ _) H) as (-> & Epk & Emsk). cbn [Nat.add] in H.
  assert (K : ac_keys (C := ZC) pk msk (ztape 3 2) (ztape 3 4) (ztape 3 3) (ztape 3 5) (ztape 3 6) (ztape 3 7) (ztape 3 8)).
  { do 2 eexists. split; [exact Epk|exact Emsk]. }
  assert (Nz : forall a : zp, zval a <> 0%Z -> a <> f0 ZC).
  { intros a Ha X. apply Ha. apply (f_equal zval) in X. exact X. }
  assert (Hk : exists sk j, kp_keygen (C := ZC) msk P HumanPolicy (ztape 3) 9 = Ok (sk, j)).
  { eapply (kp_keygen_runs ZL _ _ _ _ _ _ _ _ _ P HumanPolicy fP); [exact K| | | | |exact Zhash];
      [apply Nz; vm_compute; discriminate|apply Nz; vm_compute; discriminate|vm_compute; reflexivity|reflexivity]. }
  destruct Hk as (sk & j & Hk).
  do 13 eexists. split; [exact H|]. split; [exact K|]. split; [exact Hk|].
  split; [vm_compute; reflexivity|]. intros x0 x1 x2 s sp HK.
  eapply (kp_not_published ZL pk msk _ _ _ _ _ _ _ P HumanPolicy (ztape 3) 9 sk j fP);
    [exact K| |reflexivity|exact Hk|vm_compute; reflexivity| | | |exact HK|].
  - vm_compute. reflexivity.
  - rewrite Emsk. apply Nz. vm_compute. discriminate.
  - apply Nz. vm_compute. discriminate.
  - intros X. apply (f_equal (fun x : zp => zval x)) in X. vm_compute in X. discriminate.
  - rewrite Emsk. apply Nz. vm_compute. discriminate.
Qed.
Print Assumptions C84_kp_published_refuted.

(** C84, AW11. *)
Theorem C84_aw_setup :
  forall (C : crypto) (t : nat -> F C) (i : nat) (gk : aw_gk C) (j : nat),
  aw_setup t i = Ok (gk, j) <->
  j = i + 2 /\
  agk_g1 gk = g1mul C (g1one C) (t i) /\ agk_g2 gk = g2mul C (g2one C) (t (i + 1)).
Proof. exact @aw_setup_eq. Qed.
Print Assumptions C84_aw_setup.

(** C84, AW11. *)
Theorem C84_aw_authgen :
  forall (C : crypto) (gk : aw_gk C) (attrs : list string) (t : nat -> F C) 
    (i : nat) (pk : aw_pk C) (msk : aw_msk C) (j : nat),
  aw_authgen gk attrs t i = Ok (Some (pk, msk), j) ->
  j = i + 2 * Datatypes.length attrs /\
  Datatypes.length (apk_attr pk) = Datatypes.length attrs /\
  Datatypes.length (amsk_attr msk) = Datatypes.length attrs /\
  (forall (k : nat) (a : string),
   nth_error attrs k = Some a ->
   nth_error (amsk_attr msk) k = Some (upper C a, t (i + 2 * k), t (i + 2 * k + 1)) /\
   nth_error (apk_attr pk) k =
   Some
     (upper C a, gtpow C (pairing C (agk_g1 gk) (agk_g2 gk)) (t (i + 2 * k)),
      g2mul C (agk_g2 gk) (t (i + 2 * k + 1)))).
Proof. exact @aw_authgen_eq. Qed.
Print Assumptions C84_aw_authgen.

(** C84, AW11. *)
Theorem C84_aw_keygen :
  forall (C : crypto) (gk : aw_gk C) (msk : aw_msk C) (gid : string) 
    (attrs : list string) (sk : aw_sk C),
  aw_keygen gk msk gid attrs = Ok sk ->
  attrs <> [] /\
  gid <> "" /\
  awsk_gid sk = gid /\
  (exists h : F C,
     hash C gid = Some h /\
     Forall2
       (fun (a : string) (e : string * G1 C) =>
        exists alpha y : F C,
          In (a, alpha, y) (amsk_attr msk) /\
          a <> "" /\
          e =
          (upper C a,
           g1add C (g1mul C (agk_g1 gk) alpha) (g1mul C (g1mul C (agk_g1 gk) h) y))) attrs
       (awsk_attr sk)).
Proof. exact @aw_keygen_eq. Qed.
Print Assumptions C84_aw_keygen.

(** C84, AW11. *)
Theorem C84_aw_encrypt :
  forall C : crypto,
  laws C ->
  forall (nonce : string) (gk : aw_gk C) (pks : list (aw_pk C)) 
    (pol : string) (lang : language) (data : string) (t : nat -> F C) 
    (i : nat) (ct : aw_ct C) (j : nat) (f : formula),
  parse pol lang = Ok (tree f) ->
  aw_encrypt nonce gk pks pol lang data t i = Ok (ct, j) ->
  exists
    (sh : list (string * F C)) (i' : nat) (wsh : list (string * F C)) 
  (i'' : nat) (m : GT C) (es : list (list (string * GT C * G2 C * G2 C))),
    m = gtpow C (pairing C (g1one C) (g2one C)) (t i'') /\
    dealt t f (t i) (i + 1) sh i' /\
    dealt t f 0%F i' wsh i'' /\
    j = i'' + 1 + Datatypes.length sh /\
    awct_policy ct = (pol, lang) /\
    awct_c0 ct = gtmul C m (gtpow C (pairing C (agk_g1 gk) (agk_g2 gk)) (t i)) /\
    encrypt_symmetric nonce m data = Ok (awct_data ct) /\
    awct_c ct = concat es /\
    Datatypes.length es = Datatypes.length sh /\
    (forall (k : nat) (n : string) (x : F C),
     nth_error sh k = Some (n, x) ->
     find_pk_attr pks (remove_index (upper C n)) = None /\ nth_error es k = Some [] \/
     (exists (a : string) (e : GT C) (y : G2 C) (w : F C),
        find_pk_attr pks (remove_index (upper C n)) = Some (a, e, y) /\
        nth_error wsh k = Some (n, w) /\
        nth_error es k =
        Some
          [(upper C n,
            gtmul C (gtpow C (pairing C (agk_g1 gk) (agk_g2 gk)) x)
              (gtpow C e (t (i'' + 1 + k))), g2mul C (agk_g2 gk) (t (i'' + 1 + k)),
            g2add C (g2mul C y (t (i'' + 1 + k))) (g2mul C (agk_g2 gk) w))])).
Proof. exact @aw_encrypt_eq. Qed.
Print Assumptions C84_aw_encrypt.

Local Open Scope rand_scope.
Example C84_example_aw : exists (gk : aw_gk ZC) pk1 msk1 pk2 msk2 sk ct ts i1 i2 i3 i4,
  aw_setup ts 0 = Ok (gk, i1) /\
  aw_authgen gk ["A"; "D"] ts i1 = Ok (Some (pk1, msk1), i2) /\
  aw_authgen gk ["B"; "C"] ts i2 = Ok (Some (pk2, msk2), i3) /\
  aw_keygen gk msk1 "bob" ["A"; "D"] = Ok sk /\
  aw_encrypt nc gk [pk1; pk2] P HumanPolicy "hello" ts i3 = Ok (ct, i4).
Proof.
  by_run (gk <- aw_setup (C := ZC) ;;
    a1 <- aw_authgen gk ["A"; "D"] ;; ' (pk1, msk1) <- rlift (unwrap a1) ;;
    a2 <- aw_authgen gk ["B"; "C"] ;; ' (pk2, msk2) <- rlift (unwrap a2) ;;
    sk <- rlift (aw_keygen gk msk1 "bob" ["A"; "D"]) ;;
    ct <- aw_encrypt nc gk [pk1; pk2] P HumanPolicy "hello" ;;
    rret tt) tt.
Qed.
Local Close Scope rand_scope.

(** C84, BDABE. *)
Theorem C84_bd_setup :
  forall (C : crypto) (t : nat -> F C) (i : nat) (pk : bd_pk C) (msk : bd_msk C) (j : nat),
  bd_setup t i = Ok (pk, msk, j) <->
  j = i + 5 /\
  bmsk_y msk = t (i + 4) /\
  Bdabe.bpk_g1 pk = g1mul C (g1one C) (t i) /\
  Bdabe.bpk_g2 pk = g2mul C (g2one C) (t (i + 1)) /\
  bpk_p1 pk = g1mul C (g1one C) (t (i + 2)) /\
  bpk_p2 pk = g2mul C (g2one C) (t (i + 3)) /\
  Bdabe.bpk_egg pk = gtpow C (pairing C (Bdabe.bpk_g1 pk) (Bdabe.bpk_g2 pk)) (bmsk_y msk).
Proof. exact @bd_setup_eq. Qed.
Print Assumptions C84_bd_setup.

(** C84, BDABE. *)
Theorem C84_bd_authgen :
  forall (C : crypto) (pk : bd_pk C) (msk : bd_msk C) (name : string) 
    (t : nat -> F C) (i : nat) (au : bd_auth C) (j : nat),
  bd_authgen pk msk name t i = Ok (au, j) <->
  j = i + 2 /\
  bau_name au = name /\
  bau_a1 au = g1mul C (Bdabe.bpk_g1 pk) (t i) /\
  bau_a2 au = g2mul C (Bdabe.bpk_g2 pk) (bmsk_y msk - t i)%F /\ bau_a3 au = t (i + 1).
Proof. exact @bd_authgen_eq. Qed.
Print Assumptions C84_bd_authgen.

(** C84, BDABE. *)
Theorem C84_bd_keygen :
  forall (C : crypto) (pk : bd_pk C) (au : bd_auth C) (name : string) 
    (t : nat -> F C) (i : nat) (uk : bd_uk C) (j : nat),
  bd_keygen pk au name t i = Ok (uk, j) <->
  j = i + 1 /\
  buk_ska uk = [] /\
  bupk_u (buk_pk uk) = name /\
  busk_u1 (buk_sk uk) = g1add C (bau_a1 au) (g1mul C (bpk_p1 pk) (t i)) /\
  busk_u2 (buk_sk uk) = g2add C (bau_a2 au) (g2mul C (bpk_p2 pk) (t i)) /\
  bupk_u1 (buk_pk uk) = g1mul C (Bdabe.bpk_g1 pk) (t i) /\
  bupk_u2 (buk_pk uk) = g2mul C (Bdabe.bpk_g2 pk) (t i).
Proof. exact @bd_keygen_eq. Qed.
Print Assumptions C84_bd_keygen.

(** C84, BDABE. *)
Theorem C84_bd_encrypt :
  forall (C : crypto) (nonce : string) (pk : bd_pk C) (apks : list (bd_apk C))
    (pol : string) (lang : language) (data : string) (t : nat -> F C) 
    (i : nat) (ct : bd_ct C) (j : nat),
  bd_encrypt nonce pk apks pol lang data t i = Ok (ct, j) ->
  exists (v : pvalue) (terms : list (term C)) (m : GT C),
    parse pol lang = Ok v /\
    policy_in_dnf v false None = true /\
    json_to_dnf v (map bd_pak apks) = Ok terms /\
    m = pairing C (g1mul C (g1one C) (t i)) (g2mul C (g2one C) (t (i + 1))) /\
    j = i + 2 + Datatypes.length terms /\
    Bdabe.bct_policy ct = (pol, lang) /\
    encrypt_symmetric nonce m data = Ok (Bdabe.bct_data ct) /\
    Datatypes.length (bct_j ct) = Datatypes.length terms /\
    (forall (k : nat) (tm : term C),
     nth_error terms k = Some tm ->
     nth_error (bct_j ct) k =
     Some
       {|
         bt_attr := tm_attrs tm;
         bt_e1 := gtmul C (gtpow C (tm_gt1 tm) (t (i + 2 + k))) m;
         bt_e2 := g1mul C (bpk_p1 pk) (t (i + 2 + k));
         bt_e3 := g2mul C (bpk_p2 pk) (t (i + 2 + k));
         bt_e4 := g1mul C (tm_g1 tm) (t (i + 2 + k));
         bt_e5 := g2mul C (tm_g2 tm) (t (i + 2 + k))
       |}).
Proof. exact @bd_encrypt_eq. Qed.
Print Assumptions C84_bd_encrypt.

Example C84_example_bd : exists (pk : bd_pk ZC) msk au uk apks ct ts i1 i2 i3 i4,
  bd_setup ts 0 = Ok (pk, msk, i1) /\
  bd_authgen pk msk "x" ts i1 = Ok (au, i2) /\
  bd_keygen pk au "bob" ts i2 = Ok (uk, i3) /\
  omap (bd_request_pk pk au) ["x::A"; "x::B"; "x::C"] = Ok apks /\
  bd_encrypt nc pk apks PX HumanPolicy "hello" ts i3 = Ok (ct, i4).
Proof.
  by_run (bd_session (C := ZC) nc "x" "bob" ["x::A"; "x::B"; "x::C"] ["x::B"; "x::C"] PX HumanPolicy "hello")
    (Ok "hello").
Qed.

(** C84, MKE08. *)
Theorem C84_mk_setup :
  forall (C : crypto) (t : nat -> F C) (i : nat) (pk : mk_pk C) (msk : mk_msk C) (j : nat),
  mk_setup t i = Ok (pk, msk, j) <->
  j = i + 6 /\
  mpk_g1 pk = g1mul C (g1one C) (t i) /\
  mpk_g2 pk = g2mul C (g2one C) (t (i + 1)) /\
  mpk_p1 pk = g1mul C (g1one C) (t (i + 2)) /\
  mpk_p2 pk = g2mul C (g2one C) (t (i + 3)) /\
  mpk_egg1 pk = gtpow C (pairing C (mpk_g1 pk) (mpk_g2 pk)) (t (i + 4)) /\
  mpk_egg2 pk = gtpow C (pairing C (mpk_g1 pk) (mpk_g2 pk)) (t (i + 5)) /\
  mmsk_g1 msk = g1mul C (mpk_g1 pk) (t (i + 4)) /\
  mmsk_g2 msk = g2mul C (mpk_g2 pk) (t (i + 5)).
Proof. exact @mk_setup_eq. Qed.
Print Assumptions C84_mk_setup.

(** C84, MKE08. *)
Theorem C84_mk_authgen :
  forall (C : crypto) (name : string) (t : nat -> F C) (i : nat) 
    (au : mk_auth C) (j : nat),
  mk_authgen name t i = Ok (au, j) <-> j = i + 1 /\ mau_name au = name /\ mau_r au = t i.
Proof. exact @mk_authgen_eq. Qed.
Print Assumptions C84_mk_authgen.

(** C84, MKE08. *)
Theorem C84_mk_keygen :
  forall (C : crypto) (pk : mk_pk C) (msk : mk_msk C) (name : string) 
    (t : nat -> F C) (i : nat) (uk : mk_uk C) (j : nat),
  mk_keygen pk msk name t i = Ok (uk, j) <->
  j = i + 1 /\
  muk_ska uk = [] /\
  mupk_name (muk_pk uk) = name /\
  musk_g1 (muk_sk uk) = g1add C (mmsk_g1 msk) (g1mul C (mpk_p1 pk) (t i)) /\
  musk_g2 (muk_sk uk) = g2add C (mmsk_g2 msk) (g2mul C (mpk_p2 pk) (t i)) /\
  mupk_g1 (muk_pk uk) = g1mul C (mpk_g1 pk) (t i) /\
  mupk_g2 (muk_pk uk) = g2mul C (mpk_g2 pk) (t i).
Proof. exact @mk_keygen_eq. Qed.
Print Assumptions C84_mk_keygen.

(** C84, MKE08. *)
Theorem C84_mk_encrypt :
  forall (C : crypto) (nonce : string) (pk : mk_pk C) (apks : list (mk_apk C))
    (pol : string) (lang : language) (data : string) (t : nat -> F C) 
    (i : nat) (ct : mk_ct C) (j : nat),
  mk_encrypt nonce pk apks pol lang data t i = Ok (ct, j) ->
  exists (v : pvalue) (terms : list (term C)) (m1 m2 : GT C),
    parse pol lang = Ok v /\
    policy_in_dnf v false None = true /\
    json_to_dnf v (map mk_pak apks) = Ok terms /\
    m1 = pairing C (g1mul C (g1one C) (t i)) (g2mul C (g2one C) (t (i + 1))) /\
    m2 = gtpow C m1 (t (i + 2)) /\
    j = i + 3 + Datatypes.length terms /\
    mct_policy ct = (pol, lang) /\
    encrypt_symmetric nonce (gtmul C m1 m2) data = Ok (mct_data ct) /\
    Datatypes.length (mct_e ct) = Datatypes.length terms /\
    (forall (k : nat) (tm : term C),
     nth_error terms k = Some tm ->
     nth_error (mct_e ct) k =
     Some
       {|
         mj_str := tm_attrs tm;
         mj_1 := gtmul C (gtpow C (tm_gt1 tm) (t (i + 3 + k))) m1;
         mj_2 := gtmul C (gtpow C (tm_gt2 tm) (t (i + 3 + k))) m2;
         mj_3 := g1mul C (mpk_p1 pk) (t (i + 3 + k));
         mj_4 := g2mul C (mpk_p2 pk) (t (i + 3 + k));
         mj_5 := g1mul C (tm_g1 tm) (t (i + 3 + k));
         mj_6 := g2mul C (tm_g2 tm) (t (i + 3 + k))
       |}).
Proof. exact @mk_encrypt_eq. Qed.
Print Assumptions C84_mk_encrypt.

Example C84_example_mk : exists (pk : mk_pk ZC) msk au uk apks ct ts i1 i2 i3 i4,
  mk_setup ts 0 = Ok (pk, msk, i1) /\
  mk_keygen pk msk "bob" ts i1 = Ok (uk, i2) /\
  mk_authgen "x" ts i2 = Ok (au, i3) /\
  omap (fun a => mk_request_pk pk a au) ["x::A"; "x::B"; "x::C"] = Ok apks /\
  mk_encrypt nc pk apks PX HumanPolicy "hello" ts i3 = Ok (ct, i4).
Proof.
  by_run (mk_session (C := ZC) nc "x" "bob" ["x::A"; "x::B"; "x::C"] ["x::B"; "x::C"] PX HumanPolicy "hello")
    (Ok "hello").
Qed.

(** C85 is false: anyone can change a ciphertext, with the public key alone. *)
Theorem C85_rerandomise_runs :
  forall C : crypto,
  laws C ->
  forall (nonce : string) (pk : bsw_pk C) (pol : string) (lang : language) 
    (data : string) (t : nat -> F C) (i : nat) (ct : bsw_ct C) 
    (j : nat) (tr : nat -> F C) (ir : nat) (f : formula),
  parse pol lang = Ok (tree f) ->
  bsw_encrypt nonce pk pol lang data t i = Ok (ct, j) ->
  exists (ct' : bsw_ct C) (jr : nat), bsw_rerand pk ct tr ir = Ok (ct', jr).
Proof. exact @bsw_rerand_runs. Qed.
Print Assumptions C85_rerandomise_runs.

(** C85. The result is what encryption returns for the same plaintext with other randomness, so every key opens it as before. *)
Theorem C85_rerandomise_honest :
  forall C : crypto,
  laws C ->
  forall (nonce : string) (pk : bsw_pk C) (pol : string) (lang : language) 
    (data : string) (t : nat -> F C) (i : nat) (ct : bsw_ct C) 
    (j : nat) (tr : nat -> F C) (ir : nat) (ct' : bsw_ct C) (jr : nat) 
    (f : formula),
  parse pol lang = Ok (tree f) ->
  bsw_encrypt nonce pk pol lang data t i = Ok (ct, j) ->
  bsw_rerand pk ct tr ir = Ok (ct', jr) ->
  bsw_encrypt nonce pk pol lang data (rerand_tape t tr i ir) i = Ok (ct', j).
Proof. exact @bsw_rerand_honest. Qed.
Print Assumptions C85_rerandomise_honest.

(** C85. It is a different ciphertext unless the value drawn is zero. *)
Theorem C85_rerandomise_differs :
  forall C : crypto,
  laws C ->
  forall (pk : bsw_pk C) (ct : bsw_ct C) (tr : nat -> F C) (ir : nat) 
    (ct' : bsw_ct C) (jr : nat),
  bsw_rerand pk ct tr ir = Ok (ct', jr) ->
  bpk_h pk <> g1zero C ->
  tr ir <> 0%F ->
  ct' <> ct /\ bct_policy ct' = bct_policy ct /\ bct_data ct' = bct_data ct.
Proof. exact @bsw_rerand_differs. Qed.
Print Assumptions C85_rerandomise_differs.

Theorem C85_ciphertext_fixed_refuted : exists (pk : bsw_pk ZC) msk sk ct ct' ts i1 i2 i3 i4 i5,
  bsw_setup ts 0 = Ok (pk, msk, i1) /\
  bsw_keygen pk msk ["A"; "C"] ts i1 = Ok (Some sk, i2) /\
  bsw_encrypt nc pk P HumanPolicy "hello" ts i3 = Ok (ct, i4) /\
  bsw_rerand pk ct ts i4 = Ok (ct', i5) /\ ct' <> ct /\ bsw_decrypt sk ct' = Ok "hello".
Proof.
  set (ts := fun _ : nat => zmk 3 : F ZC).
  assert (Nz : forall a : zp, zval a <> 0%Z -> a <> f0 ZC).
  { intros a Ha X. apply Ha. apply (f_equal zval) in X. exact X. }
  destruct (bsw_setup_runs ZL ts 0) as (pk & msk & Hs); [apply Nz; vm_compute; discriminate|].
  pose proof (proj1 (bsw_setup_eq ZL _ _ _ _ _) Hs) as E. cbv zeta in E.
  destruct (bsw_keygen_runs ZL pk msk ["A"; "C"] ts 4) as (sk & i2 & Hk).
  { discriminate. }
  { decompose [and] E. repeat match goal with H : bmsk_beta msk = _ |- _ => rewrite H end. apply Nz. vm_compute. discriminate. }
  { intros a _. apply Zhash. }
  destruct (bsw_encrypt_runs ZL nc pk P HumanPolicy "hello" fP ts 0) as (ct & i4 & He).
  { vm_compute. reflexivity. } { exact Zhash. }
  destruct (bsw_rerand_runs ZL nc pk P HumanPolicy "hello" ts 0 ct i4 ts i4 fP) as (ct' & i5 & Hr); [vm_compute; reflexivity|exact He|].
  exists pk, msk, sk, ct, ct', ts, 4, i2, 0, i4, i5.
  split; [exact Hs|]. split; [exact Hk|]. split; [exact He|]. split; [exact Hr|]. split.
  - apply (bsw_rerand_differs ZL _ _ _ _ _ _ Hr); [|apply Nz; vm_compute; discriminate].
    decompose [and] E. repeat match goal with H : bpk_h pk = _ |- _ => rewrite H; clear H end.
    repeat match goal with H : bpk_g1 pk = _ |- _ => rewrite H; clear H end.
    repeat match goal with H : bmsk_beta msk = _ |- _ => rewrite H; clear H end. apply Nz. vm_compute. discriminate.
  - pose proof (bsw_rerand_honest ZL nc pk P HumanPolicy "hello" ts 0 ct i4 ts i4 ct' i5 fP eq_refl He Hr) as He'.
    apply (bsw_correct ZL nc pk msk ["A"; "C"] sk P HumanPolicy "hello" ct' fP ts 0 4 ts 4 i2 _ 0 i4 Hs Hk He'); ground.
Qed.
Print Assumptions C85_ciphertext_fixed_refuted.

(** C63: otherwise the texts are different. *)
Theorem C63_labels_inj :
  forall (x y : string) (l l' t t' : nat),
  l < 3 ->
  l' < 3 -> t < 2 -> t' < 2 -> lab x l t = lab y l' t' -> x = y /\ l = l' /\ t = t'.
Proof. exact @labels_inj. Qed.
Print Assumptions C63_labels_inj.

(** C63 holds for all names but those of a zero and a number. *)
Theorem C63_labels_columns_partial :
  forall (x : string) (l l' t t' c : nat),
  l < 3 ->
  l' < 3 ->
  t < 2 ->
  t' < 2 -> lab x l t = lab (col c) l' t' <-> x = String "0" (dec c) /\ l = l' /\ t = t'.
Proof. exact @labels_columns. Qed.
Print Assumptions C63_labels_columns_partial.

Example C63_example_labels : lab "01" 2 1 = lab (col 1) 2 1 /\ lab "1" 2 1 <> lab (col 1) 2 1 /\ lab "A" 0 1 <> lab "A" 1 0.
Proof. split; [reflexivity|]. split; vm_compute; discriminate. Qed.

