(** * Ac17: /repo/src/schemes/ac17/mod.rs *)
From Coq Require Import String List Bool Arith ZArith.
From Verif Require Import Base Crypto Policy Tools Sharing Parse Symmetric Msp.
Import ListNotations.

(** Vector indexing [v[i]]; out of range is a panic; as at ac17/mod.rs:175. *)
Definition idx {A} (l : list A) (i : nat) : outcome A := unwrap (nth_error l i).

Section Ac17.
Context {C : crypto}.
Local Open Scope rand_scope.

(** [Ac17PublicKey]; ac17/mod.rs:62-66. *)
Record ac_pk := AcPk { apk_g : G1 C; apk_ha : list (G2 C); apk_egh : list (GT C) }.

(** [Ac17MasterKey]; ac17/mod.rs:72-78. *)
Record ac_msk := AcMsk {
  amsk_g : G1 C; amsk_h : G2 C; amsk_gk : list (G1 C); amsk_a : list (F C); amsk_b : list (F C) }.

(** [Ac17Ciphertext]; ac17/mod.rs:84-89. *)
Record ac_ct := AcCt {
  act_c0 : list (G2 C); act_c : list (string * list (G1 C)); act_cp : GT C; act_ct : string }.

(** [Ac17CpCiphertext]; ac17/mod.rs:95-98. *)
Record ac_cpct := AcCpCt { acp_policy : string * language; acp_ct : ac_ct }.

(** [Ac17KpCiphertext]; ac17/mod.rs:104-107. *)
Record ac_kpct := AcKpCt { akp_attr : list string; akp_ct : ac_ct }.

(** [Ac17SecretKey]; ac17/mod.rs:113-117. *)
Record ac_sk := AcSk {
  ask_k0 : list (G2 C); ask_k : list (string * list (G1 C)); ask_kp : list (G1 C) }.

(** [Ac17KpSecretKey]; ac17/mod.rs:123-126. *)
Record ac_kpsk := AcKpSk { akps_policy : string * language; akps_sk : ac_sk }.

(** [Ac17CpSecretKey]; ac17/mod.rs:132-135. *)
Record ac_cpsk := AcCpSk { acps_attr : list string; acps_sk : ac_sk }.

(** [ASSUMPTION_SIZE]; ac17/mod.rs:138. *)
Definition asz : nat := 2.
(** [0usize..ASSUMPTION_SIZE] and [0usize..(ASSUMPTION_SIZE + 1)]; ac17/mod.rs:152 and 158. *)
Definition ts : list nat := seq 0 asz.
Definition ls : list nat := seq 0 (asz + 1).

(** The hash input built at ac17/mod.rs:231-234, 251-254, 335-338, 487-490,
    506-509, 585-588 from a label, [_l] and [_t]. *)
Definition lab (x : string) (l t : nat) : string := (x ++ dec l ++ dec t)%string.
(** The label of a matrix column; ac17/mod.rs:308-310 and 502-504. *)
Definition col (j : nat) : string := ("0" ++ dec j)%string.

(** [setup]; ac17/mod.rs:141-182. *)
Definition ac_setup : rand (F C) (ac_pk * ac_msk) :=
  g <- draw_g1 ;;
  h <- draw_g2 ;;
  let e_gh := pairing C g h in
  ab <- rmap (fun _ : nat => x <- draw ;; y <- draw ;; rret (x, y)) ts ;;
  let a := map fst ab in
  let b := map snd ab in
  k <- rmap (fun _ : nat => draw) ls ;;
  h_a <- rlift (omap (fun i => obind (idx a i) (fun x => Ok (g2mul C h x))) ts) ;;
  g_k <- rlift (omap (fun i => obind (idx k i) (fun x => Ok (g1mul C g x))) ls) ;;
  e_gh_ka <- rlift (omap (fun i =>
     obind (idx k i) (fun ki => obind (idx a i) (fun ai => obind (idx k asz) (fun k2 =>
     Ok (gtpow C e_gh (fadd C (fmul C ki ai) k2)))))) ts) ;;
  rret (AcPk g (h_a ++ [h]) e_gh_ka, AcMsk g h g_k a b).

(** The loop over [_l] at ac17/mod.rs:230-236, 250-256, 486-492 and 505-511:
    adds the hashes of [label], [_l], [t], weighted by [br[_l] * a_t]. *)
Definition hash_prod (g : G1 C) (label : string) (br : list (F C)) (a_t : F C) (t : nat)
  (acc : G1 C) : outcome (G1 C) :=
  ofold (fun prod l =>
    obind (unwrap_res (sha3_hash_g1 g (lab label l t))) (fun h =>
    obind (idx br l) (fun b =>
    Ok (g1add C prod (g1mul C h (fmul C b a_t)))))) ls acc.

(** Random [r] and [Br]; ac17/mod.rs:203-215 and 453-465. *)
Definition draw_br (msk : ac_msk) : rand (F C) (list (F C)) :=
  r <- rmap (fun _ : nat => draw) ts ;;
  let sum := fold_left (fadd C) r (f0 C) in
  br <- rlift (omap (fun i => obind (idx (amsk_b msk) i) (fun b =>
                              obind (idx r i) (fun x => Ok (fmul C b x)))) ts) ;;
  rret (br ++ [sum]).

(** [k_0]; ac17/mod.rs:217-220 and 467-470. *)
Definition ac_k0 (msk : ac_msk) (br : list (F C)) : outcome (list (G2 C)) :=
  omap (fun i => obind (idx br i) (fun b => Ok (g2mul C (amsk_h msk) b))) ls.

(** [cp_keygen]; ac17/mod.rs:191-264. *)
Definition cp_keygen (msk : ac_msk) (attributes : list string) : rand (F C) ac_cpsk :=
  match attributes with
  | [] => rerr
  | _ =>
    br <- draw_br msk ;;
    k_0 <- rlift (ac_k0 msk br) ;;
    k <- rmap (fun attr =>
      sigma_attr <- draw ;;
      key <- rlift (omap (fun t =>
        obind (idx (amsk_a msk) t) (fun a => obind (unwrap (finv_opt a)) (fun a_t =>
        obind (hash_prod (amsk_g msk) attr br a_t t (g1zero C)) (fun prod =>
        Ok (g1add C prod (g1mul C (amsk_g msk) (fmul C sigma_attr a_t))))))) ts) ;;
      rret (attr, key ++ [g1mul C (amsk_g msk) (fopp C sigma_attr)])) attributes ;;
    sigma <- draw ;;
    k_p <- rlift (omap (fun t =>
      obind (idx (amsk_gk msk) t) (fun gk =>
      obind (idx (amsk_a msk) t) (fun a => obind (unwrap (finv_opt a)) (fun a_t =>
      obind (hash_prod (amsk_g msk) "01" br a_t t gk) (fun prod =>
      Ok (g1add C prod (g1mul C (amsk_g msk) (fmul C sigma a_t)))))))) ts) ;;
    gk2 <- rlift (idx (amsk_gk msk) asz) ;;
    rret (AcCpSk attributes
            (AcSk k_0 k (k_p ++ [g1add C gk2 (g1mul C (amsk_g msk) (fopp C sigma))])))
  end.

(** Random [s] and [c_0]; ac17/mod.rs:289-302 and 564-577. *)
Definition draw_s (pk : ac_pk) : rand (F C) (list (F C) * list (G2 C)) :=
  s <- rmap (fun _ : nat => draw) ts ;;
  let sum := fold_left (fadd C) s (f0 C) in
  c_0 <- rlift (omap (fun i => obind (idx (apk_ha pk) i) (fun h =>
                               obind (idx s i) (fun x => Ok (g2mul C h x)))) ts) ;;
  h2 <- rlift (idx (apk_ha pk) asz) ;;
  rret (s, c_0 ++ [g2mul C h2 sum]).

(** [c_p] before the message is multiplied in; ac17/mod.rs:357-360 and 600-603. *)
Definition ac_cp (pk : ac_pk) (s : list (F C)) : outcome (GT C) :=
  ofold (fun c i => obind (idx (apk_egh pk) i) (fun e =>
                    obind (idx s i) (fun x => Ok (gtmul C c (gtpow C e x))))) ts (gtone C).

(** Adding or subtracting a term according to a matrix entry, as at
    ac17/mod.rs:342-346, 494-498, 513-517, 523-527 and 530-534. *)
Definition entry_add (z : Z) (acc x : G1 C) : G1 C :=
  if (z =? 1)%Z then g1add C acc x
  else if (z =? -1)%Z then g1add C acc (g1neg C x)
  else acc.

(** The same with a component of the master key, which is read only if the
    entry is not 0; ac17/mod.rs:494-498 and 523-527. *)
Definition entry_at (z : Z) (acc : G1 C) (l : list (G1 C)) (i : nat) : outcome (G1 C) :=
  if (z =? 1)%Z then obind (idx l i) (fun x => Ok (g1add C acc x))
  else if (z =? -1)%Z then obind (idx l i) (fun x => Ok (g1add C acc (g1neg C x)))
  else Ok acc.

(** The hash table; ac17/mod.rs:305-328. *)
Definition hash_table (g : G1 C) (num_cols : nat) : outcome (list (list (list (G1 C)))) :=
  omap (fun j => omap (fun l => omap (fun t =>
    sha3_hash_g1 g (lab (col (j + 1)) l t)) ts) ls) (seq 0 num_cols).

(** One entry of a ciphertext row; ac17/mod.rs:333-353. *)
Definition cp_entry (g : G1 C) (table : list (list (list (G1 C)))) (num_cols : nat)
  (name : string) (row : list Z) (s : list (F C)) (l : nat) : outcome (G1 C) :=
  ofold (fun prod t =>
    obind (sha3_hash_g1 g (lab name l t)) (fun hash0 =>
    obind (ofold (fun hash j =>
             obind (idx row j) (fun z =>
             obind (idx table j) (fun x => obind (idx x l) (fun y => obind (idx y t) (fun e =>
             Ok (entry_add z hash e)))))) (seq 0 num_cols) hash0) (fun hash =>
    obind (idx s t) (fun st => Ok (g1add C prod (g1mul C hash st)))))) ts (g1zero C).

(** [cp_encrypt]; ac17/mod.rs:274-376. *)
Definition cp_encrypt (nonce : string) (pk : ac_pk) (policy : string) (plaintext : string)
  (lang : language) : rand (F C) ac_cpct :=
  v <- rlift (parse policy lang) ;;
  msp <- rlift (unwrap_res (calculate_msp v)) ;;
  row0 <- rlift (idx (msp_m msp) 0) ;;
  let num_cols := length row0 in
  ' (s, c_0) <- draw_s pk ;;
  table <- rlift (hash_table (apk_g pk) num_cols) ;;
  c <- rlift (omap (fun i =>
         obind (idx (msp_pi msp) i) (fun name => obind (idx (msp_m msp) i) (fun row =>
         obind (omap (cp_entry (apk_g pk) table num_cols name row s) ls) (fun ct =>
         Ok (name, ct))))) (seq 0 (length (msp_m msp)))) ;;
  c_p <- rlift (ac_cp pk s) ;;
  msg <- draw_gt ;;
  ct <- rlift (encrypt_symmetric nonce msg plaintext) ;;
  rret (AcCpCt (policy, lang) (AcCt c_0 c (gtmul C c_p msg) ct)).

(** The inner loops at ac17/mod.rs:403-414 and 644-655, for component [i] of
    either list: for every selected leaf, every entry with its name is added. *)
Definition select_sum (entries : list (string * list (G1 C))) (i : nat)
  (sel : list (string * string)) : outcome (G1 C) :=
  ofold (fun acc cur =>
    ofold (fun acc e => if seqb (fst e) (fst cur)
                        then obind (idx (snd e) i) (fun x => Ok (g1add C acc x))
                        else Ok acc) entries acc) sel (g1zero C).

(** The loop at ac17/mod.rs:400-417 and 641-662; [kp] is absent in the
    key-policy variant.  The state is [(prod1, prod2)]. *)
Definition ac_products (sk : ac_sk) (ct : ac_ct) (kp : bool) (sel : list (string * string))
  : outcome (GT C * GT C) :=
  ofold (fun st i =>
    obind (select_sum (act_c ct) i sel) (fun prod_g =>
    obind (select_sum (ask_k sk) i sel) (fun prod_h =>
    obind (if kp then Ok prod_h else obind (idx (ask_kp sk) i) (fun x => Ok (g1add C x prod_h))) (fun u =>
    obind (idx (act_c0 ct) i) (fun c0 =>
    obind (idx (ask_k0 sk) i) (fun k0 =>
    Ok (gtmul C (fst st) (pairing C u c0), gtmul C (snd st) (pairing C prod_g k0)))))))) ls
    (gtone C, gtone C).

(** The common part of [cp_decrypt] and [kp_decrypt]; ac17/mod.rs:389-430 and
    629-675. *)
Definition ac_open (attr : list string) (policy : string * language) (sk : ac_sk) (ct : ac_ct)
  (kp : bool) : outcome string :=
  obind (parse (fst policy) (snd policy)) (fun v =>
  if traverse_policy attr v Leaf then
    obind (calc_pruned attr v None) (fun pruned =>
    if fst pruned then
      obind (ac_products sk ct kp (snd pruned)) (fun ps =>
      let msg := gtmul C (act_cp ct) (gtmul C (snd ps) (gtinv C (fst ps))) in
      decrypt_symmetric msg (act_ct ct))
    else Err)
  else Err).

(** [cp_decrypt]; ac17/mod.rs:385-430. *)
Definition cp_decrypt (sk : ac_cpsk) (ct : ac_cpct) : outcome string :=
  ac_open (acps_attr sk) (acp_policy ct) (acps_sk sk) (acp_ct ct) false.

(** One key component of row [row]; ac17/mod.rs:484-519.  The state of the loop
    over [_j] is [(_prod, _temp)]; [_temp] is not reset between rounds. *)
Definition kp_entry (msk : ac_msk) (br sigma_prime : list (F C)) (sigma_attr : F C)
  (num_cols : nat) (name : string) (row : list Z) (t : nat) : outcome (G1 C) :=
  obind (idx (amsk_a msk) t) (fun a => obind (unwrap (finv_opt a)) (fun a_t =>
  obind (hash_prod (amsk_g msk) name br a_t t (g1zero C)) (fun prod0 =>
  let prod1 := g1add C prod0 (g1mul C (amsk_g msk) (fmul C sigma_attr a_t)) in
  obind (idx row 0) (fun z0 => obind (entry_at z0 prod1 (amsk_gk msk) t) (fun prod2 =>
  obind (ofold (fun st j =>
    obind (hash_prod (amsk_g msk) (col j) br a_t t (snd st)) (fun temp0 =>
    obind (idx sigma_prime (j - 1)) (fun sp =>
    let temp := g1add C temp0 (g1mul C (amsk_g msk) (fopp C sp)) in
    obind (idx row j) (fun z => Ok (entry_add z (fst st) temp, temp)))))
    (seq 1 (num_cols - 1)) (prod2, g1zero C)) (fun st => Ok (fst st))))))).

(** The last key component of a row; ac17/mod.rs:522-536. *)
Definition kp_last (msk : ac_msk) (sigma_prime : list (F C)) (sigma_attr : F C)
  (num_cols : nat) (row : list Z) : outcome (G1 C) :=
  obind (idx row 0) (fun z0 =>
  obind (entry_at z0 (g1mul C (amsk_g msk) (fopp C sigma_attr)) (amsk_gk msk) asz) (fun acc0 =>
  ofold (fun acc j =>
    obind (idx row j) (fun z => obind (idx sigma_prime (j - 1)) (fun sp =>
    Ok (entry_add z acc (g1mul C (amsk_g msk) (fopp C sp))))))
    (seq 1 (num_cols - 1)) acc0)).

(** [kp_keygen]; ac17/mod.rs:439-546. *)
Definition kp_keygen (msk : ac_msk) (policy : string) (lang : language) : rand (F C) ac_kpsk :=
  v <- rlift (parse policy lang) ;;
  msp <- rlift (unwrap_res (calculate_msp v)) ;;
  row0 <- rlift (idx (msp_m msp) 0) ;;
  let num_cols := length row0 in
  br <- draw_br msk ;;
  k_0 <- rlift (ac_k0 msk br) ;;
  sigma_prime <- draws (num_cols - 1) ;;
  k <- rmap (fun i =>
    name <- rlift (idx (msp_pi msp) i) ;;
    row <- rlift (idx (msp_m msp) i) ;;
    sigma_attr <- draw ;;
    key <- rlift (omap (kp_entry msk br sigma_prime sigma_attr num_cols name row) ts) ;;
    last <- rlift (kp_last msk sigma_prime sigma_attr num_cols row) ;;
    rret (name, key ++ [last])) (seq 0 (length (msp_m msp))) ;;
  rret (AcKpSk (policy, lang) (AcSk k_0 k [])).

(** One entry of a ciphertext component; ac17/mod.rs:583-596. *)
Definition kp_ct_entry (g : G1 C) (attr : string) (s : list (F C)) (l : nat) : outcome (G1 C) :=
  ofold (fun prod t =>
    obind (sha3_hash_g1 g (lab attr l t)) (fun hash =>
    obind (idx s t) (fun st => Ok (g1add C prod (g1mul C hash st))))) ts (g1zero C).

(** [kp_encrypt]; ac17/mod.rs:556-616. *)
Definition kp_encrypt (nonce : string) (pk : ac_pk) (attributes : list string) (data : string)
  : rand (F C) ac_kpct :=
  ' (s, c_0) <- draw_s pk ;;
  c <- rlift (omap (fun attr =>
         obind (omap (kp_ct_entry (apk_g pk) attr s) ls) (fun ct => Ok (attr, ct))) attributes) ;;
  c_p <- rlift (ac_cp pk s) ;;
  msg <- draw_gt ;;
  ct <- rlift (encrypt_symmetric nonce msg data) ;;
  rret (AcKpCt attributes (AcCt c_0 c (gtmul C c_p msg) ct)).

(** [kp_decrypt]; ac17/mod.rs:625-675. *)
Definition kp_decrypt (sk : ac_kpsk) (ct : ac_kpct) : outcome string :=
  ac_open (akp_attr ct) (akps_policy sk) (akps_sk sk) (akp_ct ct) true.

End Ac17.
Arguments ac_pk C : clear implicits.
Arguments ac_msk C : clear implicits.
Arguments ac_ct C : clear implicits.
Arguments ac_cpct C : clear implicits.
Arguments ac_kpct C : clear implicits.
Arguments ac_sk C : clear implicits.
Arguments ac_kpsk C : clear implicits.
Arguments ac_cpsk C : clear implicits.
