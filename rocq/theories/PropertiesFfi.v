(** * PropertiesFfi: the C interface of BSW (C123)

    /repo/src/ffi/bsw.rs returns buffers whose lengths it works out itself.  The
    length it takes for a plaintext is that of the ciphertext less 16, but the
    ciphertext also begins with a nonce of 12 bytes.  The proofs are in
    FfiProofs.v. *)
From Coq Require Import String Ascii List Bool Arith NArith ZArith Lia.
From Verif Require Import Base Crypto Policy Tools Sharing Spec PolicyProofs Poly SharingProofs
  Symmetric Parse SchemeLib Files Bsw BswProofs Instance Sessions SessionProofs Witnesses Primes BnInstance SizeProofs
  Gcm PrimitiveProofs RealInstance Ffi FfiProofs.
Import ListNotations.
Local Open Scope string_scope.
Local Open Scope nat_scope.

(** C123.  Every honest session over the interface, to the end.  The context,
    the key and the ciphertext come out as from the functions of BSW, and so
    does a refusal.  Where the key satisfies the policy, [rabe_bsw_decrypt]
    reads past the end of the plaintext, and with no plaintext it aborts. *)
Theorem C123_session :
  forall C : crypto, laws C -> @hash_total C -> aead_enc C = gcm_enc -> aead_dec C = gcm_dec ->
  forall (nonce : string) (attrs : list string) (pol data : string) (f : formula)
    (t : nat -> F C) (i : nat) (mk : string),
  live (C := C) t -> small_ok C (and_width f) ->
  arity2 f = true -> NoDup (leaves f) -> plain_names f = true ->
  parse pol JsonPolicy = Ok (tree f) -> String.length nonce = 12 ->
  lacks zero pol = true -> utf8 pol = true ->
  attrs <> [] -> Forall (fun a => lacks "," a = true) attrs ->
  lacks zero (comma_join attrs) = true -> utf8 (comma_join attrs) = true ->
  (N.of_nat (String.length data) + 28 < 4294967296)%N ->
  exists (ctx : ffi_ctx C) (i1 : nat) (sk : bsw_sk C) (i2 : nat) (ct : bsw_ct C) (i3 : nat),
    ffi_create t i = Ok (ctx, i1) /\
    ffi_keygen ctx (c_text (comma_join attrs) mk) t i1 = Ret (sk, i2) /\
    bsw_encrypt nonce (c_pk ctx) pol JsonPolicy data t i2 = Ok (ct, i3) /\
    (forall (J : jwire C) (checks : bool) (mp md mc : string), carries J ct ->
     exists (buf : string) (len : N),
       ffi_encrypt J nonce ctx (c_text pol mp) (data ++ md) (N.of_nat (String.length data)) t i2 =
         Ret (Wrote buf len) /\
       N.of_nat (String.length buf) = len /\
       ffi_decrypt checks J sk (buf ++ mc) len =
         if sat (owns attrs) f then if String.length data =? 0 then Abort else Beyond
         else Ret Failed).
Proof. intros C L. exact (@ffi_session C L). Qed.
Print Assumptions C123_session.

(** A session that meets all of this: two attributes, a JSON policy, five bytes. *)
Definition ffi_policy : string :=
  "{""name"": ""and"", ""children"": [{""name"": ""A""}, {""name"": ""B""}]}".

Example C123_example_session :
  let C := real (fun _ => "") toy_upper in
  let f := FAnd [FLeaf "A" 40; FLeaf "B" 55] in
  inhabited (laws C) /\ @hash_total C /\ aead_enc C = gcm_enc /\ aead_dec C = gcm_dec /\
  live (C := C) (fun _ => f1 C) /\ small_ok C (and_width f) /\
  arity2 f = true /\ NoDup (leaves f) /\ plain_names f = true /\
  parse ffi_policy JsonPolicy = Ok (tree f) /\ String.length nc = 12 /\
  lacks zero ffi_policy = true /\ utf8 ffi_policy = true /\
  comma_join ["A"; "B"] = "A,B" /\ lacks zero "A,B" = true /\ utf8 "A,B" = true /\
  sat (owns ["A"; "B"]) f = true /\
  (forall ct : bsw_ct C, carries (JWire (fun _ => "{}") (fun _ => Some ct)) ct).
Proof.
  intros C f. pose proof (real_laws bn_order bn_prime (fun _ => "") toy_upper toy_upper_laws) as L.
  split; [exact (inhabits L)|]. split; [exact (real_total bn_order bn_prime (fun _ => "") toy_upper)|].
  split; [reflexivity|]. split; [reflexivity|].
  split. { intros n. exact (Field_theory.F_1_neq_0 (f_theory L)). }
  assert (Pf : parse ffi_policy JsonPolicy = Ok (tree f)) by (vm_compute; reflexivity).
  split. { apply (wide_enough C bn_order ffi_policy JsonPolicy f);
    [exact (real_order bn_order bn_prime (fun _ => "") toy_upper) | vm_compute; discriminate | exact Pf]. }
  split; [reflexivity|]. split; [apply nodup_leaves; vm_compute; reflexivity|].
  split; [reflexivity|]. split; [exact Pf|].
  do 7 (split; [reflexivity|]).
  intros ct. repeat apply conj; reflexivity.
Qed.

(** The claim that a plaintext which was encrypted comes back: false. *)
Theorem C123_decrypt_refuted :
  exists (C : crypto) (ctx : ffi_ctx C) (t : nat -> F C) (J : jwire C) (sk : bsw_sk C) (buf : string)
    (len : N) (i1 i2 : nat),
    ffi_create t 0 = Ok (ctx, i1) /\
    ffi_keygen ctx (c_text "A,B" "") t i1 = Ret (sk, i2) /\
    ffi_encrypt J nc ctx (c_text ffi_policy "") "hello" 5 t i2 = Ret (Wrote buf len) /\
    N.of_nat (String.length buf) = len /\
    forall checks : bool, ffi_decrypt checks J sk buf len = Beyond.
Proof.
  destruct C123_example_session
    as ([L] & Tot & Enc & Dec & Lv & Sm & A2 & Nd & Pn & Pf & Ln & Pz & Pu & _ & Az & Au & Sa & Hc).
  set (C := real (fun _ => "") toy_upper) in *.
  destruct (C123_session C L Tot Enc Dec nc ["A"; "B"] ffi_policy "hello" _ (fun _ => f1 C) 0 ""
              Lv Sm A2 Nd Pn Pf Ln Pz Pu ltac:(discriminate) ltac:(repeat constructor) Az Au eq_refl)
    as (ctx & i1 & sk & i2 & ct & i3 & E1 & E2 & E3 & E4).
  set (J := JWire (fun _ : bsw_ct C => "{}") (fun _ => Some ct)).
  destruct (E4 J true "" "" "" (Hc ct)) as (buf & len & B1 & B2 & _).
  exists C, ctx, (fun _ => f1 C), J, sk, buf, len, i1, i2.
  split; [exact E1|]. split; [exact E2|]. split; [exact B1|]. split; [exact B2|].
  intros checks. destruct (E4 J checks "" "" "" (Hc ct)) as (buf' & len' & B1' & _ & B3).
  rewrite B1 in B1'. injection B1' as <- <-. rewrite append_nil in B3. rewrite Sa in B3. exact B3.
Qed.
Print Assumptions C123_decrypt_refuted.

(** No key, no memory and no length give any plaintext back. *)
Theorem C123_never :
  forall C : crypto, aead_enc C = gcm_enc -> aead_dec C = gcm_dec ->
  forall (checks : bool) (J : jwire C) (sk : bsw_sk C) (p : string) (n : N) (buf : string) (len : N),
  (forall (s : string) (ct : bsw_ct C), js_dec J s = Some ct ->
     (N.of_nat (String.length (bct_data ct)) < 4294967296)%N) ->
  ffi_decrypt checks J sk p n <> Ret (Wrote buf len).
Proof. intros C. exact (@ffi_never C). Qed.
Print Assumptions C123_never.

(** The size that [rabe_bsw_decrypt_get_size] gives is 12 too large. *)
Theorem C123_size :
  forall C : crypto, aead_enc C = gcm_enc -> aead_dec C = gcm_dec ->
  forall (checks : bool) (J : jwire C) (sk : bsw_sk C) (ct : bsw_ct C) (m pt : string),
  carries J ct -> bsw_decrypt sk ct = Ok pt -> (N.of_nat (String.length pt) + 28 < 4294967296)%N ->
  ffi_size checks ct = Ret (N.of_nat (String.length pt) + 12)%N /\
  ffi_decrypt checks J sk (c_text (js_enc J ct) m) (N.of_nat (String.length (js_enc J ct)) + 1) =
    if String.length pt =? 0 then Abort else Beyond.
Proof. intros C. exact (@ffi_overrun C). Qed.
Print Assumptions C123_size.

(** A ciphertext handed over with a wrong length aborts the caller. *)
Theorem C123_wrong_length :
  forall (C : crypto) (checks : bool) (J : jwire C) (sk : bsw_sk C) (s m : string) (n : N),
  lacks zero s = true -> utf8 s = true ->
  (n <> N.of_nat (String.length s) + 1)%N -> (N.of_nat (String.length s) + 1 < 4294967296)%N ->
  ffi_decrypt checks J sk (c_text s m) n = Abort.
Proof. intros C. exact (@ffi_wrong_length C). Qed.
Print Assumptions C123_wrong_length.

Example C123_example_wrong_length : lacks zero "{}" = true /\ utf8 "{}" = true /\
  (2 <> N.of_nat (String.length "{}") + 1)%N /\ (N.of_nat (String.length "{}") + 1 < 4294967296)%N.
Proof. repeat apply conj; try reflexivity. discriminate. Qed.

(** Names are read from one text: the list of comma-free names whose join it is. *)
Theorem C123_names :
  forall (s : string) (l : list string),
  comma_split s = l <-> l <> [] /\ Forall (fun a => lacks "," a = true) l /\ comma_join l = s.
Proof. exact comma_split_exact. Qed.
Print Assumptions C123_names.

Theorem C123_keygen :
  forall (C : crypto) (ctx : ffi_ctx C) (p : string) (t : nat -> F C) (i : nat) (sk : bsw_sk C) (j : nat),
  ffi_keygen ctx p t i = Ret (sk, j) ->
  exists (l : list string) (m : string),
    p = c_text (comma_join l) m /\ l <> [] /\ Forall (fun a => lacks "," a = true) l /\
    utf8 (comma_join l) = true /\ bsw_keygen (c_pk ctx) (c_msk ctx) l t i = Ok (Some sk, j).
Proof. intros C. exact (@ffi_keygen_inv C). Qed.
Print Assumptions C123_keygen.

(** So a name with a comma cannot be asked for: its parts are.  No names are
    one empty name, and a blank after a comma belongs to the name. *)
Theorem C123_comma_refuted :
  exists l : list string, l <> [] /\ comma_split (comma_join l) <> l.
Proof. exists ["a,b"]. split; discriminate. Qed.
Print Assumptions C123_comma_refuted.

Example C123_example_names :
  comma_split "A,B" = ["A"; "B"] /\ comma_split "a,b" = ["a"; "b"] /\ comma_split "" = [""] /\
  comma_split "A, B," = ["A"; " B"; ""].
Proof. repeat apply conj; reflexivity. Qed.

(** What [rabe_bsw_encrypt] writes: the JSON text of a ciphertext of the policy,
    read as JSON, a NUL, and the length of both. *)
Theorem C123_encrypt :
  forall (C : crypto) (J : jwire C) (nonce : string) (ctx : ffi_ctx C) (p pt : string) (n : N)
    (t : nat -> F C) (i : nat) (buf : string) (len : N),
  ffi_encrypt J nonce ctx p pt n t i = Ret (Wrote buf len) ->
  exists (pol m : string) (ct : bsw_ct C) (j : nat) (v : pvalue),
    p = c_text pol m /\ utf8 pol = true /\ parse pol JsonPolicy = Ok v /\
    (n <= N.of_nat (String.length pt))%N /\
    bsw_encrypt nonce (c_pk ctx) pol JsonPolicy (String.substring 0 (N.to_nat n) pt) t i = Ok (ct, j) /\
    buf = c_text (js_enc J ct) "" /\ N.of_nat (String.length buf) = len.
Proof. intros C. exact (@ffi_encrypt_inv C). Qed.
Print Assumptions C123_encrypt.

(** A policy that is not JSON gives -1, and one with a number aborts the caller. *)
Theorem C123_policy :
  forall (C : crypto) (J : jwire C) (nonce : string) (ctx : ffi_ctx C) (pol m pt : string) (n : N)
    (t : nat -> F C) (i : nat),
  lacks zero pol = true -> utf8 pol = true -> (n <= N.of_nat (String.length pt))%N ->
  (parse pol JsonPolicy = Err -> ffi_encrypt J nonce ctx (c_text pol m) pt n t i = Ret Failed) /\
  (parse pol JsonPolicy = Panic -> ffi_encrypt J nonce ctx (c_text pol m) pt n t i = Abort).
Proof. intros C. exact (@ffi_encrypt_policy C). Qed.
Print Assumptions C123_policy.

Example C123_example_policy :
  parse P JsonPolicy = Err /\ parse "{""name"": 1}" JsonPolicy = Panic /\
  lacks zero P = true /\ utf8 P = true /\ lacks zero "{""name"": 1}" = true /\ utf8 "{""name"": 1}" = true.
Proof. repeat apply conj; vm_compute; reflexivity. Qed.

(** Delegation of nothing, or of an attribute the key lacks, aborts the caller. *)
Theorem C123_delegate :
  forall (C : crypto) (ctx : ffi_ctx C) (sk : bsw_sk C) (subset : list string) (t : nat -> F C) (i : nat),
  subset = [] \/ ~ incl subset (map b_string (bsk_dj sk)) -> ffi_delegate ctx sk subset t i = Abort.
Proof. intros C. exact (@ffi_delegate_abort C). Qed.
Print Assumptions C123_delegate.

Example C123_example_delegate : ~ incl ["C"] ["A"; "B"].
Proof. intros H. destruct (H "C" (or_introl eq_refl)) as [E|[E|[]]]; discriminate. Qed.

(** Otherwise delegation and key generation return what the library does, and
    neither touches memory beyond the NUL. *)
Theorem C123_delegate_exact :
  forall (C : crypto) (ctx : ffi_ctx C) (sk k : bsw_sk C) (subset : list string) (t : nat -> F C) (i j : nat),
  (ffi_delegate ctx sk subset t i = Ret (k, j) <-> bsw_delegate (c_pk ctx) sk subset t i = Ok (Some k, j)) /\
  ffi_delegate ctx sk subset t i <> Beyond.
Proof. intros C. exact (@ffi_delegate_exact C). Qed.
Print Assumptions C123_delegate_exact.

Theorem C123_keygen_exact :
  forall (C : crypto) (ctx : ffi_ctx C) (p : string) (t : nat -> F C) (i : nat),
  ffi_keygen ctx p t i = Beyond <-> lacks zero p = true.
Proof. intros C. exact (@ffi_keygen_beyond C). Qed.
Print Assumptions C123_keygen_exact.

Example C123_example_keygen_exact : lacks zero "A,B" = true /\ lacks zero (c_text "A,B" "") = false.
Proof. split; reflexivity. Qed.

(** When [rabe_bsw_decrypt] gives -1: for a text that is not UTF-8, for one that
    is no ciphertext, and for a ciphertext that the key does not open. *)
Theorem C123_decrypt_fails :
  forall (C : crypto) (checks : bool) (J : jwire C) (sk : bsw_sk C) (s m : string) (n : N),
  lacks zero s = true -> (N.of_nat (String.length s) + 1 < 4294967296)%N -> (n < 4294967296)%N ->
  ffi_decrypt checks J sk (c_text s m) n = Ret Failed <->
  utf8 s = false \/
  n = (N.of_nat (String.length s) + 1)%N /\
  (js_dec J s = None \/ exists ct : bsw_ct C, js_dec J s = Some ct /\ bsw_decrypt sk ct = Err).
Proof. intros C. exact (@ffi_decrypt_fails C). Qed.
Print Assumptions C123_decrypt_fails.

Example C123_example_decrypt_fails :
  utf8 (String "255" "") = false /\ lacks zero (String "255" "") = true.
Proof. split; reflexivity. Qed.

(** When [rabe_bsw_encrypt] gives -1, and when it reads beyond the plaintext. *)
Theorem C123_encrypt_fails :
  forall (C : crypto) (J : jwire C) (nonce : string) (ctx : ffi_ctx C) (pol m pt : string) (n : N)
    (t : nat -> F C) (i : nat),
  lacks zero pol = true ->
  ffi_encrypt J nonce ctx (c_text pol m) pt n t i = Ret Failed <->
  utf8 pol = false \/
  (n <= N.of_nat (String.length pt))%N /\
  bsw_encrypt nonce (c_pk ctx) pol JsonPolicy (String.substring 0 (N.to_nat n) pt) t i = Err.
Proof. intros C. exact (@ffi_encrypt_fails C). Qed.
Print Assumptions C123_encrypt_fails.

Theorem C123_encrypt_beyond :
  forall (C : crypto) (J : jwire C) (nonce : string) (ctx : ffi_ctx C) (pol m pt : string) (n : N)
    (t : nat -> F C) (i : nat),
  lacks zero pol = true -> utf8 pol = true ->
  (N.of_nat (String.length pt) < n)%N -> ffi_encrypt J nonce ctx (c_text pol m) pt n t i = Beyond.
Proof. intros C. exact (@ffi_encrypt_beyond C). Qed.
Print Assumptions C123_encrypt_beyond.

(** The size given for a plaintext, for every ciphertext shorter than 4 GiB; less than 16 bytes abort where
    overflow is checked, and give a size near 4 GiB where it is not. *)
Theorem C123_size_wraps :
  forall (C : crypto) (checks : bool) (ct : bsw_ct C),
  let n := N.of_nat (String.length (bct_data ct)) in
  (n < 4294967296 ->
   ffi_size checks ct = if 16 <=? n then Ret (n - 16) else if checks then Abort else Ret (n + 4294967280))%N.
Proof. exact @ffi_size_exact. Qed.
Print Assumptions C123_size_wraps.

Example C123_example_size : ffi_size false (BswCt (C := ZC) ("", JsonPolicy) (g1one ZC) (gtone ZC) [] "abc") = Ret 4294967283%N.
Proof. vm_compute. reflexivity. Qed.

(** Without a NUL every text argument is read beyond its end. *)
Theorem C123_unterminated :
  forall (C : crypto) (checks : bool) (J : jwire C) (nonce : string) (ctx : ffi_ctx C) (sk : bsw_sk C)
    (p pt : string) (n : N)
    (t : nat -> F C) (i : nat),
  lacks zero p = true ->
  ffi_encrypt J nonce ctx p pt n t i = Beyond /\ ffi_decrypt checks J sk p n = Beyond.
Proof. intros C. exact (@ffi_unterminated C). Qed.
Print Assumptions C123_unterminated.
