(** * ConsoleFiles: what the files written by the command line tool contain (C99)
    and what it does with input it cannot use (C100) *)
From Coq Require Import String Ascii List Bool Arith NArith.
From Verif Require Import Base Crypto Policy Parse ParseText Files FilesProofs Borsh Console ConsoleProofs.
From Verif Require Bsw Lsw Yct14 Ac17 Aw11 Bdabe Mke08.
Import ListNotations.
Local Open Scope string_scope.
Local Open Scope io_scope.

(** ** Specification *)

(** A file to be written: where, with which label, and what its bytes are. *)
Record kind := Kind { k_path : string; k_label : string; k_bytes : string -> Prop }.

(** The bytes of a value of the type of [c], or of a result with one. *)
Definition bytes_of {A} (c : codec A) (b : string) : Prop := exists v, enc c v = Some b.
Definition bytes_of_result {A} (c : codec A) (b : string) : Prop :=
  exists text v, enc_result c text v = Some b.

Section Kinds.
Context {C : crypto} (E : env C).
Local Notation W := (e_wire E).

(** The files of each command and scheme. *)
Definition kinds (c : command) (s : scheme) (m : args) : list kind :=
  let msk := file_arg m MSK_FILE in
  let pk := file_arg m PK_FILE in
  let sk := file_arg m SK_FILE in
  match c, s with
  | Setup, (AC17CP | AC17KP) => [Kind msk "MSK" (bytes_of (c_ac_msk W)); Kind pk "PK" (bytes_of (c_ac_pk W))]
  | Setup, AW11 => [Kind msk "GP" (bytes_of (c_aw_gk W))]
  | Setup, BDABE => [Kind msk "MSK" (bytes_of (c_bd_msk W)); Kind pk "PK" (bytes_of (c_bd_pk W))]
  | Setup, BSW => [Kind msk "MSK" (bytes_of (c_bsw_msk W)); Kind pk "PK" (bytes_of (c_bsw_pk W))]
  | Setup, LSW => [Kind msk "MSK" (bytes_of (c_lsw_msk W)); Kind pk "PK" (bytes_of (c_lsw_pk W))]
  | Setup, MKE08 => [Kind msk "MSK" (bytes_of (c_mk_msk W)); Kind pk "PK" (bytes_of (c_mk_pk W))]
  | Setup, YCT14 => [Kind msk "MSK" (bytes_of (c_yct_msk W)); Kind pk "PK" (bytes_of (c_yct_pk W))]
  | Authgen, AW11 => [Kind msk "SAUK" (bytes_of (c_aw_msk W)); Kind pk "PAUK" (bytes_of (c_aw_pk W))]
  | Authgen, BDABE => [Kind (named_file m) "SAUK" (bytes_of (c_bd_auth W))]
  | Authgen, MKE08 => [Kind (named_file m) "SAUK" (bytes_of (c_mk_auth W))]
  | Authgen, _ => []
  | Keygen, AC17CP => [Kind sk "SK" (bytes_of (c_ac_cpsk W))]
  | Keygen, AC17KP => [Kind sk "SK" (bytes_of (c_ac_kpsk W))]
  | Keygen, BSW => [Kind sk "SK" (bytes_of (c_bsw_sk W))]
  | Keygen, LSW => [Kind sk "SK" (bytes_of (c_lsw_sk W))]
  | Keygen, YCT14 => [Kind sk "SK" (bytes_of (@c_yct_sk C))]
  | Keygen, AW11 => [Kind (named_file m) "SK" (bytes_of (c_aw_sk W))]
  | Keygen, BDABE => [Kind (named_file m) "SK" (bytes_of (c_bd_uk W))]
  | Keygen, MKE08 => [Kind (named_file m) "SK" (bytes_of (c_mk_uk W))]
  | Delegate, BSW =>
      [Kind (match value_of m SK_FILE with None => "sk.del.key" | Some _ => "" end) "SK" (bytes_of (c_bsw_sk W))]
  | Delegate, _ => []
  | Encrypt, AC17CP => [Kind (enc_ct_file m) "CT" (bytes_of (c_ac_cpct W))]
  | Encrypt, AC17KP => [Kind (enc_ct_file m) "CT" (bytes_of (c_ac_kpct W))]
  | Encrypt, YCT14 => [Kind (enc_ct_file m) "CT" (bytes_of (@c_yct_ct C))]
  | Encrypt, BSW => [Kind (enc_ct_file m) "CT" (bytes_of_result (c_bsw_ct W))]
  | Encrypt, LSW => [Kind (enc_ct_file m) "CT" (bytes_of_result (c_lsw_ct W))]
  | Encrypt, AW11 => [Kind (enc_ct_file m) "CT" (bytes_of_result (c_aw_ct W))]
  | Encrypt, BDABE => [Kind (enc_ct_file m) "CT" (bytes_of_result (c_bd_ct W))]
  | Encrypt, MKE08 => [Kind (enc_ct_file m) "CT" (bytes_of_result (c_mk_ct W))]
  | Decrypt, _ => []
  | ReqAttrPk, MKE08 => [Kind (file_arg m PKA_FILE) "PAK" (bytes_of (c_mk_apk W))]
  | ReqAttrPk, BDABE => [Kind (file_arg m PKA_FILE) "PAK" (bytes_of (c_bd_apk W))]
  | ReqAttrPk, _ => []
  | ReqAttrSk, MKE08 => [Kind (file_arg m SKA_FILE) "SAK" (bytes_of (c_mk_ask W))]
  | ReqAttrSk, BDABE => [Kind (file_arg m SKA_FILE) "SAK" (bytes_of (c_bd_ask W))]
  | ReqAttrSk, _ => []
  end.

(** The file at the path of [k] is a file of that kind. *)
Definition holds (d : fs) (k : kind) : Prop :=
  exists b r, k_bytes k b /\
    fs_files d (k_path k) =
    Some (File ("-----BEGIN " ++ k_label k ++ "-----" ++ nls ++ to_hex (e_deflate E b) ++
                nls ++ "-----END " ++ k_label k ++ "-----") r).

(** Every changed file is of one of the kinds. *)
Definition only (ks : list kind) (m : io unit) : Prop :=
  forall d d' r, m d = (d', r) -> forall p, same_at d d' p \/ exists k, In k ks /\ k_path k = p /\ holds d' k.

(** After success there is a file of the right kind at every path. *)
Definition every (ks : list kind) (m : io unit) : Prop :=
  forall d d', m d = (d', Ok tt) -> forall k, In k ks -> exists k', In k' ks /\ k_path k' = k_path k /\ holds d' k'.

(** ** Proofs *)

Lemma only_quiet ks m : quiet m -> only ks m.
Proof. intros Q d d' r H p. apply Q in H as ->. now left. Qed.
Lemma only_bind {A} ks (m : io A) (k : A -> io unit) : quiet m -> (forall a, only ks (k a)) -> only ks (ibind m k).
Proof.
  intros Q K d d' r H. unfold ibind in H. destruct (m d) as [d1 [a| |]] eqn:M; apply Q in M as ->.
  - exact (K a _ _ _ H).
  - injection H as <- _. now left.
  - injection H as <- _. now left.
Qed.
Lemma every_bind {A} ks (m : io A) (k : A -> io unit) : quiet m -> (forall a, every ks (k a)) -> every ks (ibind m k).
Proof.
  intros Q K d d' H. apply ibind_Ok in H as (d1 & a & M & H). apply Q in M as ->. exact (K a _ _ H).
Qed.
Lemma every_err ks : every ks (ilift Err).
Proof. intros d d' H. discriminate. Qed.

Lemma save_holds p w (K : string -> Prop) b d d' : K b ->
  isave p (begin_ w ++ to_hex (e_deflate E b) ++ end_ w) d = (d', Ok tt) -> holds d' (Kind p w K).
Proof.
  intros X H. unfold isave, write_file, fs_create in H. destruct (fs_may_create d p); [|discriminate].
  injection H as <-. exists b. eexists. split; [exact X|]. cbn [fs_files k_path k_label]. rewrite seqb_refl.
  f_equal. f_equal. unfold begin_, end_. now rewrite !sapp_assoc.
Qed.

Lemma save_outcome p x d d' r : isave p x d = (d', r) -> (r = Ok tt /\ forall q, q <> p -> same_at d d' q) \/ d' = d.
Proof.
  unfold isave, write_file, fs_create. destruct (fs_may_create d p); intros H; injection H as <- <-; [left|now right].
  split; [reflexivity|]. intros q N. unfold same_at. cbn [fs_files]. apply seqb_neq in N. now rewrite N.
Qed.

Lemma bytes_only p w (K : string -> Prop) o : (forall b, o = Some b -> K b) ->
  only [Kind p w K] (s <- ilift (ser_bytes E o w) ;; isave p s).
Proof.
  intros X d d' r H q. unfold ibind, ilift, ser_bytes in H. destruct o as [b|]; [|injection H as <- _; now left].
  destruct (save_outcome _ _ _ _ _ H) as [(-> & S)| ->]; [|now left].
  destruct (String.string_dec q p) as [->|N]; [|left; now apply S].
  right. eexists. split; [left; reflexivity|]. split; [reflexivity|]. eapply save_holds; [|exact H]. now apply X.
Qed.
Lemma bytes_every p w (K : string -> Prop) o : (forall b, o = Some b -> K b) ->
  every [Kind p w K] (s <- ilift (ser_bytes E o w) ;; isave p s).
Proof.
  intros X d d' H k [<-|[]]. unfold ibind, ilift, ser_bytes in H. destruct o as [b|]; [|discriminate].
  eexists. split; [left; reflexivity|]. split; [reflexivity|]. eapply save_holds; [|exact H]. now apply X.
Qed.

Lemma store_only {A} p (c : codec A) v w : only [Kind p w (bytes_of c)] (store E p c v w).
Proof. apply bytes_only. intros b H. now exists v. Qed.
Lemma store_every {A} p (c : codec A) v w : every [Kind p w (bytes_of c)] (store E p c v w).
Proof. apply bytes_every. intros b H. now exists v. Qed.
Lemma result_only {A} p (c : codec A) t v : only [Kind p "CT" (bytes_of_result c)] (store_result E p c t v).
Proof. apply bytes_only. intros b H. now exists t, v. Qed.
Lemma result_every {A} p (c : codec A) t v : every [Kind p "CT" (bytes_of_result c)] (store_result E p c t v).
Proof. apply bytes_every. intros b H. now exists t, v. Qed.

(** A file of a kind stays one unless its path is written again. *)
Lemma holds_same d d' k : same_at d d' (k_path k) -> holds d k -> holds d' k.
Proof. intros S (b & r & X & H). exists b, r. split; [exact X|]. rewrite <- H. exact S. Qed.

Lemma only_two k1 k2 (m1 m2 : io unit) : only [k1] m1 -> only [k2] m2 -> only [k1; k2] (_ <- m1 ;; m2).
Proof.
  intros H1 H2 d d' r H p. unfold ibind in H. destruct (m1 d) as [d1 [[]| |]] eqn:M.
  - destruct (H2 _ _ _ H p) as [S|(k & [<-|[]] & P & X)]; [|right; exists k2; cbn; auto].
    destruct (H1 _ _ _ M p) as [S1|(k & [<-|[]] & P & X)].
    + left. unfold same_at in *. congruence.
    + right. exists k1. split; [cbn; auto|]. split; [exact P|]. apply (holds_same d1); [now rewrite P|exact X].
  - injection H as <- _. destruct (H1 _ _ _ M p) as [S1|(k & [<-|[]] & P & X)]; [now left|right; exists k1; cbn; auto].
  - injection H as <- _. destruct (H1 _ _ _ M p) as [S1|(k & [<-|[]] & P & X)]; [now left|right; exists k1; cbn; auto].
Qed.
Lemma every_two k1 k2 (m1 m2 : io unit) : every [k1] m1 -> only [k2] m2 -> every [k2] m2 -> every [k1; k2] (_ <- m1 ;; m2).
Proof.
  intros H1 O2 H2 d d' H k I. apply ibind_Ok in H as (d1 & [] & M & H).
  assert (X2 : holds d' k2).
  { destruct (H2 _ _ H k2) as (k' & [<-|[]] & _ & X); [now left|exact X]. }
  assert (X1 : holds d1 k1).
  { destruct (H1 _ _ M k1) as (k' & [<-|[]] & _ & X); [now left|exact X]. }
  destruct I as [<-|[<-|[]]]; [|exists k2; cbn; auto].
  destruct (O2 _ _ _ H (k_path k1)) as [S|(k & [<-|[]] & P & X)]; [|exists k2; cbn; auto].
  exists k1. split; [cbn; auto|]. split; [reflexivity|]. now apply (holds_same d1).
Qed.

Lemma every_nil m : every [] m.
Proof. intros d d' _ k []. Qed.

Ltac quiets := repeat first
  [ apply quiet_dec | apply quiet_run | apply quiet_lift | apply quiet_ret | apply quiet_read
  | apply quiet_map; intros | apply quiet_unwrap | apply quiet_try ].
Ltac cases := repeat match goal with
  | |- only _ (match ?x with _ => _ end) => destruct x
  | |- every _ (match ?x with _ => _ end) => destruct x
  end.
Ltac onlys := repeat first
  [ apply store_only | apply result_only
  | apply only_quiet; solve [quiets]
  | apply only_two; apply store_only
  | apply only_bind; [solve [quiets]|intros; cases] ].
Ltac everys := repeat first
  [ apply store_every | apply result_every | apply every_nil | apply every_err
  | apply every_two; [apply store_every|apply store_only|apply store_every]
  | apply every_bind; [solve [quiets]|intros; cases] ].

Theorem run_only t nonce text c m s lang : only (kinds c s m) (run E t nonce text c m s lang).
Proof.
  destruct c; cbn [run].
  - unfold run_setup. destruct s; try destruct (attr_args m); onlys.
  - unfold run_authgen. destruct s; onlys.
  - unfold run_keygen. destruct s; onlys.
  - unfold run_delegate. destruct (value_of m SK_FILE) eqn:V; destruct s; cbn [kinds]; rewrite ?V; onlys.
  - unfold run_encrypt. destruct s; destruct (enc_pk_files m) as [|? [|? ?]]; onlys.
  - apply only_quiet. intros d d' r H. exact (decrypt_state _ _ _ _ _ _ H).
  - unfold run_req_attr_pk. destruct (req_attrs m) as [|? [|? ?]]; destruct s; onlys.
  - unfold run_req_attr_sk. destruct (req_attrs m) as [|? [|? ?]]; destruct s; onlys.
Qed.

Theorem run_every t nonce text c m s lang : (c, s) <> (ReqAttrSk, BDABE) ->
  every (kinds c s m) (run E t nonce text c m s lang).
Proof.
  intros N. destruct c; cbn [run].
  - unfold run_setup. destruct s; try destruct (attr_args m); everys.
  - unfold run_authgen. destruct s; everys.
  - unfold run_keygen. destruct s; everys.
  - unfold run_delegate. destruct (value_of m SK_FILE) eqn:V; destruct s; cbn [kinds]; rewrite ?V; everys.
  - unfold run_encrypt. destruct s; destruct (enc_pk_files m) as [|? [|? ?]]; everys.
  - apply every_nil.
  - unfold run_req_attr_pk. destruct (req_attrs m) as [|? [|? ?]]; destruct s; everys.
  - unfold run_req_attr_sk. destruct (req_attrs m) as [|? [|? ?]]; destruct s; everys; congruence.
Qed.

(** ** Input that cannot be used *)

(** The key file that a command reads first. *)
Definition first_key (c : command) (s : scheme) (m : args) : option string :=
  match c, s with
  | Authgen, AW11 => Some (file_arg m GP_FILE)
  | Authgen, (BDABE | MKE08) => Some (file_arg m PK_FILE)
  | Keygen, (AC17CP | AC17KP) => Some (file_arg m MSK_FILE)
  | Keygen, AW11 => Some (file_arg m GP_FILE)
  | Keygen, _ => Some (file_arg m PK_FILE)
  | Delegate, BSW => Some (file_arg m PK_FILE)
  | Decrypt, (AW11 | MKE08) => Some (file_arg m GP_FILE)
  | Decrypt, BDABE => Some (file_arg m PK_FILE)
  | Decrypt, _ => Some (file_arg m SK_FILE)
  | ReqAttrPk, (BDABE | MKE08) => match req_attrs m with [_] => Some (file_arg m PK_FILE) | _ => None end
  | ReqAttrSk, (BDABE | MKE08) => match req_attrs m with [_] => Some (file_arg m SK_FILE) | _ => None end
  | _, _ => None
  end.

(** Only one pair of command and scheme gives up on a damaged file. *)
Definition on_damage (c : command) (s : scheme) : outcome unit :=
  match c, s with Keygen, AC17CP => Panic | _, _ => Err end.

Lemma dec_damaged {A} (c : codec A) p d : ser_dec_bin E d p = Err -> ser_dec E c p d = (d, Err).
Proof. intros H. unfold ser_dec. now rewrite H. Qed.

Lemma dec_no_bin {A} (c : codec A) p d : ser_dec_bin E d p = Panic -> ser_dec E c p d = (d, Panic).
Proof. intros H. unfold ser_dec. now rewrite H. Qed.

Lemma bind_err {A B} (m : io A) (k : A -> io B) d d' : m d = (d', Err) -> ibind m k d = (d', Err).
Proof. unfold ibind. now intros ->. Qed.
Lemma bind_panic {A B} (m : io A) (k : A -> io B) d d' : m d = (d', Panic) -> ibind m k d = (d', Panic).
Proof. unfold ibind. now intros ->. Qed.
Lemma unwrap_err {A} (m : io A) d d' : m d = (d', Err) -> iunwrap m d = (d', Panic).
Proof. unfold iunwrap. now intros ->. Qed.
Lemma unwrap_panic {A} (m : io A) d d' : m d = (d', Panic) -> iunwrap m d = (d', Panic).
Proof. unfold iunwrap. now intros ->. Qed.

Theorem run_damaged t nonce text c m s lang d p : first_key c s m = Some p -> ser_dec_bin E d p = Err ->
  run E t nonce text c m s lang d = (d, on_damage c s).
Proof.
  intros K D. pose proof (fun A (c : codec A) => dec_damaged c p d D) as X.
  destruct c, s; try discriminate K; cbn [first_key] in K; cbn [run on_damage];
    unfold run_authgen, run_keygen, run_delegate, run_decrypt, open_file, run_req_attr_pk, run_req_attr_sk; cbv zeta;
    try (destruct (req_attrs m) as [|? [|? ?]]; try discriminate K);
    injection K as <-;
    repeat first [apply X | apply bind_err | apply bind_panic | apply unwrap_err].
Qed.

Theorem run_missing t nonce text c m s lang d p : first_key c s m = Some p -> fs_open d p = None ->
  run E t nonce text c m s lang d = (d, Panic).
Proof.
  intros K D. assert (D' : ser_dec_bin E d p = Panic) by (unfold ser_dec_bin, read_file; now rewrite D).
  pose proof (fun A (c : codec A) => dec_no_bin c p d D') as X.
  destruct c, s; try discriminate K; cbn [first_key] in K; cbn [run];
    unfold run_authgen, run_keygen, run_delegate, run_decrypt, open_file, run_req_attr_pk, run_req_attr_sk; cbv zeta;
    try (destruct (req_attrs m) as [|? [|? ?]]; try discriminate K);
    injection K as <-;
    repeat first [apply X | apply bind_panic | apply unwrap_panic].
Qed.

Theorem document_missing t nonce text m s lang d : fs_open d (text_arg m FILE) = None ->
  run E t nonce text Encrypt m s lang d = (d, Panic).
Proof.
  intros D. cbn [run]. unfold run_encrypt. cbv zeta. apply bind_panic. unfold iread, read_to_vec. now rewrite D.
Qed.

(** A policy that is refused stops key generation. *)
Theorem policy_refused t nonce text m lang d (s : scheme) :
  parse (text_arg m POLICY) lang = Err ->
  match s with
  | AC17KP => forall msk, ser_dec E (c_ac_msk W) (file_arg m MSK_FILE) d = (d, Ok msk) ->
              run E t nonce text Keygen m AC17KP lang d = (d, Panic)
  | LSW => forall pk msk, ser_dec E (c_lsw_pk W) (file_arg m PK_FILE) d = (d, Ok pk) ->
           ser_dec E (c_lsw_msk W) (file_arg m MSK_FILE) d = (d, Ok msk) ->
           run E t nonce text Keygen m LSW lang d = (d, Panic)
  | YCT14 => forall pk msk, ser_dec E (c_yct_pk W) (file_arg m PK_FILE) d = (d, Ok pk) ->
           ser_dec E (c_yct_msk W) (file_arg m MSK_FILE) d = (d, Ok msk) ->
           run E t nonce text Keygen m YCT14 lang d = (d, Panic)
  | _ => True
  end.
Proof.
  intros P. destruct s; try exact I.
  - intros msk D. cbn [run]. unfold run_keygen. cbv zeta. unfold ibind at 1. rewrite D.
    apply bind_panic, unwrap_err. unfold irun, ilift, Ac17.kp_keygen. now rewrite P.
  - intros pk msk D D2. cbn [run]. unfold run_keygen. cbv zeta. unfold ibind at 1. rewrite D. unfold ibind at 1. rewrite D2.
    apply bind_panic, unwrap_err. unfold irun, ilift, Lsw.lsw_keygen. now rewrite P.
  - intros pk msk D D2. cbn [run]. unfold run_keygen. cbv zeta. unfold ibind at 1. rewrite D. unfold ibind at 1. rewrite D2.
    apply bind_panic, unwrap_err. unfold irun, ilift, Yct14.yct_keygen. now rewrite P.
Qed.

(** BDABE: a request that is refused is a success without a file. *)
Theorem request_refused t nonce text m lang d a usk skau :
  req_attrs m = [a] ->
  ser_dec E (c_bd_uk W) (file_arg m SK_FILE) d = (d, Ok usk) ->
  ser_dec E (c_bd_auth W) (file_arg m AU_SK_FILE) d = (d, Ok skau) ->
  Bdabe.bd_request_sk (Bdabe.buk_pk usk) skau a = Err ->
  run E t nonce text ReqAttrSk m BDABE lang d = (d, Ok tt).
Proof.
  intros A D1 D2 R. cbn [run]. unfold run_req_attr_sk. cbv zeta. rewrite A. unfold ibind at 1. rewrite D1.
  unfold ibind at 1. rewrite D2. unfold ibind, itry, ilift. now rewrite R.
Qed.

End Kinds.
