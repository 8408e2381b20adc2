(** * Yct14: /repo/src/schemes/yct14/mod.rs *)
From Coq Require Import String List Bool Arith.
From Verif Require Import Base Crypto Policy Tools Sharing Parse Symmetric.
Import ListNotations.

Section Yct14.
Context {C : crypto}.
Local Open Scope rand_scope.

(** [Yct14Type]; yct14/mod.rs:61-64. *)
Inductive yct_type := YPub (g : GT C) | YPriv (x : F C).

(** [Yct14Attribute]; yct14/mod.rs:51-56. *)
Record yct_attr := YAttr { y_name : string; y_node : option yct_type }.

(** [Yct14AbePublicKey]; yct14/mod.rs:142-145. *)
Record yct_pk := YctPk { ypk_g : GT C; ypk_attrs : list yct_attr }.

(** [Yct14AbeMasterKey]; yct14/mod.rs:151-154. *)
Record yct_msk := YctMsk { ymsk_s : F C; ymsk_attrs : list yct_attr }.

(** [Yct14AbeSecretKey]; yct14/mod.rs:175-178. *)
Record yct_sk := YctSk { ysk_policy : string * language; ysk_du : list yct_attr }.

(** [Yct14AbeCiphertext]; yct14/mod.rs:199-202. *)
Record yct_ct := YctCt { yct_attrs : list yct_attr; yct_data : string }.

(** [a.node.unwrap().private()] with the panicking match; yct14/mod.rs:162-165
    and 186-189.  [Yct14Type::private] (yct14/mod.rs:73-78) gives an error for a
    public value, which the callers turn into a panic. *)
Definition node_private (a : yct_attr) : outcome (F C) :=
  match y_node a with Some (YPriv x) => Ok x | _ => Panic end.

(** [a.node.unwrap().public()] with the panicking match; yct14/mod.rs:210-213,
    with [Yct14Type::public] (yct14/mod.rs:67-72) in the same way. *)
Definition node_public (a : yct_attr) : outcome (GT C) :=
  match y_node a with Some (YPub g) => Ok g | _ => Panic end.

(** [Yct14AbeMasterKey::get_private]; yct14/mod.rs:157-168.  The iterator is
    lazy: only the first match is inspected. *)
Definition msk_get_private (msk : yct_msk) (attribute : string) : outcome (F C) :=
  match find (fun a => seqb (y_name a) attribute && match y_node a with Some _ => true | None => false end)
             (ymsk_attrs msk) with
  | Some a => node_private a
  | None => Err
  end.

(** [Yct14AbeSecretKey::get_private]; yct14/mod.rs:181-192. *)
Definition sk_get_private (sk : yct_sk) (attribute : string) : outcome (F C) :=
  match find (fun a => seqb (y_name a) attribute) (ysk_du sk) with
  | Some a => node_private a
  | None => Err
  end.

(** [Yct14AbeCiphertext::get_public]; yct14/mod.rs:205-216. *)
Definition ct_get_public (ct : yct_ct) (attribute : string) : outcome (GT C) :=
  match find (fun a => seqb (y_name a) attribute) (yct_attrs ct) with
  | Some a => node_public a
  | None => Err
  end.

(** [Yct14Attribute::new]; yct14/mod.rs:82-97. *)
Definition yct_new (g : GT C) (name : string) : rand (F C) (yct_attr * yct_attr) :=
  si <- draw ;;
  rret (YAttr name (Some (YPub (gtpow C g si))), YAttr name (Some (YPriv si))).

(** [Yct14Attribute::private_from]; yct14/mod.rs:98-113. *)
Definition private_from (input : string * F C) (msk : yct_msk) : outcome yct_attr :=
  obind (msk_get_private msk (fst input)) (fun si =>
  obind (unwrap (finv_opt si)) (fun i =>
  Ok (YAttr (fst input) (Some (YPriv (fmul C (snd input) i)))))).

(** [Yct14Attribute::public_from]; yct14/mod.rs:114-135. *)
Definition public_from (pk : yct_pk) (k : F C) (name : string) : outcome yct_attr :=
  match find (fun a => seqb (y_name a) name) (ypk_attrs pk) with
  | Some a => match y_node a with
              | Some (YPub g) => Ok (YAttr name (Some (YPub (gtpow C g k))))
              | _ => Panic
              end
  | None => Panic
  end.

(** [setup]; yct14/mod.rs:222-249. *)
Definition yct_setup (attributes : list string) : rand (F C) (yct_pk * yct_msk) :=
  s <- draw ;;
  g <- draw_gt ;;
  pairs <- rmap (yct_new g) attributes ;;
  rret (YctPk (gtpow C g s) (map fst pairs), YctMsk s (map snd pairs)).

(** The loop at yct14/mod.rs:267-273: an attribute without master key part is
    reported on the terminal and skipped. *)
Fixpoint yct_du (msk : yct_msk) (shares : list (string * F C)) : outcome (list yct_attr) :=
  match shares with
  | [] => Ok []
  | sh :: r =>
      match private_from (remove_index (fst sh), snd sh) msk with
      | Ok a => obind (yct_du msk r) (fun l => Ok (a :: l))
      | Err => yct_du msk r
      | Panic => Panic
      end
  end.

(** [keygen]; yct14/mod.rs:257-284. *)
Definition yct_keygen (msk : yct_msk) (policy : string) (lang : language) : rand (F C) yct_sk :=
  v <- rlift (parse policy lang) ;;
  shares <- gen_shares_policy (ymsk_s msk) v None ;;
  du <- rlift (yct_du msk shares) ;;
  rret (YctSk (policy, lang) du).

(** [encrypt]; yct14/mod.rs:292-319. *)
Definition yct_encrypt (nonce : string) (pk : yct_pk) (attributes : list string)
  (plaintext : string) : rand (F C) yct_ct :=
  match attributes, plaintext with
  | [], _ => rerr
  | _, EmptyString => rerr
  | _, _ =>
    k <- draw ;;
    let cs := gtpow C (ypk_g pk) k in
    attrs <- rlift (omap (public_from pk k) attributes) ;;
    ct <- rlift (encrypt_symmetric nonce cs plaintext) ;;
    rret (YctCt attrs ct)
  end.

(** One round of the loop at yct14/mod.rs:345-355. *)
Definition yct_step (sk : yct_sk) (ct : yct_ct) (coeff_list : list (string * F C))
  (prod : GT C) (cur : string * string) : outcome (GT C) :=
  obind (unwrap_res (ct_get_public ct (fst cur))) (fun g =>
  obind (unwrap_res (sk_get_private sk (fst cur))) (fun x =>
  obind (unwrap (find (fun a => seqb (fst a) (snd cur)) coeff_list)) (fun co =>
  Ok (gtmul C prod (gtpow C (gtpow C g x) (snd co)))))).

(** [decrypt]; yct14/mod.rs:326-365. *)
Definition yct_decrypt (sk : yct_sk) (ct : yct_ct) : outcome string :=
  let attr := map y_name (yct_attrs ct) in
  obind (parse (fst (ysk_policy sk)) (snd (ysk_policy sk))) (fun v =>
  obind (calc_pruned attr v None) (fun pruned =>
  if fst pruned then
    obind (calc_coefficients v (f1 C) [] None) (fun o =>
    obind (unwrap o) (fun z =>
    obind (ofold (yct_step sk ct z) (snd pruned) (gtone C)) (fun prod =>
    decrypt_symmetric prod (yct_data ct))))
  else Err)).

End Yct14.
Arguments yct_type C : clear implicits.
Arguments yct_attr C : clear implicits.
Arguments yct_pk C : clear implicits.
Arguments yct_msk C : clear implicits.
Arguments yct_sk C : clear implicits.
Arguments yct_ct C : clear implicits.
