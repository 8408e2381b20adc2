(** * Views: what outsiders see of the eight schemes

    Specifications for Generic.v: for each scheme the list of all group elements of what is public,
    and how several users or authorities come about.  Not models of code. *)
From Coq Require Import String List Bool Arith.
From Verif Require Import Base Crypto Policy Tools SchemeLib Dnf Bdabe Mke08 Bsw Ghw11 Lsw Yct14 Ac17 Aw11 Generic.
Import ListNotations.

Section Views.
Context {C : crypto}.
Local Open Scope F_scope.
Notation F := (F C).

(** The payload key drawn as [x]. *)
Definition payload (x : F) : GT C := gtpow C (pairing C (g1one C) (g2one C)) x.

(** All group elements of a public key and a ciphertext. *)
Definition bsw_view (pk : bsw_pk C) (ct : bsw_ct C) : view C :=
  View ([bpk_g1 pk; bpk_h pk; bct_c ct] ++ map b_g1 (bct_cy ct))
       ([bpk_g2 pk; bpk_f pk] ++ map b_g2 (bct_cy ct))
       [bpk_egg pk; bct_cp ct].

(** All group elements of a public key, a ciphertext and any number of transform keys. *)
Definition ghw_view (pk : ghw_pk C) (ct : ghw_ct C) (tks : list (ghw_tk C)) : view C :=
  View ([gpk_g1 pk; gpk_g1a pk; gct_c1 ct] ++ flat_map (fun x => [fst (snd x); snd (snd x)]) (gct_cidi ct))
       ([gpk_g2 pk; gpk_g2a pk] ++ flat_map (fun k => gtk_k k :: gtk_l k :: map snd (gtk_attr k)) tks)
       [gpk_egg pk; gct_c ct].

(** Each user has a list of attributes and a tape, from which their key and the transform key are made. *)
Definition outsourced (pk : ghw_pk C) (msk : ghw_msk C) (users : list (list string * (nat -> F)))
  (tks : list (ghw_tk C)) : Prop :=
  Forall2 (fun u tk => exists sk z, ghw_keygen pk msk (fst u) (snd u) 0%nat = Ok (Some sk, 1%nat) /\
    ghw_tkgen sk (snd u) 1%nat = Ok (tk, z, 2%nat)) users tks.

(** The same users with tapes multiplied by [c]. *)
Definition scaled (c : F) (users : list (list string * (nat -> F))) : list (list string * (nat -> F)) :=
  map (fun u => (fst u, fun n => c * snd u n)) users.

(** All group elements of a public key and a ciphertext. *)
Definition lsw_view (pk : lsw_pk C) (ct : lsw_ct C) : view C :=
  View ([lpk_g1 pk; lpk_g1b pk; lpk_g1b2 pk; lpk_hb pk] ++ flat_map (fun x => [le_1 x; le_2 x; le_3 x]) (lct_ej ct))
       [lpk_g2 pk; lct_e2 ct] [lpk_egg pk; lct_e1 ct].

(** All group elements of a public key and a ciphertext. *)
Definition ac_view (pk : ac_pk C) (ct : ac_ct C) : view C :=
  View (apk_g pk :: concat (map snd (act_c ct))) (apk_ha pk ++ act_c0 ct) (apk_egh pk ++ [act_cp ct]).

(** The element of [Gt] of a public attribute. *)
Definition y_gt (a : yct_attr C) : GT C := match y_node a with Some (YPub g) => g | _ => gtone C end.

(** All group elements of a public key and a ciphertext. *)
Definition yct_view (pk : yct_pk C) (ct : yct_ct C) : view C :=
  View [] [] (ypk_g pk :: map y_gt (ypk_attrs pk) ++ map y_gt (yct_attrs ct)).

(** All group elements of the global key, of the public keys of the authorities and of a ciphertext. *)
Definition aw_view (gk : aw_gk C) (pks : list (aw_pk C)) (ct : aw_ct C) : view C :=
  View [agk_g1 gk]
       (agk_g2 gk :: map snd (flat_map (@apk_attr C) pks) ++ flat_map (fun x => [snd (fst x); snd x]) (awct_c ct))
       (map (fun x => snd (fst x)) (flat_map (@apk_attr C) pks) ++ awct_c0 ct :: map (fun x => snd (fst (fst x))) (awct_c ct)).

(** Each authority has a list of attributes and a tape. *)
Definition authorities (gk : aw_gk C) (auths : list (list string * (nat -> F))) (pks : list (aw_pk C)) : Prop :=
  Forall2 (fun a pk => exists msk j, aw_authgen gk (fst a) (snd a) 0%nat = Ok (Some (pk, msk), j)) auths pks.

(** The same authorities with [d n] added to the secret exponent of every attribute called [n]. *)
Definition moved (d : string -> F) (auths : list (list string * (nat -> F))) : list (list string * (nat -> F)) :=
  map (fun a => (fst a, fun n => snd a n +
    (if Nat.even n then match nth_error (fst a) (n / 2) with Some x => d (upper C x) | None => 0 end else 0))) auths.

(** The name under which an attribute of a policy is looked up. *)
Definition aw_key (n : string) : string := upper C (remove_index n).

(** All group elements of the public key, of public attribute keys and of a ciphertext. *)
Definition bd_view (pk : bd_pk C) (apks : list (bd_apk C)) (ct : bd_ct C) : view C :=
  View (Bdabe.bpk_g1 pk :: Bdabe.bpk_p1 pk :: map (@bapk_a1 C) apks ++ flat_map (fun t => [bt_e2 t; bt_e4 t]) (Bdabe.bct_j ct))
       (Bdabe.bpk_g2 pk :: Bdabe.bpk_p2 pk :: map (@bapk_a2 C) apks ++ flat_map (fun t => [bt_e3 t; bt_e5 t]) (Bdabe.bct_j ct))
       (Bdabe.bpk_egg pk :: map (@bapk_a3 C) apks ++ map (@bt_e1 C) (Bdabe.bct_j ct)).

(** A published attribute key: the name of its authority, the tape of the authority and the attribute. *)
Definition bd_published (pk : bd_pk C) msk (reqs : list (string * (nat -> F) * string)) (apks : list (bd_apk C)) : Prop :=
  Forall2 (fun r k => exists au j, bd_authgen pk msk (fst (fst r)) (snd (fst r)) 0%nat = Ok (au, j) /\
    bd_request_pk pk au (snd r) = Ok k) reqs apks.

(** All group elements of the public key, of public attribute keys and of a ciphertext. *)
Definition mk_view (pk : mk_pk C) (apks : list (mk_apk C)) (ct : mk_ct C) : view C :=
  View (mpk_g1 pk :: mpk_p1 pk :: map (@mapk_g1 C) apks ++ flat_map (fun t => [mj_3 t; mj_5 t]) (mct_e ct))
       (mpk_g2 pk :: mpk_p2 pk :: map (@mapk_g2 C) apks ++ flat_map (fun t => [mj_4 t; mj_6 t]) (mct_e ct))
       (mpk_egg2 pk :: map (@mapk_gt2 C) apks ++ mpk_egg1 pk :: map (@mapk_gt1 C) apks ++
        map (@mj_1 C) (mct_e ct) ++ map (@mj_2 C) (mct_e ct)).

(** Published attribute keys of MKE08, as [bd_published]; its authorities need no public key. *)
Definition mk_published (pk : mk_pk C) (reqs : list (string * (nat -> F) * string)) (apks : list (mk_apk C)) : Prop :=
  Forall2 (fun r k => exists au j, mk_authgen (fst (fst r)) (snd (fst r)) 0%nat = Ok (au, j) /\
    mk_request_pk pk (snd r) au = Ok k) reqs apks.

End Views.
Arguments aw_key C n : clear implicits.
