(** * DependProofs: which files a command depends on (C106), default names (C107) *)
From Coq Require Import String Ascii List Bool Arith NArith.
From Verif Require Import Base Crypto Policy Parse Files FilesProofs Borsh Console ConsoleProofs ConsoleFiles
  CommandLine.
From Verif Require Bsw Lsw Yct14 Ac17 Aw11 Bdabe Mke08.
Import ListNotations.
Local Open Scope string_scope.
Local Open Scope io_scope.

(** ** Specification *)

(** The files a command reads.  [v k] is the value of argument [k]. *)
Definition inputs (c : command) (s : scheme) (m : args) : list string :=
  let v k := match m k with Some (f :: _) => f | _ => k ++ ".key" end in
  let pks := match m "pk" with Some (f :: r) => f :: r | _ => ["pk.key"] end in
  let unless k := match m k with Some (_ :: _) => "" | _ => k ++ ".key" end in
  let doc := match m "f" with Some (f :: _) => f | _ => "" end in
  match c, s with
  | Setup, _ => []
  | Authgen, AW11 => [v "gp"]
  | Authgen, (BDABE | MKE08) => [v "pk"; v "msk"]
  | Authgen, _ => []
  | Keygen, (AC17CP | AC17KP) => [v "msk"]
  | Keygen, AW11 => [v "gp"; v "msk"]
  | Keygen, BDABE => [v "pk"; v "ska"]
  | Keygen, (BSW | LSW | MKE08 | YCT14) => [v "pk"; v "msk"]
  | Delegate, BSW => [v "pk"; v "sk"]
  | Delegate, _ => []
  | Encrypt, (AC17CP | BSW | LSW | YCT14) => doc :: pks
  | Encrypt, AC17KP => [doc; unless "pk"]
  | Encrypt, AW11 => doc :: v "gp" :: pks
  | Encrypt, (BDABE | MKE08) => doc :: unless "pk" :: pks
  | Decrypt, (AC17CP | AC17KP | BSW | LSW | YCT14) => [doc; v "sk"; pop (pop (pop doc))]
  | Decrypt, (AW11 | MKE08) => [doc; v "sk"; v "gp"; pop (pop (pop doc))]
  | Decrypt, BDABE => [doc; v "sk"; v "pk"; pop (pop (pop doc))]
  | ReqAttrPk, (BDABE | MKE08) => [v "pk"; v "skau"]
  | ReqAttrPk, _ => []
  | ReqAttrSk, (BDABE | MKE08) => [v "sk"; v "skau"]
  | ReqAttrSk, _ => []
  end.

(** Two file systems that a command with these inputs and outputs cannot tell
    apart: the same inputs, and the same outputs may be created. *)
Definition alike (ins outs : list string) (d1 d2 : fs) : Prop :=
  (forall p, In p ins -> fs_open d1 p = fs_open d2 p) /\
  (forall p, In p outs -> fs_may_create d1 p = fs_may_create d2 p).

(** The contents at a path. *)
Definition bytes_at (d : fs) (p : string) : option string := option_map f_bytes (fs_files d p).

(** The same result, and every path is left alone in both or holds the same bytes in both. *)
Definition same_effect (d1 d2 : fs) (x1 x2 : fs * outcome unit) : Prop :=
  snd x1 = snd x2 /\
  forall p, (fs_files (fst x1) p = fs_files d1 p /\ fs_files (fst x2) p = fs_files d2 p) \/
            bytes_at (fst x1) p = bytes_at (fst x2) p.

(** ** Proof *)

Section Depend.
Context {C : crypto} (E : env C).

Definition det {A} (ins outs : list string) (m : io A) : Prop :=
  forall d1 d2, alike ins outs d1 d2 -> snd (m d1) = snd (m d2).
Definition eff (ins outs : list string) (m : io unit) : Prop :=
  forall d1 d2, alike ins outs d1 d2 -> same_effect d1 d2 (m d1) (m d2).

Lemma det_lift {A} ins outs (o : outcome A) : det ins outs (ilift o).
Proof. intros d1 d2 _. reflexivity. Qed.
Lemma det_run {F A} ins outs t (m : rand F A) : det ins outs (irun t m).
Proof. apply det_lift. Qed.
Lemma det_ret {A} ins outs (a : A) : det ins outs (iret a).
Proof. intros d1 d2 _. reflexivity. Qed.
Lemma det_read ins outs p : In p ins -> det ins outs (iread p).
Proof. intros I d1 d2 [A _]. unfold iread, read_to_vec. cbn [snd]. now rewrite (A p I). Qed.
Lemma det_dec {A} ins outs (c : codec A) p : In p ins -> det ins outs (ser_dec E c p).
Proof. intros I d1 d2 [H _]. unfold ser_dec, ser_dec_bin, read_file. cbn [snd]. now rewrite (H p I). Qed.
Lemma det_unwrap {A} ins outs (m : io A) : det ins outs m -> det ins outs (iunwrap m).
Proof.
  intros H d1 d2 X. apply H in X. unfold iunwrap. destruct (m d1), (m d2). cbn [snd] in *. now subst.
Qed.
Lemma det_try {A} ins outs (m : io A) : det ins outs m -> det ins outs (itry m).
Proof.
  intros H d1 d2 X. apply H in X. unfold itry. destruct (m d1) as [x o], (m d2) as [y o']. cbn [snd] in *.
  subst o'. destruct o; reflexivity.
Qed.
Lemma det_bind {A B} ins outs (m : io A) (k : A -> io B) :
  quiet m -> det ins outs m -> (forall a, det ins outs (k a)) -> det ins outs (ibind m k).
Proof.
  intros Q H K d1 d2 X. pose proof (H _ _ X) as Y. unfold ibind.
  destruct (m d1) as [x o] eqn:M1, (m d2) as [y o'] eqn:M2. cbn [snd] in Y. subst o'.
  apply Q in M1 as ->. apply Q in M2 as ->. destruct o; [now apply K|reflexivity|reflexivity].
Qed.
Lemma det_map {A B} ins outs (f : A -> io B) l : (forall a, quiet (f a)) ->
  (forall a, In a l -> det ins outs (f a)) -> det ins outs (imap f l).
Proof.
  intros Q. induction l as [|x l IH]; intros H; cbn [imap]; [apply det_ret|].
  apply det_bind; [apply Q|apply H; now left|]. intros y.
  apply det_bind; [now apply quiet_map|apply IH; intros; apply H; now right|]. intros; apply det_ret.
Qed.

Lemma eff_quiet ins outs (m : io unit) : quiet m -> det ins outs m -> eff ins outs m.
Proof.
  intros Q H d1 d2 X. split; [now apply H|]. intros p. left.
  destruct (m d1) as [x o] eqn:M1, (m d2) as [y o'] eqn:M2. apply Q in M1 as ->. apply Q in M2 as ->. auto.
Qed.
Lemma eff_bind {A} ins outs (m : io A) (k : A -> io unit) :
  quiet m -> det ins outs m -> (forall a, eff ins outs (k a)) -> eff ins outs (ibind m k).
Proof.
  intros Q H K d1 d2 X. pose proof (H _ _ X) as Y. unfold ibind.
  destruct (m d1) as [x o] eqn:M1, (m d2) as [y o'] eqn:M2. cbn [snd] in Y. subst o'.
  apply Q in M1 as ->. apply Q in M2 as ->. destruct o; [now apply K| |]; (split; [reflexivity|]; now left).
Qed.

Lemma eff_save ins outs p s : In p outs -> eff ins outs (isave p s).
Proof.
  intros I d1 d2 [_ H]. specialize (H p I). unfold isave, write_file, fs_create. rewrite H.
  destruct (fs_may_create d2 p); (split; [reflexivity|]); intros q; cbn [fst fs_files]; [|now left].
  destruct (seqb q p) eqn:E0; [right|now left]. unfold bytes_at. cbn [fs_files]. rewrite E0. reflexivity.
Qed.
Lemma eff_store {A} ins outs p (c : codec A) v w : In p outs -> eff ins outs (store E p c v w).
Proof.
  intros I. unfold store. apply eff_bind; [apply quiet_lift|apply det_lift|]. intros. now apply eff_save.
Qed.
Lemma eff_result {A} ins outs p (c : codec A) t v : In p outs -> eff ins outs (store_result E p c t v).
Proof.
  intros I. unfold store_result. apply eff_bind; [apply quiet_lift|apply det_lift|]. intros. now apply eff_save.
Qed.

Lemma save_perms p s d d' r : isave p s d = (d', r) -> fs_may_create d' = fs_may_create d.
Proof.
  unfold isave, write_file, fs_create. destruct (fs_may_create d p); intros H; injection H as <- _; reflexivity.
Qed.
Lemma store_perms {A} p (c : codec A) v w d d' r : store E p c v w d = (d', r) -> fs_may_create d' = fs_may_create d.
Proof.
  unfold store, ibind, ilift. destruct (ser_enc E c v w); intros H; [exact (save_perms _ _ _ _ _ H)| |]; now injection H as <- _.
Qed.

(** Two files written one after the other. *)
Lemma eff_two {A B} ins outs p (c : codec A) v w q (c' : codec B) v' w' : In p outs -> In q outs ->
  eff ins outs (_ <- store E p c v w ;; store E q c' v' w').
Proof.
  intros I J d1 d2 X. pose proof (eff_store ins outs p c v w I d1 d2 X) as (Y & Z). unfold ibind.
  destruct (store E p c v w d1) as [x o] eqn:M1, (store E p c v w d2) as [y o'] eqn:M2. cbn [snd fst] in Y, Z.
  subst o'. destruct o as [[]| |]; [|split; [reflexivity|exact Z]|split; [reflexivity|exact Z]].
  assert (X' : alike [] outs x y).
  { split; [intros ? []|]. apply store_perms in M1, M2. rewrite M1, M2. apply X. }
  pose proof (eff_store [] outs q c' v' w' J x y X') as (Y' & Z').
  destruct (store E q c' v' w' x) as [x' o1], (store E q c' v' w' y) as [y' o2]. cbn [fst snd] in *.
  split; [exact Y'|]. intros r. cbn [fst]. destruct (Z' r) as [(S1 & S2)|S]; [|now right].
  rewrite S1, S2. unfold bytes_at in *. rewrite S1, S2. apply Z.
Qed.

Ltac quiets := repeat first
  [ apply quiet_dec | apply quiet_run | apply quiet_lift | apply quiet_ret | apply quiet_read
  | apply quiet_map; intros | apply quiet_unwrap | apply quiet_try ].
Ltac member := solve [auto 10 with datatypes | cbn; auto 10].
Ltac dets := repeat first
  [ apply det_dec; member | apply det_run | apply det_lift | apply det_ret
  | apply det_read; member | apply det_unwrap | apply det_try
  | apply det_map; [intros; solve [quiets]|intros] ].
Ltac cases := repeat match goal with
  | |- eff _ _ (match ?x with _ => _ end) => destruct x
  end.
Ltac effs := repeat first
  [ apply eff_store; member | apply eff_result; member | apply eff_two; member
  | apply eff_quiet; [solve [quiets]|solve [dets]]
  | apply eff_bind; [solve [quiets]|solve [dets]|intros; cases] ].

(** The inputs in the terms of the model. *)
Lemma arg_file m k : match m k with Some (f :: _) => f | _ => k ++ ".key" end = file_arg m k.
Proof. unfold file_arg, value_of, key_file. destruct (m k) as [[|? ?]|]; reflexivity. Qed.
Lemma arg_pks m : match m "pk" with Some (f :: r) => f :: r | _ => ["pk.key"] end = enc_pk_files m.
Proof. unfold enc_pk_files, value_of, PK_FILE. destruct (m "pk") as [[|? ?]|]; reflexivity. Qed.
Lemma arg_unless m : match m "pk" with Some (_ :: _) => "" | _ => "pk.key" end = enc_pk_file m.
Proof. unfold enc_pk_file, value_of, PK_FILE. destruct (m "pk") as [[|? ?]|]; reflexivity. Qed.
Lemma arg_doc m : match m "f" with Some (f :: _) => f | _ => "" end = text_arg m FILE.
Proof. unfold text_arg, value_of, FILE. destruct (m "f") as [[|? ?]|]; reflexivity. Qed.

Lemma det_open_file outs m s :
  det (inputs Decrypt s m) outs (open_file E m s).
Proof.
  unfold open_file, inputs. rewrite !arg_file, arg_doc.
  destruct s; repeat (apply det_bind; [solve [quiets]|apply det_dec; cbn; auto 10|intros]); apply det_lift.
Qed.

Lemma quiet_open_file m s : quiet (open_file E m s).
Proof.
  unfold open_file. destruct s; repeat (apply quiet_bind; [apply quiet_dec|intros]); apply quiet_lift.
Qed.

Theorem run_depends t nonce text c m s lang d1 d2 :
  alike (inputs c s m) (outputs c m) d1 d2 ->
  same_effect d1 d2 (run E t nonce text c m s lang d1) (run E t nonce text c m s lang d2).
Proof.
  revert d1 d2. change (eff (inputs c s m) (outputs c m) (run E t nonce text c m s lang)).
  destruct c.
  - unfold outputs, run, run_setup. destruct s; try destruct (attr_args m); effs.
  - unfold inputs, outputs, run, run_authgen. rewrite !arg_file. destruct s; effs.
  - unfold inputs, outputs, run, run_keygen. rewrite !arg_file. destruct s; effs.
  - unfold inputs, outputs, run, run_delegate. rewrite !arg_file.
    destruct (value_of m SK_FILE); destruct s; effs.
  - unfold inputs, outputs, run, run_encrypt. rewrite !arg_file, arg_pks, arg_doc.
    change ("pk" ++ ".key") with "pk.key". rewrite arg_unless.
    destruct s; destruct (enc_pk_files m) as [|? [|? ?]]; effs.
  - unfold run, run_decrypt. apply eff_bind; [apply quiet_open_file|apply det_open_file|]. intros pt.
    assert (I : In (pop (pop (pop (text_arg m FILE)))) (inputs Decrypt s m)).
    { unfold inputs. rewrite arg_doc. destruct s; cbn; auto 10. }
    intros d1 d2 [A _]. specialize (A _ I). unfold write_from_vec. rewrite A.
    destruct (fs_open d2 _); [destruct pt|]; (split; [reflexivity|]; now left).
  - unfold inputs, outputs, run, run_req_attr_pk. rewrite !arg_file.
    destruct (req_attrs m) as [|? [|? ?]]; destruct s; effs.
  - unfold inputs, outputs, run, run_req_attr_sk. rewrite !arg_file.
    destruct (req_attrs m) as [|? [|? ?]]; destruct s; effs.
Qed.
End Depend.

(** ** Files that the command line names *)

Definition named (m : args) (p : string) : Prop := exists k l, m k = Some l /\ In p l.

Lemma file_named c m k : clap_ok c m -> In k (present c) -> named m (file_arg m k).
Proof.
  intros (P & _ & _ & N) I. specialize (P k I). unfold file_arg, value_of.
  destruct (m k) as [[|f r]|] eqn:M; [now apply N in M|exists k, (f :: r); split; [exact M|now left]|congruence].
Qed.

Lemma inputs_named c s m p : clap_ok c m -> In p (inputs c s m) ->
  named m p \/ (c = Keygen /\ s = BDABE /\ p = "ska.key") \/
  (c = Encrypt /\ (s = AC17KP \/ s = BDABE \/ s = MKE08) /\ p = "") \/
  (c = Decrypt /\ p = pop (pop (pop (text_arg m FILE)))).
Proof.
  intros K I. pose proof (fun k => file_named c m k K) as X.
  assert (Doc : In FILE (present c) -> named m (text_arg m FILE)).
  { intros J. destruct K as (P & _ & _ & N). specialize (P FILE J). unfold text_arg, value_of.
    destruct (m FILE) as [[|f r]|] eqn:M; [now apply N in M|exists FILE, (f :: r); split; [exact M|now left]|congruence]. }
  assert (Pks : In PK_FILE (present c) -> forall q, In q (enc_pk_files m) -> named m q).
  { intros J q. destruct K as (P & _ & _ & N). specialize (P PK_FILE J). unfold enc_pk_files, value_of.
    destruct (m PK_FILE) as [[|f r]|] eqn:M; [now apply N in M| |congruence]. intros Q. exists PK_FILE, (f :: r). auto. }
  assert (Un : c = Encrypt -> enc_pk_file m = "").
  { intros ->. destruct K as (P & _ & _ & N). specialize (P PK_FILE (or_intror (or_intror (or_introl eq_refl)))).
    unfold enc_pk_file, value_of. destruct (m PK_FILE) as [[|f r]|] eqn:M; [now apply N in M|reflexivity|congruence]. }
  assert (Ska : c = Keygen -> file_arg m SKA_FILE = "ska.key").
  { intros ->. destruct K as (_ & A & _). unfold file_arg, value_of. rewrite A; [reflexivity| |]; cbn; intuition discriminate. }
  unfold inputs in I. rewrite !arg_file, arg_pks, arg_doc in I.
  change ("pk" ++ ".key") with "pk.key" in I. rewrite arg_unless in I.
  destruct c, s; cbn [In] in I;
    repeat match goal with I : _ \/ _ |- _ => destruct I as [I|I] end; try contradiction;
    try (subst p; solve [left; apply X; cbn; auto 10 | left; apply Doc; cbn; auto 10
                        | right; right; right; auto | right; left; exact (conj eq_refl (conj eq_refl (Ska eq_refl)))
                        | right; right; left; rewrite Un; auto 10]);
    left; apply Pks; cbn; auto 10.
Qed.

(** BDABE key generation looks at a file that no command line can name. *)
Section Bdabe.
Context {C : crypto} (E : env C).
Theorem bd_keygen_needs t nonce text m lang d : clap_ok Keygen m -> fs_open d "ska.key" = None ->
  snd (run E t nonce text Keygen m BDABE lang d) <> Ok tt.
Proof.
  intros K H. assert (Ska : file_arg m SKA_FILE = "ska.key").
  { destruct K as (_ & A & _). unfold file_arg, value_of. rewrite A; [reflexivity| |]; cbn; intuition discriminate. }
  unfold run, run_keygen. rewrite Ska. unfold ibind.
  destruct (ser_dec E (c_bd_pk (e_wire E)) (file_arg m PK_FILE) d) as [d' [pk| |]] eqn:M; try discriminate.
  apply quiet_dec in M as ->. unfold ser_dec at 1. unfold ser_dec_bin, read_file. rewrite H. discriminate.
Qed.
End Bdabe.

(** ** Command lines *)

(** What the declarations allow on a command line. *)
Definition line_ok (c : command) (given : args) : Prop :=
  (forall k, ~ In k (present c) -> ~ In k (optional c) -> given k = None) /\
  (forall k vs, given k = Some vs -> ~ In k (multiple c) -> exists v, vs = [v]) /\
  (forall k vs, given k = Some vs -> vs <> []) /\
  (c = Encrypt \/ c = Decrypt -> given FILE <> None).

Lemma existsb_In k l : existsb (seqb k) l = true <-> In k l.
Proof.
  rewrite existsb_exists. split.
  - intros (x & I & E0). apply seqb_eq in E0. now subst.
  - intros I. exists k. split; [exact I|]. now apply seqb_eq.
Qed.

Lemma defaulted_present c k : In k (defaulted c) -> In k (present c).
Proof. destruct c; cbn; intuition. Qed.
Lemma present_defaulted c k : In k (present c) -> In k (defaulted c) \/ (k = FILE /\ (c = Encrypt \/ c = Decrypt)).
Proof. destruct c; cbn; intuition. Qed.

Lemma line_accepted c given : line_ok c given -> clap_ok c (matches c given).
Proof.
  intros (A & S & N & D). unfold matches. repeat split.
  - intros k I. destruct (given k) eqn:G; [discriminate|]. apply present_defaulted in I as [I|(-> & I)].
    + apply existsb_In in I. rewrite I. discriminate.
    + now apply D in I.
  - intros k P O. rewrite A by assumption. destruct (existsb (seqb k) (defaulted c)) eqn:X; [|reflexivity].
    apply existsb_In, defaulted_present in X. contradiction.
  - intros k vs H M. destruct (given k) eqn:G; [injection H as <-; now apply (S k)|].
    destruct (existsb (seqb k) (defaulted c)); [injection H as <-; eauto|discriminate].
  - intros k vs H. destruct (given k) eqn:G; [injection H as <-; now apply (N k)|].
    destruct (existsb (seqb k) (defaulted c)); [injection H as <-|]; discriminate.
Qed.

Lemma accepted_line c m : clap_ok c m -> line_ok c m /\ forall k, matches c m k = m k.
Proof.
  intros (P & A & S & N). split.
  - refine (conj A (conj S (conj N _))). intros H. apply P. destruct H as [-> | ->]; cbn; auto.
  - intros k. unfold matches. destruct (m k) eqn:G; [reflexivity|].
    destruct (existsb (seqb k) (defaulted c)) eqn:X; [|reflexivity].
    apply existsb_In, defaulted_present in X. now apply P in X.
Qed.

(** A command line without any of the file arguments, and its document. *)
Definition bare (given : args) : Prop :=
  forall k, In k ["gp"; "msk"; "pk"; "sk"; "ska"; "pka"; "skau"] -> given k = None.
Definition document (given : args) : string :=
  match given "f" with Some (f :: _) => f | _ => "" end.
(** The file named after an authority or user. *)
Definition owner (given : args) : string :=
  match given "n" with Some (n :: _) => n ++ ".key" | _ => "" end.

(** The files that are read and written then. *)
Definition bare_inputs (c : command) (s : scheme) (doc : string) : list string :=
  match c, s with
  | Setup, _ => []
  | Authgen, AW11 => ["gp.key"]
  | Authgen, (BDABE | MKE08) => ["pk.key"; "msk.key"]
  | Authgen, _ => []
  | Keygen, (AC17CP | AC17KP) => ["msk.key"]
  | Keygen, AW11 => ["gp.key"; "msk.key"]
  | Keygen, BDABE => ["pk.key"; "ska.key"]
  | Keygen, _ => ["pk.key"; "msk.key"]
  | Delegate, BSW => ["pk.key"; "sk.key"]
  | Delegate, _ => []
  | Encrypt, (AC17CP | BSW | LSW | YCT14) => [doc; "pk.key"]
  | Encrypt, AC17KP => [doc; ""]
  | Encrypt, AW11 => [doc; "gp.key"; "pk.key"]
  | Encrypt, _ => [doc; ""; "pk.key"]
  | Decrypt, (AC17CP | AC17KP | BSW | LSW | YCT14) => [doc; "sk.key"; pop (pop (pop doc))]
  | Decrypt, (AW11 | MKE08) => [doc; "sk.key"; "gp.key"; pop (pop (pop doc))]
  | Decrypt, BDABE => [doc; "sk.key"; "pk.key"; pop (pop (pop doc))]
  | ReqAttrPk, (BDABE | MKE08) => ["pk.key"; "skau.key"]
  | ReqAttrPk, _ => []
  | ReqAttrSk, (BDABE | MKE08) => ["sk.key"; "skau.key"]
  | ReqAttrSk, _ => []
  end.
Definition bare_outputs (c : command) (s : scheme) (doc own : string) : list string :=
  match c, s with
  | Setup, AW11 => ["msk.key"]
  | Setup, _ => ["msk.key"; "pk.key"]
  | Authgen, AW11 => ["msk.key"; "pk.key"]
  | Authgen, (BDABE | MKE08) => [own]
  | Authgen, _ => []
  | Keygen, (AW11 | BDABE | MKE08) => [own]
  | Keygen, _ => ["sk.key"]
  | Delegate, BSW => [""]
  | Delegate, _ => []
  | Encrypt, _ => [doc ++ ".ct"]
  | Decrypt, _ => []
  | ReqAttrPk, (BDABE | MKE08) => ["pka.key"]
  | ReqAttrPk, _ => []
  | ReqAttrSk, (BDABE | MKE08) => ["ska.key"]
  | ReqAttrSk, _ => []
  end.

Section Bare.
Context {C : crypto} (E : env C).

Lemma bare_files c s given : line_ok c given -> bare given ->
  inputs c s (matches c given) = bare_inputs c s (document given) /\
  map k_path (kinds E c s (matches c given)) = bare_outputs c s (document given) (owner given).
Proof.
  intros (_ & _ & Ne & D) B.
  assert (G : forall k, In k ["gp"; "msk"; "pk"; "sk"; "ska"; "pka"; "skau"] ->
    matches c given k = if existsb (seqb k) (defaulted c) then Some [key_file k] else None)
    by (intros k I; unfold matches; now rewrite (B k I)).
  assert (Gf : matches c given "f" = given "f").
  { unfold matches. destruct (given "f"); [reflexivity|]. now destruct c. }
  assert (Gn : matches c given "n" = given "n").
  { unfold matches. destruct (given "n"); [reflexivity|]. now destruct c. }
  unfold inputs, kinds, file_arg, enc_ct_file, named_file, value_of, document, owner.
  unfold GP_FILE, MSK_FILE, PK_FILE, SK_FILE, SKA_FILE, PKA_FILE, NAME, FILE in *.
  rewrite Gf, Gn, !G by (cbn; auto 10).
  split; [destruct c, s; reflexivity|].
  destruct c; cbn [existsb defaulted seqb]; try (destruct s; reflexivity).
  - destruct s; try reflexivity; destruct (given "n") as [[|? ?]|]; reflexivity.
  - destruct s; try reflexivity; destruct (given "n") as [[|? ?]|]; reflexivity.
  - specialize (D (or_introl eq_refl)). destruct (given "f") as [[|f r]|] eqn:Gf'; [now apply Ne in Gf'| |congruence].
    destruct s; reflexivity.
Qed.
End Bare.

(** ** Names *)
Lemma scheme_of_names s : exists n, In n scheme_names /\ scheme_of n = s /\
  forall n', In n' scheme_names -> scheme_of n' = s -> n' = n.
Proof.
  destruct s;
    [exists "AC17CP"|exists "AC17KP"|exists "AW11"|exists "BDABE"|exists "BSW"|exists "LSW"|exists "MKE08"|exists "YCT14"];
    (split; [cbn; auto 10|]; split; [reflexivity|]);
    intros n' I; cbn in I; intuition; subst; try reflexivity; discriminate.
Qed.

Lemma lang_of_names l : lang_of l = JsonPolicy <-> l = Some "JSON".
Proof.
  destruct l as [x|]; cbn; [|split; discriminate]. destruct (seqb x "JSON") eqn:X.
  - apply seqb_eq in X as ->. tauto.
  - apply seqb_neq in X. split; [discriminate|congruence].
Qed.

Definition command_name (c : command) : string :=
  match c with
  | Setup => "setup" | Authgen => "authgen" | Keygen => "keygen" | Delegate => "delegate"
  | Encrypt => "encrypt" | Decrypt => "decrypt" | ReqAttrPk => "req-attr-pk" | ReqAttrSk => "req-attr-sk"
  end.
Lemma command_of_names n c : command_of n = Some c <-> n = command_name c.
Proof.
  unfold command_of. split.
  - repeat match goal with |- context [if seqb n ?x then _ else _] => destruct (seqb n x) eqn:?X end;
      intros H; try discriminate; injection H as <-;
      match goal with X : seqb n _ = true |- _ => apply seqb_eq in X; exact X end.
  - intros ->. destruct c; reflexivity.
Qed.

(** The whole program. *)
Section Program.
Context {C : crypto} (E : env C).
Lemma app_runs t nonce text s l c given d :
  app E t nonce text (Some s) l (Some (command_name c, given)) d =
  run E t nonce text c (matches c given) (scheme_of s) (lang_of l) d.
Proof. unfold app. now rewrite (proj2 (command_of_names _ _) eq_refl). Qed.

Lemma app_scheme t nonce text s l sub d d' r :
  app E t nonce text s l sub d = (d', r) -> status r = 0%nat -> exists n, s = Some n.
Proof.
  destruct s as [n|]; [eauto|]. cbn. unfold ilift. intros H S. injection H as _ <-. discriminate S.
Qed.

Lemma app_idle t nonce text s l sub d :
  (forall c given, sub <> Some (command_name c, given)) ->
  app E t nonce text (Some s) l sub d = (d, Ok tt).
Proof.
  intros N. unfold app. destruct sub as [[n given]|]; [|reflexivity].
  destruct (command_of n) eqn:X; [|reflexivity]. apply command_of_names in X as ->. now apply N in X || (exfalso; eapply N; reflexivity).
Qed.

(** Failure can be told from success by the exit status, and status 1 means that
    no file was touched. *)
Lemma status_clean t nonce text s l sub d d' r :
  app E t nonce text s l sub d = (d', r) -> status r = 1 -> d' = d.
Proof.
  intros H S. destruct r as [[]| |]; try discriminate S. unfold app in H.
  destruct s as [s|]; [|now injection H as <-]. destruct sub as [[n given]|]; [|discriminate].
  destruct (command_of n); [|discriminate]. exact (run_clean E _ _ _ _ _ _ _ _ _ H).
Qed.
End Program.

(** ** Default names of one command and of the next *)

Section Fit.
Context {C : crypto} (E : env C).

(** The files that the commands of these lines write. *)
Definition written (s : scheme) (lines : list (command * args)) : list string :=
  flat_map (fun '(c, g) => map k_path (kinds E c s (matches c g))) lines.

Lemma defaults_fit s c gs gk g p :
  In s [AC17CP; BSW; LSW; YCT14] -> In c [Keygen; Encrypt; Decrypt] ->
  line_ok Setup gs -> bare gs -> line_ok Keygen gk -> bare gk -> line_ok c g -> bare g ->
  In p (inputs c s (matches c g)) ->
  In p [document g; pop (pop (pop (document g)))] \/ In p (written s [(Setup, gs); (Keygen, gk)]).
Proof.
  intros S Cc Ls Bs Lk Bk Lg Bg I. unfold written. cbn [flat_map].
  rewrite (proj2 (bare_files E Setup s gs Ls Bs)), (proj2 (bare_files E Keygen s gk Lk Bk)).
  rewrite (proj1 (bare_files E c s g Lg Bg)) in I.
  cbn in S, Cc. destruct S as [<-|[<-|[<-|[<-|[]]]]]; destruct Cc as [<-|[<-|[<-|[]]]]; cbn in *; intuition.
Qed.

(** For the other four schemes they do not fit, whatever names of authorities and
    users are given. *)
Lemma defaults_unfit gs ga gk g r :
  line_ok Setup gs -> bare gs -> line_ok Authgen ga -> bare ga -> line_ok Keygen gk -> bare gk ->
  line_ok Encrypt g -> bare g -> line_ok ReqAttrPk r -> bare r ->
  (In "" (inputs Encrypt AC17KP (matches Encrypt g)) /\ ~ In "" (written AC17KP [(Setup, gs); (Keygen, gk)])) /\
  (In "gp.key" (inputs Authgen AW11 (matches Authgen ga)) /\ ~ In "gp.key" (written AW11 [(Setup, gs)])) /\
  (In "ska.key" (inputs Keygen BDABE (matches Keygen gk)) /\
   In "skau.key" (inputs ReqAttrPk BDABE (matches ReqAttrPk r)) /\
   ~ (In "ska.key" (written BDABE [(Setup, gs); (Authgen, ga)]) /\
      In "skau.key" (written BDABE [(Setup, gs); (Authgen, ga)]))) /\
  (In "" (inputs Encrypt MKE08 (matches Encrypt g)) /\ ~ In "" (written MKE08 [(Setup, gs)])).
Proof.
  intros Ls Bs La Ba Lk Bk Lg Bg Lr Br. unfold written. cbn [flat_map].
  rewrite !(proj2 (bare_files E Setup _ gs Ls Bs)), !(proj2 (bare_files E Keygen _ gk Lk Bk)),
    !(proj2 (bare_files E Authgen _ ga La Ba)), !(proj1 (bare_files E Encrypt _ g Lg Bg)),
    !(proj1 (bare_files E Authgen _ ga La Ba)), !(proj1 (bare_files E Keygen _ gk Lk Bk)),
    !(proj1 (bare_files E ReqAttrPk _ r Lr Br)).
  cbn. intuition congruence.
Qed.
End Fit.
