(** * MspTextProofs: what the text of a span program says (C98) *)
From Coq Require Import String Ascii List Bool Arith ZArith Lia DecimalNat DecimalString.
From Verif Require Import Base Policy Spec Parse ParseProofs ParseText Layout SerializeExact Msp MspProofs MspText CoreProofs RobustProofs.
Import ListNotations.
Local Open Scope string_scope.

(** ** Specification: the text written down at once *)
Definition row_form (r : list Z) : string := "(" ++ String.concat "," (map i8_text r) ++ ")".
Definition program_form (msp : abe_policy) : string :=
  "{_m: [" ++ String.concat "," (map row_form (msp_m msp)) ++
  "], _pi: [" ++ String.concat "," (map (fun n => dquote ++ n ++ dquote) (msp_pi msp)) ++
  "], _c: " ++ dec (msp_c msp) ++ "}".

(** ** The pushes and pops *)
Lemma pop_app x y : y <> "" -> pop (x ++ y) = x ++ pop y.
Proof.
  intros N. induction x as [|b x IH]; [reflexivity|]. cbn [append]. rewrite <- IH.
  destruct (x ++ y) eqn:E; [destruct x; [now destruct N|discriminate]|reflexivity].
Qed.

Lemma pop_one x b : pop (x ++ String b "") = x.
Proof. rewrite pop_app by discriminate. cbn. induction x; cbn; congruence. Qed.

(** Items, each with its comma. *)
Fixpoint commas (l : list string) : string :=
  match l with [] => "" | x :: l => x ++ "," ++ commas l end.

Lemma commas_concat l : l <> [] -> commas l = String.concat "," l ++ ",".
Proof.
  induction l as [|x [|y l] IH]; intros N; [now destruct N|reflexivity|].
  cbn [commas String.concat] in *. rewrite IH by discriminate. now rewrite !sapp_assoc.
Qed.

Lemma sapp_nil x : x ++ "" = x.
Proof. induction x; cbn; congruence. Qed.

Lemma fold_cols r : forall s, fold_left push_col r s = s ++ commas (map i8_text r).
Proof.
  induction r as [|z r IH]; intros s; cbn [fold_left map commas]; [now rewrite sapp_nil|].
  rewrite IH. unfold push_col. now rewrite !sapp_assoc.
Qed.
Lemma fold_names r : forall s, fold_left push_name r s = s ++ commas (map (fun n => dquote ++ n ++ dquote) r).
Proof.
  induction r as [|z r IH]; intros s; cbn [fold_left map commas]; [now rewrite sapp_nil|].
  rewrite IH. unfold push_name. fold dquote. now rewrite !sapp_assoc.
Qed.

(** A row as printed: an empty one has lost its bracket. *)
Definition row_text (r : list Z) : string :=
  match r with [] => ")" | _ => row_form r end.

Lemma push_row_text s r : push_row s r = s ++ row_text r ++ ",".
Proof.
  unfold push_row. rewrite fold_cols. destruct r as [|z r].
  - cbn [map commas]. rewrite sapp_nil, pop_one. reflexivity.
  - rewrite commas_concat by discriminate. rewrite <- (sapp_assoc (s ++ "(")), pop_one. unfold row_text, row_form.
    now rewrite !sapp_assoc.
Qed.
Lemma fold_rows m : forall s, fold_left push_row m s = s ++ commas (map row_text m).
Proof.
  induction m as [|r m IH]; intros s; cbn [fold_left map commas]; [now rewrite sapp_nil|].
  rewrite IH, push_row_text. now rewrite !sapp_assoc.
Qed.

(** A list as printed: an empty one has lost its bracket. *)
Definition list_text (l : list string) : string :=
  match l with [] => "]" | _ => "[" ++ String.concat "," l ++ "]" end.

Lemma pop_list l : pop ("[" ++ commas l) ++ "]" = list_text l.
Proof.
  destruct l as [|x l]; [reflexivity|]. rewrite commas_concat by discriminate. rewrite <- (sapp_assoc "["), pop_one.
  unfold list_text. now rewrite sapp_assoc.
Qed.

Theorem display_text msp : display msp =
  "{_m: " ++ list_text (map row_text (msp_m msp)) ++ ", _pi: " ++
  list_text (map (fun n => dquote ++ n ++ dquote) (msp_pi msp)) ++ ", _c: " ++ dec (msp_c msp) ++ "}".
Proof. unfold display. rewrite fold_rows, fold_names, !pop_list. reflexivity. Qed.

Lemma display_form msp : msp_m msp <> [] -> msp_pi msp <> [] -> Forall (fun r => r <> []) (msp_m msp) ->
  display msp = program_form msp.
Proof.
  intros M N R. rewrite display_text. unfold program_form.
  assert (E : map row_text (msp_m msp) = map row_form (msp_m msp)).
  { apply map_ext_in. intros r I. rewrite Forall_forall in R. specialize (R r I). now destruct r. }
  rewrite E. destruct (msp_m msp) as [|r m]; [now destruct M|]. destruct (msp_pi msp) as [|n l]; [now destruct N|].
  cbn [map list_text]. rewrite !sapp_assoc. reflexivity.
Qed.

(** ** Every converted value has rows, names and columns *)
Lemma lw_grow p : forall v t m,
  match lw p v t m with
  | Ok (b, m') => length (msp_m m) + (if b then 1 else 0) <= length (msp_m m') /\
                  length (msp_pi m) + (if b then 1 else 0) <= length (msp_pi m') /\ msp_c m <= msp_c m'
  | _ => True
  end.
Proof.
  induction p as [n p|ty w IH|l IH] using pvalue_ind'; intros v t m.
  - cbn. lia.
  - apply IH.
  - cbn [lw]. destruct (length l <? 2)%nat eqn:E; [exact I|]. apply Nat.ltb_ge in E.
    destruct t as [[| |]|]; [| |lia|lia].
    + destruct l as [|a [|b [|c l]]]; try exact I.
      inversion IH as [|? ? Ha IH']; subst. inversion IH' as [|? ? Hb _]; subst. cbn zeta.
      specialize (Ha (resize v (msp_c m) ++ [1%Z])%list (Some And) (AbePolicy (msp_m m) (msp_pi m) (S (msp_c m)))).
      destruct (lw a _ _ _) as [[[|] ma]| |]; cbn [obind fst snd]; [| |exact I|exact I]; cbn [msp_m msp_pi msp_c] in Ha; [|lia].
      specialize (Hb (repeat 0%Z (msp_c m) ++ [(-1)%Z])%list (Some And) ma).
      destruct (lw b _ _ _) as [[[|] mb]| |]; [lia|lia|exact I|exact I].
    + assert (H : forall ret m,
        match (fix loop (l : list pvalue) (ret : bool) (msp : abe_policy) :=
             match l with
             | [] => Ok (ret, msp)
             | q :: r => obind (lw q v (Some Or) msp) (fun bm =>
                         loop r (ret && fst bm) (snd bm))
             end) l ret m with
        | Ok (b, m') => (b = true -> l <> [] -> 1 + length (msp_m m) <= length (msp_m m') /\ 1 + length (msp_pi m) <= length (msp_pi m')) /\
             length (msp_m m) <= length (msp_m m') /\ length (msp_pi m) <= length (msp_pi m') /\ msp_c m <= msp_c m'
        | _ => True
        end).
      { clear E m. induction IH as [|q l Hq _ IHl]; intros ret m; [split; [now intros _ []|lia]|].
        specialize (Hq v (Some Or) m). destruct (lw q v (Some Or) m) as [[b mq]| |]; cbn [obind fst snd]; [|exact I|exact I].
        destruct b.
        - specialize (IHl (ret && true) mq).
          destruct ((fix loop (l : list pvalue) (ret : bool) (msp : abe_policy) {struct l} := _) l (ret && true) mq) as [[b m']| |]; [|exact I|exact I].
          split; [intros _ _|]; lia.
        - rewrite andb_false_r. assert (F : forall mq,
            match (fix loop (l : list pvalue) (ret : bool) (msp : abe_policy) :=
             match l with
             | [] => Ok (ret, msp)
             | q :: r => obind (lw q v (Some Or) msp) (fun bm =>
                         loop r (ret && fst bm) (snd bm))
             end) l false mq with Ok (b, _) => b = false | _ => True end).
          { clear. induction l as [|q l IH]; intros mq; [reflexivity|].
            destruct (lw q v (Some Or) mq) as [[b m']| |]; cbn [obind fst snd]; [|exact I|exact I]. apply IH. }
          specialize (IHl false mq). specialize (F mq).
          destruct ((fix loop (l : list pvalue) (ret : bool) (msp : abe_policy) {struct l} := _) l false mq) as [[b m']| |]; [|exact I|exact I].
          subst b. split; [discriminate|lia]. }
      specialize (H true m).
      destruct ((fix loop (l : list pvalue) (ret : bool) (msp : abe_policy) {struct l} := _) l true m) as [[b m']| |]; [|exact I|exact I].
      destruct H as (A & B). destruct b; [|lia]. destruct l; [cbn in E; lia|].
      destruct (A eq_refl ltac:(discriminate)). lia.
Qed.

Lemma sort_rows_length l : length (sort_rows l) = length l.
Proof.
  assert (K : forall x l, length (insert_row x l) = S (length l)).
  { intros x l0. induction l0 as [|y l0 IH]; cbn; [reflexivity|]. destruct (_ <=? _)%string; cbn; congruence. }
  induction l as [|x l IH]; [reflexivity|]. cbn [sort_rows fold_right]. rewrite K. unfold sort_rows in IH. now rewrite IH.
Qed.

Lemma msp_written v msp : calculate_msp v = Ok msp ->
  msp_m msp <> [] /\ msp_pi msp <> [] /\ Forall (fun r => r <> []) (msp_m msp).
Proof.
  unfold calculate_msp. intros H. pose proof (lw_grow v [1%Z] None (AbePolicy [] [] 1)) as G.
  destruct (lw v [1%Z] None (AbePolicy [] [] 1)) as [[[|] m]| |]; cbn [obind fst snd] in H; try discriminate.
  injection H as <-. cbn [msp_m msp_pi msp_c length] in *. destruct G as (G1 & G2 & G3).
  set (l := combine (msp_pi m) (map (fun r => resize r (msp_c m)) (msp_m m))) in *.
  assert (N : 1 <= length (sort_rows l)).
  { rewrite sort_rows_length. unfold l. rewrite combine_length, map_length. lia. }
  assert (R : Forall (fun x => snd x <> []) (sort_rows l)).
  { apply Forall_forall. intros x I. apply (Permutation.Permutation_in x (Permutation.Permutation_sym (sort_rows_perm l))) in I.
    unfold l in I. destruct x as [n r]. apply in_combine_r in I. apply in_map_iff in I as (r' & <- & _). cbn [snd].
    intros E. apply (f_equal (@length Z)) in E. rewrite resize_length in E. cbn in E. lia. }
  destruct (sort_rows l) as [|x k]; [cbn in N; lia|]. split; [discriminate|]. split; [discriminate|].
  clear - R. induction R; cbn; constructor; auto.
Qed.

Theorem text_written v msp : calculate_msp v = Ok msp -> display msp = program_form msp.
Proof. intros H. apply msp_written in H as (A & B & D). now apply display_form. Qed.

(** ** Reading a text back *)
Definition cell_char (b : ascii) : bool := in_range 48 57 b || Ascii.eqb b "-".
Fixpoint cell (x : string) : bool :=
  match x with EmptyString => true | String b r => cell_char b && cell r end.

Lemma cell_split u : forall v b c x y, cell u = true -> cell v = true -> cell_char b = false -> cell_char c = false ->
  u ++ String b x = v ++ String c y -> u = v /\ String b x = String c y.
Proof.
  induction u as [|a u IH]; intros [|d v] b c x y U V B D E; cbn [append cell] in *.
  - auto.
  - injection E as -> _. apply andb_prop in V as (V & _). congruence.
  - injection E as -> _. apply andb_prop in U as (U & _). congruence.
  - injection E as -> E. apply andb_prop in U as (_ & U). apply andb_prop in V as (_ & V).
    destruct (IH v b c x y U V B D E) as (-> & ->). auto.
Qed.

Lemma dec_cell n : cell (dec n) = true.
Proof. unfold dec. induction (Nat.to_uint n); cbn; auto. Qed.

Lemma dec_digit n : exists b r, dec n = String b r /\ Ascii.eqb b "-" = false.
Proof.
  unfold dec. destruct (Nat.to_uint n) eqn:E; try (do 2 eexists; split; reflexivity).
  exfalso. destruct n; [discriminate|]. apply (f_equal Nat.of_uint) in E. rewrite Unsigned.of_to in E. discriminate.
Qed.

Lemma i8_cell z : cell (i8_text z) = true.
Proof. destruct z; cbn [i8_text]; [reflexivity|apply dec_cell|cbn [append cell]; apply dec_cell]. Qed.

Lemma i8_inj a b : i8_text a = i8_text b -> a = b.
Proof.
  assert (K : forall n x, dec n <> "-" ++ x).
  { intros n x E. destruct (dec_digit n) as (c & r & D & N). rewrite D in E. injection E as -> _. discriminate. }
  destruct a as [|p|p], b as [|q|q]; cbn [i8_text]; intros E; try reflexivity;
    try (exfalso; now apply (K _ _ E)); try (exfalso; now apply (K _ _ (eq_sym E))).
  - apply dec_inj in E. lia.
  - apply dec_inj in E. lia.
  - apply dec_inj in E. f_equal. lia.
  - injection E as E. apply dec_inj in E. f_equal. lia.
Qed.

(** Items separated by commas and followed by [stop]; each item can be told
    from what follows it. *)
Lemma items_inj {A} (f : A -> string) (P : A -> Prop) (stop : ascii) :
  (forall a b c d x y, P a -> P b -> (c = "," \/ c = stop)%char -> (d = "," \/ d = stop)%char ->
     f a ++ String c x = f b ++ String d y -> a = b /\ String c x = String d y) ->
  stop <> ","%char ->
  forall l k x y, Forall P l -> Forall P k -> l <> [] -> k <> [] ->
  String.concat "," (map f l) ++ String stop x = String.concat "," (map f k) ++ String stop y -> l = k /\ x = y.
Proof.
  intros K N l. induction l as [|a l IH]; intros k x y Pl Pk Nl Nk E; [now destruct Nl|].
  destruct k as [|b k]; [now destruct Nk|]. inversion Pl as [|? ? Pa Pl']; subst. inversion Pk as [|? ? Pb Pk']; subst.
  destruct l as [|a' l], k as [|b' k]; cbn [map String.concat] in E.
  - apply K in E as (-> & E); auto. injection E as ->. auto.
  - rewrite !sapp_assoc in E. cbn [append] in E. apply K in E as (_ & E); auto. injection E as E _. now destruct N.
  - rewrite !sapp_assoc in E. cbn [append] in E. apply K in E as (_ & E); auto. injection E as E _. now destruct N.
  - rewrite !sapp_assoc in E. cbn [append] in E. apply K in E as (-> & E); auto. injection E as E.
    apply (IH (b' :: k)) in E as (E & ->); auto; try discriminate. now rewrite E.
Qed.

Lemma row_inj r k x y : row_text r ++ x = row_text k ++ y -> r = k /\ x = y.
Proof.
  destruct r as [|a r], k as [|b k]; unfold row_text, row_form; intros E.
  - injection E as ->. auto.
  - discriminate.
  - discriminate.
  - rewrite !sapp_assoc in E. cbn [append] in E. injection E as E.
    apply (items_inj i8_text (fun _ => True) ")"%char) with (l := a :: r) (k := b :: k) in E; auto; try discriminate; try (apply Forall_forall; auto).
    clear. intros a b c d x y _ _ Hc Hd E.
    apply cell_split in E as (E & F); [split; [now apply i8_inj|exact F]|apply i8_cell|apply i8_cell| |];
      [destruct Hc as [-> | ->]|destruct Hd as [-> | ->]]; reflexivity.
Qed.

Lemma quotable_split u : quotable u -> forall v x y, quotable v ->
  u ++ dquote ++ x = v ++ dquote ++ y -> u = v /\ x = y.
Proof.
  unfold dquote. induction 1 as [|b u B H IH|b u B H IH|a b c d u B H IH]; intros v x y V E; inversion V as [|b' v' B' V'|b' v' B' V'|a' b' c' d' v' B' V']; subst; cbn [append] in E.
  - injection E as ->. auto.
  - injection E as <- _. discriminate.
  - discriminate.
  - discriminate.
  - injection E as -> _. discriminate.
  - injection E as -> E. apply IH in E as (-> & ->); auto.
  - injection E as -> _. discriminate.
  - injection E as -> _. discriminate.
  - discriminate.
  - injection E as <- _. discriminate.
  - injection E as -> E. apply IH in E as (-> & ->); auto.
  - injection E as -> _. discriminate.
  - discriminate.
  - injection E as <- _. discriminate.
  - injection E as <- _. discriminate.
  - injection E as -> -> -> -> E. apply IH in E as (-> & ->); auto.
Qed.

Lemma list_inj {A} (f : A -> string) (P : A -> Prop) :
  (forall a b x y, P a -> P b -> f a ++ x = f b ++ y -> a = b /\ x = y) ->
  forall l k x y, Forall P l -> Forall P k -> list_text (map f l) ++ x = list_text (map f k) ++ y -> l = k /\ x = y.
Proof.
  intros K [|a l] [|b k] x y Pl Pk E.
  - injection E as ->. auto.
  - discriminate.
  - discriminate.
  - unfold list_text in E. cbn [map] in E. rewrite !sapp_assoc in E.
    change ("[" ++ String.concat "," (map f (a :: l)) ++ String "]" x = "[" ++ String.concat "," (map f (b :: k)) ++ String "]" y) in E.
    cbn [append] in E. injection E as E.
    apply (items_inj f P "]"%char) with (l := a :: l) (k := b :: k) in E; auto; discriminate.
Qed.

(** Equal texts are texts of the same program when the names are such as can
    be written between quotes. *)
Theorem display_inj m k : Forall quotable (msp_pi m) -> Forall quotable (msp_pi k) ->
  display m = display k -> m = k.
Proof.
  intros Qm Qk E. rewrite !display_text in E. cbn [append] in E. injection E as E.
  apply (list_inj row_text (fun _ => True)) in E as (E1 & E); [|intros a b x y _ _; apply row_inj|apply Forall_forall; auto|apply Forall_forall; auto].
  cbn [append] in E. injection E as E.
  apply (list_inj (fun n => dquote ++ n ++ dquote) quotable) in E as (E2 & E); auto.
  2:{ intros a b x y A B F. rewrite !sapp_assoc in F. unfold dquote in F at 1 3. cbn [append] in F. injection F as F.
      now apply quotable_split in F. }
  cbn [append] in E. injection E as E. apply cell_split in E as (E & _); try apply dec_cell; try reflexivity.
  apply dec_inj in E. destruct m, k; cbn in *; congruence.
Qed.

(** ** Programs of policies *)
Theorem new_exact pol lang :
  match parse pol lang with
  | Ok v => exists f, v = tree f /\
      if binary_and f then exists m, abe_policy_new pol lang = Ok m /\ calculate_msp (tree f) = Ok m
      else abe_policy_new pol lang = Panic
  | Err => abe_policy_new pol lang = Err
  | Panic => abe_policy_new pol lang = Panic
  end.
Proof.
  unfold abe_policy_new, from_language. destruct (parse pol lang) as [v| |] eqn:E; [|reflexivity|reflexivity].
  destruct (parse_shape pol lang v E) as (f & -> & _). exists f. split; [reflexivity|]. cbn [obind].
  destruct (msp_accepts f) as (A & B). destruct (binary_and f).
  - destruct (A eq_refl) as (m & Em). exists m. now rewrite Em.
  - now apply B.
Qed.

Lemma new_names pol lang m : abe_policy_new pol lang = Ok m -> Forall quotable (msp_pi m).
Proof.
  intros H. pose proof (new_exact pol lang) as N. destruct (parse pol lang) as [v| |] eqn:E; try congruence.
  destruct N as (f & -> & N). destruct (binary_and f); [|congruence]. destruct N as (m' & E1 & E2).
  assert (m' = m) as -> by congruence. apply accepted_names in E.
  destruct (msp_shape f m E2) as (_ & P & _). eapply Permutation.Permutation_Forall; [apply Permutation.Permutation_sym, P|exact E].
Qed.

Theorem new_text pol lang pol' lang' m m' :
  abe_policy_new pol lang = Ok m -> abe_policy_new pol' lang' = Ok m' ->
  (display m = display m' <-> m = m').
Proof.
  intros H H'. split; [|now intros ->]. apply display_inj; eapply new_names; eassumption.
Qed.

(** A quote inside a name of a value built by hand. *)
Theorem display_ambiguous : exists v v' m m',
  from_policy v = Ok m /\ from_policy v' = Ok m' /\ display m = display m' /\ m <> m'.
Proof.
  exists (tree (FOr [FLeaf ("A" ++ dquote ++ "," ++ dquote ++ "B") 0; FLeaf "C" 0])),
         (tree (FOr [FLeaf "A" 0; FLeaf ("B" ++ dquote ++ "," ++ dquote ++ "C") 0])).
  do 2 eexists. split; [vm_compute; reflexivity|]. split; [vm_compute; reflexivity|].
  split; [vm_compute; reflexivity|discriminate].
Qed.
