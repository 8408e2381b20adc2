(** A policy is never larger than its text: every node of the tree, and every
    character of its names, is paid for by a character of the text. *)
From Coq Require Import String Ascii List Bool Arith Lia ZArith.
From Verif Require Import Base Crypto Poly Policy Spec Peg Grammar Parse Layout LexProofs LayoutProofs JsonLayoutProofs
  Primes BnInstance.
Import ListNotations.
Local Open Scope string_scope.

(** Nodes and characters of the names. *)
Fixpoint weight (f : formula) : nat :=
  match f with
  | FLeaf n _ => S (String.length n)
  | FAnd l => S (list_sum (map weight l))
  | FOr l => S (list_sum (map weight l))
  end.

Lemma app_length x y : String.length (x ++ y) = (String.length x + String.length y)%nat.
Proof. induction x as [|a x IH]; cbn; [reflexivity|now rewrite IH]. Qed.

Lemma weight_junction t l : weight (junction t l) = S (list_sum (map weight l)).
Proof. now destruct t. Qed.

Lemma op_length t op : spelled (op_words t) op -> (2 <= String.length op)%nat.
Proof.
  intros [w I|w g h I _ _].
  - destruct t; cbn in I; destruct I as [<-|[<-|[<-|[]]]]; cbn; lia.
  - rewrite !app_length. cbn. lia.
Qed.

Lemma human_weight w : wellformed w -> without_numbers w = true -> forall c,
  (weight (meaning c w) + 1 <= String.length (show w))%nat.
Proof.
  apply (written_mut
    (fun w => wellformed w -> without_numbers w = true -> forall c,
       (weight (meaning c w) + 1 <= String.length (show w))%nat)
    (fun r => forall t, wellformed_links t r -> without_numbers_links r = true -> forall c,
       (list_sum (map weight (meaning_links c r)) + length (meaning_links c r) <= String.length (show_links r))%nat)); clear w.
  - intros raw _ _ c. cbn [meaning weight show]. rewrite !app_length. cbn. lia.
  - intros x _ H. discriminate.
  - intros o g i IH h cl (_ & _ & W & _) N c. cbn [meaning show]. specialize (IH W N (column_after (String o g) c)).
    cbn [String.length]. rewrite !app_length. lia.
  - intros t f IHf r IHr (Wf & _ & Ne & Wr) N c. cbn [without_numbers] in N. apply andb_prop in N as [Nf Nr].
    cbn [meaning show]. rewrite weight_junction. cbn [map list_sum fold_right].
    specialize (IHf Wf Nf c). specialize (IHr t Wr Nr (column_after (show f) c)).
    unfold list_sum in IHr. rewrite app_length.
    destruct r as [|g op h k r]; [contradiction|]. cbn [meaning_links length] in IHr. cbn [meaning_links]. lia.
  - intros t _ _ c. cbn. lia.
  - intros g op h k IHk r IHr t (_ & O & _ & Wk & _ & Wr) N c. cbn [without_numbers_links] in N.
    apply andb_prop in N as [Nk Nr]. cbn [meaning_links show_links map list_sum fold_right length].
    specialize (IHk Wk Nk (column_after (g ++ op ++ h) c)).
    specialize (IHr t Wr Nr (column_after (show k) (column_after (g ++ op ++ h) c))).
    unfold list_sum in IHr. rewrite !app_length. pose proof (op_length t op O). lia.
Qed.

Lemma json_weight w : jwithout_numbers w = true -> forall c,
  (weight (jmeaning c w) + 2 <= String.length (jshow w))%nat.
Proof.
  apply (jwritten_mut
    (fun w => jwithout_numbers w = true -> forall c, (weight (jmeaning c w) + 2 <= String.length (jshow w))%nat)
    (fun b => jwithout_numbers_body b = true -> forall c,
       (weight (jmeaning_body c b) <= String.length (jshow_body b))%nat)
    (fun i => jwithout_numbers_kids i = true -> forall c,
       (list_sum (map weight (jmeaning_kids c i)) <= String.length (jshow_kids i))%nat)
    (fun r => jwithout_numbers_more r = true -> forall c,
       (list_sum (map weight (jmeaning_more c r)) <= String.length (jshow_more r))%nat)); clear w.
  - intros g key h k b IH l N c. cbn [jmeaning jshow]. cbn [jwithout_numbers] in N.
    specialize (IH N (column_after ("{" ++ g ++ key ++ h ++ ":" ++ k) c)). rewrite !app_length. cbn [String.length]. lia.
  - intros raw _ c. cbn [jmeaning_body weight jshow_body]. rewrite !app_length. cbn. lia.
  - intros x N. discriminate.
  - intros t op g h key k l i IH N c. cbn [jmeaning_body jshow_body]. rewrite weight_junction.
    specialize (IH N (column_after (op ++ g ++ "," ++ h ++ key ++ k ++ ":" ++ l ++ "[") c)).
    rewrite !app_length. cbn [String.length]. lia.
  - intros g _ c. cbn. lia.
  - intros g f IHf r IHr h N c. cbn [jwithout_numbers_kids] in N. apply andb_prop in N as [Nf Nr].
    cbn [jmeaning_kids jshow_kids map list_sum fold_right].
    specialize (IHf Nf (column_after g c)). specialize (IHr Nr (column_after (jshow f) (column_after g c))).
    unfold list_sum in IHr. rewrite !app_length. lia.
  - intros _ c. cbn. lia.
  - intros g h n IHn r IHr N c. cbn [jwithout_numbers_more] in N. apply andb_prop in N as [Nn Nr].
    cbn [jmeaning_more jshow_more map list_sum fold_right].
    specialize (IHn Nn (column_after (g ++ "," ++ h) c)).
    specialize (IHr Nr (column_after (jshow n) (column_after (g ++ "," ++ h) c))).
    unfold list_sum in IHr. rewrite !app_length. lia.
Qed.

Theorem weight_bound pol lang f : parse pol lang = Ok (tree f) -> (weight f < String.length pol)%nat.
Proof.
  intros H. destruct lang.
  - apply json_ok in H. destruct H as (g & w & (h & _ & W & _ & -> & _) & N & ->).
    pose proof (json_weight w N (column_after g 1)). rewrite !app_length. lia.
  - apply human_ok in H. destruct H as (g & w & (h & _ & W & _ & ->) & N & ->).
    pose proof (human_weight w W N (column_after g 1)). rewrite !app_length. lia.
Qed.

Lemma weight_children l : (length l <= list_sum (map weight l))%nat.
Proof.
  unfold list_sum. induction l as [|f l IH]; cbn [map fold_right length]; [lia|].
  assert (1 <= weight f)%nat by (destruct f; cbn; lia). lia.
Qed.

Lemma and_width_weight f : (and_width f <= weight f)%nat.
Proof.
  induction f as [n c|l IH|l IH] using formula_ind'; cbn [and_width weight]; [lia|..].
  - pose proof (weight_children l).
    assert (fold_right (fun g m => Nat.max (and_width g) m) 0 l <= list_sum (map weight l))%nat; [|lia].
    clear H. unfold list_sum. induction IH; cbn [map fold_right]; lia.
  - assert (fold_right (fun g m => Nat.max (and_width g) m) 0 l <= list_sum (map weight l))%nat; [|lia].
    unfold list_sum. induction IH; cbn [map fold_right]; lia.
Qed.

Lemma leaves_weight f :
  (list_sum (map (fun x => S (String.length (fst x))) (leaves f)) <= weight f)%nat.
Proof.
  induction f as [n c|l IH|l IH] using formula_ind'; cbn [leaves weight]; [cbn; lia|..];
    (induction IH as [|f l H _ IH']; cbn [flat_map map]; [cbn; lia|];
     rewrite map_app, list_sum_app; unfold list_sum at 3; cbn [fold_right];
     fold (list_sum (map weight l)); lia).
Qed.

Lemma names_weight f : (length (leaves f) + list_sum (map String.length (names f)) <= weight f)%nat.
Proof.
  pose proof (leaves_weight f) as H. unfold names. rewrite map_map.
  assert (E : forall l : list (string * nat),
    list_sum (map (fun x => S (String.length (fst x))) l) =
    (length l + list_sum (map (fun x => String.length (fst x)) l))%nat).
  { unfold list_sum. induction l as [|x l IH]; cbn [map fold_right length]; [reflexivity|]. rewrite IH. lia. }
  rewrite E in H. exact H.
Qed.

Theorem text_bound pol lang f : parse pol lang = Ok (tree f) ->
  (and_width f < String.length pol)%nat /\
  (length (leaves f) + list_sum (map String.length (names f)) < String.length pol)%nat.
Proof.
  intros H. apply weight_bound in H. pose proof (and_width_weight f). pose proof (names_weight f). lia.
Qed.

(** In a scalar field as large as that of BN254 no policy is too wide. *)
Theorem wide_enough C q pol lang f : scalar_order C q -> (Z.of_nat (String.length pol) <= q)%Z ->
  parse pol lang = Ok (tree f) -> small_ok C (and_width f).
Proof.
  intros O B H. destruct (text_bound pol lang f H) as [W _].
  apply (order_small C q); [exact O|lia|lia].
Qed.

Lemma bn_above : (2 ^ 64 <= bn_order)%Z.
Proof. apply Z.leb_le. vm_compute. reflexivity. Qed.

Theorem bn_width C pol lang f : scalar_order C bn_order -> (Z.of_nat (String.length pol) < 2 ^ 64)%Z ->
  parse pol lang = Ok (tree f) -> forall k : nat, (0 < k <= and_width f)%nat -> (usize_to_fr k : F C) <> f0 C.
Proof.
  intros O B H. pose proof bn_above. apply (wide_enough C bn_order pol lang f); [exact O|lia|exact H].
Qed.
