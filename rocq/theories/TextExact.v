(** * TextExact: the second line of every text, and the text of every policy value

    [read_raw] on every text, and [serialize_policy] on every value, also on those that no
    parser makes. *)
From Coq Require Import String Ascii List Bool Arith Lia.
From Verif Require Import Base Policy Parse Files FilesProofs RobustProofs.
Import ListNotations.
Local Open Scope string_scope.

(** ** Specification *)

(** No line feed. *)
Definition on_one_line (s : string) : Prop := forall a b, s <> a ++ String nl b.

(** One carriage return at the end is dropped, if there is one. *)
Definition without_cr (s t : string) : Prop :=
  s = t ++ String cr "" \/ (s = t /\ forall a, s <> a ++ String cr "").

(** An array that has no [And] or [Or] directly around it. *)
Inductive dangling : option ptype -> pvalue -> Prop :=
| dang_here p l : p <> Some And -> p <> Some Or -> dangling p (PArr l)
| dang_in p l v : In v l -> dangling None v -> dangling p (PArr l)
| dang_obj p t v : dangling (Some t) v -> dangling p (PObj t v).

(** ** The second line *)

Lemma one_line_tail c s : on_one_line (String c s) -> Ascii.eqb c nl = false /\ on_one_line s.
Proof.
  intros H. split.
  - destruct (Ascii.eqb c nl) eqn:E; [|reflexivity]. apply Ascii.eqb_eq in E. subst. exfalso. now apply (H "" s).
  - intros a b ->. now apply (H (String c a) b).
Qed.

Lemma lines_ended s : forall cur rest, on_one_line s ->
  lines_from cur (s ++ String nl rest) = strip_cr (cur ++ s) :: lines_from "" rest.
Proof.
  induction s as [|c s IH]; intros cur rest H.
  - rewrite sapp_nil. reflexivity.
  - apply one_line_tail in H as [E H]. cbn [append lines_from]. rewrite E, IH by exact H. now rewrite sapp_ass.
Qed.

Lemma lines_last s : forall cur, on_one_line s ->
  lines_from cur s = match cur ++ s with EmptyString => [] | w => [w] end.
Proof.
  induction s as [|c s IH]; intros cur H.
  - rewrite sapp_nil. destruct cur; reflexivity.
  - apply one_line_tail in H as [E H]. cbn [lines_from]. rewrite E, IH by exact H. rewrite sapp_ass. cbn [append].
    destruct cur; reflexivity.
Qed.

Lemma first_line s : on_one_line s \/ exists a b, on_one_line a /\ s = a ++ String nl b.
Proof.
  induction s as [|c s IH].
  - left. intros [|? ?] ?; discriminate.
  - destruct (Ascii.eqb c nl) eqn:E.
    + apply Ascii.eqb_eq in E. subst. right. exists "", s. split; [intros [|? ?] ?; discriminate|reflexivity].
    + destruct IH as [IH|(a & b & Ha & ->)].
      * left. intros [|d a] b Q; cbn in Q; injection Q as -> Q; [discriminate E|now apply (IH a b)].
      * right. exists (String c a), b. split; [|reflexivity].
        intros [|d a'] b' Q; cbn in Q; injection Q as -> Q; [discriminate E|now apply (Ha a' b')].
Qed.

Lemma strip_without s : without_cr s (strip_cr s).
Proof.
  induction s as [|c s IH]; [right; split; [reflexivity|intros [|? ?]; discriminate]|].
  destruct s as [|d s].
  - cbn [strip_cr]. destruct (Ascii.eqb c cr) eqn:E.
    + apply Ascii.eqb_eq in E. subst. left. reflexivity.
    + right. split; [reflexivity|]. intros [|e [|? ?]] Q; cbn in Q; try discriminate.
      injection Q as ->. now rewrite Ascii.eqb_refl in E.
  - change (strip_cr (String c (String d s))) with (String c (strip_cr (String d s))).
    set (w := String d s) in *. destruct IH as [IH|[IH N]].
    + left. cbn [append]. f_equal. exact IH.
    + right. split; [f_equal; exact IH|]. intros [|e a] Q; cbn in Q; [unfold w in Q; discriminate|].
      injection Q as -> Q. now apply (N a).
Qed.

Theorem read_raw_exact raw :
  (exists head line tail t, on_one_line head /\ on_one_line line /\
     raw = head ++ String nl (line ++ String nl tail) /\ without_cr line t /\ read_raw raw = Ok t) \/
  (exists head line, on_one_line head /\ on_one_line line /\ line <> "" /\
     raw = head ++ String nl line /\ read_raw raw = Ok line) \/
  ((on_one_line raw \/ exists head, on_one_line head /\ raw = head ++ String nl "") /\ read_raw raw = Panic).
Proof.
  unfold read_raw, lines. destruct (first_line raw) as [H|(head & rest & H & ->)].
  - right. right. split; [now left|]. rewrite lines_last by exact H. destruct ("" ++ raw); reflexivity.
  - rewrite lines_ended by exact H. cbn [nth_error append].
    destruct (first_line rest) as [R|(line & tail & R & ->)].
    + rewrite lines_last by exact R. cbn [append]. destruct rest as [|c rest].
      * right. right. split; [right; now exists head|reflexivity].
      * right. left. exists head, (String c rest). split; [exact H|]. split; [exact R|]. split; [discriminate|].
        split; reflexivity.
    + left. exists head, line, tail, (strip_cr line). split; [exact H|]. split; [exact R|]. split; [reflexivity|].
      split; [apply strip_without|]. rewrite lines_ended by exact R. reflexivity.
Qed.

(** ** Texts of values *)

Lemma json_total v : forall p, exists s, serialize_policy v JsonPolicy p = Ok s.
Proof.
  induction v as [n q|t w IH|l IH] using pvalue_ind'; intros p; cbn [serialize_policy].
  - eexists. reflexivity.
  - destruct (IH None) as (s & E). destruct t; rewrite ?E; cbn [obind]; eexists; try reflexivity; exact E.
  - assert (X : exists ss, (fix loop (l : list pvalue) : outcome (list string) :=
       match l with
       | [] => Ok []
       | c :: r => obind (serialize_policy c JsonPolicy None) (fun s => obind (loop r) (fun ss => Ok (s :: ss)))
       end) l = Ok ss).
    { induction IH as [|c l H _ IHl]; [eexists; reflexivity|].
      destruct (H None) as (s & ->). destruct IHl as (ss & ->). eexists. reflexivity. }
    destruct X as (ss & ->). eexists. reflexivity.
Qed.

Lemma json_leaf w p : serialize_policy (PObj Leaf w) JsonPolicy p = serialize_policy w JsonPolicy None.
Proof. reflexivity. Qed.

Lemma human_outcome v : forall p,
  (dangling p v /\ serialize_policy v HumanPolicy p = Panic) \/
  (~ dangling p v /\ exists s, serialize_policy v HumanPolicy p = Ok s).
Proof.
  induction v as [n q|t w IH|l IH] using pvalue_ind'; intros p; cbn [serialize_policy].
  - right. split; [intros D; inversion D|]. eexists. reflexivity.
  - destruct (IH (Some t)) as [[D ->]|[D H]].
    + left. split; [now constructor|reflexivity].
    + right. split; [intros D'; inversion D'; subst; auto|exact H].
  - assert (X : (exists v, In v l /\ dangling None v) /\
       (fix loop (l : list pvalue) : outcome (list string) :=
       match l with
       | [] => Ok []
       | c :: r => obind (serialize_policy c HumanPolicy None) (fun s => obind (loop r) (fun ss => Ok (s :: ss)))
       end) l = Panic \/ (forall v, In v l -> ~ dangling None v) /\ exists ss,
       (fix loop (l : list pvalue) : outcome (list string) :=
       match l with
       | [] => Ok []
       | c :: r => obind (serialize_policy c HumanPolicy None) (fun s => obind (loop r) (fun ss => Ok (s :: ss)))
       end) l = Ok ss).
    { induction IH as [|c l H _ IHl].
      - right. split; [intros v []|]. eexists. reflexivity.
      - destruct (H None) as [[D ->]|[D (s & ->)]]; cbn [obind].
        + left. split; [exists c; split; [now left|exact D]|reflexivity].
        + destruct IHl as [[(v & I & Dv) ->]|[N (ss & ->)]]; cbn [obind].
          * left. split; [exists v; split; [now right|exact Dv]|reflexivity].
          * right. split; [intros v [<-|I]; [exact D|now apply N]|]. eexists. reflexivity. }
    destruct X as [[(v & I & D) ->]|[N (ss & ->)]]; cbn [obind].
    + left. split; [|reflexivity]. eapply dang_in; eassumption.
    + destruct p as [[]|].
      * right. split; [intros D; inversion D as [? ? A B|? ? v I Dv|]; subst; [now apply A|exact (N v I Dv)]|]. eexists. reflexivity.
      * right. split; [intros D; inversion D as [? ? A B|? ? v I Dv|]; subst; [now apply B|exact (N v I Dv)]|]. eexists. reflexivity.
      * left. split; [apply dang_here; discriminate|reflexivity].
      * left. split; [apply dang_here; discriminate|reflexivity].
Qed.

Theorem human_exact v p :
  (serialize_policy v HumanPolicy p = Panic <-> dangling p v) /\ serialize_policy v HumanPolicy p <> Err.
Proof.
  destruct (human_outcome v p) as [[D ->]|[D (s & ->)]].
  - split; [split; auto|discriminate].
  - split; [split; [discriminate|contradiction]|discriminate].
Qed.
