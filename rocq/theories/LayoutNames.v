(** * LayoutNames: the names of a policy are parts of its text *)
From Coq Require Import String Ascii List Bool Arith NArith Lia.
From Verif Require Import Base Policy Spec Parse Files Layout LayoutProofs JsonLayoutProofs.
Import ListNotations.
Local Open Scope nat_scope.
Local Open Scope string_scope.

(** ** Specification *)

(** [n] stands between quotes in [x], and its first character is at column [p]. *)
Definition quoted_at (x : string) (c : nat) (n : string) (p : nat) : Prop :=
  exists u v, x = u ++ dquote ++ n ++ dquote ++ v /\ p = column_after (u ++ dquote) c.

(** ** UTF-8 texts fall apart at ASCII characters *)

Lemma between_range lo hi a : between lo hi a = true <-> lo <= nat_of_ascii a /\ nat_of_ascii a <= hi.
Proof. unfold between. rewrite andb_true_iff, !Nat.leb_le. tauto. Qed.

Lemma utf8_part c b : nat_of_ascii c < 128 -> forall n a, length (list_ascii_of_string a) <= n ->
  utf8 (a ++ String c b) = true -> utf8 a = true /\ utf8 b = true.
Proof.
  intros H. assert (X : forall lo hi, 128 <= lo -> between lo hi c = false).
  { intros lo hi K. destruct (between lo hi c) eqn:B; [|reflexivity]. apply between_range in B. lia. }
  assert (Y : between 0 127 c = true) by (apply between_range; lia).
  induction n as [|n IH]; intros a L U.
  - destruct a as [|a1 a]; cbn in L; [|lia]. cbn [append utf8] in U. rewrite Y in U. now split.
  - destruct a as [|a1 a]; [cbn [append utf8] in U; rewrite Y in U; now split|].
    cbn [append utf8] in U |- *. cbn [list_ascii_of_string length] in L.
    destruct (between 0 127 a1); [apply IH; [lia|exact U]|].
    destruct a as [|a2 a]; cbn [append] in U.
    { exfalso. rewrite !X in U by lia. cbn [andb] in U.
      destruct (between 194 223 a1); [discriminate|]. destruct b as [|b1 b]; [discriminate|].
      destruct (between 224 224 a1); [discriminate|]. destruct (between 225 236 a1 || between 238 239 a1); [discriminate|].
      destruct (between 237 237 a1); [discriminate|]. destruct b; [discriminate|].
      destruct (between 240 240 a1); [discriminate|]. destruct (between 241 243 a1); [discriminate|].
      destruct (between 244 244 a1); discriminate. }
    cbn [list_ascii_of_string length] in L.
    destruct (between 194 223 a1).
    { apply andb_prop in U as [U1 U2]. rewrite U1. apply IH; [lia|exact U2]. }
    destruct a as [|a3 a]; cbn [append] in U.
    { exfalso. rewrite !(X 128) in U by lia. rewrite !andb_false_r in U. cbn [andb] in U.
      destruct (between 224 224 a1); [discriminate|]. destruct (between 225 236 a1 || between 238 239 a1); [discriminate|].
      destruct (between 237 237 a1); [discriminate|]. destruct b; [discriminate|].
      destruct (between 240 240 a1); [discriminate|]. destruct (between 241 243 a1); [discriminate|].
      destruct (between 244 244 a1); discriminate. }
    cbn [list_ascii_of_string length] in L.
    destruct (between 224 224 a1).
    { apply andb_prop in U as [U1 U2]. rewrite U1. apply IH; [lia|exact U2]. }
    destruct (between 225 236 a1 || between 238 239 a1).
    { apply andb_prop in U as [U1 U2]. rewrite U1. apply IH; [lia|exact U2]. }
    destruct (between 237 237 a1).
    { apply andb_prop in U as [U1 U2]. rewrite U1. apply IH; [lia|exact U2]. }
    destruct a as [|a4 a]; cbn [append] in U.
    { exfalso. rewrite !(X 128) in U by lia. rewrite !andb_false_r in U. cbn [andb] in U.
      destruct (between 240 240 a1); [discriminate|]. destruct (between 241 243 a1); [discriminate|].
      destruct (between 244 244 a1); discriminate. }
    cbn [list_ascii_of_string length] in L.
    destruct (between 240 240 a1).
    { apply andb_prop in U as [U1 U2]. rewrite U1. apply IH; [lia|exact U2]. }
    destruct (between 241 243 a1).
    { apply andb_prop in U as [U1 U2]. rewrite U1. apply IH; [lia|exact U2]. }
    destruct (between 244 244 a1); [|discriminate].
    apply andb_prop in U as [U1 U2]. rewrite U1. apply IH; [lia|exact U2].
Qed.

Lemma utf8_split a c b : nat_of_ascii c < 128 ->
  utf8 (a ++ String c b) = true -> utf8 a = true /\ utf8 b = true.
Proof. intros H. exact (utf8_part c b H _ a (le_n _)). Qed.

Lemma quoted_utf8 x c n p : quoted_at x c n p -> utf8 x = true -> utf8 n = true.
Proof.
  intros (u & v & -> & _) U. apply utf8_split in U as [_ U]; [|cbn; lia].
  cbn [append] in U. apply utf8_split in U; [|cbn; lia]. tauto.
Qed.

(** ** Where a name stands *)

Lemma column_app x y c : column_after (x ++ y) c = column_after y (column_after x c).
Proof. revert c. induction x as [|b x IH]; intros c; cbn [append column_after]; [reflexivity|]. apply IH. Qed.

Lemma sapp_assoc (x y z : string) : (x ++ y) ++ z = x ++ y ++ z.
Proof. induction x as [|b x IH]; cbn; [reflexivity|]. now rewrite IH. Qed.

Lemma quoted_right x y c n p : quoted_at x c n p -> quoted_at (x ++ y) c n p.
Proof.
  intros (u & v & -> & ->). exists u, (v ++ y). split; [|reflexivity]. now rewrite !sapp_assoc.
Qed.
Lemma quoted_left x y c n p : quoted_at y (column_after x c) n p -> quoted_at (x ++ y) c n p.
Proof.
  intros (u & v & -> & ->). exists (x ++ u), v. split; [now rewrite !sapp_assoc|].
  rewrite sapp_assoc. now rewrite (column_app x).
Qed.
Lemma quoted_here n c : quoted_at (dquote ++ n ++ dquote) c n (S c).
Proof.
  exists "", "". split; [reflexivity|]. reflexivity.
Qed.

Definition leaf_in (f : formula) (n : string) (p : nat) : Prop := In (n, p) (leaves f).

Lemma junction_leaves t l n p : leaf_in (junction t l) n p <-> exists f, In f l /\ leaf_in f n p.
Proof.
  unfold leaf_in, junction. destruct t; cbn [leaves]; rewrite in_flat_map; split; intros (f & H & K); eauto.
Qed.

Lemma human_quoted :
  (forall w c n p, without_numbers w = true -> leaf_in (meaning c w) n p -> quoted_at (show w) c n p).
Proof.
  apply (written_mut
    (fun w => forall c n p, without_numbers w = true -> leaf_in (meaning c w) n p -> quoted_at (show w) c n p)
    (fun r => forall c n p, without_numbers_links r = true ->
       (exists f, In f (meaning_links c r) /\ leaf_in f n p) -> quoted_at (show_links r) c n p)).
  - intros raw c n p _ [H|[]]. injection H as <- <-. apply quoted_here.
  - discriminate.
  - intros o g i IH h cl c n p H K. cbn [without_numbers meaning show] in *.
    change (String o (g ++ show i ++ h ++ String cl "")) with (String o g ++ (show i ++ h ++ String cl "")).
    apply quoted_left, quoted_right, IH; assumption.
  - intros t f IHf r IHr c n p H K. cbn [without_numbers meaning show] in *. apply andb_prop in H as [H1 H2].
    apply junction_leaves in K as (f' & [<-|I] & K).
    + apply quoted_right, IHf; assumption.
    + apply quoted_left, IHr; [exact H2 | eauto].
  - intros c n p _ (f & [] & _).
  - intros g op h k IHk r IHr c n p H (f & I & K). cbn [without_numbers_links meaning_links show_links] in *.
    apply andb_prop in H as [H1 H2].
    replace (g ++ op ++ h ++ show k ++ show_links r) with ((g ++ op ++ h) ++ show k ++ show_links r)
      by now rewrite !sapp_assoc.
    apply quoted_left. cbv zeta in I. destruct I as [<-|I].
    + apply quoted_right, IHk; assumption.
    + apply quoted_left, IHr; [exact H2 | eauto].
Qed.

Lemma json_quoted :
  (forall w c n p, jwithout_numbers w = true -> leaf_in (jmeaning c w) n p -> quoted_at (jshow w) c n p).
Proof.
  apply (jwritten_mut
    (fun w => forall c n p, jwithout_numbers w = true -> leaf_in (jmeaning c w) n p -> quoted_at (jshow w) c n p)
    (fun b => forall c n p, jwithout_numbers_body b = true -> leaf_in (jmeaning_body c b) n p -> quoted_at (jshow_body b) c n p)
    (fun i => forall c n p, jwithout_numbers_kids i = true ->
       (exists f, In f (jmeaning_kids c i) /\ leaf_in f n p) -> quoted_at (jshow_kids i) c n p)
    (fun r => forall c n p, jwithout_numbers_more r = true ->
       (exists f, In f (jmeaning_more c r) /\ leaf_in f n p) -> quoted_at (jshow_more r) c n p)).
  - intros g key h k b IH l c n p H K. cbn [jwithout_numbers jmeaning jshow] in *.
    replace ("{" ++ g ++ key ++ h ++ ":" ++ k ++ jshow_body b ++ l ++ "}")
      with (("{" ++ g ++ key ++ h ++ ":" ++ k) ++ jshow_body b ++ l ++ "}") by now rewrite !sapp_assoc.
    apply quoted_left, quoted_right, IH; assumption.
  - intros raw c n p _ [H|[]]. injection H as <- <-. apply quoted_here.
  - discriminate.
  - intros t op g h key k l i IH c n p H K. cbn [jwithout_numbers_body jmeaning_body jshow_body] in *.
    replace (op ++ g ++ "," ++ h ++ key ++ k ++ ":" ++ l ++ "[" ++ jshow_kids i ++ "]")
      with ((op ++ g ++ "," ++ h ++ key ++ k ++ ":" ++ l ++ "[") ++ jshow_kids i ++ "]") by now rewrite !sapp_assoc.
    apply junction_leaves in K. apply quoted_left, quoted_right, IH; assumption.
  - intros g c n p _ (f & [] & _).
  - intros g f IHf r IHr h c n p H (f' & I & K). cbn [jwithout_numbers_kids jmeaning_kids jshow_kids] in *.
    apply andb_prop in H as [H1 H2]. apply quoted_left. cbv zeta in I. destruct I as [<-|I].
    + apply quoted_right, IHf; assumption.
    + apply quoted_left, quoted_right, IHr; [exact H2 | eauto].
  - intros c n p _ (f & [] & _).
  - intros g h k IHk r IHr c n p H (f & I & K). cbn [jwithout_numbers_more jmeaning_more jshow_more] in *.
    apply andb_prop in H as [H1 H2].
    replace (g ++ "," ++ h ++ jshow k ++ jshow_more r) with ((g ++ "," ++ h) ++ jshow k ++ jshow_more r)
      by now rewrite !sapp_assoc.
    apply quoted_left. cbv zeta in I. destruct I as [<-|I].
    + apply quoted_right, IHk; assumption.
    + apply quoted_left, IHr; [exact H2 | eauto].
Qed.

(** Every leaf of a parsed policy stands in the text, at its number. *)
Theorem parsed_quoted pol lang f n p :
  parse pol lang = Ok (tree f) -> In (n, p) (leaves f) -> quoted_at pol 1 n p.
Proof.
  intros H I. destruct lang.
  - apply json_ok in H as (g & w & (h & _ & _ & _ & -> & _) & N & ->).
    apply quoted_left, quoted_right, json_quoted; assumption.
  - apply human_ok in H as (g & w & (h & _ & _ & _ & ->) & N & ->).
    apply quoted_left, quoted_right, human_quoted; assumption.
Qed.

(** So every name of a UTF-8 text is UTF-8. *)
Theorem parsed_utf8 pol lang f :
  parse pol lang = Ok (tree f) -> utf8 pol = true -> Forall (fun n => utf8 n = true) (names f).
Proof.
  intros H U. apply Forall_forall. intros n I. unfold names in I. apply in_map_iff in I as ([m p] & <- & I).
  exact (quoted_utf8 _ _ _ _ (parsed_quoted _ _ _ _ _ H I) U).
Qed.
