(** * SerializeExact: which policies survive the serialiser (C95)

    Exact round trips through [serialize_policy], from the exact descriptions of
    the two languages (C91, C92). *)
From Coq Require Import String Ascii List Bool Arith Lia.
From Verif Require Import Base Policy Spec Peg Grammar Parse PegProofs ParseProofs ParseText ParseHuman
  Layout LexProofs LayoutProofs JsonLayoutProofs.
Import ListNotations.
Local Open Scope string_scope.

(** Number of quotation marks of a text. *)
Fixpoint quotes (x : string) : nat :=
  match x with EmptyString => 0 | String b r => (if Ascii.eqb b (ascii_of_nat 34) then 1 else 0) + quotes r end.
Definition name_quotes (l : list string) : nat := fold_right (fun n k => quotes n + k) 0 l.

Lemma quotes_app x y : quotes (x ++ y) = quotes x + quotes y.
Proof. induction x as [|b x IH]; cbn [append quotes]; [reflexivity|]. rewrite IH. lia. Qed.
Lemma name_quotes_app x y : name_quotes (x ++ y)%list = name_quotes x + name_quotes y.
Proof. induction x as [|b x IH]; cbn [List.app name_quotes fold_right]; [reflexivity|]. unfold name_quotes in *. rewrite IH. lia. Qed.

Lemma names_junction t l : names (junction t l) = flat_map names l.
Proof.
  unfold names. destruct t; cbn [junction leaves]; induction l as [|f l IH]; cbn; auto; rewrite map_app, IH; reflexivity.
Qed.

Lemma erase_names f : names (erase f) = names f.
Proof.
  induction f as [n p|l IH|l IH] using formula_ind'; [reflexivity| |].
  - change (erase (FAnd l)) with (junction true (map erase l)). change (FAnd l) with (junction true l).
    rewrite !names_junction. induction IH as [|f l E _ IHl]; cbn; [reflexivity|]. now rewrite E, IHl.
  - change (erase (FOr l)) with (junction false (map erase l)). change (FOr l) with (junction false l).
    rewrite !names_junction. induction IH as [|f l E _ IHl]; cbn; [reflexivity|]. now rewrite E, IHl.
Qed.

Lemma erase_sat own f : sat own (erase f) = sat own f.
Proof.
  induction f as [n p|l IH|l IH] using formula_ind'; [reflexivity| |].
  - cbn [erase sat]. induction IH as [|f l E _ IHl]; cbn; [reflexivity|]. now rewrite E, IHl.
  - cbn [erase sat]. induction IH as [|f l E _ IHl]; cbn; [reflexivity|]. now rewrite E, IHl.
Qed.

Lemma same_sat f g own : erase g = erase f -> sat own g = sat own f.
Proof. intros E. rewrite <- (erase_sat own g), E. apply erase_sat. Qed.

Lemma erase_text f : json_text (erase f) = json_text f.
Proof.
  induction f as [n p|l IH|l IH] using formula_ind'; [reflexivity| |];
  (cbn [erase json_text]; do 5 f_equal; rewrite map_map;
   assert (E : map (fun x => json_text (erase x)) l = map json_text l)
     by (induction IH as [|f l E _ IHl]; cbn; [reflexivity|]; now rewrite E, IHl);
   now rewrite E).
Qed.

Lemma same_text f g : erase g = erase f -> json_text g = json_text f.
Proof. intros E. rewrite <- (erase_text g), E. apply erase_text. Qed.

Lemma erase_arity2 f : arity2 (erase f) = arity2 f.
Proof.
  induction f as [n p|l IH|l IH] using formula_ind'; [reflexivity| |];
  (cbn [erase arity2]; rewrite map_length; f_equal;
   induction IH as [|f l E _ IHl]; cbn; [reflexivity|]; now rewrite E, IHl).
Qed.

(** ** Names of accepted policies *)

Lemma written_names : (forall w, wellformed w -> without_numbers w = true -> forall c, Forall quotable (names (meaning c w))).
Proof.
  apply (written_mut
    (fun w => wellformed w -> without_numbers w = true -> forall c, Forall quotable (names (meaning c w)))
    (fun r => forall t, wellformed_links t r -> without_numbers_links r = true -> forall c,
       Forall quotable (flat_map names (meaning_links c r)))).
  - intros raw W _ c. repeat constructor. exact W.
  - discriminate.
  - intros o g i IH h k (_ & _ & W & _) N c. cbn [meaning without_numbers] in *. now apply IH.
  - intros t f IH r IHr (W & _ & _ & Wr) N c. cbn [without_numbers] in N. apply andb_prop in N as (N & Nr).
    cbn [meaning]. rewrite names_junction. cbn [flat_map]. apply Forall_app. split; [now apply IH|]. now apply (IHr t).
  - intros t _ _ c. constructor.
  - intros g op h k IH r IHr t (_ & _ & _ & W & _ & Wr) N c. cbn [without_numbers_links] in N. apply andb_prop in N as (N & Nr).
    cbn [meaning_links flat_map]. apply Forall_app. split; [now apply IH|]. now apply (IHr t).
Qed.

Lemma jwritten_names : (forall w, jwellformed w -> jwithout_numbers w = true -> forall c, Forall quotable (names (jmeaning c w))).
Proof.
  apply (jwritten_mut
    (fun w => jwellformed w -> jwithout_numbers w = true -> forall c, Forall quotable (names (jmeaning c w)))
    (fun b => jwellformed_body b -> jwithout_numbers_body b = true -> forall c, Forall quotable (names (jmeaning_body c b)))
    (fun i => jwellformed_kids i -> jwithout_numbers_kids i = true -> forall c,
       Forall quotable (flat_map names (jmeaning_kids c i)))
    (fun r => jwellformed_more r -> jwithout_numbers_more r = true -> forall c,
       Forall quotable (flat_map names (jmeaning_more c r)))).
  - intros g key h k b IH l (_ & _ & _ & _ & W & _) N c. cbn [jmeaning]. now apply IH.
  - intros raw W _ c. repeat constructor. exact W.
  - discriminate.
  - intros t op g h key k l i IH (_ & _ & _ & _ & _ & _ & W) N c. cbn [jmeaning_body]. rewrite names_junction. now apply IH.
  - intros g _ _ c. constructor.
  - intros g f IH r IHr h (_ & W & Wr & _) N c. cbn [jwithout_numbers_kids] in N. apply andb_prop in N as (N & Nr).
    cbn [jmeaning_kids flat_map]. apply Forall_app. split; [now apply IH|now apply IHr].
  - intros _ _ c. constructor.
  - intros g h n IH r IHr (_ & _ & W & Wr) N c. cbn [jwithout_numbers_more] in N. apply andb_prop in N as (N & Nr).
    cbn [jmeaning_more flat_map]. apply Forall_app. split; [now apply IH|now apply IHr].
Qed.

(** Every name of every accepted policy could be written between quotes. *)
Theorem accepted_names pol lang f : parse pol lang = Ok (tree f) -> Forall quotable (names f).
Proof.
  destruct lang; intros P.
  - apply json_ok in P as (g & w & (h & G & W & H & E & Pr) & N & ->). now apply jwritten_names.
  - apply human_ok in P as (g & w & (h & G & W & H & E) & N & ->). now apply written_names.
Qed.

(** ** The JSON serialiser *)

Definition quoted (x : string) : string := dquote ++ x ++ dquote.
Definition jkids_of (l : list jwritten) : jkids :=
  match l with
  | [] => JNone ""
  | w :: r => JSome "" w (fold_right (fun n m => JNext "" " " n m) JStop r) ""
  end.
Fixpoint jdraft (f : formula) : jwritten :=
  match f with
  | FLeaf n _ => JObject "" (quoted "name") "" " " (JName n) ""
  | FAnd l => JObject "" (quoted "name") "" " "
                (JKids true (quoted "and") "" " " (quoted "children") "" " " (jkids_of (map jdraft l))) ""
  | FOr l => JObject "" (quoted "name") "" " "
                (JKids false (quoted "or") "" " " (quoted "children") "" " " (jkids_of (map jdraft l))) ""
  end.

Lemma jshow_kids_of l : jshow_kids (jkids_of l) = String.concat ", " (map jshow l).
Proof.
  destruct l as [|w r]; [reflexivity|]. cbn [jkids_of jshow_kids map]. rewrite concat_tails. cbn [append].
  f_equal. rewrite app_empty. induction r as [|n r IH]; [reflexivity|].
  cbn [fold_right jshow_more map tails]. now rewrite IH.
Qed.

Lemma jshow_draft f : jshow (jdraft f) = json_text f.
Proof.
  assert (K : forall l, Forall (fun f => jshow (jdraft f) = json_text f) l -> map jshow (map jdraft l) = map json_text l).
  { induction 1 as [|a l0 E _ IH]; cbn; [reflexivity|]. now rewrite E, IH. }
  induction f as [n p|l IH|l IH] using formula_ind'.
  - cbn. now rewrite sapp_assoc.
  - cbn [jdraft jshow jshow_body]. rewrite jshow_kids_of, (K l IH). cbn. now rewrite !sapp_assoc.
  - cbn [jdraft jshow jshow_body]. rewrite jshow_kids_of, (K l IH). cbn. now rewrite !sapp_assoc.
Qed.

Lemma gap_space : gap " ". Proof. repeat constructor. Qed.

Lemma spelled_q words w : In w words -> spelled words (quoted w).
Proof. intros I. apply (spelled_quoted words w "" "" I); constructor. Qed.

Lemma jkids_wf l : Forall jwellformed l -> jwellformed_kids (jkids_of l).
Proof.
  destruct 1 as [|w r W R]; [constructor|]. cbn [jkids_of jwellformed_kids].
  refine (conj gap_nil (conj W (conj _ gap_nil))).
  induction R as [|n r N _ IH]; [exact I|]. exact (conj gap_nil (conj gap_space (conj N IH))).
Qed.
Lemma jkids_tidy l : Forall tidy l -> tidy_kids (jkids_of l).
Proof.
  destruct 1 as [|w r W R]; [constructor|]. cbn [jkids_of tidy_kids]. refine (conj W _).
  induction R as [|n r N _ IH]; [exact I|]. exact (conj N IH).
Qed.
Lemma jkids_plain l : Forall (fun w => jwithout_numbers w = true) l -> jwithout_numbers_kids (jkids_of l) = true.
Proof.
  destruct 1 as [|w r W R]; [reflexivity|]. cbn [jkids_of jwithout_numbers_kids]. rewrite W. cbn.
  induction R as [|n r N _ IH]; [reflexivity|]. cbn. now rewrite N, IH.
Qed.
Lemma jkids_meaning l : Forall (fun f => forall c, erase (jmeaning c (jdraft f)) = erase f) l -> forall c,
  map erase (jmeaning_kids c (jkids_of (map jdraft l))) = map erase l.
Proof.
  destruct 1 as [|f r E R]; intros c; [reflexivity|]. cbn [map jkids_of jmeaning_kids]. rewrite E. f_equal.
  generalize (column_after (jshow (jdraft f)) (column_after "" c)).
  induction R as [|n r N _ IH]; intros d; [reflexivity|]. cbn [map fold_right jmeaning_more]. now rewrite N, IH.
Qed.

Lemma draft_wf f : Forall quotable (names f) -> jwellformed (jdraft f).
Proof.
  assert (K : forall l, Forall (fun f => Forall quotable (names f) -> jwellformed (jdraft f)) l ->
            Forall quotable (flat_map names l) -> Forall jwellformed (map jdraft l)).
  { induction 1 as [|a l0 E _ IH]; intros Q; [constructor|]. cbn in Q. apply Forall_app in Q as (Q1 & Q2). constructor; auto. }
  induction f as [n p|l IH|l IH] using formula_ind'; intros Q.
  - inversion Q; subst. refine (conj gap_nil (conj (spelled_q _ _ _) (conj gap_nil (conj gap_space (conj _ gap_nil))))); [cbn; auto|assumption].
  - change (FAnd l) with (junction true l) in Q. rewrite names_junction in Q.
    refine (conj gap_nil (conj (spelled_q _ _ _) (conj gap_nil (conj gap_space (conj _ gap_nil))))); [cbn; auto|].
    refine (conj (spelled_q _ _ _) (conj gap_nil (conj gap_space (conj (spelled_q _ _ _) (conj gap_nil (conj gap_space _))))));
      [cbn; auto..|]. now apply jkids_wf, K.
  - change (FOr l) with (junction false l) in Q. rewrite names_junction in Q.
    refine (conj gap_nil (conj (spelled_q _ _ _) (conj gap_nil (conj gap_space (conj _ gap_nil))))); [cbn; auto|].
    refine (conj (spelled_q _ _ _) (conj gap_nil (conj gap_space (conj (spelled_q _ _ _) (conj gap_nil (conj gap_space _))))));
      [cbn; auto..|]. now apply jkids_wf, K.
Qed.

Lemma draft_tidy f : tidy (jdraft f).
Proof.
  induction f as [n p|l IH|l IH] using formula_ind'; [exact I| |].
  - cbn [jdraft tidy tidy_body]. split; [right; now exists "and"|]. apply jkids_tidy. induction IH; cbn; constructor; auto.
  - cbn [jdraft tidy tidy_body]. split; [right; now exists "or"|]. apply jkids_tidy. induction IH; cbn; constructor; auto.
Qed.

Lemma draft_plain f : jwithout_numbers (jdraft f) = true.
Proof.
  induction f as [n p|l IH|l IH] using formula_ind'; [reflexivity| |];
  (cbn [jdraft jwithout_numbers jwithout_numbers_body]; apply jkids_plain; induction IH; cbn; constructor; auto).
Qed.

Lemma draft_meaning f : forall c, erase (jmeaning c (jdraft f)) = erase f.
Proof.
  induction f as [n p|l IH|l IH] using formula_ind'; intros c; [reflexivity| |];
  (cbn [jdraft jmeaning jmeaning_body junction erase]; f_equal; now apply jkids_meaning).
Qed.

Theorem json_serialized f : Forall quotable (names f) -> exists g,
  parse (json_text f) JsonPolicy = Ok (tree g) /\ erase g = erase f.
Proof.
  intros Q. exists (jmeaning 1 (jdraft f)). split; [|apply draft_meaning].
  pose proof (json_tidy "" (jdraft f) "" gap_nil (draft_wf f Q) (draft_tidy f) gap_nil) as P.
  rewrite draft_plain, jshow_draft, app_empty in P. exact P.
Qed.

(** C95: exactly the policies with quotable names. *)
Theorem json_back f : exists txt, serialize_policy (tree f) JsonPolicy None = Ok txt /\
  ((exists g, parse txt JsonPolicy = Ok (tree g) /\ erase g = erase f) <-> Forall quotable (names f)).
Proof.
  exists (json_text f). split; [apply serialize_json|]. split.
  - intros (g & P & E). apply accepted_names in P. now rewrite <- erase_names, E, erase_names in P.
  - apply json_serialized.
Qed.

(** Any accepted text, of either language, can be translated to JSON; a second
    translation changes nothing. *)
Theorem to_json pol lang f : parse pol lang = Ok (tree f) -> exists txt g,
  serialize_policy (tree f) JsonPolicy None = Ok txt /\ parse txt JsonPolicy = Ok (tree g) /\
  (forall own, sat own g = sat own f) /\ names g = names f /\ serialize_policy (tree g) JsonPolicy None = Ok txt.
Proof.
  intros P. apply accepted_names in P. destruct (json_serialized f P) as (g & Pg & E).
  exists (json_text f), g. refine (conj (serialize_json f None) (conj Pg (conj _ (conj _ _)))).
  - intros own. now apply same_sat.
  - now rewrite <- erase_names, E, erase_names.
  - rewrite <- (same_text f g E). apply serialize_json.
Qed.

(** ** One line *)

Lemma concat_one_line s l : one_line s -> Forall one_line l -> one_line (String.concat s l).
Proof.
  intros S. destruct 1 as [|x l H R]; [exact I|]. rewrite concat_tails. apply one_line_app. split; [exact H|].
  induction R as [|y l Y _ IH]; [exact I|]. cbn [tails]. apply one_line_app. split; [exact S|]. now apply one_line_app.
Qed.

Ltac lines := repeat (split; [discriminate|]); exact I.

Lemma json_text_one_line f : Forall one_line (names f) -> one_line (json_text f).
Proof.
  assert (K : forall l, Forall (fun f => Forall one_line (names f) -> one_line (json_text f)) l ->
            Forall one_line (flat_map names l) -> one_line (String.concat ", " (map json_text l))).
  { intros l H Q. apply concat_one_line; [lines|]. induction H as [|a l0 E _ IH]; [constructor|].
    cbn in Q. apply Forall_app in Q as (Q1 & Q2). constructor; auto. }
  induction f as [n p|l IH|l IH] using formula_ind'; intros Q.
  - inversion Q as [|? ? N _]; subst. cbn [json_text]. repeat (apply one_line_app; split; [lines|]).
    apply one_line_app. split; [exact N|]. lines.
  - change (FAnd l) with (junction true l) in Q. rewrite names_junction in Q. cbn [json_text].
    repeat (apply one_line_app; split; [lines|]). apply one_line_app. split; [now apply K|]. lines.
  - change (FOr l) with (junction false l) in Q. rewrite names_junction in Q. cbn [json_text].
    repeat (apply one_line_app; split; [lines|]). apply one_line_app. split; [now apply K|]. lines.
Qed.

(** Translation to JSON gives every leaf its own node index: the collisions of C09 disappear. *)
Theorem to_json_distinct pol lang f txt g : parse pol lang = Ok (tree f) -> Forall one_line (names f) ->
  serialize_policy (tree f) JsonPolicy None = Ok txt -> parse txt JsonPolicy = Ok (tree g) ->
  NoDup (leaves g) /\ names g = names f.
Proof.
  intros P O T G. rewrite serialize_json in T. injection T as <-. split.
  - eapply one_line_leaves; [|exact G]. now apply json_text_one_line.
  - destruct (to_json pol lang f P) as (txt & g' & T & G' & _ & N & _).
    rewrite serialize_json in T. injection T as <-. rewrite G in G'. injection G' as E. apply tree_inj in E. now subst.
Qed.

(** ** The human serialiser *)

Lemma quotes_tails s l : quotes s = 0 -> quotes (tails s l) = name_quotes l.
Proof.
  intros S. induction l as [|x l IH]; [reflexivity|]. cbn [tails name_quotes fold_right].
  rewrite !quotes_app, IH, S. reflexivity.
Qed.
Lemma quotes_concat s l : quotes s = 0 -> quotes (String.concat s l) = name_quotes l.
Proof.
  intros S. destruct l as [|x l]; [reflexivity|]. rewrite concat_tails, quotes_app, (quotes_tails s l S). reflexivity.
Qed.

Lemma bare_quotes f : quotes (bare_text f) = name_quotes (names f).
Proof.
  assert (K : forall l, Forall (fun f => quotes (bare_text f) = name_quotes (names f)) l ->
            name_quotes (map bare_text l) = name_quotes (flat_map names l)).
  { induction 1 as [|a l0 E _ IH]; [reflexivity|]. cbn [map flat_map]. rewrite name_quotes_app, <- IH, <- E. reflexivity. }
  induction f as [n p|l IH|l IH] using formula_ind'.
  - cbn. lia.
  - change (FAnd l) with (junction true l). rewrite names_junction, <- (K l IH). cbn [junction bare_text].
    rewrite !quotes_app, quotes_concat by reflexivity. cbn. lia.
  - change (FOr l) with (junction false l). rewrite names_junction, <- (K l IH). cbn [junction bare_text].
    rewrite !quotes_app, quotes_concat by reflexivity. cbn. lia.
Qed.

(** A written policy has two quotes more than its names. *)
Lemma written_quotes : forall w, without_numbers w = true -> forall c, 2 + name_quotes (names (meaning c w)) <= quotes (show w).
Proof.
  apply (written_mut
    (fun w => without_numbers w = true -> forall c, 2 + name_quotes (names (meaning c w)) <= quotes (show w))
    (fun r => without_numbers_links r = true -> forall c, name_quotes (flat_map names (meaning_links c r)) <= quotes (show_links r))).
  - intros raw _ c. cbn [meaning show]. rewrite !quotes_app. cbn. lia.
  - discriminate.
  - intros o g i IH h k N c. cbn [meaning show without_numbers] in *. specialize (IH N (column_after (String o g) c)).
    change (String o (g ++ show i ++ h ++ String k "")) with (String o "" ++ g ++ show i ++ h ++ String k "").
    rewrite !quotes_app. lia.
  - intros t f IH r IHr N c. cbn [without_numbers] in N. apply andb_prop in N as (N & Nr). cbn [meaning show].
    rewrite names_junction. cbn [flat_map]. rewrite name_quotes_app, quotes_app.
    specialize (IH N c). specialize (IHr Nr (column_after (show f) c)). lia.
  - intros _ c. reflexivity.
  - intros g op h k IH r IHr N c. cbn [without_numbers_links] in N. apply andb_prop in N as (N & Nr). cbn [meaning_links show_links].
    cbn [flat_map]. rewrite name_quotes_app, !quotes_app. specialize (IH N (column_after (g ++ op ++ h) c)).
    specialize (IHr Nr (column_after (show k) (column_after (g ++ op ++ h) c))). lia.
Qed.

(** C95: the human serialiser never writes a text that reads as the same policy. *)
Theorem human_never_back f : exists txt, serialize_policy (tree f) HumanPolicy None = Ok txt /\
  forall g, parse txt HumanPolicy = Ok (tree g) -> erase g <> erase f.
Proof.
  exists (bare_text f). split; [apply serialize_human|]. intros g P E.
  apply human_ok in P as (a & w & (h & _ & _ & _ & T) & N & ->).
  pose proof (written_quotes w N (column_after a 1)) as Q. pose proof (bare_quotes f) as B.
  rewrite T, !quotes_app in B. rewrite <- erase_names in Q. rewrite E, erase_names in Q. lia.
Qed.

(** Every quote comes after a backslash. *)
Definition guarded (x : string) : Prop := forall u v, x = u ++ dquote ++ v -> last_char u = Some backslash.

Lemma guarded_app x y : guarded x -> guarded y -> guarded (x ++ y).
Proof.
  intros X Y u v E. apply split_app in E as [(w & -> & E)|(w & N & -> & E)].
  - rewrite last_app. now rewrite (Y _ _ E).
  - destruct w as [|b w]; [congruence|]. cbn [append] in E. injection E as <- E. apply (X u w).
    reflexivity.
Qed.
Lemma guarded_plain x : quotes x = 0 -> guarded x.
Proof. intros Q u v ->. rewrite !quotes_app in Q. cbn in Q. lia. Qed.

Lemma guarded_concat s l : guarded s -> Forall guarded l -> guarded (String.concat s l).
Proof.
  intros S. destruct 1 as [|x l H R]; [now apply guarded_plain|]. rewrite concat_tails. apply guarded_app; [exact H|].
  induction R as [|y l Y _ IH]; [now apply guarded_plain|]. cbn [tails]. apply guarded_app; [exact S|]. now apply guarded_app.
Qed.

Lemma bare_guarded f : Forall quotable (names f) -> guarded (bare_text f).
Proof.
  assert (K : forall t l, Forall (fun f => Forall quotable (names f) -> guarded (bare_text f)) l ->
            Forall quotable (flat_map names l) -> guarded ("(" ++ String.concat (sep t) (map bare_text l) ++ ")")).
  { intros t l H Q. apply guarded_app; [now apply guarded_plain|]. apply guarded_app; [|now apply guarded_plain].
    apply guarded_concat; [now destruct t; apply guarded_plain|]. induction H as [|a l0 E _ IH]; [constructor|].
    cbn in Q. apply Forall_app in Q as (Q1 & Q2). constructor; auto. }
  induction f as [n p|l IH|l IH] using formula_ind'; intros Q.
  - inversion Q as [|? ? N _]; subst. intros u v E. now apply (quotable_last n N u v).
  - change (FAnd l) with (junction true l) in Q. rewrite names_junction in Q. now apply (K true).
  - change (FOr l) with (junction false l) in Q. rewrite names_junction in Q. now apply (K false).
Qed.

Lemma written_open : forall w, wellformed w -> without_numbers w = true -> forall p, last_char p <> Some backslash ->
  exists u v, p ++ show w = u ++ dquote ++ v /\ last_char u <> Some backslash.
Proof.
  induction w as [raw|x|o g i IH h k|t f IH r] ; intros W N p L; cbn [show].
  - exists p, (raw ++ dquote). split; [reflexivity|exact L].
  - discriminate.
  - destruct W as (O & G & Wi & _). destruct (IH Wi N (p ++ String o g)) as (u & v & E & U).
    + rewrite last_app. cbn [last_char]. pose proof (gap_last g G). destruct (last_char g); [assumption|].
      intros B. injection B as ->. discriminate.
    + exists u, (v ++ h ++ String k ""). split; [|exact U].
      change (String o (g ++ show i ++ h ++ String k "")) with (String o g ++ show i ++ h ++ String k "").
      rewrite <- !sapp_assoc in *. rewrite E. now rewrite !sapp_assoc.
  - destruct W as (Wf & _). cbn [without_numbers] in N. apply andb_prop in N as (Nf & _).
    destruct (IH Wf Nf p L) as (u & v & E & U). exists u, (v ++ show_links r). split; [|exact U].
    rewrite <- sapp_assoc, E. now rewrite !sapp_assoc.
Qed.

(** For the names a parsed policy can have, it is refused or the parser aborts. *)
Theorem human_never_ok f : Forall quotable (names f) -> exists txt,
  serialize_policy (tree f) HumanPolicy None = Ok txt /\ forall v, parse txt HumanPolicy <> Ok v.
Proof.
  intros Q. exists (bare_text f). split; [apply serialize_human|]. intros v P.
  destruct (parse_shape _ _ _ P) as (g & -> & _).
  apply human_ok in P as (a & w & (h & G & W & _ & T) & N & _).
  destruct (written_open w W N a (gap_last a G)) as (u & v & E & U).
  apply U, (bare_guarded f Q u (v ++ h)). rewrite T, <- sapp_assoc, E. now rewrite !sapp_assoc.
Qed.

Theorem to_human pol lang f : parse pol lang = Ok (tree f) -> exists txt,
  serialize_policy (tree f) HumanPolicy None = Ok txt /\ (parse txt HumanPolicy = Err \/ parse txt HumanPolicy = Panic).
Proof.
  intros P. destruct (human_never_ok f (accepted_names _ _ _ P)) as (txt & T & N). exists txt. split; [exact T|].
  destruct (parse txt HumanPolicy) as [v| |]; [now destruct (N v)|now left|now right].
Qed.

(** ** Quoted names *)

Definition chain_of (t : bool) (l : list written) : written :=
  match l with
  | [] => WName ""
  | w :: r => WChain t w (fold_right (fun n m => LCons " " (op_text t) " " n m) LNil r)
  end.
Fixpoint hdraft (f : formula) : written :=
  match f with
  | FLeaf n _ => WName n
  | FAnd l => WGroup "(" "" (chain_of true (map hdraft l)) "" ")"
  | FOr l => WGroup "(" "" (chain_of false (map hdraft l)) "" ")"
  end.

Lemma hdraft_term f : is_chain (hdraft f) = false.
Proof. now destruct f. Qed.

Lemma show_chain t l : l <> [] -> show (chain_of t (map hdraft l)) = String.concat (sep t) (map show (map hdraft l)).
Proof.
  destruct l as [|f r]; [congruence|]. intros _. cbn [map chain_of show]. rewrite concat_tails. f_equal.
  induction r as [|n r IH]; [reflexivity|]. cbn [map fold_right show_links tails]. rewrite IH. unfold sep. now rewrite !sapp_assoc.
Qed.

Lemma arity2_children t l : arity2 (junction t l) = true -> (2 <= List.length l) /\ forallb arity2 l = true.
Proof. destruct t; cbn [junction arity2]; intros H; apply andb_prop in H as (A & B); apply Nat.leb_le in A; auto. Qed.

Lemma hdraft_show f : arity2 f = true -> show (hdraft f) = human_text f.
Proof.
  assert (K : forall t l, Forall (fun f => arity2 f = true -> show (hdraft f) = human_text f) l -> arity2 (junction t l) = true ->
            show (WGroup "(" "" (chain_of t (map hdraft l)) "" ")") = "(" ++ String.concat (sep t) (map human_text l) ++ ")").
  { intros t l H A. apply arity2_children in A as (Len & A). cbn [show]. rewrite show_chain by (intros ->; cbn in Len; lia).
    assert (M : map show (map hdraft l) = map human_text l).
    { clear Len. induction H as [|a r E _ IH]; [reflexivity|]. cbn [map forallb] in *.
      apply andb_prop in A as (A1 & A2). now rewrite (E A1), IH. }
    rewrite M. reflexivity. }
  induction f as [n p|l IH|l IH] using formula_ind'; intros A; [reflexivity| |].
  - now apply (K true).
  - now apply (K false).
Qed.

Lemma op_text_word t : In (op_text t) (op_words t).
Proof. destruct t; cbn; auto. Qed.

Lemma hdraft_wf f : arity2 f = true -> Forall quotable (names f) -> wellformed (hdraft f).
Proof.
  assert (K : forall t l, Forall (fun f => arity2 f = true -> Forall quotable (names f) -> wellformed (hdraft f)) l ->
            arity2 (junction t l) = true -> Forall quotable (flat_map names l) ->
            wellformed (WGroup "(" "" (chain_of t (map hdraft l)) "" ")")).
  { intros t l H A Q. apply arity2_children in A as (Len & A).
    assert (F : Forall (fun f => wellformed (hdraft f)) l).
    { clear Len. induction H as [|a r E _ IH]; [constructor|]. cbn in A, Q. apply andb_prop in A as (A1 & A2).
      apply Forall_app in Q as (Q1 & Q2). constructor; auto. }
    cbn [wellformed]. refine (conj eq_refl (conj gap_nil (conj _ (conj gap_nil eq_refl)))).
    destruct F as [|a r W F]; [cbn in Len; lia|]. cbn [map chain_of wellformed].
    refine (conj W (conj (hdraft_term a) (conj _ _))).
    - destruct r; [cbn in Len; lia|discriminate].
    - clear Len A Q H W. induction F as [|k r W F IH]; [exact I|]. cbn [map fold_right wellformed_links].
      exact (conj gap_space (conj (spelled_bare _ _ (op_text_word t)) (conj gap_space (conj W (conj (hdraft_term k) IH))))). }
  induction f as [n p|l IH|l IH] using formula_ind'; intros A Q.
  - inversion Q; subst. assumption.
  - change (FAnd l) with (junction true l) in Q. rewrite names_junction in Q. now apply (K true).
  - change (FOr l) with (junction false l) in Q. rewrite names_junction in Q. now apply (K false).
Qed.

Lemma hdraft_plain f : without_numbers (hdraft f) = true.
Proof.
  assert (K : forall t l, Forall (fun f => without_numbers (hdraft f) = true) l -> without_numbers (chain_of t (map hdraft l)) = true).
  { destruct 1 as [|a r W F]; [reflexivity|]. cbn [map chain_of without_numbers]. rewrite W. cbn [andb].
    induction F as [|k r V F IH]; [reflexivity|]. cbn [map fold_right without_numbers_links]. now rewrite V, IH. }
  induction f as [n p|l IH|l IH] using formula_ind'; [reflexivity| |]; cbn [hdraft without_numbers]; now apply K.
Qed.

Lemma hdraft_meaning f : arity2 f = true -> forall c, erase (meaning c (hdraft f)) = erase f.
Proof.
  assert (K : forall t l, Forall (fun f => arity2 f = true -> forall c, erase (meaning c (hdraft f)) = erase f) l ->
            arity2 (junction t l) = true -> forall c, erase (meaning c (chain_of t (map hdraft l))) = erase (junction t l)).
  { intros t l H A c. apply arity2_children in A as (Len & A).
    assert (F : Forall (fun f => forall c, erase (meaning c (hdraft f)) = erase f) l).
    { clear Len. induction H as [|a r E _ IH]; [constructor|]. cbn in A. apply andb_prop in A as (A1 & A2). constructor; auto. }
    destruct F as [|a r W F]; [cbn in Len; lia|]. clear Len A H. cbn [map chain_of meaning].
    assert (M : forall d, map erase (meaning_links d (fold_right (fun n m => LCons " " (op_text t) " " n m) LNil (map hdraft r))) = map erase r).
    { induction F as [|k r V F IH]; intros d; [reflexivity|]. cbn [map fold_right meaning_links]. now rewrite V, IH. }
    destruct t; cbn [junction erase map]; now rewrite W, M. }
  induction f as [n p|l IH|l IH] using formula_ind'; intros A c; [reflexivity| |].
  - cbn [hdraft meaning]. now apply (K true).
  - cbn [hdraft meaning]. now apply (K false).
Qed.

(** C95: a writer that keeps the quotes: exactly the policies with quotable
    names and at least two children per node. *)
Theorem human_back f : arity2 f = true ->
  (exists g, parse (human_text f) HumanPolicy = Ok (tree g) /\ erase g = erase f) <-> Forall quotable (names f).
Proof.
  intros A. split.
  - intros (g & P & E). apply accepted_names in P. now rewrite <- erase_names, E, erase_names in P.
  - intros Q. exists (meaning 1 (hdraft f)). split; [|now apply hdraft_meaning].
    pose proof (proj1 (human_language (human_text f)) "" (hdraft f)) as P. rewrite hdraft_plain in P. apply P.
    exists "". refine (conj gap_nil (conj (hdraft_wf f A Q) (conj gap_nil _))). now rewrite app_empty, hdraft_show.
Qed.

Theorem human_writable f : (exists pol g, parse pol HumanPolicy = Ok (tree g) /\ erase g = erase f) <->
  arity2 f = true /\ Forall quotable (names f).
Proof.
  split.
  - intros (pol & g & P & E). split.
    + destruct (parse_shape _ _ _ P) as (g' & T & A). apply tree_inj in T. subst g'.
      now rewrite <- erase_arity2, <- E, erase_arity2, A.
    + apply accepted_names in P. now rewrite <- erase_names, E, erase_names in P.
  - intros (A & Q). exists (human_text f). now apply human_back.
Qed.

Theorem json_writable f : (exists pol g, parse pol JsonPolicy = Ok (tree g) /\ erase g = erase f) <->
  Forall quotable (names f).
Proof.
  split.
  - intros (pol & g & P & E). apply accepted_names in P. now rewrite <- erase_names, E, erase_names in P.
  - intros Q. exists (json_text f). now apply json_serialized.
Qed.
