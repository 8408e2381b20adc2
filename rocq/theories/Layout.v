(** * Layout: written policies, independently of the parser

    A specification of the texts of both policy languages as printed syntax
    trees: every blank, comment, bracket, keyword spelling and number of the
    text is a field of the tree.  Nothing here refers to the matching algorithm
    of Peg.v.  The grammars described are those of
    /repo/src/human.policy.pest:3-35 and /repo/src/json.policy.pest:14-54. *)
From Coq Require Import String Ascii List Bool Arith.
From Verif Require Import Base Spec.
Import ListNotations.
Local Open Scope string_scope.

Definition dquote : string := String (ascii_of_nat 34) "".
Definition backslash : ascii := ascii_of_nat 92.

(** Blanks; human.policy.pest:3, json.policy.pest:14. *)
Definition blank (b : ascii) : bool :=
  existsb (Ascii.eqb b) [ascii_of_nat 32; ascii_of_nat 9; ascii_of_nat 13; ascii_of_nat 10].

(** The text contains no end-of-comment mark. *)
Fixpoint open_comment (u : string) : bool :=
  match u with
  | EmptyString => true
  | String a r => negb (String.prefix "*/" u) && open_comment r
  end.

(** What may stand between two words: blanks and comments;
    human.policy.pest:3-4, json.policy.pest:14-15. *)
Inductive gap : string -> Prop :=
| gap_nil : gap ""
| gap_blank b x : blank b = true -> gap x -> gap (String b x)
| gap_comment u x : open_comment u = true -> gap x -> gap ("/*" ++ u ++ "*/" ++ x).

(** The inside of a quoted name: ordinary characters and the escapes of JSON;
    human.policy.pest:23-28, json.policy.pest:41-46. *)
Definition is_ordinary (b : ascii) : bool :=
  negb (existsb (Ascii.eqb b) [ascii_of_nat 34; backslash]).
Definition is_escape (b : ascii) : bool :=
  existsb (Ascii.eqb b) [ascii_of_nat 34; backslash; "/"; "b"; "f"; "n"; "r"; "t"]%char.
Definition in_range (lo hi : nat) (b : ascii) : bool :=
  (lo <=? nat_of_ascii b)%nat && (nat_of_ascii b <=? hi)%nat.
Definition hexadecimal (b : ascii) : bool := in_range 48 57 b || in_range 97 102 b || in_range 65 70 b.

Inductive quotable : string -> Prop :=
| quotable_nil : quotable ""
| quotable_char b x : is_ordinary b = true -> quotable x -> quotable (String b x)
| quotable_escape b x : is_escape b = true -> quotable x -> quotable (String backslash (String b x))
| quotable_unicode a b c d x : forallb hexadecimal [a; b; c; d] = true -> quotable x ->
    quotable (String backslash (String "u" (String a (String b (String c (String d x)))))).

(** Numbers; human.policy.pest:29-34, json.policy.pest:47-52. *)
Fixpoint decimal (x : string) : bool :=
  match x with EmptyString => true | String b r => in_range 48 57 b && decimal r end.
Definition number_text (x : string) : Prop :=
  exists sign int frac exp, x = sign ++ int ++ frac ++ exp /\
    (sign = "" \/ sign = "-") /\
    (int = "0" \/ exists b r, int = String b r /\ in_range 49 57 b = true /\ decimal r = true) /\
    (frac = "" \/ exists r, frac = "." ++ r /\ decimal r = true) /\
    (exp = "" \/ exists e s b r, exp = String e (s ++ String b r) /\ (e = "e" \/ e = "E")%char /\
                 (s = "" \/ s = "+" \/ s = "-") /\ decimal (String b r) = true).

(** A keyword, bare or between quotes (then possibly with blanks and comments
    inside the quotes); human.policy.pest:5-9, json.policy.pest:16-22. *)
Inductive spelled (words : list string) : string -> Prop :=
| spelled_bare w : In w words -> spelled words w
| spelled_quoted w g h : In w words -> gap g -> gap h -> spelled words (dquote ++ g ++ w ++ h ++ dquote).

Definition op_words (conj : bool) : list string :=
  if conj then ["and"; "AND"; "&&"] else ["or"; "OR"; "||"].

(** Column (1-based, in characters) after reading a text that starts at column
    [c]: a line feed returns to column 1, UTF-8 continuation bytes do not count. *)
Fixpoint column_after (x : string) (c : nat) : nat :=
  match x with
  | EmptyString => c
  | String b r =>
      column_after r (if (nat_of_ascii b =? 10)%nat then 1%nat
                      else if in_range 128 191 b then c else S c)
  end.

Definition junction (conj : bool) (l : list formula) : formula := if conj then FAnd l else FOr l.

(** ** The human language *)

(** A name, a number, a bracketed policy, or terms joined by one operator. *)
Inductive written : Type :=
| WName (raw : string)
| WNumber (x : string)
| WGroup (o : ascii) (g : string) (inside : written) (h : string) (c : ascii)
| WChain (conj : bool) (first : written) (rest : links)
with links : Type :=
| LNil
| LCons (g op h : string) (next : written) (rest : links).

Fixpoint show (w : written) : string :=
  match w with
  | WName raw => dquote ++ raw ++ dquote
  | WNumber x => x
  | WGroup o g i h c => String o (g ++ show i ++ h ++ String c "")
  | WChain _ f r => show f ++ show_links r
  end
with show_links (r : links) : string :=
  match r with
  | LNil => ""
  | LCons g op h k r => g ++ op ++ h ++ show k ++ show_links r
  end.

Definition opening (b : ascii) : bool := existsb (Ascii.eqb b) ["("; "["; "{"]%char.
Definition closing (b : ascii) : bool := existsb (Ascii.eqb b) [")"; "]"; "}"]%char.
Definition is_chain (w : written) : bool := match w with WChain _ _ _ => true | _ => false end.

(** Well-formed: the rules of human.policy.pest:10-22. *)
Fixpoint wellformed (w : written) : Prop :=
  match w with
  | WName raw => quotable raw
  | WNumber x => number_text x
  | WGroup o g i h c => opening o = true /\ gap g /\ wellformed i /\ gap h /\ closing c = true
  | WChain t f r => wellformed f /\ is_chain f = false /\ r <> LNil /\ wellformed_links t r
  end
with wellformed_links (t : bool) (r : links) : Prop :=
  match r with
  | LNil => True
  | LCons g op h k r =>
      gap g /\ spelled (op_words t) op /\ gap h /\ wellformed k /\ is_chain k = false /\ wellformed_links t r
  end.

(** The policy that a text starting at column [c] stands for. *)
Fixpoint meaning (c : nat) (w : written) : formula :=
  match w with
  | WName raw => FLeaf raw (S c)
  | WNumber x => FLeaf x c
  | WGroup o g i h _ => meaning (column_after (String o g) c) i
  | WChain t f r => junction t (meaning c f :: meaning_links (column_after (show f) c) r)
  end
with meaning_links (c : nat) (r : links) : list formula :=
  match r with
  | LNil => []
  | LCons g op h k r =>
      let c' := column_after (g ++ op ++ h) c in
      meaning c' k :: meaning_links (column_after (show k) c') r
  end.

Fixpoint without_numbers (w : written) : bool :=
  match w with
  | WName _ => true
  | WNumber _ => false
  | WGroup _ _ i _ _ => without_numbers i
  | WChain _ f r => without_numbers f && without_numbers_links r
  end
with without_numbers_links (r : links) : bool :=
  match r with
  | LNil => true
  | LCons _ _ _ k r => without_numbers k && without_numbers_links r
  end.

(** [pol] is the text of [w] between two gaps, and [g] comes first. *)
Definition human_layout (pol g : string) (w : written) : Prop :=
  exists h, gap g /\ wellformed w /\ gap h /\ pol = g ++ show w ++ h.

(** ** The JSON language *)

Definition name_words : list string := ["name"; "NAME"].
Definition children_words : list string := ["children"; "CHILDREN"].

(** [{ name : value }] or [{ name : operator , children : [ ... ] }]. *)
Inductive jwritten : Type :=
| JObject (g key h k : string) (b : jbody) (l : string)     (* { g key h : k b l } *)
with jbody : Type :=
| JName (raw : string)
| JNumber (x : string)
| JKids (conj : bool) (op g h key k l : string) (i : jkids)  (* op g , h key k : l [ i ] *)
with jkids : Type :=
| JNone (g : string)
| JSome (g : string) (first : jwritten) (rest : jmore) (h : string)
with jmore : Type :=
| JStop
| JNext (g h : string) (next : jwritten) (rest : jmore).     (* g , h next rest *)

Fixpoint jshow (w : jwritten) : string :=
  match w with JObject g key h k b l => "{" ++ g ++ key ++ h ++ ":" ++ k ++ jshow_body b ++ l ++ "}" end
with jshow_body (b : jbody) : string :=
  match b with
  | JName raw => dquote ++ raw ++ dquote
  | JNumber x => x
  | JKids _ op g h key k l i => op ++ g ++ "," ++ h ++ key ++ k ++ ":" ++ l ++ "[" ++ jshow_kids i ++ "]"
  end
with jshow_kids (i : jkids) : string :=
  match i with
  | JNone g => g
  | JSome g f r h => g ++ jshow f ++ jshow_more r ++ h
  end
with jshow_more (r : jmore) : string :=
  match r with
  | JStop => ""
  | JNext g h n r => g ++ "," ++ h ++ jshow n ++ jshow_more r
  end.

(** Well-formed: the rules of json.policy.pest:16-40. *)
Fixpoint jwellformed (w : jwritten) : Prop :=
  match w with
  | JObject g key h k b l => gap g /\ spelled name_words key /\ gap h /\ gap k /\ jwellformed_body b /\ gap l
  end
with jwellformed_body (b : jbody) : Prop :=
  match b with
  | JName raw => quotable raw
  | JNumber x => number_text x
  | JKids t op g h key k l i =>
      spelled (op_words t) op /\ gap g /\ gap h /\ spelled children_words key /\ gap k /\ gap l /\ jwellformed_kids i
  end
with jwellformed_kids (i : jkids) : Prop :=
  match i with
  | JNone g => gap g
  | JSome g f r h => gap g /\ jwellformed f /\ jwellformed_more r /\ gap h
  end
with jwellformed_more (r : jmore) : Prop :=
  match r with
  | JStop => True
  | JNext g h n r => gap g /\ gap h /\ jwellformed n /\ jwellformed_more r
  end.

Fixpoint jmeaning (c : nat) (w : jwritten) : formula :=
  match w with JObject g key h k b l => jmeaning_body (column_after ("{" ++ g ++ key ++ h ++ ":" ++ k) c) b end
with jmeaning_body (c : nat) (b : jbody) : formula :=
  match b with
  | JName raw => FLeaf raw (S c)
  | JNumber x => FLeaf x c
  | JKids t op g h key k l i =>
      junction t (jmeaning_kids (column_after (op ++ g ++ "," ++ h ++ key ++ k ++ ":" ++ l ++ "[") c) i)
  end
with jmeaning_kids (c : nat) (i : jkids) : list formula :=
  match i with
  | JNone g => []
  | JSome g f r h =>
      let c' := column_after g c in jmeaning c' f :: jmeaning_more (column_after (jshow f) c') r
  end
with jmeaning_more (c : nat) (r : jmore) : list formula :=
  match r with
  | JStop => []
  | JNext g h n r =>
      let c' := column_after (g ++ "," ++ h) c in jmeaning c' n :: jmeaning_more (column_after (jshow n) c') r
  end.

Fixpoint jwithout_numbers (w : jwritten) : bool :=
  match w with JObject _ _ _ _ b _ => jwithout_numbers_body b end
with jwithout_numbers_body (b : jbody) : bool :=
  match b with JName _ => true | JNumber _ => false | JKids _ _ _ _ _ _ _ i => jwithout_numbers_kids i end
with jwithout_numbers_kids (i : jkids) : bool :=
  match i with JNone _ => true | JSome _ f r _ => jwithout_numbers f && jwithout_numbers_more r end
with jwithout_numbers_more (r : jmore) : bool :=
  match r with JStop => true | JNext _ _ n r => jwithout_numbers n && jwithout_numbers_more r end.

(** The text starts with a quoted name, a gap and a closing brace. *)
Definition named_object (x : string) : Prop :=
  exists raw g r, quotable raw /\ gap g /\ x = dquote ++ raw ++ dquote ++ g ++ "}" ++ r.

(** No operator of [w], followed by [y], is the beginning of a [named_object]:
    such a reading takes precedence.  It needs a comment with a quote in it,
    between the quotes of an operator (see [tidy]). *)
Fixpoint preferred (y : string) (w : jwritten) : Prop :=
  match w with JObject _ _ _ _ b l => preferred_body (l ++ "}" ++ y) b end
with preferred_body (y : string) (b : jbody) : Prop :=
  match b with
  | JKids _ _ _ _ _ _ _ i => ~ named_object (jshow_body b ++ y) /\ preferred_kids ("]" ++ y) i
  | _ => True
  end
with preferred_kids (y : string) (i : jkids) : Prop :=
  match i with
  | JNone _ => True
  | JSome g f r h => preferred (jshow_more r ++ h ++ y) f /\ preferred_more (h ++ y) r
  end
with preferred_more (y : string) (r : jmore) : Prop :=
  match r with
  | JStop => True
  | JNext g h n r => preferred (jshow_more r ++ y) n /\ preferred_more y r
  end.

(** A simple sufficient condition: no quote inside the quotes of an operator. *)
Fixpoint quoteless (x : string) : bool :=
  match x with EmptyString => true | String b r => negb (Ascii.eqb b (ascii_of_nat 34)) && quoteless r end.
Definition tidy_word (words : list string) (x : string) : Prop :=
  In x words \/ exists u, x = dquote ++ u ++ dquote /\ quoteless u = true.

Fixpoint tidy (w : jwritten) : Prop :=
  match w with JObject _ _ _ _ b _ => tidy_body b end
with tidy_body (b : jbody) : Prop :=
  match b with JKids t op _ _ _ _ _ i => tidy_word (op_words t) op /\ tidy_kids i | _ => True end
with tidy_kids (i : jkids) : Prop :=
  match i with JNone _ => True | JSome _ f r _ => tidy f /\ tidy_more r end
with tidy_more (r : jmore) : Prop :=
  match r with JStop => True | JNext _ _ n r => tidy n /\ tidy_more r end.

(** [pol] is the text of [w] between two gaps, and [g] comes first. *)
Definition json_layout (pol g : string) (w : jwritten) : Prop :=
  exists h, gap g /\ jwellformed w /\ gap h /\ pol = g ++ jshow w ++ h /\ preferred h w.
