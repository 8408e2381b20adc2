(** * WordsTraces: a session of rabe-console by its command lines, while other files change *)
From Coq Require Import String Ascii List Bool Arith Lia.
From Verif Require Import Base Crypto Policy Parse Spec Files Borsh Errors Messages Console ConsoleProofs CommandLine
  DependProofs WordProofs ConsolePrints ConsolePrintsProofs Words WordsProofs ConsoleTraces.
Import ListNotations.
Local Open Scope nat_scope.
Local Open Scope string_scope.

Section Traces.
Context {C : crypto} (L : laws C) (E : env C) (OK : env_ok E).
Variable place : language -> string -> location.
Variable fe : field_error.
Variable pest : language -> string -> string.
Variable debug : string -> string.
Variable T : crate_texts.
Local Notation program := (program E place fe pest debug T).

Theorem program_states ts tk te td n1 n2 n3 n4 x l file policy f data d d1 a a' b b' z o1 o2 o3 :
  program ts n1 ["--s"; "AC17CP"; "setup"] d = Some (o1, (d1, 0)) ->
  program tk n2 ["--s"; "AC17CP"; "keygen"; "--a"; x] a = Some (o2, (a', 0)) ->
  program te n3 ["--s"; "AC17CP"; "--l"; l; "encrypt"; file; policy] b = Some (o3, (b', 0)) ->
  same_at d1 a "msk.key" -> same_at d1 b "pk.key" -> same_at a' z "sk.key" -> same_at b' z (file ++ ".ct") ->
  readable d "msk.key" -> readable d "pk.key" -> readable a "sk.key" -> readable b (file ++ ".ct") ->
  fs_open b file = Some data -> fs_open z file <> None ->
  dashed (file ++ ".ct") = false -> dashed policy = false ->
  valid x -> valid policy ->
  parse policy (lang_of (Some l)) = Ok (tree f) -> String.length n3 = 12 -> NoDup (names f) ->
  exists o4, program td n4 ["--s"; "AC17CP"; "decrypt"; file ++ ".ct"] z =
    Some (o4, (z, if sat (owns [x]) f then (if seqb data "" then 0 else 101) else 1)).
Proof.
  intros H1 H2 H3 SA SB SS SC Q1 Q2 Q3 Q4 FO FI Df Dp VX VP P NL ND.
  destruct (program_zero L E place fe pest debug T ts n1 ["--s"; "AC17CP"; "setup"] "AC17CP" None "setup" Setup
    (fun _ => None) d o1 d1 eq_refl eq_refl H1) as (t1 & R1).
  destruct (command_line ["--s"; "AC17CP"; "keygen"; "--a"; x]) as [r2|] eqn:W2.
  2:{ unfold Words.program in H2. rewrite W2 in H2. discriminate. }
  pose proof (line_keygen x r2 W2) as ->.
  destruct (program_zero L E place fe pest debug T tk n2 _ _ _ _ Keygen _ a o2 a' W2 eq_refl H2) as (t2 & R2).
  destruct (command_line ["--s"; "AC17CP"; "--l"; l; "encrypt"; file; policy]) as [r3|] eqn:W3.
  2:{ unfold Words.program in H3. rewrite W3 in H3. discriminate. }
  pose proof (line_encrypt l file policy r3 (dashed_ct file Df) Dp W3) as ->.
  destruct (program_zero L E place fe pest debug T te n3 _ _ _ _ Encrypt _ b o3 b' W3 eq_refl H3) as (t3 & R3).
  pose proof (line_decrypt (file ++ ".ct") Df) as W4.
  set (gk := give "a" x (fun _ => None)) in *. set (ge := give "p" policy (give "f" file (fun _ => None))) in *.
  set (gd := give "f" (file ++ ".ct") (fun _ => None)) in *.
  assert (O : snd (open_file E (matches Decrypt gd) AC17CP z) = if sat (owns [x]) f then Ok data else Err).
  { change [x] with (attr_args (matches Keygen gk)).
    refine (cp_states L E OK ts tk te n3 t3 (matches Setup (fun _ => None)) (matches Keygen gk) (matches Encrypt ge)
      (matches Decrypt gd) (lang_of (Some l)) HumanPolicy d d1 a a' b b' z data f R1 R2 R3 eq_refl eq_refl eq_refl eq_refl
      _ SA SB SS SC Q1 Q2 Q3 Q4 FO _ VP P NL ND _).
    - change ("msk.key" <> "pk.key"). discriminate.
    - repeat constructor. exact VX.
    - repeat constructor; auto. }
  unfold Words.program. rewrite W4.
  destruct (main_app L E place fe pest debug T td n4 (Some "AC17CP") None (Some ("decrypt", gd)) z) as (t4 & M).
  cbn zeta in M. unfold CommandLine.app in M. change (command_of "decrypt") with (Some Decrypt) in M. cbn iota in M.
  destruct (main E place fe pest debug T td n4 (Some "AC17CP") None (Some ("decrypt", gd)) z) as [o4 r4].
  exists o4. f_equal. f_equal. cbn [snd] in M. rewrite M. cbn [run]. unfold run_decrypt, ibind.
  change (scheme_of "AC17CP") with AC17CP.
  destruct (open_file E (matches Decrypt gd) AC17CP z) as [d4 r] eqn:Op.
  pose proof (quiet_open_file E _ _ _ _ _ Op) as ->. cbn [snd] in O. subst r.
  change (text_arg (matches Decrypt gd) FILE) with (file ++ ".ct"). rewrite pop_ct.
  destruct (sat (owns [x]) f); [|reflexivity].
  unfold write_from_vec. destruct (fs_open z file) as [y|]; [|congruence]. destruct data as [|e data]; reflexivity.
Qed.
End Traces.
