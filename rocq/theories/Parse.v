(** * Parse: /repo/src/utils/policy/pest/{mod,human,json}.rs *)
From Coq Require Import String Ascii List Bool Arith.
From Verif Require Import Base Policy Peg Grammar.
Import ListNotations.
Local Open Scope string_scope.

(** [human::parse] and [json::parse] on a token pair;
    /repo/src/utils/policy/pest/human.rs:8-49 and json.rs:8-48 (same code).
    [into_inner().next().unwrap()] panics when there is no inner pair, and the
    remaining rules are [unreachable!()]. *)
Fixpoint build (t : tok rule) : outcome pvalue :=
  match t with
  | Tok r _ _ ts =>
      let leaf :=
        match ts with
        | Tok _ col text _ :: _ => Ok (PStr text col)
        | [] => Panic
        end in
      let children :=
        (fix loop (l : list (tok rule)) : outcome (list pvalue) :=
           match l with
           | [] => Ok []
           | c :: l' => obind (build c) (fun v => obind (loop l') (fun vs => Ok (v :: vs)))
           end) in
      match r with
      | string_ => leaf
      | number => leaf
      | and_ => obind (children ts) (fun vs => Ok (PObj And (PArr vs)))
      | or_ => obind (children ts) (fun vs => Ok (PObj Or (PArr vs)))
      | _ => Panic
      end
  end.

(** Depth bound given to the interpreter; it is enough for every input
    (theorem [parse_total] in ParseProofs.v), so it is not observable; not in /repo. *)
Definition fuel_of (input : string) : nat := (String.length input + 1) * 3000.

(** The choice of the parser; /repo/src/utils/policy/pest/mod.rs:44-65. *)
Definition grammar_of (lang : language) : grammar rule :=
  match lang with JsonPolicy => json | HumanPolicy => human end.

(** [parse]; /repo/src/utils/policy/pest/mod.rs:40-66. *)
Definition parse (policy : string) (lang : language) : outcome pvalue :=
  match run (grammar_of lang) (fuel_of policy) NonAtomic (ERule content) (St 1 policy) with
  | Done _ (t :: _) => build t
  | Done _ [] => Panic
  | Fail => Err
  | Fuel => Panic
  end.

(** [contents.join(sep)]; /repo/src/utils/policy/pest/mod.rs:86 and 103-104. *)
Definition join (sep : string) (l : list string) : string := String.concat sep l.

(** [serialize_policy]; /repo/src/utils/policy/pest/mod.rs:68-112.  The outcome
    is [Panic] for an array without parent in the human language. *)
Fixpoint serialize_policy (v : pvalue) (lang : language) (parent : option ptype) : outcome string :=
  let all :=
    (fix loop (l : list pvalue) : outcome (list string) :=
       match l with
       | [] => Ok []
       | c :: r => obind (serialize_policy c lang None) (fun s =>
                   obind (loop r) (fun ss => Ok (s :: ss)))
       end) in
  match lang with
  | JsonPolicy =>
      match v with
      | PObj And w => obind (serialize_policy w lang None) (fun s =>
          Ok ("{" ++ quote_s ++ "name" ++ quote_s ++ ": " ++ quote_s ++ "and" ++ quote_s ++ ", " ++ s ++ "}"))
      | PObj Or w => obind (serialize_policy w lang None) (fun s =>
          Ok ("{" ++ quote_s ++ "name" ++ quote_s ++ ": " ++ quote_s ++ "or" ++ quote_s ++ ", " ++ s ++ "}"))
      | PObj Leaf w => serialize_policy w lang None
      | PArr l => obind (all l) (fun ss =>
          Ok (quote_s ++ "children" ++ quote_s ++ ": [" ++ join ", " ss ++ "]"))
      | PStr n _ => Ok ("{" ++ quote_s ++ "name" ++ quote_s ++ ": " ++ quote_s ++ n ++ quote_s ++ "}")
      end
  | HumanPolicy =>
      match v with
      | PObj t w => serialize_policy w lang (Some t)
      | PArr l => obind (all l) (fun ss =>
          match parent with
          | Some And => Ok ("(" ++ join " and " ss ++ ")")
          | Some Or => Ok ("(" ++ join " or " ss ++ ")")
          | _ => Panic
          end)
      | PStr n _ => Ok n
      end
  end.
