(** * Sharing: /repo/src/utils/secretsharing/mod.rs *)
From Coq Require Import String List Bool Arith.
From Verif Require Import Base Crypto Policy Tools.
Import ListNotations.

(** [calc_pruned]; /repo/src/utils/secretsharing/mod.rs:143-201.
    The inner [unwrap] turns a child error into a panic. *)
Fixpoint calc_pruned (attr : list string) (v : pvalue) (t : option ptype)
  : outcome (bool * list (string * string)) :=
  match v with
  | PObj ty w => calc_pruned attr w (Some ty)
  | PArr children =>
      match t with
      | Some And =>
          if 2 <=? length children then
            (* loop 159-165: [policy_match] and the collected list *)
            match (fix loop (l : list pvalue) (m : bool) (acc : list (string * string)) :=
                     match l with
                     | [] => Ok (m, acc)
                     | c :: r =>
                         obind (unwrap_res (calc_pruned attr c None)) (fun fl =>
                         let m' := m && fst fl in
                         loop r m' (if m' then acc ++ snd fl else acc))
                     end) children true [] with
            | Ok (m, acc) => Ok (m, if m then acc else [])
            | Err => Err
            | Panic => Panic
            end
          else Panic
      | Some Or =>
          if 2 <=? length children then
            (* loop 177-184: stops at the first match *)
            (fix loop (l : list pvalue) :=
               match l with
               | [] => Ok (false, [])
               | c :: r =>
                   obind (unwrap_res (calc_pruned attr c None)) (fun fl =>
                   if fst fl then Ok (true, snd fl) else loop r)
               end) children
          else Panic
      | _ => Err
      end
  | PStr n c =>
      if contains attr n then Ok (true, [(n, node_index n c)]) else Ok (false, [])
  end.

Section Sharing.
Context {C : crypto}.
Local Open Scope F_scope.

(** Inner loop of [recover_coefficients]; /repo/src/utils/secretsharing/mod.rs:63-68. *)
Fixpoint lagrange_at (i : F C) (l : list (F C)) (result : F C) : outcome (F C) :=
  match l with
  | [] => Ok result
  | j :: r =>
      if feqb C i j then lagrange_at i r result
      else obind (unwrap (finv_opt (i - j))) (fun d =>
           lagrange_at i r (result * ((0 - j) * d)))
  end.

(** [recover_coefficients]; /repo/src/utils/secretsharing/mod.rs:60-72. *)
Definition recover_coefficients (l : list (F C)) : outcome (list (F C)) :=
  omap (fun i => lagrange_at i l 1) l.

(** [vec![1]] extended by [prev + 1]; /repo/src/utils/secretsharing/mod.rs:25-29.
    [count_from x n] is [x, x+1, ...] with [n] entries; the code starts with one
    entry even when there are no children. *)
Fixpoint count_from (x : F C) (n : nat) : list (F C) :=
  match n with O => [] | S k => x :: count_from (x + 1) k end.
Definition and_points (n : nat) : list (F C) := count_from 1 (Nat.max 1 n).

(** [calc_coefficients]; /repo/src/utils/secretsharing/mod.rs:9-57.  The code
    passes [coeff] as an [Option] that is always [Some] (every call site passes
    [Some]); here it is the value. The outer [Panic] is [policy_type.unwrap()]
    on [None], the inner [None] is the Rust [None]. *)
Fixpoint calc_coefficients (v : pvalue) (coeff : F C)
  (acc : list (string * F C)) (t : option ptype)
  : outcome (option (list (string * F C))) :=
  match v with
  | PObj And w => calc_coefficients w coeff acc (Some And)
  | PObj Or w => calc_coefficients w coeff acc (Some Or)
  | PObj Leaf w => Ok (Some (acc ++ [(get_value w, coeff)]))
  | PArr children =>
      match t with
      | Some And =>
          obind (recover_coefficients (and_points (length children))) (fun cs =>
          (fix loop (l : list pvalue) (cs : list (F C)) (acc : list (string * F C)) :=
             match l with
             | [] => Ok (Some acc)
             | c :: r =>
                 match cs with
                 | [] => Panic (* this_coeff[i] out of range *)
                 | k :: ks =>
                     match calc_coefficients c (coeff * k) acc None with
                     | Ok (Some acc') => loop r ks acc'
                     | Ok None => Ok None
                     | Err => Err
                     | Panic => Panic
                     end
                 end
             end) children cs acc)
      | Some Or =>
          obind (recover_coefficients [1]) (fun cs =>
          match cs with
          | [] => Panic
          | k :: _ =>
            (fix loop (l : list pvalue) (acc : list (string * F C)) :=
             match l with
             | [] => Ok (Some acc)
             | c :: r =>
                 match calc_coefficients c (coeff * k) acc None with
                 | Ok (Some acc') => loop r acc'
                 | Ok None => Ok None
                 | Err => Err
                 | Panic => Panic
                 end
             end) children acc
          end)
      | Some Leaf => Ok None
      | None => Panic
      end
  | PStr n c => Ok (Some (acc ++ [(node_index n c, coeff)]))
  end.

(** [polynomial]; /repo/src/utils/secretsharing/mod.rs:215-221. *)
Fixpoint poly_from (i : nat) (coeff : list (F C)) (x : F C) (share : F C) : F C :=
  match coeff with
  | [] => share
  | a :: r => poly_from (S i) r x (share + a * fpow x i)
  end.
Definition polynomial (coeff : list (F C)) (x : F C) : F C := poly_from 0 coeff x 0.

(** [gen_shares]; /repo/src/utils/secretsharing/mod.rs:124-141. *)
Definition gen_shares (secret : F C) (k n : nat) : rand (F C) (list (F C)) :=
  if k <=? n then
    rbind (draws (k - 1)) (fun a =>
    rret (map (fun i => polynomial (secret :: a) (usize_to_fr i)) (seq 0 (n + 1))))
  else rret [].

(** [gen_shares_policy]; /repo/src/utils/secretsharing/mod.rs:82-122.  The code
    returns an [Option] that is never [None]; the option is dropped. *)
Fixpoint gen_shares_policy (secret : F C) (v : pvalue) (t : option ptype)
  : rand (F C) (list (string * F C)) :=
  match v with
  | PStr n c => rret [(node_index n c, secret)]
  | PObj ty w => gen_shares_policy secret w (Some ty)
  | PArr children =>
      match t with
      | Some And | Some Or =>
          let n := length children in
          let k := match t with Some And => n | _ => 1%nat end in
          rbind (gen_shares secret k n) (fun shares =>
          (* shares[_i + 1] *)
          (fix loop (l : list pvalue) (sh : list (F C)) (acc : list (string * F C)) :=
             match l with
             | [] => rret acc
             | c :: r =>
                 match sh with
                 | [] => rpanic
                 | s :: sr =>
                     rbind (gen_shares_policy s c None) (fun items =>
                     loop r sr (acc ++ items))
                 end
             end) children (tl shares) [])
      | _ => rpanic
      end
  end.

(** [recover_secret] after parsing; /repo/src/utils/secretsharing/mod.rs:204-213. *)
Definition recover_secret (shares : list (F C)) (v : pvalue) : outcome (F C) :=
  obind (calc_coefficients v 1 [] None) (fun o =>
  obind (unwrap o) (fun cl =>
  (fix loop (sh : list (F C)) (cl : list (string * F C)) (acc : F C) :=
     match sh with
     | [] => Ok acc
     | s :: sr => match cl with
                  | [] => Panic
                  | c :: cr => loop sr cr (acc + snd c * s)
                  end
     end) shares cl 0)).

End Sharing.
