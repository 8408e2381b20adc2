(** * Msp: /repo/src/utils/policy/msp.rs *)
From Coq Require Import String List Bool Arith ZArith.
From Verif Require Import Base Policy.
Import ListNotations.

(** [AbePolicy]; /repo/src/utils/policy/msp.rs:11-15. Entries are [i8] values
    -1, 0, 1 ([MINUS], [ZERO], [PLUS], lines 6-8). *)
Record abe_policy := AbePolicy {
  msp_m : list (list Z);
  msp_pi : list string;
  msp_c : nat
}.

(** [Vec::resize] with fill value 0; /repo/src/utils/policy/msp.rs:90 and 135-137. *)
Definition resize (v : list Z) (n : nat) : list Z :=
  firstn n v ++ repeat 0%Z (n - length v).

(** [lw]; /repo/src/utils/policy/msp.rs:102-147.  The mutable [msp] argument is
    threaded as state; the result carries the Boolean. *)
Fixpoint lw (p : pvalue) (v : list Z) (parent : option ptype) (msp : abe_policy)
  : outcome (bool * abe_policy) :=
  match p with
  | PStr n _ => Ok (true, AbePolicy (v :: msp_m msp) (n :: msp_pi msp) (msp_c msp))
  | PObj t w => lw w v (Some t) msp
  | PArr ps =>
      if length ps <? 2 then Panic
      else match parent with
      | Some Or =>
          (fix loop (l : list pvalue) (ret : bool) (msp : abe_policy) :=
             match l with
             | [] => Ok (ret, msp)
             | q :: r => obind (lw q v (Some Or) msp) (fun bm =>
                         loop r (ret && fst bm) (snd bm))
             end) ps true msp
      | Some And =>
          match ps with
          | [p0; p1] =>
              let c := msp_c msp in
              let right := resize v c ++ [1%Z] in
              let left := repeat 0%Z c ++ [(-1)%Z] in
              let msp1 := AbePolicy (msp_m msp) (msp_pi msp) (S c) in
              obind (lw p0 right (Some And) msp1) (fun bm =>
              if fst bm then lw p1 left (Some And) (snd bm) else Ok (false, snd bm))
          | _ => Panic
          end
      | Some Leaf | None => Ok (false, msp)
      end
  end.

(** Stable sort by name, standing for [permutation::sort] plus [apply_slice]
    on both vectors; /repo/src/utils/policy/msp.rs:93-95. *)
Fixpoint insert_row (x : string * list Z) (l : list (string * list Z)) :=
  match l with
  | [] => [x]
  | y :: r => if String.leb (fst x) (fst y) then x :: l else y :: insert_row x r
  end.
Definition sort_rows (l : list (string * list Z)) := fold_right insert_row [] l.

(** [calculate_msp]; /repo/src/utils/policy/msp.rs:78-99. *)
Definition calculate_msp (p : pvalue) : outcome abe_policy :=
  obind (lw p [1%Z] None (AbePolicy [] [] 1)) (fun bm =>
  if fst bm then
    let msp := snd bm in
    let rows := map (fun r => resize r (msp_c msp)) (msp_m msp) in
    let sorted := sort_rows (combine (msp_pi msp) rows) in
    Ok (AbePolicy (map snd sorted) (map fst sorted) (msp_c msp))
  else Err).
