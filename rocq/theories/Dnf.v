(** * Dnf: /repo/src/utils/policy/dnf.rs *)
From Coq Require Import String List Bool Arith.
From Verif Require Import Base Crypto Policy.
Import ListNotations.

Section Dnf.
Context {C : crypto}.

(** What the trait [PublicAttributeKey] gives access to;
    /repo/src/utils/policy/dnf.rs:50-100.  The schemes build this record from
    their own key types (lines 69-85 for MKE08, 87-100 for BDABE). *)
Record pak := Pak {
  pak_attr : string;
  pak_g1 : G1 C;
  pak_g2 : G2 C;
  pak_gt1 : GT C;
  pak_gt2 : GT C
}.

(** One entry of [DnfPolicy::terms]; /repo/src/utils/policy/dnf.rs:13-15. *)
Record term := Term {
  tm_attrs : list string;
  tm_gt1 : GT C;
  tm_gt2 : GT C;
  tm_g1 : G1 C;
  tm_g2 : G2 C
}.

(** New term for one key; /repo/src/utils/policy/dnf.rs:126-132. *)
Definition new_term (p : pak) : term :=
  Term [pak_attr p] (pak_gt1 p) (pak_gt2 p) (pak_g1 p) (pak_g2 p).

(** Merge a key into a term; /repo/src/utils/policy/dnf.rs:117-124. *)
Definition merge_term (t : term) (p : pak) : term :=
  Term (tm_attrs t ++ [pak_attr p]) (gtmul C (tm_gt1 t) (pak_gt1 p))
       (gtmul C (tm_gt2 t) (pak_gt2 p)) (g1add C (tm_g1 t) (pak_g1 p))
       (g2add C (tm_g2 t) (pak_g2 p)).

(** [terms[i] = f(terms[i])]; /repo/src/utils/policy/dnf.rs:117-124. *)
Fixpoint update_nth {A} (i : nat) (f : A -> A) (l : list A) : list A :=
  match l, i with
  | [], _ => []
  | x :: r, O => f x :: r
  | x :: r, S j => x :: update_nth j f r
  end.

(** The loop over the keys for a leaf; /repo/src/utils/policy/dnf.rs:114-135. *)
Definition dnf_leaf (pks : list pak) (name : string) (i : nat) (terms : list term) : list term :=
  fold_left (fun terms p =>
    if seqb (pak_attr p) name then
      if i <? length terms then update_nth i (fun t => merge_term t p) terms
      else terms ++ [new_term p]
    else terms) pks terms.

(** [dnf]; /repo/src/utils/policy/dnf.rs:103-174.  The mutable [dnf_policy] is
    threaded; [ret = ret && dnf(..)] skips the call once [ret] is false. In the
    [Or] loop the index is the doubled loop counter (line 148), not the [i] of
    the caller. *)
Fixpoint dnf (pks : list pak) (v : pvalue) (i : nat) (parent : option ptype)
  (terms : list term) : bool * list term :=
  match v with
  | PStr n _ => (true, dnf_leaf pks n i terms)
  | PArr children =>
      match parent with
      | Some And =>
          (fix loop (l : list pvalue) (ret : bool) (terms : list term) :=
             match l with
             | [] => (ret, terms)
             | c :: r => if ret then
                           let bt := dnf pks c i (Some And) terms in loop r (fst bt) (snd bt)
                         else loop r ret terms
             end) children true terms
      | Some Or =>
          (fix loop (l : list pvalue) (k : nat) (ret : bool) (terms : list term) :=
             match l with
             | [] => (ret, terms)
             | c :: r => if ret then
                           let bt := dnf pks c (k + k) (Some Or) terms in loop r (S k) (fst bt) (snd bt)
                         else loop r (S k) ret terms
             end) children 0 true terms
      | _ => (false, terms)
      end
  | PObj t w =>
      match parent with
      | None => dnf pks w i (Some t) terms
      | Some Leaf => dnf pks w i (Some Leaf) terms
      | Some Or => match t with
                   | And => dnf pks w i (Some And) terms
                   | _ => (false, terms)
                   end
      | Some And => match t with
                    | Leaf => dnf pks w i (Some Leaf) terms
                    | _ => (false, terms)
                    end
      end
  end.

(** [sort_by] on the number of attributes (stable);
    /repo/src/utils/policy/dnf.rs:183. *)
Fixpoint insert_term (x : term) (l : list term) : list term :=
  match l with
  | [] => [x]
  | y :: r => if length (tm_attrs x) <=? length (tm_attrs y) then x :: l
              else y :: insert_term x r
  end.
Definition sort_terms (l : list term) : list term := fold_right insert_term [] l.

(** [json_to_dnf]; /repo/src/utils/policy/dnf.rs:177-189, with [DnfPolicy::new] (dnf.rs:24-26)
    as the empty list.  [DnfPolicy::from_policy] (dnf.rs:41-46) is the same function;
    [DnfPolicy::from_string] (dnf.rs:28-39) parses first, see [bd_encrypt] in Bdabe.v and
    [mk_encrypt] in Mke08.v. *)
Definition json_to_dnf (v : pvalue) (pks : list pak) : outcome (list term) :=
  let bt := dnf pks v 0 None [] in
  if fst bt then Ok (sort_terms (snd bt)) else Err.

End Dnf.
Arguments pak C : clear implicits.
Arguments term C : clear implicits.

(** [policy_in_dnf]; /repo/src/utils/policy/dnf.rs:191-231.  [ret &= ..] without
    side effects is [forallb]. *)
Fixpoint policy_in_dnf (v : pvalue) (conjunction : bool) (parent : option ptype) : bool :=
  match v with
  | PObj And w => policy_in_dnf w true (Some And)
  | PObj Or w => policy_in_dnf w conjunction (Some Or)
  | PObj Leaf w => policy_in_dnf w conjunction (Some Leaf)
  | PStr _ _ => true
  | PArr children =>
      match parent with
      | Some And => forallb (fun c => policy_in_dnf c true (Some And)) children
      | Some Or => if conjunction then false
                   else forallb (fun c => policy_in_dnf c conjunction (Some Or)) children
      | _ => false
      end
  end.
