(** * Serde: the form of keys and ciphertexts under the feature "serde"

    With the feature "serde" (the library's default) every key and ciphertext
    type derives [Serialize] and [Deserialize], and rabe-console built with it
    writes CBOR in packed form (/repo/rabe-console/src/mod.rs:1637-1648) and
    reads it with [from_slice] (/repo/rabe-console/src/mod.rs:1661-1670).  This
    file has the values of serde's data model that occur, what the derived code
    does with them, and CBOR (RFC 8949) as serde_cbor 0.11.2 writes and reads it.
    The forms of field and group elements are those of rabe_bn and stay abstract
    ([swire]).

    Simplified: the derived code sees the whole value, not a stream; CBOR items
    that nothing here writes (negative numbers, floats, tags, booleans, lengths
    left open) are errors. *)
From Coq Require Import String Ascii List Bool Arith NArith.
From Verif Require Import Base Crypto Policy Files Borsh.
From Verif Require Bsw Ghw11 Lsw Yct14 Ac17 Aw11 Bdabe Mke08.
Import ListNotations.
Local Open Scope string_scope.

(** ** Values *)

(** What the derived code hands to serde_cbor (/repo/Cargo.toml:20 and 35). *)
Inductive val : Type :=
| VU (n : N)
| VBytes (s : string)
| VText (s : string)
| VArr (l : list val)
| VMap (l : list (val * val))
| VNull.

(** ** CBOR *)

(** The [k] bytes of a number, most significant first; /repo/rabe-console/src/mod.rs:1637-1648 through serde_cbor. *)
Fixpoint be_bytes (k : nat) (n : N) : string :=
  match k with
  | O => ""
  | S k => String (ascii_of_N ((n / 256 ^ N.of_nat k) mod 256)) (be_bytes k n)
  end.

(** The number of the [k] bytes in front, and what follows them; /repo/rabe-console/src/mod.rs:1661-1670 through
    serde_cbor. *)
Fixpoint be_read (k : nat) (acc : N) (s : string) : option (N * string) :=
  match k with
  | O => Some (acc, s)
  | S k => match s with
           | String b r => be_read k (256 * acc + N_of_ascii b) r
           | EmptyString => None
           end
  end.

(** The head of an item: major type and number in the shortest form
    ([write_u64] of serde_cbor); /repo/rabe-console/src/mod.rs:1637-1648. *)
Definition head (major n : N) : string :=
  let first i := String (ascii_of_N (32 * major + i)) "" in
  if (n <? 24)%N then first n
  else if (n <? 256)%N then first 24%N ++ be_bytes 1 n
  else if (n <? 65536)%N then first 25%N ++ be_bytes 2 n
  else if (n <? 4294967296)%N then first 26%N ++ be_bytes 4 n
  else first 27%N ++ be_bytes 8 n.

(** Reading a head: any of the forms, not only the shortest; /repo/rabe-console/src/mod.rs:1661-1670. *)
Definition get_head (s : string) : option (N * N * string) :=
  match s with
  | EmptyString => None
  | String b r =>
      let major := (N_of_ascii b / 32)%N in
      let info := (N_of_ascii b mod 32)%N in
      let long k := bind (be_read k 0 r) (fun '(n, r') => Some (major, n, r')) in
      if (info <? 24)%N then Some (major, info, r)
      else if (info =? 24)%N then long 1%nat
      else if (info =? 25)%N then long 2%nat
      else if (info =? 26)%N then long 4%nat
      else if (info =? 27)%N then long 8%nat
      else None
  end.

(** Writing a value ([to_vec], [to_vec_packed]); /repo/rabe-console/src/mod.rs:1637-1648. *)
Fixpoint put (v : val) : string :=
  match v with
  | VU n => head 0 n
  | VBytes s => head 2 (N.of_nat (String.length s)) ++ s
  | VText s => head 3 (N.of_nat (String.length s)) ++ s
  | VArr l => head 4 (N.of_nat (List.length l)) ++
              (fix all (l : list val) := match l with [] => "" | x :: l => put x ++ all l end) l
  | VMap l => head 5 (N.of_nat (List.length l)) ++
              (fix all (l : list (val * val)) :=
                 match l with [] => "" | (k, x) :: l => put k ++ put x ++ all l end) l
  | VNull => head 7 22
  end.

(** The first [n] bytes and the rest; /repo/rabe-console/src/mod.rs:1661-1670 through serde_cbor. *)
Definition split_at (n : N) (s : string) : option (string * string) :=
  if (n <=? N.of_nat (String.length s))%N
  then Some (String.substring 0 (N.to_nat n) s,
             String.substring (N.to_nat n) (String.length s - N.to_nat n) s)
  else None.

(** Items one after the other, and pairs of items; /repo/rabe-console/src/mod.rs:1661-1670 through serde_cbor. *)
Fixpoint get_n (get : string -> option (val * string)) (n : nat) (s : string)
  : option (list val * string) :=
  match n with
  | O => Some ([], s)
  | S n => bind (get s) (fun '(x, r) => bind (get_n get n r) (fun '(l, r') => Some (x :: l, r')))
  end.
Fixpoint get_pairs (get : string -> option (val * string)) (n : nat) (s : string)
  : option (list (val * val) * string) :=
  match n with
  | O => Some ([], s)
  | S n => bind (get s) (fun '(k, r) => bind (get r) (fun '(x, r') =>
           bind (get_pairs get n r') (fun '(l, r'') => Some ((k, x) :: l, r''))))
  end.

(** Reading a value; [depth] arrays and maps may be open at once; /repo/rabe-console/src/mod.rs:1661-1670. *)
Fixpoint get (depth : nat) (s : string) : option (val * string) :=
  bind (get_head s) (fun '(major, n, r) =>
  match major with
  | 0%N => Some (VU n, r)
  | 2%N => bind (split_at n r) (fun '(v, r') => Some (VBytes v, r'))
  | 3%N => bind (split_at n r) (fun '(v, r') => if utf8 v then Some (VText v, r') else None)
  | 4%N => match depth with
           | O => None
           | S d => bind (get_n (get d) (N.to_nat n) r) (fun '(l, r') => Some (VArr l, r'))
           end
  | 5%N => match depth with
           | O => None
           | S d => bind (get_pairs (get d) (N.to_nat n) r) (fun '(l, r') => Some (VMap l, r'))
           end
  | 7%N => if (n =? 22)%N then Some (VNull, r) else None
  | _ => None
  end).

(** serde_cbor stops at the 128th level; /repo/rabe-console/Cargo.toml:35. *)
Definition max_depth : nat := 127.

(** ** Derived code *)

(** [Serialize] and [Deserialize] of a type, and the value that a missing field
    of this type takes, if any; /repo/Cargo.toml:20 and 35. *)
Record sd (A : Type) : Type := SD {
  ser : A -> val;
  de : val -> option A;
  miss : option A
}.
Arguments SD {A} _ _ _. Arguments ser {A} _ _. Arguments de {A} _ _. Arguments miss {A} _.

(** [to_vec]/[to_vec_packed] and [from_slice], which wants no bytes left over;
    /repo/rabe-console/src/mod.rs:1637-1648 and 1661-1670. *)
Definition to_cbor {A} (s : sd A) (v : A) : string := put (ser s v).
Definition from_cbor {A} (s : sd A) (b : string) : outcome A :=
  match get max_depth b with
  | Some (v, EmptyString) => match de s v with Some x => Ok x | None => Err end
  | _ => Err
  end.

(** The same as a [codec], for the functions of Console.v;
    /repo/rabe-console/src/mod.rs:1637-1648 and 1661-1670. *)
Definition c_cbor {A} (s : sd A) : codec A :=
  Codec (fun v => Some (to_cbor s v))
        (fun b => bind (get max_depth b) (fun '(v, r) => option_map (fun x => (x, r)) (de s v))).

(** How structs and enums are written: [packed]: fields and unit variants by
    number instead of name; [var_number]: other variants by number too;
    [skip_none]: the attribute at /repo/src/schemes/yct14/mod.rs:54 is there,
    which is so when the feature "borsh" is off. *)
Record mode : Type := Mode { packed : bool; var_number : bool; skip_none : bool }.

(** [String], as in /repo/src/schemes/bsw/mod.rs:86; byte strings are accepted as well. *)
Definition s_text : sd string :=
  SD VText
     (fun v => match v with
               | VText s => Some s
               | VBytes s => if utf8 s then Some s else None
               | _ => None
               end) None.

(** [u8], as in /repo/src/schemes/bsw/mod.rs:69. *)
Definition s_u8 : sd ascii :=
  SD (fun b => VU (N_of_ascii b))
     (fun v => match v with
               | VU n => if (n <? 256)%N then Some (ascii_of_N n) else None
               | _ => None
               end) None.

(** Reading all elements, for the next two; not in /repo. *)
Fixpoint de_all {A} (s : sd A) (l : list val) : option (list A) :=
  match l with
  | [] => Some []
  | v :: l => bind (de s v) (fun x => bind (de_all s l) (fun y => Some (x :: y)))
  end.

(** [Vec<T>], as in /repo/src/schemes/bsw/mod.rs:68. *)
Definition s_list {A} (s : sd A) : sd (list A) :=
  SD (fun l => VArr (map (ser s) l))
     (fun v => match v with VArr l => de_all s l | _ => None end) None.

(** [Vec<u8>], as in /repo/src/schemes/bsw/mod.rs:69: an array of numbers. *)
Definition s_bytes : sd string :=
  SD (fun d => ser (s_list s_u8) (list_ascii_of_string d))
     (fun v => option_map string_of_list_ascii (de (s_list s_u8) v)) None.

(** [Option<T>], as in /repo/src/schemes/yct14/mod.rs:55. *)
Definition s_option {A} (s : sd A) : sd (option A) :=
  SD (fun o => match o with None => VNull | Some x => ser s x end)
     (fun v => match v with VNull => Some None | _ => option_map Some (de s v) end)
     (Some None).

(** Tuples, as in /repo/src/schemes/lsw/mod.rs:71: the values in order. *)
Record parts (A : Type) : Type := Parts {
  p_count : nat; p_sers : A -> list val; p_des : list val -> option A
}.
Arguments Parts {A} _ _ _. Arguments p_count {A} _. Arguments p_sers {A} _ _. Arguments p_des {A} _ _.
Definition t_one {A} (s : sd A) : parts A :=
  Parts 1 (fun v => [ser s v]) (fun l => match l with [v] => de s v | _ => None end).
Definition t_and {A B} (a : parts A) (b : parts B) : parts (A * B) :=
  Parts (p_count a + p_count b)
        (fun v => p_sers a (fst v) ++ p_sers b (snd v))%list
        (fun l => bind (p_des a (firstn (p_count a) l)) (fun x =>
                  bind (p_des b (skipn (p_count a) l)) (fun y => Some (x, y)))).
Definition s_tuple {A B} (p : parts A) (f : B -> A) (g : A -> B) : sd B :=
  SD (fun v => VArr (p_sers p (f v)))
     (fun v => match v with VArr l => option_map g (p_des p l) | _ => None end) None.
Definition duo {A B} (a : sd A) (b : sd B) : sd (A * B) :=
  s_tuple (t_and (t_one a) (t_one b)) (fun v => v) (fun v => v).
Definition tri {A B D} (a : sd A) (b : sd B) (d : sd D) : sd (A * B * D) :=
  s_tuple (t_and (t_and (t_one a) (t_one b)) (t_one d)) (fun v => v) (fun v => v).
Definition quad {A B D E} (a : sd A) (b : sd B) (d : sd D) (e : sd E) : sd (A * B * D * E) :=
  s_tuple (t_and (t_and (t_and (t_one a) (t_one b)) (t_one d)) (t_one e)) (fun v => v) (fun v => v).

(** The fields of a struct, as in /repo/src/schemes/bsw/mod.rs:40-49: names, and the values
    found for them. *)
Record fields (A : Type) : Type := Fields {
  f_names : list string; f_sers : A -> list val; f_des : list (option val) -> option A
}.
Arguments Fields {A} _ _ _. Arguments f_names {A} _. Arguments f_sers {A} _ _. Arguments f_des {A} _ _.
Definition f_one {A} (n : string) (s : sd A) : fields A :=
  Fields [n] (fun v => [ser s v])
         (fun l => match l with
                   | [Some v] => de s v
                   | [None] => miss s
                   | _ => None
                   end).
Definition f_and {A B} (a : fields A) (b : fields B) : fields (A * B) :=
  Fields (f_names a ++ f_names b)%list
         (fun v => f_sers a (fst v) ++ f_sers b (snd v))%list
         (fun l => bind (f_des a (firstn (List.length (f_names a)) l)) (fun x =>
                   bind (f_des b (skipn (List.length (f_names a)) l)) (fun y => Some (x, y)))).

(** The position of a name; derived code (/repo/Cargo.toml:20 and 35). *)
Fixpoint index_of (n : string) (l : list string) : option nat :=
  match l with
  | [] => None
  | x :: l => if String.eqb n x then Some O else option_map S (index_of n l)
  end.

(** Which field a key means: an error, no field (ignored), or the one at a
    position; derived code (/repo/Cargo.toml:20 and 35). *)
Definition which (names : list string) (k : val) : option (option nat) :=
  match k with
  | VU n => Some (if (n <? N.of_nat (List.length names))%N then Some (N.to_nat n) else None)
  | VText s | VBytes s => Some (index_of s names)
  | _ => None
  end.

(** Put a value at a position that is still free; derived code (/repo/Cargo.toml:20 and 35). *)
Fixpoint fill (i : nat) (v : val) (l : list (option val)) : option (list (option val)) :=
  match l, i with
  | None :: l, O => Some (Some v :: l)
  | x :: l, S i => option_map (cons x) (fill i v l)
  | _, _ => None
  end.

(** [visit_map]: unknown keys are ignored, a field that comes twice is an error;
    derived code (/repo/Cargo.toml:20 and 35). *)
Fixpoint gather (names : list string) (es : list (val * val)) (found : list (option val))
  : option (list (option val)) :=
  match es with
  | [] => Some found
  | (k, v) :: es =>
      bind (which names k) (fun w =>
      match w with
      | None => gather names es found
      | Some i => bind (fill i v found) (gather names es)
      end)
  end.

(** A map, or an array of as many values as there are fields ([visit_seq]); derived code
    (/repo/Cargo.toml:20 and 35). *)
Definition pick (names : list string) (v : val) : option (list (option val)) :=
  match v with
  | VMap es => gather names es (map (fun _ => None) names)
  | VArr l => if Nat.eqb (List.length l) (List.length names) then Some (map Some l) else None
  | _ => None
  end.

(** The number of a variant, by number or name; derived code, as for
    /repo/src/schemes/yct14/mod.rs:58-64. *)
Definition variant_no (names : list string) (k : val) : option nat :=
  match k with
  | VU n => if (n <? N.of_nat (List.length names))%N then Some (N.to_nat n) else None
  | VText s | VBytes s => index_of s names
  | _ => None
  end.
(** An enum whose variants have one value: a map of one entry or an array of two;
    as for /repo/src/schemes/yct14/mod.rs:58-64. *)
Definition variant (names : list string) (v : val) : option (nat * val) :=
  match v with
  | VMap [(k, x)] => option_map (fun i => (i, x)) (variant_no names k)
  | VArr [k; x] => option_map (fun i => (i, x)) (variant_no names k)
  | _ => None
  end.

(** The forms of rabe_bn; /repo/Cargo.toml:20. *)
Record swire (C : crypto) : Type := SWire {
  sw_f : sd (F C); sw_1 : sd (G1 C); sw_2 : sd (G2 C); sw_t : sd (GT C)
}.
Arguments sw_f {C} _. Arguments sw_1 {C} _. Arguments sw_2 {C} _. Arguments sw_t {C} _.

Section Types.
Context {C : crypto} (W : swire C) (M : mode).
Local Notation f := (sw_f W). Local Notation g1 := (sw_1 W).
Local Notation g2 := (sw_2 W). Local Notation gt := (sw_t W).

(** The key of the field at a position; /repo/rabe-console/src/mod.rs:1637-1648 through serde_cbor. *)
Definition field_key (i : nat) (name : string) : val :=
  if packed M then VU (N.of_nat i) else VText name.
Fixpoint keyed (i : nat) (names : list string) (vs : list val) : list (val * val) :=
  match names, vs with
  | n :: names, v :: vs => (field_key i n, v) :: keyed (S i) names vs
  | _, _ => []
  end.

(** A struct, as in /repo/src/schemes/bsw/mod.rs:40-49. *)
Definition s_struct {A B} (fl : fields A) (f : B -> A) (g : A -> B) : sd B :=
  SD (fun v => VMap (keyed 0 (f_names fl) (f_sers fl (f v))))
     (fun v => bind (pick (f_names fl) v) (fun l => option_map g (f_des fl l)))
     None.

(** A variant with one value, as in /repo/src/schemes/yct14/mod.rs:61-64. *)
Definition newtype_variant (i : nat) (name : string) (v : val) : val :=
  VMap [(if var_number M then VU (N.of_nat i) else VText name, v)].

(** [PolicyLanguage], an enum without values;
    /repo/src/utils/policy/pest/mod.rs:15-23. *)
Definition s_lang : sd language :=
  SD (fun l => match l with
               | JsonPolicy => field_key 0 "JsonPolicy"
               | HumanPolicy => field_key 1 "HumanPolicy"
               end)
     (fun v => match variant_no ["JsonPolicy"; "HumanPolicy"] v with
               | Some O => Some JsonPolicy
               | Some _ => Some HumanPolicy
               | None => None
               end) None.

(** [(String, PolicyLanguage)], as in /repo/src/schemes/bsw/mod.rs:65. *)
Definition s_policy : sd (string * language) := duo s_text s_lang.

(** [RabeError]; /repo/src/error.rs:16-21. *)
Definition s_error : sd string := s_struct (f_one "details" s_text) (fun s => s) (fun s => s).

(** [Result<T, RabeError>]; serde treats it as an enum; written at
    /repo/rabe-console/src/mod.rs:1637-1648. *)
Definition s_result {A} (s : sd A) : sd (A + string) :=
  SD (fun r => match r with
               | inl v => newtype_variant 0 "Ok" (ser s v)
               | inr e => newtype_variant 1 "Err" (ser s_error e)
               end)
     (fun v => bind (variant ["Ok"; "Err"] v) (fun '(i, w) =>
        match i with
        | O => option_map inl (de s w)
        | _ => option_map inr (de s_error w)
        end)) None.

(** ** BSW; /repo/src/schemes/bsw/mod.rs *)
Import Bsw.
(** [CpAbeAttribute]; bsw/mod.rs:82-89. *)
Definition s_battr : sd (battr C) :=
  s_struct (f_and (f_and (f_one "string" s_text) (f_one "g1" g1)) (f_one "g2" g2))
    (fun k => (b_string k, b_g1 k, b_g2 k)) (fun '(a, b, c) => BAttr a b c).
(** [CpAbePublicKey]; bsw/mod.rs:40-49. *)
Definition s_bsw_pk : sd (bsw_pk C) :=
  s_struct (f_and (f_and (f_and (f_and (f_one "g1" g1) (f_one "g2" g2)) (f_one "h" g1)) (f_one "f" g2)) (f_one "e_gg_alpha" gt))
    (fun k => (bpk_g1 k, bpk_g2 k, bpk_h k, bpk_f k, bpk_egg k)) (fun '(a, b, c, d, e) => BswPk a b c d e).
(** [CpAbeMasterKey]; bsw/mod.rs:52-58. *)
Definition s_bsw_msk : sd (bsw_msk C) :=
  s_struct (f_and (f_one "beta" f) (f_one "g2_alpha" g2))
    (fun k => (bmsk_beta k, bmsk_g2a k)) (fun '(a, b) => BswMsk a b).
(** [CpAbeCiphertext]; bsw/mod.rs:61-70. *)
Definition s_bsw_ct : sd (bsw_ct C) :=
  s_struct (f_and (f_and (f_and (f_and (f_one "policy" s_policy) (f_one "c" g1)) (f_one "c_p" gt)) (f_one "c_y" (s_list s_battr))) (f_one "data" s_bytes))
    (fun k => (bct_policy k, bct_c k, bct_cp k, bct_cy k, bct_data k)) (fun '(a, b, c, d, e) => BswCt a b c d e).
(** [CpAbeSecretKey]; bsw/mod.rs:73-79. *)
Definition s_bsw_sk : sd (bsw_sk C) :=
  s_struct (f_and (f_one "d" g2) (f_one "d_j" (s_list s_battr)))
    (fun k => (bsk_d k, bsk_dj k)) (fun '(a, b) => BswSk a b).

(** ** GHW11; /repo/src/schemes/ghw11/mod.rs *)
Import Ghw11.
(** [Ghw11PublicKey]; ghw11/mod.rs:20-28. *)
Definition s_ghw_pk : sd (ghw_pk C) :=
  s_struct (f_and (f_and (f_and (f_and (f_one "g1" g1) (f_one "g2" g2)) (f_one "g1_a" g1)) (f_one "g2_a" g2)) (f_one "e_gg_alpha" gt))
    (fun k => (gpk_g1 k, gpk_g2 k, gpk_g1a k, gpk_g2a k, gpk_egg k)) (fun '(a, b, c, d, e) => GhwPk a b c d e).
(** [Ghw11MasterKey]; ghw11/mod.rs:31-36. *)
Definition s_ghw_msk : sd (ghw_msk C) :=
  s_struct (f_and (f_one "g2_alpha" g2) (f_one "pk" s_ghw_pk))
    (fun k => (gmsk_g2al k, gmsk_pk k)) (fun '(a, b) => GhwMsk a b).
(** [Ghw11Attribute]; ghw11/mod.rs:51-56.  GHW11 attributes are pairs in the model. *)
Definition s_ghw_attr : sd (string * G2 C) :=
  s_struct (f_and (f_one "string" s_text) (f_one "k_x" g2)) (fun a => a) (fun a => a).
(** [Ghw11SecretKey]; ghw11/mod.rs:39-48. *)
Definition s_ghw_sk : sd (ghw_sk C) :=
  s_struct (f_and (f_and (f_one "k" g2) (f_one "l" g2)) (f_one "attr_key" (s_list s_ghw_attr)))
    (fun k => (gsk_k k, gsk_l k, gsk_attr k)) (fun '(a, b, c) => GhwSk a b c).
(** [Ghw11TransformKey]; ghw11/mod.rs:59-65. *)
Definition s_ghw_tk : sd (ghw_tk C) :=
  s_struct (f_and (f_and (f_one "k_z" g2) (f_one "l_z" g2)) (f_one "attr_key_z" (s_list s_ghw_attr)))
    (fun k => (gtk_k k, gtk_l k, gtk_attr k)) (fun '(a, b, c) => GhwTk a b c).
(** [Ghw11RetrieveKey]; ghw11/mod.rs:68-72.  The model has the scalar only. *)
Definition s_ghw_rk : sd (F C) :=
  s_struct (f_one "z" f) (fun z => z) (fun z => z).
(** The triples of [ci_di]; ghw11/mod.rs:81. *)
Definition s_cidi : sd (string * (G1 C * G1 C)) :=
  s_tuple (t_and (t_and (t_one s_text) (t_one g1)) (t_one g1))
    (fun '(n, (c, d)) => (n, c, d)) (fun '(n, c, d) => (n, (c, d))).
(** [Ghw11Ciphertext]; ghw11/mod.rs:75-83. *)
Definition s_ghw_ct : sd (ghw_ct C) :=
  s_struct (f_and (f_and (f_and (f_and (f_one "policy" s_policy) (f_one "c" gt)) (f_one "c1" g1)) (f_one "ci_di" (s_list s_cidi))) (f_one "data" s_bytes))
    (fun k => (gct_policy k, gct_c k, gct_c1 k, gct_cidi k, gct_data k)) (fun '(a, b, c, d, e) => GhwCt a b c d e).
(** [Ghw11TransformCiphertext]; ghw11/mod.rs:86-91. *)
Definition s_ghw_tct : sd (ghw_tct C) :=
  s_struct (f_and (f_one "c" gt) (f_one "t" gt))
    (fun k => (gtct_c k, gtct_t k)) (fun '(a, b) => GhwTct a b).

(** ** LSW; /repo/src/schemes/lsw/mod.rs *)
Import Lsw.
(** [KpAbePublicKey]; lsw/mod.rs:41-51. *)
Definition s_lsw_pk : sd (lsw_pk C) :=
  s_struct (f_and (f_and (f_and (f_and (f_and (f_one "g1" g1) (f_one "g2" g2)) (f_one "g1_b" g1)) (f_one "g1_b2" g1)) (f_one "h_b" g1)) (f_one "e_gg_alpha" gt))
    (fun k => (lpk_g1 k, lpk_g2 k, lpk_g1b k, lpk_g1b2 k, lpk_hb k, lpk_egg k)) (fun '(a, b, c, d, e, h) => LswPk a b c d e h).
(** [KpAbeMasterKey]; lsw/mod.rs:54-63. *)
Definition s_lsw_msk : sd (lsw_msk C) :=
  s_struct (f_and (f_and (f_and (f_and (f_one "alpha1" f) (f_one "alpha2" f)) (f_one "b" f)) (f_one "h_g1" g1)) (f_one "h_g2" g2))
    (fun k => (lmsk_alpha1 k, lmsk_alpha2 k, lmsk_b k, lmsk_hg1 k, lmsk_hg2 k)) (fun '(a, b, c, d, e) => LswMsk a b c d e).
(** [the tuples of KpAbeSecretKey]; lsw/mod.rs:71. *)
Definition s_lsw_dj : sd (lsw_dj C) :=
  s_tuple (t_and (t_and (t_and (t_and (t_and (t_one s_text) (t_one g1)) (t_one g2)) (t_one g1)) (t_one g1)) (t_one g1))
    (fun k => (ld_name k, ld_1 k, ld_2 k, ld_3 k, ld_4 k, ld_5 k)) (fun '(a, b, c, d, e, h) => LswDj a b c d e h).
(** [KpAbeSecretKey]; lsw/mod.rs:66-72. *)
Definition s_lsw_sk : sd (lsw_sk C) :=
  s_struct (f_and (f_one "policy" s_policy) (f_one "dj" (s_list s_lsw_dj)))
    (fun k => (lsk_policy k, lsk_dj k)) (fun '(a, b) => LswSk a b).
(** [the tuples of KpAbeCiphertext]; lsw/mod.rs:81. *)
Definition s_lsw_ej : sd (lsw_ej C) :=
  s_tuple (t_and (t_and (t_and (t_one s_text) (t_one g1)) (t_one g1)) (t_one g1))
    (fun k => (le_name k, le_1 k, le_2 k, le_3 k)) (fun '(a, b, c, d) => LswEj a b c d).
(** [KpAbeCiphertext]; lsw/mod.rs:75-83. *)
Definition s_lsw_ct : sd (lsw_ct C) :=
  s_struct (f_and (f_and (f_and (f_one "e1" gt) (f_one "e2" g2)) (f_one "ej" (s_list s_lsw_ej))) (f_one "ct" s_bytes))
    (fun k => (lct_e1 k, lct_e2 k, lct_ej k, lct_ct k)) (fun '(a, b, c, d) => LswCt a b c d).

(** ** YCT14; /repo/src/schemes/yct14/mod.rs *)
Import Yct14.
(** [Yct14Type]; yct14/mod.rs:58-64. *)
Definition s_ytype : sd (yct_type C) :=
  SD (fun v => match v with
               | YPub x => newtype_variant 0 "Public" (ser gt x)
               | YPriv x => newtype_variant 1 "Private" (ser f x)
               end)
     (fun v => bind (variant ["Public"; "Private"] v) (fun '(i, w) =>
        match i with
        | O => option_map YPub (de gt w)
        | _ => option_map YPriv (de f w)
        end))
     None.
(** [Yct14Attribute]; yct14/mod.rs:48-56.  Without the feature "borsh" a [node]
    that is [None] is left out. *)
Definition s_yattr : sd (yct_attr C) :=
  let whole := s_struct (f_and (f_one "name" s_text) (f_one "node" (s_option s_ytype)))
                        (fun a => (y_name a, y_node a)) (fun '(a, b) => YAttr a b) in
  SD (fun a => match y_node a with
               | None => if skip_none M then VMap [(field_key 0 "name", ser s_text (y_name a))]
                         else ser whole a
               | Some _ => ser whole a
               end)
     (de whole) None.
(** [Yct14AbePublicKey]; yct14/mod.rs:139-145. *)
Definition s_yct_pk : sd (yct_pk C) :=
  s_struct (f_and (f_one "g" gt) (f_one "attributes" (s_list s_yattr)))
    (fun k => (ypk_g k, ypk_attrs k)) (fun '(a, b) => YctPk a b).
(** [Yct14AbeMasterKey]; yct14/mod.rs:148-154. *)
Definition s_yct_msk : sd (yct_msk C) :=
  s_struct (f_and (f_one "s" f) (f_one "attributes" (s_list s_yattr)))
    (fun k => (ymsk_s k, ymsk_attrs k)) (fun '(a, b) => YctMsk a b).
(** [Yct14AbeSecretKey]; yct14/mod.rs:172-178. *)
Definition s_yct_sk : sd (yct_sk C) :=
  s_struct (f_and (f_one "policy" s_policy) (f_one "du" (s_list s_yattr)))
    (fun k => (ysk_policy k, ysk_du k)) (fun '(a, b) => YctSk a b).
(** [Yct14AbeCiphertext]; yct14/mod.rs:196-202. *)
Definition s_yct_ct : sd (yct_ct C) :=
  s_struct (f_and (f_one "attributes" (s_list s_yattr)) (f_one "ct" s_bytes))
    (fun k => (yct_attrs k, yct_data k)) (fun '(a, b) => YctCt a b).

(** ** AC17; /repo/src/schemes/ac17/mod.rs *)
Import Ac17.
(** [(String, Vec<G1>)]; ac17/mod.rs:86 and 115. *)
Definition s_row : sd (string * list (G1 C)) := duo s_text (s_list g1).
(** [Ac17PublicKey]; ac17/mod.rs:59-66. *)
Definition s_ac_pk : sd (ac_pk C) :=
  s_struct (f_and (f_and (f_one "g" g1) (f_one "h_a" (s_list g2))) (f_one "e_gh_ka" (s_list gt)))
    (fun k => (apk_g k, apk_ha k, apk_egh k)) (fun '(a, b, c) => AcPk a b c).
(** [Ac17MasterKey]; ac17/mod.rs:69-78. *)
Definition s_ac_msk : sd (ac_msk C) :=
  s_struct (f_and (f_and (f_and (f_and (f_one "g" g1) (f_one "h" g2)) (f_one "g_k" (s_list g1))) (f_one "a" (s_list f))) (f_one "b" (s_list f)))
    (fun k => (amsk_g k, amsk_h k, amsk_gk k, amsk_a k, amsk_b k)) (fun '(a, b, c, d, e) => AcMsk a b c d e).
(** [Ac17Ciphertext]; ac17/mod.rs:81-89. *)
Definition s_ac_ct : sd (ac_ct C) :=
  s_struct (f_and (f_and (f_and (f_one "c_0" (s_list g2)) (f_one "c" (s_list s_row))) (f_one "c_p" gt)) (f_one "ct" s_bytes))
    (fun k => (act_c0 k, act_c k, act_cp k, act_ct k)) (fun '(a, b, c, d) => AcCt a b c d).
(** [Ac17CpCiphertext]; ac17/mod.rs:92-98. *)
Definition s_ac_cpct : sd (ac_cpct C) :=
  s_struct (f_and (f_one "policy" s_policy) (f_one "ct" s_ac_ct))
    (fun k => (acp_policy k, acp_ct k)) (fun '(a, b) => AcCpCt a b).
(** [Ac17KpCiphertext]; ac17/mod.rs:101-107. *)
Definition s_ac_kpct : sd (ac_kpct C) :=
  s_struct (f_and (f_one "attr" (s_list s_text)) (f_one "ct" s_ac_ct))
    (fun k => (akp_attr k, akp_ct k)) (fun '(a, b) => AcKpCt a b).
(** [Ac17SecretKey]; ac17/mod.rs:110-117. *)
Definition s_ac_sk : sd (ac_sk C) :=
  s_struct (f_and (f_and (f_one "k_0" (s_list g2)) (f_one "k" (s_list s_row))) (f_one "k_p" (s_list g1)))
    (fun k => (ask_k0 k, ask_k k, ask_kp k)) (fun '(a, b, c) => AcSk a b c).
(** [Ac17KpSecretKey]; ac17/mod.rs:120-126. *)
Definition s_ac_kpsk : sd (ac_kpsk C) :=
  s_struct (f_and (f_one "policy" s_policy) (f_one "sk" s_ac_sk))
    (fun k => (akps_policy k, akps_sk k)) (fun '(a, b) => AcKpSk a b).
(** [Ac17CpSecretKey]; ac17/mod.rs:129-135. *)
Definition s_ac_cpsk : sd (ac_cpsk C) :=
  s_struct (f_and (f_one "attr" (s_list s_text)) (f_one "sk" s_ac_sk))
    (fun k => (acps_attr k, acps_sk k)) (fun '(a, b) => AcCpSk a b).

(** ** AW11; /repo/src/schemes/aw11/mod.rs *)
Import Aw11.
(** [Aw11GlobalKey]; aw11/mod.rs:47-53. *)
Definition s_aw_gk : sd (aw_gk C) :=
  s_struct (f_and (f_one "g1" g1) (f_one "g2" g2))
    (fun k => (agk_g1 k, agk_g2 k)) (fun '(a, b) => AwGk a b).
(** [Aw11PublicKey]; aw11/mod.rs:56-61. *)
Definition s_aw_pk : sd (aw_pk C) :=
  s_struct (f_one "attr" (s_list (tri s_text gt g2))) apk_attr AwPk.
(** [Aw11MasterKey]; aw11/mod.rs:64-69. *)
Definition s_aw_msk : sd (aw_msk C) :=
  s_struct (f_one "attr" (s_list (tri s_text f f))) amsk_attr AwMsk.
(** [Aw11Ciphertext]; aw11/mod.rs:72-80. *)
Definition s_aw_ct : sd (aw_ct C) :=
  s_struct (f_and (f_and (f_and (f_one "policy" s_policy) (f_one "c_0" gt)) (f_one "c" (s_list (quad s_text gt g2 g2)))) (f_one "ct" s_bytes))
    (fun k => (awct_policy k, awct_c0 k, awct_c k, awct_data k)) (fun '(a, b, c, d) => AwCt a b c d).
(** [Aw11SecretKey]; aw11/mod.rs:83-89. *)
Definition s_aw_sk : sd (aw_sk C) :=
  s_struct (f_and (f_one "gid" s_text) (f_one "attr" (s_list (duo s_text g1))))
    (fun k => (awsk_gid k, awsk_attr k)) (fun '(a, b) => AwSk a b).

(** ** BDABE; /repo/src/schemes/bdabe/mod.rs *)
Import Bdabe.
(** [BdabePublicKey]; bdabe/mod.rs:46-55. *)
Definition s_bd_pk : sd (bd_pk C) :=
  s_struct (f_and (f_and (f_and (f_and (f_one "g1" g1) (f_one "g2" g2)) (f_one "p1" g1)) (f_one "p2" g2)) (f_one "e_gg_y" gt))
    (fun k => (bpk_g1 k, bpk_g2 k, bpk_p1 k, bpk_p2 k, bpk_egg k)) (fun '(a, b, c, d, e) => BdPk a b c d e).
(** [BdabeMasterKey]; bdabe/mod.rs:58-63. *)
Definition s_bd_msk : sd (bd_msk C) :=
  s_struct (f_one "y" f) bmsk_y BdMsk.
(** [BdabePublicUserKey]; bdabe/mod.rs:76-83. *)
Definition s_bd_upk : sd (bd_upk C) :=
  s_struct (f_and (f_and (f_one "u" s_text) (f_one "u1" g1)) (f_one "u2" g2))
    (fun k => (bupk_u k, bupk_u1 k, bupk_u2 k)) (fun '(a, b, c) => BdUpk a b c).
(** [BdabeSecretUserKey]; bdabe/mod.rs:86-92. *)
Definition s_bd_usk : sd (bd_usk C) :=
  s_struct (f_and (f_one "u1" g1) (f_one "u2" g2))
    (fun k => (busk_u1 k, busk_u2 k)) (fun '(a, b) => BdUsk a b).
(** [BdabeSecretAttributeKey]; bdabe/mod.rs:95-102. *)
Definition s_bd_ask : sd (bd_ask C) :=
  s_struct (f_and (f_and (f_one "attr" s_text) (f_one "au1" g1)) (f_one "au2" g2))
    (fun k => (bask_attr k, bask_au1 k, bask_au2 k)) (fun '(a, b, c) => BdAsk a b c).
(** [BdabeUserKey]; bdabe/mod.rs:66-73. *)
Definition s_bd_uk : sd (bd_uk C) :=
  s_struct (f_and (f_and (f_one "sk" s_bd_usk) (f_one "pk" s_bd_upk)) (f_one "sk_a" (s_list s_bd_ask)))
    (fun k => (buk_sk k, buk_pk k, buk_ska k)) (fun '(a, b, c) => BdUk a b c).
(** [BdabePublicAttributeKey]; bdabe/mod.rs:105-113. *)
Definition s_bd_apk : sd (bd_apk C) :=
  s_struct (f_and (f_and (f_and (f_one "attr" s_text) (f_one "a1" g1)) (f_one "a2" g2)) (f_one "a3" gt))
    (fun k => (bapk_attr k, bapk_a1 k, bapk_a2 k, bapk_a3 k)) (fun '(a, b, c, d) => BdApk a b c d).
(** [BdabeSecretAuthorityKey]; bdabe/mod.rs:116-124. *)
Definition s_bd_auth : sd (bd_auth C) :=
  s_struct (f_and (f_and (f_and (f_one "name" s_text) (f_one "a1" g1)) (f_one "a2" g2)) (f_one "a3" f))
    (fun k => (bau_name k, bau_a1 k, bau_a2 k, bau_a3 k)) (fun '(a, b, c, d) => BdAuth a b c d).
(** [BdabeCiphertextTuple]; bdabe/mod.rs:127-137. *)
Definition s_bd_tuple : sd (bd_tuple C) :=
  s_struct (f_and (f_and (f_and (f_and (f_and (f_one "attr" (s_list s_text)) (f_one "e1" gt)) (f_one "e2" g1)) (f_one "e3" g2)) (f_one "e4" g1)) (f_one "e5" g2))
    (fun k => (bt_attr k, bt_e1 k, bt_e2 k, bt_e3 k, bt_e4 k, bt_e5 k)) (fun '(a, b, c, d, e, h) => BdTuple a b c d e h).
(** [BdabeCiphertext]; bdabe/mod.rs:140-147. *)
Definition s_bd_ct : sd (bd_ct C) :=
  s_struct (f_and (f_and (f_one "policy" s_policy) (f_one "j" (s_list s_bd_tuple))) (f_one "ct" s_bytes))
    (fun k => (Bdabe.bct_policy k, bct_j k, Bdabe.bct_data k)) (fun '(a, b, c) => BdCt a b c).

(** ** MKE08; /repo/src/schemes/mke08/mod.rs *)
Import Mke08.
(** [Mke08PublicKey]; mke08/mod.rs:51-61. *)
Definition s_mk_pk : sd (mk_pk C) :=
  s_struct (f_and (f_and (f_and (f_and (f_and (f_one "g1" g1) (f_one "g2" g2)) (f_one "p1" g1)) (f_one "p2" g2)) (f_one "e_gg_y1" gt)) (f_one "e_gg_y2" gt))
    (fun k => (mpk_g1 k, mpk_g2 k, mpk_p1 k, mpk_p2 k, mpk_egg1 k, mpk_egg2 k)) (fun '(a, b, c, d, e, h) => MkPk a b c d e h).
(** [Mke08MasterKey]; mke08/mod.rs:64-70. *)
Definition s_mk_msk : sd (mk_msk C) :=
  s_struct (f_and (f_one "g1" g1) (f_one "g2" g2))
    (fun k => (mmsk_g1 k, mmsk_g2 k)) (fun '(a, b) => MkMsk a b).
(** [Mke08PublicUserKey]; mke08/mod.rs:83-90. *)
Definition s_mk_upk : sd (mk_upk C) :=
  s_struct (f_and (f_and (f_one "name" s_text) (f_one "g1" g1)) (f_one "g2" g2))
    (fun k => (mupk_name k, mupk_g1 k, mupk_g2 k)) (fun '(a, b, c) => MkUpk a b c).
(** [Mke08SecretUserKey]; mke08/mod.rs:93-99. *)
Definition s_mk_usk : sd (mk_usk C) :=
  s_struct (f_and (f_one "g1" g1) (f_one "g2" g2))
    (fun k => (musk_g1 k, musk_g2 k)) (fun '(a, b) => MkUsk a b).
(** [Mke08SecretAuthorityKey]; mke08/mod.rs:102-108. *)
Definition s_mk_auth : sd (mk_auth C) :=
  s_struct (f_and (f_one "name" s_text) (f_one "r" f))
    (fun k => (mau_name k, mau_r k)) (fun '(a, b) => MkAuth a b).
(** [Mke08PublicAttributeKey]; mke08/mod.rs:111-120. *)
Definition s_mk_apk : sd (mk_apk C) :=
  s_struct (f_and (f_and (f_and (f_and (f_one "attr" s_text) (f_one "g1" g1)) (f_one "g2" g2)) (f_one "gt1" gt)) (f_one "gt2" gt))
    (fun k => (mapk_attr k, mapk_g1 k, mapk_g2 k, mapk_gt1 k, mapk_gt2 k)) (fun '(a, b, c, d, e) => MkApk a b c d e).
(** [Mke08SecretAttributeKey]; mke08/mod.rs:123-130. *)
Definition s_mk_ask : sd (mk_ask C) :=
  s_struct (f_and (f_and (f_one "attr" s_text) (f_one "g1" g1)) (f_one "g2" g2))
    (fun k => (mask_attr k, mask_g1 k, mask_g2 k)) (fun '(a, b, c) => MkAsk a b c).
(** [Mke08UserKey]; mke08/mod.rs:73-80. *)
Definition s_mk_uk : sd (mk_uk C) :=
  s_struct (f_and (f_and (f_one "sk" s_mk_usk) (f_one "pk" s_mk_upk)) (f_one "sk_a" (s_list s_mk_ask)))
    (fun k => (muk_sk k, muk_pk k, muk_ska k)) (fun '(a, b, c) => MkUk a b c).
(** [Mke08CTConjunction]; mke08/mod.rs:143-154. *)
Definition s_mk_conj : sd (mk_conj C) :=
  s_struct (f_and (f_and (f_and (f_and (f_and (f_and (f_one "str" (s_list s_text)) (f_one "j1" gt)) (f_one "j2" gt)) (f_one "j3" g1)) (f_one "j4" g2)) (f_one "j5" g1)) (f_one "j6" g2))
    (fun k => (mj_str k, mj_1 k, mj_2 k, mj_3 k, mj_4 k, mj_5 k, mj_6 k)) (fun '(a, b, c, d, e, h, i) => MkConj a b c d e h i).
(** [Mke08Ciphertext]; mke08/mod.rs:133-140. *)
Definition s_mk_ct : sd (mk_ct C) :=
  s_struct (f_and (f_and (f_one "policy" s_policy) (f_one "e" (s_list s_mk_conj))) (f_one "ct" s_bytes))
    (fun k => (mct_policy k, mct_e k, mct_data k)) (fun '(a, b, c) => MkCt a b c).

End Types.
