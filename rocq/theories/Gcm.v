(** * Gcm: the cipher behind [encrypt_symmetric]

    The code calls [Aes256Gcm] of the crate aes-gcm at
    /repo/src/utils/aes/mod.rs:14-19 and 37-41 (the dependency is named at
    /repo/Cargo.toml:28), with a key of 32 bytes, a nonce of 12 bytes and no
    associated data.  Elsewhere in the model the cipher is an operation of
    [crypto]; here it is written out after FIPS 197 and NIST SP 800-38D.  A
    byte is a number below 256, a block a list of 16 bytes, column by column. *)
From Coq Require Import String Ascii List Bool Arith NArith.
From Verif Require Import Sha3.
Import ListNotations.
Local Open Scope N_scope.

(** The table of [SubBytes]; FIPS 197, figure 7, for /repo/src/utils/aes/mod.rs:15. *)
Definition sbox : list N :=
  [99; 124; 119; 123; 242; 107; 111; 197; 48; 1; 103; 43; 254; 215; 171; 118;
   202; 130; 201; 125; 250; 89; 71; 240; 173; 212; 162; 175; 156; 164; 114; 192;
   183; 253; 147; 38; 54; 63; 247; 204; 52; 165; 229; 241; 113; 216; 49; 21;
   4; 199; 35; 195; 24; 150; 5; 154; 7; 18; 128; 226; 235; 39; 178; 117;
   9; 131; 44; 26; 27; 110; 90; 160; 82; 59; 214; 179; 41; 227; 47; 132;
   83; 209; 0; 237; 32; 252; 177; 91; 106; 203; 190; 57; 74; 76; 88; 207;
   208; 239; 170; 251; 67; 77; 51; 133; 69; 249; 2; 127; 80; 60; 159; 168;
   81; 163; 64; 143; 146; 157; 56; 245; 188; 182; 218; 33; 16; 255; 243; 210;
   205; 12; 19; 236; 95; 151; 68; 23; 196; 167; 126; 61; 100; 93; 25; 115;
   96; 129; 79; 220; 34; 42; 144; 136; 70; 238; 184; 20; 222; 94; 11; 219;
   224; 50; 58; 10; 73; 6; 36; 92; 194; 211; 172; 98; 145; 149; 228; 121;
   231; 200; 55; 109; 141; 213; 78; 169; 108; 86; 244; 234; 101; 122; 174; 8;
   186; 120; 37; 46; 28; 166; 180; 198; 232; 221; 116; 31; 75; 189; 139; 138;
   112; 62; 181; 102; 72; 3; 246; 14; 97; 53; 87; 185; 134; 193; 29; 158;
   225; 248; 152; 17; 105; 217; 142; 148; 155; 30; 135; 233; 206; 85; 40; 223;
   140; 161; 137; 13; 191; 230; 66; 104; 65; 153; 45; 15; 176; 84; 187; 22].
Definition sub_byte (b : N) : N := nth (N.to_nat b) sbox 0.

(** Doubling in the field of 256 elements; FIPS 197, 4.2.1, for
    /repo/src/utils/aes/mod.rs:15. *)
Definition xtime (b : N) : N := let d := 2 * b in if d <? 256 then d else N.lxor d 283.

(** Bytewise sum of two lists; FIPS 197, 5.1.4, for /repo/src/utils/aes/mod.rs:15. *)
Definition xor_bytes (a b : list N) : list N := map (fun p => N.lxor (fst p) (snd p)) (combine a b).

(** [ShiftRows]; FIPS 197, 5.1.2, for /repo/src/utils/aes/mod.rs:15. *)
Definition shift_rows (s : list N) : list N :=
  map (fun i => nth ((i + 4 * (i mod 4)) mod 16)%nat s 0) (seq 0 16).

(** [MixColumns]; FIPS 197, 5.1.3, for /repo/src/utils/aes/mod.rs:15. *)
Definition mix_byte (a b c d : N) : N :=
  N.lxor (xtime a) (N.lxor (N.lxor (xtime b) b) (N.lxor c d)).
Definition mix_column (a b c d : N) : list N :=
  [mix_byte a b c d; mix_byte b c d a; mix_byte c d a b; mix_byte d a b c].
Definition mix_columns (s : list N) : list N :=
  flat_map (fun c => mix_column (nth (4 * c)%nat s 0) (nth (4 * c + 1)%nat s 0)
                                (nth (4 * c + 2)%nat s 0) (nth (4 * c + 3)%nat s 0)) (seq 0 4).

(** The words of the key schedule for 32 key bytes, latest word first; FIPS 197,
    5.2, for [Aes256Gcm::new]; /repo/src/utils/aes/mod.rs:15.  [i] is the number
    of the next word. *)
Definition next_word (i : nat) (ws : list (list N)) : list N :=
  let prev := nth 0 ws [] in
  let t := if (i mod 8 =? 0)%nat
           then match map sub_byte prev with
                | a :: r => xor_bytes (r ++ [a]) [2 ^ N.of_nat (i / 8 - 1); 0; 0; 0]
                | [] => []
                end
           else if (i mod 8 =? 4)%nat then map sub_byte prev else prev in
  xor_bytes (nth 7 ws []) t.
Fixpoint expand (n i : nat) (ws : list (list N)) : list (list N) :=
  match n with O => ws | S k => expand k (S i) (next_word i ws :: ws) end.
Definition key_words (key : list N) : list (list N) :=
  rev (expand 52 8 (rev (map (fun i => firstn 4 (skipn (4 * i) key)) (seq 0 8)))).
Definition round_keys (key : list N) : list (list N) :=
  let ws := key_words key in
  map (fun r => concat (firstn 4 (skipn (4 * r) ws))) (seq 0 15).

(** One block; FIPS 197, 5.1, for /repo/src/utils/aes/mod.rs:19. *)
Definition aes_round (s rk : list N) : list N :=
  xor_bytes (mix_columns (shift_rows (map sub_byte s))) rk.
Definition aes_block (rks : list (list N)) (block : list N) : list N :=
  let s0 := xor_bytes block (nth 0 rks []) in
  let s13 := fold_left aes_round (firstn 13 (skipn 1 rks)) s0 in
  xor_bytes (shift_rows (map sub_byte s13)) (nth 14 rks []).

(** The number [n] in [k] bytes, first byte most significant; not in /repo. *)
Fixpoint be_bytes (k : nat) (n : N) : list N :=
  match k with O => [] | S j => be_bytes j (n / 256) ++ [n mod 256] end.
Definition be_n (bs : list N) : N := fold_left (fun a b => a * 256 + b) bs 0.

(** The block of the counter [i]: nonce of 12 bytes, then the counter in 4
    bytes; SP 800-38D, 7.1 step 2, for /repo/src/utils/aes/mod.rs:18-19. *)
Definition counter_block (rks : list (list N)) (nonce : list N) (i : N) : list N :=
  aes_block rks (nonce ++ be_bytes 4 (i mod 2 ^ 32)).

(** Exclusive or of two characters; not in /repo. *)
Definition xor_ascii (x y : ascii) : ascii :=
  match x, y with
  | Ascii a0 a1 a2 a3 a4 a5 a6 a7, Ascii b0 b1 b2 b3 b4 b5 b6 b7 =>
      Ascii (xorb a0 b0) (xorb a1 b1) (xorb a2 b2) (xorb a3 b3)
            (xorb a4 b4) (xorb a5 b5) (xorb a6 b6) (xorb a7 b7)
  end.

(** Counter mode from the counter [i] on; [ks] holds what is left of the block
    of the counter before; SP 800-38D, 6.5, for /repo/src/utils/aes/mod.rs:19, 40. *)
Fixpoint ctr (rks : list (list N)) (nonce : list N) (i : N) (ks : list N) (data : list ascii) : list ascii :=
  match data with
  | [] => []
  | x :: r =>
      match ks with
      | k :: ks' => xor_ascii x (ascii_of_N k) :: ctr rks nonce i ks' r
      | [] => match counter_block rks nonce i with
              | k :: ks' => xor_ascii x (ascii_of_N k) :: ctr rks nonce (i + 1) ks' r
              | [] => x :: ctr rks nonce (i + 1) [] r
              end
      end
  end.

(** Multiplication of blocks, first bit most significant; SP 800-38D, 6.3, for
    /repo/src/utils/aes/mod.rs:19, 40. *)
Fixpoint gf_mul (n : nat) (y v z : N) : N :=
  match n with
  | O => z
  | S k => gf_mul k y (if N.testbit v 0 then N.lxor (v / 2) (225 * 2 ^ 120) else v / 2)
                  (if N.testbit y (N.of_nat k) then N.lxor z v else z)
  end.

(** The sum over the blocks of 16 bytes, the last one filled up with zeros, and
    the block of the lengths; SP 800-38D, 6.4 and 7.1 step 5, for
    /repo/src/utils/aes/mod.rs:19, 40. *)
Fixpoint ghash (blocks : nat) (h acc : N) (bs : list N) : N :=
  match blocks with
  | O => acc
  | S k => ghash k h (gf_mul 128 (N.lxor acc (be_n (firstn 16 (firstn 16 bs ++ repeat 0 16)))) h 0)
                 (skipn 16 bs)
  end.
Definition gcm_sum (h : N) (ct : list N) : N :=
  gf_mul 128 (N.lxor (ghash ((List.length ct + 15) / 16) h 0 ct) (8 * N.of_nat (List.length ct))) h 0.

(** The tag of a ciphertext; SP 800-38D, 7.1 steps 5 and 6, for
    /repo/src/utils/aes/mod.rs:19, 40. *)
Definition gcm_tag (rks : list (list N)) (nonce : list N) (ct : list ascii) : list ascii :=
  let h := be_n (aes_block rks (repeat 0 16)) in
  map ascii_of_N (be_bytes 16 (N.lxor (gcm_sum h (map N_of_ascii ct)) (be_n (counter_block rks nonce 1)))).

(** [cipher.encrypt(nonce, data)]: the ciphertext, then the tag;
    /repo/src/utils/aes/mod.rs:19. *)
Definition gcm_enc (key nonce data : string) : string :=
  let rks := round_keys (text_bytes key) in
  let ct := ctr rks (text_bytes nonce) 2 [] (list_ascii_of_string data) in
  string_of_list_ascii (ct ++ gcm_tag rks (text_bytes nonce) ct).

(** [cipher.decrypt(nonce, ciphertext)]: an error when there are fewer than 16
    bytes or when the last 16 are not the tag of the others;
    /repo/src/utils/aes/mod.rs:40-43. *)
Definition gcm_dec (key nonce sealed : string) : option string :=
  let cs := list_ascii_of_string sealed in
  if (List.length cs <? 16)%nat then None
  else let rks := round_keys (text_bytes key) in
       let n := (List.length cs - 16)%nat in
       let ct := firstn n cs in
       if list_eq_dec ascii_dec (skipn n cs) (gcm_tag rks (text_bytes nonce) ct)
       then Some (string_of_list_ascii (ctr rks (text_bytes nonce) 2 [] ct))
       else None.
