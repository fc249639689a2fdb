(* AES (FIPS 197), GCM (NIST SP 800-38D, 96-bit nonces) and ChaCha20-Poly1305
   (RFC 8439): the ciphers behind src/crypto. Not part of /repo; concrete
   instances of [p_ks] and [p_mac]. *)
From Coq Require Import List NArith Bool.
From Verif Require Import Base Aead RealSha2.
Import ListNotations.
Local Open Scope N_scope.

(* ------------------------------------------------------------------ *)
(* AES *)
Definition sbox_table : list N :=
  [99; 124; 119; 123; 242; 107; 111; 197; 48; 1; 103; 43; 254; 215; 171; 118;
   202; 130; 201; 125; 250; 89; 71; 240; 173; 212; 162; 175; 156; 164; 114; 192;
   183; 253; 147; 38; 54; 63; 247; 204; 52; 165; 229; 241; 113; 216; 49; 21;
   4; 199; 35; 195; 24; 150; 5; 154; 7; 18; 128; 226; 235; 39; 178; 117;
   9; 131; 44; 26; 27; 110; 90; 160; 82; 59; 214; 179; 41; 227; 47; 132;
   83; 209; 0; 237; 32; 252; 177; 91; 106; 203; 190; 57; 74; 76; 88; 207;
   208; 239; 170; 251; 67; 77; 51; 133; 69; 249; 2; 127; 80; 60; 159; 168;
   81; 163; 64; 143; 146; 157; 56; 245; 188; 182; 218; 33; 16; 255; 243; 210;
   205; 12; 19; 236; 95; 151; 68; 23; 196; 167; 126; 61; 100; 93; 25; 115;
   96; 129; 79; 220; 34; 42; 144; 136; 70; 238; 184; 20; 222; 94; 11; 219;
   224; 50; 58; 10; 73; 6; 36; 92; 194; 211; 172; 98; 145; 149; 228; 121;
   231; 200; 55; 109; 141; 213; 78; 169; 108; 86; 244; 234; 101; 122; 174; 8;
   186; 120; 37; 46; 28; 166; 180; 198; 232; 221; 116; 31; 75; 189; 139; 138;
   112; 62; 181; 102; 72; 3; 246; 14; 97; 53; 87; 185; 134; 193; 29; 158;
   225; 248; 152; 17; 105; 217; 142; 148; 155; 30; 135; 233; 206; 85; 40; 223;
   140; 161; 137; 13; 191; 230; 66; 104; 65; 153; 45; 15; 176; 84; 187; 22].
(* The table as a tree over the bits of the index. *)
Inductive tree := Leaf (v : N) | Node (l r : tree).
Fixpoint build (d : nat) (l : list N) : tree :=
  match d with
  | O => Leaf (hd 0 l)
  | S d' => let h := Nat.div2 (length l) in Node (build d' (firstn h l)) (build d' (skipn h l))
  end.
Definition sbox_tree : tree := Eval vm_compute in build 8 sbox_table.
Fixpoint look (d : nat) (t : tree) (i : N) : N :=
  match d, t with
  | S d', Node l r => look d' (if N.testbit i (N.of_nat d') then r else l) i
  | _, Leaf v => v
  | _, _ => 0
  end.
Definition sbox (b : N) : N := look 8 sbox_tree b.

Definition xtime (b : N) : N :=
  let d := 2 * b in if d <? 256 then d else N.lxor (d mod 256) 27.

(* Round keys as words of four bytes; [nk] key words; [prev] in reverse. *)
Fixpoint expand (fuel : nat) (nk : nat) (i : nat) (rcon : N) (prev : list bytes)
  : list bytes :=
  match fuel with
  | O => rev prev
  | S f =>
    let last := hd [] prev in
    let back := nth (nk - 1) prev [] in
    let t :=
      if Nat.eqb (Nat.modulo i nk) 0 then
        match map sbox last with
        | [a; b; c; d] => [N.lxor b rcon; c; d; a]
        | o => o
        end
      else if andb (Nat.ltb 6 nk) (Nat.eqb (Nat.modulo i nk) 4) then map sbox last
      else last in
    expand f nk (S i) (if Nat.eqb (Nat.modulo i nk) 0 then xtime rcon else rcon)
      (xor_bytes back t :: prev)
  end.

(* 128-bit keys: 44 words, 256-bit keys: 60 words. *)
Definition round_keys (key : bytes) : list bytes :=
  let nk := Nat.div (length key) 4 in
  let ws := expand (4 * (nk + 7) - nk) nk nk 1 (rev (blocks 4 key)) in
  blocks 16 (concat ws).

Definition shift_rows (s : bytes) : bytes :=
  map (fun i => nth i s 0)
    [0; 5; 10; 15; 4; 9; 14; 3; 8; 13; 2; 7; 12; 1; 6; 11]%nat.

Definition mix_column (c : bytes) : bytes :=
  match c with
  | [a; b; c; d] =>
    let x := N.lxor in
    [x (x (xtime a) (x (xtime b) b)) (x c d);
     x (x a (xtime b)) (x (x (xtime c) c) d);
     x (x a b) (x (xtime c) (x (xtime d) d));
     x (x (x (xtime a) a) b) (x c (xtime d))]
  | o => o
  end.

Fixpoint aes_rounds (ks : list bytes) (s : bytes) : bytes :=
  match ks with
  | [] => s
  | [k] => xor_bytes (shift_rows (map sbox s)) k
  | k :: ks' =>
    aes_rounds ks' (xor_bytes (flat_map mix_column (blocks 4 (shift_rows (map sbox s)))) k)
  end.

Definition aes (key block : bytes) : bytes :=
  match round_keys key with
  | k :: ks => aes_rounds ks (xor_bytes block k)
  | [] => []
  end.

(* ------------------------------------------------------------------ *)
(* GCM *)

(* Multiplication in GF(2^128); the first bit of a block is the coefficient of
   x^0, here bit 127 of the number. *)
Definition gcm_r : N := 225 * 2 ^ 120.
Fixpoint gf_mul_loop (n : nat) (x v z : N) : N :=
  match n with
  | O => z
  | S n' =>
    let z := if N.testbit x (N.of_nat n') then N.lxor z v else z in
    let v := if N.testbit v 0 then N.lxor (N.shiftr v 1) gcm_r else N.shiftr v 1 in
    gf_mul_loop n' x v z
  end.
Definition gf_mul (x y : N) : N := gf_mul_loop 128 x y 0.

Definition pad16 (b : bytes) : bytes := b ++ zeros ((16 - lenN b mod 16) mod 16).
Definition ghash (h : N) (data : bytes) : N :=
  fold_left (fun y b => gf_mul (N.lxor y (of_be b)) h) (blocks 16 data) 0.

Definition gcm_keystream (key nonce : bytes) (pos : nat) : N :=
  let block := aes key (nonce ++ to_be 4 (2 + N.of_nat pos / 16)) in
  nth (Nat.modulo pos 16) block 0 mod 256.

Definition gcm_tag (key nonce aad ct : bytes) : bytes :=
  let h := of_be (aes key (zeros 16)) in
  let s := ghash h (pad16 aad ++ pad16 ct ++ to_be 8 (8 * lenN aad) ++ to_be 8 (8 * lenN ct)) in
  to_be 16 (N.lxor s (of_be (aes key (nonce ++ to_be 4 1)))).

(* ------------------------------------------------------------------ *)
(* ChaCha20-Poly1305 *)
Definition w32 (x : N) : N := N.land x 4294967295.
Definition rotl32 (x n : N) : N := N.lor (w32 (N.shiftl x n)) (N.shiftr x (32 - n)).
Definition quarter (a b c d : N) : N * N * N * N :=
  let a := w32 (a + b) in let d := rotl32 (N.lxor d a) 16 in
  let c := w32 (c + d) in let b := rotl32 (N.lxor b c) 12 in
  let a := w32 (a + b) in let d := rotl32 (N.lxor d a) 8 in
  let c := w32 (c + d) in let b := rotl32 (N.lxor b c) 7 in
  (a, b, c, d).

Definition double_round (s : list N) : list N :=
  match s with
  | [x0; x1; x2; x3; x4; x5; x6; x7; x8; x9; x10; x11; x12; x13; x14; x15] =>
    let '(x0, x4, x8, x12) := quarter x0 x4 x8 x12 in
    let '(x1, x5, x9, x13) := quarter x1 x5 x9 x13 in
    let '(x2, x6, x10, x14) := quarter x2 x6 x10 x14 in
    let '(x3, x7, x11, x15) := quarter x3 x7 x11 x15 in
    let '(x0, x5, x10, x15) := quarter x0 x5 x10 x15 in
    let '(x1, x6, x11, x12) := quarter x1 x6 x11 x12 in
    let '(x2, x7, x8, x13) := quarter x2 x7 x8 x13 in
    let '(x3, x4, x9, x14) := quarter x3 x4 x9 x14 in
    [x0; x1; x2; x3; x4; x5; x6; x7; x8; x9; x10; x11; x12; x13; x14; x15]
  | o => o
  end.

Definition chacha_block (key nonce : bytes) (counter : N) : bytes :=
  let init := [1634760805; 857760878; 2036477234; 1797285236] ++
              map of_le (blocks 4 key) ++ [w32 counter] ++ map of_le (blocks 4 nonce) in
  let s := Nat.iter 10 double_round init in
  flat_map (fun p => to_le 4 (w32 (fst p + snd p))) (combine s init).

Definition chacha_keystream (key nonce : bytes) (pos : nat) : N :=
  nth (Nat.modulo pos 64) (chacha_block key nonce (1 + N.of_nat pos / 64)) 0 mod 256.

Definition poly1305 (key msg : bytes) : bytes :=
  let r := N.land (of_le (firstn 16 key)) 21267647620597763993911028882763415551 in
  let s := of_le (firstn 16 (skipn 16 key)) in
  let p := 2 ^ 130 - 5 in
  let acc := fold_left (fun acc b => (acc + of_le (b ++ [1])) * r mod p)
               (blocks 16 msg) 0 in
  to_le 16 (acc + s).

Definition chacha_tag (key nonce aad ct : bytes) : bytes :=
  poly1305 (firstn 32 (chacha_block key nonce 0))
    (pad16 aad ++ pad16 ct ++ to_le 8 (lenN aad) ++ to_le 8 (lenN ct)).

(* ------------------------------------------------------------------ *)
(* The primitives of the three ciphersuites. *)
Definition real : prims := {|
  p_hmac := fun h => match h with
                     | SHA256 => hmac sha256_params
                     | SHA384 => hmac sha384_params
                     end;
  p_ks := fun a => match a with
                   | ChachaPoly => chacha_keystream
                   | _ => gcm_keystream
                   end;
  p_mac := fun a => match a with
                    | ChachaPoly => chacha_tag
                    | _ => gcm_tag
                    end |}.
