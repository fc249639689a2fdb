(* Model of src/record_protocol/s2a_half_connection.cc. *)
From Coq Require Import List NArith Bool.
From Verif Require Import Base Aead Hkdf.
Import ListNotations.
Local Open Scope N_scope.

(* The two length bytes at the front of a label: "size >> 8" and "size",
   stored in uint8_t (s2a_half_connection.cc 49-50, 70-71). *)
Definition size_be16 (n : N) : bytes := [(n / 256) mod 256; n mod 256].

(* "\x11tls13 traffic upd\x00", 19 bytes: s2a_half_connection.cc 46-47. *)
Definition upd_suffix : bytes :=
  [17; 116; 108; 115; 49; 51; 32;
   116; 114; 97; 102; 102; 105; 99; 32; 117; 112; 100; 0].

(* {0x09, "tls13 key", 0x00}: s2a_half_connection.cc 85-86. *)
Definition key_suffix : bytes := [9; 116; 108; 115; 49; 51; 32; 107; 101; 121; 0].

(* {0x08, "tls13 iv", 0x00}: s2a_half_connection.cc 96-97. *)
Definition nonce_suffix : bytes := [8; 116; 108; 115; 49; 51; 32; 105; 118; 0].

(* AdvanceSecret: s2a_half_connection.cc 40-54. The traffic secret is both
   input and output of the derivation. *)
Definition advance_secret (P : prims) (s : suite) (secret : bytes)
  : M (code * bytes) :=
  let label := size_be16 (lenN secret) ++ upd_suffix in
  hkdf_derive_secret P (suite_hash s) (fun out => out) label secret.

(* DeriveSecret: s2a_half_connection.cc 58-77. *)
Definition derive_secret (P : prims) (s : suite) (suffix secret output : bytes)
  : M (code * bytes) :=
  let label := size_be16 (lenN output) ++ suffix in
  hkdf_derive_secret P (suite_hash s) (fun _ => secret) label output.

(* DeriveKey, DeriveNonce: s2a_half_connection.cc 81-99. *)
Definition derive_key (P : prims) (s : suite) (secret output : bytes) :=
  derive_secret P s key_suffix secret output.
Definition derive_nonce (P : prims) (s : suite) (secret output : bytes) :=
  derive_secret P s nonce_suffix secret output.

(* S2AHalfConnection: s2a_half_connection.h 78-93. The last two fields are
   ghost state, not in the C++: the number of keys installed so far and, for
   every call into the AEAD crypter, that number and the nonce passed. *)
Record half := {
  hc_suite : suite;
  hc_key_size : N;
  hc_seq : N;                 (* sequence_, uint64_t *)
  hc_overflowed : bool;       (* has_sequence_overflowed_ *)
  hc_always_fail : bool;      (* always_fail_aead_operations_ *)
  hc_nonce : bytes;           (* nonce_ *)
  hc_secret : bytes;          (* traffic_secret_ *)
  hc_aead : option crypter;   (* aead_crypter_ *)
  hc_epoch : N;
  hc_used : list (N * bytes)
}.

(* Key, nonce and secret sizes: s2a_half_connection.cc 106-127. *)
Definition suite_key_size (s : suite) : N :=
  match s with
  | AES_128_GCM_SHA256 => kAes128GcmKeySize
  | AES_256_GCM_SHA384 => kAes256GcmKeySize
  | CHACHA20_POLY1305_SHA256 => kChachaPolyKeySize
  end.
Definition suite_nonce_size (s : suite) : N := kAeadNonceSize.
Definition suite_secret_size (s : suite) : N :=
  match s with
  | AES_128_GCM_SHA256 => 32
  | AES_256_GCM_SHA384 => 48
  | CHACHA20_POLY1305_SHA256 => 32
  end.

(* The creation switch: s2a_half_connection.cc 144-166 and 226-248. *)
Definition create_crypter (lib : ssl_lib) (s : suite) (key : bytes)
  : M (code + crypter) :=
  match s with
  | AES_128_GCM_SHA256 | AES_256_GCM_SHA384 => create_aes_gcm key
  | CHACHA20_POLY1305_SHA256 => create_chacha_poly lib key
  end.

(* S2AHalfConnection::Create: s2a_half_connection.cc 102-169. *)
Definition half_create (P : prims) (lib : ssl_lib) (s : suite) (sequence : N)
  (secret : bytes) : M (code + half) :=
  if negb (lenN secret =? suite_secret_size s)
  then ret (inl kInvalidArgument) else
  '(st, key) <- derive_key P s secret (zeros (suite_key_size s)) ;;
  if negb (is_ok st) then ret (inl st) else
  '(st, nonce) <- derive_nonce P s secret (zeros (suite_nonce_size s)) ;;
  if negb (is_ok st) then ret (inl st) else
  r <- create_crypter lib s key ;;
  match r with
  | inl st => ret (inl st)
  | inr c =>
    ret (inr {| hc_suite := s; hc_key_size := suite_key_size s;
                hc_seq := sequence; hc_overflowed := false;
                hc_always_fail := false; hc_nonce := nonce;
                hc_secret := secret; hc_aead := Some c;
                hc_epoch := 0; hc_used := [] |})
  end.

(* NonceMask: s2a_half_connection.cc 269-281. masked_nonce[size - 8 + i] is
   xored with the low byte of (sequence_ >> (56 - 8 i)); then sequence_ is
   incremented modulo 2^64. *)
Definition seq_byte (sequence : N) (i : N) : N :=
  N.shiftr sequence (56 - 8 * i) mod 256.

Definition nonce_mask (h : half) : outcome (bytes * half) :=
  let nonce := hc_nonce h in
  if lenN nonce <? 8 then Undef UbOutOfBounds else
  let pre := lenN nonce - 8 in
  let masked := takeN pre nonce ++
    xor_bytes (dropN pre nonce)
      (map (seq_byte (hc_seq h)) [0; 1; 2; 3; 4; 5; 6; 7]) in
  let seq' := wrap64 (hc_seq h + 1) in
  Done (masked,
    {| hc_suite := hc_suite h; hc_key_size := hc_key_size h; hc_seq := seq';
       hc_overflowed := if seq' =? 0 then true else hc_overflowed h;
       hc_always_fail := hc_always_fail h; hc_nonce := hc_nonce h;
       hc_secret := hc_secret h; hc_aead := hc_aead h;
       hc_epoch := hc_epoch h;
       hc_used := hc_used h ++ [(hc_epoch h, masked)] |}).

Definition with_aead (h : half) (c : crypter) : half :=
  {| hc_suite := hc_suite h; hc_key_size := hc_key_size h;
     hc_seq := hc_seq h; hc_overflowed := hc_overflowed h;
     hc_always_fail := hc_always_fail h; hc_nonce := hc_nonce h;
     hc_secret := hc_secret h; hc_aead := Some c;
     hc_epoch := hc_epoch h; hc_used := hc_used h |}.

(* Encrypt: s2a_half_connection.cc 171-184 (whole body under mu_). *)
Definition half_encrypt (P : prims) (h : half) (aad pt : list iovec)
  (out : iovec) : M (half * cstatus * iovec) :=
  match hc_aead h with
  | None => ret (h, (kInternal, 0), out)
  | Some c =>
    if hc_always_fail h || hc_overflowed h
    then ret (h, (kInternal, 0), out)
    else
      '(nonce, h) <- lift (nonce_mask h) ;;
      '(c, st, out) <- aead_encrypt P c nonce aad pt out ;;
      ret (with_aead h c, st, out)
  end.

(* Decrypt: s2a_half_connection.cc 186-199 (whole body under mu_). *)
Definition half_decrypt (P : prims) (h : half) (aad ct : list iovec)
  (out : iovec) : M (half * cstatus * iovec) :=
  match hc_aead h with
  | None => ret (h, (kInternal, 0), out)
  | Some c =>
    if hc_always_fail h || hc_overflowed h
    then ret (h, (kInternal, 0), out)
    else
      '(nonce, h) <- lift (nonce_mask h) ;;
      '(c, st, out) <- aead_decrypt P c nonce aad ct out ;;
      ret (with_aead h c, st, out)
  end.

Definition with_keys (h : half) (secret nonce : bytes) (fail : bool) : half :=
  {| hc_suite := hc_suite h; hc_key_size := hc_key_size h;
     hc_seq := hc_seq h; hc_overflowed := hc_overflowed h;
     hc_always_fail := fail; hc_nonce := nonce; hc_secret := secret;
     hc_aead := hc_aead h; hc_epoch := hc_epoch h; hc_used := hc_used h |}.

(* UpdateKey: s2a_half_connection.cc 201-254 (whole body under mu_). The
   secret and the nonce are overwritten in place, also on failure. *)
Definition half_update_key (P : prims) (lib : ssl_lib) (h : half)
  : M (half * code) :=
  '(st, secret) <- advance_secret P (hc_suite h) (hc_secret h) ;;
  if negb (is_ok st)
  then ret (with_keys h secret (hc_nonce h) true, st) else
  '(st, key) <- derive_key P (hc_suite h) secret (zeros (hc_key_size h)) ;;
  if negb (is_ok st)
  then ret (with_keys h secret (hc_nonce h) true, st) else
  '(st, nonce) <- derive_nonce P (hc_suite h) secret (hc_nonce h) ;;
  if negb (is_ok st) then ret (with_keys h secret nonce true, st) else
  r <- create_crypter lib (hc_suite h) key ;;
  match r with
  | inl st => ret (with_keys h secret nonce true, st)
  | inr c =>
    ret ({| hc_suite := hc_suite h; hc_key_size := hc_key_size h;
            hc_seq := 0; hc_overflowed := false;
            hc_always_fail := hc_always_fail h; hc_nonce := nonce;
            hc_secret := secret; hc_aead := Some c;
            hc_epoch := hc_epoch h + 1; hc_used := hc_used h |}, kOk)
  end.

(* TagLength: s2a_half_connection.cc 256; dereferences aead_crypter_ without
   taking mu_ (see Conc.v for the consequences). *)
Definition half_tag_length (h : half) : outcome N :=
  match hc_aead h with
  | None => Undef UbNullDeref
  | Some c => Done (cr_tag_length c)
  end.
