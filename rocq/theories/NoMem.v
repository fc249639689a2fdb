(* Creation of AEAD crypters when the library has no memory for a cipher
   context. EVP_CIPHER_CTX_new returns a null pointer then, and neither
   CreateAesGcmAeadCrypter nor the OpenSSL CreateChachaPolyAeadCrypter looks at
   it before EVP_DecryptInit_ex writes into the context. (HkdfDeriveSecret and
   the BoringSSL CreateChachaPolyAeadCrypter do check, see Hkdf.v and Aead.v.)
   In Aead.v that allocation never fails. The functions that reach it are given
   again here, with the calls below them changed and nothing else. *)
From Coq Require Import List NArith Bool.
From Verif Require Import Base Aead Hkdf HalfConn Options HsHandler Crypter FrameProt.
Import ListNotations.
Local Open Scope N_scope.

(* CreateAesGcmAeadCrypter: aes_gcm_crypter.cc 408-433. *)
Definition nm_create_aes_gcm (key : bytes) : M (code + crypter) :=
  if (lenN key =? kAes128GcmKeySize) || (lenN key =? kAes256GcmKeySize) then
    ok <- ssl ;; (* EVP_CIPHER_CTX_new *)
    if negb ok then undef UbNullDeref else create_aes_gcm key
  else ret (inl kFailedPrecondition).

(* CreateChachaPolyAeadCrypter: chacha_poly_crypter_openssl.cc 410-437 and
   chacha_poly_crypter_boringssl.cc 240-260. EVP_AEAD_CTX_new both allocates
   and initialises. *)
Definition nm_create_chacha_poly (lib : ssl_lib) (key : bytes) : M (code + crypter) :=
  match lib with
  | OpenSSL =>
    if negb (lenN key =? kChachaPolyKeySize) then ret (inl kInvalidArgument) else
    ok <- ssl ;; (* EVP_CIPHER_CTX_new *)
    if negb ok then undef UbNullDeref else create_chacha_poly OpenSSL key
  | BoringSSL => create_chacha_poly BoringSSL key
  end.

(* The creation switch: s2a_half_connection.cc 144-166 and 226-248. *)
Definition nm_create_crypter (lib : ssl_lib) (s : suite) (key : bytes) : M (code + crypter) :=
  match s with
  | AES_128_GCM_SHA256 | AES_256_GCM_SHA384 => nm_create_aes_gcm key
  | CHACHA20_POLY1305_SHA256 => nm_create_chacha_poly lib key
  end.

(* S2AHalfConnection::Create: s2a_half_connection.cc 102-169. *)
Definition nm_half_create (P : prims) (lib : ssl_lib) (s : suite) (sequence : N) (secret : bytes) : M (code + half) :=
  if negb (lenN secret =? suite_secret_size s)
  then ret (inl kInvalidArgument) else
  '(st, key) <- derive_key P s secret (zeros (suite_key_size s)) ;;
  if negb (is_ok st) then ret (inl st) else
  '(st, nonce) <- derive_nonce P s secret (zeros (suite_nonce_size s)) ;;
  if negb (is_ok st) then ret (inl st) else
  r <- nm_create_crypter lib s key ;;
  match r with
  | inl st => ret (inl st)
  | inr c =>
    ret (inr {| hc_suite := s; hc_key_size := suite_key_size s;
                hc_seq := sequence; hc_overflowed := false;
                hc_always_fail := false; hc_nonce := nonce;
                hc_secret := secret; hc_aead := Some c;
                hc_epoch := 0; hc_used := [] |})
  end.

(* UpdateKey: s2a_half_connection.cc 201-254. *)
Definition nm_half_update_key (P : prims) (lib : ssl_lib) (h : half) : M (half * code) :=
  '(st, secret) <- advance_secret P (hc_suite h) (hc_secret h) ;;
  if negb (is_ok st)
  then ret (with_keys h secret (hc_nonce h) true, st) else
  '(st, key) <- derive_key P (hc_suite h) secret (zeros (hc_key_size h)) ;;
  if negb (is_ok st)
  then ret (with_keys h secret (hc_nonce h) true, st) else
  '(st, nonce) <- derive_nonce P (hc_suite h) secret (hc_nonce h) ;;
  if negb (is_ok st) then ret (with_keys h secret nonce true, st) else
  r <- nm_create_crypter lib (hc_suite h) key ;;
  match r with
  | inl st => ret (with_keys h secret nonce true, st)
  | inr c =>
    ret ({| hc_suite := hc_suite h; hc_key_size := hc_key_size h;
            hc_seq := 0; hc_overflowed := false;
            hc_always_fail := hc_always_fail h; hc_nonce := nonce;
            hc_secret := secret; hc_aead := Some c;
            hc_epoch := hc_epoch h + 1; hc_used := hc_used h |}, kOk)
  end.

(* S2ACrypter::Create: s2a_crypter.cc 192-256. *)
Definition nm_crypt_create (P : prims) (lib : ssl_lib) (a : create_args) : M (code + crypt) :=
  if lenN (ca_url a) =? 0 then ret (inl kInvalidArgument) else
  if negb (ca_logger a) then ret (inl kInvalidArgument) else
  if negb (ca_sender a) then ret (inl kInvalidArgument) else
  match ca_tls a with
  | TLS1_2 => ret (inl kInvalidArgument)
  | TLS1_3 =>
    r <- nm_half_create P lib (ca_suite a) (ca_in_seq a) (ca_in_secret a) ;;
    match r with
    | inl st => ret (inl st)
    | inr hin =>
      r <- nm_half_create P lib (ca_suite a) (ca_out_seq a) (ca_out_secret a) ;;
      match r with
      | inl st => ret (inl st)
      | inr hout =>
        ret (inr {| cx_connection_id := ca_connection_id a;
                    cx_url := ca_url a; cx_identity := ca_identity a;
                    cx_in := hin; cx_out := hout; cx_close := false;
                    cx_handler := new_handler; cx_phase := NOT_RECEIVED;
                    cx_expecting := false; cx_channel := ca_channel a;
                    cx_sent := [] |})
      end
    end
  end.

(* S2AFrameProtector::Create: s2a_frame_protector.cc 192-231. *)
Definition nm_fp_create (P : prims) (lib : ssl_lib) (a : fp_args) : M (code + fprot) :=
  if negb (fa_allocator a) || negb (fa_destroy a) || negb (fa_logger a)
  then ret (inl kInvalidArgument) else
  let c := fa_crypt a in
  r <- nm_crypt_create P lib
         {| ca_tls := ca_tls c; ca_suite := ca_suite c;
            ca_connection_id := ca_connection_id c; ca_url := ca_url c;
            ca_identity := ca_identity c; ca_in_secret := ca_in_secret c;
            ca_out_secret := ca_out_secret c; ca_in_seq := ca_in_seq c;
            ca_out_seq := ca_out_seq c; ca_sender := true;
            ca_channel := ca_channel c; ca_logger := fa_logger a |} ;;
  match r with
  | inl st => ret (inl st)
  | inr x =>
    o <- lift (record_overhead x) ;;
    ret (inr {| fp_crypt := x; fp_max := kTlsMaxPlaintextSize + o;
                fp_next := 0; fp_events := [] |})
  end.

(* UpdateOutboundKey: s2a_crypter.cc, as crypt_update_outbound_key. *)
Definition nm_update_outbound_key (P : prims) (lib : ssl_lib) (x : crypt) : M (crypt * code) :=
  '(h, st) <- nm_half_update_key P lib (cx_out x) ;;
  ret (set_out x h, st).
