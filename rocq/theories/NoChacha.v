(* The build against an OpenSSL without ChaCha20-Poly1305 (older than 1.1.0, or
   with OPENSSL_NO_CHACHA or OPENSSL_NO_POLY1305). Only
   CreateChachaPolyAeadCrypter differs; the functions that reach it are given
   again here, with the calls below them changed and nothing else. *)
From Coq Require Import List NArith Bool.
From Verif Require Import Base Aead Hkdf HalfConn Options HsHandler Crypter FrameProt Wire Util Context Proxy.
Import ListNotations.
Local Open Scope N_scope.

(* CreateChachaPolyAeadCrypter: chacha_poly_crypter_openssl.cc 410-423, the
   #else branch. *)
Definition nc_create_chacha_poly (key : bytes) : M (code + crypter) :=
  if negb (lenN key =? kChachaPolyKeySize) then ret (inl kInvalidArgument)
  else ret (inl kFailedPrecondition).

(* The creation switch: s2a_half_connection.cc 144-166 and 226-248. *)
Definition nc_create_crypter (s : suite) (key : bytes) : M (code + crypter) :=
  match s with
  | AES_128_GCM_SHA256 | AES_256_GCM_SHA384 => create_aes_gcm key
  | CHACHA20_POLY1305_SHA256 => nc_create_chacha_poly key
  end.

(* S2AHalfConnection::Create: s2a_half_connection.cc 102-169. *)
Definition nc_half_create (P : prims) (s : suite) (sequence : N) (secret : bytes) : M (code + half) :=
  if negb (lenN secret =? suite_secret_size s)
  then ret (inl kInvalidArgument) else
  '(st, key) <- derive_key P s secret (zeros (suite_key_size s)) ;;
  if negb (is_ok st) then ret (inl st) else
  '(st, nonce) <- derive_nonce P s secret (zeros (suite_nonce_size s)) ;;
  if negb (is_ok st) then ret (inl st) else
  r <- nc_create_crypter s key ;;
  match r with
  | inl st => ret (inl st)
  | inr c =>
    ret (inr {| hc_suite := s; hc_key_size := suite_key_size s;
                hc_seq := sequence; hc_overflowed := false;
                hc_always_fail := false; hc_nonce := nonce;
                hc_secret := secret; hc_aead := Some c;
                hc_epoch := 0; hc_used := [] |})
  end.

(* UpdateKey: s2a_half_connection.cc 201-254. *)
Definition nc_half_update_key (P : prims) (h : half) : M (half * code) :=
  '(st, secret) <- advance_secret P (hc_suite h) (hc_secret h) ;;
  if negb (is_ok st)
  then ret (with_keys h secret (hc_nonce h) true, st) else
  '(st, key) <- derive_key P (hc_suite h) secret (zeros (hc_key_size h)) ;;
  if negb (is_ok st)
  then ret (with_keys h secret (hc_nonce h) true, st) else
  '(st, nonce) <- derive_nonce P (hc_suite h) secret (hc_nonce h) ;;
  if negb (is_ok st) then ret (with_keys h secret nonce true, st) else
  r <- nc_create_crypter (hc_suite h) key ;;
  match r with
  | inl st => ret (with_keys h secret nonce true, st)
  | inr c =>
    ret ({| hc_suite := hc_suite h; hc_key_size := hc_key_size h;
            hc_seq := 0; hc_overflowed := false;
            hc_always_fail := hc_always_fail h; hc_nonce := nonce;
            hc_secret := secret; hc_aead := Some c;
            hc_epoch := hc_epoch h + 1; hc_used := hc_used h |}, kOk)
  end.

(* S2ACrypter::Create: s2a_crypter.cc 192-256. *)
Definition nc_crypt_create (P : prims) (a : create_args) : M (code + crypt) :=
  if lenN (ca_url a) =? 0 then ret (inl kInvalidArgument) else
  if negb (ca_logger a) then ret (inl kInvalidArgument) else
  if negb (ca_sender a) then ret (inl kInvalidArgument) else
  match ca_tls a with
  | TLS1_2 => ret (inl kInvalidArgument)
  | TLS1_3 =>
    r <- nc_half_create P (ca_suite a) (ca_in_seq a) (ca_in_secret a) ;;
    match r with
    | inl st => ret (inl st)
    | inr hin =>
      r <- nc_half_create P (ca_suite a) (ca_out_seq a) (ca_out_secret a) ;;
      match r with
      | inl st => ret (inl st)
      | inr hout =>
        ret (inr {| cx_connection_id := ca_connection_id a;
                    cx_url := ca_url a; cx_identity := ca_identity a;
                    cx_in := hin; cx_out := hout; cx_close := false;
                    cx_handler := new_handler; cx_phase := NOT_RECEIVED;
                    cx_expecting := false; cx_channel := ca_channel a;
                    cx_sent := [] |})
      end
    end
  end.

(* S2AFrameProtector::Create: s2a_frame_protector.cc 192-231. *)
Definition nc_fp_create (P : prims) (a : fp_args) : M (code + fprot) :=
  if negb (fa_allocator a) || negb (fa_destroy a) || negb (fa_logger a)
  then ret (inl kInvalidArgument) else
  let c := fa_crypt a in
  r <- nc_crypt_create P
         {| ca_tls := ca_tls c; ca_suite := ca_suite c;
            ca_connection_id := ca_connection_id c; ca_url := ca_url c;
            ca_identity := ca_identity c; ca_in_secret := ca_in_secret c;
            ca_out_secret := ca_out_secret c; ca_in_seq := ca_in_seq c;
            ca_out_seq := ca_out_seq c; ca_sender := true;
            ca_channel := ca_channel c; ca_logger := fa_logger a |} ;;
  match r with
  | inl st => ret (inl st)
  | inr x =>
    o <- lift (record_overhead x) ;;
    ret (inr {| fp_crypt := x; fp_max := kTlsMaxPlaintextSize + o;
                fp_next := 0; fp_events := [] |})
  end.

(* CreateFrameProtector: s2a_proxy.cc 784-807. *)
Definition nc_create_frame_protector (P : prims) (s : proxy) : M (proxy * (code + fprot)) :=
  if negb (y_finished s) then ret (s, inl kFailedPrecondition) else
  match y_result s with
  | None => undef UbNullDeref
  | Some r =>
    x <- nc_fp_create P (frame_args s r) ;;
    ret (move_channel s, x)
  end.
