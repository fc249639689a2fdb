(* Model of the AEAD crypters:
   src/crypto/aes_gcm_crypter.cc, src/crypto/chacha_poly_crypter_openssl.cc,
   src/crypto/chacha_poly_crypter_boringssl.cc, src/crypto/s2a_aead_crypter.cc.

   The cipher library is abstracted by [prims]: a keystream, a MAC and HMAC.
   Both AES-GCM and ChaCha20-Poly1305 have this shape: the ciphertext is the
   plaintext xor a keystream determined by key and nonce, and the tag is a
   function of key, nonce, AAD and ciphertext. *)
From Coq Require Import List NArith Bool.
From Verif Require Import Base.
Import ListNotations.
Local Open Scope N_scope.

(* src/crypto/s2a_aead_constants.h / src/crypto/hkdf.h: GsecHashFunction. *)
Inductive hash_fn := SHA256 | SHA384.
Inductive alg := Aes128Gcm | Aes256Gcm | ChachaPoly.

Record prims := {
  p_hmac : hash_fn -> bytes -> bytes -> bytes;          (* key, message *)
  p_ks   : alg -> bytes -> bytes -> nat -> N;           (* key, nonce, position *)
  p_mac  : alg -> bytes -> bytes -> bytes -> bytes -> bytes
                                              (* key, nonce, aad, ciphertext *)
}.

(* include/s2a_constants.h 39-40. *)
Definition digest_size (h : hash_fn) : N :=
  match h with SHA256 => 32 | SHA384 => 48 end.

(* What is assumed about the primitives: output sizes and uint8_t ranges. *)
Record prims_ok (P : prims) : Prop := {
  hmac_len : forall h k m, lenN (p_hmac P h k m) = digest_size h;
  hmac_bytes : forall h k m, bytes_ok (p_hmac P h k m);
  ks_byte : forall a k n i, byte_ok (p_ks P a k n i);
  mac_len : forall a k n d c, lenN (p_mac P a k n d c) = kAeadTagSize;
  mac_bytes : forall a k n d c, bytes_ok (p_mac P a k n d c)
}.

(* ------------------------------------------------------------------ *)
(* EVP_CIPHER_CTX: key set at creation; nonce, AAD, processed ciphertext and
   expected tag of the current operation. *)
Record evp_ctx := {
  ev_key : bytes;
  ev_iv : bytes;
  ev_aad : bytes;
  ev_ct : bytes;
  ev_tag : bytes
}.

(* EVP_EncryptInit_ex / EVP_DecryptInit_ex(ctx, null, null, null, nonce):
   keeps the key and starts a new operation. *)
Definition evp_init_nonce (c : evp_ctx) (nonce : bytes) : evp_ctx :=
  {| ev_key := ev_key c; ev_iv := nonce; ev_aad := []; ev_ct := [];
     ev_tag := [] |}.

Definition evp_add_aad (c : evp_ctx) (d : bytes) : evp_ctx :=
  {| ev_key := ev_key c; ev_iv := ev_iv c; ev_aad := ev_aad c ++ d;
     ev_ct := ev_ct c; ev_tag := ev_tag c |}.

Definition evp_add_ct (c : evp_ctx) (d : bytes) : evp_ctx :=
  {| ev_key := ev_key c; ev_iv := ev_iv c; ev_aad := ev_aad c;
     ev_ct := ev_ct c ++ d; ev_tag := ev_tag c |}.

Definition evp_set_tag (c : evp_ctx) (t : bytes) : evp_ctx :=
  {| ev_key := ev_key c; ev_iv := ev_iv c; ev_aad := ev_aad c;
     ev_ct := ev_ct c; ev_tag := t |}.

(* Keystream bytes off .. off+n-1. *)
Definition keystream (P : prims) (a : alg) (key iv : bytes) (off n : nat)
  : bytes := map (p_ks P a key iv) (seq off n).

(* The stream-cipher part of EVP_{En,De}cryptUpdate: xor with the keystream
   from the current position on. *)
Definition evp_xor (P : prims) (a : alg) (c : evp_ctx) (d : bytes) : bytes :=
  xor_bytes d (keystream P a (ev_key c) (ev_iv c) (length (ev_ct c)) (length d)).

Definition evp_tag (P : prims) (a : alg) (c : evp_ctx) : bytes :=
  p_mac P a (ev_key c) (ev_iv c) (ev_aad c) (ev_ct c).

Fixpoint bytes_eqb (a b : bytes) : bool :=
  match a, b with
  | [], [] => true
  | x :: a', y :: b' => (x =? y) && bytes_eqb a' b'
  | _, _ => false
  end.

(* static_cast<int>(size_t): keep the low 32 bits; None if the int is
   negative, in which case the library call is taken to fail. *)
Definition int_narrow (n : N) : option N :=
  let m := n mod 4294967296 in
  if m <? 2147483648 then Some m else None.

(* ------------------------------------------------------------------ *)
(* S2AAeadCrypter: src/crypto/s2a_aead_crypter.h, s2a_aead_crypter.cc 41-62. *)
Inductive impl := AesGcmImpl | ChachaOpenSSLImpl | ChachaBoringSSLImpl.

Record crypter := {
  cr_impl : impl;
  cr_alg : alg;
  cr_key_length : N;
  cr_nonce_length : N;
  cr_tag_length : N;
  cr_ctx : evp_ctx
}.

Definition with_ctx (c : crypter) (e : evp_ctx) : crypter :=
  {| cr_impl := cr_impl c; cr_alg := cr_alg c; cr_key_length := cr_key_length c;
     cr_nonce_length := cr_nonce_length c; cr_tag_length := cr_tag_length c;
     cr_ctx := e |}.

(* s2a_aead_crypter.cc 46-49: size_t subtraction, may wrap. *)
Definition max_plaintext_length (c : crypter) (n : N) : N :=
  sub64 n (cr_tag_length c).

(* s2a_aead_crypter.cc 51-54: size_t addition, may wrap. *)
Definition max_ciphertext_and_tag_length (c : crypter) (n : N) : N :=
  wrap64 (n + cr_tag_length c).

(* CrypterStatus: s2a_aead_crypter.h; status code and bytes written. *)
Definition cstatus := (code * N)%type.

(* ------------------------------------------------------------------ *)
(* Streaming crypters. aes_gcm_crypter.cc and chacha_poly_crypter_openssl.cc
   are the same code up to constants with equal values (nonce 12, tag 16) and
   error strings; both are modelled by the [evp_*] functions below. *)

(* EncryptInitContextUsingNonce / DecryptInitContextUsingNonce:
   aes_gcm_crypter.cc 39-69, chacha_poly_crypter_openssl.cc 40-72. *)
Definition init_context_using_nonce (e : evp_ctx) (nonce : bytes)
  : M (code * evp_ctx) :=
  if negb (lenN nonce =? kAeadNonceSize) then ret (kInvalidArgument, e)
  else
    ok <- ssl ;;
    if ok then ret (kOk, evp_init_nonce e nonce)
    else ret (kInternal, e).

(* SetAadForEncrypt / SetAadForDecrypt: aes_gcm_crypter.cc 100-156,
   chacha_poly_crypter_openssl.cc 104-160. The library reads the narrowed
   length; a mismatch with iov_len is an error. *)
Fixpoint set_aad (e : evp_ctx) (aad : list iovec) : M (code * evp_ctx) :=
  match aad with
  | [] => ret (kOk, e)
  | v :: rest =>
    if iov_len v =? 0 then set_aad e rest
    else
      match v with
      | IoNull _ => ret (kInvalidArgument, e)
      | IoBuf d =>
        ok <- ssl ;;
        match int_narrow (lenN d) with
        | None => ret (kInternal, e)
        | Some m =>
          if ok then
            let e' := evp_add_aad e (takeN m d) in
            if m =? lenN d then set_aad e' rest else ret (kInternal, e')
          else ret (kInternal, e)
        end
      end
  end.

(* The plaintext loop of Encrypt: aes_gcm_crypter.cc 192-231,
   chacha_poly_crypter_openssl.cc 202-241. [off] is ciphertext_ptr minus
   iov_base, [remaining] is remaining_ciphertext_length. *)
Fixpoint encrypt_loop (P : prims) (a : alg) (e : evp_ctx) (pt : list iovec)
  (out : iovec) (off remaining : N)
  : M (code * evp_ctx * iovec * N * N) :=
  match pt with
  | [] => ret (kOk, e, out, off, remaining)
  | v :: rest =>
    if iov_len v =? 0 then encrypt_loop P a e rest out off remaining
    else
      match v with
      | IoNull _ => ret (kInvalidArgument, e, out, off, remaining)
      | IoBuf d =>
        if remaining <? lenN d
        then ret (kInvalidArgument, e, out, off, remaining)
        else
          ok <- ssl ;;
          match int_narrow (lenN d) with
          | None => ret (kInternal, e, out, off, remaining)
          | Some m =>
            if ok then
              let inp := takeN m d in
              let ct := evp_xor P a e inp in
              out' <- lift (write_at out off ct) ;;
              encrypt_loop P a (evp_add_ct e ct) rest out'
                (off + m) (remaining - m)
            else ret (kInternal, e, out, off, remaining)
          end
      end
  end.

(* Encrypt: aes_gcm_crypter.cc 168-270, chacha_poly_crypter_openssl.cc
   178-276. Returns the crypter (its context has moved on), the status and the
   contents of the output buffer. *)
Definition evp_encrypt (P : prims) (c : crypter) (nonce : bytes)
  (aad pt : list iovec) (out : iovec) : M (crypter * cstatus * iovec) :=
  '(st, e) <- init_context_using_nonce (cr_ctx c) nonce ;;
  if negb (is_ok st) then ret (with_ctx c e, (st, 0), out) else
  '(st, e) <- set_aad e aad ;;
  if negb (is_ok st) then ret (with_ctx c e, (st, 0), out) else
  '(st, e, out, off, remaining) <-
     encrypt_loop P (cr_alg c) e pt out 0 (iov_len out) ;;
  if negb (is_ok st) then ret (with_ctx c e, (st, 0), out) else
  ok <- ssl ;; (* EVP_EncryptFinal_ex *)
  if negb ok then ret (with_ctx c e, (kInternal, 0), out) else
  if remaining <? kAeadTagSize
  then ret (with_ctx c e, (kInvalidArgument, 0), out) else
  ok <- ssl ;; (* EVP_CIPHER_CTX_ctrl(GET_TAG) *)
  if negb ok then ret (with_ctx c e, (kInternal, 0), out) else
  out' <- lift (write_at out off (evp_tag P (cr_alg c) e)) ;;
  ret (with_ctx c e, (kOk, iov_len out' - (remaining - kAeadTagSize)), out').

(* The ciphertext loop of Decrypt: aes_gcm_crypter.cc 313-365,
   chacha_poly_crypter_openssl.cc 319-371. [total] is
   total_ciphertext_and_tag_length, [off]/[remaining] describe plaintext_ptr
   and remaining_plaintext_length, [cur] is the unread part
   (ciphertext_ptr, current_ciphertext_length) of the last iovec looked at.
   On normal exit also returns the iovecs from index i on. *)
Inductive dloop :=
| DExit (st : code) (e : evp_ctx) (out : iovec)
| DCont (e : evp_ctx) (out : iovec) (total remaining : N) (cur : bytes)
        (rest : list iovec).

Definition zero_exit (st : code) (e : evp_ctx) (out : iovec) : M dloop :=
  out' <- lift (zero_out out) ;; ret (DExit st e out').

Fixpoint decrypt_loop (P : prims) (a : alg) (e : evp_ctx) (ct : list iovec)
  (out : iovec) (total off remaining : N) (cur : bytes) : M dloop :=
  match ct with
  | [] => ret (DCont e out total remaining cur [])
  | v :: rest =>
    if total <=? kAeadTagSize then ret (DCont e out total remaining cur ct)
    else if iov_len v =? 0
    then decrypt_loop P a e rest out total off remaining []
    else
      match v with
      | IoNull _ => zero_exit kInvalidArgument e out
      | IoBuf d =>
        let bytes_to_write := N.min (lenN d) (total - kAeadTagSize) in
        if remaining <? bytes_to_write
        then ret (DExit kInvalidArgument e out)
        else
          ok <- ssl ;;
          match int_narrow bytes_to_write with
          | None => zero_exit kInternal e out
          | Some m =>
            if ok then
              let inp := takeN m d in
              out' <- lift (write_at out off (evp_xor P a e inp)) ;;
              decrypt_loop P a (evp_add_ct e inp) rest out'
                (total - m) (off + m) (remaining - m) (dropN m d)
            else zero_exit kInternal e out
          end
      end
  end.

(* The tag loop: aes_gcm_crypter.cc 377-390, chacha_poly_crypter_openssl.cc
   383-396. memcpy into the 16-byte array [tag]; there is no null check.
   memcpy of zero bytes from a null pointer is taken to be harmless. *)
Fixpoint collect_tag (tag : bytes) (rest : list iovec) : outcome bytes :=
  match rest with
  | [] => Done tag
  | v :: rest' =>
    if iov_len v =? 0 then collect_tag tag rest'
    else
      match v with
      | IoNull _ => Undef UbNullDeref
      | IoBuf d =>
        if lenN tag + lenN d <=? kAeadTagSize
        then collect_tag (tag ++ d) rest'
        else Undef UbOutOfBounds
      end
  end.

(* DecryptCheckTagAndFinalize: aes_gcm_crypter.cc 74-96,
   chacha_poly_crypter_openssl.cc 77-100. *)
Definition check_tag (P : prims) (a : alg) (e : evp_ctx) (tag : bytes)
  (out : iovec) : M (code * evp_ctx * iovec) :=
  ok <- ssl ;; (* SET_TAG *)
  if negb ok then
    out' <- lift (zero_out out) ;; ret (kInternal, e, out')
  else
    let e := evp_set_tag e tag in
    ok <- ssl ;; (* EVP_DecryptFinal_ex *)
    if ok && bytes_eqb tag (evp_tag P a e)
    then ret (kOk, e, out)
    else out' <- lift (zero_out out) ;; ret (kInternal, e, out').

(* Decrypt: aes_gcm_crypter.cc 272-398, chacha_poly_crypter_openssl.cc
   278-404. *)
Definition evp_decrypt (P : prims) (c : crypter) (nonce : bytes)
  (aad ct : list iovec) (out : iovec) : M (crypter * cstatus * iovec) :=
  let total := total_len ct in
  if total <? kAeadTagSize then ret (c, (kInvalidArgument, 0), out) else
  '(st, e) <- init_context_using_nonce (cr_ctx c) nonce ;;
  if negb (is_ok st) then ret (with_ctx c e, (st, 0), out) else
  '(st, e) <- set_aad e aad ;;
  if negb (is_ok st) then ret (with_ctx c e, (st, 0), out) else
  r <- decrypt_loop P (cr_alg c) e ct out total 0 (iov_len out) [] ;;
  match r with
  | DExit st e out => ret (with_ctx c e, (st, 0), out)
  | DCont e out total remaining cur rest =>
    if kAeadTagSize <? total then
      out' <- lift (zero_out out) ;;
      ret (with_ctx c e, (kInternal, 0), out')
    else
      tag <- lift (if lenN cur <=? kAeadTagSize then collect_tag cur rest
                   else Undef UbOutOfBounds) ;;
      '(st, e, out) <- check_tag P (cr_alg c) e tag out ;;
      if negb (is_ok st) then ret (with_ctx c e, (st, 0), out)
      else ret (with_ctx c e, (kOk, iov_len out - remaining), out)
  end.

(* ------------------------------------------------------------------ *)
(* BoringSSL ChaCha-Poly crypter: chacha_poly_crypter_boringssl.cc. *)

(* The loops at 66-77 and 155-166: null check and total length. *)
Fixpoint checked_len (vs : list iovec) (acc : N) : option N :=
  match vs with
  | [] => Some acc
  | v :: rest =>
    match v with
    | IoNull n => if negb (n =? 0) then None else checked_len rest acc
    | IoBuf d => checked_len rest (wrap64 (acc + lenN d))
    end
  end.

(* The loops at 100-113 and 197-210: collect the AAD. *)
Fixpoint collect_checked (vs : list iovec) (acc : bytes) : option bytes :=
  match vs with
  | [] => Some acc
  | v :: rest =>
    match v with
    | IoNull n => if negb (n =? 0) then None else collect_checked rest acc
    | IoBuf d => collect_checked rest (acc ++ d)
    end
  end.

(* Encrypt: chacha_poly_crypter_boringssl.cc 52-137. EVP_AEAD_CTX_seal zeroes
   the output buffer when it fails. *)
Definition bssl_encrypt (P : prims) (c : crypter) (nonce : bytes)
  (aad pt : list iovec) (out : iovec) : M (crypter * cstatus * iovec) :=
  if negb (lenN nonce =? cr_nonce_length c)
  then ret (c, (kInvalidArgument, 0), out) else
  match checked_len pt 0 with
  | None => ret (c, (kInvalidArgument, 0), out)
  | Some in_len =>
    if iov_len out <? wrap64 (cr_tag_length c + in_len)
    then ret (c, (kInvalidArgument, 0), out) else
    let in_vec := iov_concat pt in
    match collect_checked aad [] with
    | None => ret (c, (kInvalidArgument, 0), out)
    | Some aad_vec =>
      ok <- ssl ;;
      if negb ok then
        out' <- lift (zero_out out) ;; ret (c, (kInternal, 0), out')
      else
        let e := evp_add_aad (evp_init_nonce (cr_ctx c) nonce) aad_vec in
        let ctxt := evp_xor P (cr_alg c) e in_vec in
        let sealed := ctxt ++ evp_tag P (cr_alg c) (evp_add_ct e ctxt) in
        out' <- lift (write_at out 0 sealed) ;;
        ret (c, (kOk, lenN sealed), out')
    end
  end.

(* Decrypt: chacha_poly_crypter_boringssl.cc 139-234. EVP_AEAD_CTX_open zeroes
   the output buffer when it fails. *)
Definition bssl_decrypt (P : prims) (c : crypter) (nonce : bytes)
  (aad ct : list iovec) (out : iovec) : M (crypter * cstatus * iovec) :=
  if negb (lenN nonce =? cr_nonce_length c)
  then ret (c, (kInvalidArgument, 0), out) else
  match checked_len ct 0 with
  | None => ret (c, (kInvalidArgument, 0), out)
  | Some in_len =>
    if in_len <? kAeadTagSize then ret (c, (kInvalidArgument, 0), out) else
    if iov_len out <? in_len - kAeadTagSize
    then ret (c, (kInvalidArgument, 0), out) else
    let in_vec := iov_concat ct in
    match collect_checked aad [] with
    | None => ret (c, (kInvalidArgument, 0), out)
    | Some aad_vec =>
      ok <- ssl ;;
      let n := lenN in_vec - kAeadTagSize in
      let ctxt := takeN n in_vec in
      let tag := dropN n in_vec in
      let e := evp_add_aad (evp_init_nonce (cr_ctx c) nonce) aad_vec in
      if ok && bytes_eqb tag (evp_tag P (cr_alg c) (evp_add_ct e ctxt)) then
        out' <- lift (write_at out 0 (evp_xor P (cr_alg c) e ctxt)) ;;
        ret (c, (kOk, n), out')
      else
        out' <- lift (zero_out out) ;; ret (c, (kInternal, 0), out')
    end
  end.

(* Virtual dispatch. *)
Definition aead_encrypt (P : prims) (c : crypter) :=
  match cr_impl c with
  | ChachaBoringSSLImpl => bssl_encrypt P c
  | _ => evp_encrypt P c
  end.

Definition aead_decrypt (P : prims) (c : crypter) :=
  match cr_impl c with
  | ChachaBoringSSLImpl => bssl_decrypt P c
  | _ => evp_decrypt P c
  end.

(* ------------------------------------------------------------------ *)
(* Creation. *)

Definition fresh_ctx (key : bytes) : evp_ctx :=
  {| ev_key := key; ev_iv := []; ev_aad := []; ev_ct := []; ev_tag := [] |}.

(* CreateAesGcmAeadCrypter: aes_gcm_crypter.cc 404-434. *)
Definition create_aes_gcm (key : bytes) : M (code + crypter) :=
  let mk a :=
    ok <- ssl ;; (* EVP_DecryptInit_ex *)
    if negb ok then ret (inl kInternal) else
    ok <- ssl ;; (* SET_IVLEN *)
    if negb ok then ret (inl kInternal) else
    ret (inr {| cr_impl := AesGcmImpl; cr_alg := a; cr_key_length := lenN key;
                cr_nonce_length := kAeadNonceSize;
                cr_tag_length := kAeadTagSize; cr_ctx := fresh_ctx key |}) in
  if lenN key =? kAes128GcmKeySize then mk Aes128Gcm
  else if lenN key =? kAes256GcmKeySize then mk Aes256Gcm
  else ret (inl kFailedPrecondition).

(* Which SSL library the code is compiled against (OPENSSL_IS_BORINGSSL). *)
Inductive ssl_lib := OpenSSL | BoringSSL.

(* CreateChachaPolyAeadCrypter: chacha_poly_crypter_openssl.cc 410-437 and
   chacha_poly_crypter_boringssl.cc 240-260. For an OpenSSL without
   ChaCha support see NoChacha.v. *)
Definition create_chacha_poly (lib : ssl_lib) (key : bytes)
  : M (code + crypter) :=
  if negb (lenN key =? kChachaPolyKeySize) then ret (inl kInvalidArgument)
  else
    let mk i := {| cr_impl := i; cr_alg := ChachaPoly;
                   cr_key_length := lenN key;
                   cr_nonce_length := kAeadNonceSize;
                   cr_tag_length := kAeadTagSize; cr_ctx := fresh_ctx key |} in
    match lib with
    | OpenSSL =>
      ok <- ssl ;;
      if negb ok then ret (inl kInternal) else
      ok <- ssl ;;
      if negb ok then ret (inl kInternal) else
      ret (inr (mk ChachaOpenSSLImpl))
    | BoringSSL =>
      ok <- ssl ;;
      if negb ok then ret (inl kInternal) else
      ret (inr (mk ChachaBoringSSLImpl))
    end.
