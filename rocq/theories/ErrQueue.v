(* Model of the error queue of the SSL library: where the crypters and the key
   derivation leave errors in it, and where GetSSLErrors takes them out
   (src/crypto/s2a_aead_crypter_util.cc 27-35, aes_gcm_crypter.cc,
   chacha_poly_crypter_openssl.cc, chacha_poly_crypter_boringssl.cc, hkdf.cc,
   src/record_protocol/s2a_half_connection.cc). The functions below are those of
   Aead.v, Hkdf.v and HalfConn.v with the queue put back; ErrQueueSame.v shows
   that without the queue they are the same functions. *)
From Coq Require Import List NArith Bool.
From Verif Require Import Base Aead Hkdf HalfConn SpecAead SpecTls HalfRun.
Import ListNotations.
Local Open Scope N_scope.

(* One entry of the error queue: a packed error code of the library. *)
Definition entry := N.

(* The error queue of the calling thread, first entry first, while one operation
   runs. The library keeps only the latest 16 entries; this limit is not
   modelled. Which entries a failing call leaves is up to the library (none, for
   the tag check of OpenSSL's AES-GCM): [e_next] lists the entries of the
   failing calls to come, and is empty when they leave none. [e_text] is the
   library's part of the text of the status that the operation returns: every
   call of GetSSLErrors stands in the construction of a status that is returned
   at once. [e_raised] is ghost state: the entries of the failing calls made so
   far in this operation. *)
Record errs := {
  e_queue : list entry;
  e_next : list (list entry);
  e_text : list entry;
  e_raised : list entry
}.

Definition raise (e : errs) : errs :=
  match e_next e with
  | [] => e
  | x :: next =>
    {| e_queue := e_queue e ++ x; e_next := next; e_text := e_text e; e_raised := e_raised e ++ x |}
  end.

(* A computation that also uses the error queue. *)
Definition EM (A : Type) := errs -> M (A * errs).
Definition qret {A} (a : A) : EM A := fun e => ret (a, e).
Definition quiet {A} (m : M A) : EM A := fun e => bind m (fun a => ret (a, e)).
Definition qbind {A B} (m : EM A) (k : A -> EM B) : EM B :=
  fun e => bind (m e) (fun p => k (fst p) (snd p)).
Notation "x <~ m ;; k" := (qbind m (fun x => k))
  (at level 61, m at next level, right associativity).
Notation "' p <~ m ;; k" := (qbind m (fun p => k))
  (at level 61, p pattern, m at next level, right associativity).

(* One call of the library. It fails if the fault oracle says so, and if [good]
   is false (a negative length, a tag that does not match); a failing call puts
   its errors into the queue. *)
Definition library (good : bool) : EM bool :=
  fun e => bind ssl (fun ok => if ok && good then ret (true, e) else ret (false, raise e)).

(* GetSSLErrors: s2a_aead_crypter_util.cc 27-35. ERR_print_errors prints the
   entries of the queue and removes them. A failing BIO_new is not modelled. *)
Definition get_ssl_errors : EM unit :=
  fun e => ret (tt, {| e_queue := []; e_next := e_next e; e_text := e_queue e; e_raised := e_raised e |}).

(* A status whose text ends with GetSSLErrors. *)
Definition with_errors {A} (a : A) : EM A := _ <~ get_ssl_errors ;; qret a.

(* ------------------------------------------------------------------ *)
(* EncryptInitContextUsingNonce / DecryptInitContextUsingNonce:
   aes_gcm_crypter.cc 39-69, chacha_poly_crypter_openssl.cc 40-72. *)
Definition init_context_using_nonce_q (e : evp_ctx) (nonce : bytes) : EM (code * evp_ctx) :=
  if negb (lenN nonce =? kAeadNonceSize) then qret (kInvalidArgument, e)
  else
    ok <~ library true ;;
    if ok then qret (kOk, evp_init_nonce e nonce)
    else with_errors (kInternal, e).

(* SetAadForEncrypt / SetAadForDecrypt: aes_gcm_crypter.cc 100-156,
   chacha_poly_crypter_openssl.cc 104-160. *)
Fixpoint set_aad_q (e : evp_ctx) (aad : list iovec) : EM (code * evp_ctx) :=
  match aad with
  | [] => qret (kOk, e)
  | v :: rest =>
    if iov_len v =? 0 then set_aad_q e rest
    else
      match v with
      | IoNull _ => qret (kInvalidArgument, e)
      | IoBuf d =>
        match int_narrow (lenN d) with
        | None => _ <~ library false ;; with_errors (kInternal, e)
        | Some m =>
          ok <~ library true ;;
          if ok then
            let e' := evp_add_aad e (takeN m d) in
            if m =? lenN d then set_aad_q e' rest else with_errors (kInternal, e')
          else with_errors (kInternal, e)
        end
      end
  end.

(* The plaintext loop of Encrypt: aes_gcm_crypter.cc 192-231,
   chacha_poly_crypter_openssl.cc 202-241. Also the text of the error for a
   buffer that is too small ends with GetSSLErrors (203-210). *)
Fixpoint encrypt_loop_q (P : prims) (a : alg) (e : evp_ctx) (pt : list iovec)
  (out : iovec) (off remaining : N) : EM (code * evp_ctx * iovec * N * N) :=
  match pt with
  | [] => qret (kOk, e, out, off, remaining)
  | v :: rest =>
    if iov_len v =? 0 then encrypt_loop_q P a e rest out off remaining
    else
      match v with
      | IoNull _ => qret (kInvalidArgument, e, out, off, remaining)
      | IoBuf d =>
        if remaining <? lenN d
        then with_errors (kInvalidArgument, e, out, off, remaining)
        else
          match int_narrow (lenN d) with
          | None => _ <~ library false ;; with_errors (kInternal, e, out, off, remaining)
          | Some m =>
            ok <~ library true ;;
            if ok then
              let inp := takeN m d in
              let ct := evp_xor P a e inp in
              out' <~ quiet (lift (write_at out off ct)) ;;
              encrypt_loop_q P a (evp_add_ct e ct) rest out' (off + m) (remaining - m)
            else with_errors (kInternal, e, out, off, remaining)
          end
      end
  end.

(* Encrypt: aes_gcm_crypter.cc 168-270, chacha_poly_crypter_openssl.cc 178-276. *)
Definition evp_encrypt_q (P : prims) (c : crypter) (nonce : bytes)
  (aad pt : list iovec) (out : iovec) : EM (crypter * cstatus * iovec) :=
  '(st, e) <~ init_context_using_nonce_q (cr_ctx c) nonce ;;
  if negb (is_ok st) then qret (with_ctx c e, (st, 0), out) else
  '(st, e) <~ set_aad_q e aad ;;
  if negb (is_ok st) then qret (with_ctx c e, (st, 0), out) else
  '(st, e, out, off, remaining) <~ encrypt_loop_q P (cr_alg c) e pt out 0 (iov_len out) ;;
  if negb (is_ok st) then qret (with_ctx c e, (st, 0), out) else
  ok <~ library true ;; (* EVP_EncryptFinal_ex *)
  if negb ok then with_errors (with_ctx c e, (kInternal, 0), out) else
  if remaining <? kAeadTagSize
  then qret (with_ctx c e, (kInvalidArgument, 0), out) else
  ok <~ library true ;; (* EVP_CIPHER_CTX_ctrl(GET_TAG) *)
  if negb ok then with_errors (with_ctx c e, (kInternal, 0), out) else
  out' <~ quiet (lift (write_at out off (evp_tag P (cr_alg c) e))) ;;
  qret (with_ctx c e, (kOk, iov_len out' - (remaining - kAeadTagSize)), out').

(* The ciphertext loop of Decrypt: aes_gcm_crypter.cc 313-365,
   chacha_poly_crypter_openssl.cc 319-371. *)
Fixpoint decrypt_loop_q (P : prims) (a : alg) (e : evp_ctx) (ct : list iovec)
  (out : iovec) (total off remaining : N) (cur : bytes) : EM dloop :=
  match ct with
  | [] => qret (DCont e out total remaining cur [])
  | v :: rest =>
    if total <=? kAeadTagSize then qret (DCont e out total remaining cur ct)
    else if iov_len v =? 0
    then decrypt_loop_q P a e rest out total off remaining []
    else
      match v with
      | IoNull _ => quiet (zero_exit kInvalidArgument e out)
      | IoBuf d =>
        let bytes_to_write := N.min (lenN d) (total - kAeadTagSize) in
        if remaining <? bytes_to_write
        then qret (DExit kInvalidArgument e out)
        else
          match int_narrow bytes_to_write with
          | None =>
            _ <~ library false ;; r <~ quiet (zero_exit kInternal e out) ;; with_errors r
          | Some m =>
            ok <~ library true ;;
            if ok then
              let inp := takeN m d in
              out' <~ quiet (lift (write_at out off (evp_xor P a e inp))) ;;
              decrypt_loop_q P a (evp_add_ct e inp) rest out'
                (total - m) (off + m) (remaining - m) (dropN m d)
            else r <~ quiet (zero_exit kInternal e out) ;; with_errors r
          end
      end
  end.

(* DecryptCheckTagAndFinalize: aes_gcm_crypter.cc 74-96,
   chacha_poly_crypter_openssl.cc 77-100. *)
Definition check_tag_q (P : prims) (a : alg) (e : evp_ctx) (tag : bytes)
  (out : iovec) : EM (code * evp_ctx * iovec) :=
  ok <~ library true ;; (* SET_TAG *)
  if negb ok then
    out' <~ quiet (lift (zero_out out)) ;; with_errors (kInternal, e, out')
  else
    let e := evp_set_tag e tag in
    ok <~ library (bytes_eqb tag (evp_tag P a e)) ;; (* EVP_DecryptFinal_ex *)
    if ok then qret (kOk, e, out)
    else out' <~ quiet (lift (zero_out out)) ;; with_errors (kInternal, e, out').

(* Decrypt: aes_gcm_crypter.cc 272-398, chacha_poly_crypter_openssl.cc 278-404. *)
Definition evp_decrypt_q (P : prims) (c : crypter) (nonce : bytes)
  (aad ct : list iovec) (out : iovec) : EM (crypter * cstatus * iovec) :=
  let total := total_len ct in
  if total <? kAeadTagSize then qret (c, (kInvalidArgument, 0), out) else
  '(st, e) <~ init_context_using_nonce_q (cr_ctx c) nonce ;;
  if negb (is_ok st) then qret (with_ctx c e, (st, 0), out) else
  '(st, e) <~ set_aad_q e aad ;;
  if negb (is_ok st) then qret (with_ctx c e, (st, 0), out) else
  r <~ decrypt_loop_q P (cr_alg c) e ct out total 0 (iov_len out) [] ;;
  match r with
  | DExit st e out => qret (with_ctx c e, (st, 0), out)
  | DCont e out total remaining cur rest =>
    if kAeadTagSize <? total then
      out' <~ quiet (lift (zero_out out)) ;;
      with_errors (with_ctx c e, (kInternal, 0), out')
    else
      tag <~ quiet (lift (if lenN cur <=? kAeadTagSize then collect_tag cur rest
                          else Undef UbOutOfBounds)) ;;
      '(st, e, out) <~ check_tag_q P (cr_alg c) e tag out ;;
      if negb (is_ok st) then qret (with_ctx c e, (st, 0), out)
      else qret (with_ctx c e, (kOk, iov_len out - remaining), out)
  end.

(* Encrypt: chacha_poly_crypter_boringssl.cc 52-137. *)
Definition bssl_encrypt_q (P : prims) (c : crypter) (nonce : bytes)
  (aad pt : list iovec) (out : iovec) : EM (crypter * cstatus * iovec) :=
  if negb (lenN nonce =? cr_nonce_length c)
  then qret (c, (kInvalidArgument, 0), out) else
  match checked_len pt 0 with
  | None => qret (c, (kInvalidArgument, 0), out)
  | Some in_len =>
    if iov_len out <? wrap64 (cr_tag_length c + in_len)
    then qret (c, (kInvalidArgument, 0), out) else
    let in_vec := iov_concat pt in
    match collect_checked aad [] with
    | None => qret (c, (kInvalidArgument, 0), out)
    | Some aad_vec =>
      ok <~ library true ;;
      if negb ok then
        out' <~ quiet (lift (zero_out out)) ;; with_errors (c, (kInternal, 0), out')
      else
        let e := evp_add_aad (evp_init_nonce (cr_ctx c) nonce) aad_vec in
        let ctxt := evp_xor P (cr_alg c) e in_vec in
        let sealed := ctxt ++ evp_tag P (cr_alg c) (evp_add_ct e ctxt) in
        out' <~ quiet (lift (write_at out 0 sealed)) ;;
        qret (c, (kOk, lenN sealed), out')
    end
  end.

(* Decrypt: chacha_poly_crypter_boringssl.cc 139-234. *)
Definition bssl_decrypt_q (P : prims) (c : crypter) (nonce : bytes)
  (aad ct : list iovec) (out : iovec) : EM (crypter * cstatus * iovec) :=
  if negb (lenN nonce =? cr_nonce_length c)
  then qret (c, (kInvalidArgument, 0), out) else
  match checked_len ct 0 with
  | None => qret (c, (kInvalidArgument, 0), out)
  | Some in_len =>
    if in_len <? kAeadTagSize then qret (c, (kInvalidArgument, 0), out) else
    if iov_len out <? in_len - kAeadTagSize
    then qret (c, (kInvalidArgument, 0), out) else
    let in_vec := iov_concat ct in
    match collect_checked aad [] with
    | None => qret (c, (kInvalidArgument, 0), out)
    | Some aad_vec =>
      let n := lenN in_vec - kAeadTagSize in
      let ctxt := takeN n in_vec in
      let tag := dropN n in_vec in
      let e := evp_add_aad (evp_init_nonce (cr_ctx c) nonce) aad_vec in
      ok <~ library (bytes_eqb tag (evp_tag P (cr_alg c) (evp_add_ct e ctxt))) ;;
      if ok then
        out' <~ quiet (lift (write_at out 0 (evp_xor P (cr_alg c) e ctxt))) ;;
        qret (c, (kOk, n), out')
      else
        out' <~ quiet (lift (zero_out out)) ;; with_errors (c, (kInternal, 0), out')
    end
  end.

(* Virtual dispatch. *)
Definition aead_encrypt_q (P : prims) (c : crypter) :=
  match cr_impl c with
  | ChachaBoringSSLImpl => bssl_encrypt_q P c
  | _ => evp_encrypt_q P c
  end.
Definition aead_decrypt_q (P : prims) (c : crypter) :=
  match cr_impl c with
  | ChachaBoringSSLImpl => bssl_decrypt_q P c
  | _ => evp_decrypt_q P c
  end.

(* CreateAesGcmAeadCrypter: aes_gcm_crypter.cc 404-434. *)
Definition create_aes_gcm_q (key : bytes) : EM (code + crypter) :=
  let mk a :=
    ok <~ library true ;; (* EVP_DecryptInit_ex *)
    if negb ok then with_errors (inl kInternal) else
    ok <~ library true ;; (* SET_IVLEN *)
    if negb ok then with_errors (inl kInternal) else
    qret (inr {| cr_impl := AesGcmImpl; cr_alg := a; cr_key_length := lenN key;
                 cr_nonce_length := kAeadNonceSize;
                 cr_tag_length := kAeadTagSize; cr_ctx := fresh_ctx key |}) in
  if lenN key =? kAes128GcmKeySize then mk Aes128Gcm
  else if lenN key =? kAes256GcmKeySize then mk Aes256Gcm
  else qret (inl kFailedPrecondition).

(* CreateChachaPolyAeadCrypter: chacha_poly_crypter_openssl.cc 410-437 and
   chacha_poly_crypter_boringssl.cc 240-260. *)
Definition create_chacha_poly_q (lib : ssl_lib) (key : bytes) : EM (code + crypter) :=
  if negb (lenN key =? kChachaPolyKeySize) then qret (inl kInvalidArgument)
  else
    let mk i := {| cr_impl := i; cr_alg := ChachaPoly;
                   cr_key_length := lenN key;
                   cr_nonce_length := kAeadNonceSize;
                   cr_tag_length := kAeadTagSize; cr_ctx := fresh_ctx key |} in
    match lib with
    | OpenSSL =>
      ok <~ library true ;;
      if negb ok then with_errors (inl kInternal) else
      ok <~ library true ;;
      if negb ok then with_errors (inl kInternal) else
      qret (inr (mk ChachaOpenSSLImpl))
    | BoringSSL =>
      ok <~ library true ;;
      if negb ok then with_errors (inl kInternal) else
      qret (inr (mk ChachaBoringSSLImpl))
    end.

(* ------------------------------------------------------------------ *)
(* The key derivation, hkdf.cc: GetSSLErrors is not called. *)

(* hkdf.cc 40-45. *)
Definition hkdf_restart_q (c : hmac_ctx) (i : N) (buffer : bytes) : EM (option hmac_ctx) :=
  if negb (i =? 0) then
    ok <~ library true ;;
    if negb ok then qret None else
    ok <~ library true ;;
    if negb ok then qret None else
    qret (Some (hmac_update {| hm_key := hm_key c; hm_msg := [] |} buffer))
  else qret (Some c).

(* hkdf.cc 46-52. *)
Definition hkdf_block_q (P : prims) (h : hash_fn) (c : hmac_ctx) (info : bytes)
  (i : N) : EM (option (hmac_ctx * bytes)) :=
  ok <~ library true ;;
  if negb ok then qret None else
  ok <~ library true ;;
  if negb ok then qret None else
  ok <~ library true ;;
  if negb ok then qret None else
  let c := hmac_update (hmac_update c info) [(i + 1) mod 256] in
  qret (Some (c, p_hmac P h (hm_key c) (hm_msg c))).

(* hkdf.cc 38-59. *)
Fixpoint hkdf_loop_q (P : prims) (h : hash_fn) (c : hmac_ctx) (info : bytes)
  (i : N) (k : nat) (buffer : bytes) (done_ : N) (out : bytes) : EM (code * bytes) :=
  match k with
  | O => qret (kOk, out)
  | S k' =>
    r <~ hkdf_restart_q c i buffer ;;
    match r with
    | None => qret (kInternal, out)
    | Some c =>
      r <~ hkdf_block_q P h c info i ;;
      match r with
      | None => qret (kInternal, out)
      | Some (c, buffer) =>
        let todo := if lenN out <? done_ + digest_size h
                    then lenN out - done_ else digest_size h in
        let out := takeN done_ out ++ takeN todo buffer
                   ++ dropN (done_ + todo) out in
        hkdf_loop_q P h c info (i + 1) k' buffer (done_ + todo) out
      end
    end
  end.

(* HkdfDerivation: hkdf.cc 30-61. *)
Definition hkdf_derivation_q (P : prims) (h : hash_fn) (n : N)
  (prk : bytes -> bytes) (info out : bytes) : EM (code * bytes) :=
  ok <~ library true ;;
  if negb ok then qret (kInternal, out) else
  hkdf_loop_q P h {| hm_key := prk out; hm_msg := [] |} info 0 (N.to_nat n) [] 0 out.

(* HkdfDeriveSecret: hkdf.cc 63-108. *)
Definition hkdf_derive_secret_q (P : prims) (h : hash_fn)
  (prk : bytes -> bytes) (info out : bytes) : EM (code * bytes) :=
  let d := digest_size h in
  if lenN (prk out) <? d then qret (kInvalidArgument, out) else
  let n := sub64 (wrap64 (lenN out + d)) 1 / d in
  if (wrap64 (lenN out + d) <? lenN out) || (255 <? n)
  then qret (kInternal, out) else
  ok <~ library true ;;
  if negb ok then qret (kInternal, out) else
  hkdf_derivation_q P h n prk info out.

(* ------------------------------------------------------------------ *)
(* AdvanceSecret, DeriveSecret, DeriveKey, DeriveNonce:
   s2a_half_connection.cc 40-99. *)
Definition advance_secret_q (P : prims) (s : suite) (secret : bytes) : EM (code * bytes) :=
  let label := size_be16 (lenN secret) ++ upd_suffix in
  hkdf_derive_secret_q P (suite_hash s) (fun out => out) label secret.
Definition derive_secret_q (P : prims) (s : suite) (suffix secret output : bytes) : EM (code * bytes) :=
  let label := size_be16 (lenN output) ++ suffix in
  hkdf_derive_secret_q P (suite_hash s) (fun _ => secret) label output.
Definition derive_key_q (P : prims) (s : suite) (secret output : bytes) :=
  derive_secret_q P s key_suffix secret output.
Definition derive_nonce_q (P : prims) (s : suite) (secret output : bytes) :=
  derive_secret_q P s nonce_suffix secret output.

(* s2a_half_connection.cc 144-166 and 226-248. *)
Definition create_crypter_q (lib : ssl_lib) (s : suite) (key : bytes) : EM (code + crypter) :=
  match s with
  | AES_128_GCM_SHA256 | AES_256_GCM_SHA384 => create_aes_gcm_q key
  | CHACHA20_POLY1305_SHA256 => create_chacha_poly_q lib key
  end.

(* S2AHalfConnection::Create: s2a_half_connection.cc 102-169. *)
Definition half_create_q (P : prims) (lib : ssl_lib) (s : suite) (sequence : N)
  (secret : bytes) : EM (code + half) :=
  if negb (lenN secret =? suite_secret_size s)
  then qret (inl kInvalidArgument) else
  '(st, key) <~ derive_key_q P s secret (zeros (suite_key_size s)) ;;
  if negb (is_ok st) then qret (inl st) else
  '(st, nonce) <~ derive_nonce_q P s secret (zeros (suite_nonce_size s)) ;;
  if negb (is_ok st) then qret (inl st) else
  r <~ create_crypter_q lib s key ;;
  match r with
  | inl st => qret (inl st)
  | inr c =>
    qret (inr {| hc_suite := s; hc_key_size := suite_key_size s;
                 hc_seq := sequence; hc_overflowed := false;
                 hc_always_fail := false; hc_nonce := nonce;
                 hc_secret := secret; hc_aead := Some c;
                 hc_epoch := 0; hc_used := [] |})
  end.

(* Encrypt: s2a_half_connection.cc 171-184. *)
Definition half_encrypt_q (P : prims) (h : half) (aad pt : list iovec)
  (out : iovec) : EM (half * cstatus * iovec) :=
  match hc_aead h with
  | None => qret (h, (kInternal, 0), out)
  | Some c =>
    if hc_always_fail h || hc_overflowed h
    then qret (h, (kInternal, 0), out)
    else
      '(nonce, h) <~ quiet (lift (nonce_mask h)) ;;
      '(c, st, out) <~ aead_encrypt_q P c nonce aad pt out ;;
      qret (with_aead h c, st, out)
  end.

(* Decrypt: s2a_half_connection.cc 186-199. *)
Definition half_decrypt_q (P : prims) (h : half) (aad ct : list iovec)
  (out : iovec) : EM (half * cstatus * iovec) :=
  match hc_aead h with
  | None => qret (h, (kInternal, 0), out)
  | Some c =>
    if hc_always_fail h || hc_overflowed h
    then qret (h, (kInternal, 0), out)
    else
      '(nonce, h) <~ quiet (lift (nonce_mask h)) ;;
      '(c, st, out) <~ aead_decrypt_q P c nonce aad ct out ;;
      qret (with_aead h c, st, out)
  end.

(* UpdateKey: s2a_half_connection.cc 201-254. *)
Definition half_update_key_q (P : prims) (lib : ssl_lib) (h : half) : EM (half * code) :=
  '(st, secret) <~ advance_secret_q P (hc_suite h) (hc_secret h) ;;
  if negb (is_ok st)
  then qret (with_keys h secret (hc_nonce h) true, st) else
  '(st, key) <~ derive_key_q P (hc_suite h) secret (zeros (hc_key_size h)) ;;
  if negb (is_ok st)
  then qret (with_keys h secret (hc_nonce h) true, st) else
  '(st, nonce) <~ derive_nonce_q P (hc_suite h) secret (hc_nonce h) ;;
  if negb (is_ok st) then qret (with_keys h secret nonce true, st) else
  r <~ create_crypter_q lib (hc_suite h) key ;;
  match r with
  | inl st => qret (with_keys h secret nonce true, st)
  | inr c =>
    qret ({| hc_suite := hc_suite h; hc_key_size := hc_key_size h;
             hc_seq := 0; hc_overflowed := false;
             hc_always_fail := hc_always_fail h; hc_nonce := nonce;
             hc_secret := secret; hc_aead := Some c;
             hc_epoch := hc_epoch h + 1; hc_used := hc_used h |}, kOk)
  end.

(* ------------------------------------------------------------------ *)
(* What one thread does with any number of half connections. [TUse i op] is a
   call on the i-th half connection that was created. *)
Inductive top :=
| TCreate (s : suite) (sequence : N) (secret : bytes)
| TUse (i : nat) (op : hop).

(* What can be seen of one call: its status, the library's part of the text of
   this status, the errors that library calls raised during the call, and the
   error queue when the call has returned. *)
Record seen := {
  s_code : code;
  s_text : list entry;
  s_raised : list entry;
  s_queue : list entry
}.
Definition see (st : code) (e : errs) : seen :=
  {| s_code := st; s_text := e_text e; s_raised := e_raised e; s_queue := e_queue e |}.

(* hs[i] := h *)
Fixpoint put (hs : list half) (i : nat) (h : half) : list half :=
  match hs, i with
  | [], _ => []
  | _ :: hs', O => h :: hs'
  | h0 :: hs', S i' => h0 :: put hs' i' h
  end.

(* One method of one half connection, see [hstep] of HalfRun.v. *)
Definition hstep_q (P : prims) (lib : ssl_lib) (h : half) (op : hop) : EM (half * code) :=
  match op with
  | HEncrypt aad pt out =>
    '(h, (st, _), _) <~ half_encrypt_q P h aad pt (IoBuf out) ;; qret (h, st)
  | HDecrypt aad ct out =>
    '(h, (st, _), _) <~ half_decrypt_q P h aad ct (IoBuf out) ;; qret (h, st)
  | HUpdateKey => half_update_key_q P lib h
  end.

(* One call: [q] is the queue before it, [fs] its faults, [next] the errors of
   its failing library calls. *)
Definition tstep (P : prims) (lib : ssl_lib) (hs : list half) (q : list entry)
  (op : top) (fs : faults) (next : list (list entry)) : outcome (list half * seen) :=
  let e := {| e_queue := q; e_next := next; e_text := []; e_raised := [] |} in
  match op with
  | TCreate s sequence secret =>
    obind (half_create_q P lib s sequence secret e fs) (fun '((r, e), _) =>
    match r with
    | inl st => Done (hs, see st e)
    | inr h => Done (hs ++ [h], see kOk e)
    end)
  | TUse i op =>
    match nth_error hs i with
    | None => Undef UbNullDeref
    | Some h =>
      obind (hstep_q P lib h op e fs) (fun '((h, st, e), _) => Done (put hs i h, see st e))
    end
  end.

Fixpoint trun (P : prims) (lib : ssl_lib) (hs : list half) (q : list entry)
  (ops : list (top * faults * list (list entry))) : outcome (list half * list seen) :=
  match ops with
  | [] => Done (hs, [])
  | (op, fs, next) :: ops' =>
    obind (tstep P lib hs q op fs next) (fun '(hs, s) =>
    obind (trun P lib hs (s_queue s) ops') (fun '(hs, ss) => Done (hs, s :: ss)))
  end.

(* The calls that derive keys. *)
Definition derives_keys (op : top) : bool :=
  match op with
  | TCreate _ _ _ | TUse _ HUpdateKey => true
  | TUse _ _ => false
  end.
