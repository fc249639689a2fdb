(* Model of src/crypto/hkdf.cc and src/record_protocol/s2a_crypter_util.cc. *)
From Coq Require Import List NArith Bool.
From Verif Require Import Base Aead.
Import ListNotations.
Local Open Scope N_scope.

(* HMAC_CTX: the key given at initialisation and the message so far. *)
Record hmac_ctx := { hm_key : bytes; hm_msg : bytes }.

Definition hmac_update (c : hmac_ctx) (d : bytes) : hmac_ctx :=
  {| hm_key := hm_key c; hm_msg := hm_msg c ++ d |}.

(* Restarting the HMAC computation for every block but the first:
   hkdf.cc 40-45. None if a library call fails. *)
Definition hkdf_restart (c : hmac_ctx) (i : N) (buffer : bytes)
  : M (option hmac_ctx) :=
  if negb (i =? 0) then
    ok <- ssl ;; (* HMAC_Init_ex(hmac, null, ...): same key, empty message *)
    if negb ok then ret None else
    ok <- ssl ;; (* HMAC_Update(buffer) *)
    if negb ok then ret None else
    ret (Some (hmac_update {| hm_key := hm_key c; hm_msg := [] |} buffer))
  else ret (Some c).

(* The rest of one block: hkdf.cc 46-52. The counter is a uint8_t. Returns
   the context and the new contents of [buffer]. *)
Definition hkdf_block (P : prims) (h : hash_fn) (c : hmac_ctx) (info : bytes)
  (i : N) : M (option (hmac_ctx * bytes)) :=
  ok <- ssl ;; (* HMAC_Update(info) *)
  if negb ok then ret None else
  ok <- ssl ;; (* HMAC_Update(&ctr, 1) *)
  if negb ok then ret None else
  ok <- ssl ;; (* HMAC_Final *)
  if negb ok then ret None else
  let c := hmac_update (hmac_update c info) [(i + 1) mod 256] in
  ret (Some (c, p_hmac P h (hm_key c) (hm_msg c))).

(* The loop of HkdfDerivation: hkdf.cc 38-59, from block i, with n - i = k
   blocks to go. [buffer] is the scratch buffer, [out] the output vector,
   [done_] the number of bytes produced. *)
Fixpoint hkdf_loop (P : prims) (h : hash_fn) (c : hmac_ctx) (info : bytes)
  (i : N) (k : nat) (buffer : bytes) (done_ : N) (out : bytes)
  : M (code * bytes) :=
  match k with
  | O => ret (kOk, out)
  | S k' =>
    r <- hkdf_restart c i buffer ;;
    match r with
    | None => ret (kInternal, out)
    | Some c =>
      r <- hkdf_block P h c info i ;;
      match r with
      | None => ret (kInternal, out)
      | Some (c, buffer) =>
        let todo := if lenN out <? done_ + digest_size h
                    then lenN out - done_ else digest_size h in
        let out := takeN done_ out ++ takeN todo buffer
                   ++ dropN (done_ + todo) out in
        hkdf_loop P h c info (i + 1) k' buffer (done_ + todo) out
      end
    end
  end.

(* HkdfDerivation: hkdf.cc 30-61. [prk] gives the contents of the secret in
   terms of the current contents of [out]: a constant function if the two
   vectors are distinct objects, the identity if the caller passes the same
   vector twice (AdvanceSecret). *)
Definition hkdf_derivation (P : prims) (h : hash_fn) (n : N)
  (prk : bytes -> bytes) (info out : bytes) : M (code * bytes) :=
  ok <- ssl ;; (* HMAC_Init_ex(hmac, prk, ...) *)
  if negb ok then ret (kInternal, out) else
  hkdf_loop P h {| hm_key := prk out; hm_msg := [] |} info 0 (N.to_nat n)
    [] 0 out.

(* HkdfDeriveSecret: hkdf.cc 63-108. The default branch for unknown hash
   functions is not representable. *)
Definition hkdf_derive_secret (P : prims) (h : hash_fn)
  (prk : bytes -> bytes) (info out : bytes) : M (code * bytes) :=
  let d := digest_size h in
  if lenN (prk out) <? d then ret (kInvalidArgument, out) else
  let n := sub64 (wrap64 (lenN out + d)) 1 / d in
  if (wrap64 (lenN out + d) <? lenN out) || (255 <? n)
  then ret (kInternal, out) else
  ok <- ssl ;; (* HMAC_CTX_new *)
  if negb ok then ret (kInternal, out) else
  hkdf_derivation P h n prk info out.

(* S2AOptions::Ciphersuite: include/s2a_options.h. *)
Inductive suite := AES_128_GCM_SHA256 | AES_256_GCM_SHA384
                 | CHACHA20_POLY1305_SHA256.

(* CiphersuiteToHashFunction: s2a_crypter_util.cc 27-47. *)
Definition suite_hash (s : suite) : hash_fn :=
  match s with
  | AES_128_GCM_SHA256 => SHA256
  | AES_256_GCM_SHA384 => SHA384
  | CHACHA20_POLY1305_SHA256 => SHA256
  end.
