(* The AEAD crypters: C10, C11, C12, C53, C54, C56, C57, C58. *)
From Coq Require Import List NArith Bool.
From Verif Require Import Base Aead SpecAead AeadRun AeadRunProofs AeadAnyProofs AeadTotalProofs AeadRefuted Toy ToyProofs AeadExamples.
Import ListNotations.
Local Open Scope N_scope.

(* C10. [k] is the factory function (AES-GCM or ChaCha-Poly), [lib] the SSL
   library, [c] a crypter after any history of calls. [carries vs d]: the
   iovecs vs (null empty ones allowed) hold the bytes d, each below 2^31. *)
Theorem C10_encrypt_is_seal : forall P lib k key c nonce aad pt a m buf,
  prims_ok P -> areach P lib k key c -> lenN nonce = 12 ->
  carries aad a -> carries pt m -> lenN m + 16 < two64 -> lenN m + 16 <= lenN buf ->
  exists c', astep P c (AEncrypt nonce aad pt (IoBuf buf)) [] =
    Done (c', {| ar_st := kOk; ar_n := lenN m + 16;
                 ar_out := IoBuf (seal P (kind_alg k key) key nonce a m ++ dropN (lenN m + 16) buf) |}).
Proof. exact C10_enc_lemma. Qed.
Print Assumptions C10_encrypt_is_seal.

Theorem C10_decrypt_inverts_encrypt : forall P lib k key c nonce aad ct a m buf,
  prims_ok P -> areach P lib k key c -> lenN nonce = 12 ->
  carries aad a -> carries ct (seal P (kind_alg k key) key nonce a m) ->
  lenN m + 16 < two64 -> lenN m <= lenN buf ->
  exists c', astep P c (ADecrypt nonce aad ct (IoBuf buf)) [] =
    Done (c', {| ar_st := kOk; ar_n := lenN m; ar_out := IoBuf (m ++ dropN (lenN m) buf) |}).
Proof. exact C10_dec_lemma. Qed.
Print Assumptions C10_decrypt_inverts_encrypt.

(* Every library and factory has a crypter with a history of a success, a
   failure and a decryption; inputs in several fragments, one null. *)
Example C10_case : forall lib k, exists c,
  prims_ok toy /\ areach toy lib k key32 c /\ lenN nonce12 = 12 /\
  carries aad_frags [1; 2; 3] /\ carries pt_frags [104; 101; 108; 108; 111] /\
  carries [IoBuf (takeN 2 (sealed_ex k)); IoNull 0; IoBuf (dropN 2 (sealed_ex k))]
    (seal toy (kind_alg k key32) key32 nonce12 [1; 2; 3] [104; 101; 108; 108; 111]).
Proof.
  intros lib k. destruct (used_exists lib k) as (c & rs & _ & R & _). exists c.
  exact (conj toy_ok (conj R (conj eq_refl (conj aad_carries (conj pt_carries (ct_carries k)))))).
Qed.

(* C11. Any fragments, null and huge ones included; only their total length
   must be a size_t. *)
Theorem C11_only_authentic_input_accepted : forall P lib k key c nonce aad ct buf fs c' r,
  prims_ok P -> areach P lib k key c -> sum_lens ct < two64 ->
  astep P c (ADecrypt nonce aad ct (IoBuf buf)) fs = Done (c', r) -> ar_st r = kOk ->
  lenN nonce = 12 /\ Forall iov_valid aad /\ Forall iov_valid ct /\
  exists m, iov_concat ct = seal P (kind_alg k key) key nonce (iov_concat aad) m /\
    ar_n r = lenN m /\ lenN m <= lenN buf /\ ar_out r = IoBuf (m ++ dropN (lenN m) buf).
Proof. exact C11_lemma. Qed.
Print Assumptions C11_only_authentic_input_accepted.

(* C12 holds for the BoringSSL ChaCha-Poly crypter, and for the streaming
   crypters when the buffer can hold the plaintext; for any fragments, null and
   huge ones included, and any library failures. Missing: streaming crypters
   with a buffer that is too small, where it is false. *)
Theorem C12_no_unauthenticated_plaintext_partial : forall P lib k key c nonce aad ct buf fs c' r,
  areach P lib k key c ->
  (k = KChachaPoly /\ lib = BoringSSL) \/ sum_lens ct <= lenN buf + 16 ->
  astep P c (ADecrypt nonce aad ct (IoBuf buf)) fs = Done (c', r) -> ar_st r <> kOk ->
  ar_n r = 0 /\ (ar_out r = IoBuf buf \/ ar_out r = IoBuf (zeros (lenN buf))).
Proof. exact C12_lemma. Qed.
Print Assumptions C12_no_unauthenticated_plaintext_partial.

(* Whatever the primitives: a forged ciphertext in two fragments and a buffer
   of one byte leave the decryption of its first byte in the buffer. *)
Theorem C12_leak_for_all_primitives : forall P lib k key c nonce x rest old,
  areach P lib k key c -> ~ (k = KChachaPoly /\ lib = BoringSSL) ->
  lenN nonce = 12 -> 17 <= lenN rest -> lenN rest < 2147483648 ->
  exists c', astep P c (ADecrypt nonce [] [IoBuf [x]; IoBuf rest] (IoBuf [old])) [] =
    Done (c', {| ar_st := kInvalidArgument; ar_n := 0;
                 ar_out := IoBuf (stream P (kind_alg k key) key nonce [x]) |}).
Proof. exact C12_refuted_lemma. Qed.
Print Assumptions C12_leak_for_all_primitives.

Theorem C12_no_unauthenticated_plaintext_refuted : exists P lib k key c nonce ct m buf c' r,
  prims_ok P /\ areach P lib k key c /\ lenN nonce = 12 /\
  carries ct (seal P (kind_alg k key) key nonce [] m) /\
  astep P c (ADecrypt nonce [] ct (IoBuf buf)) [] = Done (c', r) /\ ar_st r <> kOk /\
  buf = [0] /\ ar_out r = IoBuf (takeN 1 m) /\ takeN 1 m <> [0].
Proof. exact C12_refuted_exists. Qed.
Print Assumptions C12_no_unauthenticated_plaintext_refuted.

Example C12_case : exists c, areach toy OpenSSL KAesGcm key32 c /\
  ~ (KAesGcm = KChachaPoly /\ OpenSSL = BoringSSL) /\ lenN nonce12 = 12 /\
  17 <= lenN (repeat 200 20) /\ lenN (repeat 200 20) < 2147483648.
Proof.
  destruct (used_exists OpenSSL KAesGcm) as (c & rs & _ & R & _). exists c.
  split; [exact R|]. split; [intros [H _]; discriminate|]. split; [reflexivity|].
  split; vm_compute; congruence.
Qed.

(* C53. *)
Theorem C53_length_bounds_exact : forall P lib k key c, areach P lib k key c ->
  (forall n, n + 16 < two64 -> max_ciphertext_and_tag_length c n = n + 16 /\
     max_plaintext_length c (max_ciphertext_and_tag_length c n) = n) /\
  (forall n, 16 <= n -> n < two64 -> max_plaintext_length c n = n - 16 /\
     max_ciphertext_and_tag_length c (max_plaintext_length c n) = n).
Proof. exact C53_lemma. Qed.
Print Assumptions C53_length_bounds_exact.

Theorem C53_encrypt_writes_bound : forall P lib k key c nonce aad pt buf fs c' r,
  prims_ok P -> areach P lib k key c ->
  Forall small_iov aad -> Forall small_iov pt -> sum_lens pt + 16 < two64 ->
  astep P c (AEncrypt nonce aad pt (IoBuf buf)) fs = Done (c', r) ->
  (ar_st r = kOk -> ar_n r = max_ciphertext_and_tag_length c (sum_lens pt)) /\
  (ar_st r <> kOk -> ar_n r = 0).
Proof. exact C53_enc_lemma. Qed.
Print Assumptions C53_encrypt_writes_bound.

Theorem C53_decrypt_writes_bound : forall P lib k key c nonce aad ct buf fs c' r,
  prims_ok P -> areach P lib k key c -> sum_lens ct < two64 ->
  astep P c (ADecrypt nonce aad ct (IoBuf buf)) fs = Done (c', r) ->
  (ar_st r = kOk -> 16 <= sum_lens ct /\ ar_n r = max_plaintext_length c (sum_lens ct)) /\
  (ar_st r <> kOk -> ar_n r = 0).
Proof. exact C53_dec_lemma. Qed.
Print Assumptions C53_decrypt_writes_bound.

(* C54. [c0] any crypter, [c] the same crypter after the calls [ops]; whatever
   is called next is seen alike (results, buffers, undefined behaviour). *)
Theorem C54_calls_independent : forall P c0 ops c rs more,
  arun P c0 ops = Done (c, rs) -> seen (arun P c more) = seen (arun P c0 more).
Proof. exact C54_lemma. Qed.
Print Assumptions C54_calls_independent.

(* The history of [used]: success, failure, decryption. *)
Example C54_case : forall lib k, exists c rs,
  used lib k = Done (c, rs) /\ map ar_st rs = [kOk; kInvalidArgument; kOk].
Proof.
  intros lib k. destruct (used_exists lib k) as (c & rs & U & _ & S & _). exists c, rs. exact (conj U S).
Qed.

(* C56 below 2^31 bytes per iovec. Missing: larger iovecs, where it is false. *)
Theorem C56_no_truncation_partial : forall P lib k key c nonce aad pt buf fs c' r,
  prims_ok P -> areach P lib k key c ->
  Forall small_iov aad -> Forall small_iov pt -> sum_lens pt + 16 < two64 ->
  astep P c (AEncrypt nonce aad pt (IoBuf buf)) fs = Done (c', r) -> ar_st r = kOk ->
  ar_n r = sum_lens pt + 16 /\
  ar_out r = IoBuf (seal P (kind_alg k key) key nonce (iov_concat aad) (iov_concat pt)
                      ++ dropN (sum_lens pt + 16) buf) /\
  lenN (iov_concat pt) = sum_lens pt.
Proof. exact C56_lemma. Qed.
Print Assumptions C56_no_truncation_partial.

(* An iovec of 2^32 bytes: OK is returned and none of it is encrypted. *)
Theorem C56_truncation_for_all_primitives : forall P lib k key c nonce d buf,
  prims_ok P -> areach P lib k key c -> ~ (k = KChachaPoly /\ lib = BoringSSL) ->
  lenN nonce = 12 -> lenN d = 4294967296 -> lenN buf = lenN d + 16 ->
  exists c' out, astep P c (AEncrypt nonce [] [IoBuf d] (IoBuf buf)) [] =
    Done (c', {| ar_st := kOk; ar_n := 16; ar_out := out |}).
Proof. exact C56_refuted_lemma. Qed.
Print Assumptions C56_truncation_for_all_primitives.

Theorem C56_no_truncation_refuted : exists P lib k key c nonce pt buf c' n out,
  prims_ok P /\ areach P lib k key c /\ Forall iov_valid pt /\ sum_lens pt + 16 <= lenN buf /\
  sum_lens pt + 16 < two64 /\
  astep P c (AEncrypt nonce [] pt (IoBuf buf)) [] =
    Done (c', {| ar_st := kOk; ar_n := n; ar_out := out |}) /\
  n <> sum_lens pt + 16.
Proof. exact C56_refuted_exists. Qed.
Print Assumptions C56_no_truncation_refuted.

Example C56_case : exists c (d buf : bytes), areach toy OpenSSL KAesGcm key32 c /\
  lenN d = 4294967296 /\ lenN buf = lenN d + 16 /\ bytes_ok d.
Proof. exact C56_case_lemma. Qed.

(* C57. The factory functions accept exactly the supported key lengths. *)
Theorem C57_supported_keys_accepted : forall lib k key,
  supported_key k (lenN key) -> exists c, acreate lib k key [] = Done (inr c, []).
Proof. exact C57_accept_lemma. Qed.
Print Assumptions C57_supported_keys_accepted.

Theorem C57_other_keys_rejected : forall lib k key fs, ~ supported_key k (lenN key) ->
  acreate lib k key fs =
    Done (inl (match k with KAesGcm => kFailedPrecondition | KChachaPoly => kInvalidArgument end), fs).
Proof. exact C57_reject_lemma. Qed.
Print Assumptions C57_other_keys_rejected.

Theorem C57_library_failures_reported : forall lib k key fs, supported_key k (lenN key) ->
  exists r fs', acreate lib k key fs = Done (r, fs') /\ (r = inl kInternal \/ exists c, r = inr c).
Proof. exact C57_fault_lemma. Qed.
Print Assumptions C57_library_failures_reported.

(* KeyLength, NonceLength and TagLength, after any history of calls. *)
Theorem C57_getters : forall P lib k key c, areach P lib k key c ->
  supported_key k (lenN key) /\ lengths c = (lenN key, 12, 16).
Proof. exact C57_getters_lemma. Qed.
Print Assumptions C57_getters.

Example C57_case : supported_key KAesGcm (lenN (repeat 1 16)) /\ supported_key KChachaPoly (lenN key32) /\
  ~ supported_key KAesGcm (lenN (repeat 1 24)) /\ ~ supported_key KChachaPoly (lenN (repeat 1 16)) /\
  acreate OpenSSL KAesGcm key32 [false; true] = Done (inl kInternal, []).
Proof.
  cbn. split; [left; reflexivity|]. split; [reflexivity|].
  split; [intros [H|H]; discriminate|]. split; [discriminate|reflexivity].
Qed.

(* C58. Whatever the fragments, their number and sizes, and whichever library
   calls fail: the call returns, and if a fragment of non-zero length is null it
   fails; with kInvalidArgument if the library works and no fragment has 2^31
   bytes. Encrypt: all crypters. *)
Theorem C58_encrypt_no_undefined_behaviour : forall P lib k key c nonce aad pt buf fs,
  prims_ok P -> areach P lib k key c -> sum_lens pt + 16 < two64 ->
  exists c' r, astep P c (AEncrypt nonce aad pt (IoBuf buf)) fs = Done (c', r) /\
    (ar_st r <> kOk -> ar_n r = 0) /\
    (null_in aad \/ null_in pt -> ar_st r <> kOk /\
       (fs = [] -> Forall small_iov aad /\ Forall small_iov pt -> ar_st r = kInvalidArgument)).
Proof. exact C58_encrypt_lemma. Qed.
Print Assumptions C58_encrypt_no_undefined_behaviour.

(* Decrypt. Missing: streaming crypters with a null fragment in the tag, where
   it is false. *)
Theorem C58_decrypt_no_undefined_behaviour_partial : forall P lib k key c nonce aad ct buf fs,
  areach P lib k key c -> sum_lens ct < two64 ->
  (k = KChachaPoly /\ lib = BoringSSL) \/ ~ null_in_tag ct ->
  exists c' r, astep P c (ADecrypt nonce aad ct (IoBuf buf)) fs = Done (c', r) /\
    (ar_st r <> kOk -> ar_n r = 0) /\
    (null_in aad \/ null_in ct -> ar_st r <> kOk /\
       (fs = [] -> Forall small_iov aad /\ Forall small_iov ct -> ar_st r = kInvalidArgument)).
Proof. exact C58_decrypt_lemma. Qed.
Print Assumptions C58_decrypt_no_undefined_behaviour_partial.

(* Every streaming crypter dereferences a null tag fragment. *)
Theorem C58_null_tag_dereferenced : forall P lib k key c nonce buf,
  areach P lib k key c -> ~ (k = KChachaPoly /\ lib = BoringSSL) -> lenN nonce = 12 ->
  astep P c (ADecrypt nonce [] [IoNull 16] (IoBuf buf)) [] = Undef UbNullDeref.
Proof. exact C58_refuted_lemma. Qed.
Print Assumptions C58_null_tag_dereferenced.

Theorem C58_no_undefined_behaviour_refuted : exists P lib k key c nonce ct buf,
  prims_ok P /\ areach P lib k key c /\ lenN nonce = 12 /\ sum_lens ct = 16 /\
  astep P c (ADecrypt nonce [] ct (IoBuf buf)) [] = Undef UbNullDeref.
Proof. exact C58_refuted_exists. Qed.
Print Assumptions C58_no_undefined_behaviour_refuted.

(* A null fragment before the tag, and one in the plaintext. *)
Example C58_case : forall lib k, exists c, areach toy lib k key32 c /\
  null_in [IoBuf [1]; IoNull 3; IoBuf (repeat 7 16)] /\
  ~ null_in_tag [IoBuf [1]; IoNull 3; IoBuf (repeat 7 16)] /\
  null_in [IoNull 3; IoBuf [1]].
Proof. exact C58_case_lemma. Qed.
