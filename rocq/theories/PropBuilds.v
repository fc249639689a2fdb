(* OpenSSL and BoringSSL builds: C91. *)
From Coq Require Import List NArith Bool.
From Verif Require Import Base Aead SpecAead AeadRun Hkdf HalfConn SpecTls Options HsHandler Crypter SpecRecord SpecRx
  CrypterRun FrameProt SpecFrame FrameRun FrameRx FrameRef Toy ToyProofs RecordExamples FrameExamples AeadExamples BuildsFinal.
Import ListNotations.
Local Open Scope N_scope.

(* C91. As long as the library does not fail, a frame protector of one build
   answers every history as one of the other build: the same statuses, buffers
   and lengths, the same allocations and destructions, the same tickets for
   S2A, and the same calls with undefined behaviour. *)
Theorem C91_frame_protectors_alike : forall P lib1 lib2 al a ops rs f1,
  protector P lib1 al a ops rs f1 -> no_failures ops ->
  exists f2, protector P lib2 al a ops rs f2 /\ fp_events f2 = fp_events f1 /\
    cx_sent (fp_crypt f2) = cx_sent (fp_crypt f1) /\
    forall op u, fop_ok op -> (fstep P lib1 al f1 op [] = Undef u <-> fstep P lib2 al f2 op [] = Undef u).
Proof. exact C91frame. Qed.
Print Assumptions C91_frame_protectors_alike.
(* A malformed handshake message, data after it, a forged record, a null
   pointer to protect, data to protect. *)
Example C91_frame_protectors_alike_case : exists f rs,
  protector toy OpenSSL toy_al (fargs CHACHA20_POLY1305_SHA256) build_ops rs f /\ no_failures build_ops /\ length rs = 5%nat.
Proof. exact build_case. Qed.

(* Creation fails in one build iff it does in the other. *)
Theorem C91_creation_alike : forall P lib1 lib2 a c fs', prims_ok P ->
  ca_in_seq (fa_crypt a) < two64 -> ca_out_seq (fa_crypt a) < two64 ->
  fp_create P lib1 a [] = Done (inl c, fs') -> exists fs'', fp_create P lib2 a [] = Done (inl c, fs'').
Proof. exact C91create. Qed.
Print Assumptions C91_creation_alike.
Example C91_creation_alike_case : exists fs',
  fp_create toy OpenSSL {| fa_allocator := true; fa_destroy := false; fa_logger := true; fa_crypt := arg CHACHA20_POLY1305_SHA256 |} [] =
    Done (inl kInvalidArgument, fs').
Proof. eexists. reflexivity. Qed.

(* The same for crypters, whose key for sending can be updated. *)
Theorem C91_crypters_alike : forall P lib1 lib2 a ops rs x1, connection P lib1 a ops rs x1 -> no_faults ops ->
  exists x2, connection P lib2 a ops rs x2 /\ cx_sent x2 = cx_sent x1 /\
    forall op u, cop_ok op -> (cstep P lib1 x1 op [] = Undef u <-> cstep P lib2 x2 op [] = Undef u).
Proof. exact C91crypter. Qed.
Print Assumptions C91_crypters_alike.
(* A key update, a record sent, a forged record received. *)
Example C91_crypters_alike_case : exists x rs, connection toy OpenSSL (arg CHACHA20_POLY1305_SHA256)
    [(CUpdateKey, []); (CProtect HANDSHAKE [IoBuf [1]] (zeros 30), []); (CUnprotect (tls_header 17) [IoBuf (zeros 17)] (zeros 3), [])] rs x /\
  map (fun r => match r with CUpdated kOk | CProtected S_OK _ _ | CUnprotected S_INTERNAL_ERROR _ _ => true | _ => false end) rs = [true; true; true].
Proof. exact crypter_case. Qed.

(* With an AES-GCM suite there is no difference even if the library fails. *)
Theorem C91_aes_gcm_same : forall P lib1 lib2 al a ops rs f, ca_suite (fa_crypt a) <> CHACHA20_POLY1305_SHA256 ->
  protector P lib1 al a ops rs f -> protector P lib2 al a ops rs f /\
  forall op fs, fstep P lib1 al f op fs = fstep P lib2 al f op fs.
Proof. exact C91aes. Qed.
Print Assumptions C91_aes_gcm_same.
Example C91_aes_gcm_same_case : exists f b, protector toy OpenSSL toy_al (fargs AES_128_GCM_SHA256)
  [(FProtect [IoBuf [1]], [false; true]); (FProtect [IoBuf [7; 7]], [])] [FProtected kInternal []; FProtected kOk [b]] f.
Proof. exact aes_case. Qed.

(* AEAD crypters with the same key, after any histories, with fragments below
   2^31 bytes: the same status, and the same result on success. Missing: the
   contents of the buffer after a failure, and calls with undefined behaviour,
   where the builds differ. *)
Theorem C91_encrypt_alike : forall P lib1 lib2 k key c1 c2 nonce aad pt buf c1' c2' r1 r2, prims_ok P ->
  areach P lib1 k key c1 -> areach P lib2 k key c2 ->
  Forall small_iov aad -> Forall small_iov pt -> sum_lens pt + 16 < two64 ->
  astep P c1 (AEncrypt nonce aad pt (IoBuf buf)) [] = Done (c1', r1) ->
  astep P c2 (AEncrypt nonce aad pt (IoBuf buf)) [] = Done (c2', r2) ->
  ar_st r1 = ar_st r2 /\ ar_n r1 = ar_n r2 /\ (ar_st r1 = kOk -> ar_out r1 = ar_out r2).
Proof. exact C91enc. Qed.
Print Assumptions C91_encrypt_alike.
Theorem C91_decrypt_alike_partial : forall P lib1 lib2 k key c1 c2 nonce aad ct buf c1' c2' r1 r2, prims_ok P ->
  areach P lib1 k key c1 -> areach P lib2 k key c2 ->
  Forall small_iov aad -> Forall small_iov ct -> sum_lens ct < two64 ->
  astep P c1 (ADecrypt nonce aad ct (IoBuf buf)) [] = Done (c1', r1) ->
  astep P c2 (ADecrypt nonce aad ct (IoBuf buf)) [] = Done (c2', r2) ->
  ar_st r1 = ar_st r2 /\ (ar_st r1 = kOk -> ar_n r1 = ar_n r2 /\ ar_out r1 = ar_out r2).
Proof. exact C91dec. Qed.
Print Assumptions C91_decrypt_alike_partial.
Example C91_aead_case : exists c1 c2, areach toy OpenSSL KChachaPoly key32 c1 /\ areach toy BoringSSL KChachaPoly key32 c2 /\
  Forall small_iov [IoBuf [1]; IoNull 0; IoBuf [2; 3]].
Proof.
  destruct (used_exists OpenSSL KChachaPoly) as (c1 & rs1 & _ & A1 & _). destruct (used_exists BoringSSL KChachaPoly) as (c2 & rs2 & _ & A2 & _).
  exists c1, c2. split; [exact A1|]. split; [exact A2|]. repeat constructor.
Qed.

(* The ChaCha20-Poly1305 crypters leave different bytes in the buffer of the
   caller when it is too small for the plaintext. *)
Theorem C91_buffers_alike_refuted : exists P key c1 c2 nonce ct buf c1' c2' r1 r2, prims_ok P /\
  areach P OpenSSL KChachaPoly key c1 /\ areach P BoringSSL KChachaPoly key c2 /\ Forall iov_valid ct /\
  astep P c1 (ADecrypt nonce [] ct (IoBuf buf)) [] = Done (c1', r1) /\
  astep P c2 (ADecrypt nonce [] ct (IoBuf buf)) [] = Done (c2', r2) /\ ar_out r1 <> ar_out r2.
Proof. exact C91out. Qed.
Print Assumptions C91_buffers_alike_refuted.
(* A null fragment in the tag crashes one and is refused by the other. *)
Theorem C91_null_alike_refuted : exists P key c1 c2 nonce ct buf c2' r2, prims_ok P /\
  areach P OpenSSL KChachaPoly key c1 /\ areach P BoringSSL KChachaPoly key c2 /\
  astep P c1 (ADecrypt nonce [] ct (IoBuf buf)) [] = Undef UbNullDeref /\
  astep P c2 (ADecrypt nonce [] ct (IoBuf buf)) [] = Done (c2', r2) /\ ar_st r2 = kInvalidArgument.
Proof. exact C91null. Qed.
Print Assumptions C91_null_alike_refuted.
